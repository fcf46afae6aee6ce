(** Proofs about installing and uninstalling: the section in AGENTS.md. *)
From Coq Require Import String.
From Verif Require Import Base Text SqlModel SqlValid MetaModel Install InstallSpec.
Open Scope nat_scope.
Open Scope list_scope.

(** *** Finding a marker *)
Lemma find_none p s : contains p s = false -> find_sub p s = None.
Proof.
  induction s as [|c s IH]; cbn [contains find_sub]; intro H; apply orb_false_iff in H; destruct H as (H1 & H2); rewrite H1; [reflexivity|]. rewrite IH by exact H2. reflexivity.
Qed.
Lemma find_contains p s n : find_sub p s = Some n -> contains p s = true.
Proof. intro H. destruct (contains p s) eqn:C; [reflexivity|]. rewrite (find_none p s C) in H. discriminate. Qed.
Lemma starts_here p s : starts_with p (p ++ s) = true.
Proof. apply starts_with_spec. exists s. reflexivity. Qed.
(** A text that does not hold [p], followed by one whose first character [p] has at most at its
    beginning: [p] is found in the second. *)
Lemma starts_across p a b : p <> [] -> ~ In (hd 0%Z b) (tl p) -> b <> [] -> a <> [] -> starts_with p (a ++ b) = true -> starts_with p a = true.
Proof.
  intros Np H Nb Na S. apply starts_with_spec in S. destruct S as (t & S). apply starts_with_spec.
  destruct (le_lt_dec (length p) (length a)) as [L|L].
  - exists (skipn (length p) a). apply (f_equal (firstn (length p))) in S. rewrite firstn_app in S. replace (length p - length a) with 0 in S by lia. cbn [firstn] in S. rewrite app_nil_r in S. rewrite firstn_app, Nat.sub_diag, firstn_all in S. cbn [firstn] in S. rewrite app_nil_r in S. rewrite <- S at 1. symmetry. apply firstn_skipn.
  - exfalso. apply H. destruct b as [|c b]; [congruence|]. cbn [hd]. apply (f_equal (fun l => nth (length a) l 0%Z)) in S. rewrite app_nth2, Nat.sub_diag in S by lia. cbn [nth] in S. rewrite app_nth1 in S by lia. rewrite S.
    destruct p as [|x p]; [congruence|]. destruct a as [|y a]; [congruence|]. cbn [length nth tl] in *. apply nth_In. lia.
Qed.
Lemma find_app p : p <> [] -> forall a b, contains p a = false -> b <> [] -> ~ In (hd 0%Z b) (tl p) -> find_sub p (a ++ b) = option_map (plus (length a)) (find_sub p b).
Proof.
  intros Np. induction a as [|c a IH]; intros b C Nb H.
  - cbn [app length]. destruct (find_sub p b); reflexivity.
  - cbn [contains] in C. apply orb_false_iff in C. destruct C as (C1 & C2). change ((c :: a) ++ b) with (c :: a ++ b). cbn [find_sub]. change (c :: a ++ b) with ((c :: a) ++ b).
    destruct (starts_with p ((c :: a) ++ b)) eqn:S. { apply starts_across in S; auto; [congruence|discriminate]. }
    rewrite (IH b C2 Nb H). destruct (find_sub p b); reflexivity.
Qed.
Lemma find_at_start p s : find_sub p (p ++ s) = Some 0.
Proof. destruct (p ++ s) eqn:Q; cbn [find_sub]; rewrite <- Q, starts_here; reflexivity. Qed.
Lemma contains_app_l p a b : contains p (a ++ b) = false -> contains p a = false.
Proof. intro H. destruct (contains p a) eqn:C; [|reflexivity]. apply contains_spec in C. destruct C as (x & y & ->). rewrite <- H. symmetry. apply contains_spec. exists x, (y ++ b). rewrite <- !app_assoc. reflexivity. Qed.
Lemma contains_app_r p a b : contains p (a ++ b) = false -> contains p b = false.
Proof. intro H. destruct (contains p b) eqn:C; [|reflexivity]. apply contains_spec in C. destruct C as (x & y & ->). rewrite <- H. symmetry. apply contains_spec. exists (a ++ x), y. rewrite <- !app_assoc. reflexivity. Qed.
Lemma contains_join p a b : p <> [] -> contains p a = false -> contains p b = false -> b <> [] -> ~ In (hd 0%Z b) (tl p) -> contains p (a ++ b) = false.
Proof.
  intros Np A B Nb H. destruct (contains p (a ++ b)) eqn:C; [|reflexivity]. exfalso. revert A C. induction a as [|c a IH]; intros A C; [cbn [app] in C; congruence|].
  cbn [contains] in A. apply orb_false_iff in A. destruct A as (A1 & A2). change ((c :: a) ++ b) with (c :: a ++ b) in C. cbn [contains] in C. apply orb_true_iff in C. destruct C as [C|C]; [|apply IH; assumption].
  change (c :: a ++ b) with ((c :: a) ++ b) in C. apply starts_across in C; auto; [congruence|discriminate].
Qed.

(** *** A file with a section *)
Lemma start_ne : marker_start <> []. Proof. discriminate. Qed.
Lemma end_ne : marker_end <> []. Proof. discriminate. Qed.
Ltac marker := vm_compute; intuition discriminate.
Lemma start_of pre rest : contains marker_start pre = false -> find_sub marker_start (pre ++ marker_start ++ rest) = Some (length pre).
Proof. intro H. rewrite find_app; [|exact start_ne|exact H|discriminate|marker]. rewrite find_at_start. cbn [option_map]. f_equal. lia. Qed.
Lemma end_in_section body rest : contains marker_end body = false -> find_sub marker_end (marker_start ++ body ++ marker_end ++ rest) = Some (length marker_start + length body).
Proof.
  intro H. destruct body as [|c body].
  - reflexivity.
  - change (marker_start ++ (c :: body) ++ marker_end ++ rest) with ((marker_start ++ (c :: body)) ++ marker_end ++ rest) || rewrite app_assoc.
    rewrite find_app; [|exact end_ne| |discriminate|marker].
    + rewrite find_at_start. cbn [option_map]. f_equal. rewrite app_length. lia.
    + clear rest. destruct (contains marker_end (marker_start ++ c :: body)) eqn:C; [|reflexivity]. exfalso.
      (* an occurrence would begin in the first marker, at its first character *)
      assert (K : forall s, contains marker_end s = false -> contains marker_end (marker_start ++ s) = false).
      { intros s Hs. unfold marker_start, marker_end in *. cbn -[contains starts_with] in *. repeat (cbn [contains]; apply orb_false_iff; split; [reflexivity|]). exact Hs. }
      rewrite (K _ H) in C. discriminate.
Qed.
Lemma end_of pre body rest : contains marker_end pre = false -> contains marker_end body = false ->
  find_sub marker_end (pre ++ marker_start ++ body ++ marker_end ++ rest) = Some (length pre + length marker_start + length body).
Proof.
  intros H1 H2. rewrite find_app; [|exact end_ne|exact H1|discriminate|marker]. rewrite end_in_section by exact H2. cbn [option_map]. f_equal. lia.
Qed.
Lemma cut_section pre body post :
  without_section (pre ++ marker_start ++ body ++ marker_end ++ post) (length pre) (length pre + length marker_start + length body) = pre ++ post.
Proof.
  unfold without_section. f_equal.
  - rewrite firstn_app, Nat.sub_diag, firstn_all. cbn [firstn]. apply app_nil_r.
  - replace (length pre + length marker_start + length body + length marker_end) with (length (pre ++ marker_start ++ body ++ marker_end) + 0) by (rewrite !app_length; lia).
    replace (pre ++ marker_start ++ body ++ marker_end ++ post) with ((pre ++ marker_start ++ body ++ marker_end) ++ post) by (rewrite <- !app_assoc; reflexivity).
    rewrite skipn_app, skipn_all2 by lia. replace (_ - _) with 0 by lia. reflexivity.
Qed.
Section AGENTS.
  Variables title skill : text.
  Variable ws : Z -> bool.
  Lemma add_over pre body post : unmarked pre -> contains marker_end body = false ->
    add_to_agents_md title skill (Some (pre ++ marker_start ++ body ++ marker_end ++ post)) = Some (pre ++ post ++ section skill).
  Proof.
    intros (P1 & P2) B. unfold add_to_agents_md. rewrite start_of by exact P1. rewrite end_of by assumption.
    replace (contains marker_start _) with true by (symmetry; apply contains_spec; exists pre, (body ++ marker_end ++ post); reflexivity). rewrite cut_section, <- app_assoc. reflexivity.
  Qed.
  Lemma add_plain s : unmarked s -> add_to_agents_md title skill (Some s) = Some (s ++ section skill).
  Proof. intros (S & _). unfold add_to_agents_md. rewrite S. reflexivity. Qed.
  Lemma remove_section pre body post : unmarked pre -> contains marker_end body = false ->
    remove_from_agents_md title ws (Some (pre ++ marker_start ++ body ++ marker_end ++ post)) = user_part title ws (Some (pre ++ post)).
  Proof. intros (P1 & P2) B. unfold remove_from_agents_md. rewrite start_of by exact P1. rewrite end_of by assumption. rewrite cut_section. reflexivity. Qed.
  Lemma remove_plain f : unmarked_file f -> remove_from_agents_md title ws f = f.
  Proof. destruct f as [s|]; [|reflexivity]. intros (S & _). unfold remove_from_agents_md. rewrite (find_none _ _ S). reflexivity. Qed.
End AGENTS.

(** *** Blank ends *)
Lemma trim_start_blank ws a : forall s, (forall c, In c a -> ws c = true) -> trim_start ws (a ++ s) = trim_start ws s.
Proof. induction a as [|c a IH]; intros s H; [reflexivity|]. cbn [app trim_start]. rewrite (H c) by (left; reflexivity). apply IH. intros d I. apply H. right. exact I. Qed.
Lemma trim_start_end ws s b : (forall c, In c b -> ws c = true) -> trim_start ws (s ++ b) = trim_start ws s ++ b \/ (trim_start ws s = [] /\ trim_start ws (s ++ b) = []).
Proof.
  intro H. induction s as [|c s IH].
  - right. split; [reflexivity|]. cbn [app]. rewrite <- (app_nil_r b), trim_start_blank by exact H. reflexivity.
  - cbn [app trim_start]. destruct (ws c); [exact IH|]. left. reflexivity.
Qed.
Lemma trim_end ws s b : (forall c, In c b -> ws c = true) -> trim ws (s ++ b) = trim ws s.
Proof.
  intro H. unfold trim. destruct (trim_start_end ws s b H) as [E|(E1 & E2)].
  - rewrite E, rev_app_distr. rewrite trim_start_blank; [reflexivity|]. intros c I. apply H. apply in_rev. exact I.
  - rewrite E1, E2. reflexivity.
Qed.
Lemma trim_start_idem ws s : trim_start ws (trim_start ws s) = trim_start ws s.
Proof. induction s as [|c s IH]; [reflexivity|]. cbn [trim_start]. destruct (ws c) eqn:C; [exact IH|]. cbn [trim_start]. rewrite C. reflexivity. Qed.
Lemma trim_twice ws s : trim ws (trim ws s) = trim ws s.
Proof.
  destruct (trim_split ws s) as (a & b & E & H). rewrite E at 2. rewrite app_assoc, trim_end by (intros c I; apply H; right; exact I). unfold trim at 1 3. rewrite trim_start_blank by (intros c I; apply H; left; exact I). reflexivity.
Qed.

(** *** Histories *)
Section HISTORY.
  Variables title skill : text.
  Variable ws : Z -> bool.
  Hypothesis GT : good_texts title skill ws.
  Notation part := (user_part title ws).
  Lemma unmarked_line s : unmarked s -> unmarked (s ++ newline).
  Proof. intros (A & B). split; (apply contains_join; [discriminate|assumption|reflexivity|discriminate|marker]). Qed.
  Lemma unmarked_trim s : unmarked s -> unmarked (trim ws s).
  Proof.
    intros (A & B). destruct (trim_split ws s) as (a & b & E & _). rewrite E in A, B. split; [apply contains_app_r in A; apply contains_app_l in A; exact A|apply contains_app_r in B; apply contains_app_l in B; exact B].
  Qed.
  Lemma part_line s : part (Some (s ++ newline)) = part (Some s).
  Proof using GT. cbn [user_part]. rewrite trim_end; [reflexivity|]. intros c [<-|[]]. exact (gt_ws _ _ _ GT). Qed.
  Lemma part_part f : part (part f) = part f.
  Proof using GT.
    destruct f as [s|]; [|reflexivity]. cbn [user_part]. destruct (text_eqb (trim ws s) [] || text_eqb (trim ws s) title) eqn:Q; [reflexivity|]. rewrite part_line. cbn [user_part]. rewrite trim_twice, Q. reflexivity.
  Qed.
  Lemma part_unmarked f : unmarked_file f -> unmarked_file (part f).
  Proof.
    destruct f as [s|]; [|exact (fun x => x)]. intro U. cbn [user_part]. destruct (_ || _); [exact I|]. apply unmarked_line, unmarked_trim. exact U.
  Qed.
  Lemma title_part : part (Some (title ++ newline ++ newline)) = None.
  Proof using GT.
    rewrite app_assoc, !part_line. cbn [user_part]. destruct (gt_title _ _ _ GT) as (_ & T). rewrite T, (text_eqb_refl title), orb_true_r. reflexivity.
  Qed.
  Definition installed (f g : option text) : Prop := exists b, unmarked b /\ g = Some (b ++ section skill) /\ part (Some b) = part f.
  Lemma body_ok : contains marker_end (newline ++ skill ++ newline) = false.
  Proof using GT.
    destruct (gt_skill _ _ _ GT) as (_ & B). change (newline ++ skill ++ newline) with ([10%Z] ++ (skill ++ newline)). cbn [app contains].
    rewrite orb_false_iff. split; [reflexivity|]. apply contains_join; [discriminate|exact B|reflexivity|discriminate|marker].
  Qed.
  Lemma section_shape b : b ++ section skill = b ++ marker_start ++ (newline ++ skill ++ newline) ++ marker_end ++ newline.
  Proof. unfold section. rewrite <- !app_assoc. reflexivity. Qed.
  Lemma install_clean f g : unmarked_file g -> part g = part f -> installed f (add_to_agents_md title skill g).
  Proof using GT.
    intros U P. destruct g as [s|].
    - rewrite add_plain by exact U. exists s. auto.
    - exists (title ++ newline ++ newline). destruct (gt_title _ _ _ GT) as (T & _). assert (UT : unmarked (title ++ newline ++ newline)) by (rewrite app_assoc; apply unmarked_line, unmarked_line; exact T).
      split; [exact UT|]. split; cycle 1. { rewrite <- P. exact title_part. } pose proof (add_plain title skill _ UT) as A. unfold add_to_agents_md in *. exact A.
  Qed.
  Lemma install_again f g : installed f g -> installed f (add_to_agents_md title skill g).
  Proof using GT.
    intros (b & U & -> & P). rewrite section_shape, add_over by (exact U || exact body_ok). exists (b ++ newline). split; [apply unmarked_line; exact U|]. split; [rewrite <- app_assoc; reflexivity|]. rewrite part_line. exact P.
  Qed.
  Lemma uninstall_ok f g : installed f g -> remove_from_agents_md title ws g = part f.
  Proof using GT. intros (b & U & -> & P). rewrite section_shape, remove_section by (exact U || exact body_ok). rewrite part_line. exact P. Qed.
  Lemma history_app f l c : history title skill ws f (l ++ [c]) = apply title skill ws (history title skill ws f l) c.
  Proof. unfold history. rewrite fold_left_app. reflexivity. Qed.
  Lemma states f l : unmarked_file f -> let g := history title skill ws f l in (~ In Install l /\ g = f) \/ (In Install l /\ (g = part f \/ installed f g)).
  Proof using GT.
    intros U. induction l as [|c l IH] using rev_ind; [left; split; [intros []|reflexivity]|]. cbv zeta in *. rewrite history_app. set (g := history title skill ws f l) in *. clearbody g.
    destruct c; cbn [apply].
    - right. split; [apply in_or_app; right; left; reflexivity|]. right. destruct IH as [(_ & ->)|(_ & [->|J])].
      + apply install_clean; [exact U|reflexivity].
      + apply install_clean; [apply part_unmarked; exact U|apply part_part].
      + apply install_again. exact J.
    - destruct IH as [(N & ->)|(N & [->|J])].
      + left. split; [intro K; apply in_app_or in K; destruct K as [K|[K|[]]]; [exact (N K)|discriminate]|]. apply remove_plain. exact U.
      + right. split; [apply in_or_app; left; exact N|]. left. apply remove_plain. apply part_unmarked. exact U.
      + right. split; [apply in_or_app; left; exact N|]. left. apply uninstall_ok. exact J.
  Qed.
End HISTORY.
