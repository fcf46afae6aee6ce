(** A matcher for the fragment, so that faithful engines exist; and facts about [matches]. *)
From Verif Require Import Base Text Regex.
Open Scope nat_scope.

Section Matcher.
  Variable fold : Z -> Z.
  Variable word : Z -> bool.
  Variable fl : flags.
  Notation matches := (matches fold word fl).
  Notation found := (found fold word fl).

  Lemma star_first r pre mid post : matches (Star r) pre mid post ->
    mid = [] \/ exists a b, mid = a ++ b /\ a <> [] /\ matches r pre a (b ++ post) /\ matches (Star r) (pre ++ a) b post.
  Proof.
    intros H. remember (Star r) as x eqn:E. revert E. induction H; intros E; try discriminate; auto.
    injection E as ->. destruct a as [|c a].
    - rewrite app_nil_r in *. cbn. auto.
    - right. exists (c :: a), b. repeat split; auto. discriminate.
  Qed.

  Definition sameb (c d : Z) : bool := if any_case fl then (fold c =? fold d)%Z else (c =? d)%Z.
  Lemma sameb_spec c d : sameb c d = true <-> same fold fl c d.
  Proof. unfold sameb, same. destruct (any_case fl); apply Z.eqb_eq. Qed.
  Definition at_start (pre : text) : bool :=
    match rev pre with [] => true | c :: _ => multi_line fl && (c =? 10)%Z end.
  Definition at_end (post : text) : bool :=
    match post with [] => true | c :: _ => multi_line fl && (c =? 10)%Z end.
  Lemma at_start_spec pre : at_start pre = true <-> (pre = [] \/ (multi_line fl = true /\ exists p, pre = p ++ [10%Z])).
  Proof.
    unfold at_start. destruct pre as [|c pre _] using rev_ind; [cbn; tauto|].
    rewrite rev_app_distr. cbn. rewrite andb_true_iff, Z.eqb_eq. split.
    - intros (H & ->). right. split; auto. exists pre. reflexivity.
    - intros [H|(H & p & E)]; [symmetry in H; apply app_cons_not_nil in H; tauto|]. apply app_inj_tail in E. tauto.
  Qed.
  Lemma at_end_spec post : at_end post = true <-> (post = [] \/ (multi_line fl = true /\ exists p, post = 10%Z :: p)).
  Proof.
    unfold at_end. destruct post as [|c post]; [tauto|]. rewrite andb_true_iff, Z.eqb_eq. split.
    - intros (H & ->). right. split; auto. exists post. reflexivity.
    - intros [H|(H & p & E)]; [discriminate|]. injection E as -> ->. auto.
  Qed.

  Fixpoint several (step : text -> text -> list (text * text)) (n : nat) (pre post : text) : list (text * text) :=
    ([], post) ::
    match n with
    | 0 => []
    | S n' => flat_map (fun x => match fst x with [] => [] | _ => map (fun y => (fst x ++ fst y, snd y)) (several step n' (pre ++ fst x) (snd x)) end) (step pre post)
    end.
  Definition single (b : bool) (d : Z) (t : text) : list (text * text) := if b then [([d], t)] else [].
  Fixpoint step (r : re) (pre post : text) : list (text * text) :=
    match r with
    | Eps => [([], post)]
    | Lit c => match post with d :: t => single (sameb c d) d t | [] => [] end
    | Any => match post with d :: t => single (negb (d =? 10)%Z) d t | [] => [] end
    | Class neg c => match post with d :: t => single (xorb neg (sameb c d)) d t | [] => [] end
    | Bol => if at_start pre then [([], post)] else []
    | Eol => if at_end post then [([], post)] else []
    | WordB => if Bool.eqb (word_before word pre) (word_after word post) then [] else [([], post)]
    | Cat r s => flat_map (fun x => map (fun y => (fst x ++ fst y, snd y)) (step s (pre ++ fst x) (snd x))) (step r pre post)
    | Alt r s => step r pre post ++ step s pre post
    | Star r => several (step r) (length post) pre post
    end.
  Lemma in_single b d t x : In x (single b d t) <-> b = true /\ x = ([d], t).
  Proof. destruct b; cbn; split; [intros [H|[]]; auto|intros (_ & ->); auto|tauto|intros (H & _); discriminate]. Qed.

  Lemma several_sound r : (forall pre post a t, In (a, t) (step r pre post) -> post = a ++ t /\ matches r pre a t) ->
    forall n pre post a t, In (a, t) (several (step r) n pre post) -> post = a ++ t /\ matches (Star r) pre a t.
  Proof.
    intros HS. induction n as [|n IH]; intros pre post a t.
    - intros [E|[]]. injection E as <- <-. split; [reflexivity|constructor].
    - intros [E|H]; [injection E as <- <-; split; [reflexivity|constructor]|].
      apply in_flat_map in H. destruct H as ((a1, t1) & H1 & H2). cbn [fst snd] in H2. destruct a1 as [|c a1]; [destruct H2|].
      apply in_map_iff in H2. destruct H2 as ((a2, t2) & E & H2). cbn [fst snd] in E. injection E as <- <-.
      apply HS in H1. apply IH in H2. destruct H1 as (-> & M1). destruct H2 as (-> & M2).
      split; [cbn; rewrite app_assoc; reflexivity|]. change (c :: a1 ++ a2) with ((c :: a1) ++ a2). constructor; auto.
  Qed.
  Lemma several_complete r : (forall pre a t, matches r pre a t -> In (a, t) (step r pre (a ++ t))) ->
    forall n pre a t, length a <= n -> matches (Star r) pre a t -> In (a, t) (several (step r) n pre (a ++ t)).
  Proof.
    intros HS. induction n as [|n IH]; intros pre a t L H.
    - destruct a; cbn in *; [auto|lia].
    - destruct (star_first _ _ _ _ H) as [->|(a1 & a2 & -> & N & M1 & M2)]; [left; reflexivity|]. right.
      apply in_flat_map. exists (a1, a2 ++ t). split; [rewrite <- app_assoc; apply HS; auto|]. cbn [fst snd].
      destruct a1 as [|c a1]; [congruence|]. apply in_map_iff. exists (a2, t). split; [reflexivity|].
      apply IH; auto. rewrite app_length in L. cbn in L. lia.
  Qed.
  Lemma step_spec r : (forall pre post a t, In (a, t) (step r pre post) -> post = a ++ t /\ matches r pre a t) /\
                      (forall pre a t, matches r pre a t -> In (a, t) (step r pre (a ++ t))).
  Proof.
    induction r as [|c| |neg c| | | |r (R1 & R2) s (S1 & S2)|r (R1 & R2) s (S1 & S2)|r (R1 & R2)]; split; intros pre.
    - intros post a t [E|[]]. injection E as <- <-. split; [reflexivity|constructor].
    - intros a t H. inversion H; subst. left. reflexivity.
    - intros [|d post] a t; cbn [step]; [intros []|]. rewrite in_single. intros (B & E). injection E as -> ->.
      split; [reflexivity|constructor]. apply sameb_spec; auto.
    - intros a t H. inversion H; subst. cbn [app step]. apply in_single. split; auto. apply sameb_spec; auto.
    - intros [|d post] a t; cbn [step]; [intros []|]. rewrite in_single. intros (B & E). injection E as -> ->.
      split; [reflexivity|constructor]. intros ->. discriminate.
    - intros a t H. inversion H; subst. cbn [app step]. apply in_single. split; auto.
      destruct (Z.eqb_spec d 10); [congruence|reflexivity].
    - intros [|d post] a t; cbn [step]; [intros []|]. rewrite in_single. intros (B & E). injection E as -> ->.
      split; [reflexivity|]. destruct neg; cbn in B; constructor; rewrite <- sameb_spec.
      + intros K. rewrite K in B. discriminate.
      + destruct (sameb c d); auto; discriminate.
    - intros a t H. inversion H; subst; cbn [app step]; apply in_single; (split; [|reflexivity]).
      + destruct (sameb c d) eqn:E; auto. match goal with K : same _ _ _ _ |- _ => apply sameb_spec in K; congruence end.
      + destruct (sameb c d) eqn:E; auto. match goal with K : ~ same _ _ _ _ |- _ => exfalso; apply K; apply sameb_spec; auto end.
    - intros post a t. cbn [step]. destruct (at_start pre) eqn:E; [|intros []]. intros [K|[]]. injection K as <- <-.
      split; [reflexivity|constructor]. apply at_start_spec; auto.
    - intros a t H. inversion H; subst. cbn [app step]. match goal with K : _ \/ _ |- _ => apply at_start_spec in K; rewrite K end. left; auto.
    - intros post a t. cbn [step]. destruct (at_end post) eqn:E; [|intros []]. intros [K|[]]. injection K as <- <-.
      split; [reflexivity|constructor]. apply at_end_spec; auto.
    - intros a t H. inversion H; subst. cbn [app step]. match goal with K : _ \/ _ |- _ => apply at_end_spec in K; rewrite K end. left; auto.
    - intros post a t. cbn [step]. destruct (Bool.eqb (word_before word pre) (word_after word post)) eqn:E; [intros []|]. intros [K|[]]. injection K as <- <-.
      split; [reflexivity|constructor]. apply eqb_false_iff; auto.
    - intros a t H. inversion H; subst. cbn [app step].
      match goal with K : word_before _ _ <> _ |- _ => apply eqb_false_iff in K; rewrite K end. left; auto.
    - intros post a t H. cbn [step] in H. apply in_flat_map in H. destruct H as ((a1, t1) & H1 & H2). cbn [fst snd] in H2.
      apply in_map_iff in H2. destruct H2 as ((a2, t2) & E & H2). cbn [fst snd] in E. injection E as <- <-.
      apply R1 in H1. apply S1 in H2. destruct H1 as (-> & M1). destruct H2 as (-> & M2).
      split; [rewrite app_assoc; reflexivity|constructor; auto].
    - intros a t H. inversion H; subst. cbn [step]. apply in_flat_map. eexists (_, _). split; [rewrite <- app_assoc; apply R2; eauto|].
      cbn [fst snd]. apply in_map_iff. eexists (_, _). split; [reflexivity|apply S2; auto].
    - intros post a t H. cbn [step] in H. apply in_app_or in H. destruct H as [H|H]; [apply R1 in H|apply S1 in H];
        destruct H as (-> & M); (split; [reflexivity|]); [apply m_left|apply m_right]; auto.
    - intros a t H. inversion H; subst; cbn [step]; apply in_or_app; [left; apply R2|right; apply S2]; auto.
    - intros post a t H. apply (several_sound r R1) in H. auto.
    - intros a t H. cbn [step]. apply (several_complete r R2); auto. rewrite app_length. lia.
  Qed.

  Fixpoint search_from (r : re) (pre post : text) : bool :=
    match step r pre post with _ :: _ => true | [] =>
      match post with [] => false | c :: t => search_from r (pre ++ [c]) t end end.
  Lemma search_from_spec r : forall post pre, search_from r pre post = true <-> exists x mid t, post = x ++ mid ++ t /\ matches r (pre ++ x) mid t.
  Proof.
    induction post as [|c post IH]; intros pre; cbn [search_from]; destruct (step r pre _) as [|(a, t) l] eqn:E.
    - split; [discriminate|]. intros (x & mid & t & E2 & M). symmetry in E2. apply app_eq_nil in E2. destruct E2 as (-> & E2).
      apply app_eq_nil in E2. destruct E2 as (-> & ->). rewrite app_nil_r in M. apply (proj2 (step_spec r)) in M.
      cbn [app] in M. rewrite E in M. destruct M.
    - split; auto. intros _. assert (M : In (a, t) (step r pre [])) by (rewrite E; left; auto).
      apply (proj1 (step_spec r)) in M. destruct M as (E2 & M). exists [], a, t. rewrite app_nil_r. auto.
    - rewrite IH. split.
      + intros (x & mid & t & -> & M). exists (c :: x), mid, t. split; [reflexivity|]. rewrite <- app_assoc in M. exact M.
      + intros (x & mid & t & E2 & M). destruct x as [|d x].
        * cbn [app] in E2. rewrite app_nil_r in M. apply (proj2 (step_spec r)) in M. rewrite <- E2, E in M. destruct M.
        * injection E2 as <- ->. exists x, mid, t. split; [reflexivity|]. rewrite <- app_assoc. exact M.
    - split; auto. intros _. assert (M : In (a, t) (step r pre (c :: post))) by (rewrite E; left; auto).
      apply (proj1 (step_spec r)) in M. destruct M as (E2 & M). exists [], a, t. rewrite app_nil_r. auto.
  Qed.
  Lemma search_spec r s : search_from r [] s = true <-> found r s.
  Proof. apply (search_from_spec r s []). Qed.
End Matcher.

(** An engine that accepts exactly the fragment. *)
Definition fragment_engine : engine := {|
  e_fold := to_lower1; e_word := fun c => a_alnum c || under c;
  compile := fun p => match parse p with Some (fl, r) => Some (search_from to_lower1 (fun c => a_alnum c || under c) fl r []) | None => None end |}.
Lemma fragment_faithful : faithful fragment_engine.
Proof.
  intros p fl r H. cbn [compile fragment_engine e_fold e_word]. rewrite H. eexists. split; [reflexivity|]. intros s. apply search_spec.
Qed.

(** * Facts about [matches] *)
Section Facts.
  Variable fold : Z -> Z.
  Variable word : Z -> bool.
  Variable fl : flags.
  Notation matches := (matches fold word fl).
  Notation found := (found fold word fl).

  Lemma cat_inv r s pre mid post : matches (Cat r s) pre mid post <->
    exists a b, mid = a ++ b /\ matches r pre a (b ++ post) /\ matches s (pre ++ a) b post.
  Proof.
    split.
    - intros H. inversion H; subst. eauto.
    - intros (a & b & -> & H1 & H2). constructor; auto.
  Qed.
  Lemma alt_inv r s pre mid post : matches (Alt r s) pre mid post <-> matches r pre mid post \/ matches s pre mid post.
  Proof.
    split.
    - intros H. inversion H; subst; auto.
    - intros [H|H]; [apply m_left|apply m_right]; auto.
  Qed.
  Lemma eps_inv pre mid post : matches Eps pre mid post <-> mid = [].
  Proof. split; [intros H; inversion H; auto|intros ->; constructor]. Qed.
  Lemma found_alt r s x : found (Alt r s) x <-> found r x \/ found s x.
  Proof.
    split.
    - intros (pre & mid & post & E & H). apply alt_inv in H. destruct H; [left|right]; exists pre, mid, post; auto.
    - intros [(pre & mid & post & E & H)|(pre & mid & post & E & H)]; exists pre, mid, post; (split; [exact E|]); apply alt_inv; auto.
  Qed.
  Lemma found_alternatives : forall alts q x, found (alternatives alts q) x <-> (exists r, In r alts /\ found r x) \/ found (sequence q) x.
  Proof.
    unfold alternatives. intros alts q. generalize (sequence q). induction alts as [|r alts IH]; intros s x; cbn [fold_left].
    - split; auto. intros [(r & [] & _)|H]; auto.
    - rewrite IH, found_alt. split.
      + intros [(r' & I & H)|[H|H]]; auto; left; eexists; split; try exact H; cbn; auto.
      + intros [(r' & [->|I] & H)|H]; auto. left. eauto.
  Qed.

  (** A pattern without anchors: the surroundings do not matter. *)
  Fixpoint blind (r : re) : bool :=
    match r with Bol | Eol | WordB => false | Cat r s | Alt r s => blind r && blind s | Star r => blind r | _ => true end.
  Lemma blind_any r pre mid post : matches r pre mid post -> blind r = true -> forall pre' post', matches r pre' mid post'.
  Proof.
    induction 1; cbn [blind]; intros B; try discriminate; intros pre' post'.
    - constructor.
    - constructor; auto.
    - constructor; auto.
    - constructor; auto.
    - constructor; auto.
    - apply andb_prop in B. apply m_cat; [apply IHmatches1|apply IHmatches2]; tauto.
    - apply andb_prop in B. apply m_left. apply IHmatches. tauto.
    - apply andb_prop in B. apply m_right. apply IHmatches. tauto.
    - apply m_done.
    - apply m_more; [apply IHmatches1|apply IHmatches2]; auto.
  Qed.
  (** Texts matched by a blind pattern. *)
  Definition lang (r : re) (mid : text) : Prop := matches r [] mid [].
  Lemma lang_any r pre mid post : blind r = true -> matches r pre mid post <-> lang r mid.
  Proof. intros B. split; intros H; eapply blind_any; eauto. Qed.

  Lemma sequence_app : forall q1 q2, sequence (q1 ++ q2) = fold_left (fun acc r => Cat r acc) q2 (sequence q1).
  Proof. intros. unfold sequence. apply fold_left_app. Qed.
  (** The sequence read backwards is a concatenation. *)
  Fixpoint chain (l : list re) (last : re) : re := match l with [] => last | r :: l' => Cat r (chain l' last) end.
  Lemma fold_chain : forall q e, fold_left (fun acc r => Cat r acc) q e = chain (rev q) e.
  Proof.
    assert (C : forall a b e, chain (a ++ b) e = chain a (chain b e)) by (induction a; intros; cbn; congruence).
    induction q as [|r q IH]; intros e; cbn [fold_left rev]; [reflexivity|]. rewrite IH, C. reflexivity.
  Qed.
  Lemma chain_app a b e : chain (a ++ b) e = chain a (chain b e).
  Proof. induction a; cbn; congruence. Qed.
  Lemma sequence_chain q : sequence q = chain (rev q) Eps.
  Proof. apply fold_chain. Qed.
  Lemma matches_chain : forall l e pre mid post, matches (chain l e) pre mid post <->
    exists a b, mid = a ++ b /\ matches (chain l Eps) pre a (b ++ post) /\ matches e (pre ++ a) b post.
  Proof.
    induction l as [|r l IH]; intros e pre mid post; cbn [chain].
    - split.
      + intros H. exists [], mid. rewrite app_nil_r. repeat split; auto. constructor.
      + intros (a & b & -> & H1 & H2). apply eps_inv in H1. subst a. rewrite app_nil_r in H2. exact H2.
    - rewrite cat_inv. split.
      + intros (a & b & -> & H1 & H2). apply IH in H2. destruct H2 as (b1 & b2 & -> & H2 & H3).
        exists (a ++ b1), b2. rewrite app_assoc. split; [reflexivity|]. split; [|rewrite app_assoc; exact H3].
        apply cat_inv. exists a, b1. split; [reflexivity|]. rewrite <- app_assoc in H1. auto.
      + intros (a & b & -> & H1 & H2). apply cat_inv in H1. destruct H1 as (a1 & a2 & -> & H1 & H3).
        exists a1, (a2 ++ b). split; [rewrite app_assoc; reflexivity|]. split; [rewrite <- app_assoc; exact H1|].
        apply IH. exists a2, b. split; [reflexivity|]. split; auto. rewrite app_assoc in H2. exact H2.
  Qed.
End Facts.
