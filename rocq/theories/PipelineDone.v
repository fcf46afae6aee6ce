(** The disk at any moment, and when the main thread has returned. *)
From Coq Require Import String.
From Verif Require Import Base Threads ThreadsSpec ThreadsProofs ThreadsEnd Pipeline PipelineSpec PipelineProofs PipelineMain.
Open Scope nat_scope.
Open Scope list_scope.
Set Default Proof Using "Type".

Lemma pre_firstn {A} (l l' : list A) : pre l l' -> l = firstn (length l) l'.
Proof. intros (r & ->). rewrite firstn_app, Nat.sub_diag, firstn_all. cbn. symmetry. apply app_nil_r. Qed.
Lemma pre_length {A} (l l' : list A) : pre l l' -> length l <= length l'.
Proof. intros (r & ->). rewrite app_length. lia. Qed.
Lemma F2_length {A B} (P : A -> B -> Prop) l m : Forall2 P l m -> length l = length m.
Proof. induction 1; cbn; congruence. Qed.
Lemma in_emits {M E} (on : list M -> list (action M E)) a h : In a (emits on h) -> exists h' m, In a (on (h' ++ [m])).
Proof.
  induction h as [|m h IH] using rev_ind; [intros []|]. rewrite emits_snoc. intro H. apply in_app_or in H. destruct H as [H|H]; [exact (IH H)|]. exists h, m. exact H.
Qed.

Section PIPE.
  Context {U K R V : Type}.
  Variable W : world U K R V.
  Variable raw : string -> R.
  Variable cs : list (list (sorted_unit U)).
  Hypothesis GM : good_model W raw.
  Notation msg := (msg U K R V).
  Notation effect := (effect U V).
  Notation act := (action msg effect).
  Notation chunk := (list (sorted_unit U)).
  Notation prog := (prog_of W cs).
  Notation emb := (embedding W raw).
  Variable s : @state msg effect.
  Hypothesis RE : reached parent cap prog threads s.
  Notation the_ok := (the_ok W cs s RE).
  Notation the_fine := (the_fine W cs s RE).

  Lemma metadata_now gs k : flat_map (is_send 5) (t_done (s 4)) = numbers k gs ->
    exists g, pre g gs /\ flat_map rows_of (dos (t_done (s 5))) = numbered k (concat g) /\ flat_map docs_of (dos (t_done (s 5))) = [] /\
      (t_todo (s 5) = [] -> t_last (s 5) = true -> g = gs).
  Proof using RE.
    intro S. assert (P : pre (t_hist (s 5)) (numbers k gs)) by (rewrite <- S; exact (got W cs s RE 5 ltac:(cbv; lia))).
    destruct (numbers_pre _ _ _ P) as (g1 & P1 & H1). pose proof (ok_all _ _ _ _ the_ok 5 ltac:(cbv; lia)) as A. unfold all_of in A. cbn [p_start p_end prog_of metadata_prog] in A. cbn [app] in A.
    assert (A' : t_done (s 5) ++ t_todo (s 5) = emits (p_on (metadata_prog W)) (numbers k g1)) by (rewrite A, H1; destruct (t_last (s 5)); apply app_nil_r).
    destruct (metadata_pre W k g1 _ _ A' (the_fine 5)) as (g & P2 & E1 & E2 & E3). exists g. split; [exact (pre_trans _ _ _ P2 P1)|]. split; [exact E1|]. split; [exact E2|].
    intros T L. rewrite (E3 T). destruct (ok_last _ _ _ _ the_ok 5 ltac:(cbv; lia) L) as (_ & Q). pose proof (ok_flow _ _ _ _ the_ok 5 ltac:(cbv; lia)) as FL. change (parent 5) with 4 in FL. rewrite Q, app_nil_r, S, H1 in FL.
    destruct P1 as (r & ->). rewrite numbers_app in FL. destruct r; [symmetry; apply app_nil_r|]. exfalso. apply (f_equal (@length _)) in FL. rewrite app_length in FL. cbn in FL. lia.
  Qed.
  Lemma coding_now (gs : list chunk) : flat_map (is_send 6) (t_done (s 4)) = map (fun g => MCoding (map emb g)) gs ->
    exists g, pre g gs /\ flat_map rows_of (dos (t_done (s 6))) = [] /\ (flat_map docs_of (dos (t_done (s 6))) = [] \/ flat_map docs_of (dos (t_done (s 6))) = map emb (concat g)) /\
      (t_todo (s 6) = [] -> t_last (s 6) = true -> flat_map docs_of (dos (t_done (s 6))) = map emb (concat gs)).
  Proof using RE.
    intro S. assert (F : Forall2 (fun g m => m = @MCoding U K R V (map emb g)) gs (flat_map (is_send 6) (t_done (s 4)))) by (rewrite S; clear; induction gs; cbn; constructor; auto).
    destruct (Forall2_pre _ _ _ _ F (got W cs s RE 6 ltac:(cbv; lia))) as (g & P & F1). exists g. split; [exact P|].
    assert (CI : flat_map codes_in (t_hist (s 6)) = map (map emb) g) by (clear - F1; induction F1 as [|c m g h RC F1 IH]; [reflexivity|]; cbn; rewrite RC, IH; reflexivity).
    assert (NE : forall h, dos (emits (p_on (coding_prog W)) h) = []).
    { intro h. induction h as [|m h IH] using rev_ind; [reflexivity|]. rewrite emits_snoc. unfold dos in *. rewrite flat_map_app, IH. cbn [coding_prog p_on]. rewrite latest_snoc. destruct m; try reflexivity. destruct (_ && _); reflexivity. }
    pose proof (ok_all _ _ _ _ the_ok 6 ltac:(cbv; lia)) as A. unfold all_of in A. cbn [p_start prog_of coding_prog] in A. cbn [app] in A. change (p_on (prog 6)) with (p_on (coding_prog W)) in A.
    set (tl := if t_last (s 6) then _ else _) in A.
    assert (TL : dos tl = [] \/ dos tl = [ECreate (map (map emb) g)]).
    { unfold tl. destruct (t_last (s 6)); [|left; reflexivity]. cbn [p_end prog_of coding_prog]. rewrite CI. destruct (t_hist (s 6)); [left; reflexivity|]. destruct (w_create W _); [right; reflexivity|left; reflexivity]. }
    assert (DO : dos (t_done (s 6)) ++ dos (t_todo (s 6)) = dos tl) by (unfold dos in *; rewrite <- flat_map_app, A, flat_map_app, NE; reflexivity).
    assert (CC : concat (map (map emb) g) = map emb (concat g)) by (symmetry; apply concat_map).
    assert (D1 : dos (t_done (s 6)) = [] \/ dos (t_done (s 6)) = [ECreate (map (map emb) g)]).
    { destruct TL as [Z|Z]; rewrite Z in DO; [apply app_eq_nil in DO; left; apply DO|]. destruct (dos (t_done (s 6))) as [|e d]; [left; reflexivity|]. right. cbn in DO. injection DO as -> DO. apply app_eq_nil in DO. destruct DO as (-> & _). reflexivity. }
    split; [destruct D1 as [-> | ->]; reflexivity|]. split.
    { destruct D1 as [-> | ->]; [left; reflexivity|]. right. cbn. rewrite app_nil_r. exact CC. }
    intros T L. destruct (ok_last _ _ _ _ the_ok 6 ltac:(cbv; lia) L) as (_ & Q). pose proof (ok_flow _ _ _ _ the_ok 6 ltac:(cbv; lia)) as FL. change (parent 6) with 4 in FL. rewrite Q, app_nil_r in FL.
    assert (gs = g).
    { rewrite FL in F. destruct P as (r & ->). apply F2_length in F. apply F2_length in F1. rewrite app_length in F. destruct r; [apply app_nil_r|cbn in F; lia]. }
    subst gs. pose proof (the_fine 6) as FN. rewrite T, app_nil_r in A. rewrite A in FN. apply fine_app in FN. destruct FN as (_ & FN). rewrite A. unfold dos in *. rewrite flat_map_app, NE. cbn [app].
    unfold tl in *. rewrite L in *. cbn [p_end prog_of coding_prog] in *. rewrite CI in *. destruct (t_hist (s 6)) as [|m h]; [inversion F1; subst; reflexivity|].
    destruct (w_create W (map (map emb) g)); [cbn; rewrite app_nil_r; exact CC|]. destruct (FN Fail (or_introl eq_refl)). congruence.
  Qed.

  Lemma moment : exists d r, pre d (concat cs) /\ pre r (concat cs) /\ documents s = map emb d /\ rows s = numbered (first_id W) r /\ (w_fresh W = false -> pre r d).
  Proof using RE GM.
    destruct (hist4 W raw cs GM s RE) as (l & PL & F). unfold documents, rows. rewrite !(effects_are W cs s RE), !flat_map_app. unfold first_id. destruct (w_fresh W) eqn:FR.
    - destruct (index_fresh W raw cs s RE l FR F) as (g1 & g2 & P1 & P2 & S6 & S5 & N4 & _). destruct (metadata_now _ _ S5) as (g & Pg & E1 & E2 & _). destruct (coding_now _ S6) as (g6 & P6 & R6 & D6 & _).
      rewrite N4, E1, E2, R6. cbn [flat_map app]. rewrite app_nil_r.
      assert (PC : forall x, pre x l -> pre (concat x) (concat cs)) by (intros x Hx; exact (pre_trans _ _ _ (pre_concat _ _ Hx) (pre_concat _ _ PL))).
      assert (PR : pre (concat g) (concat cs)) by (apply PC; exact (pre_trans _ _ _ Pg (pre_trans _ _ _ P1 P2))).
      destruct D6 as [-> | ->].
      + exists [], (concat g). split; [apply pre_nil|]. split; [exact PR|]. split; [reflexivity|]. split; [reflexivity|discriminate].
      + exists (concat g6), (concat g). split; [apply PC; exact (pre_trans _ _ _ P6 P2)|]. split; [exact PR|]. split; [reflexivity|]. split; [reflexivity|discriminate].
    - destruct (index_update W raw cs s RE l FR F) as (g1 & g2 & P1 & P2 & S6 & S5 & D4 & R4 & _). destruct (metadata_now _ _ S5) as (g & Pg & E1 & E2 & _). destruct (coding_now [] S6) as (g6 & P6 & R6 & D6 & _).
      assert (g6 = []) by (destruct P6 as (r & Z); symmetry in Z; apply app_eq_nil in Z; apply Z). subst g6.
      assert (D6' : flat_map docs_of (dos (t_done (s 6))) = []) by (destruct D6 as [-> | ->]; reflexivity).
      rewrite D4, R4, E1, E2, R6, D6'. cbn [app]. rewrite !app_nil_r. exists (concat g1), (concat g).
      assert (PD : pre (concat g1) (concat cs)) by exact (pre_trans _ _ _ P2 (pre_concat _ _ PL)). assert (PG : pre (concat g) (concat g1)) by exact (pre_concat _ _ (pre_trans _ _ _ Pg P1)).
      split; [exact PD|]. split; [exact (pre_trans _ _ _ PG PD)|]. auto.
  Qed.

  (** *** When the main thread has returned Ok *)
  Lemma feed_fine k l a : In a (@feed U K R V W k l) -> exists m, a = Send 1 m.
  Proof. revert k. induction l as [|c l IH]; intro k; cbn [feed]; [intros []|]. destruct (w_main W k); [intros []|]. intros [<-|H]; [eauto|exact (IH _ H)]. Qed.
  Lemma all0 : t_done (s 0) ++ t_todo (s 0) = @feed U K R V W 0 cs ++ [Close 1; Join 1; Join 2; Join 3; Join 4; Join 5; Stop].
  Proof using RE.
    pose proof (ok_all _ _ _ _ the_ok 0 ltac:(cbv; lia)) as A. rewrite A. unfold all_of. cbn [prog_of main_prog p_start p_end p_on].
    assert (Z : emits (fun _ : list msg => @nil act) (t_hist (s 0)) = []) by (unfold emits; induction (seq 1 (length (t_hist (s 0)))); auto). rewrite Z. destruct (t_last (s 0)); apply app_nil_r.
  Qed.
  Lemma main_done : t_status (s 0) = Done -> t_done (s 0) = @feed U K R V W 0 cs ++ [Close 1; Join 1; Join 2; Join 3; Join 4; Join 5].
  Proof using RE.
    intro D. pose proof all0 as A. pose proof (the_fine 0) as FN. set (ff := @feed U K R V W 0 cs) in *.
    assert (A2 : t_done (s 0) ++ t_todo (s 0) = (ff ++ [Close 1; Join 1; Join 2; Join 3; Join 4; Join 5]) ++ [Stop]) by (rewrite A, <- app_assoc; reflexivity).
    destruct (ok_done _ _ _ _ the_ok 0 ltac:(cbv; lia) D) as [(T & _)|(r & T)]; rewrite T in A2.
    - rewrite app_nil_r in A2. rewrite A2 in FN. destruct (FN Stop) as (Z & _); [apply in_or_app; right; left; reflexivity|congruence].
    - destruct (pre_split _ _ _ _ A2) as [(q & Q1 & Q2)|(q & N & Q1 & Q2)].
      + destruct q as [|a q]; [rewrite app_nil_r in Q1; symmetry; exact Q1|]. exfalso. cbn [app] in Q2. injection Q2 as <- Q2.
        assert (X : In Stop (ff ++ [Close 1; Join 1; Join 2; Join 3; Join 4; Join 5])) by (rewrite Q1; apply in_or_app; right; left; reflexivity).
        apply in_app_or in X. destruct X as [X|X]; [destruct (feed_fine _ _ _ X) as (m & Z); discriminate|]. cbn in X. intuition discriminate.
      + exfalso. destruct q as [|a q]; [congruence|]. cbn in Q2. injection Q2 as <- Q2. rewrite Q1 in FN. destruct (FN Stop) as (Z & _); [apply in_or_app; right; left; reflexivity|congruence].
  Qed.
  Lemma no_stop i : 0 < i < threads -> i <> 2 \/ uninterrupted W -> ~ In Stop (all_of prog i (s i)).
  Proof.
    intros I C H. unfold all_of in H. apply in_app_or in H. destruct H as [H|H]; [destruct i as [|[|[|[|[|[|i]]]]]]; [lia|destruct H..]|]. apply in_app_or in H. destruct H as [H|H].
    - apply in_emits in H. destruct H as (h & m & H). destruct i as [|[|[|[|[|[|i]]]]]]; [lia| | | | | |]; cbn [prog_of p_on tokenize_prog encode_prog pool_prog index_prog metadata_prog coding_prog] in H; rewrite latest_snoc in H; destruct m; try destruct H.
      + destruct (w_tok W uniq); destruct H as [H|[]]; discriminate.
      + destruct C as [C|(_ & C1 & C2)]; [congruence|]. rewrite C1 in H. destruct (w_enc W _ _) eqn:E; [|destruct (C2 _ _ E)|]; destruct H as [H|[]]; discriminate.
      + destruct (mapM _ _); destruct H as [H|[]]; discriminate.
      + destruct (w_fresh W); [destruct H as [H|[H|[]]]; discriminate|]. destruct (pending W _) as ((k & us) & es). destruct (_ <=? _); [|destruct H]. unfold flush in H. destruct (es ++ embs); [destruct H|]. destruct (w_append W k _); [destruct H as [H|[H|[]]]; discriminate|destruct H as [H|[]]; discriminate].
      + destruct (w_rows W _); [destruct H as [H|[]]; discriminate|destruct H as [H|[H|[]]]; discriminate].
      + destruct (_ && _); [destruct H|destruct H as [H|[]]; discriminate].
    - destruct (t_last (s i)); [|destruct H]. destruct i as [|[|[|[|[|[|i]]]]]]; [lia|destruct H|destruct H|destruct H| |destruct H|]; cbn [prog_of p_end index_prog coding_prog] in H.
      + destruct (w_fresh W); [destruct (t_hist (s 4)); [destruct H|destruct H as [H|[H|[]]]; discriminate]|]. destruct (pending W _) as ((k & us) & es). unfold flush in H. destruct es; [destruct H|]. destruct (w_append W k _); [destruct H as [H|[H|[]]]; discriminate|destruct H as [H|[]]; discriminate].
      + destruct (t_hist _); [destruct H|]. destruct (w_create W _); destruct H as [H|[]]; discriminate.
  Qed.
  Lemma ended i : 0 < i < threads -> i <> 2 \/ uninterrupted W -> t_status (s i) = Done -> t_todo (s i) = [] /\ t_last (s i) = true.
  Proof using RE.
    intros I C D. destruct (ok_done _ _ _ _ the_ok i ltac:(lia) D) as [H|(r & T)]; [exact H|]. exfalso. apply (no_stop i I C). rewrite <- (ok_all _ _ _ _ the_ok i ltac:(lia)), T. apply in_or_app. right. left. reflexivity.
  Qed.
  Lemma joined i t : In (Join t) (t_done (s i)) -> t_status (s t) = Done.
  Proof using RE. intro H. destruct (reached_ran _ _ _ _ (pipeline_disciplined W cs) s RE i _ H) as (_ & _ & Z). exact (Z t eq_refl). Qed.
  Lemma received_all c : 0 < c < threads -> t_last (s c) = true -> t_hist (s c) = flat_map (is_send c) (t_done (s (parent c))).
  Proof using RE. intros C L. destruct (ok_last _ _ _ _ the_ok c C L) as (_ & Q). pose proof (ok_flow _ _ _ _ the_ok c C) as F. rewrite Q, app_nil_r in F. symmetry. exact F. Qed.

  Lemma NE4 : 4 <> 2 \/ uninterrupted W.
  Proof. left. discriminate. Qed.
  Lemma NE5 : 5 <> 2 \/ uninterrupted W.
  Proof. left. discriminate. Qed.
  Lemma NE6 : 6 <> 2 \/ uninterrupted W.
  Proof. left. discriminate. Qed.
  Theorem returned : t_status (s 0) = Done ->
    exists d, pre d (concat cs) /\ documents s = map emb d /\ rows s = numbered (first_id W) d /\ (uninterrupted W -> d = concat cs).
  Proof using RE GM.
    intro D. pose proof (main_done D) as M. assert (DN : forall t, 1 <= t <= 5 -> t_status (s t) = Done).
    { intros t Ht. apply (joined 0). rewrite M. apply in_or_app. right. destruct t as [|[|[|[|[|[|t]]]]]]; try lia; cbn; auto 8. }
    assert (HL : exists l, pre l cs /\ Forall2 (rel4 W raw) l (t_hist (s 4)) /\ (uninterrupted W -> l = cs)).
    { destruct (hist4 W raw cs GM s RE) as (l & PL & F). exists l. split; [exact PL|]. split; [exact F|]. intro UN.
      assert (E : forall i, 1 <= i <= 5 -> t_todo (s i) = [] /\ t_last (s i) = true) by (intros i Hi; apply ended; [unfold threads; lia|right; exact UN|apply DN; exact Hi]).
      assert (H1 : Forall2 rel1 cs (t_hist (s 1))).
      { rewrite (received_all 1) by (try apply (E 1); unfold threads; lia). change (parent 1) with 0. rewrite M, flat_map_app. cbn. rewrite app_nil_r. destruct (feed_sends W 0 cs) as (l1 & _ & F1 & Z). rewrite (Z (proj1 UN)) in F1. exact F1. }
      destruct (one_stage W cs s RE 1 2 rel1 (rel2 W) ltac:(cbv; lia) ltac:(cbv; lia) eq_refl eq_refl (fun _ => eq_refl) (tokenize_on W) cs (conj (pre_refl _) H1)) as (_ & H2). specialize (H2 (proj1 (E 1 ltac:(lia)))).
      pose proof (received_all 2 ltac:(cbv; lia) (proj2 (E 2 ltac:(lia)))) as Q2. change (parent 2) with 1 in Q2. rewrite <- Q2 in H2.
      destruct (one_stage W cs s RE 2 3 (rel2 W) (rel3 raw) ltac:(cbv; lia) ltac:(cbv; lia) eq_refl eq_refl (fun _ => eq_refl) (encode_on W raw GM) cs (conj (pre_refl _) H2)) as (_ & H3). specialize (H3 (proj1 (E 2 ltac:(lia)))).
      pose proof (received_all 3 ltac:(cbv; lia) (proj2 (E 3 ltac:(lia)))) as Q3. change (parent 3) with 2 in Q3. rewrite <- Q3 in H3.
      destruct (one_stage W cs s RE 3 4 (rel3 raw) (rel4 W raw) ltac:(cbv; lia) ltac:(cbv; lia) eq_refl eq_refl (fun _ => eq_refl) (pool_on W raw) cs (conj (pre_refl _) H3)) as (_ & H4). specialize (H4 (proj1 (E 3 ltac:(lia)))).
      pose proof (received_all 4 ltac:(cbv; lia) (proj2 (E 4 ltac:(lia)))) as Q4. change (parent 4) with 3 in Q4. rewrite <- Q4 in H4.
      apply F2_length in F. apply F2_length in H4. destruct PL as (r & ->). rewrite app_length in H4. destruct r; [symmetry; apply app_nil_r|cbn in H4; lia]. }
    destruct HL as (l & PL & F & UN). pose proof (ended 4 ltac:(cbv; lia) NE4 (DN 4 ltac:(lia))) as E4. pose proof (ended 5 ltac:(cbv; lia) NE5 (DN 5 ltac:(lia))) as (E5 & E5').
    unfold documents, rows. rewrite !(effects_are W cs s RE), !flat_map_app. unfold first_id. destruct (w_fresh W) eqn:FR.
    - destruct (index_fresh W raw cs s RE l FR F) as (g1 & g2 & P1 & P2 & S6 & S5 & N4 & EN). destruct (EN E4) as (-> & -> & J6). destruct (metadata_now _ _ S5) as (g & Pg & E1 & E2 & EG). rewrite (EG E5 E5') in E1. destruct (coding_now _ S6) as (g6 & P6 & R6 & D6 & C6).
      assert (D6' : flat_map docs_of (dos (t_done (s 6))) = map emb (concat l)).
      { destruct l as [|c l]; [assert (g6 = []) by (destruct P6 as (r & Z); symmetry in Z; apply app_eq_nil in Z; apply Z); subst g6; destruct D6 as [-> | ->]; reflexivity|].
        destruct (ended 6 ltac:(cbv; lia) NE6 (joined 4 6 (J6 ltac:(discriminate)))) as (T6 & L6). exact (C6 T6 L6). }
      rewrite N4, E1, E2, R6, D6'. cbn [flat_map app]. rewrite app_nil_r. exists (concat l). split; [exact (pre_concat _ _ PL)|]. split; [reflexivity|]. split; [reflexivity|]. intro Z. rewrite (UN Z). reflexivity.
    - destruct (index_update W raw cs s RE l FR F) as (g1 & g2 & P1 & P2 & S6 & S5 & D4 & R4 & EN). destruct (EN E4) as (CG & ->). destruct (metadata_now _ _ S5) as (g & Pg & E1 & E2 & EG). rewrite (EG E5 E5') in E1. destruct (coding_now [] S6) as (g6 & P6 & R6 & D6 & _).
      assert (g6 = []) by (destruct P6 as (r & Z); symmetry in Z; apply app_eq_nil in Z; apply Z). subst g6.
      assert (D6' : flat_map docs_of (dos (t_done (s 6))) = []) by (destruct D6 as [-> | ->]; reflexivity).
      rewrite D4, R4, E1, E2, R6, D6', CG. cbn [app]. rewrite !app_nil_r. exists (concat l). split; [exact (pre_concat _ _ PL)|]. split; [reflexivity|]. split; [reflexivity|]. intro Z. rewrite (UN Z). reflexivity.
  Qed.
End PIPE.
