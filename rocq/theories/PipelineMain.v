(** The disk at any moment, and when the main thread has returned. *)
From Coq Require Import String.
From Verif Require Import Base Threads ThreadsSpec ThreadsProofs ThreadsEnd Pipeline PipelineSpec PipelineProofs.
Open Scope nat_scope.
Open Scope list_scope.
Set Default Proof Using "Type".

Definition pre {A} (l l' : list A) : Prop := exists r, l' = l ++ r.
Lemma pre_refl {A} (l : list A) : pre l l.
Proof. exists []. symmetry. apply app_nil_r. Qed.
Lemma pre_trans {A} (a b c : list A) : pre a b -> pre b c -> pre a c.
Proof. intros (r & ->) (q & ->). exists (r ++ q). symmetry. apply app_assoc. Qed.
Lemma pre_nil {A} (l : list A) : pre [] l.
Proof. exists l. reflexivity. Qed.
Lemma pre_concat {A} (l l' : list (list A)) : pre l l' -> pre (concat l) (concat l').
Proof. intros (r & ->). exists (concat r). apply concat_app. Qed.
Lemma Forall2_pre {A B} (P : A -> B -> Prop) l m m1 : Forall2 P l m -> pre m1 m -> exists l1, pre l1 l /\ Forall2 P l1 m1.
Proof. intros F (r & ->). apply Forall2_app_inv_r in F. destruct F as (l1 & l2 & F1 & F2 & ->). exists l1. split; [exists l2; reflexivity|exact F1]. Qed.
Lemma pre_split {A} (x y a b : list A) : x ++ y = a ++ b -> (exists r, a = x ++ r /\ y = r ++ b) \/ exists r, r <> [] /\ x = a ++ r /\ b = r ++ y.
Proof.
  revert a. induction x as [|h x IH]; intros a H; [left; exists a; split; [reflexivity|exact H]|]. destruct a as [|h' a]; cbn in H.
  - right. exists (h :: x). split; [discriminate|]. split; [reflexivity|]. symmetry. exact H.
  - injection H as -> H. destruct (IH a H) as [(r & -> & ->)|(r & N & -> & ->)]; [left; exists r; auto|right; exists r; auto].
Qed.

(** *** Texts are encoded once each and spread again *)
Definition known (m : list (string * nat)) (uniq : list string) : Prop := forall t k, seen t m = Some k -> nth_error uniq k = Some t.
Lemma dedup_spec {U} (items : list (sorted_unit U)) : forall m uniq back uniq' back', known m uniq -> dedup m uniq back items = (uniq', back') ->
  exists ext bk, uniq' = uniq ++ ext /\ back' = back ++ bk /\ Forall2 (fun it k => nth_error uniq' k = Some (su_text it)) items bk.
Proof.
  induction items as [|it items IH]; intros m uniq back uniq' back' KN H; cbn [dedup] in H.
  - injection H as <- <-. exists [], []. rewrite !app_nil_r. auto.
  - destruct (seen (su_text it) m) as [k|] eqn:S.
    + destruct (IH _ _ _ _ _ KN H) as (ext & bk & E1 & E2 & F). exists ext, (k :: bk). split; [exact E1|]. rewrite <- app_assoc in E2. split; [exact E2|]. constructor; [|exact F].
      rewrite E1, nth_error_app1; [apply KN; exact S|]. apply nth_error_Some. rewrite (KN _ _ S). discriminate.
    + assert (KN' : known ((su_text it, length uniq) :: m) (uniq ++ [su_text it])).
      { intros t k. cbn [seen]. destruct (String.eqb t (su_text it)) eqn:Q.
        - apply String.eqb_eq in Q. intro Z. injection Z as <-. rewrite nth_error_app2, Nat.sub_diag by lia. cbn. congruence.
        - intro Z. rewrite nth_error_app1; [apply KN; exact Z|]. apply nth_error_Some. rewrite (KN _ _ Z). discriminate. }
      destruct (IH _ _ _ _ _ KN' H) as (ext & bk & E1 & E2 & F). exists (su_text it :: ext), (length uniq :: bk). rewrite <- app_assoc in E1, E2. split; [exact E1|]. split; [exact E2|]. constructor; [|exact F].
      rewrite E1, nth_error_app2, Nat.sub_diag by lia. reflexivity.
Qed.
Lemma spread {U R V} (f : R -> V) (raw : string -> R) (c : list (sorted_unit U)) uniq back : dedup [] [] [] c = (uniq, back) ->
  mapM (idx (map f (map raw uniq))) back = Ok (map (fun u => f (raw (su_text u))) c).
Proof.
  intro H. destruct (dedup_spec c [] [] [] _ _ ltac:(intros t k Q; discriminate Q) H) as (ext & bk & E1 & E2 & F). cbn [app] in E1, E2. subst ext bk. clear H.
  induction F as [|it k c bk N F IH]; [reflexivity|]. cbn [mapM map]. unfold idx at 1. rewrite !nth_error_map, N. cbn [option_map bind]. rewrite IH. reflexivity.
Qed.

Section PIPE.
  Context {U K R V : Type}.
  Variable W : world U K R V.
  Variable raw : string -> R.
  Variable cs : list (list (sorted_unit U)).
  Hypothesis GM : good_model W raw.
  Notation msg := (msg U K R V).
  Notation effect := (effect U V).
  Notation act := (action msg effect).
  Notation chunk := (list (sorted_unit U)).
  Notation prog := (prog_of W cs).
  Notation emb := (embedding W raw).
  Definition fine (l : list act) : Prop := forall a, In a l -> a <> Stop /\ a <> Fail.
  Lemma fine_app a b : fine (a ++ b) -> fine a /\ fine b.
  Proof. intro H. split; intros x X; apply H; apply in_or_app; auto. Qed.

  (** A stage that answers each message with one message. *)
  Lemma stage_pre (rel rel' : chunk -> msg -> Prop) on d :
    (forall h c m, rel c m -> (exists m', on (h ++ [m]) = [Send d m'] /\ rel' c m') \/ on (h ++ [m]) = [Fail] \/ on (h ++ [m]) = [Stop]) ->
    forall hist l, Forall2 rel l hist -> forall done todo : list act, done ++ todo = emits on hist -> fine done ->
      exists l1, pre l1 l /\ Forall2 rel' l1 (flat_map (is_send d) done) /\ (todo = [] -> l1 = l).
  Proof.
    intros ON hist. induction hist as [|m hist IH] using rev_ind; intros l F done todo E FN.
    - inversion F; subst. destruct done; [|discriminate]. exists []. split; [apply pre_refl|]. split; [constructor|reflexivity].
    - apply Forall2_app_inv_r in F. destruct F as (l1 & l2 & F1 & F2 & ->). inversion F2 as [|c ? l3 ? RC F3]; subst. inversion F3; subst. rewrite emits_snoc in E.
      destruct (pre_split _ _ _ _ E) as [(r & Q1 & ->)|(r & N & -> & Q2)].
      + destruct (IH l1 F1 done r (eq_sym Q1) FN) as (p & P1 & P2 & P3). destruct (ON hist c m RC) as [(m' & OE & _)|[OE|OE]]; exists p; (split; [exact (pre_trans _ _ _ P1 (ex_intro _ [c] eq_refl))|]; split; [exact P2|]); rewrite OE; intro Z; destruct r; discriminate.
      + apply fine_app in FN. destruct FN as (FN1 & FN2). destruct (IH l1 F1 (emits on hist) [] (app_nil_r _) FN1) as (p & P1 & P2 & P3). specialize (P3 eq_refl). subst p.
        destruct (ON hist c m RC) as [(m' & OE & RC')|[OE|OE]]; rewrite OE in Q2; destruct r as [|a r]; try congruence; injection Q2 as <- Q2.
        * destruct r; [|discriminate]. cbn in Q2. subst todo. exists (l1 ++ [c]). split; [apply pre_refl|]. split; [|reflexivity]. rewrite flat_map_app. apply Forall2_app; [exact P2|]. cbn. rewrite Nat.eqb_refl. repeat constructor. exact RC'.
        * destruct (FN2 Fail (or_introl eq_refl)) as (_ & Z). congruence.
        * destruct (FN2 Stop (or_introl eq_refl)) as (Z & _). congruence.
  Qed.
  (** *** What is sent for a chunk *)
  Definition rel1 (c : chunk) (m : msg) : Prop := exists uniq back, dedup [] [] [] c = (uniq, back) /\ m = MPrepared (map su_unit c) uniq back.
  Definition rel2 (c : chunk) (m : msg) : Prop := exists uniq back b, dedup [] [] [] c = (uniq, back) /\ w_tok W uniq = Ok b /\ m = MTokenized (map su_unit c) b back.
  Definition rel3 (c : chunk) (m : msg) : Prop := exists uniq back, dedup [] [] [] c = (uniq, back) /\ m = MRaw (map su_unit c) (map raw uniq) back.
  Definition rel4 (c : chunk) (m : msg) : Prop := m = MPooled (map su_unit c) (map emb c).
  Lemma latest_snoc (h : list msg) m : latest (h ++ [m]) = Some m.
  Proof. unfold latest. rewrite rev_app_distr. reflexivity. Qed.
  Lemma tokenize_on h c m : rel1 c m -> (exists m', p_on (tokenize_prog W) (h ++ [m]) = [Send 2 m'] /\ rel2 c m') \/ p_on (tokenize_prog W) (h ++ [m]) = [Fail] \/ p_on (tokenize_prog W) (h ++ [m]) = [Stop].
  Proof. intros (uniq & back & H & ->). cbn. rewrite latest_snoc. destruct (w_tok W uniq) eqn:T; [left|right; left; reflexivity|right; left; reflexivity]. eexists. split; [reflexivity|]. exists uniq, back. eauto. Qed.
  Lemma encode_on h c m : rel2 c m -> (exists m', p_on (encode_prog W) (h ++ [m]) = [Send 3 m'] /\ rel3 c m') \/ p_on (encode_prog W) (h ++ [m]) = [Fail] \/ p_on (encode_prog W) (h ++ [m]) = [Stop].
  Proof using GM.
    intros (uniq & back & b & H & T & ->). cbn. rewrite latest_snoc. destruct (w_stop W _); [right; right; reflexivity|]. destruct (w_enc W _ b) eqn:E; [left|right; right; reflexivity|right; left; reflexivity].
    eexists. split; [reflexivity|]. exists uniq, back. rewrite (GM _ _ _ _ T E). auto.
  Qed.
  Lemma pool_on h c m : rel3 c m -> (exists m', p_on (pool_prog W) (h ++ [m]) = [Send 4 m'] /\ rel4 c m') \/ p_on (pool_prog W) (h ++ [m]) = [Fail] \/ p_on (pool_prog W) (h ++ [m]) = [Stop].
  Proof. intros (uniq & back & H & ->). cbn. rewrite latest_snoc. rewrite (spread _ _ _ _ _ H). left. eexists. split; reflexivity. Qed.

  Lemma feed_sends k l : exists l1, pre l1 l /\ Forall2 rel1 l1 (flat_map (is_send 1) (@feed U K R V W k l)) /\ ((forall j, w_main W j = false) -> l1 = l).
  Proof.
    revert k. induction l as [|c l IH]; intro k; cbn [feed]; [exists []; split; [apply pre_refl|]; split; [constructor|reflexivity]|]. destruct (w_main W k) eqn:Q.
    - exists []. split; [apply pre_nil|]. split; [constructor|]. intro H. congruence.
    - destruct (IH (S k)) as (l1 & (r & ->) & F & H). exists (c :: l1). split; [exists r; reflexivity|]. split; [|intro Z; rewrite <- (H Z); reflexivity]. cbn. constructor; [|exact F].
      unfold prepare_deduplicated_chunk. destruct (dedup [] [] [] c) as (uniq & back) eqn:D. exists uniq, back. auto.
  Qed.

  (** *** The index stage *)
  Fixpoint numbers (k : nat) (gs : list chunk) : list msg :=
    match gs with
    | [] => []
    | g :: r => MIndexed (map su_unit g) (seq k (length g)) :: numbers (k + length g) r
    end.
  Lemma numbers_app k a b : numbers k (a ++ b) = numbers k a ++ numbers (k + length (concat a)) b.
  Proof.
    revert k. induction a as [|g a IH]; intro k; cbn [numbers app concat]; [cbn; rewrite Nat.add_0_r; reflexivity|]. rewrite IH. cbn [app]. rewrite app_length, Nat.add_assoc. reflexivity.
  Qed.
  Lemma numbers_pre m : forall k gs, pre m (numbers k gs) -> exists g1, pre g1 gs /\ m = numbers k g1.
  Proof.
    induction m as [|x m IH]; intros k gs (r & H); [exists []; split; [apply pre_nil|reflexivity]|]. destruct gs as [|g gs]; [discriminate|]. cbn [numbers app] in H. injection H as <- H.
    destruct (IH _ gs (ex_intro _ r H)) as (g1 & (q & ->) & ->). exists (g :: g1). split; [exists q; reflexivity|reflexivity].
  Qed.
  (** The answers to groups of documents: [head g] and the ids, or a failure. *)
  Inductive blocks (head : chunk -> act) : nat -> list chunk -> list act -> Prop :=
  | b_nil k : blocks head k [] []
  | b_ok k g gs l : blocks head (k + length g) gs l -> blocks head k (g :: gs) (head g :: Send 5 (MIndexed (map su_unit g) (seq k (length g))) :: l)
  | b_fail k g gs l : blocks head (k + length g) gs l -> blocks head k (g :: gs) (Fail :: l).
  Lemma blocks_snoc head k gs l g b : blocks head k gs l -> blocks head (k + length (concat gs)) [g] b -> blocks head k (gs ++ [g]) (l ++ b).
  Proof.
    intros H. induction H; cbn [concat length app]; rewrite ?Nat.add_0_r; auto; rewrite app_length, Nat.add_assoc; intro B; constructor; auto.
  Qed.
  Lemma blocks_pre {X} (sel : act -> list X) (of : chunk -> list X) head k gs l : (forall g, sel (head g) = of g) -> (forall m, sel (Send 5 m) = []) -> (forall g, is_send 5 (head g) = []) ->
    blocks head k gs l -> forall done todo, done ++ todo = l -> fine done ->
    exists g1 g2, pre g2 g1 /\ pre g1 gs /\ flat_map sel done = flat_map of g1 /\ flat_map (is_send 5) done = numbers k g2 /\ (todo = [] -> g1 = gs /\ g2 = gs).
  Proof.
    intros S1 S2 S3 H. induction H as [k|k g gs l H IH|k g gs l H IH]; intros done todo E F.
    - destruct done; [|discriminate]. exists [], []. split; [apply pre_refl|]. split; [apply pre_refl|]. auto.
    - destruct done as [|a done].
      { exists [], []. split; [apply pre_refl|]. split; [apply pre_nil|]. split; [reflexivity|]. split; [reflexivity|]. intros ->. discriminate. }
      cbn [app] in E. injection E as -> E. destruct done as [|a done].
      { exists [g], []. split; [apply pre_nil|]. split; [exists gs; reflexivity|]. cbn. rewrite S1, S3. split; [reflexivity|]. split; [reflexivity|]. intros ->. discriminate. }
      cbn [app] in E. injection E as -> E. destruct (IH done todo E ltac:(intros x Hx; apply F; right; right; exact Hx)) as (g1 & g2 & (r1 & P1) & (r2 & P2) & Q1 & Q2 & Q3).
      exists (g :: g1), (g :: g2). split; [exists r1; rewrite P1; reflexivity|]. split; [exists r2; rewrite P2; reflexivity|]. cbn [flat_map numbers]. rewrite S1, S2, S3, Q1, Q2. cbn. split; [reflexivity|]. split; [reflexivity|].
      intro Z. destruct (Q3 Z) as (-> & ->). auto.
    - destruct done as [|a done].
      { exists [], []. split; [apply pre_refl|]. split; [apply pre_nil|]. split; [reflexivity|]. split; [reflexivity|]. intros ->. discriminate. }
      cbn [app] in E. injection E as -> E. destruct (F Fail (or_introl eq_refl)). congruence.
  Qed.
  Definition fresh_head (g : chunk) : act := Send 6 (MCoding (map emb g)).
  Definition update_head (g : chunk) : act := Do (EAppend (map emb g)).
  Lemma docs_in_all l h : Forall2 rel4 l h -> list_sum (map docs_in h) = length (concat l).
  Proof. induction 1 as [|c m l h RC F IH]; [reflexivity|]. change (docs_in m + list_sum (map docs_in h) = length (c ++ concat l)). rewrite IH, app_length, RC. cbn [docs_in]. rewrite map_length. reflexivity. Qed.
  Lemma removelast_snoc (h : list msg) m : removelast (h ++ [m]) = h.
  Proof. apply removelast_last. Qed.
  Lemma fresh_blocks l h : w_fresh W = true -> Forall2 rel4 l h -> blocks fresh_head 0 l (emits (p_on (index_prog W)) h).
  Proof.
    intro FR. revert l. induction h as [|m h IH] using rev_ind; intros l F; [inversion F; constructor|].
    apply Forall2_app_inv_r in F. destruct F as (l1 & l2 & F1 & F2 & ->). inversion F2 as [|c ? l3 ? RC F3]; subst. inversion F3; subst. rewrite emits_snoc. apply blocks_snoc; [apply IH; exact F1|].
    cbn [index_prog p_on]. rewrite latest_snoc, RC, FR, removelast_snoc, (docs_in_all _ _ F1), map_length. cbn [Nat.add]. apply b_ok. constructor.
  Qed.
  Lemma flush_block k p : p <> [] -> blocks update_head k [p] (flush W k (map su_unit p) (map emb p)).
  Proof.
    intro N. destruct p as [|u p]; [congruence|]. unfold flush. cbn [map]. change (emb u :: map emb p) with (map emb (u :: p)). change (su_unit u :: map su_unit p) with (map su_unit (u :: p)).
    destruct (w_append W k _); [|constructor; constructor]. rewrite map_length. apply b_ok. constructor.
  Qed.
  Lemma update_blocks l h : w_fresh W = false -> Forall2 rel4 l h -> exists gs p, concat l = concat gs ++ p /\
    pending W h = (w_base W + length (concat gs), map su_unit p, map emb p) /\ blocks update_head (w_base W) gs (emits (p_on (index_prog W)) h).
  Proof.
    intro FR. revert l. induction h as [|m h IH] using rev_ind; intros l F.
    - inversion F; subst. exists [], []. split; [reflexivity|]. split; [unfold pending; cbn; rewrite Nat.add_0_r; reflexivity|constructor].
    - apply Forall2_app_inv_r in F. destruct F as (l1 & l2 & F1 & F2 & ->). inversion F2 as [|c ? l3 ? RC F3]; subst. inversion F3; subst. destruct (IH l1 F1) as (gs & p & E & PE & B).
      rewrite emits_snoc. set (em := emits (p_on (index_prog W)) h) in *. clearbody em. cbn [index_prog p_on]. rewrite latest_snoc, RC, FR, removelast_snoc, PE. unfold pending in *. rewrite fold_left_app, PE. cbn [fold_left take_chunk]. rewrite <- !map_app.
      rewrite concat_app, E. cbn [concat]. rewrite app_nil_r, <- app_assoc. destruct (w_limit W <=? length (map emb (p ++ c))).
      + destruct (p ++ c) as [|u q] eqn:Q.
        * exists gs, []. cbn [flush map length]. rewrite Nat.add_0_r, !app_nil_r. auto.
        * exists (gs ++ [u :: q]), []. rewrite concat_app. cbn [concat]. rewrite !app_nil_r, app_length, map_length, Nat.add_assoc. split; [reflexivity|]. split; [reflexivity|]. apply blocks_snoc; [exact B|]. apply flush_block. discriminate.
      + exists gs, (p ++ c). rewrite app_nil_r. auto.
  Qed.
  (** *** The metadata stage *)
  Lemma numbered_app k a b : @numbered U k (a ++ b) = numbered k a ++ numbered (k + length a) b.
  Proof.
    unfold numbered. rewrite app_length, map_app. revert k. induction a as [|x a IH]; intro k; cbn [length seq map app combine Nat.add]; [rewrite Nat.add_0_r; reflexivity|]. f_equal. rewrite IH, Nat.add_succ_comm. reflexivity.
  Qed.
  Definition dos (l : list act) : list effect := flat_map is_do l.
  Lemma metadata_pre k : forall gs done todo, done ++ todo = emits (p_on (metadata_prog W)) (numbers k gs) -> fine done ->
    exists g, pre g gs /\ flat_map rows_of (dos done) = numbered k (concat g) /\ flat_map docs_of (dos done) = [] /\ (todo = [] -> g = gs).
  Proof.
    induction gs as [|g gs IH] using rev_ind; intros done todo E F.
    - cbn in E. destruct done; [|discriminate]. exists []. split; [apply pre_refl|]. auto.
    - rewrite numbers_app in E. cbn [numbers] in E. rewrite emits_snoc in E. destruct (pre_split _ _ _ _ E) as [(r & Q1 & ->)|(r & N & -> & Q2)].
      + destruct (IH done r (eq_sym Q1) F) as (g' & P & H1 & H2 & H3). exists g'. split; [exact (pre_trans _ _ _ P (ex_intro _ [g] eq_refl))|]. split; [exact H1|]. split; [exact H2|].
        cbn [metadata_prog p_on]. rewrite latest_snoc. destruct (w_rows W _); intro Z; destruct r; discriminate.
      + apply fine_app in F. destruct F as (F1 & F2). destruct (IH _ [] (app_nil_r _) F1) as (g' & _ & H1 & H2 & H3). specialize (H3 eq_refl). subst g'.
        cbn [metadata_prog p_on] in Q2. rewrite latest_snoc in Q2. unfold dos in *. rewrite !flat_map_app, H1, H2. destruct (w_rows W _).
        * destruct r as [|a [|b r]]; try congruence; [|discriminate]. cbn [app] in Q2. injection Q2 as <- <-. exists (gs ++ [g]). split; [apply pre_refl|]. cbn [flat_map is_do rows_of docs_of app]. rewrite app_nil_r.
          split; [|auto]. rewrite concat_app, numbered_app. cbn [concat]. rewrite app_nil_r. unfold numbered at 3. reflexivity.
        * destruct r as [|a r]; [congruence|]. cbn [app] in Q2. injection Q2 as <- Q2. destruct r as [|b r].
          -- exists gs. split; [exists [g]; reflexivity|]. cbn. rewrite !app_nil_r. split; [reflexivity|]. split; [reflexivity|]. intros ->. discriminate.
          -- cbn [app] in Q2. injection Q2 as <- Q2. destruct (F2 Fail (or_intror (or_introl eq_refl))). congruence.
  Qed.
  Section REACHED.
    Variable s : @state msg effect.
    Hypothesis RE : reached parent cap prog threads s.
    Lemma the_ok : ok threads parent prog s.
    Proof using RE. exact (reached_ok _ _ _ _ (pipeline_disciplined W cs) s RE). Qed.
    Lemma the_fine i : fine (t_done (s i)).
    Proof using RE. intros a A. destruct (reached_ran _ _ _ _ (pipeline_disciplined W cs) s RE i a A) as (H1 & H2 & _). auto. Qed.
    Lemma got c : 0 < c < threads -> pre (t_hist (s c)) (flat_map (is_send c) (t_done (s (parent c)))).
    Proof using RE. intro H. exists (t_queue (s c)). exact (ok_flow _ _ _ _ the_ok c H). Qed.
    Lemma flat_pre {A B} (f : A -> list B) l l' : pre l l' -> pre (flat_map f l) (flat_map f l').
    Proof. intros (r & ->). exists (flat_map f r). apply flat_map_app. Qed.
    Lemma hist1 : exists l, pre l cs /\ Forall2 rel1 l (t_hist (s 1)).
    Proof using RE.
      pose proof (ok_all _ _ _ _ the_ok 0 ltac:(cbv; lia)) as A. unfold all_of in A. cbn [prog_of main_prog p_start p_end p_on] in A.
      assert (Z : emits (fun _ : list msg => @nil act) (t_hist (s 0)) = []) by (unfold emits; apply flat_map_nil || (induction (seq 1 (length (t_hist (s 0)))); auto)). rewrite Z in A.
      assert (P : pre (flat_map (is_send 1) (t_done (s 0))) (flat_map (is_send 1) (@feed U K R V W 0 cs))).
      { exists (flat_map (is_send 1) (t_todo (s 0))). rewrite <- flat_map_app, A. rewrite !flat_map_app. cbn. destruct (t_last (s 0)); cbn; rewrite !app_nil_r; reflexivity. }
      destruct (feed_sends 0 cs) as (l1 & P1 & F & _). destruct (Forall2_pre _ _ _ _ F (pre_trans _ _ _ (got 1 ltac:(unfold threads; lia)) P)) as (l2 & P2 & F2). exists l2. split; [exact (pre_trans _ _ _ P2 P1)|exact F2].
    Qed.
    Lemma one_stage i d (rel rel' : chunk -> msg -> Prop) : i < threads -> 0 < d < threads -> parent d = i -> p_start (prog i) = [] -> (forall h, p_end (prog i) h = []) ->
      (forall h c m, rel c m -> (exists m', p_on (prog i) (h ++ [m]) = [Send d m'] /\ rel' c m') \/ p_on (prog i) (h ++ [m]) = [Fail] \/ p_on (prog i) (h ++ [m]) = [Stop]) ->
      forall l, pre l cs /\ Forall2 rel l (t_hist (s i)) ->
      (exists l', pre l' cs /\ Forall2 rel' l' (t_hist (s d))) /\ (t_todo (s i) = [] -> Forall2 rel' l (flat_map (is_send d) (t_done (s i)))).
    Proof using RE.
      intros I Dd P ST EN ON l (PL & F). pose proof (ok_all _ _ _ _ the_ok i I) as A. unfold all_of in A. rewrite ST in A. cbn [app] in A.
      assert (A' : t_done (s i) ++ t_todo (s i) = emits (p_on (prog i)) (t_hist (s i))) by (rewrite A; destruct (t_last (s i)); rewrite ?EN; apply app_nil_r).
      destruct (stage_pre rel rel' _ d ON _ _ F _ _ A' (the_fine i)) as (l1 & P1 & F1 & TD). split.
      - pose proof (got d Dd) as G. rewrite P in G. destruct (Forall2_pre _ _ _ _ F1 G) as (l2 & P2 & F2). exists l2. split; [exact (pre_trans _ _ _ P2 (pre_trans _ _ _ P1 PL))|exact F2].
      - intro Z. rewrite <- (TD Z). exact F1.
    Qed.
    Lemma hist4 : exists l, pre l cs /\ Forall2 rel4 l (t_hist (s 4)).
    Proof using RE GM.
      destruct hist1 as (l1 & H1).
      destruct (one_stage 1 2 rel1 rel2 ltac:(cbv; lia) ltac:(cbv; lia) eq_refl eq_refl (fun _ => eq_refl) tokenize_on l1 H1) as ((l2 & H2) & _).
      destruct (one_stage 2 3 rel2 rel3 ltac:(cbv; lia) ltac:(cbv; lia) eq_refl eq_refl (fun _ => eq_refl) encode_on l2 H2) as ((l3 & H3) & _).
      destruct (one_stage 3 4 rel3 rel4 ltac:(cbv; lia) ltac:(cbv; lia) eq_refl eq_refl (fun _ => eq_refl) pool_on l3 H3) as ((l4 & H4) & _). eauto.
    Qed.
    (** *** Nothing but the last three stages writes *)
    Lemma quiet_thread i : i < 4 -> flat_map is_do (t_done (s i)) = [].
    Proof using RE.
      intro I. pose proof (ok_all _ _ _ _ the_ok i ltac:(unfold threads; lia)) as A.
      assert (Q : flat_map is_do (all_of prog i (s i)) = []).
      { unfold all_of. rewrite !flat_map_app. assert (EM : forall h, flat_map is_do (emits (p_on (prog i)) h) = []).
        { intro h. unfold emits. induction (seq 1 (length h)) as [|k ks IH]; [reflexivity|]. cbn [flat_map]. rewrite flat_map_app, IH, app_nil_r. clear IH. generalize (firstn k h). clear h. intro h.
          destruct i as [|[|[|[|i]]]]; [| | | |lia]; cbn [prog_of p_on main_prog tokenize_prog encode_prog pool_prog].
          - reflexivity.
          - destruct (latest h) as [[]|]; try reflexivity. destruct (w_tok W _); reflexivity.
          - destruct (latest h) as [[]|]; try reflexivity. destruct (w_stop W _); [reflexivity|]. destruct (w_enc W _ _); reflexivity.
          - destruct (latest h) as [[]|]; try reflexivity. destruct (mapM _ _); reflexivity. }
        rewrite EM. assert (EN : flat_map is_do (if t_last (s i) then p_end (prog i) (t_hist (s i)) else []) = []).
        { destruct (t_last (s i)); [|reflexivity]. destruct i as [|[|[|[|i]]]]; [| | | |lia]; reflexivity. }
        rewrite EN, !app_nil_r. destruct i as [|[|[|[|i]]]]; [| | | |lia]; try reflexivity. cbn [prog_of main_prog p_start]. rewrite flat_map_app. cbn. rewrite app_nil_r. generalize 0 as k. clear. induction cs as [|c l IH]; intro k; [reflexivity|].
        cbn [feed]. destruct (w_main W k); [reflexivity|]. cbn. apply IH. }
      rewrite <- A, flat_map_app in Q. apply app_eq_nil in Q. apply Q.
    Qed.
    Lemma effects_are : effects s = dos (t_done (s 4)) ++ dos (t_done (s 5)) ++ dos (t_done (s 6)).
    Proof using RE. unfold effects, threads, dos. cbn [seq flat_map]. rewrite !quiet_thread by lia. cbn [app]. rewrite app_nil_r. reflexivity. Qed.

    (** *** The index stage at this moment *)
    Definition ends4 := t_todo (s 4) = [] /\ t_last (s 4) = true.
    Lemma index_fresh l : w_fresh W = true -> Forall2 rel4 l (t_hist (s 4)) ->
      exists g1 g2, pre g2 g1 /\ pre g1 l /\ flat_map (is_send 6) (t_done (s 4)) = map (fun g => MCoding (map emb g)) g1 /\ flat_map (is_send 5) (t_done (s 4)) = numbers 0 g2 /\
        dos (t_done (s 4)) = [] /\ (ends4 -> g1 = l /\ g2 = l /\ (l <> [] -> In (Join 6) (t_done (s 4)))).
    Proof using RE.
      intros FR F. pose proof (fresh_blocks _ _ FR F) as B. pose proof (ok_all _ _ _ _ the_ok 4 ltac:(cbv; lia)) as A. unfold all_of in A. cbn [p_start prog_of index_prog] in A. cbn [app] in A.
      change (p_on (prog 4)) with (p_on (index_prog W)) in A. set (em := emits (p_on (index_prog W)) (t_hist (s 4))) in *.
      assert (SE : forall g, is_send 6 (fresh_head g) = [MCoding (map emb g)]) by reflexivity.
      assert (BP := fun d t => blocks_pre (is_send 6) (fun g => [MCoding (map emb g)]) fresh_head 0 l em SE (fun _ => eq_refl) (fun _ => eq_refl) B d t).
      assert (ND : forall k gs em', blocks fresh_head k gs em' -> dos em' = []) by (intros k gs em' H; induction H; cbn; auto).
      assert (NDP : forall d, pre d em -> dos d = []).
      { intros d (r & E). pose proof (ND _ _ _ B) as Z. rewrite E in Z. unfold dos in Z. rewrite flat_map_app in Z. apply app_eq_nil in Z. apply Z. }
      assert (FM : forall gs : list chunk, flat_map (fun g => [MCoding (map emb g)]) gs = map (fun g => @MCoding U K R V (map emb g)) gs) by (intro gs; induction gs; cbn; [reflexivity|congruence]).
      set (tl := if t_last (s 4) then _ else _) in A. pose proof (the_fine 4) as FN.
      destruct (pre_split _ _ _ _ A) as [(r & Q1 & Q2)|(r & N & Q1 & Q2)].
      - destruct (BP (t_done (s 4)) r (eq_sym Q1) FN) as (g1 & g2 & P1 & P2 & S1 & S2 & TD). rewrite FM in S1. exists g1, g2. split; [exact P1|]. split; [exact P2|]. split; [exact S1|]. split; [exact S2|].
        split; [apply NDP; exists r; exact Q1|]. intros (E1 & E2). rewrite E1 in Q2. symmetry in Q2. apply app_eq_nil in Q2. destruct Q2 as (-> & Q2). destruct (TD eq_refl) as (-> & ->). split; [reflexivity|]. split; [reflexivity|].
        intro LN. unfold tl in Q2. rewrite E2 in Q2. cbn [p_end prog_of index_prog] in Q2. rewrite FR in Q2. destruct (t_hist (s 4)); [inversion F; subst; congruence|discriminate].
      - rewrite Q1 in FN. apply fine_app in FN. destruct (BP em [] (app_nil_r _) (proj1 FN)) as (g1 & g2 & P1 & P2 & S1 & S2 & TD). destruct (TD eq_refl) as (-> & ->). rewrite FM in S1.
        assert (TL : tl = [Close 6; Join 6]).
        { unfold tl in *. destruct (t_last (s 4)); [|destruct r; [congruence|discriminate]]. cbn [p_end prog_of index_prog] in *. rewrite FR in *. destruct (t_hist (s 4)); [destruct r; [congruence|discriminate]|reflexivity]. }
        assert (RS : r = [Close 6] /\ t_todo (s 4) = [Join 6] \/ r = [Close 6; Join 6]).
        { rewrite TL in Q2. destruct r as [|a [|b [|c r]]]; try congruence; cbn in Q2; [injection Q2 as <- Q2; auto|injection Q2 as <- <- Q2; auto|discriminate]. }
        exists l, l. split; [apply pre_refl|]. split; [apply pre_refl|]. rewrite Q1. unfold dos. rewrite !flat_map_app, S1, S2. pose proof (NDP em (pre_refl _)) as Z. unfold dos in Z. rewrite Z.
        assert (R6 : flat_map (is_send 6) r = [] /\ flat_map (is_send 5) r = [] /\ flat_map is_do r = []) by (destruct RS as [(-> & _)| ->]; repeat split). destruct R6 as (-> & -> & ->). rewrite !app_nil_r.
        split; [reflexivity|]. split; [reflexivity|]. split; [reflexivity|]. intros (E1 & _). split; [reflexivity|]. split; [reflexivity|]. intros _. apply in_or_app. right. destruct RS as [(_ & Z2)| ->]; [congruence|cbn; auto].
    Qed.
    Lemma index_update l : w_fresh W = false -> Forall2 rel4 l (t_hist (s 4)) ->
      exists g1 g2, pre g2 g1 /\ pre (concat g1) (concat l) /\ flat_map (is_send 6) (t_done (s 4)) = [] /\ flat_map (is_send 5) (t_done (s 4)) = numbers (w_base W) g2 /\
        flat_map docs_of (dos (t_done (s 4))) = map emb (concat g1) /\ flat_map rows_of (dos (t_done (s 4))) = [] /\ (ends4 -> concat g1 = concat l /\ g2 = g1).
    Proof using RE.
      intros FR F. destruct (update_blocks _ _ FR F) as (gs & p & EL & PE & B). pose proof (ok_all _ _ _ _ the_ok 4 ltac:(cbv; lia)) as A. unfold all_of in A. cbn [p_start prog_of index_prog] in A. cbn [app] in A.
      change (p_on (prog 4)) with (p_on (index_prog W)) in A.
      assert (B2 : exists gs', blocks update_head (w_base W) gs' (t_done (s 4) ++ t_todo (s 4)) /\ pre (concat gs') (concat l) /\ (t_last (s 4) = true -> concat gs' = concat l)).
      { rewrite A. destruct (t_last (s 4)).
        - cbn [p_end prog_of index_prog]. rewrite FR, PE. destruct p as [|u p]; [cbn [map flush]; rewrite app_nil_r; exists gs; rewrite EL, app_nil_r; split; [exact B|]; split; [apply pre_refl|reflexivity]|].
          exists (gs ++ [u :: p]). split; [apply blocks_snoc; [exact B|]; apply flush_block; discriminate|]. rewrite EL, concat_app. cbn [concat]. rewrite app_nil_r. split; [apply pre_refl|reflexivity].
        - rewrite app_nil_r. exists gs. split; [exact B|]. rewrite EL. split; [exists p; reflexivity|discriminate]. }
      destruct B2 as (gs' & B' & P' & L'). set (al := t_done (s 4) ++ t_todo (s 4)) in *.
      destruct (blocks_pre (fun a => flat_map docs_of (is_do a)) (map emb) update_head _ _ _ (fun g => app_nil_r _) (fun _ => eq_refl) (fun _ => eq_refl) B' (t_done (s 4)) (t_todo (s 4)) eq_refl (the_fine 4)) as (g1 & g2 & P1 & P2 & S1 & S2 & TD).
      exists g1, g2. split; [exact P1|]. split; [exact (pre_trans _ _ _ (pre_concat _ _ P2) P')|].
      assert (N6 : forall k g l', blocks update_head k g l' -> flat_map (is_send 6) l' = [] /\ flat_map rows_of (dos l') = []) by (intros k g l' H; induction H; cbn; auto).
      destruct (N6 _ _ _ B') as (Z1 & Z2). unfold al, dos in Z1, Z2. rewrite flat_map_app in Z1. rewrite flat_map_app, flat_map_app in Z2. apply app_eq_nil in Z1, Z2.
      split; [apply Z1|]. split; [exact S2|]. split; [|split; [apply Z2|]].
      - unfold dos. rewrite concat_map, <- flat_map_concat_map, <- S1. clear. induction (t_done (s 4)) as [|a d IH]; [reflexivity|]. cbn [flat_map]. rewrite flat_map_app, IH. reflexivity.
      - intros (E1 & E2). destruct (TD E1) as (-> & ->). split; [apply L'; exact E2|reflexivity].
    Qed.
  End REACHED.
End PIPE.
