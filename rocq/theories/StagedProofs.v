(** Proofs about building in stages. *)
From Verif Require Import Base F32 CodecModel CodecSpec CodecProofs IndexModel IndexSpec IndexLemmas IndexDelete IndexCore IndexCreate IndexUpdate IndexDelCore IndexOps.
From Verif Require Import Staged StagedSpec.
Open Scope nat_scope.
Set Default Proof Using "Type".

(** ** Batches *)
Lemma batches_ne {A} size (bs : list (list A)) : batches_of size bs -> bs <> [] /\ 1 <= length (concat bs).
Proof.
  induction 1 as [b L|b bs L H (IH1 & IH2)]; (split; [discriminate|]); cbn [concat]; rewrite app_length; lia.
Qed.
Lemma batches_size {A} size (bs : list (list A)) : batches_of size bs ->
  1 <= size -> (length bs - 1) * size < length (concat bs) <= length bs * size.
Proof.
  induction 1 as [b L|b bs L H IH]; intros S1; cbn [concat length]; rewrite app_length; [cbn; lia|]. specialize (IH S1).
  destruct (batches_ne _ _ H) as (N & _). destruct bs as [|b' bs']; [congruence|]. cbn [length] in *. replace (S (S (length bs')) - 1) with (S (length bs')) by lia.
  replace (S (length bs') - 1) with (length bs') in IH by lia. nia.
Qed.
Lemma batch_at {A} size (bs : list (list A)) : batches_of size bs -> forall pre k j b, length pre = k * size -> nth_error bs j = Some b ->
  let docs := pre ++ concat bs in
  let start := (k + j) * size in let stop := Nat.min (start + size) (length docs) in
  slice docs start stop = Ok b /\ stop - start = length b.
Proof.
  induction 1 as [b L|b bs L H IH]; intros pre k j x P N docs start stop.
  - destruct j as [|j]; [|destruct j; discriminate]. injection N as <-. assert (ED : docs = pre ++ b) by (unfold docs; cbn [concat]; rewrite app_nil_r; reflexivity).
    assert (LD : length docs = k * size + length b) by (rewrite ED, app_length; lia).
    assert (ST : stop = k * size + length b) by (unfold stop, start; rewrite LD; nia). assert (SA : start = k * size) by (unfold start; nia).
    rewrite ST, SA. split; [|lia]. unfold slice. replace (k * size <=? k * size + length b) with true by lia. replace (k * size + length b <=? length docs) with true by lia.
    cbn [andb]. f_equal. rewrite ED. rewrite <- P. rewrite skipn_app, skipn_all, Nat.sub_diag. cbn [app skipn]. replace (length pre + length b - length pre) with (length b) by lia. apply firstn_all.
  - destruct j as [|j].
    + injection N as <-. assert (LD : length docs = k * size + size + length (concat bs)) by (unfold docs; cbn [concat]; rewrite !app_length; lia).
      assert (ST : stop = k * size + size) by (unfold stop, start; rewrite LD; nia). assert (SA : start = k * size) by (unfold start; nia).
      rewrite ST, SA. split; [|lia]. unfold slice. replace (k * size <=? k * size + size) with true by lia. replace (k * size + size <=? length docs) with true by lia.
      cbn [andb]. f_equal. unfold docs. rewrite <- P. rewrite skipn_app, skipn_all, Nat.sub_diag. cbn [app skipn concat]. replace (length pre + size - length pre) with (length b) by lia.
      rewrite firstn_app, Nat.sub_diag, firstn_all. cbn [firstn]. apply app_nil_r.
    + cbn [nth_error] in N. specialize (IH (pre ++ b) (S k) j x). rewrite app_length in IH. specialize (IH ltac:(lia) N). cbv zeta in IH.
      unfold stop, start, docs. cbn [concat]. rewrite (app_assoc pre b (concat bs)). replace (k + S j) with (S k + j) by lia. exact IH.
Qed.
Lemma batches_count {A} size (bs : list (list A)) : batches_of size bs -> 1 <= size -> ceil_div (length (concat bs)) size = Some (length bs).
Proof.
  intros H S1. pose proof (batches_size size bs H S1) as (L1 & L2). destruct (batches_ne _ _ H) as (N & _). unfold ceil_div. destruct (Nat.eqb_spec size 0) as [->|Z]; [lia|]. f_equal.
  destruct bs as [|b bs]; [congruence|]. cbn [length] in *. replace (S (length bs) - 1) with (length bs) in L1 by lia.
  symmetry. apply Nat.div_unique with (r := length (concat (b :: bs)) + size - 1 - size * S (length bs)); nia.
Qed.

(** ** Files of chunks *)
Definition chunk_writes (i off : nat) (e : encoded_chunk) (d : disk) : disk :=
  write4 d i (ec_doclens e) (ec_codes e) (ec_residuals e) {| m_ndocs := length (ec_doclens e); m_nembs := length (ec_codes e); m_off := off |}.
(** [step] = 1: offsets grow; [step] = 0: they stay *)
Fixpoint put_chunks (grow : bool) (k off : nat) (es : list encoded_chunk) (d : disk) : disk :=
  match es with
  | [] => d
  | e :: es' => put_chunks grow (S k) (if grow then off + length (ec_codes e) else off) es' (chunk_writes k off e d)
  end.
Fixpoint fix_metas (k off : nat) (es : list encoded_chunk) (d : disk) : disk :=
  match es with
  | [] => d
  | e :: es' => fix_metas (S k) (off + length (ec_codes e)) es'
      (apply_write d (WCMeta k (Some {| m_ndocs := length (ec_doclens e); m_nembs := length (ec_codes e); m_off := off |})))
  end.
Definition codes_before (es : list encoded_chunk) (j : nat) : nat := sum (map (fun e => length (ec_codes e)) (firstn j es)).
Definition files_at (d : disk) (i : nat) (e : encoded_chunk) : Prop :=
  f_doclens d i = Some (ec_doclens e) /\ f_codes d i = Some (ec_codes e) /\ f_residuals d i = Some (ec_residuals e).
Definition meta_at (d : disk) (i : nat) (e : encoded_chunk) (off : nat) : Prop :=
  f_cmeta d i = Some {| m_ndocs := length (ec_doclens e); m_nembs := length (ec_codes e); m_off := off |}.
(** [d'] is [d] with the chunks [es] from [k] on. *)
Definition written (k off : nat) (es : list encoded_chunk) (d d' : disk) : Prop :=
  rest d' = rest d /\
  (forall j e, nth_error es j = Some e -> files_at d' (k + j) e /\ meta_at d' (k + j) e (off + codes_before es j)) /\
  (forall i, i < k \/ k + length es <= i -> same_chunk d d' i).
Lemma chunk_writes_spec i off e d : let d' := chunk_writes i off e d in
  rest d' = rest d /\ files_at d' i e /\ meta_at d' i e off /\ forall j, j <> i -> same_chunk d d' j.
Proof.
  unfold chunk_writes, write4. cbv zeta. split; [destruct d; reflexivity|]. unfold files_at, meta_at, same_chunk. destruct d; cbn. unfold put. rewrite !Nat.eqb_refl. split; [repeat split|]. split; [reflexivity|]. intros j N. destruct (Nat.eqb_spec j i); [contradiction|]. repeat split.
Qed.
Lemma same_chunk_files d d' i e : same_chunk d d' i -> files_at d i e -> files_at d' i e.
Proof. unfold same_chunk, files_at. intros (E1 & E2 & E3 & _) (A & B & C). repeat split; congruence. Qed.
Lemma same_chunk_meta d d' i e off : same_chunk d d' i -> meta_at d i e off -> meta_at d' i e off.
Proof. unfold same_chunk, meta_at. intros (_ & _ & _ & E4) A. congruence. Qed.
Lemma put_chunks_spec grow es : forall k off d, let d' := put_chunks grow k off es d in
  rest d' = rest d /\
  (forall j e, nth_error es j = Some e -> files_at d' (k + j) e /\ meta_at d' (k + j) e (if grow then off + codes_before es j else off)) /\
  (forall i, i < k \/ k + length es <= i -> same_chunk d d' i).
Proof.
  induction es as [|e es IH]; intros k off d d'.
  - split; [reflexivity|]. split; [intros j e K; destruct j; discriminate|]. intros i _. apply same_chunk_refl.
  - unfold d'. cbn [put_chunks]. destruct (IH (S k) (if grow then off + length (ec_codes e) else off) (chunk_writes k off e d)) as (R & F & S1).
    destruct (chunk_writes_spec k off e d) as (R0 & F0 & M0 & S0). split; [congruence|]. split.
    + intros j x K. destruct j as [|j]; cbn [nth_error] in K.
      * injection K as <-. rewrite Nat.add_0_r. specialize (S1 k ltac:(left; lia)). split; [apply (same_chunk_files _ _ _ _ S1); exact F0|]. apply (same_chunk_meta _ _ _ _ _ S1).
        destruct grow; [|exact M0]. unfold codes_before. cbn. rewrite Nat.add_0_r. exact M0.
      * specialize (F j x K). replace (k + S j) with (S k + j) by lia. destruct F as (F1 & F2). split; [exact F1|]. destruct grow; [|exact F2].
        unfold codes_before in *. cbn [firstn map sum]. replace (off + (length (ec_codes e) + sum (map (fun e => length (ec_codes e)) (firstn j es)))) with (off + length (ec_codes e) + sum (map (fun e => length (ec_codes e)) (firstn j es))) by lia. exact F2.
    + cbn [length]. intros i I. apply same_chunk_trans with (d2 := chunk_writes k off e d); [apply S0; lia|apply S1; lia].
Qed.
Lemma fix_metas_spec es : forall k off d, let d' := fix_metas k off es d in
  rest d' = rest d /\
  (forall i, f_doclens d' i = f_doclens d i /\ f_codes d' i = f_codes d i /\ f_residuals d' i = f_residuals d i) /\
  (forall j e, nth_error es j = Some e -> meta_at d' (k + j) e (off + codes_before es j)) /\
  (forall i, i < k \/ k + length es <= i -> f_cmeta d' i = f_cmeta d i).
Proof.
  induction es as [|e es IH]; intros k off d d'.
  - split; [reflexivity|]. split; [intros i; repeat split|]. split; [intros j e K; destruct j; discriminate|]. intros i _. reflexivity.
  - unfold d'. cbn [fix_metas]. set (d0 := apply_write d _). destruct (IH (S k) (off + length (ec_codes e)) d0) as (R & F & M & S1).
    assert (R0 : rest d0 = rest d) by apply rest_cmeta. split; [congruence|]. split.
    + intros i. destruct (F i) as (-> & -> & ->). unfold d0. destruct d; repeat split.
    + split.
      * intros j x K. destruct j as [|j]; cbn [nth_error] in K.
        -- injection K as <-. rewrite Nat.add_0_r. unfold meta_at. rewrite (S1 k ltac:(left; lia)). unfold codes_before. cbn. rewrite Nat.add_0_r. unfold d0. destruct d; cbn. unfold put. rewrite Nat.eqb_refl. reflexivity.
        -- specialize (M j x K). replace (k + S j) with (S k + j) by lia. unfold codes_before in *. cbn [firstn map sum].
           replace (off + (length (ec_codes e) + sum (map (fun e => length (ec_codes e)) (firstn j es)))) with (off + length (ec_codes e) + sum (map (fun e => length (ec_codes e)) (firstn j es))) by lia. exact M.
      * cbn [length]. intros i I. rewrite S1 by lia. unfold d0. destruct d; cbn. unfold put. destruct (Nat.eqb_spec i k); [lia|reflexivity].
Qed.
Lemma put_then_fix es d : written 0 0 es d (fix_metas 0 0 es (put_chunks false 0 0 es d)).
Proof.
  destruct (put_chunks_spec false es 0 0 d) as (R & F & S1). set (d1 := put_chunks false 0 0 es d) in *. destruct (fix_metas_spec es 0 0 d1) as (R2 & F2 & M2 & S2).
  split; [congruence|]. split.
  - intros j e K. split; [|apply M2; exact K]. destruct (F j e K) as (Fj & _). destruct (F2 (0 + j)) as (E1 & E2 & E3). unfold files_at in *. rewrite E1, E2, E3. exact Fj.
  - intros i I. specialize (S1 i I). specialize (S2 i I). destruct (F2 i) as (E1 & E2 & E3). unfold same_chunk in *. rewrite E1, E2, E3, S2. exact S1.
Qed.
Lemma put_grow es d : written 0 0 es d (put_chunks true 0 0 es d).
Proof. exact (put_chunks_spec true es 0 0 d). Qed.
Lemma written_same es d d1 d2 : written 0 0 es d d1 -> written 0 0 es d d2 -> rest d1 = rest d2 /\ forall i,
  f_doclens d1 i = f_doclens d2 i /\ f_codes d1 i = f_codes d2 i /\ f_residuals d1 i = f_residuals d2 i /\ f_cmeta d1 i = f_cmeta d2 i.
Proof.
  intros (R1 & F1 & S1) (R2 & F2 & S2). split; [congruence|]. intros i. destruct (nth_error es i) as [e|] eqn:K.
  - destruct (F1 i e K) as ((A1 & B1 & C1) & M1). destruct (F2 i e K) as ((A2 & B2 & C2) & M2). unfold meta_at in *. cbn [Nat.add] in *. repeat split; congruence.
  - apply nth_error_None in K. destruct (S1 i ltac:(right; lia)) as (A1 & B1 & C1 & M1). destruct (S2 i ltac:(right; lia)) as (A2 & B2 & C2 & M2). repeat split; congruence.
Qed.

(** ** The loops *)
Definition codes_of (es : list encoded_chunk) : list nat := concat (map ec_codes es).
Definition lens_of (es : list encoded_chunk) : list nat := concat (map ec_doclens es).
Lemma write_loop es : forall k off ac dl d s d',
  steps (forE write_chunk (combine (seq k (length es)) es) (off, ac, dl)) d s d' <->
  s = (off + sum (map (fun e => length (ec_codes e)) es), ac ++ codes_of es, dl ++ lens_of es) /\ d' = put_chunks true k off es d.
Proof.
  induction es as [|e es IH]; intros k off ac dl d s d'; cbn [length seq combine].
  - rewrite steps_for_nil. unfold codes_of, lens_of. cbn. rewrite !app_nil_r, Nat.add_0_r. reflexivity.
  - rewrite steps_for_cons. split.
    + intros (s1 & d1 & H1 & H2). unfold write_chunk in H1. inv_steps H1. apply IH in H2. destruct H2 as (-> & ->).
      unfold codes_of, lens_of. cbn [map concat sum]. rewrite !app_assoc, Nat.add_assoc. split; reflexivity.
    + intros (-> & ->). exists (off + length (ec_codes e), ac ++ ec_codes e, dl ++ ec_doclens e), (chunk_writes k off e d). split.
      * unfold write_chunk, chunk_writes, write4. eexists. split; reflexivity.
      * apply IH. unfold codes_of, lens_of. cbn [map concat sum]. rewrite !app_assoc, Nat.add_assoc. split; reflexivity.
Qed.
Lemma fix_loop es : forall k off d s d', (forall j e, nth_error es j = Some e -> exists o, meta_at d (k + j) e o) ->
  steps (forE fix_offset (seq k (length es)) off) d s d' <->
  s = off + sum (map (fun e => length (ec_codes e)) es) /\ d' = fix_metas k off es d.
Proof.
  induction es as [|e es IH]; intros k off d s d' M; cbn [length seq].
  - rewrite steps_for_nil. cbn. rewrite Nat.add_0_r. reflexivity.
  - rewrite steps_for_cons. destruct (M 0 e eq_refl) as (o & M0). rewrite Nat.add_0_r in M0. unfold meta_at in M0.
    set (d1 := apply_write d (WCMeta k (Some {| m_ndocs := length (ec_doclens e); m_nembs := length (ec_codes e); m_off := off |}))).
    assert (M1 : forall j x, nth_error es j = Some x -> exists o, meta_at d1 (S k + j) x o).
    { intros j x K. destruct (M (S j) x K) as (o' & Q). exists o'. unfold meta_at in *. unfold d1. destruct d; cbn in *. unfold put. destruct (Nat.eqb_spec (S (k + j)) k); [lia|].
      replace (S (k + j)) with (k + S j) by lia. exact Q. }
    assert (ONE : forall s1 dd, steps (fix_offset off k) d s1 dd <-> s1 = off + length (ec_codes e) /\ dd = d1).
    { intros s1 dd. unfold fix_offset. rewrite steps_bind. split.
      - intros (m & d2 & H1 & H2). apply steps_ask in H1. destruct H1 as (H1 & ->). rewrite M0 in H1. cbn [need] in H1. apply Ok_inj in H1. subst m. inv_steps H2. split; reflexivity.
      - intros (-> & ->). exists {| m_ndocs := length (ec_doclens e); m_nembs := length (ec_codes e); m_off := o |}, d. split.
        + apply steps_ask. rewrite M0. split; reflexivity.
        + cbn [m_ndocs m_nembs]. eexists. split; reflexivity. }
    split.
    + intros (s1 & dd & H1 & H2). apply ONE in H1. destruct H1 as (-> & ->). apply (IH _ _ _ _ _ M1) in H2. destruct H2 as (-> & ->). cbn [map sum fix_metas]. split; [lia|reflexivity].
    + intros (-> & ->). exists (off + length (ec_codes e)), d1. split; [apply ONE; split; reflexivity|]. apply (IH _ _ _ _ _ M1). cbn [map sum fix_metas]. split; [lia|reflexivity].
Qed.

Section BUILD.
  Variable fsub : f32 -> f32 -> f32.
  Variable dot : row -> row -> f32.
  Variable mem : nat.
  Variable quantile_at : list row -> list doc -> nat -> nat -> f32.
  Variable threshold_of : list row -> list doc -> f32.
  Notation encode := (encode_index_chunk fsub dot mem).
  Lemma encode_lens c b e : encode c b = Ok e -> ec_doclens e = map (@length row) b.
  Proof.
    intro H. unfold encode_index_chunk in H. apply bind_Ok in H. destruct H as (batch & _ & H). apply bind_Ok in H. destruct H as (((codes & r) & p) & _ & H). apply Ok_inj in H. subst e. reflexivity.
  Qed.
  Lemma create_one docs c bs ac dl i b d s d' :
    let start := i * bs in let stop := Nat.min (start + bs) (length docs) in
    slice docs start stop = Ok b -> stop - start = length b ->
    steps (create_chunk fsub dot mem docs c bs (ac, dl) i) d s d' <->
    exists e, encode c b = Ok e /\ s = (ac ++ ec_codes e, dl ++ ec_doclens e) /\ d' = chunk_writes i 0 e d.
  Proof.
    intros start stop S1 L. unfold create_chunk. fold start. fold stop. rewrite S1, L. split.
    - intros H. inv_steps H. apply Ok_inj in S. subst a. destruct a1 as ((codes & resid) & packed). inv_steps S3.
      exists {| ec_codes := codes; ec_residuals := packed; ec_doclens := map (@length row) b |}. split.
      + unfold encode_index_chunk. rewrite S0. cbn [bind]. rewrite S2. reflexivity.
      + unfold chunk_writes, write4. cbn [ec_codes ec_residuals ec_doclens]. rewrite map_length. split; reflexivity.
    - intros (e & E & -> & ->). unfold encode_index_chunk in E. apply bind_Ok in E. destruct E as (batch & E1 & E). apply bind_Ok in E. destruct E as (((codes & r) & p) & E2 & E). apply Ok_inj in E. subst e.
      unfold chunk_writes, write4. cbn [ec_codes ec_residuals ec_doclens]. rewrite map_length.
      unfold steps, bindE, lift, emit, ret. rewrite E1, E2. eexists. split; reflexivity.
  Qed.
  Lemma create_loop docs c bs bts : forall k ac dl d s d',
    (forall j b, nth_error bts j = Some b -> let start := (k + j) * bs in let stop := Nat.min (start + bs) (length docs) in
      slice docs start stop = Ok b /\ stop - start = length b) ->
    steps (forE (create_chunk fsub dot mem docs c bs) (seq k (length bts)) (ac, dl)) d s d' <->
    exists es, mapM (encode c) bts = Ok es /\ s = (ac ++ codes_of es, dl ++ lens_of es) /\ d' = put_chunks false k 0 es d.
  Proof.
    induction bts as [|b bts IH]; intros k ac dl d s d' SL; cbn [length seq].
    - rewrite steps_for_nil. cbn [mapM]. split.
      + intros (-> & ->). exists []. unfold codes_of, lens_of. cbn. rewrite !app_nil_r. auto.
      + intros (es & E & -> & ->). apply Ok_inj in E. subst es. unfold codes_of, lens_of. cbn. rewrite !app_nil_r. auto.
    - rewrite steps_for_cons. pose proof (SL 0 b eq_refl) as S0. cbv zeta in S0. rewrite Nat.add_0_r in S0. destruct S0 as (S01 & S02).
      assert (SL' : forall j b, nth_error bts j = Some b -> let start := (S k + j) * bs in let stop := Nat.min (start + bs) (length docs) in
        slice docs start stop = Ok b /\ stop - start = length b).
      { intros j x K. specialize (SL (S j) x K). replace (k + S j) with (S k + j) in SL by lia. exact SL. }
      split.
      + intros (s1 & d1 & H1 & H2). apply (create_one _ _ _ _ _ _ _ _ _ _ S01 S02) in H1. destruct H1 as (e & E & -> & ->).
        apply (IH _ _ _ _ _ _ SL') in H2. destruct H2 as (es & Es & -> & ->). exists (e :: es). cbn [mapM]. rewrite E. cbn [bind]. rewrite Es. split; [reflexivity|].
        unfold codes_of, lens_of. cbn [map concat]. rewrite !app_assoc. split; reflexivity.
      + intros (es & E & -> & ->). cbn [mapM] in E. apply bind_Ok in E. destruct E as (e & E1 & E). apply bind_Ok in E. destruct E as (es' & E2 & E). apply Ok_inj in E. subst es.
        exists (ac ++ ec_codes e, dl ++ ec_doclens e), (chunk_writes k 0 e d). split; [apply (create_one _ _ _ _ _ _ _ _ _ _ S01 S02); exists e; auto|].
        apply (IH _ _ _ _ _ _ SL'). exists es'. split; [exact E2|]. unfold codes_of, lens_of. cbn [map concat]. rewrite !app_assoc. split; reflexivity.
  Qed.
End BUILD.
