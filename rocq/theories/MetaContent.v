(** Proofs about what the rows of the metadata store contain. *)
From Verif Require Import IndexSpec IndexLemmas.
From Verif Require Import Base Text SqlModel SqlSpec MetaModel MetaQuery MetaSpec MetaProofs MetaCreate.
From Coq Require Import Permutation Sorted.
Open Scope nat_scope.

(** The row stored for item [v]. *)
Definition row_for (E : engine) (tc fc : list column) (v : json) (r : thin_row * fat_row) : Prop :=
  t_vals (fst r) = map (cell E v) tc /\ f_vals (snd r) = map (cell E v) fc
  /\ forall k x, gives v k x -> In k (map c_name (tc ++ fc)).
Lemma fields_for E d v r : row_for E (thin_cols d) (fat_cols d) v r ->
  fields E d r = map (fun c => (c_name c, row_to_json_value E (cell E v c))) (thin_cols d ++ fat_cols d).
Proof.
  intros (H1 & H2 & _). unfold fields. rewrite H1, H2, map_app, !map_map.
  assert (C : forall cols, combine (map c_name cols) (map (fun c => row_to_json_value E (cell E v c)) cols)
     = map (fun c => (c_name c, row_to_json_value E (cell E v c))) cols).
  { induction cols as [|c cols IH]; cbn; auto. f_equal; auto. }
  rewrite !C. reflexivity.
Qed.
Lemma NoDup_ci l : NoDup (map ci l) -> NoDup l.
Proof. apply NoDup_map_inv. Qed.
Lemma names_NoDup tc fc : cols_ok tc fc -> NoDup (map c_name (tc ++ fc)).
Proof.
  intros (C1 & C2 & C3 & C4). rewrite map_app. apply NoDup_app_intro.
  - apply NoDup_ci. cbn [map] in C1. inversion C1 as [|? ? _ C1']. inversion C1'; auto.
  - apply NoDup_ci. cbn [map] in C2. inversion C2; auto.
  - intros x Hx Hy. apply in_map_iff in Hx. destruct Hx as (c & <- & Hc). apply in_map_iff in Hy. destruct Hy as (c' & Ec & Hc').
    rewrite Forall_forall in *. destruct (C3 c Hc) as (T & _). destruct (C4 c' Hc') as (T' & _). congruence.
Qed.
Lemma field_of_cols (g : column -> json) cols c : NoDup (map c_name cols) -> In c cols ->
  field_of (map (fun c => (c_name c, g c)) cols) (c_name c) = Some (g c).
Proof.
  unfold field_of. induction cols as [|c0 cols IH]; intros ND H; [contradiction|].
  cbn [map] in *. inversion ND as [|? ? N1 N2]; subst. cbn [find fst].
  destruct (text_eqb (c_name c0) (c_name c)) eqn:Et.
  - apply text_eqb_eq in Et. cbn. destruct H as [->|H]; auto.
    exfalso. apply N1. rewrite Et. apply in_map; auto.
  - apply text_eqb_neq in Et. destruct H as [->|H]; [congruence|]. apply IH; auto.
Qed.
Lemma field_of_none (g : column -> json) cols k : ~ In k (map c_name cols) ->
  field_of (map (fun c => (c_name c, g c)) cols) k = None.
Proof.
  unfold field_of. induction cols as [|c0 cols IH]; intros H; auto. cbn [map find fst] in *.
  destruct (text_eqb (c_name c0) k) eqn:Et.
  - apply text_eqb_eq in Et. exfalso. apply H. left; auto.
  - apply IH. intro C. apply H. right; auto.
Qed.
Lemma item_get_gives v k x : item_ok v -> gives v k x -> item_get v k = x.
Proof.
  intros Ho (o & -> & Hx). cbn in *. induction o as [|(k', x') o IH]; [contradiction|].
  cbn [map fst] in Ho. inversion Ho as [|? ? N1 N2]; subst. cbn [find fst].
  destruct (text_eqb k' k) eqn:Et.
  - apply text_eqb_eq in Et. subst. destruct Hx as [Hx|Hx]; [injection Hx as ->; reflexivity|].
    exfalso. apply N1. apply (in_map fst) in Hx. exact Hx.
  - apply text_eqb_neq in Et. destruct Hx as [Hx|Hx]; [congruence|auto].
Qed.
Lemma item_get_absent v k : (forall x, ~ gives v k x) -> item_get v k = JNull.
Proof.
  intro H. destruct v as [| | | | | |o]; auto. cbn.
  destruct (find (fun p => text_eqb (fst p) k) o) as [(k', x)|] eqn:F; auto.
  apply find_some in F. destruct F as (F1 & F2). cbn in F2. apply text_eqb_eq in F2. subst.
  exfalso. apply (H x). exists o. auto.
Qed.
Lemma cell_back E t x y : good_engine E -> (x = JNull \/ t = kind x) -> comes_back E x y ->
  row_to_json_value E (e_aff E t (json_to_sql E x)) = y.
Proof.
  intros G Ht B. inversion B as [|b|z Hz|f Hf|s|l|o]; subst; cbn [json_to_sql kind] in *.
  - rewrite (ge_null _ G). reflexivity.
  - destruct Ht as [Ht|Ht]; [discriminate|subst t]. rewrite (ge_int _ G). reflexivity.
  - destruct Ht as [Ht|Ht]; [discriminate|subst t]. unfold is_i64.
    replace (- 2 ^ 63 <=? z)%Z with true by lia. replace (z <? 2 ^ 63)%Z with true by lia.
    cbn [andb]. rewrite (ge_int _ G). reflexivity.
  - destruct Ht as [Ht|Ht]; [discriminate|subst t]. rewrite (ge_real _ G). cbn. rewrite Hf. reflexivity.
  - destruct Ht as [Ht|Ht]; [discriminate|subst t]. rewrite (ge_text _ G). reflexivity.
  - destruct Ht as [Ht|Ht]; [discriminate|subst t]. rewrite (ge_blob _ G). reflexivity.
  - destruct Ht as [Ht|Ht]; [discriminate|subst t]. rewrite (ge_blob _ G). reflexivity.
Qed.
Lemma declared_col d k t : cols_ok (thin_cols d) (fat_cols d) ->
  declared (Db d) k t -> In {| c_name := k; c_type := t |} (thin_cols d ++ fat_cols d).
Proof. intros _ (d0 & E & H). congruence. Qed.
Lemma row_for_reflects E d v r : good_engine E -> wf_db d -> item_ok v ->
  row_for E (thin_cols d) (fat_cols d) v r -> reflects E (Db d) v (fields E d r).
Proof.
  intros G W Ho Hr. pose proof (fields_for E d v r Hr) as F. rewrite F.
  destruct (wf_parts d W) as (C & _). pose proof (names_NoDup _ _ C) as ND.
  destruct Hr as (_ & _ & Hk). split; [|split].
  - intros k x Hx. specialize (Hk k x Hx). apply in_map_iff in Hk. destruct Hk as ([k' t] & <- & Hc).
    exists t, d. auto.
  - intros k x y Hx Ht B.
    assert (exists t, In {| c_name := k; c_type := t |} (thin_cols d ++ fat_cols d) /\ (x = JNull \/ t = kind x)) as (t & Hc & Ht').
    { destruct Ht as [->|Ht]; [|exists (kind x); split; [apply declared_col; auto|auto]].
      specialize (Hk k _ Hx). apply in_map_iff in Hk. destruct Hk as ([k' t] & <- & Hc). exists t. auto. }
    pose proof (field_of_cols (fun c => row_to_json_value E (cell E v c)) _ _ ND Hc) as FC. cbn [c_name] in FC.
    rewrite FC. f_equal. unfold cell. cbn [c_name c_type]. rewrite (item_get_gives v k x Ho Hx). apply cell_back; auto.
  - intros k Na. destruct (in_dec text_dec k (map c_name (thin_cols d ++ fat_cols d))) as [Hin|Hin].
    + right. apply in_map_iff in Hin. destruct Hin as (c & <- & Hc).
      rewrite (field_of_cols (fun c => row_to_json_value E (cell E v c))) by auto.
      unfold cell. rewrite item_get_absent by auto. cbn [json_to_sql]. rewrite (ge_null _ G). reflexivity.
    + left. apply field_of_none; auto.
Qed.

(** ** Keys of a batch are columns *)
Lemma in_pairs md k x : In (k, x) (pairs md) <-> exists v, In v md /\ gives v k x.
Proof.
  unfold pairs. rewrite in_flat_map. split.
  - intros (v & Hv & Hx). exists v. split; auto. destruct v; try contradiction. exists o. auto.
  - intros (v & Hv & o & -> & Hx). exists (JObj o). auto.
Qed.
Lemma in_keys md k : In k (map fst (pairs md)) <-> exists v x, In v md /\ gives v k x.
Proof.
  rewrite in_map_iff. split.
  - intros ((k', x) & <- & H). apply in_pairs in H. destruct H as (v & H). exists v, x. auto.
  - intros (v & x & H). exists (k, x). split; auto. apply in_pairs. eauto.
Qed.
Lemma filter_split {A} (p : A -> bool) l x : In x l <-> In x (filter p l ++ filter (fun x => negb (p x)) l).
Proof.
  rewrite in_app_iff, !filter_In. destruct (p x); cbn; intuition discriminate.
Qed.
Lemma columns_for_keys md cols v k x : columns_for md cols -> In v md -> gives v k x ->
  In k (map c_name (filter (fun c => is_thin_column (c_name c)) cols ++ filter (fun c => negb (is_thin_column (c_name c))) cols)).
Proof.
  intros CF Hv Hx.
  assert (H : In k (map c_name cols)).
  { destruct CF as [T|(_ & names & Nn & ->)].
    - destruct md as [|[| | | | | |o] rest]; cbn in T; try discriminate.
      destruct (forallb _ o); [|discriminate]. destruct (forallb _ (pairs rest)) eqn:F; [|discriminate].
      injection T as <-. rewrite map_map. change (map (fun p : text * json => c_name _) o) with (map fst o).
      destruct Hv as [<-|Hv].
      + destruct Hx as (o' & E & Hx). injection E as <-. apply (in_map fst) in Hx. exact Hx.
      + rewrite forallb_forall in F. apply mem_In. apply (F (k, x)). apply in_pairs. eauto.
    - apply new_names_ok in Nn. destruct Nn as (_ & _ & Nn). rewrite map_map. cbn. rewrite map_id.
      destruct (proj1 (Nn k)) as [H|([] & _)]; auto. apply in_keys. eauto. }
  apply in_map_iff in H. destruct H as (c & <- & Hc). apply in_map. apply filter_split. auto.
Qed.
Lemma column_type_uniform md k t v x : In v md -> gives v k x -> x <> JNull ->
  (forall v x, In v md -> gives v k x -> x = JNull \/ kind x = t) -> column_type md k = t.
Proof.
  intros Hv Hx Nx Hu. unfold column_type.
  destruct (find _ (pairs md)) as [(k', x')|] eqn:F.
  - apply find_some in F. destruct F as (F1 & F2). cbn in F2. apply andb_true_iff in F2. destruct F2 as (F2 & F3).
    apply text_eqb_eq in F2. subst k'. apply in_pairs in F1. destruct F1 as (v' & Hv' & Hg).
    destruct (Hu v' x' Hv' Hg) as [->|H]; [discriminate|exact H].
  - exfalso. pose proof (find_none _ _ F (k, x)) as N. cbn in N. rewrite text_eqb_refl in N.
    assert (In (k, x) (pairs md)) by (apply in_pairs; eauto). specialize (N H). destruct x; cbn in N; congruence.
Qed.
Lemma columns_for_declared md cols v k x : columns_for md cols -> In v md -> gives v k x -> x <> JNull ->
  uniform md k (kind x) ->
  In {| c_name := k; c_type := kind x |} (filter (fun c => is_thin_column (c_name c)) cols ++ filter (fun c => negb (is_thin_column (c_name c))) cols).
Proof.
  intros CF Hv Hx Nx (U1 & U2). apply filter_split. destruct CF as [T|(T & names & Nn & ->)].
  - destruct md as [|[| | | | | |o] rest]; cbn in T; try discriminate.
    destruct (forallb _ o); [|discriminate]. destruct (forallb _ (pairs rest)) eqn:F; [|discriminate]. injection T as <-.
    assert (exists x1, In (k, x1) o) as (x1 & H1).
    { destruct Hv as [<-|Hv].
      + destruct Hx as (o' & E & Hx). injection E as <-. eauto.
      + rewrite forallb_forall in F. assert (M : mem k (map fst o) = true) by (apply (F (k, x)); apply in_pairs; eauto).
        apply mem_In in M. apply in_map_iff in M. destruct M as ((k', x1) & <- & M). eauto. }
    assert (N1 : x1 <> JNull) by (intros ->; apply (U2 (JObj o) eq_refl); exists o; auto).
    destruct (U1 (JObj o) x1 (or_introl eq_refl)) as [->|Kx]; [exists o; auto|congruence|].
    apply in_map_iff. exists (k, x1). cbn. split; auto. f_equal. exact Kx.
  - apply in_map_iff. exists k. unfold typed. split.
    + f_equal. apply (column_type_uniform md k (kind x) v x); auto.
    + apply new_names_ok in Nn. destruct Nn as (_ & _ & Nn).
      destruct (proj1 (Nn k)) as [H|([] & _)]; auto. apply in_keys. eauto.
Qed.

(** ** The store against a list of items, one per document position *)
Definition items (E : engine) (s : store) (M : list (option json)) : Prop :=
  match s with
  | NoDb | Broken => forall i, at_pos M i = None
  | Db d => wf_db d /\ forall i,
      match at_pos M i, lookup (rows d) i with
      | Some v, Some r => row_for E (thin_cols d) (fat_cols d) v r
      | None, None => True
      | _, _ => False
      end
  end.
Lemma items_wf E s M : items E s M -> wf s.
Proof. destruct s; cbn; tauto. Qed.
Lemma at_pos_In {A} (M : list (option A)) i v : at_pos M i = Some v -> In (Some v) M.
Proof.
  unfold at_pos. destruct (i <? 0)%Z; [discriminate|].
  destruct (nth_error M (Z.to_nat i)) as [o|] eqn:N; [|discriminate]. intros ->. eapply nth_error_In; eauto.
Qed.
Lemma items_reflect E s M : good_engine E -> (forall v, In (Some v) M -> item_ok v) -> items E s M ->
  forall i, match at_pos M i with
            | Some v => exists f, row_at E s i = Some f /\ reflects E s v f
            | None => row_at E s i = None
            end.
Proof.
  intros G Ok0 H i. destruct s as [| |d]; cbn in H.
  - rewrite H. reflexivity.
  - rewrite H. reflexivity.
  - destruct H as (W & H). specialize (H i). rewrite row_at_lookup by auto.
    destruct (at_pos M i) as [v|] eqn:A; destruct (lookup (rows d) i) as [r|] eqn:L; try contradiction; cbn [option_map].
    + exists (fields E d r). split; auto. apply row_for_reflects; auto. apply Ok0. eapply at_pos_In; eauto.
    + reflexivity.
Qed.
Lemma at_pos_app {A} (M K : list (option A)) i :
  at_pos (M ++ K) i = if (i <? Z.of_nat (length M))%Z then at_pos M i else at_pos K (i - Z.of_nat (length M)).
Proof.
  unfold at_pos. destruct (Z.ltb_spec i 0).
  - destruct (Z.ltb_spec i (Z.of_nat (length M))); [auto|lia].
  - destruct (Z.ltb_spec i (Z.of_nat (length M))).
    + rewrite nth_error_app1 by lia. auto.
    + rewrite nth_error_app2 by lia. destruct (Z.ltb_spec (i - Z.of_nat (length M)) 0); [lia|].
      replace (Z.to_nat i - length M) with (Z.to_nat (i - Z.of_nat (length M))) by lia. auto.
Qed.
Lemma at_pos_repeat {A} n i : at_pos (repeat (@None A) n) i = None.
Proof.
  unfold at_pos. destruct (i <? 0)%Z; auto. destruct (nth_error _ _) eqn:N; auto.
  apply nth_error_In, repeat_spec in N. auto.
Qed.
Lemma at_pos_map {A} (md : list A) i : (0 <= i)%Z -> at_pos (map Some md) i = nth_error md (Z.to_nat i).
Proof.
  intro H. unfold at_pos. destruct (Z.ltb_spec i 0); [lia|]. rewrite nth_error_map.
  destruct (nth_error md (Z.to_nat i)); reflexivity.
Qed.
Lemma items_none E s M k : items E s M -> items E s (M ++ repeat None k).
Proof.
  assert (A : forall i, at_pos (M ++ repeat None k) i = at_pos M i).
  { intro i. rewrite at_pos_app. destruct (Z.ltb_spec i (Z.of_nat (length M))); auto.
    rewrite at_pos_repeat. unfold at_pos. destruct (i <? 0)%Z; auto.
    destruct (nth_error M (Z.to_nat i)) eqn:N; auto.
    assert (Z.to_nat i < length M) by (apply nth_error_Some; congruence). lia. }
  destruct s as [| |d]; cbn; intro H; [intro i; rewrite A; auto..|].
  destruct H as (W & H). split; auto. intro i. rewrite A. apply H.
Qed.
(** rows found among new rows *)
Lemma lookup_app l m i : lookup (l ++ m) i = match lookup l i with Some r => Some r | None => lookup m i end.
Proof.
  unfold lookup. induction l as [|r l IH]; cbn; auto. destruct (sub_of r =? i)%Z; auto.
Qed.
Lemma lookup_new E tc fc rs id : NoDup (map (fun x => snd (fst x)) rs) ->
  forall i v cid, nth_error rs i = Some (v, id, cid) ->
  lookup (map (new_row E tc fc) rs) id = Some (new_row E tc fc (v, id, cid)).
Proof.
  intros ND i v cid N. apply lookup_spec.
  - rewrite map_map. replace (map (fun x => sub_of (new_row E tc fc x)) rs) with (map (fun x : json * Z * Z => snd (fst x)) rs); auto.
    apply map_ext. intros ((a, b), c). reflexivity.
  - split; [|reflexivity]. apply in_map. eapply nth_error_In; eauto.
Qed.
Lemma lookup_new_none E tc fc rs id : ~ In id (map (fun x => snd (fst x)) rs) ->
  lookup (map (new_row E tc fc) rs) id = None.
Proof.
  intro H. apply lookup_none. rewrite map_map.
  replace (map (fun x => sub_of (new_row E tc fc x)) rs) with (map (fun x : json * Z * Z => snd (fst x)) rs); auto.
  apply map_ext. intros ((a, b), c). reflexivity.
Qed.
Lemma nth_with_ids md ids cids i v id : length md = length ids -> length cids = length md ->
  nth_error md i = Some v -> nth_error ids i = Some id ->
  exists cid, nth_error (with_ids md ids cids) i = Some (v, id, cid).
Proof.
  unfold with_ids. revert ids cids i. induction md as [|m md IH]; intros [|d ids] [|c cids] i H1 H2 Hm Hi; cbn in *; try discriminate.
  - destruct i; discriminate.
  - destruct i as [|i]; cbn in *.
    + injection Hm as ->. injection Hi as ->. eauto.
    + eapply IH; eauto.
Qed.
Lemma new_row_for E tc fc v id cid : (forall k x, gives v k x -> In k (map c_name (tc ++ fc))) ->
  row_for E tc fc v (new_row E tc fc (v, id, cid)).
Proof. intro H. repeat split; auto. Qed.

(** Creation, row by row. *)
Lemma create_rows E s md ids s' n : create E s md ids = (s', Ok n) -> wf s -> md <> [] -> NoDup ids -> Forall (fun i => 0 <= i)%Z ids ->
  exists d, s' = Db d /\ wf_db d
    /\ (forall j, ~ In j ids -> lookup (rows d) j = None)
    /\ (forall i v id, nth_error md i = Some v -> nth_error ids i = Some id ->
          exists r, lookup (rows d) id = Some r /\ row_for E (thin_cols d) (fat_cols d) v r)
    /\ (forall v k x, In v md -> gives v k x -> x <> JNull -> uniform md k (kind x) ->
          In {| c_name := k; c_type := kind x |} (thin_cols d ++ fat_cols d)).
Proof.
  intros C W Hm N P. pose proof (wf_create E s md ids W N P) as W'. rewrite C in W'. cbn [fst] in W'.
  apply create_ok in C; auto. destruct C as (-> & El & cols & cids & CF & CO & Lc & ND & ->).
  destruct (with_ids_subs md ids cids El Lc) as (S1 & S2 & S3).
  eexists. split; [reflexivity|]. split; [exact W'|]. rewrite rows_db_of. split; [|split].
  - intros j Hj. apply lookup_new_none. rewrite S1. auto.
  - intros i v id Hv Hi. destruct (nth_with_ids _ _ cids _ _ _ El Lc Hv Hi) as (cid & Hc).
    eexists. split; [eapply lookup_new; [rewrite S1; auto|exact Hc]|].
    cbn [thin_cols fat_cols db_of]. apply new_row_for. intros k x Hx. eapply columns_for_keys; eauto. eapply nth_error_In; eauto.
  - intros v k x Hv Hx Nx Hu. cbn [thin_cols fat_cols db_of]. eapply columns_for_declared; eauto.
Qed.
Lemma nth_zseq a n i : i < n -> nth_error (zseq a n) i = Some (a + Z.of_nat i)%Z.
Proof.
  intro H. unfold zseq. rewrite nth_error_map, (nth_error_nth' _ 0) by (rewrite seq_length; auto).
  rewrite seq_nth by auto. reflexivity.
Qed.
Lemma in_zseq a n x : In x (zseq a n) <-> (a <= x < a + Z.of_nat n)%Z.
Proof.
  unfold zseq. rewrite in_map_iff. split.
  - intros (i & <- & Hi). apply in_seq in Hi. lia.
  - intro H. exists (Z.to_nat (x - a)). split; [lia|]. apply in_seq. lia.
Qed.
Lemma items_create E s md N s' n : wf s -> create E s md (zseq (Z.of_nat N) (length md)) = (s', Ok n) ->
  items E s' (repeat None N ++ map Some md).
Proof.
  intros W C. destruct md as [|m0 md0] eqn:Emd.
  - unfold create in C. cbn in C. injection C as <- <-. cbn. intro i. rewrite app_nil_r. apply at_pos_repeat.
  - rewrite <- Emd in *. apply create_rows in C; auto.
    + destruct C as (d & -> & W' & C1 & C2 & _). split; auto. intro i. rewrite at_pos_app, repeat_length.
      destruct (Z.ltb_spec i (Z.of_nat N)).
      * rewrite at_pos_repeat. rewrite C1; [auto|]. rewrite in_zseq. lia.
      * rewrite at_pos_map by lia. destruct (nth_error md (Z.to_nat (i - Z.of_nat N))) as [v|] eqn:Nv.
        -- assert (Z.to_nat (i - Z.of_nat N) < length md) by (apply nth_error_Some; congruence).
           destruct (C2 _ _ i Nv) as (r & -> & Hr); auto. rewrite nth_zseq by auto. f_equal. lia.
        -- apply nth_error_None in Nv. rewrite C1; auto. rewrite in_zseq. lia.
    + rewrite Emd. discriminate.
    + apply zseq_NoDup.
    + apply Forall_forall. intros x Hx. apply in_zseq in Hx. lia.
Qed.
(** A failed creation leaves no row. *)
Lemma create_err E s md ids s' r : create E s md ids = (s', r) -> length md = length ids -> (forall n, r <> Ok n) ->
  s' = NoDb \/ s' = Broken \/ exists d, s' = Db d /\ wf_db d /\ rows d = [].
Proof.
  unfold create. intros C El N. rewrite El, Nat.eqb_refl in C. cbn [negb] in C.
  destruct md as [|m0 md0] eqn:Emd; [injection C as <- _; auto|]. rewrite <- Emd in *.
  destruct (try_fixed_schema md) as [[cols|]| |] eqn:T; try (injection C as <- _; auto; fail).
  - destruct (create_tables cols) as [d|] eqn:Ct; [|injection C as <- _; auto].
    destruct (insert_rows E true d _) as [d'|] eqn:I; [injection C as <- <-; exfalso; eapply N; reflexivity|].
    injection C as <- _. destruct (create_tables_db _ _ Ct (fixed_valid _ _ T)) as (-> & CO).
    right. right. eexists. split; [reflexivity|]. split; [apply wf_db_of; auto; apply rows_ok_nil|reflexivity].
  - destruct (new_names [] (pairs md)) as [names| |]; try (injection C as <- _; auto; fail).
    destruct (create_tables (map (typed md) names)) as [d|]; [|injection C as <- _; auto].
    destruct (insert_rows E false d _) as [d'|]; [injection C as <- <-; exfalso; eapply N; reflexivity|injection C as <- _; auto].
Qed.
Lemma items_create_err E s md ids s' r n : create E s md ids = (s', r) -> length md = length ids -> (forall n, r <> Ok n) ->
  items E s' (repeat None n).
Proof.
  intros C El N. destruct (create_err _ _ _ _ _ _ C El N) as [->|[->|(d & -> & W & R)]]; cbn.
  - apply at_pos_repeat.
  - apply at_pos_repeat.
  - split; auto. intro i. rewrite at_pos_repeat, R. exact I.
Qed.

(** ** Update *)
Lemma lookup_extend n m l i : lookup (map (extend n m) l) i = option_map (extend n m) (lookup l i).
Proof.
  unfold lookup. induction l as [|r l IH]; [reflexivity|]. cbn [map find].
  change (sub_of (extend n m r)) with (sub_of r). destruct (sub_of r =? i)%Z; auto.
Qed.
Lemma update_rows E d md ids s' n : good_engine E -> wf_db d -> update E (Db d) md ids = (s', Ok n) -> md <> [] ->
  NoDup ids -> Forall (fun i => 0 <= i /\ row_at E (Db d) i = None)%Z ids ->
  exists d' nt nf, s' = Db d' /\ wf_db d' /\ thin_cols d' = thin_cols d ++ nt /\ fat_cols d' = fat_cols d ++ nf
    /\ (forall j, ~ In j ids -> lookup (rows d') j = option_map (extend (length nt) (length nf)) (lookup (rows d) j))
    /\ (forall i v id, nth_error md i = Some v -> nth_error ids i = Some id ->
          exists r, lookup (rows d') id = Some r /\ row_for E (thin_cols d') (fat_cols d') v r)
    /\ (forall k c, In c (nt ++ nf) -> c_name c = k -> ~ In k (map c_name (thin_cols d ++ fat_cols d)) /\ c_type c = column_type md k).
Proof.
  intros G W U Hm N P. pose proof (wf_update E (Db d) md ids G W N P) as W'. rewrite U in W'. cbn [fst] in W'.
  apply update_ok in U; auto. destruct U as (-> & El & names & cids & Nn & CO & Lc & ND & ->).
  destruct (with_ids_subs md ids cids El Lc) as (S1 & S2 & S3).
  set (nt := map (typed md) (filter is_thin_column names)) in *.
  set (nf := map (typed md) (filter (fun c => negb (is_thin_column c)) names)) in *.
  cbn zeta in *. eexists. exists nt, nf. split; [reflexivity|]. split; [exact W'|]. split; [reflexivity|]. split; [reflexivity|].
  rewrite rows_db_of. split; [|split].
  - intros j Hj. rewrite lookup_app, lookup_extend. destruct (lookup (rows d) j); cbn [option_map]; auto.
    apply lookup_new_none. rewrite S1. auto.
  - intros i v id Hv Hi. destruct (nth_with_ids _ _ cids _ _ _ El Lc Hv Hi) as (cid & Hc).
    assert (Hid : row_at E (Db d) id = None).
    { rewrite Forall_forall in P. apply P. eapply nth_error_In; eauto. }
    rewrite row_at_lookup in Hid by auto.
    exists (new_row E (thin_cols d ++ nt) (fat_cols d ++ nf) (v, id, cid)). split.
    + rewrite lookup_app, lookup_extend. destruct (lookup (rows d) id); [discriminate|]. cbn [option_map].
      eapply lookup_new; [rewrite S1; auto|exact Hc].
    + cbn [thin_cols fat_cols db_of]. apply new_row_for. intros k x Hx.
      apply new_names_ok in Nn. destruct Nn as (_ & _ & Nn).
      destruct (proj1 (Nn k)) as [H|(H & _)]; [apply in_keys; exists v, x; split; auto; eapply nth_error_In; eauto| |].
      * rewrite !map_app. unfold nt, nf. rewrite !map_map. cbn. rewrite !map_id. rewrite !in_app_iff, !filter_In.
        destruct (is_thin_column k); cbn; tauto.
      * rewrite !map_app. apply in_app_or in H. rewrite !in_app_iff. tauto.
  - intros k c Hc <-. apply in_app_or in Hc.
    assert (exists k, c = typed md k /\ In k names) as (k & -> & Hk).
    { destruct Hc as [Hc|Hc]; apply in_map_iff in Hc; destruct Hc as (k & <- & Hk); apply filter_In in Hk; exists k; tauto. }
    apply new_names_ok in Nn. destruct Nn as (_ & V & _). rewrite map_app. split; [apply V; auto|reflexivity].
Qed.
Lemma row_for_extend E tc fc nt nf v r : good_engine E -> row_for E tc fc v r ->
  (forall c, In c (nt ++ nf) -> ~ In (c_name c) (map c_name (tc ++ fc))) ->
  row_for E (tc ++ nt) (fc ++ nf) v (extend (length nt) (length nf) r).
Proof.
  intros G (H1 & H2 & H3) Hn.
  assert (Nu : forall c, In c (nt ++ nf) -> cell E v c = SNull).
  { intros c Hc. unfold cell. rewrite item_get_absent; [apply (ge_null _ G)|]. intros x Hx. apply (Hn c Hc). eapply H3; eauto. }
  assert (R : forall l, (forall c, In c l -> In c (nt ++ nf)) -> map (cell E v) l = repeat SNull (length l)).
  { induction l as [|c l IH]; intro H; cbn; auto. rewrite Nu by (apply H; left; auto). f_equal. apply IH. intros; apply H; right; auto. }
  unfold extend, row_for. cbn. rewrite H1, H2, !map_app. repeat split.
  - rewrite (R nt); auto. intros; apply in_or_app; auto.
  - rewrite (R nf); auto. intros; apply in_or_app; auto.
  - intros k x Hx. specialize (H3 k x Hx). rewrite map_app in H3. apply in_app_or in H3. rewrite !in_app_iff. tauto.
Qed.
Lemma items_update E s M md s' n : good_engine E -> items E s M ->
  update E s md (zseq (Z.of_nat (length M)) (length md)) = (s', Ok n) -> items E s' (M ++ map Some md).
Proof.
  intros G H U. destruct md as [|m0 md0] eqn:Emd; [cbn in U; injection U as <- <-; rewrite app_nil_r; auto|]. rewrite <- Emd in *.
  destruct s as [| |d]; [unfold update in U; rewrite Emd in U; destruct (negb _); discriminate..|].
  destruct H as (W & H).
  assert (Out : forall i, (Z.of_nat (length M) <= i)%Z -> lookup (rows d) i = None).
  { intros i Hi. specialize (H i). unfold at_pos in H. destruct (Z.ltb_spec i 0); [lia|].
    destruct (nth_error M (Z.to_nat i)) as [o|] eqn:Nn.
    - assert (Z.to_nat i < length M) by (apply nth_error_Some; congruence). lia.
    - destruct (lookup (rows d) i); [contradiction|auto]. }
  apply update_rows in U; auto; [| |apply zseq_NoDup|].
  - destruct U as (d' & nt & nf & -> & W' & T1 & T2 & U1 & U2 & U3). split; auto. intro i. rewrite at_pos_app.
    destruct (Z.ltb_spec i (Z.of_nat (length M))).
    + rewrite U1 by (rewrite in_zseq; lia). specialize (H i).
      destruct (at_pos M i) as [v|]; destruct (lookup (rows d) i) as [r|]; try contradiction; cbn [option_map]; auto.
      rewrite T1, T2. apply row_for_extend; auto. intros c Hc. apply (U3 _ c Hc eq_refl).
    + rewrite at_pos_map by lia. destruct (nth_error md (Z.to_nat (i - Z.of_nat (length M)))) as [v|] eqn:Nv.
      * assert (Z.to_nat (i - Z.of_nat (length M)) < length md) by (apply nth_error_Some; congruence).
        destruct (U2 _ _ i Nv) as (r & -> & Hr); auto. rewrite nth_zseq by auto. f_equal. lia.
      * apply nth_error_None in Nv. rewrite U1 by (rewrite in_zseq; lia). rewrite Out by lia. exact I.
  - rewrite Emd. discriminate.
  - apply Forall_forall. intros x Hx. apply in_zseq in Hx. split; [lia|].
    rewrite row_at_lookup by auto. rewrite Out by lia. reflexivity.
Qed.

(** ** Deletion *)
Lemma items_delete E s M ids s' r : items E s M -> delete s ids = (s', r) -> items E s' (delete_positions ids M).
Proof.
  assert (Nn : (forall i, at_pos M i = None) -> forall i, at_pos (delete_positions ids M) i = None).
  { intros A i. unfold at_pos. destruct (Z.ltb_spec i 0); auto.
    destruct (nth_error (delete_positions ids M) (Z.to_nat i)) as [o|] eqn:F; auto.
    apply delete_positions_inv in F. destruct F as (n & Hn & _). specialize (A (Z.of_nat n)). unfold at_pos in A.
    destruct (Z.ltb_spec (Z.of_nat n) 0); [lia|]. rewrite Nat2Z.id, Hn in A. auto. }
  intros H D. destruct s as [| |d].
  - assert (s' = NoDb) as -> by (destruct ids; cbn in D; congruence). cbn in *. auto.
  - assert (s' = Broken) as -> by (destruct ids; cbn in D; congruence). cbn in *. auto.
  - destruct H as (W & H). destruct (wf_parts d W) as (C & R).
    assert (s' = Db (fst (delete_v2 d ids))) as ->.
    { destruct ids as [|i0 ids0].
      - cbn in D. injection D as <- _. rewrite delete_v2_db by auto. cbn [fst]. rewrite (db_of_rows d W) at 1. do 2 f_equal.
        unfold kept_rows.
        assert (Ft : forall l, map (moved []) (filter (fun r => negb (zmem (sub_of r) [])) l) = l).
        { induction l as [|q l IH]; cbn; auto. f_equal; auto. destruct q as ([a b c], f). unfold moved, renumbered, deleted_below.
          cbn [existsb]. rewrite filter_none by auto. cbn. rewrite Z.sub_0_r. reflexivity. }
        symmetry. apply Ft.
      - cbn [delete] in D. destruct (delete_v2 d (i0 :: ids0)). injection D as <- _. reflexivity. }
    pose proof (wf_delete d ids W) as W'. rewrite delete_v2_db in * by auto. cbn [fst] in *. split; auto.
    rewrite rows_db_of. cbn [thin_cols fat_cols db_of]. pose proof (rows_ok_moved _ _ ids _ R) as R'.
    assert (Fwd : forall n q, ~ In n ids -> lookup (rows d) n = Some q ->
              lookup (map (moved ids) (kept_rows ids (rows d))) (renumbered ids n) = Some (moved ids q)).
    { intros n q Nn0 Lq. apply lookup_spec in Lq; [|apply R]. destruct Lq as (Hq & Sq).
      apply lookup_spec; [apply R'|]. split; [|unfold moved, sub_of at 1; cbn; rewrite <- Sq; reflexivity].
      apply in_map. apply filter_In. split; auto. rewrite Sq. apply negb_true_iff, zmem_not. auto. }
    assert (RF : forall v q, row_for E (thin_cols d) (fat_cols d) v q -> row_for E (thin_cols d) (fat_cols d) v (moved ids q)) by (intros; auto).
    intro w. destruct (lookup (map (moved ids) (kept_rows ids (rows d))) w) as [q|] eqn:Lq.
    + apply lookup_spec in Lq; [|apply R']. destruct Lq as (Hq & Sq).
      apply in_map_iff in Hq. destruct Hq as (q0 & <- & Hq). apply filter_In in Hq. destruct Hq as (Hq & Nq).
      apply negb_true_iff, zmem_not in Nq.
      assert (Pq : (0 <= sub_of q0)%Z) by (destruct R as (_ & _ & R3); rewrite Forall_forall in R3; apply (R3 q0 Hq)).
      assert (Sw : w = renumbered ids (sub_of q0)) by (rewrite <- Sq; reflexivity).
      specialize (H (sub_of q0)). rewrite (proj2 (lookup_spec (rows d) (sub_of q0) q0 ltac:(apply R)) (conj Hq eq_refl)) in H.
      unfold at_pos in H. destruct (Z.ltb_spec (sub_of q0) 0); [lia|].
      destruct (nth_error M (Z.to_nat (sub_of q0))) as [o|] eqn:Lo; [|contradiction].
      pose proof (delete_positions_at ids M _ _ Lo) as DP. rewrite Z2Nat.id in DP by lia. specialize (DP Nq).
      pose proof (renumbered_nonneg ids (sub_of q0) Pq). unfold at_pos. rewrite Sw.
      destruct (Z.ltb_spec (renumbered ids (sub_of q0)) 0); [lia|]. rewrite DP. destruct o as [v|]; [|contradiction].
      apply RF. exact H.
    + unfold at_pos. destruct (Z.ltb_spec w 0); auto.
      destruct (nth_error (delete_positions ids M) (Z.to_nat w)) as [[v|]|] eqn:Nw; auto.
      apply delete_positions_inv in Nw. destruct Nw as (n & Hn & Nn0 & Hw). rewrite Z2Nat.id in Hw by lia.
      specialize (H (Z.of_nat n)). unfold at_pos in H. destruct (Z.ltb_spec (Z.of_nat n) 0); [lia|]. rewrite Nat2Z.id, Hn in H.
      destruct (lookup (rows d) (Z.of_nat n)) as [q|] eqn:Lq'; [|contradiction].
      rewrite Hw in Lq. rewrite (Fwd _ q Nn0 Lq') in Lq. discriminate.
Qed.
