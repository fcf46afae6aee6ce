(** Proofs about the metadata store: the invariant, lookups, deletion. *)
From Verif Require Import IndexSpec IndexLemmas.
From Verif Require Import Base Text SqlModel SqlSpec MetaModel MetaQuery MetaSpec.
From Coq Require Import Permutation Sorted.
Open Scope nat_scope.

(** ** Lists of integers *)
Lemma zmem_In z l : zmem z l = true <-> In z l.
Proof.
  unfold zmem. rewrite existsb_exists. split.
  - intros (x & Hx & E). apply Z.eqb_eq in E. congruence.
  - intro H. exists z. split; auto. apply Z.eqb_refl.
Qed.
Lemma zmem_not z l : zmem z l = false <-> ~ In z l.
Proof. rewrite <- zmem_In. destruct (zmem z l); split; congruence. Qed.
Lemma mem_In k l : mem k l = true <-> In k l.
Proof.
  unfold mem. rewrite existsb_exists. split.
  - intros (x & Hx & E). apply text_eqb_eq in E. congruence.
  - intro H. exists k. split; auto. apply text_eqb_refl.
Qed.
Lemma mem_not k l : mem k l = false <-> ~ In k l.
Proof. rewrite <- mem_In. destruct (mem k l); split; congruence. Qed.
Lemma max_or_ge l x : In x l -> (x <= max_or l)%Z.
Proof.
  induction l as [|y l IH]; cbn; intros H; [contradiction|].
  destruct H as [->|H]; [lia|]. specialize (IH H). unfold max_or in IH. lia.
Qed.
Lemma max_or_neg l : (-1 <= max_or l)%Z.
Proof. induction l as [|y l IH]; cbn; [lia|]. unfold max_or in IH. lia. Qed.

(** ** Renumbering *)
Lemma in_zrange v x : In x (map Z.of_nat (seq 0 (Z.to_nat v))) <-> (0 <= x < v)%Z.
Proof.
  rewrite in_map_iff. split.
  - intros (n & <- & Hn). apply in_seq in Hn. lia.
  - intro H. exists (Z.to_nat x). split; [lia|]. apply in_seq. lia.
Qed.
Lemma NoDup_zrange v : NoDup (map Z.of_nat (seq 0 (Z.to_nat v))).
Proof.
  apply FinFun.Injective_map_NoDup; [|apply seq_NoDup].
  intros a b H. lia.
Qed.
Lemma filter_neg_length {A} (p : A -> bool) l :
  length (filter p l) + length (filter (fun x => negb (p x)) l) = length l.
Proof. induction l as [|x l IH]; cbn; auto. destruct (p x); cbn; lia. Qed.
(** For an id [v >= 0] the new number is the number of kept ids below it. *)
Lemma renumbered_kept ids v : (0 <= v)%Z ->
  renumbered ids v = Z.of_nat (length (filter (fun i => negb (existsb (Z.eqb i) ids)) (map Z.of_nat (seq 0 (Z.to_nat v))))).
Proof.
  intro Hv. unfold renumbered, deleted_below.
  pose proof (filter_neg_length (fun i => existsb (Z.eqb i) ids) (map Z.of_nat (seq 0 (Z.to_nat v)))) as H.
  rewrite map_length, seq_length in H. lia.
Qed.
Lemma renumbered_nonneg ids v : (0 <= v)%Z -> (0 <= renumbered ids v)%Z.
Proof. intro H. rewrite renumbered_kept by auto. lia. Qed.
Lemma renumbered_lt ids v w : (0 <= v < w)%Z -> ~ In v ids -> (renumbered ids v < renumbered ids w)%Z.
Proof.
  intros H Hv. rewrite !renumbered_kept by lia.
  replace (Z.to_nat w) with (Z.to_nat v + (1 + (Z.to_nat w - S (Z.to_nat v)))) by lia.
  rewrite seq_app, map_app, filter_app, app_length.
  cbn [Nat.add seq map filter].
  rewrite Z2Nat.id by lia.
  replace (existsb (Z.eqb v) ids) with false by (symmetry; apply zmem_not; auto).
  cbn [negb length]. lia.
Qed.
Lemma renumbered_inj ids v w : (0 <= v)%Z -> (0 <= w)%Z -> ~ In v ids -> ~ In w ids ->
  renumbered ids v = renumbered ids w -> v = w.
Proof.
  intros Hv Hw Nv Nw E. destruct (Z.lt_trichotomy v w) as [L|[L|L]]; auto.
  - pose proof (renumbered_lt ids v w ltac:(lia) Nv). lia.
  - pose proof (renumbered_lt ids w v ltac:(lia) Nw). lia.
Qed.

(** ** The range updates *)
Definition shiftv (v : Z) (u : Z * Z * Z) : Z :=
  let '(from, to, shift) := u in if (from <=? v)%Z && (v <? to)%Z then (v - shift)%Z else v.
Definition set_sub (r : thin_row) (v : Z) : thin_row := {| t_sub := v; t_cid := t_cid r; t_vals := t_vals r |}.
Lemma shift_rows_fold us rows :
  fold_left shift_rows us rows = map (fun r => set_sub r (fold_left shiftv us (t_sub r))) rows.
Proof.
  revert rows. induction us as [|u us IH]; intros rows; cbn [fold_left].
  - rewrite <- (map_id rows) at 1. apply map_ext. intros [s c v]; reflexivity.
  - rewrite IH. unfold shift_rows. destruct u as ((from, to), sh). rewrite map_map. apply map_ext.
    intros r. cbn [shiftv]. destruct ((from <=? t_sub r)%Z && (t_sub r <? to)%Z); reflexivity.
Qed.
Definition nbelow (v : Z) (l : list Z) : nat := length (filter (fun x => (x <? v)%Z) l).
Lemma nbelow_ge v l : Forall (fun x => (v <= x)%Z) l -> nbelow v l = 0.
Proof.
  unfold nbelow. induction 1 as [|x l Hx _ IH]; cbn; auto.
  destruct (x <? v)%Z eqn:E; [lia|auto].
Qed.
Lemma sinc_inv x l : sinc (x :: l) -> sinc l /\ Forall (fun y => (x < y)%Z) l.
Proof. intro H. inversion H; auto. Qed.
Lemma range_low rest : forall k prev fin v, sinc (prev :: rest) -> (v <= prev)%Z ->
  fold_left shiftv (range_updates k prev rest fin) v = v.
Proof.
  induction rest as [|next more IH]; intros k prev fin v Sr Hv; cbn [range_updates].
  - destruct (prev + 1 <? fin)%Z; cbn [fold_left shiftv]; auto.
    replace (prev + 1 <=? v)%Z with false by lia. reflexivity.
  - destruct (sinc_inv _ _ Sr) as (S' & F). inversion F; subst.
    destruct (next =? prev + 1)%Z.
    + apply IH; auto; lia.
    + destruct (prev + 1 <? next)%Z; cbn [app fold_left shiftv]; [|apply IH; auto; lia].
      replace (prev + 1 <=? v)%Z with false by lia. apply IH; auto; lia.
Qed.
Lemma range_high rest : forall k prev fin v, sinc (prev :: rest) ->
  (prev < v)%Z -> ~ In v rest -> (v < fin)%Z ->
  fold_left shiftv (range_updates k prev rest fin) v = (v - Z.of_nat (k + nbelow v rest))%Z.
Proof.
  induction rest as [|next more IH]; intros k prev fin v Sr Hv Nv Hf; cbn [range_updates].
  - replace (prev + 1 <? fin)%Z with true by lia. cbn [fold_left shiftv].
    replace (prev + 1 <=? v)%Z with true by lia. replace (v <? fin)%Z with true by lia.
    unfold nbelow. cbn. lia.
  - destruct (sinc_inv _ _ Sr) as (S' & F). inversion F; subst.
    assert (v <> next) by (intros ->; apply Nv; left; auto).
    assert (Nm : ~ In v more) by (intro; apply Nv; right; auto).
    assert (Hbel : (next < v)%Z -> nbelow v (next :: more) = S (nbelow v more)).
    { intro. unfold nbelow. cbn [filter]. replace (next <? v)%Z with true by lia. reflexivity. }
    destruct (next =? prev + 1)%Z eqn:En.
    + rewrite IH by (auto; lia). rewrite Hbel by lia. lia.
    + replace (prev + 1 <? next)%Z with true by lia. cbn [app fold_left shiftv].
      replace (prev + 1 <=? v)%Z with true by lia.
      destruct (v <? next)%Z eqn:El; cbn [andb].
      * rewrite range_low by (auto; lia).
        rewrite nbelow_ge; [lia|]. destruct (sinc_inv _ _ S') as (_ & F').
        constructor; [lia|]. eapply Forall_impl; [|exact F']. cbn. intros; lia.
      * rewrite IH by (auto; lia). rewrite Hbel by lia. lia.
Qed.
Lemma sinc_NoDup l : sinc l -> NoDup l.
Proof.
  induction l as [|x l IH]; intro Sr; constructor; destruct (sinc_inv _ _ Sr) as (S' & F); auto.
  intro H. rewrite Forall_forall in F. specialize (F x H). lia.
Qed.
Lemma sinc_filter p l : sinc l -> sinc (filter p l).
Proof.
  induction l as [|x l IH]; intro Sr; cbn; auto. destruct (sinc_inv _ _ Sr) as (S' & F).
  destruct (p x); auto. constructor; [apply IH; auto|].
  rewrite Forall_forall in *. intros y Hy. apply filter_In in Hy. apply F. tauto.
Qed.
(** The ids counted by the re-sequencing, below [v <= N]. *)
Lemma nbelow_sorted ids N v : (0 <= v <= N)%Z ->
  nbelow v (filter (fun id => (0 <=? id)%Z && (id <? N)%Z) (dedup Z.eqb (isort Z.leb ids)))
  = Z.to_nat (deleted_below ids v).
Proof.
  intro Hv. unfold deleted_below. rewrite Nat2Z.id. unfold nbelow.
  apply Permutation_length. apply NoDup_Permutation.
  - apply NoDup_filter, NoDup_filter, sinc_NoDup. apply (dedup_sinc _ (isort_le ids)).
  - apply NoDup_filter, NoDup_zrange.
  - intro x. rewrite !filter_In, in_zrange, dedup_In, isort_In.
    rewrite (zmem_In x ids). rewrite andb_true_iff, !Z.leb_le, !Z.ltb_lt. intuition lia.
Qed.

(** ** The invariant *)
Record wf_db (d : db) : Prop := {
  w_subs : NoDup (map t_sub (thin_rows d));
  w_nonneg : Forall (fun r => 0 <= t_sub r)%Z (thin_rows d);
  w_cids : NoDup (map f_cid (fat_rows d));
  w_same : map t_cid (thin_rows d) = map f_cid (fat_rows d);
  w_tlen : Forall (fun r => length (t_vals r) = length (thin_cols d)) (thin_rows d);
  w_flen : Forall (fun r => length (f_vals r) = length (fat_cols d)) (fat_rows d);
  w_tcols : NoDup (map ci (subset_column :: content_column :: map c_name (thin_cols d)));
  w_fcols : NoDup (map ci (content_column :: map c_name (fat_cols d)));
  w_thin : Forall (fun c => is_thin_column (c_name c) = true /\ is_valid_column_name (c_name c) = true) (thin_cols d);
  w_fat : Forall (fun c => is_thin_column (c_name c) = false /\ is_valid_column_name (c_name c) = true) (fat_cols d) }.
Definition wf (s : store) : Prop := match s with Db d => wf_db d | _ => True end.

Lemma filter_none {A} (p : A -> bool) l : (forall x, In x l -> p x = false) -> filter p l = [].
Proof.
  induction l as [|x l IH]; cbn; intro H; auto.
  rewrite (H x) by auto. apply IH. intros; apply H; auto.
Qed.
Lemma joined_pairs thin : forall pre fat,
  NoDup (map f_cid (pre ++ fat)) -> map t_cid thin = map f_cid fat ->
  flat_map (fun t => map (pair t) (filter (fun f => (f_cid f =? t_cid t)%Z) (pre ++ fat))) thin = combine thin fat.
Proof.
  induction thin as [|t thin IH]; intros pre [|f fat] ND Eq; cbn in Eq; try discriminate; auto.
  injection Eq as E1 E2. cbn [flat_map combine].
  replace (filter (fun f0 => (f_cid f0 =? t_cid t)%Z) (pre ++ f :: fat)) with [f].
  - cbn [map app]. f_equal. replace (pre ++ f :: fat) with ((pre ++ [f]) ++ fat) in * by (rewrite <- app_assoc; reflexivity).
    apply IH; auto.
  - rewrite map_app in ND. cbn [map] in ND. apply NoDup_remove_2 in ND.
    rewrite filter_app. cbn [filter]. rewrite E1, Z.eqb_refl.
    rewrite (filter_none _ pre), (filter_none _ fat); auto.
    + intros x Hx. apply Z.eqb_neq. intro C. apply ND. apply in_or_app. right. rewrite <- C. apply in_map; auto.
    + intros x Hx. apply Z.eqb_neq. intro C. apply ND. apply in_or_app. left. rewrite <- C. apply in_map; auto.
Qed.
Lemma joined_combine d : wf_db d -> joined d = combine (thin_rows d) (fat_rows d).
Proof. intro W. apply (joined_pairs _ []); [apply (w_cids _ W)|apply (w_same _ W)]. Qed.
Lemma rows_length d : wf_db d -> length (thin_rows d) = length (fat_rows d).
Proof. intro W. rewrite <- (map_length t_cid), <- (map_length f_cid (fat_rows d)). f_equal. apply (w_same _ W). Qed.
Lemma map_fst_combine {A B} (a : list A) (b : list B) : length a = length b -> map fst (combine a b) = a.
Proof. revert b. induction a as [|x a IH]; intros [|y b] H; cbn in *; try discriminate; auto. f_equal. apply IH. lia. Qed.
Lemma map_snd_combine {A B} (a : list A) (b : list B) : length a = length b -> map snd (combine a b) = b.
Proof. revert b. induction a as [|x a IH]; intros [|y b] H; cbn in *; try discriminate; auto. f_equal. apply IH. lia. Qed.

(** ** Lookup *)
Definition rows (d : db) : list (thin_row * fat_row) := combine (thin_rows d) (fat_rows d).
Definition sub_of (r : thin_row * fat_row) : Z := t_sub (fst r).
Definition lookup (l : list (thin_row * fat_row)) (i : Z) : option (thin_row * fat_row) :=
  find (fun r => (sub_of r =? i)%Z) l.
Definition fields (E : engine) (d : db) (r : thin_row * fat_row) : list (text * json) :=
  combine (map c_name (thin_cols d)) (map (row_to_json_value E) (t_vals (fst r)))
    ++ combine (map c_name (fat_cols d)) (map (row_to_json_value E) (f_vals (snd r))).
Lemma subs_rows d : wf_db d -> map sub_of (rows d) = map t_sub (thin_rows d).
Proof.
  intro W. unfold sub_of, rows. rewrite <- (map_fst_combine (thin_rows d) (fat_rows d)) at 2 by (apply rows_length; auto).
  rewrite map_map. reflexivity.
Qed.
Lemma row_object_fields E d r : row_object E d r = JObj ((subset_column, JInt (sub_of r)) :: fields E d r).
Proof. destruct r; reflexivity. Qed.

Lemma find_filter_ne m x y : x <> y ->
  find (fun p : Z * json => (fst p =? x)%Z) (filter (fun p => negb (fst p =? y)%Z) m)
  = find (fun p => (fst p =? x)%Z) m.
Proof.
  intro H. induction m as [|p m IH]; cbn; auto.
  destruct (fst p =? y)%Z eqn:Ey; cbn [negb find].
  - replace (fst p =? x)%Z with false by lia. exact IH.
  - cbn [find]. destruct (fst p =? x)%Z; auto.
Qed.
Lemma find_filter_eq m y :
  find (fun p : Z * json => (fst p =? y)%Z) (filter (fun p => negb (fst p =? y)%Z) m) = None.
Proof.
  induction m as [|p m IH]; cbn; auto.
  destruct (fst p =? y)%Z eqn:Ey; cbn [negb find]; auto. cbn [find]. rewrite Ey. auto.
Qed.
Definition found (m : list (Z * json)) (id : Z) : list json :=
  match find (fun p => (fst p =? id)%Z) m with Some p => [snd p] | None => [] end.
Lemma flat_map_filter {A B} (f : A -> list B) p l :
  (forall x, In x l -> p x = false -> f x = []) -> flat_map f (filter p l) = flat_map f l.
Proof.
  induction l as [|x l IH]; cbn; intro H; auto.
  destruct (p x) eqn:Ep; cbn [flat_map]; rewrite IH by (intros; apply H; auto); auto.
  rewrite (H x) by auto. reflexivity.
Qed.
Lemma pick_firsts ids : forall m, pick m ids = flat_map (found m) (firsts ids).
Proof.
  induction ids as [|x ids IH]; intro m; cbn [pick firsts flat_map]; auto.
  unfold found at 1. destruct (find (fun p => (fst p =? x)%Z) m) as [p|] eqn:F.
  - rewrite IH. cbn [app]. f_equal.
    rewrite <- (flat_map_filter (found (filter (fun p0 => negb (fst p0 =? x)%Z) m)) (fun y => negb (y =? x)%Z)).
    + assert (G : forall l, flat_map (found (filter (fun p0 => negb (fst p0 =? x)%Z) m)) (filter (fun y => negb (y =? x)%Z) l)
                  = flat_map (found m) (filter (fun y => negb (y =? x)%Z) l)).
      { induction l as [|y l IHl]; cbn; auto. destruct (y =? x)%Z eqn:Ey; cbn [negb]; auto.
        cbn [flat_map]. rewrite IHl. f_equal. unfold found. rewrite find_filter_ne by lia. reflexivity. }
      apply G.
    + intros y _ Hy. unfold found. apply negb_false_iff, Z.eqb_eq in Hy. subst.
      rewrite find_filter_eq. reflexivity.
  - cbn [app]. rewrite IH. symmetry. apply flat_map_filter. intros y _ Hy.
    apply negb_false_iff, Z.eqb_eq in Hy. subst. unfold found. rewrite F. reflexivity.
Qed.
(** The map built from results that agree on equal ids *)
Lemma find_map_insert l : forall m x o,
  (forall p, In p l -> fst p = x -> snd p = o) ->
  find (fun p => (fst p =? x)%Z) (fold_left map_insert l m)
  = if existsb (fun p => (fst p =? x)%Z) l then Some (x, o) else find (fun p => (fst p =? x)%Z) m.
Proof.
  induction l as [|p l IH]; intros m x o H; cbn [fold_left existsb]; auto.
  rewrite (IH _ x o) by (intros; apply H; auto; right; auto).
  destruct (existsb (fun p0 => (fst p0 =? x)%Z) l); [rewrite orb_true_r; auto|].
  rewrite orb_false_r. unfold map_insert. cbn [find].
  destruct (fst p =? x)%Z eqn:Ep.
  - apply Z.eqb_eq in Ep. rewrite <- (H p (or_introl eq_refl) Ep). subst. destruct p; reflexivity.
  - apply find_filter_ne. lia.
Qed.
Lemma lookup_spec l i r : NoDup (map sub_of l) -> (lookup l i = Some r <-> In r l /\ sub_of r = i).
Proof.
  intros ND. unfold lookup. split.
  - intro H. apply find_some in H. destruct H as (H1 & H2). split; auto. lia.
  - intros (Hin & Hs). induction l as [|x l IH]; [contradiction|]. cbn [map] in ND. inversion ND as [|? ? N1 N2]; subst.
    cbn [find]. destruct Hin as [->|Hin].
    + rewrite Z.eqb_refl. reflexivity.
    + destruct (sub_of x =? sub_of r)%Z eqn:Ex; [|auto].
      exfalso. apply N1. replace (sub_of x) with (sub_of r) by lia. apply in_map; auto.
Qed.
Lemma lookup_none l i : lookup l i = None <-> ~ In i (map sub_of l).
Proof.
  unfold lookup. split; intro H.
  - intro C. apply in_map_iff in C. destruct C as (r & Hr & Hin).
    pose proof (find_none _ _ H r Hin) as F. cbn in F. lia.
  - destruct (find _ l) eqn:F; auto. apply find_some in F. destruct F as (H1 & H2).
    exfalso. apply H. replace i with (sub_of p) by lia. apply in_map; auto.
Qed.
Definition show (E : engine) (d : db) (id : Z) : list json :=
  match lookup (rows d) id with
  | Some r => [JObj ((subset_column, JInt id) :: fields E d r)]
  | None => []
  end.
Lemma get_ids_show E d ids : good_engine E -> wf_db d ->
  get_ids_v2 E d ids = flat_map (show E d) (firsts ids).
Proof.
  intros G W. unfold get_ids_v2. rewrite pick_firsts.
  set (res := flat_map _ (chunks param_limit ids)).
  assert (ND : NoDup (map sub_of (rows d))) by (rewrite subs_rows by auto; apply (w_subs _ W)).
  assert (R : forall p, In p res <-> exists r, In r (rows d) /\ In (sub_of r) ids /\ p = (sub_of r, row_object E d r)).
  { intro p. unfold res. rewrite in_flat_map. split.
    - intros (ch & Hch & Hp). apply in_map_iff in Hp. destruct Hp as (r & <- & Hr).
      unfold query in Hr. apply (Permutation_in _ (ge_scan _ G _)) in Hr. apply filter_In in Hr.
      destruct Hr as (Hr & Hm). apply zmem_In in Hm. rewrite joined_combine in Hr by auto.
      exists r. repeat split; auto. rewrite <- (concat_chunks param_limit ids) by (unfold param_limit; lia).
      apply in_concat. eauto.
    - intros (r & Hr & Hi & ->). rewrite <- (concat_chunks param_limit ids) in Hi by (unfold param_limit; lia).
      apply in_concat in Hi. destruct Hi as (ch & Hch & Hi). exists ch. split; auto.
      apply in_map_iff. exists r. split; auto. unfold query.
      apply (Permutation_in _ (Permutation_sym (ge_scan _ G _))). apply filter_In. split.
      + rewrite joined_combine by auto. exact Hr.
      + apply zmem_In. exact Hi. }
  assert (F : forall l, (forall x, In x l -> In x ids) -> flat_map (found (fold_left map_insert res [])) l = flat_map (show E d) l).
  { induction l as [|x l IH]; intro Hl; cbn [flat_map]; auto. rewrite IH by (intros; apply Hl; right; auto). f_equal.
    unfold found, show. destruct (lookup (rows d) x) as [r|] eqn:L.
    - apply lookup_spec in L; auto. destruct L as (Hr & Hs).
      rewrite (find_map_insert res [] x (row_object E d r)).
      + replace (existsb (fun p => (fst p =? x)%Z) res) with true.
        * cbn. rewrite row_object_fields, Hs. reflexivity.
        * symmetry. apply existsb_exists. exists (x, row_object E d r). split; [|cbn; lia].
          apply R. exists r. repeat split; auto; [|rewrite Hs; auto]. rewrite Hs. apply Hl. left. auto.
      + intros p Hp Hx. apply R in Hp. destruct Hp as (r' & Hr' & _ & ->). cbn in *.
        assert (r' = r); [|congruence].
        pose proof (proj2 (lookup_spec (rows d) x r' ND) (conj Hr' Hx)) as L1.
        pose proof (proj2 (lookup_spec (rows d) x r ND) (conj Hr Hs)) as L2. congruence.
    - rewrite (find_map_insert res [] x JNull).
      + replace (existsb (fun p => (fst p =? x)%Z) res) with false; auto.
        symmetry. apply not_true_iff_false. intro C. apply existsb_exists in C. destruct C as (p & Hp & Hx).
        apply R in Hp. destruct Hp as (r & Hr & _ & ->). cbn in Hx.
        apply (proj1 (lookup_none _ _) L). replace x with (sub_of r) by lia. apply in_map; auto.
      + intros p Hp Hx. apply R in Hp. destruct Hp as (r & Hr & _ & ->). cbn in Hx.
        exfalso. apply (proj1 (lookup_none _ _) L). rewrite <- Hx. apply in_map; auto. }
  apply F. intros x Hx. clear -Hx. induction ids as [|y ids IH]; cbn in Hx; auto.
  destruct Hx as [->|Hx]; [left; auto|]. right. apply filter_In in Hx. apply IH. tauto.
Qed.
Lemma row_at_lookup E d i : good_engine E -> wf_db d ->
  row_at E (Db d) i = option_map (fields E d) (lookup (rows d) i).
Proof.
  intros G W. unfold row_at, get_rows. rewrite get_ids_show by auto.
  cbn [firsts filter flat_map]. rewrite app_nil_r. unfold show.
  destruct (lookup (rows d) i); reflexivity.
Qed.
(** C25, ids: requested order, each existing id once. *)
Lemma get_by_ids E s ids : good_engine E -> wf s -> s <> Broken ->
  get_rows E s (Some ids)
  = Ok (flat_map (fun id => match row_at E s id with
                            | Some f => [JObj ((subset_column, JInt id) :: f)]
                            | None => []
                            end) (firsts ids)).
Proof.
  intros G W NB. destruct s as [| |d]; [|congruence|].
  - cbn. f_equal. induction (firsts ids); auto.
  - cbn [get_rows]. f_equal. rewrite get_ids_show by auto. apply flat_map_ext. intro id.
    rewrite row_at_lookup by auto. unfold show. destruct (lookup (rows d) id); reflexivity.
Qed.

(** ** Deletion *)
Definition kept_rows (ids : list Z) (l : list (thin_row * fat_row)) : list (thin_row * fat_row) :=
  filter (fun r => negb (zmem (sub_of r) ids)) l.
Definition moved (ids : list Z) (r : thin_row * fat_row) : thin_row * fat_row :=
  (set_sub (fst r) (renumbered ids (sub_of r)), snd r).
Lemma filter_combine_fst {A B} (p : A -> bool) (a : list A) (b : list B) : length a = length b ->
  map fst (filter (fun r => p (fst r)) (combine a b)) = filter p a.
Proof.
  revert b. induction a as [|x a IH]; intros [|y b] H; cbn in *; try discriminate; auto.
  destruct (p x); cbn; rewrite IH by lia; reflexivity.
Qed.
(** keeping the content rows of the kept rows keeps the two tables in step *)
Lemma orphans thin fat p : length thin = length fat -> NoDup (map f_cid fat) -> map t_cid thin = map f_cid fat ->
  filter (fun f => zmem (f_cid f) (map t_cid (filter p thin))) fat
  = map snd (filter (fun r => p (fst r)) (combine thin fat)).
Proof.
  intros Hl ND Eq.
  assert (H : forall pre th ft, NoDup (map f_cid (pre ++ ft)) -> map t_cid th = map f_cid ft ->
     forall l, (forall x, In x l -> In x (map f_cid pre)) ->
     filter (fun f => zmem (f_cid f) (l ++ map t_cid (filter p th))) ft
     = map snd (filter (fun r => p (fst r)) (combine th ft))).
  { clear. intros pre th. revert pre. induction th as [|t th IH]; intros pre [|f ft] ND Eq l Hl; cbn in Eq; try discriminate; auto.
    injection Eq as E1 E2. cbn [combine filter fst].
    assert (ND' : NoDup (map f_cid ((pre ++ [f]) ++ ft))) by (rewrite <- app_assoc; exact ND).
    destruct (p t) eqn:Ep; cbn [map].
    - replace (zmem (f_cid f) (l ++ t_cid t :: map t_cid (filter p th))) with true.
      + cbn [snd]. f_equal.
        replace (l ++ t_cid t :: map t_cid (filter p th)) with ((l ++ [t_cid t]) ++ map t_cid (filter p th))
          by (rewrite <- app_assoc; reflexivity).
        apply (IH (pre ++ [f])); auto. intros x Hx. rewrite map_app. apply in_app_or in Hx. apply in_or_app.
        destruct Hx as [Hx|[Hx|[]]]; [left; auto|right]. left. congruence.
      + symmetry. apply zmem_In. apply in_or_app. right. left. congruence.
    - replace (zmem (f_cid f) (l ++ map t_cid (filter p th))) with false.
      + apply (IH (pre ++ [f])); auto. intros x Hx. rewrite map_app. apply in_or_app. left. auto.
      + symmetry. apply zmem_not. intro C. rewrite map_app in ND. cbn [map] in ND. apply NoDup_remove_2 in ND.
        apply ND. apply in_or_app. apply in_app_or in C. destruct C as [C|C]; [left; auto|right].
        rewrite <- E2. apply in_map_iff in C. destruct C as (x & Hx & C). apply filter_In in C.
        rewrite <- Hx. apply in_map. tauto. }
  apply (H [] thin fat ND Eq []). intros x [].
Qed.
Lemma combine_map_split {A B C D} (f : A -> C) (g : B -> D) l (m : list (A * B)) :
  l = m -> combine (map f (map fst l)) (map g (map snd m)) = map (fun r => (f (fst r), g (snd r))) m.
Proof. intros ->. induction m as [|r m IH]; cbn; auto. f_equal. exact IH. Qed.
Lemma delete_rows d ids : wf_db d ->
  let '(d', n) := delete_v2 d ids in
  thin_cols d' = thin_cols d /\ fat_cols d' = fat_cols d
  /\ thin_rows d' = map fst (map (moved ids) (kept_rows ids (rows d)))
  /\ fat_rows d' = map snd (map (moved ids) (kept_rows ids (rows d)))
  /\ n = length (filter (fun r => zmem (sub_of r) ids) (rows d)).
Proof.
  intro W. unfold delete_v2. pose proof (rows_length _ W) as Hl.
  set (kept := filter (fun r => negb (zmem (t_sub r) ids)) (thin_rows d)).
  assert (K : kept = map fst (kept_rows ids (rows d))).
  { unfold kept, kept_rows, rows, sub_of. symmetry.
    apply (filter_combine_fst (fun r => negb (zmem (t_sub r) ids))). auto. }
  set (N := (max_or (map t_sub (thin_rows d)) + 1)%Z).
  set (sorted := filter _ (dedup Z.eqb (isort Z.leb ids))).
  assert (M : match sorted with
      | [] => kept
      | first :: rest =>
          if (0 <=? max_or (map t_sub kept))%Z
          then fold_left shift_rows (range_updates 1 first rest (max_or (map t_sub kept) + Z.of_nat (length sorted) + 1)) kept
          else kept
      end = map (fun r => set_sub r (renumbered ids (t_sub r))) kept).
  { assert (Hk : forall r, In r kept -> (0 <= t_sub r <= N)%Z /\ ~ In (t_sub r) ids /\ (t_sub r <= max_or (map t_sub kept))%Z).
    { intros r Hr. split; [|split].
      - apply filter_In in Hr. destruct Hr as (Hr & _). pose proof (proj1 (Forall_forall _ _) (w_nonneg _ W) r Hr).
        pose proof (max_or_ge (map t_sub (thin_rows d)) (t_sub r) (in_map _ _ _ Hr)). unfold N. cbn in *. lia.
      - apply filter_In in Hr. destruct Hr as (_ & Hr). apply negb_true_iff, zmem_not in Hr. auto.
      - apply max_or_ge, in_map; auto. }
    assert (Sn : forall v, (0 <= v <= N)%Z -> nbelow v sorted = Z.to_nat (deleted_below ids v)).
    { intros v Hv. apply nbelow_sorted. auto. }
    assert (Ss : sinc sorted) by (apply sinc_filter, dedup_sinc, isort_le).
    assert (Si : forall x, In x sorted -> In x ids).
    { intros x Hx. apply filter_In in Hx. destruct Hx as (Hx & _). rewrite dedup_In, isort_In in Hx. auto. }
    assert (Id : (forall r, In r kept -> nbelow (t_sub r) sorted = 0) -> kept = map (fun r => set_sub r (renumbered ids (t_sub r))) kept).
    { intro Z0. rewrite <- (map_id kept) at 1. apply map_ext_in. intros r Hr.
      unfold renumbered. destruct (Hk r Hr) as (H1 & H2 & H3). specialize (Z0 r Hr). rewrite Sn in Z0 by auto.
      assert (deleted_below ids (t_sub r) = 0)%Z by (unfold deleted_below in *; lia).
      rewrite H, Z.sub_0_r. destruct r; reflexivity. }
    destruct sorted as [|first rest] eqn:Es.
    - apply Id. intros; reflexivity.
    - destruct (0 <=? max_or (map t_sub kept))%Z eqn:Em.
      + rewrite shift_rows_fold. apply map_ext_in. intros r Hr. f_equal.
        destruct (Hk r Hr) as (H1 & H2 & H3).
        assert (Nf : t_sub r <> first) by (intro C; apply H2; rewrite C; apply Si; left; auto).
        assert (Nr : ~ In (t_sub r) rest) by (intro C; apply H2, Si; right; auto).
        destruct (sinc_inv _ _ Ss) as (Ss' & Fs).
        unfold renumbered. rewrite <- (Z2Nat.id (deleted_below ids (t_sub r))) by (unfold deleted_below; lia).
        rewrite <- Sn by auto.
        destruct (Z.lt_ge_cases (t_sub r) first) as [L|L].
        * rewrite range_low by (auto; lia). rewrite nbelow_ge; [lia|].
          constructor; [lia|]. eapply Forall_impl; [|exact Fs]. cbn; intros; lia.
        * destruct (Z.lt_ge_cases (t_sub r) (max_or (map t_sub kept) + Z.of_nat (length (first :: rest)) + 1)) as [L2|L2];
            [|cbn [length] in L2; lia].
          rewrite (range_high rest) by (auto; lia).
          unfold nbelow. cbn [filter]. replace (first <? t_sub r)%Z with true by lia. cbn [length]. lia.
      + assert (kept = []) as ->; [|reflexivity].
        destruct kept as [|r k]; auto. exfalso. destruct (Hk r (or_introl eq_refl)) as (H1 & H2 & H3). lia. }
  rewrite M. cbn [thin_cols fat_cols thin_rows fat_rows]. repeat split.
  - rewrite K. rewrite !map_map. reflexivity.
  - unfold kept. rewrite (orphans (thin_rows d) (fat_rows d) (fun r => negb (zmem (t_sub r) ids))); auto;
      [|apply (w_cids _ W)|apply (w_same _ W)].
    rewrite map_map. reflexivity.
  - rewrite K, map_length. unfold kept_rows.
    assert (length (thin_rows d) = length (rows d)) as -> by (unfold rows; rewrite combine_length; lia).
    pose proof (filter_neg_length (fun r => zmem (sub_of r) ids) (rows d)). lia.
Qed.

Definition db_of (tc fc : list column) (l : list (thin_row * fat_row)) : db :=
  {| thin_cols := tc; fat_cols := fc; thin_rows := map fst l; fat_rows := map snd l |}.
Lemma combine_fst_snd {A B} (l : list (A * B)) : combine (map fst l) (map snd l) = l.
Proof. induction l as [|(a, b) l IH]; cbn; auto. f_equal. exact IH. Qed.
Lemma rows_db_of tc fc l : rows (db_of tc fc l) = l.
Proof. apply combine_fst_snd. Qed.
Lemma db_of_rows d : wf_db d -> d = db_of (thin_cols d) (fat_cols d) (rows d).
Proof.
  intro W. unfold db_of, rows. rewrite map_fst_combine, map_snd_combine by (apply rows_length; auto).
  destruct d; reflexivity.
Qed.
(** the row part of the invariant, on pairs *)
Definition rows_ok (nt nf : nat) (l : list (thin_row * fat_row)) : Prop :=
  NoDup (map sub_of l) /\ NoDup (map (fun r => f_cid (snd r)) l)
  /\ Forall (fun r => (0 <= sub_of r)%Z /\ t_cid (fst r) = f_cid (snd r)
                      /\ length (t_vals (fst r)) = nt /\ length (f_vals (snd r)) = nf) l.
Definition cols_ok (tc fc : list column) : Prop :=
  NoDup (map ci (subset_column :: content_column :: map c_name tc))
  /\ NoDup (map ci (content_column :: map c_name fc))
  /\ Forall (fun c => is_thin_column (c_name c) = true /\ is_valid_column_name (c_name c) = true) tc
  /\ Forall (fun c => is_thin_column (c_name c) = false /\ is_valid_column_name (c_name c) = true) fc.
Lemma wf_db_of tc fc l : cols_ok tc fc -> rows_ok (length tc) (length fc) l -> wf_db (db_of tc fc l).
Proof.
  intros (C1 & C2 & C3 & C4) (R1 & R2 & R3). rewrite Forall_forall in R3.
  constructor; cbn [thin_cols fat_cols thin_rows fat_rows db_of]; auto.
  - rewrite map_map. exact R1.
  - apply Forall_forall. intros t Ht. apply in_map_iff in Ht. destruct Ht as (r & <- & Hr). apply (R3 r Hr).
  - rewrite map_map. exact R2.
  - rewrite !map_map. apply map_ext_in. intros r Hr. apply (R3 r Hr).
  - apply Forall_forall. intros t Ht. apply in_map_iff in Ht. destruct Ht as (r & <- & Hr). apply (R3 r Hr).
  - apply Forall_forall. intros t Ht. apply in_map_iff in Ht. destruct Ht as (r & <- & Hr). apply (R3 r Hr).
Qed.
Lemma wf_parts d : wf_db d -> cols_ok (thin_cols d) (fat_cols d) /\ rows_ok (length (thin_cols d)) (length (fat_cols d)) (rows d).
Proof.
  intro W. split; [repeat split; apply W|]. pose proof (rows_length _ W) as Hl.
  split; [rewrite subs_rows by auto; apply (w_subs _ W)|].
  split.
  - rewrite <- (map_map snd f_cid). unfold rows. rewrite map_snd_combine by auto. apply (w_cids _ W).
  - apply Forall_forall. intros (t, f) Hr. pose proof (in_combine_l _ _ _ _ Hr) as Ht. pose proof (in_combine_r _ _ _ _ Hr) as Hf.
    pose proof (proj1 (Forall_forall _ _) (w_nonneg _ W) t Ht).
    pose proof (proj1 (Forall_forall _ _) (w_tlen _ W) t Ht).
    pose proof (proj1 (Forall_forall _ _) (w_flen _ W) f Hf). cbn in *.
    repeat split; auto.
    assert (G : forall a b, map t_cid a = map f_cid b -> In (t, f) (combine a b) -> t_cid t = f_cid f).
    { clear. induction a as [|x a IH]; intros [|y b] E Hin; cbn in *; try contradiction; try discriminate.
      injection E as E1 E2. destruct Hin as [Hin|Hin]; [injection Hin as -> ->; auto|eauto]. }
    apply (G _ _ (w_same _ W) Hr).
Qed.
Lemma NoDup_map_filter {A B} (f : A -> B) p l : NoDup (map f l) -> NoDup (map f (filter p l)).
Proof.
  induction l as [|x l IH]; cbn; intro H; auto. inversion H as [|? ? N1 N2]; subst.
  destruct (p x); auto. cbn. constructor; auto. intro C. apply N1.
  apply in_map_iff in C. destruct C as (y & <- & Hy). apply filter_In in Hy. apply in_map. tauto.
Qed.
Lemma NoDup_map_inj {A B C} (f : A -> B) (g : A -> C) l :
  NoDup (map f l) -> (forall x y, In x l -> In y l -> g x = g y -> f x = f y) -> NoDup (map g l).
Proof.
  induction l as [|x l IH]; cbn; intros H I; constructor; inversion H as [|? ? N1 N2]; subst.
  - intro C0. apply N1. apply in_map_iff in C0. destruct C0 as (y & Ey & Hy).
    rewrite (I x y (or_introl eq_refl) (or_intror Hy) (eq_sym Ey)). apply in_map; auto.
  - apply IH; auto.
Qed.
Lemma rows_ok_moved nt nf ids l : rows_ok nt nf l -> rows_ok nt nf (map (moved ids) (kept_rows ids l)).
Proof.
  intros (R1 & R2 & R3). rewrite Forall_forall in R3. split; [|split].
  - rewrite map_map. apply (NoDup_map_inj sub_of); [apply NoDup_map_filter; auto|].
    intros x y Hx Hy E. unfold kept_rows in *. apply filter_In in Hx. apply filter_In in Hy.
    destruct Hx as (Hx & Nx). destruct Hy as (Hy & Ny). apply negb_true_iff, zmem_not in Nx. apply negb_true_iff, zmem_not in Ny.
    apply (renumbered_inj ids); auto; [apply (R3 x Hx)|apply (R3 y Hy)].
  - rewrite map_map. cbn. apply NoDup_map_filter; auto.
  - apply Forall_forall. intros r Hr. apply in_map_iff in Hr. destruct Hr as (r0 & <- & Hr).
    apply filter_In in Hr. destruct Hr as (Hr & _). destruct (R3 r0 Hr) as (H1 & H2 & H3 & H4).
    repeat split; auto. apply renumbered_nonneg; auto.
Qed.
Lemma delete_v2_db d ids : wf_db d ->
  delete_v2 d ids = (db_of (thin_cols d) (fat_cols d) (map (moved ids) (kept_rows ids (rows d))),
                     length (filter (fun r => zmem (sub_of r) ids) (rows d))).
Proof.
  intro W. pose proof (delete_rows d ids W) as H. destruct (delete_v2 d ids) as (d', n).
  destruct H as (H1 & H2 & H3 & H4 & H5). f_equal; auto. unfold db_of. destruct d'; cbn in *. subst. reflexivity.
Qed.
Lemma wf_delete d ids : wf_db d -> wf_db (fst (delete_v2 d ids)).
Proof.
  intro W. rewrite delete_v2_db by auto. cbn [fst]. destruct (wf_parts d W) as (C & R).
  apply wf_db_of; auto. apply rows_ok_moved; auto.
Qed.

(** ** The store as a list *)
Lemma nth_error_filter {A} (p : A -> bool) l : forall j x, nth_error (filter p l) j = Some x ->
  exists l1 l2, l = l1 ++ x :: l2 /\ p x = true /\ length (filter p l1) = j.
Proof.
  induction l as [|y l IH]; intros j x H; cbn in H; [destruct j; discriminate|].
  destruct (p y) eqn:Ey.
  - destruct j as [|j]; cbn in H.
    + injection H as ->. exists [], l. auto.
    + destruct (IH _ _ H) as (l1 & l2 & -> & Hx & Hj). exists (y :: l1), l2. repeat split; auto.
      cbn. rewrite Ey. cbn. lia.
  - destruct (IH _ _ H) as (l1 & l2 & -> & Hx & Hj). exists (y :: l1), l2. repeat split; auto.
    cbn. rewrite Ey. auto.
Qed.
Lemma filter_fst_combine_len {A} (p : Z -> bool) (zs : list Z) (L : list A) : length zs = length L ->
  length (filter (fun q => p (fst q)) (combine zs L)) = length (filter p zs).
Proof.
  revert L. induction zs as [|z zs IH]; intros [|x L] H; cbn in *; try discriminate; auto.
  destruct (p z); cbn; rewrite IH by lia; auto.
Qed.
Lemma delete_positions_at {A} ids (L : list A) n x : nth_error L n = Some x -> ~ In (Z.of_nat n) ids ->
  nth_error (delete_positions ids L) (Z.to_nat (renumbered ids (Z.of_nat n))) = Some x.
Proof.
  intros Hn Hd. apply nth_error_split in Hn. destruct Hn as (l1 & l2 & -> & Hl).
  unfold delete_positions. rewrite app_length. cbn [length].
  replace (length l1 + S (length l2)) with (length l1 + (1 + length l2)) by lia.
  rewrite !seq_app, !map_app.
  assert (CA : forall (a1 : list Z) (b1 : list A) a2 b2, length a1 = length b1 -> combine (a1 ++ a2) (b1 ++ b2) = combine a1 b1 ++ combine a2 b2).
  { induction a1 as [|u a1 IH]; intros [|w b1] a2 b2 H; cbn in *; try discriminate; auto. f_equal. apply IH. lia. }
  rewrite CA by (rewrite map_length, seq_length; auto).
  cbn [seq map app combine]. rewrite filter_app, map_app. cbn [filter fst].
  rewrite Nat.add_0_l, Hl. replace (existsb (Z.eqb (Z.of_nat n)) ids) with false by (symmetry; apply zmem_not; auto).
  cbn [negb map snd]. rewrite renumbered_kept by lia. rewrite !Nat2Z.id.
  assert (FL : length (filter (fun p : Z * A => negb (existsb (Z.eqb (fst p)) ids)) (combine (map Z.of_nat (seq 0 n)) l1))
             = length (filter (fun z => negb (existsb (Z.eqb z) ids)) (map Z.of_nat (seq 0 n)))).
  { apply (filter_fst_combine_len (fun z => negb (existsb (Z.eqb z) ids))). rewrite map_length, seq_length. auto. }
  rewrite nth_error_app2; rewrite map_length, FL; auto.
  rewrite Nat.sub_diag. reflexivity.
Qed.
Lemma delete_positions_inv {A} ids (L : list A) j x : nth_error (delete_positions ids L) j = Some x ->
  exists n, nth_error L n = Some x /\ ~ In (Z.of_nat n) ids /\ Z.of_nat j = renumbered ids (Z.of_nat n).
Proof.
  intro H. unfold delete_positions in H. rewrite nth_error_map in H.
  destruct (nth_error (filter _ _) j) as [q|] eqn:F; [|discriminate]. injection H as <-.
  apply nth_error_filter in F. destruct F as (l1 & l2 & E & Hq & Hj).
  set (zs := map Z.of_nat (seq 0 (length L))) in *.
  assert (Hz : length zs = length L) by (unfold zs; rewrite map_length, seq_length; auto).
  exists (length l1).
  assert (N1 : nth_error (combine zs L) (length l1) = Some q).
  { rewrite E. rewrite nth_error_app2, Nat.sub_diag by lia. reflexivity. }
  assert (N2 : nth_error zs (length l1) = Some (fst q)).
  { rewrite <- (map_fst_combine zs L) by auto. rewrite nth_error_map, N1. reflexivity. }
  assert (N3 : nth_error L (length l1) = Some (snd q)).
  { rewrite <- (map_snd_combine zs L) by auto. rewrite nth_error_map, N1. reflexivity. }
  assert (Hlt : length l1 < length L) by (apply nth_error_Some; rewrite N3; discriminate).
  assert (Q : fst q = Z.of_nat (length l1)).
  { unfold zs in N2. rewrite nth_error_map in N2.
    rewrite (nth_error_nth' _ 0) in N2 by (rewrite seq_length; auto). rewrite seq_nth in N2 by auto. cbn in N2. congruence. }
  split; auto. split.
  - rewrite <- Q. apply negb_true_iff in Hq. apply zmem_not. exact Hq.
  - rewrite renumbered_kept by lia. rewrite Nat2Z.id. f_equal. rewrite <- Hj.
    assert (M : map fst l1 = map Z.of_nat (seq 0 (length l1))).
    { assert (map fst (combine zs L) = map fst l1 ++ fst q :: map fst l2) by (rewrite E, map_app; reflexivity).
      rewrite map_fst_combine in H by auto. unfold zs in H.
      replace (length L) with (length l1 + (length L - length l1)) in H by lia.
      rewrite seq_app, map_app in H.
      assert (T : forall (a b c e : list Z), length a = length b -> a ++ c = b ++ e -> a = b).
      { induction a as [|u a IH]; intros [|w b] c e Hab Hac; cbn in *; try discriminate; auto.
        injection Hac as -> Hac. f_equal. eapply IH; eauto. }
      symmetry. eapply T; [|exact H]. rewrite !map_length, seq_length. reflexivity. }
    rewrite <- M. clear. induction l1 as [|r l1 IH]; cbn; auto. destruct (existsb (Z.eqb (fst r)) ids); cbn; auto.
Qed.
Lemma delete_row_list E s ids s' r L : good_engine E -> wf s -> delete s ids = (s', r) ->
  row_list E s L -> s <> Broken ->
  row_list E s' (delete_positions ids L)
  /\ r = Ok (length (filter (fun i => match row_at E s i with Some _ => true | None => false end) (firsts ids))).
Proof.
  intros G W D RL NB.
  assert (Empty : forall d, d = NoDb -> row_list E d (delete_positions ids L) -> True) by auto. clear Empty.
  destruct s as [| |d]; [|congruence|].
  - assert (s' = NoDb /\ r = Ok 0) as (-> & ->) by (destruct ids; cbn in D; split; congruence).
    split.
    + intro i. cbn. unfold at_pos. destruct (i <? 0)%Z; auto.
      destruct (nth_error (delete_positions ids L) (Z.to_nat i)) as [o|] eqn:F; auto.
      apply delete_positions_inv in F. destruct F as (n & Hn & _ & _).
      specialize (RL (Z.of_nat n)). cbn in RL. unfold at_pos in RL.
      replace (Z.of_nat n <? 0)%Z with false in RL by lia. rewrite Nat2Z.id, Hn in RL. auto.
    + f_equal. induction (firsts ids); auto.
  - cbn [wf] in W.
    assert (D' : s' = Db (fst (delete_v2 d ids)) /\ r = Ok (snd (delete_v2 d ids))).
    { destruct ids as [|i0 ids0].
      - cbn in D. injection D as <- <-. rewrite delete_v2_db by auto. cbn [fst snd]. split.
        + rewrite (db_of_rows d W) at 1. do 2 f_equal. unfold kept_rows.
          assert (Ft : forall l, map (moved []) (filter (fun r => negb (zmem (sub_of r) [])) l) = l).
          { induction l as [|r l IH]; cbn; auto. f_equal; auto. destruct r as ([a b c], f). unfold moved, renumbered, deleted_below.
            cbn [existsb]. rewrite filter_none by auto. cbn. rewrite Z.sub_0_r. reflexivity. }
          symmetry. apply Ft.
        + f_equal. symmetry. rewrite filter_none; auto.
      - cbn [delete] in D. destruct (delete_v2 d (i0 :: ids0)). injection D as <- <-. split; reflexivity. }
    destruct D' as (-> & ->). pose proof (wf_delete d ids W) as W'. rewrite delete_v2_db in * by auto. cbn [fst snd] in *.
    destruct (wf_parts d W) as (C & R). pose proof (rows_ok_moved _ _ ids _ R) as R'.
    set (d' := db_of (thin_cols d) (fat_cols d) (map (moved ids) (kept_rows ids (rows d)))) in *.
    assert (Fd : forall r, fields E d' (moved ids r) = fields E d r) by (intros; reflexivity).
    assert (Hr : forall i, row_at E (Db d') i = option_map (fields E d') (lookup (rows d') i)) by (intro; apply row_at_lookup; auto).
    assert (H0 : forall i, row_at E (Db d) i = option_map (fields E d) (lookup (rows d) i)) by (intro; apply row_at_lookup; auto).
    assert (Rd : rows d' = map (moved ids) (kept_rows ids (rows d))) by apply rows_db_of.
    split.
    + assert (Fwd : forall n f, ~ In (Z.of_nat n) ids -> row_at E (Db d) (Z.of_nat n) = Some f ->
                 row_at E (Db d') (renumbered ids (Z.of_nat n)) = Some f).
      { intros n f Nn Hf. rewrite H0 in Hf. destruct (lookup (rows d) (Z.of_nat n)) as [q|] eqn:Lq; [|discriminate].
        apply lookup_spec in Lq; [|apply R]. destruct Lq as (Hq & Sq).
        rewrite Hr. rewrite (proj2 (lookup_spec (rows d') (renumbered ids (Z.of_nat n)) (moved ids q) ltac:(rewrite Rd; apply R'))).
        - cbn [option_map]. rewrite Fd. exact Hf.
        - split; [|unfold moved, sub_of at 1; cbn; rewrite <- Sq; reflexivity].
          rewrite Rd. apply in_map. apply filter_In. split; auto. rewrite Sq. apply negb_true_iff, zmem_not. auto. }
      intro w. destruct (row_at E (Db d') w) as [f|] eqn:Fw.
      * rewrite Hr in Fw. destruct (lookup (rows d') w) as [q|] eqn:Lq; [|discriminate].
        apply lookup_spec in Lq; [|rewrite Rd; apply R']. destruct Lq as (Hq & Sq). rewrite Rd in Hq.
        apply in_map_iff in Hq. destruct Hq as (q0 & <- & Hq). apply filter_In in Hq. destruct Hq as (Hq & Nq).
        apply negb_true_iff, zmem_not in Nq. cbn in Sq.
        assert (Pq : (0 <= sub_of q0)%Z) by (destruct R as (_ & _ & R3); rewrite Forall_forall in R3; apply (R3 q0 Hq)).
        pose proof (RL (sub_of q0)) as RQ. rewrite H0 in RQ.
        rewrite (proj2 (lookup_spec (rows d) (sub_of q0) q0 ltac:(apply R)) (conj Hq eq_refl)) in RQ.
        cbn [option_map] in RQ, Fw. unfold at_pos in RQ. replace (sub_of q0 <? 0)%Z with false in RQ by lia.
        destruct (nth_error L (Z.to_nat (sub_of q0))) as [o|] eqn:Lo; [|discriminate].
        pose proof (delete_positions_at ids L _ _ Lo) as DP. rewrite Z2Nat.id in DP by lia. specialize (DP Nq).
        unfold sub_of in Sq at 1. cbn in Sq. pose proof (renumbered_nonneg ids (sub_of q0) Pq).
        unfold sub_of in DP, H. unfold at_pos. rewrite <- Sq.
        destruct (Z.ltb_spec (renumbered ids (t_sub (fst q0))) 0); [lia|]. rewrite DP. rewrite <- Fw, Fd. auto.
      * unfold at_pos. destruct (w <? 0)%Z eqn:Ew; auto.
        destruct (nth_error (delete_positions ids L) (Z.to_nat w)) as [[f|]|] eqn:Nw; auto.
        apply delete_positions_inv in Nw. destruct Nw as (n & Hn & Nn & Hw). rewrite Z2Nat.id in Hw by lia.
        exfalso. specialize (Fwd n f Nn). rewrite <- Hw in Fwd. rewrite Fwd in Fw; [discriminate|].
        rewrite RL. unfold at_pos. replace (Z.of_nat n <? 0)%Z with false by lia. rewrite Nat2Z.id, Hn. reflexivity.
    + f_equal. rewrite <- (map_length sub_of). apply Permutation_length, NoDup_Permutation.
      * apply NoDup_map_filter. apply R.
      * apply NoDup_filter. clear. induction ids as [|x ids IH]; cbn; constructor.
        -- intro C. apply filter_In in C. destruct C as (_ & C). rewrite Z.eqb_refl in C. discriminate.
        -- apply NoDup_filter. auto.
      * intro x. rewrite in_map_iff, filter_In. 
        assert (FI : forall y, In y (firsts ids) <-> In y ids).
        { clear. induction ids as [|z ids IH]; intro y; cbn; [tauto|]. rewrite filter_In, IH, negb_true_iff, Z.eqb_neq.
          destruct (Z.eq_dec z y); intuition congruence. }
        rewrite FI, H0. split.
        -- intros (q & Sq & Hq). apply filter_In in Hq. destruct Hq as (Hq & Mq). apply zmem_In in Mq. rewrite Sq in Mq. split; auto.
           rewrite (proj2 (lookup_spec (rows d) x q ltac:(apply R)) (conj Hq Sq)). reflexivity.
        -- intros (Hx & Hs). destruct (lookup (rows d) x) as [q|] eqn:Lq; [|discriminate].
           apply lookup_spec in Lq; [|apply R]. destruct Lq as (Hq & Sq). exists q. split; auto. apply filter_In. split; auto.
           apply zmem_In. congruence.
Qed.
