(** Reading back what was stored (C57). *)
From Coq Require Import Permutation.
From Verif Require Import Base Text SqlModel SqlSpec MetaModel MetaQuery MetaSpec MetaProofs MetaCreate MetaContent MetaFilter MetaWhere.
Open Scope nat_scope.

Lemma field_of_app f g k : field_of (f ++ g) k = match field_of f k with Some x => Some x | None => field_of g k end.
Proof. unfold field_of. induction f as [|p f IH]; cbn [app find option_map]; auto. destruct (text_eqb _ _); auto. Qed.
Lemma field_of_nulls E cols k : field_of (combine (map c_name cols) (map (row_to_json_value E) (repeat SNull (length cols)))) k
  = if mem k (map c_name cols) then Some JNull else None.
Proof.
  unfold field_of, mem. induction cols as [|c cols IH]; auto. cbn [map length repeat combine find fst existsb].
  assert (text_eqb k (c_name c) = text_eqb (c_name c) k) as ->.
  { destruct (text_eqb (c_name c) k) eqn:Q; [apply text_eqb_eq in Q; subst; apply text_eqb_refl|]. apply text_eqb_neq. apply text_eqb_neq in Q. congruence. }
  destruct (text_eqb (c_name c) k); auto.
Qed.
Lemma combine_app2 {A B} (a1 a2 : list A) (b1 b2 : list B) : length a1 = length b1 -> combine (a1 ++ a2) (b1 ++ b2) = combine a1 b1 ++ combine a2 b2.
Proof. revert b1. induction a1 as [|a a1 IH]; intros [|b b1] H; try discriminate; auto. cbn. f_equal. apply IH. cbn in H. lia. Qed.
Lemma field_of_names f k x : field_of f k = Some x -> In k (map fst f).
Proof.
  unfold field_of. destruct (find _ f) as [p|] eqn:F; [|discriminate]. intros _. apply find_some in F. destruct F as (F1 & F2).
  apply text_eqb_eq in F2. subst. apply in_map. auto.
Qed.

Lemma create_reads E s md ids s' n : good_engine E -> wf s -> NoDup ids -> Forall (fun i => 0 <= i)%Z ids -> Forall item_ok md ->
  create E s md ids = (s', Ok n) ->
  n = length md /\ length ids = length md
  /\ (forall j, ~ In j ids -> row_at E s' j = None)
  /\ (forall i v id, nth_error md i = Some v -> nth_error ids i = Some id -> exists f, row_at E s' id = Some f /\ reflects E s' v f)
  /\ (forall v k x, In v md -> gives v k x -> x <> JNull -> uniform md k (kind x) -> declared s' k (kind x)).
Proof.
  intros G W N P I C.
  assert (El : length md = length ids /\ n = length md).
  { unfold create in C. destruct (length md =? length ids) eqn:Q; [|discriminate]. apply Nat.eqb_eq in Q. split; auto. cbn [negb] in C.
    destruct md; [injection C as _ <-; auto|]. destruct (try_fixed_schema _) as [[?|]| |]; try discriminate.
    - destruct (create_tables _); [|discriminate]. destruct (insert_rows _ _ _ _); [|discriminate]. congruence.
    - destruct (new_names _ _); try discriminate. destruct (create_tables _); [|discriminate]. destruct (insert_rows _ _ _ _); [|discriminate]. congruence. }
  destruct El as (El & ->). split; auto. split; auto.
  destruct md as [|m0 md0] eqn:Emd.
  { cbn in C. destruct ids; [|discriminate]. injection C as <-. split; [reflexivity|]. split; [intros [|?] ? ? H; discriminate|]. intros v k x []. }
  rewrite <- Emd in *. apply create_rows in C; auto; [|congruence]. destruct C as (d & -> & W' & C1 & C2 & C3).
  split; [|split].
  - intros j Hj. rewrite row_at_lookup, C1 by auto. reflexivity.
  - intros i v id Hv Hi. destruct (C2 i v id Hv Hi) as (r & Lr & Rf). rewrite row_at_lookup, Lr by auto. eexists. split; [reflexivity|].
    apply row_for_reflects; auto. rewrite Forall_forall in I. apply I. eapply nth_error_In; eauto.
  - intros v k x Hv Hg Nx U. exists d. split; auto. eapply C3; eauto.
Qed.
Lemma update_reads E s md ids s' n : good_engine E -> wf s -> NoDup ids -> Forall (fun i => 0 <= i /\ row_at E s i = None)%Z ids -> Forall item_ok md ->
  md <> [] -> update E s md ids = (s', Ok n) ->
  n = length md /\ length ids = length md
  /\ (forall j, ~ In j ids -> row_at E s j = None -> row_at E s' j = None)
  /\ (forall j f, ~ In j ids -> row_at E s j = Some f -> exists f', row_at E s' j = Some f'
        /\ forall k, field_of f' k = field_of f k \/ field_of f k = None /\ field_of f' k = Some JNull)
  /\ (forall i v id, nth_error md i = Some v -> nth_error ids i = Some id -> exists f, row_at E s' id = Some f /\ reflects E s' v f)
  /\ (forall k t, declared s k t -> declared s' k t)
  /\ (forall v k x, In v md -> gives v k x -> x <> JNull -> (forall t, ~ declared s k t) -> uniform md k (kind x) -> declared s' k (kind x)).
Proof.
  intros G W N P I Hm U.
  assert (El : length md = length ids /\ n = length md /\ exists d, s = Db d).
  { unfold update in U. destruct md as [|m0 md0] eqn:Emd; [congruence|]. rewrite <- Emd in *.
    destruct (length md =? length ids) eqn:Q; [|discriminate]. apply Nat.eqb_eq in Q. split; auto. cbn [negb] in U.
    destruct s; try discriminate. split; [|eauto]. destruct (new_names _ _); try discriminate. destruct (add_columns _ _ _); [|discriminate].
    destruct (add_columns _ _ _); [|discriminate]. destruct (insert_rows _ _ _ _); [|discriminate]. congruence. }
  destruct El as (El & -> & d & ->). cbn in W. destruct (update_rows E d md ids s' _ G W U Hm N P) as (d' & nt & nf & -> & W' & Et & Ef & U1 & U2 & U3).
  split; auto. split; auto. destruct (wf_parts d W) as (CO & RO). destruct (wf_parts d' W') as (CO' & RO').
  pose proof (names_NoDup _ _ CO') as NN. rewrite Et, Ef in NN.
  split; [|split; [|split; [|split]]].
  - intros j Hj H. rewrite row_at_lookup in * by auto. rewrite U1 by auto. destruct (lookup (rows d) j); [discriminate|auto].
  - intros j f Hj H. rewrite row_at_lookup in * by auto. rewrite U1 by auto. destruct (lookup (rows d) j) as [r|] eqn:Lr; [|discriminate]. cbn [option_map] in *.
    assert (Ef0 : f = fields E d r) by congruence. clear H. eexists. split; [reflexivity|]. intro k. subst f.
    apply lookup_spec in Lr; [|apply RO]. destruct Lr as (Lr & _). destruct RO as (_ & _ & RO). rewrite Forall_forall in RO. destruct (RO r Lr) as (_ & _ & L1 & L2).
    assert (Q : fields E d' (extend (length nt) (length nf) r)
      = (combine (map c_name (thin_cols d)) (map (row_to_json_value E) (t_vals (fst r))) ++ combine (map c_name nt) (map (row_to_json_value E) (repeat SNull (length nt))))
        ++ (combine (map c_name (fat_cols d)) (map (row_to_json_value E) (f_vals (snd r))) ++ combine (map c_name nf) (map (row_to_json_value E) (repeat SNull (length nf))))).
    { unfold fields, extend. cbn [fst snd t_vals f_vals]. rewrite Et, Ef, !map_app, !combine_app2; auto; rewrite !map_length; auto. }
    rewrite Q. unfold fields. rewrite !field_of_app, !field_of_nulls.
    destruct (field_of (combine (map c_name (thin_cols d)) _) k) as [x|] eqn:F1; auto.
    destruct (mem k (map c_name nt)) eqn:M1.
    + right. split; auto. destruct (field_of (combine (map c_name (fat_cols d)) _) k) as [y|] eqn:F2; auto. exfalso.
      apply field_of_names in F2. rewrite map_fst_combine in F2 by (rewrite !map_length; auto). apply mem_In in M1.
      rewrite map_app in NN. apply (NoDup_apart k _ _ NN); rewrite map_app; apply in_or_app; auto.
    + destruct (field_of (combine (map c_name (fat_cols d)) _) k) as [y|] eqn:F2; auto.
      destruct (mem k (map c_name nf)); auto.
  - intros i v id Hv Hi. destruct (U2 i v id Hv Hi) as (r & Lr & Rf). rewrite row_at_lookup, Lr by auto. eexists. split; [reflexivity|].
    apply row_for_reflects; auto. rewrite Forall_forall in I. apply I. eapply nth_error_In; eauto.
  - intros k t (d0 & Q & Hk). injection Q as <-. exists d'. split; auto. rewrite Et, Ef. rewrite !in_app_iff in *. tauto.
  - intros v k x Hv Hg Nx Nd Un. exists d'. split; auto.
    assert (Ik : exists i id, nth_error md i = Some v /\ nth_error ids i = Some id).
    { apply In_nth_error in Hv. destruct Hv as (i & Hi). destruct (nth_error ids i) as [id|] eqn:Q; eauto.
      apply nth_error_None in Q. assert (i < length md) by (apply nth_error_Some; congruence). lia. }
    destruct Ik as (i & id & Hi & Hid). destruct (U2 i v id Hi Hid) as (r & _ & (_ & _ & Rk)). specialize (Rk k x Hg).
    apply in_map_iff in Rk. destruct Rk as (c & Ec & Hc).
    assert (Old : ~ In c (thin_cols d ++ fat_cols d)).
    { intro Hc'. apply (Nd (c_type c)). exists d. split; auto. destruct c as [cn ct]. cbn in Ec. subst cn. exact Hc'. }
    assert (Hn : In c (nt ++ nf)) by (rewrite Et, Ef, !in_app_iff in Hc; rewrite !in_app_iff in *; tauto).
    destruct (U3 k c Hn Ec) as (_ & Tc). destruct c as [cn ct]. cbn in Ec, Tc. subst cn ct.
    rewrite (column_type_uniform md k (kind x) v x) in Hc; auto. apply Un.
Qed.

(** ** The rows of a store as a list; their number *)
Lemma at_pos_tabulate {A} (f : Z -> option A) n i : (forall j, (j < 0)%Z \/ (Z.of_nat n <= j)%Z -> f j = None) ->
  at_pos (map (fun k => f (Z.of_nat k)) (seq 0 n)) i = f i.
Proof.
  intro H. unfold at_pos. destruct (Z.ltb_spec i 0); [symmetry; apply H; lia|]. rewrite nth_error_map.
  destruct (nth_error (seq 0 n) (Z.to_nat i)) as [k|] eqn:Q.
  - assert (Z.to_nat i < n) by (rewrite <- (seq_length n 0); apply nth_error_Some; congruence).
    rewrite (nth_error_nth' _ 0), seq_nth in Q by (rewrite ?seq_length; auto). injection Q as <-. cbn [option_map]. f_equal. lia.
  - apply nth_error_None in Q. rewrite seq_length in Q. symmetry. apply H. lia.
Qed.
Lemma row_list_exists E s : good_engine E -> wf s -> exists L, row_list E s L.
Proof.
  intros G W. destruct s as [| |d].
  - exists []. intro i. cbn. unfold at_pos. destruct (i <? 0)%Z; auto. destruct (Z.to_nat i); auto.
  - exists []. intro i. cbn. unfold at_pos. destruct (i <? 0)%Z; auto. destruct (Z.to_nat i); auto.
  - exists (map (fun k => row_at E (Db d) (Z.of_nat k)) (seq 0 (Z.to_nat (max_or (map sub_of (rows d)) + 1)))).
    intro i. symmetry. apply at_pos_tabulate. intros j Hj. rewrite row_at_lookup by auto.
    destruct (lookup (rows d) j) as [r|] eqn:L; auto. exfalso.
    destruct (wf_parts d W) as (_ & (R1 & _ & R3)). apply lookup_spec in L; auto. destruct L as (L & Sr). rewrite Forall_forall in R3.
    destruct (R3 r L) as (P & _). pose proof (max_or_ge (map sub_of (rows d)) j). rewrite Sr in P.
    assert (In j (map sub_of (rows d))) by (rewrite <- Sr; apply in_map; auto). pose proof (max_or_neg (map sub_of (rows d))). specialize (H H0). lia.
Qed.
Definition has_item {A} (o : option A) : bool := match o with Some _ => true | None => false end.
Lemma count_positions {A} (L : list (option A)) : forall a, length (filter (fun i => has_item (at_pos L (i - a))) (zseq a (length L))) = length (filter has_item L).
Proof.
  induction L as [|o L IH]; intro a; auto. unfold zseq. cbn [length seq map filter].
  replace (a + Z.of_nat 0 - a)%Z with 0%Z by lia. change (at_pos (o :: L) 0) with o.
  assert (Q : length (filter (fun i => has_item (at_pos (o :: L) (i - a))) (map (fun i => (a + Z.of_nat i)%Z) (seq 1 (length L)))) = length (filter has_item L)).
  { rewrite <- (IH (a + 1)%Z). unfold zseq. rewrite <- seq_shift, map_map. f_equal.
    rewrite (map_ext _ (fun i => (a + 1 + Z.of_nat i)%Z)) by (intro; lia). apply filter_ext_in.
    intros i Hi. apply in_map_iff in Hi. destruct Hi as (k & <- & _). f_equal. unfold at_pos.
    destruct (Z.ltb_spec (a + 1 + Z.of_nat k - a) 0); [lia|]. destruct (Z.ltb_spec (a + 1 + Z.of_nat k - (a + 1)) 0); [lia|].
    replace (Z.to_nat (a + 1 + Z.of_nat k - a)) with (S k) by lia. replace (Z.to_nat (a + 1 + Z.of_nat k - (a + 1))) with k by lia. reflexivity. }
  destruct (has_item o); cbn [length]; rewrite Q; reflexivity.
Qed.
Lemma count_rows E s L : good_engine E -> wf s -> s <> Broken -> row_list E s L -> count s = Ok (length (filter has_item L)).
Proof.
  intros G W NB RL. rewrite <- (count_positions L 0%Z). destruct s as [| |d]; [|congruence|]; cbn [count]; f_equal.
  - symmetry. rewrite filter_none; auto. intros x _. rewrite Z.sub_0_r. rewrite <- RL. reflexivity.
  - cbn in W. destruct (wf_parts d W) as (_ & RO). rewrite <- (map_length t_sub), <- subs_rows by auto. apply Permutation_length, NoDup_Permutation.
    + apply RO.
    + apply NoDup_filter. apply zseq_NoDup.
    + intro i. rewrite filter_In, in_zseq, Z.sub_0_r, <- RL, row_at_lookup by auto.
      destruct (lookup (rows d) i) as [r|] eqn:Lk; cbn [option_map has_item].
      * assert (Hi : In i (map sub_of (rows d))) by (apply lookup_spec in Lk; [|apply RO]; destruct Lk as (H1 & <-); apply in_map; auto).
        split; auto. intros _. split; auto. pose proof (RL i) as Q. rewrite row_at_lookup, Lk in Q by auto. unfold at_pos in Q. destruct (Z.ltb_spec i 0); [discriminate|].
        destruct (nth_error L (Z.to_nat i)) eqn:Nn; [|discriminate]. assert (Z.to_nat i < length L) by (apply nth_error_Some; congruence). lia.
      * apply lookup_none in Lk. split; [contradiction|]. intros (_ & Q). discriminate.
Qed.

(** ** Distinct values of a column *)
Lemma resolve_one k : forall l, NoDup (map ci l) -> In k l -> filter (fun x => text_eqb (ci x) (ci k)) l = [k].
Proof.
  induction l as [|x l IH]; intros ND Hk; [contradiction|]. cbn in ND. inversion ND as [|? ? N1 N2]; subst. cbn [filter].
  destruct Hk as [->|Hk].
  - rewrite text_eqb_refl. f_equal. apply filter_none. intros y Hy. apply text_eqb_neq. intro E0. apply N1. rewrite <- E0. apply in_map; auto.
  - destruct (text_eqb (ci x) (ci k)) eqn:T; [|auto]. apply text_eqb_eq in T. exfalso. apply N1. rewrite T. apply in_map; auto.
Qed.
Lemma mapM_text vals l : mapM (fun v => match v with SText t => Ok t | _ => Err end) vals = Ok l -> vals = map SText l.
Proof.
  revert l. induction vals as [|v vals IH]; intros l H; [injection H as <-; auto|]. cbn [mapM] in H. destruct v; try discriminate. cbn [bind] in H.
  apply bind_Ok in H. destruct H as (l' & H & E). injection E as <-. cbn. f_equal. auto.
Qed.
Lemma mapM_text_total vals : (forall v, In v vals -> exists t, v = SText t) ->
  exists l, mapM (fun v => match v with SText t => Ok t | _ => Err end) vals = Ok l.
Proof.
  induction vals as [|v vals IH]; intro H; [eexists; reflexivity|]. destruct (H v) as (t & ->); [left; auto|].
  destruct IH as (l & Hl); [intros; apply H; right; auto|]. cbn [mapM bind]. rewrite Hl. eexists; reflexivity.
Qed.
Lemma column_values E d k v : good_engine E -> wf_db d -> distinct_names (Db d) -> In k (schema_columns d) ->
  In v (if is_thin_column k then map (fun r => snd (value_of (visible d false r) k)) (e_scan E (thin_only d))
        else map (fun r => snd (value_of (content_cells d r) k)) (e_scan E (content_only d)))
  <-> exists i, has_row (Db d) i /\ v = snd (value (Db d) i k).
Proof.
  intros G W D Hk. destruct (wf_parts d W) as (CO & RO). destruct CO as (C1 & C2 & C3 & C4). rewrite Forall_forall in C3, C4.
  unfold distinct_names, columns in D. rewrite map_app in D. change (map to_lower1) with ci in D. fold (schema_columns d) in D.
  destruct (is_thin_column k) eqn:T.
  - assert (Hk' : In k (subset_column :: content_column :: map c_name (thin_cols d)) /\ ci k <> ci content_column).
    { assert (Nk : k = subset_column \/ In k (map c_name (thin_cols d))).
      { destruct Hk as [<-|Hk]; auto. apply in_app_or in Hk. destruct Hk as [Hk|Hk]; auto.
        apply in_map_iff in Hk. destruct Hk as (c & <- & Hc). destruct (C4 c Hc). congruence. }
      split; [cbn; intuition auto|]. pose proof C1 as C1'. change (NoDup (ci subset_column :: ci content_column :: map ci (map c_name (thin_cols d)))) in C1'.
      apply NoDup_cons_iff in C1'. destruct C1' as (_ & C1'). apply NoDup_cons_iff in C1'. destruct C1' as (N3 & _).
      destruct Nk as [->|Nk]; [discriminate|]. intro Q. apply N3. rewrite <- Q. apply in_map; auto. }
    destruct Hk' as (Hk' & Nc).
    assert (R : resolves (visible_names d false) k = true).
    { unfold resolves, visible_names. rewrite app_nil_r. rewrite (resolve_one k _ C1 Hk'). reflexivity. }
    rewrite in_map_iff. split.
    + intros (r & <- & Hr). apply (Permutation_in _ (ge_scan _ G _)) in Hr. exists (sub_of r). split.
      * apply has_row_iff; auto. rewrite <- (plain_subs d W false). apply in_map. exact Hr.
      * rewrite value_agrees; auto.
    + intros (i & Hi & ->). apply has_row_iff in Hi; auto. rewrite <- (plain_subs d W false) in Hi. apply in_map_iff in Hi. destruct Hi as (r & <- & Hr).
      exists r. split; [rewrite value_agrees; auto|]. apply (Permutation_in _ (Permutation_sym (ge_scan _ G _))). exact Hr.
  - assert (Hf : In k (map c_name (fat_cols d))).
    { destruct Hk as [<-|Hk]; [discriminate|]. apply in_app_or in Hk. destruct Hk as [Hk|Hk]; auto.
      apply in_map_iff in Hk. destruct Hk as (c & <- & Hc). destruct (C3 c Hc). congruence. }
    assert (Nc : text_eqb (ci content_column) (ci k) = false).
    { change (NoDup (ci content_column :: map ci (map c_name (fat_cols d)))) in C2. apply NoDup_cons_iff in C2. apply text_eqb_neq. intro Q. apply (proj1 C2). rewrite Q. apply in_map; auto. }
    assert (V : forall i r, lookup (rows d) i = Some r -> snd (value_of (content_cells d r) k) = snd (value (Db d) i k)).
    { intros i r L. unfold value. rewrite find_cells, L by auto. cbn [option_map]. unfold value_of, content_cells. cbn [find fst]. rewrite Nc.
      change (NoDup (ci subset_column :: map ci (map c_name (thin_cols d) ++ map c_name (fat_cols d)))) in D. apply NoDup_cons_iff in D. destruct D as (N1 & N2).
      assert (same_name subset_column k = false) as ->.
      { apply text_eqb_neq. intro Q. apply N1. change (map to_lower1 subset_column) with (ci subset_column) in Q. change (map to_lower1 k) with (ci k) in Q. rewrite Q. apply in_map, in_or_app; auto. }
      change (fun p : text * (ctype * sqlv) => same_name (fst p) k) with (fun p : text * (ctype * sqlv) => text_eqb (ci (fst p)) (ci k)).
      rewrite find_app. fold (vis_fat d r).
      assert (find (fun p : text * (ctype * sqlv) => text_eqb (ci (fst p)) (ci k)) (vis d r) = None) as ->; [|reflexivity].
      apply lookup_spec in L; [|apply RO]. destruct RO as (_ & _ & R3). rewrite Forall_forall in R3. destruct (R3 r (proj1 L)) as (_ & _ & L1 & _).
      apply find_names; [rewrite combine_length, !map_length, L1; lia|]. apply filter_none. intros x Hx. apply text_eqb_neq. intro Q.
      rewrite map_app in N2. apply (NoDup_apart (ci k) _ _ N2); [rewrite <- Q|]; apply in_map; auto. }
    assert (Snd : forall f, In f (fat_rows d) <-> exists r, In r (rows d) /\ snd r = f).
    { intro f. pose proof (rows_length d W) as L. rewrite <- (map_snd_combine (thin_rows d) (fat_rows d) L). rewrite in_map_iff. split; intros (r & H1 & H2); exists r; auto. }
    rewrite in_map_iff. split.
    + intros (r & <- & Hr). apply (Permutation_in _ (ge_scan _ G _)) in Hr. unfold content_only in Hr. apply in_map_iff in Hr. destruct Hr as (f & <- & Hf').
      apply Snd in Hf'. destruct Hf' as (r & Hr & <-). exists (sub_of r). split; [apply has_row_iff; auto; apply in_map; auto|].
      rewrite <- (V (sub_of r) r); [reflexivity|]. apply lookup_spec; [apply RO|]; auto.
    + intros (i & Hi & ->). apply has_row_iff in Hi; auto. apply in_map_iff in Hi. destruct Hi as (r & <- & Hr).
      eexists. split; [rewrite <- (V (sub_of r) r); [|apply lookup_spec; [apply RO|]; auto]|].
      2: { apply (Permutation_in _ (Permutation_sym (ge_scan _ G _))). unfold content_only. apply in_map. apply Snd. eauto. }
      reflexivity.
Qed.
Lemma distinct_ok E s k l : good_engine E -> wf s -> distinct_names s -> In k (columns s) -> get_distinct_strings E s k = Ok l ->
  NoDup l /\ (forall t, In t l <-> exists i, has_row s i /\ snd (value s i k) = SText t)
  /\ (forall i, has_row s i -> snd (value s i k) = SNull \/ exists t, snd (value s i k) = SText t).
Proof.
  intros G W D Hk H. destruct s as [| |d]; try contradiction. cbn [columns wf] in *. rewrite map_app in Hk. fold (schema_columns d) in Hk.
  unfold get_distinct_strings in H. destruct (is_valid_column_name k); [|discriminate]. cbn [negb] in H.
  rewrite (proj2 (mem_In _ _) Hk) in H. cbn [negb] in H. apply bind_Ok in H. destruct H as (l0 & H & E0). injection E0 as <-. apply mapM_text in H.
  split; [apply NoDup_nodup|].
  pose proof (fun v => column_values E d k v G W D Hk) as CV.
  split.
  - intro t. rewrite nodup_In. rewrite <- (in_map_iff SText l0 (SText t)) || idtac.
    assert (Q : In t l0 <-> In (SText t) (map SText l0)).
    { rewrite in_map_iff. split; [eauto|]. intros (x & Q & Hx). injection Q as <-. auto. }
    rewrite Q, <- H, filter_In, CV. split.
    + intros ((i & Hi & Ei) & _). exists i. auto.
    + intros (i & Hi & Ei). split; auto. exists i. auto.
  - intros i Hi. destruct (snd (value (Db d) i k)) eqn:Ev; auto; right;
      (assert (In (snd (value (Db d) i k)) (map SText l0)) as Q by (rewrite <- H, filter_In, CV, Ev; split; [exists i; auto|auto]);
       rewrite Ev in Q; apply in_map_iff in Q; destruct Q as (x & Q & _); try discriminate); injection Q as <-; eauto.
Qed.
Lemma distinct_total E s k : good_engine E -> wf s -> distinct_names s -> In k (columns s) ->
  (forall i, has_row s i -> snd (value s i k) = SNull \/ exists t, snd (value s i k) = SText t) -> exists l, get_distinct_strings E s k = Ok l.
Proof.
  intros G W D Hk H. destruct s as [| |d]; try contradiction. cbn [columns wf] in *. rewrite map_app in Hk. fold (schema_columns d) in Hk.
  unfold get_distinct_strings. destruct (wf_parts d W) as ((C1 & C2 & C3 & C4) & _). rewrite Forall_forall in C3, C4.
  assert (is_valid_column_name k = true) as ->.
  { destruct Hk as [<-|Hk]; [reflexivity|]. apply in_app_or in Hk. destruct Hk as [Hk|Hk]; apply in_map_iff in Hk; destruct Hk as (c & <- & Hc); [apply (C3 c Hc)|apply (C4 c Hc)]. }
  cbn [negb]. rewrite (proj2 (mem_In _ _) Hk). cbn [negb].
  edestruct mapM_text_total as (l & ->); [|eexists; reflexivity].
  intros v Hv. apply filter_In in Hv. destruct Hv as (Hv & Nv). apply (column_values E d k v G W D Hk) in Hv. destruct Hv as (i & Hi & ->).
  destruct (H i Hi) as [Q|Q]; auto. rewrite Q in Nv. discriminate.
Qed.
