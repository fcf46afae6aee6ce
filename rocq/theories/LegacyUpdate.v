(** Earlier metadata layouts: updating and deleting. *)
From Coq Require Import Permutation Sorted.
From Verif Require Import Base IndexModel IndexLemmas Text SqlModel SqlSpec Base64 MetaModel MetaQuery MetaSpec MetaProofs MetaCreate MetaContent MetaFilter MetaWhere MetaRead Legacy LegacySpec LegacyProofs.
Open Scope nat_scope.

Definition wider (n : nat) (r : lrow) : lrow := {| l_sub := l_sub r; l_vals := l_vals r ++ repeat SNull n |}.
Definition old_new (E : engine) (cols : list column) (x : json * Z) : lrow := {| l_sub := snd x; l_vals := map (cell E (fst x)) cols |}.
Definition tab (t : ltab) (cols : list column) (rs : list lrow) : ltab := {| l_pk := l_pk t; l_cols := cols; l_need := l_need t; l_rows := rs |}.

Lemma adds_old_tab : forall cols t t', adds_old t cols = Some t' ->
  t' = tab t (l_cols t ++ cols) (map (wider (length cols)) (l_rows t))
  /\ (NoDup (map ci (subset_column :: map c_name (l_cols t))) -> NoDup (map ci (subset_column :: map c_name (l_cols t ++ cols)))).
Proof.
  induction cols as [|c cols IH]; intros t t' H; cbn [adds_old] in H.
  - injection H as <-. rewrite app_nil_r. split; [|auto]. unfold tab. destruct t as [pk cs nd rs]. cbn. f_equal. rewrite <- (map_id rs) at 1. apply map_ext. intros [s v]. unfold wider. cbn. rewrite app_nil_r. reflexivity.
  - destruct (add_old t c) as [t1|] eqn:A; [|discriminate]. apply IH in H. destruct H as (-> & H). unfold add_old in A. destruct (mem _ _) eqn:M; [discriminate|]. injection A as <-. cbn [l_pk l_cols l_need l_rows] in *. split.
    + unfold tab. cbn [l_pk l_need l_cols l_rows]. rewrite <- app_assoc. cbn [app]. f_equal. rewrite map_map. apply map_ext. intros [s v]. unfold wider. cbn. rewrite <- app_assoc. reflexivity.
    + intro N. rewrite <- app_assoc in H. apply H. rewrite map_app. cbn [map]. rewrite map_app. cbn [map]. rewrite app_comm_cons. apply NoDup_app_snoc; [exact N|]. apply mem_not. exact M.
Qed.
Lemma inserts_old_tab E strict : forall rs t t', inserts_old E strict t rs = Some t' -> t' = tab t (l_cols t) (l_rows t ++ map (old_new E (l_cols t)) rs).
Proof.
  induction rs as [|(v, s) rs IH]; intros t t' H; cbn [inserts_old] in H.
  - injection H as <-. cbn [map]. rewrite app_nil_r. destruct t; reflexivity.
  - destruct (strict && negb (is_object v)); [discriminate|]. destruct (insert_old E t v s) as [t1|] eqn:I; [|discriminate]. apply IH in H. subst t'. unfold insert_old in I. destruct (l_pk t && _); [discriminate|]. destruct (existsb _ _); [discriminate|]. injection I as <-. unfold tab. cbn [l_pk l_cols l_need l_rows map]. rewrite <- app_assoc. reflexivity.
Qed.
Lemma new_names_mem : forall ps a b, (forall k, mem k a = mem k b) -> new_names a ps = new_names b ps.
Proof.
  induction ps as [|(k, x) ps IH]; intros a b H; [reflexivity|]. cbn [new_names]. rewrite H. destruct (mem k b); [apply IH; exact H|]. destruct (is_valid_column_name k); [|reflexivity].
  rewrite (IH (k :: a) (k :: b)); [reflexivity|]. intro k'. unfold mem in *. cbn [existsb]. rewrite H. reflexivity.
Qed.
Lemma new_names_none : forall ps known, forallb (fun p => mem (fst p) known) ps = true -> new_names known ps = Ok [].
Proof. induction ps as [|(k, x) ps IH]; intros known H; [reflexivity|]. cbn [forallb fst] in H. apply andb_true_iff in H. cbn [new_names]. rewrite (proj1 H). apply IH. apply H. Qed.
(** An accepted update adds these columns and rows. *)
Lemma update_old_ok E t md ids t' n : update_old E t md ids = (t', Ok n) -> md <> [] ->
  n = length md /\ length md = length ids /\ exists names,
    new_names (map c_name (l_cols t)) (pairs md) = Ok names
    /\ t' = tab t (l_cols t ++ map (typed md) names) (map (wider (length names)) (l_rows t) ++ map (old_new E (l_cols t ++ map (typed md) names)) (combine md ids))
    /\ (NoDup (map ci (subset_column :: map c_name (l_cols t))) -> NoDup (map ci (subset_column :: map c_name (l_cols t ++ map (typed md) names)))).
Proof.
  intros H Hm. destruct md as [|m0 md0] eqn:Emd; [congruence|]. rewrite <- Emd in *. unfold update_old in H. rewrite Emd in H. rewrite <- Emd in H.
  destruct (length md =? length ids) eqn:El; cbn [negb] in H; [|discriminate]. apply Nat.eqb_eq in El.
  destruct (forallb _ (pairs md)) eqn:FA.
  - destruct (inserts_old E true t _) as [t1|] eqn:I; [|discriminate]. injection H as <- <-. split; [reflexivity|]. split; [exact El|]. exists []. split; [apply new_names_none; exact FA|]. cbn [map length]. rewrite app_nil_r. split; [|auto].
    apply inserts_old_tab in I. subst t1. unfold tab. f_equal. f_equal. rewrite <- (map_id (l_rows t)) at 1. apply map_ext. intros [s v]. unfold wider. cbn. rewrite app_nil_r. reflexivity.
  - destruct (new_names _ (pairs md)) as [names| |] eqn:Nn in H; try discriminate. destruct (adds_old t _) as [t1|] eqn:A; [|discriminate]. destruct (inserts_old E false t1 _) as [t2|] eqn:I; [|discriminate]. injection H as <- <-.
    split; [reflexivity|]. split; [exact El|]. exists names. split; [exact Nn|]. apply adds_old_tab in A. destruct A as (-> & A). apply inserts_old_tab in I. subst t2. split; [|exact A]. unfold tab. cbn [l_pk l_cols l_need l_rows]. rewrite map_length. reflexivity.
Qed.
Lemma update_old_err E t md ids t' r : update_old E t md ids = (t', r) -> (forall n, r <> Ok n) -> t' = t /\ r = Err.
Proof.
  unfold update_old. intros H N. destruct md as [|m0 md0]; [injection H as <- <-; exfalso; eapply N; reflexivity|]. destruct (negb _); [injection H as <- <-; auto|].
  destruct (forallb _ _).
  - destruct (inserts_old _ _ _ _); injection H as <- <-; [exfalso; eapply N; reflexivity|auto].
  - destruct (new_names _ _) as [names| |] eqn:Nn; [|injection H as <- <-; auto|].
    + destruct (adds_old _ _); [|injection H as <- <-; auto]. destruct (inserts_old _ _ _ _); injection H as <- <-; [exfalso; eapply N; reflexivity|auto].
    + exfalso. clear - Nn. revert Nn. generalize (map c_name (l_cols t)). generalize (pairs (m0 :: md0)). induction l as [|(k, x) l IH]; intros kn Nn; [discriminate|]. cbn [new_names] in Nn. destruct (mem k kn); [eapply IH; exact Nn|]. destruct (is_valid_column_name k); [|discriminate]. unfold bind in Nn. destruct (new_names (k :: kn) l) eqn:Q; try discriminate. eapply IH. exact Q.
Qed.

(** *** The split layout accepts it too *)
Lemma fresh_col pre tc c cols : NoDup (map ci (pre ++ map c_name (tc ++ c :: cols))) -> ~ In (ci (c_name c)) (map ci (pre ++ map c_name tc)).
Proof.
  intros N I. rewrite (map_app c_name) in N. cbn [map] in N. rewrite app_assoc, map_app in N. cbn [map] in N. apply NoDup_remove_2 in N. apply N. apply in_or_app. left. exact I.
Qed.
Lemma add_thin_some : forall cols tc fc l, NoDup (map ci (subset_column :: content_column :: map c_name (tc ++ cols))) -> exists d', add_columns add_thin_column (db_of tc fc l) cols = Some d'.
Proof.
  induction cols as [|c cols IH]; intros tc fc l N; [eexists; reflexivity|]. cbn [add_columns]. unfold add_thin_column at 1. cbn [thin_cols fat_cols thin_rows fat_rows db_of].
  destruct (mem _ _) eqn:M.
  - exfalso. apply mem_In in M. exact (fresh_col [subset_column; content_column] tc c cols N M).
  - destruct (IH (tc ++ [c]) fc (map (extend 1 0) l)) as (d' & H). { rewrite <- app_assoc. exact N. } exists d'. rewrite <- H. f_equal. unfold db_of. f_equal; rewrite !map_map; apply map_ext; intros ((s0, c0, v0), (c1, v1)); unfold extend; cbn; rewrite ?app_nil_r; reflexivity.
Qed.
Lemma add_fat_some : forall cols tc fc l, NoDup (map ci (content_column :: map c_name (fc ++ cols))) -> exists d', add_columns add_fat_column (db_of tc fc l) cols = Some d'.
Proof.
  induction cols as [|c cols IH]; intros tc fc l N; [eexists; reflexivity|]. cbn [add_columns]. unfold add_fat_column at 1. cbn [thin_cols fat_cols thin_rows fat_rows db_of].
  destruct (mem _ _) eqn:M.
  - exfalso. apply mem_In in M. exact (fresh_col [content_column] fc c cols N M).
  - destruct (IH tc (fc ++ [c]) (map (extend 0 1) l)) as (d' & H). { rewrite <- app_assoc. exact N. } exists d'. rewrite <- H. f_equal. unfold db_of. f_equal; rewrite !map_map; apply map_ext; intros ((s0, c0, v0), (c1, v1)); unfold extend; cbn; rewrite ?app_nil_r; reflexivity.
Qed.
Lemma filter_typed md p names : filter (fun c => p (c_name c)) (map (typed md) names) = map (typed md) (filter p names).
Proof. induction names as [|k l IH]; [reflexivity|]. cbn [map filter typed c_name]. destruct (p k); cbn [map]; rewrite IH; reflexivity. Qed.
Lemma split_accepts E d md ids names : wf_db d -> length md = length ids -> md <> [] ->
  new_names (map c_name (thin_cols d) ++ map c_name (fat_cols d)) (pairs md) = Ok names ->
  NoDup (map ci (subset_column :: content_column :: map c_name (thin_cols d ++ map (typed md) (filter is_thin_column names)))) ->
  NoDup (map ci (content_column :: map c_name (fat_cols d ++ map (typed md) (filter (fun c => negb (is_thin_column c)) names)))) ->
  exists s', MetaModel.update E (Db d) md ids = (s', Ok (length md)).
Proof.
  intros W El Hm Nn N1 N2. destruct md as [|m0 md0] eqn:Emd; [congruence|]. rewrite <- Emd in *. unfold MetaModel.update. destruct md as [|m1 md1] eqn:Emd1; [congruence|]. rewrite <- Emd1 in *. rewrite El, Nat.eqb_refl. cbn [negb]. rewrite Nn.
  set (nt := map (typed md) (filter is_thin_column names)) in *. set (nf := map (typed md) (filter (fun c => negb (is_thin_column c)) names)) in *.
  destruct (add_thin_some nt (thin_cols d) (fat_cols d) (rows d) N1) as (d1 & A1). rewrite <- (db_of_rows d W) in A1. rewrite A1.
  rewrite (db_of_rows d W) in A1. apply add_thin_db in A1. destruct A1 as (-> & _).
  destruct (add_fat_some nf (thin_cols d ++ nt) (fat_cols d) (map (extend (length nt) 0) (rows d)) N2) as (d2 & A2). rewrite A2. apply add_fat_db in A2. destruct A2 as (-> & _).
  set (l2 := map (extend 0 (length nf)) (map (extend (length nt) 0) (rows d))). set (dd := db_of (thin_cols d ++ nt) (fat_cols d ++ nf) l2).
  destruct (insert_rows_some E false (with_ids md ids (zseq (next_content_id dd) (length md))) (thin_cols d ++ nt) (fat_cols d ++ nf) l2) as (d3 & I).
  - discriminate.
  - destruct (with_ids_subs md ids (zseq (next_content_id dd) (length md)) El (zseq_length _ _)) as (_ & S2 & _). rewrite S2.
    assert (CI : map (fun r : thin_row * fat_row => f_cid (snd r)) l2 = map f_cid (fat_rows d)).
    { unfold l2. rewrite !map_map. unfold extend. cbn. rewrite <- (map_map snd f_cid). unfold rows. rewrite map_snd_combine by (apply rows_length; exact W). reflexivity. }
    assert (NX : next_content_id dd = (max_or (map f_cid (fat_rows d)) + 1)%Z).
    { unfold next_content_id, dd, db_of. cbn [fat_rows]. rewrite map_map. rewrite CI. reflexivity. }
    rewrite CI, NX. apply NoDup_app_intro; [apply (w_cids _ W)|apply zseq_NoDup|]. intros x I1 I2. apply max_or_ge in I1. apply zseq_ge in I2. lia.
  - fold dd in I. rewrite <- El. rewrite I. eexists. reflexivity.
Qed.

(** *** The result holds the same documents *)
Lemma chosen_app p : forall cols vals cols' vals', length vals = length cols -> chosen p (cols ++ cols') (vals ++ vals') = chosen p cols vals ++ chosen p cols' vals'.
Proof. intros cols vals cols' vals' H. unfold chosen. rewrite combine_app2 by (symmetry; exact H). rewrite filter_app, map_app. reflexivity. Qed.
Lemma chosen_map p (f : column -> sqlv) cols : chosen p cols (map f cols) = map f (filter p cols).
Proof. unfold chosen. induction cols as [|c cols IH]; [reflexivity|]. cbn [map combine filter fst]. destruct (p c); cbn [map snd]; rewrite IH; reflexivity. Qed.
Lemma chosen_nulls p cols : chosen p cols (repeat SNull (length cols)) = repeat SNull (length (filter p cols)).
Proof. unfold chosen. induction cols as [|c cols IH]; [reflexivity|]. cbn [length repeat combine filter fst]. destruct (p c); cbn [map snd length repeat]; rewrite IH; reflexivity. Qed.
Lemma F2_map2 {A B C D} (R : C -> D -> Prop) (f : A -> C) (g : B -> D) l m : Forall2 (fun a b => R (f a) (g b)) l m -> Forall2 R (map f l) (map g m).
Proof. induction 1; constructor; auto. Qed.
Lemma NoDup_ci_split p pre cols : NoDup (pre ++ map ci (map c_name cols)) -> NoDup (pre ++ map ci (map c_name (filter p cols))).
Proof. rewrite !map_map. apply NoDup_sub_filter. Qed.

Lemma row_at_not_in E t d i : good_engine E -> old_table E t -> same_documents t d -> row_at E (Db d) i = None -> ~ In i (map l_sub (l_rows t)).
Proof. intros G O SD H. rewrite (same_subs t d SD). apply (row_at_none E); auto. eapply same_wf; eauto. Qed.
Lemma update_same E t d md ids t' n : good_engine E -> settled E -> old_table E t -> same_documents t d ->
  NoDup ids -> Forall (fun i => 0 <= i /\ row_at E (Db d) i = None)%Z ids -> no_reserved_key md -> md <> [] ->
  update_old E t md ids = (t', Ok n) ->
  exists d', MetaModel.update E (Db d) md ids = (Db d', Ok n) /\ old_table E t' /\ same_documents t' d'.
Proof.
  intros G ST O SD N P NR Hm U. pose proof (same_wf E t d O SD) as W. apply update_old_ok in U; [|exact Hm]. destruct U as (-> & El & names & Nn & -> & ND).
  pose proof SD as SD'. destruct SD' as (C1 & C2 & C3 & C4 & F). pose proof (ot_cols _ _ O) as OC. change (map (map to_lower1)) with (map ci) in OC.
  set (nc := map (typed md) names) in *. set (cols := l_cols t ++ nc) in *.
  destruct (new_names_ok _ _ _ Nn) as (NN1 & NN2 & NN3).
  assert (OC' : NoDup (map ci (subset_column :: content_column :: map c_name cols))).
  { assert (OCs : NoDup (map ci (subset_column :: map c_name (l_cols t)))). { cbn [map] in *. change (ci subset_column :: ci content_column :: ?l) with ([ci subset_column] ++ ci content_column :: l) in OC. apply NoDup_remove_1 in OC. exact OC. }
    specialize (ND OCs). cbn [map] in *. inversion ND as [|? ? D1 D2]; subst. inversion OC as [|? ? Oa Ob]; subst. inversion Ob as [|? ? Oc Od]; subst. constructor; [|constructor; [|exact D2]].
    - intros [Q|Q]; [vm_compute in Q; discriminate|]. exact (D1 Q).
    - intro Q. unfold cols in Q. rewrite map_app, map_app in Q. apply in_app_or in Q. destruct Q as [Q|Q]; [exact (Oc Q)|]. apply in_map_iff in Q. destruct Q as (k & Qk & Q). unfold nc in Q. rewrite map_map in Q. cbn [typed c_name] in Q. rewrite map_id in Q.
      assert (KI : In k (map fst (pairs md))) by (apply NN3; left; exact Q). apply in_keys in KI. destruct KI as (v & x & Iv & Gv). apply (NR v k x Iv Gv). change (map to_lower1 k) with (ci k). rewrite Qk. reflexivity. }
  assert (Ct : thin_cols d ++ map (typed md) (filter is_thin_column names) = filter thin_col cols).
  { unfold cols. rewrite filter_app, C1. f_equal. unfold nc. symmetry. exact (filter_typed md is_thin_column names). }
  assert (Cf : fat_cols d ++ map (typed md) (filter (fun c => negb (is_thin_column c)) names) = filter fat_col cols).
  { unfold cols. rewrite filter_app, C2. f_equal. unfold nc. symmetry. exact (filter_typed md (fun c => negb (is_thin_column c)) names). }
  assert (Nn' : new_names (map c_name (thin_cols d) ++ map c_name (fat_cols d)) (pairs md) = Ok names).
  { rewrite <- Nn. apply new_names_mem. intro k. rewrite C1, C2, <- map_app. apply eq_true_iff_eq. rewrite !mem_In, !in_map_iff. split; intros (c & Q & I); exists c; (split; [exact Q|]); [apply (filter_split thin_col); exact I|apply (filter_split thin_col) in I; exact I]. }
  destruct (split_accepts E d md ids names W El Hm Nn') as (s' & U).
  { rewrite Ct. cbn [map] in *. apply (NoDup_ci_split thin_col [ci subset_column; ci content_column]). exact OC'. }
  { rewrite Cf. cbn [map] in *. inversion OC' as [|? ? _ OC2]; subst. apply (NoDup_ci_split fat_col [ci content_column]). exact OC2. }
  pose proof (wf_update E (Db d) md ids G W N P) as W'. rewrite U in W'. cbn [fst] in W'. rewrite U.
  apply update_ok in U; [|exact W|exact Hm]. destruct U as (_ & _ & names' & cids & Nn'' & CO & Lc & NDc & ->). cbn zeta in *.
  assert (names' = names) by congruence. subst names'. rewrite Ct, Cf in *. cbn [wf] in W'.
  destruct (with_ids_subs md ids cids El Lc) as (S1 & S2 & S3).
  eexists. split; [reflexivity|]. split.
  - constructor; cbn [tab l_cols l_rows l_need].
    + rewrite map_app, !map_map. cbn [wider old_new l_sub]. apply NoDup_app_intro; [apply (ot_ids _ _ O)| |].
      * replace (map (fun x : json * Z => snd x) (combine md ids)) with ids; [exact N|]. symmetry. apply map_snd_combine. exact El.
      * intros x I1 I2. apply in_map_iff in I2. destruct I2 as ((v, j) & <- & I2). apply in_combine_r in I2. cbn [snd] in *. rewrite Forall_forall in P. destruct (P j I2) as (_ & P2). exact (row_at_not_in E t d j G O SD P2 I1).
    + apply Forall_app. split; apply Forall_forall; intros r I; apply in_map_iff in I; destruct I as (q & <- & I); cbn [wider old_new l_sub].
      * apply (proj1 (Forall_forall _ _) (ot_nonneg _ _ O) q I).
      * destruct q as (v, j). apply in_combine_r in I. rewrite Forall_forall in P. apply P. exact I.
    + exact OC'.
    + apply Forall_app. split; [apply (ot_valid _ _ O)|]. apply Forall_forall. intros c I. apply in_map_iff in I. destruct I as (k & <- & I). cbn. apply NN2. exact I.
    + apply Forall_app. split; apply Forall_forall; intros r I; apply in_map_iff in I; destruct I as (q & <- & I); cbn [wider old_new l_vals].
      * apply Forall2_app; [apply (proj1 (Forall_forall _ _) (ot_vals _ _ O) q I)|]. unfold nc. clear - G. induction names as [|k l IH]; [constructor|]. cbn [map length repeat]. constructor; [apply (ge_null _ G)|exact IH].
      * clear - ST. induction cols as [|c cols IH]; [constructor|]. cbn [map]. constructor; [apply ST|exact IH].
    + apply (ot_need _ _ O).
  - split; [reflexivity|]. split; [reflexivity|]. split; [apply (w_same _ W')|]. split; [apply (w_cids _ W')|].
    change (combine (thin_rows ?x) (fat_rows ?x)) with (rows x). rewrite rows_db_of. cbn [tab l_rows l_cols]. apply Forall2_app.
    + apply F2_map2. eapply F2_weaken; [|exact F]. intros r p (H1 & H2 & H3 & H4). cbn [wider extend l_sub l_vals fst snd t_sub t_vals f_vals].
      assert (Ln : length (repeat SNull (length names)) = length nc) by (rewrite repeat_length; unfold nc; rewrite map_length; reflexivity).
      split; [exact H1|]. unfold cols. split; [rewrite !app_length; lia|]. rewrite !chosen_app by exact H2. replace (length names) with (length nc) by (unfold nc; apply map_length). rewrite !chosen_nulls. rewrite H3, H4. unfold nc. split; do 2 f_equal; rewrite <- filter_typed; reflexivity.
    + unfold with_ids. clear - El Lc. revert ids cids El Lc. generalize cols. clear. intros cols. induction md as [|v md IH]; intros [|i ids] [|c cids] El Lc; try discriminate; [constructor|]. cbn [combine map]. constructor; [|apply IH; cbn in *; lia].
      cbn [old_new new_row l_sub l_vals fst snd t_sub t_vals f_vals]. split; [reflexivity|]. split; [apply map_length|]. rewrite !chosen_map. split; reflexivity.
Qed.

(** ** Deleting *)
Definition tied (cols : list column) (r : lrow) (p : thin_row * fat_row) : Prop :=
  l_sub r = t_sub (fst p) /\ length (l_vals r) = length cols /\ t_vals (fst p) = chosen thin_col cols (l_vals r) /\ f_vals (snd p) = chosen fat_col cols (l_vals r).
Definition set_old (r : lrow) (v : Z) : lrow := {| l_sub := v; l_vals := l_vals r |}.
Lemma shift_old_fold us : forall rs, fold_left shift_old us rs = map (fun r => set_old r (fold_left shiftv us (l_sub r))) rs.
Proof.
  induction us as [|u us IH]; intro rs; cbn [fold_left].
  - rewrite <- (map_id rs) at 1. apply map_ext. intros [s v]. reflexivity.
  - rewrite IH. unfold shift_old. destruct u as ((a, b), c). rewrite map_map. apply map_ext. intros [s v]. cbn [l_sub l_vals]. change (shiftv s (a, b, c)) with (if (a <=? s)%Z && (s <? b)%Z then (s - c)%Z else s). destruct ((a <=? s)%Z && (s <? b)%Z); reflexivity.
Qed.
Lemma F2_filter {A B} (R : A -> B -> Prop) (p : A -> bool) (q : B -> bool) l m : (forall a b, R a b -> p a = q b) -> Forall2 R l m -> Forall2 R (filter p l) (filter q m).
Proof. intros H. induction 1 as [|a b l m Hab F IH]; [constructor|]. cbn [filter]. rewrite (H a b Hab). destruct (q b); [constructor; auto|auto]. Qed.
(** Seen through the other layout, a deletion only depends on the ids. *)
Lemma delete_subs E t d ids : old_table E t -> same_documents t d ->
  l_rows (fst (delete_old t ids)) = map (fun r => set_old r (renumbered ids (l_sub r))) (filter (fun r => negb (zmem (l_sub r) ids)) (l_rows t))
  /\ snd (delete_old t ids) = snd (delete_v2 d ids).
Proof.
  intros O SD. pose proof (same_wf E t d O SD) as W. pose proof (same_thin_subs t d SD) as TS. pose proof (delete_rows d ids W) as D. destruct (delete_v2 d ids) as (d', n) eqn:Q. destruct D as (_ & _ & D3 & _ & D5). unfold delete_v2 in Q. injection Q as Q1 Q2. unfold delete_old. cbn [fst snd l_rows].
  set (keep := fun r : lrow => negb (zmem (l_sub r) ids)) in *. set (keep' := fun r : thin_row => negb (zmem (t_sub r) ids)) in *.
  assert (TK : map l_sub (filter keep (l_rows t)) = map t_sub (filter keep' (thin_rows d))).
  { clear - TS. revert TS. generalize (thin_rows d). induction (l_rows t) as [|r l IH]; intros [|u m] H; try discriminate; [reflexivity|]. cbn [map] in H. injection H as H1 H2. cbn [filter]. unfold keep at 1, keep' at 1. rewrite <- H1. destruct (zmem (l_sub r) ids); cbn [negb map]; [apply IH; exact H2|]. rewrite H1. f_equal. apply IH. exact H2. }
  split.
  - rewrite TS, TK. set (kept := filter keep (l_rows t)) in *. set (kept' := filter keep' (thin_rows d)) in *.
    (* the renumbering of the split layout *)
    assert (S : map t_sub (thin_rows d') = map (renumbered ids) (map t_sub kept')).
    { rewrite D3. rewrite map_map. unfold kept_rows.
      assert (K : kept' = map fst (kept_rows ids (rows d))). { unfold kept', kept_rows, rows, sub_of, keep'. symmetry. apply (filter_combine_fst (fun r => negb (zmem (t_sub r) ids))). apply same_length with (t := t). exact SD. }
      rewrite K, !map_map. apply map_ext. intros (a, b). reflexivity. }
    rewrite <- Q1 in S. cbn [thin_rows] in S.
    assert (G : forall us, map t_sub (fold_left shift_rows us kept') = map (renumbered ids) (map t_sub kept') -> fold_left shift_old us kept = map (fun r => set_old r (renumbered ids (l_sub r))) kept).
    { intros us H. rewrite shift_old_fold. rewrite shift_rows_fold in H. rewrite !map_map in H. cbn [set_sub t_sub] in H. apply map_ext_in. intros r I. f_equal.
      assert (J : In (l_sub r) (map t_sub kept')) by (rewrite <- TK; apply in_map; exact I). apply in_map_iff in J. destruct J as (u & Ju & J). rewrite <- Ju. exact (ext_in_map H u J). }
    destruct (filter _ (dedup Z.eqb (isort Z.leb ids))) as [|first rest]; [exact (G [] S)|]. destruct (0 <=? max_or (map t_sub kept'))%Z; [exact (G _ S)|exact (G [] S)].
  - rewrite <- Q2. f_equal; [|rewrite <- (map_length l_sub), TK, map_length; reflexivity]. rewrite <- (map_length l_sub), TS, map_length. reflexivity.
Qed.
Lemma delete_same E t d ids : old_table E t -> same_documents t d ->
  old_table E (fst (delete_old t ids)) /\ same_documents (fst (delete_old t ids)) (fst (delete_v2 d ids)) /\ snd (delete_old t ids) = snd (delete_v2 d ids).
Proof.
  intros O SD. pose proof (same_wf E t d O SD) as W. destruct (delete_subs E t d ids O SD) as (R & Nn). pose proof (delete_rows d ids W) as D. pose proof (wf_delete d ids W) as W'.
  destruct (delete_v2 d ids) as (d', n). cbn [fst snd] in *. destruct D as (D1 & D2 & D3 & D4 & _). destruct SD as (C1 & C2 & C3 & C4 & F).
  assert (LC : l_cols (fst (delete_old t ids)) = l_cols t) by reflexivity. assert (LN : l_need (fst (delete_old t ids)) = l_need t) by reflexivity.
  assert (F' : Forall2 (tied (l_cols t)) (l_rows (fst (delete_old t ids))) (rows d')).
  { rewrite R. unfold rows. rewrite D3, D4, combine_fst_snd. apply F2_map2. unfold kept_rows. eapply F2_weaken; [|apply F2_filter; [|exact F]].
    - intros a b (H1 & H2 & H3 & H4). unfold tied, moved, set_old. cbn [l_sub l_vals fst snd t_sub t_vals f_vals set_sub]. unfold sub_of. rewrite H1. repeat split; assumption.
    - intros a b (H1 & _). unfold sub_of. rewrite H1. reflexivity. }
  split; [|split; [|exact Nn]].
  - assert (TS : map l_sub (l_rows (fst (delete_old t ids))) = map t_sub (thin_rows d')).
    { transitivity (map sub_of (rows d')); [|apply subs_rows; exact W']. apply F2_subs. eapply F2_weaken; [|exact F']. intros a b H. apply H. }
    constructor; rewrite ?LC, ?LN; try apply O.
    + rewrite TS. apply (w_subs _ W').
    + apply Forall_forall. intros r I. assert (J : In (l_sub r) (map t_sub (thin_rows d'))) by (rewrite <- TS; apply in_map; exact I). apply in_map_iff in J. destruct J as (q & <- & Q). apply (proj1 (Forall_forall _ _) (w_nonneg _ W') q Q).
    + rewrite R. apply Forall_forall. intros r I. apply in_map_iff in I. destruct I as (q & <- & I). apply filter_In in I. cbn [set_old l_vals]. apply (proj1 (Forall_forall _ _) (ot_vals _ _ O) q (proj1 I)).
  - unfold same_documents. rewrite LC, D1, D2. split; [exact C1|]. split; [exact C2|]. split; [apply (w_same _ W')|]. split; [apply (w_cids _ W')|]. exact F'.
Qed.
(** Migrating changes neither the columns nor the values. *)
Lemma migrate_rows E t : old_table E t -> l_rows (migrate E t) = l_rows t.
Proof.
  intro O. cbn [migrate l_rows]. rewrite <- (map_id (l_rows t)) at 2. apply map_ext_in. intros r I. pose proof (proj1 (Forall_forall _ _) (ot_vals _ _ O) r I) as V. destruct r as [s v]. cbn [l_sub l_vals] in *. f_equal.
  clear I. induction V as [|c x cs vs H V IH]; [reflexivity|]. cbn [combine map fst snd]. rewrite H, IH. reflexivity.
Qed.
Lemma migrate_same E t d : old_table E t -> same_documents t d -> old_table E (migrate E t) /\ same_documents (migrate E t) d.
Proof.
  intros O SD. pose proof (migrate_rows E t O) as M. split.
  - constructor; rewrite ?M; cbn [migrate l_cols l_need]; try apply O. reflexivity.
  - unfold same_documents. rewrite M. exact SD.
Qed.
