(** Proofs about creating and extending the metadata store. *)
From Verif Require Import IndexSpec IndexLemmas.
From Verif Require Import Base Text SqlModel SqlSpec SqlValid MetaModel MetaQuery MetaSpec MetaProofs.
From Coq Require Import Permutation Sorted.
Open Scope nat_scope.

Lemma ci_distinct_NoDup l : ci_distinct l = true <-> NoDup (map ci l).
Proof.
  induction l as [|c l IH]; cbn [ci_distinct map]; [split; [constructor|auto]|].
  rewrite andb_true_iff, negb_true_iff, mem_not, IH. split.
  - intros (H1 & H2). constructor; auto.
  - intro H. inversion H; auto.
Qed.
Lemma NoDup_app_snoc {A} (l : list A) x : NoDup l -> ~ In x l -> NoDup (l ++ [x]).
Proof.
  intros H N. apply NoDup_rev in H. rewrite <- (rev_involutive (l ++ [x])). apply NoDup_rev.
  rewrite rev_app_distr. cbn. constructor; auto. rewrite <- in_rev. auto.
Qed.
Lemma NoDup_app_intro {A} (l m : list A) : NoDup l -> NoDup m -> (forall x, In x l -> ~ In x m) -> NoDup (l ++ m).
Proof.
  induction l as [|x l IH]; cbn; intros H1 H2 H; auto. inversion H1; subst. constructor.
  - intro C. apply in_app_or in C. destruct C as [C|C]; [contradiction|]. apply (H x); auto.
  - apply IH; [auto|auto|]. intros y Hy. apply H. auto.
Qed.
Definition new_row (E : engine) (tc fc : list column) (x : json * Z * Z) : thin_row * fat_row :=
  let '(v, sub, cid) := x in
  ({| t_sub := sub; t_cid := cid; t_vals := map (cell E v) tc |},
   {| f_cid := cid; f_vals := map (cell E v) fc |}).
Lemma insert_rows_db E strict rs : forall tc fc l d',
  insert_rows E strict (db_of tc fc l) rs = Some d' ->
  d' = db_of tc fc (l ++ map (new_row E tc fc) rs)
  /\ (forall x, In x rs -> strict = true -> is_object (fst (fst x)) = true)
  /\ (NoDup (map (fun r => f_cid (snd r)) l) ->
      NoDup (map (fun r => f_cid (snd r)) (l ++ map (new_row E tc fc) rs))).
Proof.
  induction rs as [|((v, sub), cid) rs IH]; intros tc fc l d' H; cbn [insert_rows map] in *.
  - injection H as <-. rewrite app_nil_r. split; [reflexivity|]. split; [intros ? []|auto].
  - destruct (strict && negb (is_object v)) eqn:Es; [discriminate|].
    unfold insert_row in H. cbn [fat_rows db_of thin_cols fat_cols thin_rows] in H.
    destruct (existsb (fun r => (f_cid r =? cid)%Z) (map snd l)) eqn:Ex; [discriminate|].
    replace {| thin_cols := tc; fat_cols := fc;
        thin_rows := map fst l ++ [{| t_sub := sub; t_cid := cid; t_vals := map (cell E v) tc |}];
        fat_rows := map snd l ++ [{| f_cid := cid; f_vals := map (cell E v) fc |}] |}
      with (db_of tc fc (l ++ [new_row E tc fc (v, sub, cid)])) in H
      by (unfold db_of; rewrite !map_app; reflexivity).
    apply IH in H. destruct H as (H1 & H2 & H3). rewrite <- app_assoc in H1, H3. split; [exact H1|]. split.
    + intros x [<-|Hx] Hs; auto. subst. cbn in Es |- *. apply negb_false_iff in Es. auto.
    + intro ND. apply H3. rewrite map_app. cbn [map new_row snd f_cid].
      apply NoDup_app_snoc; auto. intro C. apply in_map_iff in C. destruct C as (r & Er & Hr).
      assert (existsb (fun r0 => (f_cid r0 =? cid)%Z) (map snd l) = true); [|congruence].
      apply existsb_exists. exists (snd r). split; [apply in_map; auto|lia].
Qed.
Lemma insert_rows_some E strict rs : forall tc fc l,
  (strict = true -> forall x, In x rs -> is_object (fst (fst x)) = true) ->
  NoDup (map (fun r => f_cid (snd r)) l ++ map snd rs) ->
  exists d', insert_rows E strict (db_of tc fc l) rs = Some d'.
Proof.
  induction rs as [|((v, sub), cid) rs IH]; intros tc fc l Ho ND; cbn [insert_rows]; [eauto|].
  replace (strict && negb (is_object v)) with false.
  2:{ destruct strict; auto. cbn. pose proof (Ho eq_refl (v, sub, cid) (or_introl eq_refl)) as O. cbn in O. rewrite O. reflexivity. }
  unfold insert_row. cbn [fat_rows db_of thin_cols fat_cols thin_rows].
  destruct (existsb (fun r => (f_cid r =? cid)%Z) (map snd l)) eqn:Ex.
  - exfalso. apply existsb_exists in Ex. destruct Ex as (f & Hf & Ef). cbn [map snd] in ND.
    apply NoDup_remove_2 in ND. apply ND. apply in_or_app. left.
    apply in_map_iff in Hf. destruct Hf as (r & <- & Hr). apply in_map_iff. exists r. split; auto. lia.
  - replace {| thin_cols := tc; fat_cols := fc;
        thin_rows := map fst l ++ [{| t_sub := sub; t_cid := cid; t_vals := map (cell E v) tc |}];
        fat_rows := map snd l ++ [{| f_cid := cid; f_vals := map (cell E v) fc |}] |}
      with (db_of tc fc (l ++ [new_row E tc fc (v, sub, cid)]))
      by (unfold db_of; rewrite !map_app; reflexivity).
    apply IH; [intros Hs x Hx; apply Ho; auto; right; auto|].
    rewrite map_app, <- app_assoc. exact ND.
Qed.
(** the row part of the invariant after inserting rows with new ids *)
Lemma rows_ok_new E tc fc rs l :
  rows_ok (length tc) (length fc) l ->
  NoDup (map (fun x => snd (fst x)) rs) -> Forall (fun x => 0 <= snd (fst x))%Z rs ->
  (forall x, In x rs -> ~ In (snd (fst x)) (map sub_of l)) ->
  NoDup (map (fun r => f_cid (snd r)) (l ++ map (new_row E tc fc) rs)) ->
  rows_ok (length tc) (length fc) (l ++ map (new_row E tc fc) rs).
Proof.
  intros (R1 & R2 & R3) N P F C. split; [|split; [exact C|]].
  - rewrite map_app, map_map. apply NoDup_app_intro; auto.
    + replace (map (fun x => sub_of (new_row E tc fc x)) rs) with (map (fun x => snd (fst x)) rs); auto.
      apply map_ext. intros ((v, sub), cid). reflexivity.
    + intros x Hx Hy. apply in_map_iff in Hy. destruct Hy as (((v, sub), cid) & <- & Hy). apply (F _ Hy). exact Hx.
  - apply Forall_app. split; auto. rewrite Forall_forall in *. intros r Hr. apply in_map_iff in Hr.
    destruct Hr as (((v, sub), cid) & <- & Hr). specialize (P _ Hr). cbn in *. rewrite !map_length. auto.
Qed.

(** ** Column discovery *)
Lemma new_names_ok ps : forall known names, new_names known ps = Ok names ->
  NoDup names /\ (forall k, In k names -> ~ In k known /\ is_valid_column_name k = true)
  /\ (forall k, In k (map fst ps) <-> In k names \/ (In k known /\ In k (map fst ps))).
Proof.
  induction ps as [|(k, v) ps IH]; intros known names H; cbn [new_names] in H.
  - injection H as <-. split; [apply NoDup_nil|]. split; [intros ? []|cbn; tauto].
  - destruct (mem k known) eqn:Em.
    + apply mem_In in Em. apply IH in H. destruct H as (H1 & H2 & H3). split; auto. split; auto.
      intro q. cbn [map fst In]. rewrite H3. split.
      * intros [->|[Hq|Hq]]; auto. right. tauto.
      * intros [Hq|(Hq & [->|Hp])]; auto.
    + apply mem_not in Em. destruct (is_valid_column_name k) eqn:Ev; [|discriminate].
      apply bind_Ok in H. destruct H as (l & Hl & H). injection H as <-.
      apply IH in Hl. destruct Hl as (H1 & H2 & H3). split; [|split].
      * constructor; auto. intro C. apply (proj1 (H2 k C)). left; auto.
      * intros q [<-|Hq]; auto. destruct (H2 q Hq) as (N & V). split; auto. intro C. apply N. right; auto.
      * intro q. cbn [map fst In]. rewrite H3. cbn [In]. split.
        -- intros [->|[Hq|([->|Hq] & Hp)]]; auto; tauto.
        -- intros [[->|Hq]|(Hq & [->|Hp])]; auto; tauto.
Qed.
Lemma create_tables_db cols d : create_tables cols = Some d ->
  Forall (fun c => is_valid_column_name (c_name c) = true) cols ->
  let tc := filter (fun c => is_thin_column (c_name c)) cols in
  let fc := filter (fun c => negb (is_thin_column (c_name c))) cols in
  d = db_of tc fc [] /\ cols_ok tc fc.
Proof.
  unfold create_tables. intros H V.
  destruct (ci_distinct _ && ci_distinct _) eqn:Ed in H; [|discriminate]. injection H as <-.
  apply andb_true_iff in Ed. destruct Ed as (E1 & E2). rewrite ci_distinct_NoDup in E1, E2.
  split; [reflexivity|]. rewrite Forall_forall in V.
  split; [exact E1|]. split; [exact E2|].
  split; apply Forall_forall; intros c Hc; apply filter_In in Hc; destruct Hc as (Hc & Ht).
  - split; auto.
  - apply negb_true_iff in Ht. split; auto.
Qed.
Lemma with_ids_subs md ids cids : length md = length ids -> length cids = length md ->
  map (fun x => snd (fst x)) (with_ids md ids cids) = ids /\ map snd (with_ids md ids cids) = cids
  /\ map (fun x => fst (fst x)) (with_ids md ids cids) = md.
Proof.
  intros H1 H2. unfold with_ids.
  assert (L : length (combine md ids) = length cids) by (rewrite combine_length; lia).
  rewrite <- (map_map fst snd), <- (map_map fst fst), (map_fst_combine _ _ L), (map_snd_combine _ _ L).
  rewrite map_snd_combine, map_fst_combine by auto. auto.
Qed.
Lemma zseq_length a n : length (zseq a n) = n.
Proof. unfold zseq. rewrite map_length, seq_length. auto. Qed.
Lemma zseq_NoDup a n : NoDup (zseq a n).
Proof. unfold zseq. apply FinFun.Injective_map_NoDup; [|apply seq_NoDup]. intros x y H. lia. Qed.
Lemma zseq_ge a n x : In x (zseq a n) -> (a <= x)%Z.
Proof. unfold zseq. intro H. apply in_map_iff in H. destruct H as (i & <- & _). lia. Qed.

(** ** Creation *)
Definition columns_for (md : list json) (cols : list column) : Prop :=
  try_fixed_schema md = Ok (Some cols)
  \/ (try_fixed_schema md = Ok None /\ exists names, new_names [] (pairs md) = Ok names /\ cols = map (typed md) names).
Lemma fixed_valid md cols : try_fixed_schema md = Ok (Some cols) ->
  Forall (fun c => is_valid_column_name (c_name c) = true) cols.
Proof.
  destruct md as [|[| | | | | |o] rest]; cbn; try discriminate.
  destruct (forallb _ o) eqn:F; [|discriminate]. destruct (forallb _ (pairs rest)); [|discriminate].
  intro H. injection H as <-. rewrite forallb_forall in F. apply Forall_forall. intros c Hc.
  apply in_map_iff in Hc. destruct Hc as (p & <- & Hp). cbn. auto.
Qed.
Lemma columns_for_valid md cols : columns_for md cols -> Forall (fun c => is_valid_column_name (c_name c) = true) cols.
Proof.
  intros [H|(_ & names & H & ->)]; [eapply fixed_valid; eauto|].
  apply new_names_ok in H. destruct H as (_ & H & _). apply Forall_forall. intros c Hc.
  apply in_map_iff in Hc. destruct Hc as (k & <- & Hk). cbn. apply H; auto.
Qed.
Lemma create_ok E s md ids s' n : create E s md ids = (s', Ok n) -> md <> [] ->
  n = length md /\ length md = length ids
  /\ exists cols cids,
    let tc := filter (fun c => is_thin_column (c_name c)) cols in
    let fc := filter (fun c => negb (is_thin_column (c_name c))) cols in
    columns_for md cols /\ cols_ok tc fc /\ length cids = length md
    /\ NoDup (map (fun r => f_cid (snd r)) (map (new_row E tc fc) (with_ids md ids cids)))
    /\ s' = Db (db_of tc fc (map (new_row E tc fc) (with_ids md ids cids))).
Proof.
  unfold create. intros H Hm. destruct (length md =? length ids) eqn:El; cbn [negb] in H; [|discriminate].
  apply Nat.eqb_eq in El. destruct md as [|m0 md0] eqn:Emd; [congruence|]. rewrite <- Emd in *.
  assert (H' : match try_fixed_schema md with
      | Ok (Some cols) =>
        match create_tables cols with
        | None => (Broken, Err)
        | Some d =>
          match insert_rows E true d (with_ids md ids (zseq (next_content_id d) (length md))) with
          | Some d' => (Db d', Ok (length md))
          | None => (Db d, Err)
          end
        end
      | Ok None =>
        match new_names [] (pairs md) with
        | Ok names =>
          match create_tables (map (typed md) names) with
          | None => (Broken, Err)
          | Some d =>
            match insert_rows E false d (with_ids md ids ids) with
            | Some d' => (Db d', Ok (length md))
            | None => (Broken, Err)
            end
          end
        | Err => (NoDb, Err)
        | Panic => (NoDb, Panic)
        end
      | Err => (NoDb, Err)
      | Panic => (NoDb, Panic)
      end = (s', Ok n)) by (rewrite Emd in *; exact H).
  clear H. rename H' into H.
  destruct (try_fixed_schema md) as [[cols|]| |] eqn:T; try discriminate.
  - destruct (create_tables cols) as [d|] eqn:C; [|discriminate].
    destruct (insert_rows E true d _) as [d'|] eqn:I; [|discriminate]. injection H as <- <-.
    assert (CF : columns_for md cols) by (left; auto).
    destruct (create_tables_db _ _ C (columns_for_valid _ _ CF)) as (-> & CO).
    apply insert_rows_db in I. destruct I as (I1 & I2 & I3). cbn [app] in *.
    split; auto. split; auto. exists cols, (zseq (next_content_id (db_of (filter (fun c => is_thin_column (c_name c)) cols)
        (filter (fun c => negb (is_thin_column (c_name c))) cols) [])) (length md)).
    split; auto. split; auto. split; [apply zseq_length|]. split; [apply I3; constructor|]. rewrite I1. reflexivity.
  - destruct (new_names [] (pairs md)) as [names| |] eqn:Nn; try discriminate.
    destruct (create_tables (map (typed md) names)) as [d|] eqn:C; [|discriminate].
    destruct (insert_rows E false d _) as [d'|] eqn:I; [|discriminate]. injection H as <- <-.
    assert (CF : columns_for md (map (typed md) names)) by (right; eauto).
    destruct (create_tables_db _ _ C (columns_for_valid _ _ CF)) as (-> & CO).
    apply insert_rows_db in I. destruct I as (I1 & I2 & I3). cbn [app] in *.
    split; auto. split; auto. exists (map (typed md) names), ids.
    split; auto. split; auto. split; [auto|]. split; [apply I3; constructor|]. rewrite I1. reflexivity.
Qed.
Lemma rows_ok_nil a b : rows_ok a b [].
Proof. repeat split; constructor. Qed.
Lemma wf_create E s md ids : wf s -> NoDup ids -> Forall (fun i => 0 <= i)%Z ids -> wf (fst (create E s md ids)).
Proof.
  intros W N P. destruct (create E s md ids) as (s', r) eqn:C. cbn [fst].
  destruct md as [|m0 md0] eqn:Emd.
  - unfold create in C. destruct (negb _); injection C as <- <-; [auto|exact I].
  - rewrite <- Emd in *. destruct r as [n| |].
    + apply create_ok in C; [|rewrite Emd; discriminate]. destruct C as (-> & El & cols & cids & CF & CO & Lc & ND & ->).
      cbn [wf]. apply wf_db_of; auto. destruct (with_ids_subs md ids cids El Lc) as (S1 & S2 & S3).
      rewrite <- (app_nil_l (map _ (with_ids md ids cids))). apply rows_ok_new; [apply rows_ok_nil| | | |exact ND].
      * rewrite S1. auto.
      * rewrite Forall_forall in *. intros x Hx. apply P. rewrite <- S1. apply (in_map (fun x => snd (fst x))); auto.
      * intros x Hx [].
    + unfold create in C. destruct (negb (length md =? length ids)); [injection C as <-; auto|].
      rewrite Emd in C. rewrite <- Emd in C.
      destruct (try_fixed_schema md) as [[cols|]| |] eqn:T; try discriminate; try (injection C as <-; exact I).
      * destruct (create_tables cols) as [d|] eqn:Ct; [|injection C as <-; exact I].
        destruct (insert_rows E true d _); [discriminate|]. injection C as <-. cbn [wf].
        destruct (create_tables_db _ _ Ct (fixed_valid _ _ T)) as (-> & CO). apply wf_db_of; auto. apply rows_ok_nil.
      * destruct (new_names [] (pairs md)) as [names| |]; try discriminate; try (injection C as <-; exact I).
        destruct (create_tables (map (typed md) names)) as [d|]; [|injection C as <-; exact I].
        destruct (insert_rows E false d _); [discriminate|]. injection C as <-. exact I.
    + unfold create in C. destruct (negb (length md =? length ids)); [discriminate|].
      rewrite Emd in C. rewrite <- Emd in C.
      destruct (try_fixed_schema md) as [[cols|]| |] eqn:T; try discriminate; try (injection C as <-; exact I).
      * destruct (create_tables cols) as [d|] eqn:Ct; [|discriminate].
        destruct (insert_rows E true d _); discriminate.
      * destruct (new_names [] (pairs md)) as [names| |]; try discriminate; try (injection C as <-; exact I).
        destruct (create_tables (map (typed md) names)) as [d|]; [|discriminate].
        destruct (insert_rows E false d _); discriminate.
Qed.

(** ** Update *)
Definition extend (n m : nat) (r : thin_row * fat_row) : thin_row * fat_row :=
  ({| t_sub := t_sub (fst r); t_cid := t_cid (fst r); t_vals := t_vals (fst r) ++ repeat SNull n |},
   {| f_cid := f_cid (snd r); f_vals := f_vals (snd r) ++ repeat SNull m |}).
Lemma extend_0 r : extend 0 0 r = r.
Proof. destruct r as ([a b c], [e f]). unfold extend. cbn. rewrite !app_nil_r. reflexivity. Qed.
Lemma repeat_snoc {A} (x : A) n : repeat x n ++ [x] = repeat x (S n).
Proof. induction n; cbn; auto. rewrite IHn. reflexivity. Qed.
Lemma add_thin_db cols : forall tc fc l d', add_columns add_thin_column (db_of tc fc l) cols = Some d' ->
  d' = db_of (tc ++ cols) fc (map (extend (length cols) 0) l)
  /\ (NoDup (map ci (subset_column :: content_column :: map c_name tc)) ->
      NoDup (map ci (subset_column :: content_column :: map c_name (tc ++ cols)))).
Proof.
  induction cols as [|c cols IH]; intros tc fc l d' H; cbn [add_columns] in H.
  - injection H as <-. rewrite app_nil_r. split; auto. f_equal. cbn [length].
    rewrite <- (map_id l) at 1. apply map_ext. intro. symmetry. apply extend_0.
  - unfold add_thin_column in H at 1. destruct (mem _ _) eqn:Em in H; [discriminate|].
    replace (Build_db _ _ _ _) with (db_of (tc ++ [c]) fc (map (extend 1 0) l)) in H.
    + apply IH in H. destruct H as (H1 & H2). rewrite <- app_assoc in H1, H2. cbn [app] in *. split.
      * rewrite H1. f_equal. rewrite map_map. apply map_ext. intros r. unfold extend. cbn.
        rewrite !app_nil_r, <- app_assoc. reflexivity.
      * intro ND. apply H2. rewrite map_app. cbn [map db_of thin_cols] in *. rewrite map_app. cbn [map].
        apply mem_not in Em. change (NoDup ((ci subset_column :: ci content_column :: map ci (map c_name tc)) ++ [ci (c_name c)])).
        apply NoDup_app_snoc; auto.
    + unfold db_of. cbn [thin_cols fat_cols thin_rows fat_rows]. rewrite !map_map. f_equal.
      apply map_ext. intros (t, [f v]). unfold extend. cbn. rewrite app_nil_r. reflexivity.
Qed.
Lemma add_fat_db cols : forall tc fc l d', add_columns add_fat_column (db_of tc fc l) cols = Some d' ->
  d' = db_of tc (fc ++ cols) (map (extend 0 (length cols)) l)
  /\ (NoDup (map ci (content_column :: map c_name fc)) ->
      NoDup (map ci (content_column :: map c_name (fc ++ cols)))).
Proof.
  induction cols as [|c cols IH]; intros tc fc l d' H; cbn [add_columns] in H.
  - injection H as <-. rewrite app_nil_r. split; auto. f_equal. cbn [length].
    rewrite <- (map_id l) at 1. apply map_ext. intro. symmetry. apply extend_0.
  - unfold add_fat_column in H at 1. destruct (mem _ _) eqn:Em in H; [discriminate|].
    replace (Build_db _ _ _ _) with (db_of tc (fc ++ [c]) (map (extend 0 1) l)) in H.
    + apply IH in H. destruct H as (H1 & H2). rewrite <- app_assoc in H1, H2. cbn [app] in *. split.
      * rewrite H1. f_equal. rewrite map_map. apply map_ext. intros r. unfold extend. cbn.
        rewrite !app_nil_r, <- app_assoc. reflexivity.
      * intro ND. apply H2. rewrite map_app. cbn [map db_of fat_cols] in *. rewrite map_app. cbn [map].
        apply mem_not in Em. change (NoDup ((ci content_column :: map ci (map c_name fc)) ++ [ci (c_name c)])).
        apply NoDup_app_snoc; auto.
    + unfold db_of. cbn [thin_cols fat_cols thin_rows fat_rows]. rewrite !map_map. f_equal.
      apply map_ext. intros ([a b v], f). unfold extend. cbn. rewrite app_nil_r. reflexivity.
Qed.
Lemma rows_ok_extend a b n m l : rows_ok a b l -> rows_ok (a + n) (b + m) (map (extend n m) l).
Proof.
  intros (R1 & R2 & R3). split; [|split].
  - rewrite map_map. exact R1.
  - rewrite map_map. exact R2.
  - apply Forall_forall. intros r Hr. apply in_map_iff in Hr. destruct Hr as (q & <- & Hq).
    rewrite Forall_forall in R3. destruct (R3 q Hq) as (H1 & H2 & H3 & H4). unfold extend, sub_of in *. cbn.
    rewrite !app_length, !repeat_length. repeat split; auto.
Qed.
Lemma update_ok E d md ids s' n : wf_db d -> update E (Db d) md ids = (s', Ok n) -> md <> [] ->
  n = length md /\ length md = length ids
  /\ exists names cids,
    let nt := map (typed md) (filter is_thin_column names) in
    let nf := map (typed md) (filter (fun c => negb (is_thin_column c)) names) in
    let tc := thin_cols d ++ nt in
    let fc := fat_cols d ++ nf in
    new_names (map c_name (thin_cols d) ++ map c_name (fat_cols d)) (pairs md) = Ok names
    /\ cols_ok tc fc /\ length cids = length md
    /\ NoDup (map (fun r => f_cid (snd r)) (map (extend (length nt) (length nf)) (rows d) ++ map (new_row E tc fc) (with_ids md ids cids)))
    /\ s' = Db (db_of tc fc (map (extend (length nt) (length nf)) (rows d) ++ map (new_row E tc fc) (with_ids md ids cids))).
Proof.
  intros W H Hm. destruct (wf_parts d W) as ((C1 & C2 & C3 & C4) & R).
  destruct md as [|m0 md0] eqn:Emd; [congruence|]. rewrite <- Emd in *. unfold update in H.
  rewrite Emd in H. rewrite <- Emd in H.
  destruct (length md =? length ids) eqn:El; cbn [negb] in H; [|discriminate]. apply Nat.eqb_eq in El.
  destruct (new_names _ (pairs md)) as [names| |] eqn:Nn in H; try discriminate.
  set (nt := map (typed md) (filter is_thin_column names)) in *.
  set (nf := map (typed md) (filter (fun c => negb (is_thin_column c)) names)) in *.
  destruct (add_columns add_thin_column d nt) as [d1|] eqn:A1; [|discriminate].
  destruct (add_columns add_fat_column d1 nf) as [d2|] eqn:A2; [|discriminate].
  destruct (insert_rows E false d2 _) as [d3|] eqn:I; [|discriminate]. injection H as <- <-.
  split; auto. split; auto.
  rewrite (db_of_rows d W) in A1. apply add_thin_db in A1. destruct A1 as (-> & A1).
  apply add_fat_db in A2. destruct A2 as (-> & A2). rewrite map_map in I.
  assert (EE : map (fun x => extend 0 (length nf) (extend (length nt) 0 x)) (rows d) = map (extend (length nt) (length nf)) (rows d)).
  { apply map_ext. intro r. unfold extend. cbn. rewrite !app_nil_r. reflexivity. }
  rewrite EE in I. apply insert_rows_db in I. destruct I as (I1 & _ & I3).
  exists names, (zseq (next_content_id (db_of (thin_cols d ++ nt) (fat_cols d ++ nf) (map (extend (length nt) (length nf)) (rows d)))) (length md)).
  cbn zeta. fold nt nf. split; auto. split; [|split; [apply zseq_length|split]].
  - destruct (new_names_ok _ _ _ Nn) as (_ & V & _).
    split; [auto|]. split; [auto|]. split; apply Forall_app; split; auto; apply Forall_forall; intros c Hc;
      apply in_map_iff in Hc; destruct Hc as (k & <- & Hk); apply filter_In in Hk; destruct Hk as (Hk & Ht); cbn.
    + split; auto. apply V; auto.
    + apply negb_true_iff in Ht. split; auto. apply V; auto.
  - apply I3. rewrite map_map. apply R.
  - rewrite I1. reflexivity.
Qed.
Lemma update_err E s md ids s' r : update E s md ids = (s', r) -> (forall n, r <> Ok n) -> s' = s.
Proof.
  unfold update. intros H N. destruct md as [|m0 md0]; [injection H as <- <-; auto|].
  destruct (negb _); [injection H as <- _; auto|]. destruct s as [| |d]; try (injection H as <- _; auto; fail).
  destruct (new_names _ _) as [names| |]; try (injection H as <- _; auto; fail).
  destruct (add_columns add_thin_column _ _) as [d1|]; [|injection H as <- _; auto].
  destruct (add_columns add_fat_column _ _) as [d2|]; [|injection H as <- _; auto].
  destruct (insert_rows _ _ _ _) as [d3|]; [|injection H as <- _; auto].
  injection H as <- <-. exfalso. eapply N; reflexivity.
Qed.
Lemma row_at_none E d i : good_engine E -> wf_db d -> row_at E (Db d) i = None -> ~ In i (map sub_of (rows d)).
Proof.
  intros G W H. rewrite row_at_lookup in H by auto. apply lookup_none. destruct (lookup (rows d) i); [discriminate|auto].
Qed.
Lemma wf_update E s md ids : good_engine E -> wf s -> NoDup ids -> Forall (fun i => 0 <= i /\ row_at E s i = None)%Z ids ->
  wf (fst (update E s md ids)).
Proof.
  intros G W N P. destruct (update E s md ids) as (s', r) eqn:H. cbn [fst].
  destruct r as [n| |]; [|apply update_err in H; [subst; auto|discriminate] ..].
  destruct md as [|m0 md0] eqn:Emd; [cbn in H; injection H as <- _; auto|]. rewrite <- Emd in *.
  destruct s as [| |d]; [unfold update in H; rewrite Emd in H; destruct (negb _); discriminate..|].
  cbn [wf] in W. apply update_ok in H; [|auto|rewrite Emd; discriminate].
  destruct H as (-> & El & names & cids & Nn & CO & Lc & ND & ->). cbn [wf]. destruct (wf_parts d W) as (_ & R).
  apply wf_db_of; auto. destruct (with_ids_subs md ids cids El Lc) as (S1 & S2 & S3).
  apply rows_ok_new; auto.
  - rewrite !app_length. apply rows_ok_extend. auto.
  - rewrite S1; auto.
  - rewrite Forall_forall in *. intros x Hx. apply P. rewrite <- S1. apply (in_map (fun x => snd (fst x))); auto.
  - intros x Hx. rewrite map_map. change (map (fun x0 => sub_of (extend _ _ x0)) (rows d)) with (map sub_of (rows d)).
    apply (row_at_none E); auto. rewrite Forall_forall in P. apply P. rewrite <- S1. apply (in_map (fun x => snd (fst x))); auto.
Qed.
