(** Units written to the metadata over the life of an index. *)
From Verif Require Import Base Text F32 CodecModel CodecSpec IndexModel IndexSpec.
From Verif Require Import SqlModel MetaModel MetaSpec MetaProofs SyncProofs MetaCreate MetaContent MetaRead Units UnitsSpec UnitsProofs.
Open Scope nat_scope.

Definition unit_columns : list column := map (fun p => {| c_name := fst p; c_type := kind (snd p) |}) (unit_fields
  {| cu_name := []; cu_qualified_name := []; cu_file := []; cu_line := 0; cu_end_line := 0; cu_language := []; cu_unit_type := [];
     cu_signature := []; cu_docstring := None; cu_parameters := []; cu_return_type := None; cu_extends := None; cu_parent_class := None;
     cu_calls := []; cu_called_by := []; cu_complexity := 0; cu_has_loops := false; cu_has_branches := false; cu_has_error_handling := false;
     cu_variables := []; cu_imports := []; cu_code := [] |}).
Lemma kind_opt o : kind (j_opt o) = CText.
Proof. destruct o; reflexivity. Qed.
Lemma unit_columns_eq u : map (fun p => {| c_name := fst p; c_type := kind (snd p) |}) (unit_fields u) = unit_columns.
Proof. unfold unit_columns, unit_fields. cbn [map fst snd]. rewrite !kind_opt. reflexivity. Qed.
Lemma infer_kind v : infer_sql_type v = kind v.
Proof. destruct v; reflexivity. Qed.
Lemma unit_keys u : map fst (unit_fields u) = map c_name unit_columns.
Proof. rewrite <- (unit_columns_eq u), map_map. reflexivity. Qed.
Lemma unit_item_ok u : item_ok (to_value u).
Proof.
  unfold item_ok, to_value. rewrite unit_keys. 
  assert (D : forall l : list text, (fix nd l := match l with [] => true | x :: r => negb (mem x r) && nd r end) l = true -> NoDup l).
  { induction l as [|x l IH]; intro H; [constructor|]. apply andb_prop in H. destruct H as (H1 & H2). constructor; [|apply IH; exact H2].
    apply Bool.negb_true_iff in H1. intro Hx. assert (mem x l = true); [|congruence]. unfold mem. apply existsb_exists. exists x. split; [exact Hx|apply text_eqb_eq; reflexivity]. }
  apply D. vm_compute. reflexivity.
Qed.
Lemma field_key u k x : In (k, x) (unit_fields u) -> In {| c_name := k; c_type := kind x |} unit_columns.
Proof. intro H. rewrite <- (unit_columns_eq u). apply (in_map (fun p => {| c_name := fst p; c_type := kind (snd p) |})) in H. exact H. Qed.
Lemma pairs_units us p : In p (pairs (map to_value us)) -> exists u, In u us /\ In p (unit_fields u).
Proof.
  unfold pairs. intro H. apply in_flat_map in H. destruct H as (v & Hv & Hp). apply in_map_iff in Hv. destruct Hv as (u & <- & Hu). exists u. split; assumption.
Qed.
Lemma mem_in k l : In k l -> mem k l = true.
Proof. intro H. unfold mem. apply existsb_exists. exists k. split; [exact H|apply text_eqb_eq; reflexivity]. Qed.
Lemma fixed_units u us : try_fixed_schema (map to_value (u :: us)) = Ok (Some unit_columns).
Proof.
  cbn [map]. unfold try_fixed_schema. unfold to_value at 1.
  replace (forallb (fun p => is_valid_column_name (fst p)) (unit_fields u)) with true.
  2:{ symmetry. apply forallb_forall. intros p Hp. apply (in_map fst) in Hp. rewrite unit_keys in Hp.
      assert (V : forallb is_valid_column_name (map c_name unit_columns) = true) by (vm_compute; reflexivity). rewrite forallb_forall in V. apply V. exact Hp. }
  replace (forallb (fun p => mem (fst p) (map fst (unit_fields u))) (pairs (map to_value us))) with true.
  2:{ symmetry. apply forallb_forall. intros p Hp. destruct (pairs_units us p Hp) as (u' & _ & H). rewrite unit_keys. apply mem_in. rewrite <- (unit_keys u'). apply in_map. exact H. }
  rewrite <- (unit_columns_eq u). reflexivity.
Qed.
Definition unit_thin := filter (fun c => is_thin_column (c_name c)) unit_columns.
Definition unit_fat := filter (fun c => negb (is_thin_column (c_name c))) unit_columns.
Lemma unit_tables : create_tables unit_columns = Some (db_of unit_thin unit_fat []).
Proof. vm_compute. reflexivity. Qed.
Lemma units_objects us x ids cids : length us = length ids -> length cids = length us -> In x (with_ids (map to_value us) ids cids) -> is_object (fst (fst x)) = true.
Proof.
  intros H1 H2 Hx. destruct (with_ids_subs (map to_value us) ids cids) as (_ & _ & S3); [rewrite map_length; lia|rewrite map_length; lia|].
  apply (in_map (fun x => fst (fst x))) in Hx. rewrite S3 in Hx. apply in_map_iff in Hx. destruct Hx as (u & Q & _). rewrite <- Q. reflexivity.
Qed.
Lemma create_units E s u us ids : length ids = length (u :: us) ->
  exists s', create E s (map to_value (u :: us)) ids = (s', Ok (length (u :: us))) /\ for_units s'.
Proof.
  intro El. set (md := map to_value (u :: us)) in *. assert (Lm : length md = length ids) by (unfold md; rewrite map_length; lia).
  destruct (insert_rows_some E true (with_ids md ids (zseq (next_content_id (db_of unit_thin unit_fat [])) (length md))) unit_thin unit_fat []) as (d' & I).
  - intros _ x Hx. unfold md in Hx. eapply (units_objects (u :: us)); [symmetry; exact El| |exact Hx]. rewrite zseq_length. rewrite map_length. reflexivity.
  - cbn [map app]. destruct (with_ids_subs md ids (zseq (next_content_id (db_of unit_thin unit_fat [])) (length md)) Lm (zseq_length _ _)) as (_ & -> & _). apply zseq_NoDup.
  - exists (Db d'). split.
    + unfold create. rewrite <- Lm, Nat.eqb_refl. cbn [negb]. unfold md at 1. cbn [map]. fold md. unfold md at 1. rewrite fixed_units, unit_tables. rewrite I. do 2 f_equal. unfold md. rewrite map_length. reflexivity.
    + apply insert_rows_db in I. destruct I as (-> & _). intros u' k x Hx. exists (db_of unit_thin unit_fat ([] ++ map (new_row E unit_thin unit_fat) (with_ids md ids (zseq (next_content_id (db_of unit_thin unit_fat [])) (length md))))). split; [reflexivity|].
      cbn [db_of thin_cols fat_cols]. apply field_key in Hx. apply in_or_app. unfold unit_thin, unit_fat.
      destruct (is_thin_column k) eqn:T; [left|right]; apply filter_In; (split; [exact Hx|]); cbn [c_name]; rewrite T; reflexivity.
Qed.
Lemma known_names known ps : (forall p, In p ps -> In (fst p) known) -> new_names known ps = Ok [].
Proof.
  induction ps as [|[k v] ps IH]; intro H; [reflexivity|]. cbn [new_names]. rewrite (mem_in k known) by (apply (H (k, v)); left; reflexivity). apply IH. intros p Hp. apply H. right. exact Hp.
Qed.
Lemma update_units E s us ids : wf s -> for_units s -> us <> [] -> length ids = length us ->
  exists s', update E s (map to_value us) ids = (s', Ok (length us)).
Proof.
  intros W F Hn El. destruct us as [|u us]; [congruence|]. clear Hn.
  destruct (F u (txt "name") (JStr (cu_name u))) as (d & -> & _); [left; reflexivity|]. cbn [wf] in W.
  set (md := map to_value (u :: us)) in *. assert (Lm : length md = length ids) by (unfold md; rewrite map_length; lia).
  set (d2 := d). assert (D2 : d2 = db_of (thin_cols d) (fat_cols d) (rows d)) by (apply db_of_rows; exact W).
  destruct (insert_rows_some E false (with_ids md ids (zseq (next_content_id d2) (length md))) (thin_cols d) (fat_cols d) (rows d)) as (d' & I).
  - discriminate.
  - destruct (with_ids_subs md ids (zseq (next_content_id d2) (length md)) Lm (zseq_length _ _)) as (_ & -> & _).
    assert (C : map (fun r => f_cid (snd r)) (rows d) = map f_cid (fat_rows d)).
    { rewrite <- (map_map snd f_cid). f_equal. apply map_snd_combine. apply rows_length. exact W. }
    rewrite C. apply NoDup_app_intro; [apply (w_cids d W)|apply zseq_NoDup|].
    intros x Hx Hz. apply zseq_ge in Hz. unfold next_content_id, d2 in Hz. apply max_or_ge in Hx. lia.
  - rewrite <- D2 in I. exists (Db d'). unfold update. unfold md at 1. cbn [map]. fold md. rewrite <- Lm, Nat.eqb_refl. cbn [negb].
    rewrite known_names.
    2:{ intros p Hp. unfold md in Hp. destruct (pairs_units _ _ Hp) as (u' & _ & H). destruct p as (k, x). destruct (F u' k x H) as (d0 & Q & Hd). injection Q as <-.
        cbn [fst]. rewrite <- map_app. apply (in_map c_name) in Hd. exact Hd. }
    cbn [filter map add_columns]. fold d2. rewrite I. do 2 f_equal. unfold md. rewrite map_length. reflexivity.
Qed.
Lemma reflects_holds E s u f : for_units s -> reflects E s (to_value u) f -> holds E f u.
Proof.
  intros F (_ & R & _) k x y Hx Cb. unfold Units.lookup. apply (R k x y); [exists (unit_fields u); split; [reflexivity|exact Hx]|right; eapply F; exact Hx|exact Cb].
Qed.

(** ** Histories *)
Definition fits (E : engine) (f : option (list (text * json))) (u : option code_unit) : Prop :=
  match f, u with Some f, Some u => holds E f u /\ proper u | None, None => True | _, _ => False end.
Definition units_held (E : engine) (s : store) (L : list (option code_unit)) : Prop :=
  wf s /\ for_units s /\ forall i, fits E (row_at E s i) (at_pos L i).
Lemma in_ids_from i n k : In i (ids_from n k) <-> (Z.of_nat n <= i < Z.of_nat (n + k))%Z.
Proof.
  unfold ids_from. rewrite in_map_iff. split.
  - intros (j & <- & H). apply in_seq in H. lia.
  - intro H. exists (Z.to_nat i). split; [lia|apply in_seq; lia].
Qed.
Lemma ids_from_NoDup n k : NoDup (ids_from n k).
Proof. unfold ids_from. apply FinFun.Injective_map_NoDup; [|apply seq_NoDup]. intros x y H. lia. Qed.
Lemma ids_from_length n k : length (ids_from n k) = k.
Proof. unfold ids_from. rewrite map_length, seq_length. reflexivity. Qed.
Lemma nth_ids_from n k j : j < k -> nth_error (ids_from n k) j = Some (Z.of_nat (n + j)).
Proof.
  intro H. unfold ids_from. rewrite nth_error_map. rewrite (nth_error_nth' _ 0) by (rewrite seq_length; exact H). rewrite seq_nth by exact H. reflexivity.
Qed.
Lemma at_pos_app {A} (L : list (option A)) R i : at_pos (L ++ R) i = if (i <? Z.of_nat (length L))%Z then at_pos L i else at_pos R (i - Z.of_nat (length L)).
Proof.
  unfold at_pos. destruct (i <? 0)%Z eqn:Z0; destruct (i <? Z.of_nat (length L))%Z eqn:Z1; try lia.
  - reflexivity.
  - rewrite nth_error_app1 by lia. reflexivity.
  - replace (i - Z.of_nat (length L) <? 0)%Z with false by lia. rewrite nth_error_app2 by lia. replace (Z.to_nat i - length L) with (Z.to_nat (i - Z.of_nat (length L))) by lia. reflexivity.
Qed.
Lemma at_pos_somes {A} (l : list A) i : at_pos (map Some l) i = if (i <? 0)%Z then None else nth_error l (Z.to_nat i).
Proof. unfold at_pos. destruct (i <? 0)%Z; [reflexivity|]. rewrite nth_error_map. destruct (nth_error l (Z.to_nat i)); reflexivity. Qed.
Lemma at_pos_nones {A} n i : at_pos (repeat (@None A) n) i = None.
Proof.
  unfold at_pos. destruct (i <? 0)%Z; [reflexivity|]. destruct (nth_error _ _) as [o|] eqn:H; [|reflexivity]. apply nth_error_In in H. apply repeat_spec in H. exact H.
Qed.
Lemma held_create E n us : good_engine E -> us <> [] -> Forall proper us ->
  snd (create E NoDb (map to_value us) (ids_from n (length us))) = Ok (length us)
  /\ units_held E (fst (create E NoDb (map to_value us) (ids_from n (length us)))) (repeat None n ++ map Some us).
Proof.
  intros G Hn P. destruct us as [|u us]; [congruence|]. set (ids := ids_from n (length (u :: us))).
  destruct (create_units E NoDb u us ids) as (s' & C & F); [apply ids_from_length|]. rewrite C. cbn [fst snd]. split; [reflexivity|].
  assert (NN : Forall (fun i => 0 <= i)%Z ids) by (apply Forall_forall; intros i Hi; apply in_ids_from in Hi; lia).
  assert (W : wf s'). { pose proof (wf_create E NoDb (map to_value (u :: us)) ids I (ids_from_NoDup _ _) NN) as W. rewrite C in W. exact W. }
  split; [exact W|]. split; [exact F|].
  assert (IO : Forall item_ok (map to_value (u :: us))). { apply Forall_forall. intros v Hv. apply in_map_iff in Hv. destruct Hv as (u' & <- & _). apply unit_item_ok. }
  destruct (create_reads E NoDb _ ids s' _ G I (ids_from_NoDup _ _) NN IO C) as (_ & _ & R1 & R2 & _). intro i.
  rewrite at_pos_app, repeat_length. destruct (i <? Z.of_nat n)%Z eqn:Zi.
  - rewrite at_pos_nones. rewrite R1 by (unfold ids; rewrite in_ids_from; lia). exact I.
  - rewrite at_pos_somes. destruct (i - Z.of_nat n <? 0)%Z eqn:Zj; [lia|]. destruct (nth_error (u :: us) (Z.to_nat (i - Z.of_nat n))) as [u'|] eqn:Hu.
    + assert (Hj : Z.to_nat (i - Z.of_nat n) < length (u :: us)) by (apply nth_error_Some; congruence).
      destruct (R2 (Z.to_nat (i - Z.of_nat n)) (to_value u') i) as (f & Hf & Rf).
      * rewrite nth_error_map, Hu. reflexivity.
      * unfold ids. rewrite nth_ids_from by exact Hj. f_equal. lia.
      * rewrite Hf. cbn [fits]. split; [exact (reflects_holds E s' u' f F Rf)|]. rewrite Forall_forall in P. apply P. eapply nth_error_In. exact Hu.
    + rewrite R1; [exact I|]. unfold ids. rewrite in_ids_from. apply nth_error_None in Hu. lia.
Qed.
Lemma held_update E s L us : good_engine E -> units_held E s L -> Forall proper us ->
  snd (update E s (map to_value us) (ids_from (length L) (length us))) = Ok (length us)
  /\ units_held E (fst (update E s (map to_value us) (ids_from (length L) (length us)))) (L ++ map Some us).
Proof.
  intros G (W & F & H) P. destruct us as [|u0 us0] eqn:Eu.
  - cbn [map update length fst snd]. rewrite app_nil_r. split; [reflexivity|]. split; [exact W|]. split; [exact F|exact H].
  - rewrite <- Eu in *. assert (Hn : us <> []) by (rewrite Eu; discriminate). clear Eu u0 us0. set (ids := ids_from (length L) (length us)).
    destruct (update_units E s us ids W F Hn) as (s' & U); [apply ids_from_length|]. rewrite U. cbn [fst snd]. split; [reflexivity|].
    assert (NN : Forall (fun i => 0 <= i /\ row_at E s i = None)%Z ids).
    { apply Forall_forall; intros i Hi; apply in_ids_from in Hi. split; [lia|]. specialize (H i). replace (at_pos L i) with (@None code_unit) in H; [destruct (row_at E s i); [contradiction|reflexivity]|].
      unfold at_pos. destruct (i <? 0)%Z; [reflexivity|]. replace (nth_error L (Z.to_nat i)) with (@None (option code_unit)); [reflexivity|]. symmetry. apply nth_error_None. lia. }
    assert (IO : Forall item_ok (map to_value us)). { apply Forall_forall. intros v Hv. apply in_map_iff in Hv. destruct Hv as (u' & <- & _). apply unit_item_ok. }
    assert (Hm : map to_value us <> []) by (destruct us; [congruence|discriminate]).
    pose proof (wf_update E s (map to_value us) ids G W (ids_from_NoDup _ _) NN) as W'. rewrite U in W'. cbn [fst] in W'.
    destruct (update_reads E s _ ids s' _ G W (ids_from_NoDup _ _) NN IO Hm U) as (_ & _ & R1 & R2 & R3 & R4 & _).
    assert (F' : for_units s') by (intros u k x Hx; apply R4; eapply F; exact Hx).
    split; [exact W'|]. split; [exact F'|]. intro i. rewrite at_pos_app. destruct (i <? Z.of_nat (length L))%Z eqn:Zi.
    + assert (NI : ~ In i ids) by (unfold ids; rewrite in_ids_from; lia). specialize (H i). destruct (row_at E s i) as [f|] eqn:Rf, (at_pos L i) as [u|] eqn:Ru; cbn [fits] in H; try contradiction.
      * destruct (R2 i f NI Rf) as (f' & -> & K). cbn [fits]. destruct H as (Hf & Pu). split; [|exact Pu]. intros k x y Hx Cb. specialize (Hf k x y Hx Cb). change Units.lookup with field_of in Hf |- *. destruct (K k) as [K1|(K1 & _)]; [rewrite K1; exact Hf|]. rewrite K1 in Hf. discriminate.
      * rewrite (R1 i NI Rf). exact I.
    + rewrite at_pos_somes. destruct (i - Z.of_nat (length L) <? 0)%Z eqn:Zj; [lia|]. destruct (nth_error us (Z.to_nat (i - Z.of_nat (length L)))) as [u'|] eqn:Hu.
      * assert (Hj : Z.to_nat (i - Z.of_nat (length L)) < length us) by (apply nth_error_Some; congruence).
        destruct (R3 (Z.to_nat (i - Z.of_nat (length L))) (to_value u') i) as (f & Hf & Rf).
        -- rewrite nth_error_map, Hu. reflexivity.
        -- unfold ids. rewrite nth_ids_from by exact Hj. f_equal. lia.
        -- rewrite Hf. cbn [fits]. split; [exact (reflects_holds E s' u' f F' Rf)|]. rewrite Forall_forall in P. apply P. eapply nth_error_In. exact Hu.
      * assert (NI : ~ In i ids) by (unfold ids; rewrite in_ids_from; apply nth_error_None in Hu; lia). rewrite R1; [exact I|exact NI|].
        specialize (H i). replace (at_pos L i) with (@None code_unit) in H; [destruct (row_at E s i); [contradiction|reflexivity]|].
        unfold at_pos. destruct (i <? 0)%Z; [reflexivity|]. replace (nth_error L (Z.to_nat i)) with (@None (option code_unit)); [reflexivity|]. symmetry. apply nth_error_None. lia.
Qed.
Lemma held_delete E s L ids : good_engine E -> units_held E s L -> units_held E (fst (delete s ids)) (delete_positions ids L).
Proof.
  intros G (W & F & H). destruct (delete s ids) as (s', r) eqn:D. cbn [fst].
  assert (exists d, s = Db d) as (d & ->).
  { destruct (F {| cu_name := []; cu_qualified_name := []; cu_file := []; cu_line := 0; cu_end_line := 0; cu_language := []; cu_unit_type := [];
      cu_signature := []; cu_docstring := None; cu_parameters := []; cu_return_type := None; cu_extends := None; cu_parent_class := None;
      cu_calls := []; cu_called_by := []; cu_complexity := 0; cu_has_loops := false; cu_has_branches := false; cu_has_error_handling := false;
      cu_variables := []; cu_imports := []; cu_code := [] |} (txt "name") (JStr [])) as (d & -> & _); [left; reflexivity|]. exists d. reflexivity. }
  pose (LL := map (fun n => (row_at E (Db d) (Z.of_nat n), at_pos L (Z.of_nat n))) (seq 0 (length L))).
  assert (L2 : map snd LL = L).
  { unfold LL. rewrite map_map. cbn [snd]. apply nth_ext with (d := None) (d' := None); [rewrite map_length, seq_length; reflexivity|]. intros n Hn. rewrite map_length, seq_length in Hn.
    rewrite (nth_indep _ _ (at_pos L (Z.of_nat 0))) by (rewrite map_length, seq_length; exact Hn). rewrite (map_nth (fun n => at_pos L (Z.of_nat n))). rewrite seq_nth by exact Hn. cbn [Nat.add].
    unfold at_pos. replace (Z.of_nat n <? 0)%Z with false by lia. rewrite Nat2Z.id. rewrite (nth_error_nth' L None) by exact Hn. reflexivity. }
  assert (RL : row_list E (Db d) (map fst LL)).
  { intro i. unfold at_pos. destruct (i <? 0)%Z eqn:Zi.
    - specialize (H i). unfold at_pos in H. rewrite Zi in H. destruct (row_at E (Db d) i); [contradiction|reflexivity].
    - unfold LL. rewrite map_map. cbn [fst]. rewrite nth_error_map. destruct (Z.to_nat i <? length L) eqn:Q; [apply Nat.ltb_lt in Q|apply Nat.ltb_ge in Q].
      + rewrite (nth_error_nth' _ 0) by (rewrite seq_length; exact Q). rewrite seq_nth by exact Q. cbn [option_map Nat.add]. f_equal. lia.
      + replace (nth_error (seq 0 (length L)) (Z.to_nat i)) with (@None nat) by (symmetry; apply nth_error_None; rewrite seq_length; exact Q). cbn [option_map].
        specialize (H i). unfold at_pos in H. rewrite Zi in H. replace (nth_error L (Z.to_nat i)) with (@None (option code_unit)) in H by (symmetry; apply nth_error_None; exact Q).
        destruct (row_at E (Db d) i); [contradiction|reflexivity]. }
  destruct (delete_row_list E (Db d) ids s' r _ G W D RL) as (R & _); [discriminate|].
  assert (S' : wf s' /\ for_units s').
  { unfold delete in D. destruct ids as [|i0 ids0]; [injection D as <- _; split; [exact W|exact F]|].
    destruct (delete_v2 d (i0 :: ids0)) as (d', n') eqn:Dv. injection D as <- _. pose proof (wf_delete d (i0 :: ids0) W) as Wd. rewrite Dv in Wd. split; [exact Wd|].
    pose proof (delete_v2_db d (i0 :: ids0) W) as Q. rewrite Dv in Q. injection Q as Q _. intros u k x Hx. destruct (F u k x Hx) as (d0 & E0 & I0). injection E0 as <-.
    exists d'. split; [reflexivity|]. rewrite Q. cbn [db_of thin_cols fat_cols]. exact I0. }
  destruct S' as (W' & F'). split; [exact W'|]. split; [exact F'|]. intro i. rewrite R. rewrite <- L2 at 1. rewrite <- !delete_positions_map.
  unfold at_pos. destruct (i <? 0)%Z; [exact I|]. rewrite !nth_error_map. destruct (nth_error (delete_positions ids LL) (Z.to_nat i)) as [(a, b)|] eqn:N; [|exact I].
  cbn [option_map fst snd]. apply delete_positions_inv in N. destruct N as (n & N & _). apply nth_error_In in N. unfold LL in N. apply in_map_iff in N. destruct N as (m & Q & _). injection Q as <- <-. apply H.
Qed.
Lemma history_held E s L : good_engine E -> unit_history E s L -> units_held E s L.
Proof.
  intros G H. induction H as [n us Hn P|s L us _ IH P|s L ids _ IH].
  - apply held_create; assumption.
  - apply held_update; assumption.
  - apply held_delete; assumption.
Qed.
Lemma held_shown E parse s L i : good_json E parse -> units_held E s L ->
  unit_at E parse s i = match at_pos L i with Some u => if existsb (taken parse) (texts_of u) then None else Some u | None => None end.
Proof.
  intros GJ (_ & _ & H). specialize (H i). unfold unit_at. destruct (row_at E s i) as [f|], (at_pos L i) as [u|]; cbn [fits] in H; try contradiction; [|reflexivity].
  destruct H as (H & P). apply (row_unit E parse GJ); assumption.
Qed.
