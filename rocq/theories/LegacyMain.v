(** Earlier metadata layouts: histories, and files left by a killed process. *)
From Coq Require Import Permutation Sorted.
From Verif Require Import Base IndexModel IndexLemmas Text SqlModel SqlSpec Base64 MetaModel MetaQuery MetaSpec MetaProofs MetaCreate MetaContent MetaFilter MetaWhere MetaRead Legacy LegacySpec LegacyProofs LegacyUpdate.
Open Scope nat_scope.

(** *** One operation *)
Lemma after_step E f s o n : good_engine E -> settled E -> old_file E f s -> op_ok E s o -> snd (trace E f o) = Ok n ->
  exists s', on_split E s o = (s', Ok n) /\ old_file E (after E f o) s'.
Proof.
  intros G ST (V & V1 & t & d & M & O & -> & SD) OK T. unfold after, trace, on_split in *. destruct o as [md ids|ids].
  - destruct OK as (N & P & NR). unfold update_trace in *. destruct md as [|m0 md0] eqn:Emd.
    + cbn in T. injection T as <-. exists (Db d). split; [reflexivity|]. cbn. split; [exact V|]. split; [exact V1|]. exists t, d. auto.
    + rewrite <- Emd in *. rewrite M in *. destruct (negb (length md =? length ids)) eqn:El; [discriminate|].
      replace (2 <=? d_version f)%Z with false in * by (destruct V as [-> | ->]; reflexivity).
      destruct (update_old E t md ids) as (t', r) eqn:U. destruct r as [n'| |]; try discriminate. cbn [fst snd last] in *. injection T as ->.
      assert (Hm : md <> []) by (subst md; discriminate).
      destruct (update_same E t d md ids t' n G ST O SD N P NR Hm U) as (d' & U' & O' & SD'). exists (Db d'). split; [exact U'|].
      split; [exact V|]. split.
      * cbn [d_version d_meta]. intros Q t2 I. injection I as <-. specialize (V1 Q t eq_refl). apply update_old_ok in U; [|exact Hm]. destruct U as (_ & _ & names & _ & -> & _). exact V1.
      * exists t', d'. cbn [d_meta]. auto.
  - unfold delete_trace in *. destruct ids as [|i0 ids0] eqn:Ei.
    + cbn in T. injection T as <-. exists (Db d). split; [reflexivity|]. cbn. split; [exact V|]. split; [exact V1|]. exists t, d. auto.
    + rewrite <- Ei in *. rewrite M in *. replace (2 <=? d_version f)%Z with false in * by (destruct V as [-> | ->]; reflexivity).
      assert (DQ : exists d', MetaModel.delete (Db d) ids = (Db d', Ok (snd (delete_v2 d ids))) /\ d' = fst (delete_v2 d ids)).
      { unfold MetaModel.delete. rewrite Ei. rewrite <- Ei. destruct (delete_v2 d ids) as (d', k). eauto. }
      destruct DQ as (d' & DQ & ->).
      assert (G1 : exists t1, d_meta (last (ensure_v1 E f) f) = Some t1 /\ old_table E t1 /\ same_documents t1 d /\ d_version (last (ensure_v1 E f) f) = 1%Z /\ l_pk t1 = false).
      { unfold ensure_v1. rewrite M. destruct V as [V|V]; rewrite V; cbn [Z.leb].
        - replace (1 <=? 0)%Z with false by reflexivity. destruct (l_pk t) eqn:PK; cbn [last d_meta d_version].
          + exists (migrate E t). destruct (migrate_same E t d O SD). auto.
          + exists t. auto.
        - replace (1 <=? 1)%Z with true by reflexivity. cbn [last]. exists t. split; [exact M|]. repeat (split; [assumption|]). apply (V1 V t eq_refl). }
      destruct G1 as (t1 & M1 & O1 & SD1 & W1 & PK1). rewrite M1 in *. destruct (delete_same E t1 d ids O1 SD1) as (O2 & SD2 & NQ).
      destruct (delete_old t1 ids) as (t2, k) eqn:D. cbn [fst snd] in *. injection T as ->. subst n. exists (Db (fst (delete_v2 d ids))). split; [exact DQ|].
      rewrite last_last. split; [cbn [d_version]; rewrite W1; auto|]. split.
      * cbn [d_version d_meta]. intros _ t3 I. injection I as <-. unfold delete_old in D. injection D as <- _. exact PK1.
      * exists t2, (fst (delete_v2 d ids)). cbn [d_meta]. auto.
Qed.
Lemma after_refused E f s o : old_file E f s -> (forall n, snd (trace E f o) <> Ok n) -> fst (trace E f o) = [] /\ snd (trace E f o) = Err.
Proof.
  intros (V & V1 & t & d & M & O & -> & SD) T. unfold trace in *. destruct o as [md ids|ids].
  - unfold update_trace in *. destruct md as [|m0 md0] eqn:Emd; [exfalso; eapply T; reflexivity|]. rewrite <- Emd in *. rewrite M in *. destruct (negb (length md =? length ids)); [auto|].
    replace (2 <=? d_version f)%Z with false in * by (destruct V as [-> | ->]; reflexivity).
    destruct (update_old E t md ids) as (t', r) eqn:U. destruct r as [n'| |]; [exfalso; eapply T; reflexivity|auto|]. apply update_old_err in U; [|discriminate]. destruct U; discriminate.
  - unfold delete_trace in *. destruct ids as [|i0 ids0] eqn:Ei; [exfalso; eapply T; reflexivity|]. rewrite <- Ei in *. rewrite M in *. replace (2 <=? d_version f)%Z with false in * by (destruct V as [-> | ->]; reflexivity).
    assert (G1 : exists t1, d_meta (last (ensure_v1 E f) f) = Some t1).
    { unfold ensure_v1. destruct (1 <=? _)%Z; [cbn; eauto|]. rewrite M. destruct (l_pk t); cbn; eauto. }
    destruct G1 as (t1 & M1). rewrite M1 in *. destruct (delete_old t1 ids) as (t2, k). cbn in T. exfalso. eapply T; reflexivity.
Qed.
Lemma history_same E f s f' s' : good_engine E -> settled E -> side_by_side E f s f' s' -> old_file E f s -> old_file E f' s'.
Proof.
  intros G ST H. induction H as [f s|f s f1 s1 o n H IH OK T|f s f1 s1 o H IH OK T]; intro F; [exact F| |].
  - destruct (after_step E f1 s1 o n G ST (IH F) OK T) as (s2 & -> & F2). exact F2.
  - destruct (after_refused E f1 s1 o (IH F)) as (Q & _). { intros n Q. congruence. } unfold after. rewrite Q. exact (IH F).
Qed.
Lemma file_reads E scan f s sub : good_engine E -> (forall l, Permutation (scan l) l) -> old_file E f s ->
  exists l l', get_disk E scan f sub = Ok l /\ get_rows E s sub = Ok l' /\ Forall2 same_object l l'.
Proof.
  intros G SP (V & V1 & t & d & M & O & -> & SD). destruct (same_reads E scan t d sub G SP O SD) as (l' & R & F). exists (get_old E scan t sub), l'. split; [|auto].
  unfold get_disk. rewrite M. replace (2 <=? d_version f)%Z with false by (destruct V as [-> | ->]; reflexivity). reflexivity.
Qed.

(** *** A file of the split layout is the store of the other theorems *)
Lemma stored_split d : split_db (thin_table (thin_cols d) (thin_rows d)) (fat_cols d, fat_rows d) = d.
Proof.
  unfold split_db, thin_table. cbn [l_cols l_rows fst snd tl]. rewrite map_map. destruct d as [a b c e]. cbn [thin_cols fat_cols thin_rows fat_rows]. f_equal.
  rewrite <- (map_id c) at 2. apply map_ext. intros [x y z]. reflexivity.
Qed.
Lemma stored_reads E scan d sub : get_disk E scan (stored d) sub = get_rows E (Db d) sub.
Proof. unfold get_disk, stored. cbn [d_meta d_version d_content]. replace (2 <=? 2)%Z with true by reflexivity. rewrite stored_split. reflexivity. Qed.
Lemma stored_trace E d o d' n : on_split E (Db d) o = (Db d', Ok n) -> after E (stored d) o = stored d' /\ snd (trace E (stored d) o) = Ok n.
Proof.
  unfold after, trace, on_split. destruct o as [md ids|ids].
  - unfold update_trace. destruct md as [|m0 md0] eqn:Emd. { cbn. intro H. injection H as <- <-. auto. } rewrite <- Emd. cbn [stored d_meta d_version d_content]. replace (2 <=? 2)%Z with true by reflexivity. intro H.
    destruct (negb (length md =? length ids)) eqn:El. { unfold MetaModel.update in H. rewrite Emd in H. rewrite <- Emd in H. rewrite El in H. discriminate. }
    rewrite stored_split, H. auto.
  - unfold delete_trace, MetaModel.delete. destruct ids as [|i0 ids0] eqn:Ei. { intro H. injection H as <- <-. auto. } rewrite <- Ei. cbn [stored d_meta d_version d_content]. replace (2 <=? 2)%Z with true by reflexivity. rewrite stored_split.
    destruct (delete_v2 d ids) as (d2, k). intro H. injection H as <- <-. auto.
Qed.

(** *** Killed in the middle *)
Lemma trace_moments E f s o g : old_file E f s -> In g (fst (trace E f o)) ->
  (exists t, d_meta g = Some t /\ d_version g = 1%Z /\ forall t0, d_meta f = Some t0 -> l_cols t = l_cols t0 /\ l_rows t = l_rows t0) \/ g = after E f o.
Proof.
  intros (V & V1 & t & d & M & O & -> & SD). unfold after, trace. destruct o as [md ids|ids].
  - unfold update_trace. destruct md as [|m0 md0] eqn:Emd; [intros []|]. rewrite <- Emd. rewrite M. destruct (negb _); [intros []|]. replace (2 <=? d_version f)%Z with false by (destruct V as [-> | ->]; reflexivity).
    destruct (update_old E t md ids) as (t', r). destruct r; [|intros []|intros []]. intros [<-|[]]. right. reflexivity.
  - unfold delete_trace. destruct ids as [|i0 ids0] eqn:Ei; [intros []|]. rewrite <- Ei. rewrite M. replace (2 <=? d_version f)%Z with false by (destruct V as [-> | ->]; reflexivity).
    assert (K : forall x, In x (ensure_v1 E f) -> exists t', d_meta x = Some t' /\ d_version x = 1%Z /\ forall t0, d_meta f = Some t0 -> l_cols t' = l_cols t0 /\ l_rows t' = l_rows t0).
    { intros x I. unfold ensure_v1 in I. destruct (1 <=? _)%Z; [destruct I|]. rewrite M in *. destruct (l_pk t); destruct I as [<-|[]]; cbn [d_meta d_version]; eexists; (split; [reflexivity|]); (split; [reflexivity|]); intros t0 Q; injection Q as <-.
      - split; [reflexivity|]. apply migrate_rows. exact O.
      - auto. }
    destruct (d_meta (last (ensure_v1 E f) f)) as [t1|].
    + destruct (delete_old t1 ids) as (t2, k). cbn [fst]. intro I. apply in_app_or in I. rewrite last_last. destruct I as [I|[<-|[]]]; [left; rewrite <- M; apply K; exact I|right; reflexivity].
    + cbn [fst]. intro I. left. rewrite <- M; apply K; exact I.
Qed.
Lemma old_object_cols E t t0 : l_cols t = l_cols t0 -> old_object E t = old_object E t0.
Proof. intro H. unfold old_object. rewrite H. reflexivity. Qed.
Lemma get_old_same E scan t t0 sub : l_cols t = l_cols t0 -> l_rows t = l_rows t0 -> get_old E scan t sub = get_old E scan t0 sub.
Proof. intros H1 H2. unfold get_old, get_ids_old, get_all_old. rewrite (old_object_cols E t t0 H1), H2. reflexivity. Qed.
Lemma killed_old E scan f s o g : old_file E f s -> In g (f :: fst (trace E f o)) ->
  (forall sub, get_disk E scan g sub = get_disk E scan f sub) \/ g = after E f o.
Proof.
  intros F [<-|I]; [left; reflexivity|]. destruct (trace_moments E f s o g F I) as [(t & M & Vg & H)|H]; [left|right; exact H]. intro sub.
  destruct F as (V & V1 & t0 & d & M0 & O & -> & SD). destruct (H t0 M0) as (H1 & H2). unfold get_disk. rewrite M, M0, Vg. replace (2 <=? d_version f)%Z with false by (destruct V as [-> | ->]; reflexivity).
  replace (2 <=? 1)%Z with false by reflexivity. f_equal. apply get_old_same; assumption.
Qed.
Lemma killed_new E f o g : (2 <= d_version f)%Z -> In g (f :: fst (trace E f o)) -> g = f \/ g = after E f o.
Proof.
  intros V [<-|I]; [auto|]. right. revert I. unfold after, trace. destruct o as [md ids|ids].
  - unfold update_trace. destruct md as [|m0 md0] eqn:Emd; [intros []|]. rewrite <- Emd. destruct (negb _); [intros []|]. destruct (d_meta f); [|intros []]. replace (2 <=? d_version f)%Z with true by lia. destruct (d_content f); [|intros []].
    destruct (MetaModel.update _ _ _ _) as ([| |d'], r); destruct r; try (intros []; fail). intros [<-|[]]. reflexivity.
  - unfold delete_trace. destruct ids as [|i0 ids0] eqn:Ei; [intros []|]. rewrite <- Ei. destruct (d_meta f); [|intros []]. replace (2 <=? d_version f)%Z with true by lia. destruct (d_content f); [|intros []].
    destruct (delete_v2 _ _). intros [<-|[]]. reflexivity.
Qed.

(** *** Every table of an earlier layout has a counterpart *)
Lemma counterpart E t : old_table E t -> exists d, same_documents t d.
Proof.
  intro O. set (p := combine (l_rows t) (zseq 0 (length (l_rows t)))).
  exists {| thin_cols := filter thin_col (l_cols t); fat_cols := filter fat_col (l_cols t);
            thin_rows := map (fun x => {| t_sub := l_sub (fst x); t_cid := snd x; t_vals := chosen thin_col (l_cols t) (l_vals (fst x)) |}) p;
            fat_rows := map (fun x => {| f_cid := snd x; f_vals := chosen fat_col (l_cols t) (l_vals (fst x)) |}) p |}.
  assert (P1 : map fst p = l_rows t). { unfold p. apply map_fst_combine. rewrite zseq_length. reflexivity. }
  assert (P2 : map snd p = zseq 0 (length (l_rows t))). { unfold p. apply map_snd_combine. rewrite zseq_length. reflexivity. }
  split; [reflexivity|]. split; [reflexivity|]. cbn [thin_rows fat_rows]. rewrite !map_map. cbn [t_cid f_cid]. split; [reflexivity|]. split; [change (NoDup (map snd p)); rewrite P2; apply zseq_NoDup|].
  rewrite <- P1 at 1. pose proof (ot_vals _ _ O) as V. rewrite <- P1 in V. clear - V. induction p as [|x l IH]; [constructor|]. cbn [map combine]. cbn [map] in V. inversion V as [|? ? A B]; subst. constructor; [|apply IH; exact B].
  cbn [fst snd t_sub t_vals f_vals]. split; [reflexivity|]. split; [|auto]. symmetry. eapply F2_len. exact A.
Qed.

(** *** A creation killed before the version is set *)
Definition stray (cols : list column) (f : disk) : Prop :=
  (d_version f = 0 \/ d_version f = 1)%Z /\
  match d_meta f with
  | None => True
  | Some t => l_pk t = false /\ l_need t = [content_column] /\ l_cols t = content_col :: cols
  end.
Lemma insert_stray E t v s cols : good_engine E -> l_need t = [content_column] -> (exists c, l_cols t = content_col :: c ++ cols) ->
  (forall x, ~ gives v content_column x) -> insert_old E t v s = None.
Proof.
  intros G N (c & C) A. unfold insert_old. destruct (l_pk t && _); [reflexivity|]. rewrite C, N. cbn [existsb]. unfold cell. cbn [content_col c_name c_type].
  rewrite item_get_absent by exact A. cbn [json_to_sql]. rewrite (ge_null _ G). replace (mem content_column [content_column]) with true by reflexivity. reflexivity.
Qed.
Lemma update_stray E f md ids cols : good_engine E -> stray cols f -> plain_op (OUpdate md ids) -> md <> [] -> trace E f (OUpdate md ids) = ([], Err).
Proof.
  intros G (V & S) P Hm. unfold trace, update_trace. destruct md as [|m0 md0] eqn:Emd; [congruence|]. destruct (length (m0 :: md0) =? length ids) eqn:El; [|reflexivity]. cbn [negb]. rewrite <- Emd in *.
  destruct (d_meta f) as [t|]; [|reflexivity]. destruct S as (PK & N & C). replace (2 <=? d_version f)%Z with false by (destruct V as [-> | ->]; reflexivity).
  assert (L : exists i0 ids0, ids = i0 :: ids0). { rewrite Emd in El. destruct ids as [|i0 ids0]; [discriminate|]. eauto. } destruct L as (i0 & ids0 & ->).
  assert (A : forall x, ~ gives m0 content_column x). { intro x. apply P. rewrite Emd. left. reflexivity. }
  unfold update_old. rewrite Emd. rewrite <- Emd. rewrite El. cbn [negb]. destruct (forallb _ _).
  - rewrite Emd. cbn [combine inserts_old]. destruct (_ && _); [reflexivity|]. rewrite (insert_stray E t m0 i0 []); auto. exists cols. rewrite app_nil_r. exact C.
  - destruct (new_names _ _) as [names| |] eqn:Nn; [|reflexivity|].
    + destruct (adds_old t _) as [t1|] eqn:Ad; [|reflexivity]. apply adds_old_tab in Ad. destruct Ad as (-> & _). rewrite Emd. cbn [combine inserts_old andb]. rewrite (insert_stray E _ m0 i0 []); auto. exists (cols ++ map (typed (m0 :: md0)) names). rewrite app_nil_r. cbn [tab l_cols]. rewrite C. reflexivity.
    + exfalso. clear - Nn. revert Nn. generalize (map c_name (l_cols t)). generalize (pairs md). induction l as [|(k, x) l IH]; intros kn Nn; [discriminate|]. cbn [new_names] in Nn. destruct (mem k kn); [eapply IH; exact Nn|]. destruct (is_valid_column_name k); [|discriminate]. destruct (new_names (k :: kn) l) eqn:Q; try discriminate. eapply IH; exact Q.
Qed.
Lemma delete_stray E f ids cols : stray cols f -> stray cols (after E f (ODelete ids)).
Proof.
  intros (V & S). unfold after, trace, delete_trace. destruct ids as [|i0 ids0] eqn:Ei; [split; assumption|]. rewrite <- Ei. destruct (d_meta f) as [t|] eqn:M; [|cbn [fst last]; split; [exact V|rewrite M; exact I]].
  destruct S as (PK & N & C). replace (2 <=? d_version f)%Z with false by (destruct V as [-> | ->]; reflexivity).
  assert (Q : exists v, (v = 0 \/ v = 1)%Z /\ d_version (last (ensure_v1 E f) f) = v /\ d_meta (last (ensure_v1 E f) f) = Some t).
  { unfold ensure_v1. destruct (1 <=? _)%Z; [exists (d_version f); auto|]. rewrite M, PK. exists 1%Z. auto. }
  destruct Q as (v & Hv & Q1 & Q2). rewrite Q2. destruct (delete_old t ids) as (t2, k) eqn:D. cbn [fst]. rewrite last_last. split; cbn [d_version d_meta].
  - rewrite Q1. exact Hv.
  - unfold delete_old in D. injection D as <- _. cbn [l_pk l_need l_cols]. auto.
Qed.
Lemma stray_history E cols ops : forall f, good_engine E -> stray cols f -> Forall plain_op ops -> stray cols (after_all E f ops).
Proof.
  unfold after_all. induction ops as [|o ops IH]; intros f G S P; [exact S|]. inversion P as [|? ? P1 P2]; subst. cbn [fold_left]. apply IH; [exact G| |exact P2]. destruct o as [md ids|ids]; [|apply delete_stray; exact S].
  unfold after. destruct md as [|m0 md0] eqn:Emd; [exact S|]. rewrite (update_stray E f _ ids cols G S P1) by discriminate. exact S.
Qed.
Lemma pick_in : forall ids m x, In x (pick m ids) -> exists i, In (i, x) m.
Proof.
  induction ids as [|i ids IH]; intros m x I; [destruct I|]. cbn [pick] in I. destruct (find _ m) as [(j, y)|] eqn:F; [|apply (IH _ _ I)]. apply find_some in F. destruct I as [<-|I].
  - exists j. apply F.
  - destruct (IH _ _ I) as (k & K). exists k. apply filter_In in K. apply K.
Qed.
Lemma map_inserts_in : forall l m p, In p (fold_left map_insert l m) -> In p l \/ In p m.
Proof.
  induction l as [|r l IH]; intros m p I; [auto|]. cbn [fold_left] in I. destruct (IH _ _ I) as [H|H]; [left; right; exact H|]. unfold map_insert in H. destruct H as [<-|H]; [left; left; reflexivity|]. right. apply filter_In in H. apply H.
Qed.
Lemma get_old_objects E scan t sub j : In j (get_old E scan t sub) -> exists r, j = old_object E t r.
Proof.
  destruct sub as [ids|]; cbn [get_old].
  - unfold get_ids_old. intro I. apply pick_in in I. destruct I as (i & I). apply map_inserts_in in I. destruct I as [I|[]]. apply in_flat_map in I. destruct I as (c & _ & I). apply in_map_iff in I. destruct I as (r & Q & _). injection Q as _ <-. eauto.
  - unfold get_all_old. intro I. apply in_map_iff in I. destruct I as (r & <- & _). eauto.
Qed.
Lemma stray_shown E scan cols f sub l o k x : stray cols f -> get_disk E scan f sub = Ok l -> In (JObj o) l -> In (k, x) o ->
  k = subset_column \/ k = content_column \/ In k (map c_name cols).
Proof.
  intros (V & S) H I J. unfold get_disk in H. destruct (d_meta f) as [t|]; [|discriminate]. replace (2 <=? d_version f)%Z with false in H by (destruct V as [-> | ->]; reflexivity). injection H as <-.
  apply get_old_objects in I. destruct I as (r & Q). unfold old_object in Q. injection Q as ->. destruct J as [J|J]; [injection J as <- _; auto|]. right. apply in_combine_l in J. destruct S as (_ & _ & C). rewrite C in J. destruct J as [<-|J]; auto.
Qed.
Lemma create_stray md d g : In (Some g) (create_trace md d) -> d_version g = 0%Z -> stray (thin_cols d) g.
Proof.
  intros I V. split; [left; exact V|]. unfold create_trace in I. destruct (d_meta g) as [t|] eqn:M; [|exact Coq.Init.Logic.I].
  destruct (try_fixed_schema md) as [[|]| |]; cbn [In] in I;
  repeat (destruct I as [I|I]; [try discriminate; injection I as <-; cbn in M, V; first [discriminate | injection M as <-; cbn; auto]|]); destruct I.
Qed.
Lemma killed_create E scan md ids d n g ops : good_engine E -> NoDup ids -> Forall (fun i => 0 <= i)%Z ids ->
  create E NoDb md ids = (Db d, Ok n) -> In (Some g) (create_trace md d) -> d_version g = 0%Z -> Forall plain_op ops ->
  let f := after_all E g ops in
  (forall md' ids', md' <> [] -> plain_op (OUpdate md' ids') -> trace E f (OUpdate md' ids') = ([], Err)) /\
  (forall sub l o k x, get_disk E scan f sub = Ok l -> In (JObj o) l -> In (k, x) o -> k = subset_column \/ k = content_column \/ is_thin_column k = true).
Proof.
  intros G N P C I V PO f. assert (S : stray (thin_cols d) f). { apply stray_history; auto. eapply create_stray; eauto. } split.
  - intros md' ids' Hm Q. eapply update_stray; eauto.
  - intros sub l o k x H J K. destruct (stray_shown E scan (thin_cols d) f sub l o k x S H J K) as [Q|[Q|Q]]; auto. right. right.
    pose proof (wf_create E NoDb md ids Coq.Init.Logic.I N P) as W. rewrite C in W. cbn [fst wf] in W. apply in_map_iff in Q. destruct Q as (c & <- & Q). apply (proj1 (Forall_forall _ _) (w_thin _ W) c Q).
Qed.
