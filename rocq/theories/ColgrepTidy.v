(** The helpers that bring vector index, database and state file back together. *)
From Verif Require Import Base Text Colgrep ColgrepSpec ColgrepLists ColgrepSteps.
Open Scope nat_scope.

Lemma drop_rows_number ids rows : drop_rows ids (number 0 rows) = number 0 (drop_docs ids rows).
Proof. unfold drop_rows, drop_docs. now rewrite climbing_isort by apply climbing_filter_number. Qed.
Lemma drop_from v k : k <= length v -> drop_docs (seq k (length v - k)) v = firstn k v.
Proof.
  intros L. pose proof (drop_docs_tail (firstn k v) (skipn k v)) as H. rewrite firstn_skipn, firstn_length, skipn_length, Nat.min_l in H by lia. exact H.
Qed.
(** Vector index and rows of different lengths are cut to the common length. *)
Lemma repair_common d v rows : d_vec d = Some v -> d_db d = Some (number 0 rows) ->
  let m := Nat.min (length v) (length rows) in
  outcome repair d = Ok true /\ d_vec (after repair d) = Some (firstn m v) /\ d_db (after repair d) = Some (number 0 (firstn m rows)) /\
  d_state (after repair d) = d_state d /\ d_building (after repair d) = d_building d.
Proof.
  intros Hv Hd. cbn zeta. unfold outcome, after, repair. rewrite Hv, Hd, number_length.
  destruct (length v =? length rows) eqn:Q.
  - apply Nat.eqb_eq in Q. rewrite Q, Nat.min_id. cbn [fst snd apply_all fold_left]. rewrite Hv, Hd, firstn_all. rewrite (firstn_all2 v) by lia. auto.
  - apply Nat.eqb_neq in Q. destruct (length v <? length rows) eqn:Q2.
    + apply Nat.ltb_lt in Q2. rewrite Nat.min_l by lia. cbn [fst snd apply_all fold_left apply d_vec d_db d_state d_building]. rewrite Hv, Hd. cbn [option_map].
      rewrite drop_rows_number, drop_from, number_length, firstn_length, Nat.min_l, Nat.eqb_refl, firstn_all by lia. auto.
    + apply Nat.ltb_ge in Q2. rewrite Nat.min_r by lia. cbn [fst snd apply_all fold_left apply d_vec d_db d_state d_building]. rewrite Hv, Hd. cbn [option_map].
      rewrite drop_from, number_length, firstn_length, Nat.min_l, Nat.eqb_refl, firstn_all by lia. auto.
Qed.
(** Rows beyond the last document are removed, others stay. *)
Lemma reconcile_rows d v rows : d_vec d = Some v -> d_db d = Some (number 0 rows) ->
  d_vec (after reconcile d) = Some v /\ d_db (after reconcile d) = Some (number 0 (firstn (length v) rows)) /\ outcome reconcile d = Ok tt.
Proof.
  intros Hv Hd. unfold after, outcome, reconcile. rewrite Hv, Hd, number_length, number_fst. destruct (length v <? length rows) eqn:Q.
  - apply Nat.ltb_lt in Q.
    assert (F : filter (fun i => length v <=? i) (seq 0 (length rows)) = seq (length v) (length rows - length v)).
    { replace (length rows) with (length v + (length rows - length v)) at 1 by lia. rewrite seq_app, filter_app.
      rewrite (filter_ext_in _ (fun _ => false) (seq 0 (length v))) by (intros i H; apply in_seq in H; apply Nat.leb_gt; lia).
      rewrite (filter_ext_in _ (fun _ => true) (seq (0 + length v) _)) by (intros i H; apply in_seq in H; apply Nat.leb_le; lia).
      assert (G : forall A (l : list A), filter (fun _ => false) l = []) by (induction l; auto).
      assert (G' : forall A (l : list A), filter (fun _ => true) l = l) by (induction l as [|? ? IH]; cbn; congruence).
      rewrite G, G'. reflexivity. }
    rewrite F. destruct (length rows - length v) as [|k] eqn:EK; [lia|]. cbn [seq fst snd apply_all fold_left apply d_vec d_db]. rewrite Hv, Hd. cbn [option_map].
    change (length v :: seq (S (length v)) k) with (seq (length v) (S k)). rewrite <- EK, drop_rows_number, drop_from by lia. auto.
  - apply Nat.ltb_ge in Q. cbn. rewrite Hv, Hd, firstn_all2 by lia. auto.
Qed.
(** The state built from the database: the files that have rows and are on disk, as they are on disk. *)
Lemma reconstruct_files T pj db s : reconstruct T pj db = Some s -> forall p i,
  In (p, i) (s_files s) <-> (exists f, assoc (p_files pj) p = Some f /\ i = info_of T f) /\ exists k r, In (k, r) db /\ r_file r = p.
Proof.
  intros H p i. destruct db as [|e0 db0] eqn:ED; [discriminate|]. rewrite <- ED in *. clear e0 db0 ED.
  assert (E : s = with_files default_state
           (flat_map (fun p => match assoc (p_files pj) p with Some f => [(p, info_of T f)] | None => [] end)
                     (nodup text_dec (map (fun e => r_file (snd e)) db)))) by (destruct db; cbn [reconstruct] in H; congruence).
  subst s. cbn [s_files with_files]. rewrite in_flat_map. split.
  - intros (q & HQ & HI). apply nodup_In, in_map_iff in HQ. destruct HQ as ((k & r) & EQ & HQ). cbn in EQ.
    destruct (assoc (p_files pj) q) as [f|] eqn:EA; [|easy]. destruct HI as [HI|[]]. injection HI as -> <-. split; [eauto|]. exists k, r. auto.
  - intros ((f & EA & ->) & k & r & HI & <-). exists (r_file r). split.
    + apply nodup_In, in_map_iff. exists (k, r). auto.
    + rewrite EA. now left.
Qed.
Lemma reconstruct_empty T pj db : reconstruct T pj db = None <-> db = [].
Proof. destruct db; cbn; split; congruence. Qed.
