(** Proofs about the full-text tables. *)
From Verif Require Import Base F32 IndexModel IndexSpec IndexLemmas IndexCore IndexOps IndexAccess.
From Verif Require Import Text MetaModel MetaSpec MetaProofs MetaCreate MetaContent MetaFilter SyncModel SyncSpec SyncProofs FtsText FtsStore FtsStoreSpec.
Open Scope nat_scope.

(** ** Content and places *)
Lemma content_put c id x i : content_at (put_content c id x) i = if (i =? id)%Z then Some x else content_at c i.
Proof.
  unfold content_at, put_content. cbn [find fst]. rewrite (Z.eqb_sym i id). destruct (Z.eqb_spec id i) as [->|N]; [reflexivity|]. f_equal.
  induction c as [|p c IH]; auto. cbn [filter]. destruct (Z.eqb_spec (fst p) id) as [E|E]; cbn [negb find].
  - rewrite IH. destruct (Z.eqb_spec (fst p) i); [congruence|auto].
  - destruct (fst p =? i)%Z; auto.
Qed.
Lemma content_cut c id i : content_at (cut_content c id) i = if (i =? id)%Z then None else content_at c i.
Proof.
  unfold content_at, cut_content. induction c as [|p c IH]; [destruct (i =? id)%Z; reflexivity|]. cbn [filter].
  destruct (Z.eqb_spec (fst p) id) as [E|E]; cbn [negb find].
  - rewrite IH. destruct (Z.eqb_spec i id); auto. destruct (Z.eqb_spec (fst p) i); [congruence|auto].
  - destruct (Z.eqb_spec (fst p) i); [|auto]. destruct (Z.eqb_spec i id); [congruence|auto].
Qed.
Lemma places_none ts : forall n t, occurs t ts = false -> places_from n t ts = [].
Proof. induction ts as [|u ts IH]; intros n t H; auto. cbn in *. apply orb_false_iff in H. destruct H as (-> & H). apply IH; auto. Qed.
Lemma put_at p id ts i t : (forall u, p id u = []) -> put_places p id ts i t = if (i =? id)%Z then places t ts else p i t.
Proof.
  intro H. unfold put_places. destruct (Z.eqb_spec i id) as [->|N]; auto. cbn [andb]. destruct (occurs t ts) eqn:O; auto.
  rewrite H. symmetry. apply places_none; auto.
Qed.
Lemma cut_at p id ts i t : (forall u, p id u = places u ts) -> cut_places p id ts i t = if (i =? id)%Z then [] else p i t.
Proof.
  intro H. unfold cut_places. destruct (Z.eqb_spec i id) as [->|N]; auto. cbn [andb]. destruct (occurs t ts) eqn:O; auto.
  rewrite H. apply places_none; auto.
Qed.

Section TABLES.
  Variable X : fts_engine.

  (** the index says for every row what its text says, under tokenizer [k] *)
  Definition agrees (k : fts_tokenizer) (tb : tables) : Prop :=
    forall i t, tb_places tb i t = match content_at (tb_content tb) i with Some x => places t (indexed_terms X k x) | None => [] end.
  Lemma agrees_empty k : agrees k no_places.
  Proof. intros i t. reflexivity. Qed.

  Lemma insert_content k : forall ps tb, NoDup (map snd ps) ->
    let tb' := fold_left (fts_insert_row X k) ps tb in
    (forall i, ~ In i (map snd ps) -> content_at (tb_content tb') i = content_at (tb_content tb) i)
    /\ forall v i, In (v, i) ps -> content_at (tb_content tb') i = Some (metadata_to_text X v).
  Proof.
    induction ps as [|(v, id) ps IH]; intros tb N; cbn [fold_left map snd] in *; [split; auto; intros v i []|].
    inversion N as [|? ? N1 N2]; subst. set (tb1 := fts_insert_row X k tb (v, id)).
    assert (C1 : forall i, content_at (tb_content tb1) i = if (i =? id)%Z then Some (metadata_to_text X v) else content_at (tb_content tb) i) by (intro i; apply content_put).
    destruct (IH tb1 N2) as (B2 & B3). split.
    - intros i Hi. rewrite B2 by (intro; apply Hi; right; auto). rewrite C1. destruct (Z.eqb_spec i id) as [->|]; auto. exfalso; apply Hi; left; auto.
    - intros w i [Q|Hi]; [|apply B3; auto]. injection Q as <- <-. rewrite B2 by auto. rewrite C1, Z.eqb_refl. reflexivity.
  Qed.
  Lemma insert_agrees k : forall ps tb, NoDup (map snd ps) -> (forall id, In id (map snd ps) -> content_at (tb_content tb) id = None) ->
    agrees k tb -> agrees k (fold_left (fts_insert_row X k) ps tb).
  Proof.
    induction ps as [|(v, id) ps IH]; intros tb N F A; cbn [fold_left map snd] in *; auto.
    inversion N as [|? ? N1 N2]; subst.
    assert (C1 : forall i, content_at (tb_content (fts_insert_row X k tb (v, id))) i = if (i =? id)%Z then Some (metadata_to_text X v) else content_at (tb_content tb) i) by (intro i; apply content_put).
    apply IH; auto.
    - intros j Hj. rewrite C1. destruct (Z.eqb_spec j id) as [->|]; [contradiction|]. apply F; right; auto.
    - intros i t. rewrite C1. cbn [fts_insert_row tb_places fst snd]. rewrite put_at.
      + destruct (i =? id)%Z; [reflexivity|apply A].
      + intro u. rewrite A, F by (left; auto). reflexivity.
  Qed.
  Lemma delete_content tri : forall ids tb i, content_at (tb_content (fold_left (fts_delete_row X tri) ids tb)) i = if zmem i ids then None else content_at (tb_content tb) i.
  Proof.
    induction ids as [|id ids IH]; intros tb i; cbn [fold_left]; auto. rewrite IH. unfold zmem. cbn [existsb].
    assert (C1 : content_at (tb_content (fts_delete_row X tri tb id)) i = if (i =? id)%Z then None else content_at (tb_content tb) i).
    { unfold fts_delete_row. destruct (content_at (tb_content tb) id) as [x|] eqn:F; [apply content_cut|]. destruct (Z.eqb_spec i id) as [->|]; auto. }
    rewrite C1. destruct (i =? id)%Z; cbn [orb]; destruct (existsb _ _); reflexivity.
  Qed.
  Lemma delete_agrees k : k <> IdentifierAware -> forall ids tb, agrees k tb -> agrees k (fold_left (fts_delete_row X (is_trigram k)) ids tb).
  Proof.
    intros Nk. assert (P : forall x, prepare_document_text x k = x) by (destruct k; auto; contradiction).
    induction ids as [|id ids IH]; intros tb A; cbn [fold_left]; auto. apply IH. unfold fts_delete_row.
    destruct (content_at (tb_content tb) id) as [x|] eqn:F; auto. intros i t. cbn [tb_content tb_places]. rewrite content_cut, cut_at.
    - destruct (i =? id)%Z; auto.
    - intro u. rewrite A, F. unfold indexed_terms. rewrite P. reflexivity.
  Qed.

  (** after [index] *)
  Lemma index_eq f md ids k : md <> [] -> fts_index X f md ids k = {| ft_config := Some k; ft_tables := Some (fold_left (fts_insert_row X k) (combine md ids) (ensure_tables f k)) |}.
  Proof. destruct md; [contradiction|reflexivity]. Qed.
  Lemma index_text f md k n i x : text_of (fts_index X f md (zseq n (length md)) k) i = Some x ->
    (text_of f i = Some x \/ exists v, (n <= i)%Z /\ nth_error md (Z.to_nat (i - n)) = Some v /\ x = metadata_to_text X v).
  Proof.
    destruct md as [|a md]; [cbn; auto|]. remember (a :: md) as l eqn:El. intro H.
    assert (Ls : length l = length (zseq n (length l))) by (symmetry; apply zseq_length).
    unfold fts_index in H. rewrite El in H at 1. unfold text_of in H at 1. cbn [ft_tables] in H.
    assert (N : NoDup (map snd (combine l (zseq n (length l))))) by (rewrite map_snd_combine by auto; apply zseq_NoDup).
    destruct (insert_content k (combine l (zseq n (length l))) (ensure_tables f k) N) as (B1 & B2). rewrite map_snd_combine in B1 by auto.
    destruct (in_dec Z.eq_dec i (zseq n (length l))) as [Hi|Hi].
    - right. apply in_zseq in Hi. destruct (nth_error l (Z.to_nat (i - n))) as [v|] eqn:Nv.
      + rewrite (B2 v i) in H; [injection H as <-; exists v; repeat split; auto; lia|].
        apply (nth_error_In _ (Z.to_nat (i - n))). rewrite nth_error_combine, Nv, nth_zseq by lia. repeat f_equal. lia.
      + apply nth_error_None in Nv. lia.
    - left. rewrite B1 in H by auto. unfold ensure_tables in H. unfold text_of. destruct (ft_tables f) as [tb|]; [|discriminate].
      destruct (ft_config f) as [k'|]; auto. destruct (same_tokenizer k' k); auto. discriminate.
  Qed.
  Lemma same_tokenizer_refl k : same_tokenizer k k = true.
  Proof. destruct k; reflexivity. Qed.
  Lemma same_tokenizer_eq k l : same_tokenizer k l = true -> k = l.
  Proof. destruct k, l; cbn; congruence. Qed.
  Lemma index_has f md k n i : ft_config f = Some k \/ ft_tables f = None \/ (forall j, text_of f j = None) ->
    text_of f i <> None \/ (n <= i < n + Z.of_nat (length md))%Z -> text_of (fts_index X f md (zseq n (length md)) k) i <> None.
  Proof.
    destruct md as [|a md]; [cbn; intros _ [H|H]; [auto|lia]|]. remember (a :: md) as l eqn:El. intros Hc H.
    assert (Ls : length l = length (zseq n (length l))) by (symmetry; apply zseq_length).
    unfold fts_index. rewrite El at 1. unfold text_of at 1. cbn [ft_tables].
    assert (N : NoDup (map snd (combine l (zseq n (length l))))) by (rewrite map_snd_combine by auto; apply zseq_NoDup).
    destruct (insert_content k (combine l (zseq n (length l))) (ensure_tables f k) N) as (B1 & B2). rewrite map_snd_combine in B1 by auto.
    destruct (in_dec Z.eq_dec i (zseq n (length l))) as [Hi|Hi].
    - apply in_zseq in Hi. destruct (nth_error l (Z.to_nat (i - n))) as [v|] eqn:Nv.
      + rewrite (B2 v i); [discriminate|]. apply (nth_error_In _ (Z.to_nat (i - n))). rewrite nth_error_combine, Nv, nth_zseq by lia. repeat f_equal. lia.
      + apply nth_error_None in Nv. lia.
    - rewrite B1 by auto. rewrite in_zseq in Hi. destruct H as [H|H]; [|lia]. unfold text_of in H, Hc. unfold ensure_tables.
      destruct (ft_tables f) as [tb|]; [|contradiction]. destruct Hc as [Hc|[Hc|Hc]]; [rewrite Hc, same_tokenizer_refl; auto|discriminate|]. rewrite Hc in H. contradiction.
  Qed.
  Lemma index_agrees f md k n : (forall tb k', ft_tables f = Some tb -> ft_config f = Some k' -> agrees k' tb) -> (ft_tables f <> None -> ft_config f <> None) ->
    (forall i x, text_of f i = Some x -> (i < n)%Z) ->
    forall tb k', ft_tables (fts_index X f md (zseq n (length md)) k) = Some tb -> ft_config (fts_index X f md (zseq n (length md)) k) = Some k' -> agrees k' tb.
  Proof.
    destruct md as [|a md]; [cbn; auto|]. remember (a :: md) as l eqn:El. intros A Hc F tb k' H1 H2.
    rewrite index_eq in H1, H2 by (subst; discriminate). cbn [ft_tables ft_config] in H1, H2. injection H1 as <-. injection H2 as <-.
    assert (Ls : length l = length (zseq n (length l))) by (symmetry; apply zseq_length).
    apply insert_agrees; rewrite ?map_snd_combine by auto; [apply zseq_NoDup| |].
    - intros id Hi. apply in_zseq in Hi. unfold ensure_tables. destruct (ft_tables f) as [tb|] eqn:Et; [|reflexivity].
      assert (Q : content_at (tb_content tb) id = None).
      { destruct (content_at (tb_content tb) id) as [x|] eqn:Q; auto. exfalso. assert (T : text_of f id = Some x) by (unfold text_of; rewrite Et; auto). apply F in T. lia. }
      destruct (ft_config f) as [k'|]; auto. destruct (same_tokenizer k' k); auto.
    - unfold ensure_tables. destruct (ft_tables f) as [tb|] eqn:Et; [|apply agrees_empty].
      destruct (ft_config f) as [k'|] eqn:Ec; [|exfalso; apply Hc; auto; discriminate]. destruct (same_tokenizer k' k) eqn:Es; [|apply agrees_empty].
      apply same_tokenizer_eq in Es. subst. eapply A; eauto.
  Qed.

  (** after [rebuild] *)
  Lemma find_map_key {B} (key : B -> Z) (g : B -> text) l i :
    content_at (map (fun r => (key r, g r)) l) i = option_map g (find (fun r => (key r =? i)%Z) l).
  Proof. unfold content_at. induction l as [|r l IH]; auto. cbn [map find fst]. destruct (key r =? i)%Z; auto. Qed.
  Lemma rebuild_text f d i : wf_db d -> text_of (fts_rebuild X f d) i = option_map (row_text X) (lookup (rows d) i).
  Proof.
    intro W. unfold text_of, fts_rebuild. cbn [ft_tables tb_content].
    destruct (thin_cols d ++ fat_cols d) as [|c cs] eqn:Ec.
    - rewrite (find_map_key t_sub (fun _ => [])). apply app_eq_nil in Ec. destruct Ec as (Et & Ef). destruct (wf_parts d W) as (_ & R).
      rewrite Et, Ef in R. destruct R as (_ & _ & R). rewrite Forall_forall in R. unfold lookup, rows in *. pose proof (rows_length d W) as Ln.
      clear Et Ef W. revert R Ln. generalize (thin_rows d) (fat_rows d). intro tl. induction tl as [|t tl IH]; intros [|q ql] R Ln; try discriminate; auto.
      cbn [combine find]. unfold sub_of at 1. cbn [fst]. destruct (t_sub t =? i)%Z.
      + cbn [option_map]. f_equal. unfold row_text. destruct (R (t, q)) as (_ & _ & R1 & R2); [left; auto|]. apply length_zero_iff_nil in R1, R2. rewrite R1, R2. reflexivity.
      + apply IH; [intros r Hr; apply R; right; auto|cbn in Ln; lia].
    - rewrite (find_map_key (fun r => t_sub (fst r)) (row_text X)). rewrite joined_combine by auto. reflexivity.
  Qed.
  Lemma rebuild_agrees f d tb k : k <> IdentifierAware -> ft_tables (fts_rebuild X f d) = Some tb -> ft_config (fts_rebuild X f d) = Some k -> agrees k tb.
  Proof.
    intros Nk H1 H2. assert (P : forall x, prepare_document_text x k = x) by (destruct k; auto; contradiction).
    unfold fts_rebuild in *. cbn [ft_tables ft_config] in *. injection H1 as <-. injection H2 as H2. intros i t. cbn [tb_places tb_content]. rewrite H2.
    destruct (content_at _ i); auto. unfold indexed_terms. rewrite P. reflexivity.
  Qed.
End TABLES.

(** ** Where a text comes from *)
Section HISTORY.
  Variable X : fts_engine.
  Variable V : env.
  Variable E : engine.
  Variable D : nat.
  Variable docs0 : list doc.
  Variable g0 : config.
  Hypothesis G : good_engine E.

  Definition stored_text (d : db) (v : json) : text := join [32%Z] (flat_map (value_text X) (map (cell E v) (thin_cols d ++ fat_cols d))).
  Definition tells (m : store) (v : json) (x : text) : Prop :=
    x = metadata_to_text X v \/ exists d, m = Db d /\ x = stored_text d v.

  Lemma tells_update m M md m' n v i x : items E m M -> update E m md (zseq (Z.of_nat (length M)) (length md)) = (m', Ok n) ->
    at_pos M i = Some v -> tells m v x -> tells m' v x.
  Proof.
    intros I0 U Hv [->|(d & -> & ->)]; [left; auto|]. right.
    destruct md as [|a md]; [cbn in U; injection U as <- _; eauto|]. remember (a :: md) as l eqn:El.
    destruct I0 as (W & H).
    assert (Out : forall j, (Z.of_nat (length M) <= j)%Z -> lookup (rows d) j = None).
    { intros j Hj. specialize (H j). replace (at_pos M j) with (@None json) in H.
      - destruct (lookup (rows d) j); [contradiction|auto].
      - symmetry. unfold at_pos. destruct (j <? 0)%Z; auto. destruct (nth_error M (Z.to_nat j)) eqn:Q; auto.
        assert (Z.to_nat j < length M) by (apply nth_error_Some; congruence). lia. }
    apply update_rows in U; auto; [|subst; discriminate|apply zseq_NoDup|].
    - destruct U as (d' & nt & nf & -> & _ & T1 & T2 & _ & _ & U3). exists d'. split; auto. unfold stored_text. rewrite T1, T2.
      specialize (H i). rewrite Hv in H. destruct (lookup (rows d) i) as [r|]; [|contradiction]. destruct H as (_ & _ & Hk).
      assert (Nu : forall c, In c (nt ++ nf) -> cell E v c = SNull).
      { intros c Hc. unfold cell. rewrite item_get_absent; [apply (ge_null _ G)|]. intros y Hy. destruct (U3 _ c Hc eq_refl) as (Q & _). apply Q. eapply Hk; eauto. }
      assert (R : forall l', incl l' (nt ++ nf) -> flat_map (value_text X) (map (cell E v) l') = []).
      { induction l' as [|c l' IH]; intro Hi; auto. cbn. rewrite Nu by (apply Hi; left; auto). cbn. apply IH. intros z Hz. apply Hi; right; auto. }
      f_equal. rewrite <- !app_assoc, !map_app, !flat_map_app. rewrite (R nt) by (intros z Hz; apply in_or_app; auto). rewrite (R nf) by (intros z Hz; apply in_or_app; auto).
      cbn [app]. rewrite app_nil_r. reflexivity.
    - apply Forall_forall. intros j Hj. apply in_zseq in Hj. split; [lia|]. rewrite row_at_lookup by auto. rewrite Out by lia. reflexivity.
  Qed.
  Lemma tells_add m md ids (L : collection) docs m' mr v i x : items E m (map snd L) -> bad_length docs md = false -> ids = positions (length L) (length docs) ->
    add_rows E m md ids = (m', mr) \/ add_or_create_rows E m md ids = (m', mr) ->
    at_pos (map snd L) i = Some v -> tells m v x -> tells m' v x.
  Proof.
    intros I0 B -> H Hv T. destruct md as [md|]; [|destruct H as [H|H]; injection H as <- _; auto].
    cbn in B. apply negb_false_iff, Nat.eqb_eq in B. rewrite positions_zseq in H.
    assert (U : update E m md (zseq (Z.of_nat (length L)) (length docs)) = (m', mr) -> tells m' v x).
    { intro U. destruct mr as [n| |]; [|apply update_err in U; [subst; auto|discriminate]..].
      eapply tells_update; eauto. rewrite map_length, B. eauto. }
    destruct H as [H|H]; [apply U; exact H|]. unfold add_or_create_rows in H. destruct (db_exists m) eqn:X0; [apply U; exact H|].
    destruct m; try discriminate. cbn in I0. rewrite I0 in Hv. discriminate.
  Qed.

  (** ** The handle *)
  Lemma disciplined_more o ops : (match o with OUpdate _ _ | OReload => True | _ => False end) -> forall f p, disciplined f p (ops ++ [o]) ->
    disciplined f p ((ops ++ [o]) ++ [OUpdate [] g0]).
  Proof.
    intro H. induction ops as [|q ops IH]; intros f p Hd; cbn [app] in *.
    - destruct o; try contradiction; cbn [disciplined] in *; tauto.
    - destruct q; cbn [disciplined] in *; intuition auto.
  Qed.
  Lemma fresh_handle ops outs d h : reached V D docs0 g0 ops outs d h -> disciplined true false (ops ++ [OUpdate [] g0]) ->
    num_documents h = length (documents docs0 ops).
  Proof.
    intros (HD & Hk & Hdim & Hok & _ & H) Hd.
    destruct (history_good (v_fsub V) (v_dot V) (v_mem V) (v_kmeans V) (v_quantile V) (v_threshold V) (v_next V) (v_outlier V) D
       [OUpdate [] g0] docs0 g0 ops outs (d, h) HD Hk Hdim Hok Hd H) as (_ & fr & pe & (nb & cents & cut & wei & css & EE & B & _ & Hf & _) & Q).
    destruct Q as (-> & _). cbn [snd] in Hf. rewrite (Hf eq_refl). reflexivity.
  Qed.

  (** ** The invariant *)
  Record finv (m : store) (h : IndexModel.metadata) (M : list (option json)) (f : fts) : Prop := {
    fi_db : db_exists m = false -> ft_tables f = None;
    fi_cfg : ft_tables f <> None -> ft_config f <> None;
    fi_txt : forall i x, text_of f i = Some x -> exists v, at_pos M i = Some v /\ tells m v x;
    fi_han : forall i, (Z.of_nat (num_documents h) <= i)%Z -> at_pos M i = None }.
  Definition fagrees (f : fts) : Prop :=
    forall tb k, ft_tables f = Some tb -> ft_config f = Some k -> agrees X k tb.
  (** stored tokenizers are not identifier-aware *)
  Definition plain (f : fts) : Prop := ft_config f <> Some IdentifierAware.

  (** ** Positions *)
  Lemma at_pos_ge {A} (M : list (option A)) i : (Z.of_nat (length M) <= i)%Z -> at_pos M i = None.
  Proof.
    intro H. unfold at_pos. destruct (i <? 0)%Z; auto. destruct (nth_error M (Z.to_nat i)) eqn:Q; auto.
    assert (Z.to_nat i < length M) by (apply nth_error_Some; congruence). lia.
  Qed.
  Lemma at_pos_nth {A} (M : list (option A)) i v : at_pos M i = Some v -> (0 <= i)%Z /\ nth_error M (Z.to_nat i) = Some (Some v).
  Proof.
    unfold at_pos. destruct (Z.ltb_spec i 0); [discriminate|]. destruct (nth_error M (Z.to_nat i)) as [o|]; [|discriminate]. intros ->. auto.
  Qed.
  Lemma at_pos_keep {A} (M K : list (option A)) i v : at_pos M i = Some v -> at_pos (M ++ K) i = Some v.
  Proof.
    intro H. rewrite at_pos_app. destruct (Z.ltb_spec i (Z.of_nat (length M))); auto. rewrite at_pos_ge in H by lia. discriminate.
  Qed.
  Lemma renumbered_le ids v : (renumbered ids v <= v)%Z.
  Proof. unfold renumbered, deleted_below. lia. Qed.
  Lemma delete_beyond {A} ids (M : list (option A)) n : (forall i, (n <= i)%Z -> at_pos M i = None) ->
    forall i, (n <= i)%Z -> at_pos (delete_positions ids M) i = None.
  Proof.
    intros H i Hi. unfold at_pos. destruct (Z.ltb_spec i 0); auto. destruct (nth_error (delete_positions ids M) (Z.to_nat i)) as [o|] eqn:F; auto.
    apply delete_positions_inv in F. destruct F as (k & Hk & _ & Q). pose proof (renumbered_le ids (Z.of_nat k)).
    specialize (H (Z.of_nat k) ltac:(lia)). unfold at_pos in H. destruct (Z.ltb_spec (Z.of_nat k) 0); [lia|]. rewrite Nat2Z.id, Hk in H. auto.
  Qed.
  Lemma delete_gone {A} ids (M : list (option A)) : (forall i, at_pos M i = None) -> forall i, at_pos (delete_positions ids M) i = None.
  Proof.
    intros H i. destruct (Z.ltb_spec i 0) as [L|L]; [unfold at_pos; destruct (Z.ltb_spec i 0); auto; lia|]. apply (delete_beyond ids M 0); auto.
  Qed.
  Lemma delete_positions_le {A} ids (l : list A) : length (delete_positions ids l) <= length l.
  Proof.
    unfold delete_positions. rewrite map_length. pose proof (filter_le (fun p : Z * A => negb (existsb (Z.eqb (fst p)) ids)) (combine (map Z.of_nat (seq 0 (length l))) l)) as H.
    rewrite combine_length, map_length, seq_length in H. lia.
  Qed.
  Lemma valid_In n ids z : In z (valid_ids n ids) <-> In z ids /\ (0 <= z < Z.of_nat n)%Z.
  Proof.
    unfold valid_ids. rewrite dedup_In, isort_In, filter_In, andb_true_iff, Z.leb_le, Z.ltb_lt. tauto.
  Qed.
  (** a suffix deletion removes all ids from the first valid one *)
  Lemma suffix_all n ids : is_suffix_delete n (valid_ids n ids) = true ->
    exists first, In first (valid_ids n ids) /\ forall z, In z (valid_ids n ids) <-> (first <= z < Z.of_nat n)%Z.
  Proof.
    intro H. assert (S0 : sinc (valid_ids n ids)) by (apply dedup_sinc, isort_le).
    assert (In0 := valid_In n ids). destruct (valid_ids n ids) as [|first l] eqn:Ev; [discriminate|]. cbn [is_suffix_delete] in H. apply Z.leb_le in H.
    exists first. split; [left; auto|]. intro z. split.
    - intro Hz. split; [|apply In0 in Hz; lia]. destruct Hz as [->|Hz]; [lia|]. inversion S0 as [|? ? _ F0]; subst. rewrite Forall_forall in F0. specialize (F0 z Hz). lia.
    - intro Hz. assert (Nd : NoDup (first :: l)) by (clear -S0; revert S0; generalize (first :: l); intros l0; induction 1 as [|b l0 S1 IH F1]; constructor; auto; rewrite Forall_forall in F1; intro Hb; specialize (F1 b Hb); lia).
      assert (Inc : incl (first :: l) (zseq first (Z.to_nat (Z.of_nat n - first)))).
      { intros y Hy. apply in_zseq. pose proof (proj1 (In0 y) Hy). destruct Hy as [->|Hy]; [lia|]. inversion S0 as [|? ? _ F0]; subst. rewrite Forall_forall in F0. specialize (F0 y Hy). lia. }
      apply (NoDup_length_incl Nd) in Inc; [|rewrite zseq_length; lia]. apply Inc, in_zseq. lia.
  Qed.
  Lemma renumbered_same ids i : (forall z, (0 <= z < i)%Z -> ~ In z ids) -> renumbered ids i = i.
  Proof.
    intro H. unfold renumbered, deleted_below. replace (filter _ _) with (@nil Z); [cbn; lia|]. symmetry.
    assert (Q : forall l, (forall z, In z l -> (0 <= z < i)%Z) -> filter (fun z => existsb (Z.eqb z) ids) l = []).
    { induction l as [|y l IH]; intro Hl; auto. cbn. replace (existsb (Z.eqb y) ids) with false; [apply IH; intros; apply Hl; right; auto|].
      symmetry. apply not_true_is_false. intro X0. apply existsb_exists in X0. destruct X0 as (w & Hw & Q). apply Z.eqb_eq in Q. subst. apply (H w); auto. apply Hl; left; auto. }
    apply Q. intros z Hz. apply in_map_iff in Hz. destruct Hz as (k & <- & Hk). apply in_seq in Hk. lia.
  Qed.

  (** ** One call *)
  Lemma han_same s o r s' : sexec V E s o = Ok (r, s') -> (match o with SAppend _ _ | SDelete _ => True | _ => False end) -> snd (fst s') = snd (fst s).
  Proof.
    intros H Ho. destruct s as ((d, h), m). destruct o; try contradiction; cbn [sexec] in H; apply bind_Ok in H; destruct H as ((out, (d1, h1)) & H1 & H2).
    - injection H2 as _ <-. cbn [fst snd]. unfold step in H1. cbn [exec] in H1. apply bind_Ok in H1. destruct H1 as ((? & ?) & _ & H1). congruence.
    - destruct (delete_metadata_rows m (hd 0%Z out) ids) as (m', mr). injection H2 as _ <-. cbn [fst snd]. unfold step in H1. cbn [exec] in H1. apply bind_Ok in H1.
      destruct H1 as ((? & ?) & _ & H1). congruence.
  Qed.
  (** after the other calls the handle counts all documents, so items are within its range *)
  Lemma han_fresh iops o s L : good_sync V E D docs0 g0 (iops ++ [o]) s L -> (match o with OUpdate _ _ | OReload => True | _ => False end) ->
    disciplined true false (iops ++ [o]) -> forall i, (Z.of_nat (num_documents (snd (fst s))) <= i)%Z -> at_pos (map snd L) i = None.
  Proof.
    intros ((outs & R) & Ed & _) Ho Hd i Hi. apply at_pos_ge. pose proof (fresh_handle _ _ _ _ R (disciplined_more _ _ Ho _ _ Hd)) as N.
    rewrite Ed in N. rewrite map_length in *. lia.
  Qed.
  Lemma adds_bad L docs md r L' : adds L docs md r L' -> bad_length docs md = true -> L' = L.
  Proof.
    intros H B. inversion H as [|? Hl| |? ? Hl]; subst; auto; cbn in B; [discriminate| |]; apply negb_true_iff, Nat.eqb_neq in B; congruence.
  Qed.
  Lemma han_step iops s L o r s' L' : good_sync V E D docs0 g0 iops s L -> disciplined true false (iops ++ index_ops o) -> sexec V E s o = Ok (r, s') ->
    calls L o r L' -> good_sync V E D docs0 g0 (iops ++ index_ops o) s' L' ->
    (forall i, (Z.of_nat (num_documents (snd (fst s))) <= i)%Z -> at_pos (map snd L) i = None) ->
    (forall i, (Z.of_nat (num_documents (snd (fst s'))) <= i)%Z -> at_pos (map snd L') i = None).
  Proof.
    intros Gs Hd H C Gs' Hh. destruct o as [docs g md|docs g md|docs g|ids|]; cbn [index_ops] in *.
    - destruct (bad_length docs md) eqn:B; [|eapply han_fresh; eauto; cbn; auto].
      destruct s as (i0, m). cbn [sexec] in H. rewrite B in H. injection H as <- <-. cbn [fst snd] in *.
      inversion C as [? ? ? ? ? Ad| | | |]; subst. rewrite (adds_bad _ _ _ _ _ Ad B). auto.
    - destruct (bad_length docs md) eqn:B.
      + destruct s as (i0, m). cbn [sexec] in H. rewrite B in H. injection H as <- <-. cbn [fst snd] in *.
        inversion C as [|? ? ? ? ? Ad| | |]; subst. rewrite (adds_bad _ _ _ _ _ Ad B). auto.
      + replace (iops ++ [OReload; OUpdate docs g]) with ((iops ++ [OReload]) ++ [OUpdate docs g]) in * by (rewrite <- app_assoc; reflexivity).
        eapply han_fresh; eauto; cbn; auto.
    - rewrite (han_same _ _ _ _ H I). inversion C; subst. intros i Hi. rewrite map_app, map_snd_bare, at_pos_app, at_pos_repeat. destruct (i <? _)%Z; auto.
    - rewrite (han_same _ _ _ _ H I). inversion C; subst. rewrite delete_positions_map. apply delete_beyond. auto.
    - eapply han_fresh; eauto; cbn; auto.
  Qed.

  (** the metadata part of the calls that add documents *)
  Lemma sexec_adds iops s L o docs g md r s' : good_sync V E D docs0 g0 iops s L -> Forall (op_ok D) (index_ops o) ->
    disciplined true false (iops ++ index_ops o) -> sexec V E s o = Ok (r, s') ->
    o = SAdd docs g md \/ o = SAddPath docs g md -> bad_length docs md = false ->
    exists ids mr, ids = positions (length L) (length docs)
      /\ (add_rows E (snd s) md ids = (snd s', mr) \/ add_or_create_rows E (snd s) md ids = (snd s', mr)) /\ r = after_metadata ids mr.
  Proof.
    intros ((iouts & R) & Ed & It) Ho Hd H Q B. destruct s as ((d, h), m). cbn [fst snd] in *.
    assert (LL : length (map fst L) = length L) by apply map_length.
    destruct Q as [-> | ->]; cbn [sexec index_ops] in *; rewrite B in *.
    - apply bind_Ok in H. destruct H as ((ids, i') & H1 & H2). destruct (add_rows E m md ids) as (m', mr) eqn:A. injection H2 as <- <-.
      inversion Ho as [|? ? Ho1 _]; subst.
      destruct (reached_app _ _ _ _ _ _ _ _ _ _ _ R Ho1 Hd H1) as (_ & E1 & _). cbn [spec_op fst snd] in E1. rewrite Ed, LL in E1. eauto 6.
    - apply bind_Ok in H. destruct H as ((o1, (d1, h1)) & H0 & H). apply bind_Ok in H. destruct H as ((ids, i') & H1 & H2).
      destruct (add_or_create_rows E m md ids) as (m', mr) eqn:A. injection H2 as <- <-.
      inversion Ho as [|? ? Ho1 Ho2]; subst. inversion Ho2 as [|? ? Ho3 _]; subst.
      assert (Q : iops ++ [OReload; OUpdate docs g] = (iops ++ [OReload]) ++ [OUpdate docs g]) by (rewrite <- app_assoc; reflexivity).
      rewrite Q in *.
      destruct (reached_app _ _ _ _ _ _ _ _ _ _ _ R Ho1 (disciplined_app _ _ _ _ Hd) H0) as (R1 & _ & E1). cbn [fst snd spec_op] in *.
      destruct (reached_app _ _ _ _ _ _ _ _ _ _ _ R1 Ho3 Hd H1) as (_ & E2 & _). cbn [spec_op fst snd] in E2. rewrite E1, Ed, LL in E2. eauto 6.
  Qed.
  Lemma add_db m md ids m' mr : add_rows E m md ids = (m', mr) \/ add_or_create_rows E m md ids = (m', mr) -> db_exists m' = false -> db_exists m = false.
  Proof.
    intros H Q. destruct m as [| |d]; auto; exfalso; destruct md as [l|]; cbn [add_rows add_or_create_rows db_exists] in H;
      try (destruct H as [H|H]; injection H as <- _; discriminate).
    - assert (U : update E Broken l ids = (m', mr)) by (destruct H; auto). unfold update in U. destruct l; [injection U as <- _; discriminate|].
      destruct (negb _); injection U as <- _; discriminate.
    - assert (U : update E (Db d) l ids = (m', mr)) by (destruct H; auto). unfold update in U. destruct l; [injection U as <- _; discriminate|].
      repeat match type of U with context [match ?x with _ => _ end] => destruct x end; injection U as <- _; discriminate.
  Qed.
  (** a successful addition of items leaves a database *)
  Lemma add_db_ok m md ids m' n : md <> [] -> add_rows E m (Some md) ids = (m', Ok n) \/ add_or_create_rows E m (Some md) ids = (m', Ok n) -> db_exists m' = true.
  Proof.
    intros N H. assert (Q : update E m md ids = (m', Ok n) \/ create E m md ids = (m', Ok n)).
    { destruct H as [H|H]; [auto|]. cbn in H. destruct (db_exists m); auto. }
    destruct md as [|a md]; [contradiction|]. destruct Q as [Q|Q]; [unfold update in Q|unfold create in Q];
    repeat match type of Q with context [match ?x with _ => _ end] => destruct x end; try discriminate Q; injection Q as <- _; reflexivity.
  Qed.
  Lemma txt_kept m m' M K f : (forall i x, text_of f i = Some x -> exists v, at_pos M i = Some v /\ tells m v x) ->
    (forall i v x, at_pos M i = Some v -> tells m v x -> tells m' v x) ->
    forall i x, text_of f i = Some x -> exists v, at_pos (M ++ K) i = Some v /\ tells m' v x.
  Proof. intros H T i x Hx. destruct (H i x Hx) as (v & H1 & H2). exists v. split; [apply at_pos_keep; auto|eauto]. Qed.
  Lemma adds_ok_shape L docs md ids L' : adds L docs (Some md) (Ok ids) L' -> ids = zseq (Z.of_nat (length (map snd L))) (length md) /\ map snd L' = map snd L ++ map Some md.
  Proof.
    intro H. inversion H as [|? Hl| |? ? ? Hr]; subst.
    - rewrite positions_zseq, map_app, map_snd_with, Hl, map_length by auto. auto.
    - exfalso. eapply Hr; eauto.
  Qed.
  Lemma adds_bare_shape L docs md r L' : adds L docs md r L' -> md = None \/ (bad_length docs md = false /\ forall ids, r <> Ok ids) ->
    map snd L' = map snd L ++ repeat None (length docs).
  Proof.
    intros H Q. inversion H as [|? Hl|? Hl|? ? Hl Hr]; subst; rewrite ?map_app, ?map_snd_bare; auto; destruct Q as [Q|(Q1 & Q2)]; try discriminate.
    - exfalso. eapply Q2; eauto.
    - cbn in Q1. apply negb_false_iff, Nat.eqb_eq in Q1. congruence.
  Qed.
  Lemma adds_grow L docs md r L' : adds L docs md r L' -> exists K, map snd L' = map snd L ++ K.
  Proof.
    intro H. inversion H; subst; rewrite ?map_app; eauto. exists []. rewrite app_nil_r. auto.
  Qed.

  (** adding documents *)
  Lemma finv_add iops s L o docs g md r s' L' f : good_sync V E D docs0 g0 iops s L -> Forall (op_ok D) (index_ops o) ->
    disciplined true false (iops ++ index_ops o) -> sexec V E s o = Ok (r, s') ->
    o = SAdd docs g md \/ o = SAddPath docs g md -> adds L docs md r L' ->
    finv (snd s) (snd (fst s)) (map snd L) f -> (forall i, (Z.of_nat (num_documents (snd (fst s'))) <= i)%Z -> at_pos (map snd L') i = None) ->
    finv (snd s') (snd (fst s')) (map snd L') f.
  Proof.
    intros Gs Ho Hd H Q Ad [F1 F2 F3 F4] Hh. destruct (adds_grow _ _ _ _ _ Ad) as (K & EK).
    destruct (bad_length docs md) eqn:B.
    - assert (s' = s) as -> by (destruct s as (i0, m); destruct Q as [-> | ->]; cbn [sexec] in H; rewrite B in H; congruence).
      constructor; auto. rewrite EK. eapply txt_kept; eauto.
    - destruct (sexec_adds _ _ _ _ _ _ _ _ _ Gs Ho Hd H Q B) as (ids & mr & Ei & A & Er). destruct Gs as (_ & _ & It).
      constructor; auto.
      + intro Q1. apply F1. eapply add_db; eauto.
      + rewrite EK. eapply txt_kept; eauto. intros i v x. eapply tells_add; eauto.
  Qed.
  Lemma finv_index m h M f md k : (md <> [] -> db_exists m = true) -> finv m h (M ++ map Some md) f ->
    finv m h (M ++ map Some md) (fts_index X f md (zseq (Z.of_nat (length M)) (length md)) k).
  Proof.
    intros Dm [F1 F2 F3 F4]. destruct md as [|a md]; [constructor; auto|]. constructor; auto.
    - rewrite Dm; discriminate.
    - cbn. discriminate.
    - intros i x Hx. apply index_text in Hx. destruct Hx as [Hx|(v & Hi & Hn & ->)]; [auto|].
      exists v. split; [|left; auto]. rewrite at_pos_app. destruct (Z.ltb_spec i (Z.of_nat (length M))); [lia|]. rewrite at_pos_map by lia. auto.
  Qed.
  Lemma finv_nofts m h M f : finv m h M f -> finv m h M no_fts.
  Proof. intros [F1 F2 F3 F4]. constructor; auto; [intros i x Hx; discriminate]. Qed.

  (** deleting documents *)
  Lemma delete_tells m ids m' r v x : (forall d, m = Db d -> wf_db d) -> delete m ids = (m', r) -> tells m v x -> tells m' v x.
  Proof.
    intros W H [->|(d & -> & ->)]; [left; auto|]. right. destruct ids as [|z ids]; [injection H as <- _; eauto|].
    cbn [delete] in H. rewrite delete_v2_db in H by auto. injection H as <- _. eexists; split; auto.
  Qed.
  Lemma finv_delete m h M f ids m' r : items E m M -> Forall (fun id => 0 <= id)%Z ids -> finv m h M f -> delete m ids = (m', r) ->
    let valid := valid_ids (num_documents h) ids in
    finv m' h (delete_positions ids M)
      (match r with
       | Ok _ => if is_suffix_delete (num_documents h) valid then fts_delete X f valid
                 else match m' with Db d => fts_rebuild X f d | _ => f end
       | _ => f end).
  Proof.
    intros It Hz [F1 F2 F3 F4] H valid. pose proof (items_delete E _ _ _ _ _ It H) as It'.
    assert (Hh : forall i, (Z.of_nat (num_documents h) <= i)%Z -> at_pos (delete_positions ids M) i = None) by (apply delete_beyond; auto).
    assert (Dm : db_exists m' = db_exists m).
    { destruct ids as [|z ids]; [injection H as <- _; auto|]. cbn [delete] in H. destruct m; [injection H as <- _; auto..|]. destruct (delete_v2 _ _). injection H as <- _. auto. }
    assert (Tl : forall v x, tells m v x -> tells m' v x).
    { intros v x. eapply delete_tells; eauto. intros d ->. apply It. }
    assert (None_case : (forall i, at_pos M i = None) -> finv m' h (delete_positions ids M) f).
    { intro N. constructor; auto; [rewrite Dm; auto|]. intros i x Hx. apply F3 in Hx. destruct Hx as (v & Hv & _). rewrite N in Hv. discriminate. }
    destruct r as [n| |]; cycle 1.
    1,2: apply None_case; destruct ids as [|z ids]; [discriminate H|]; cbn [delete] in H; destruct m; [discriminate H|try discriminate H; apply It|destruct (delete_v2 _ _); discriminate H].
    destruct (is_suffix_delete (num_documents h) valid) eqn:Sx.
    - constructor; auto.
      + rewrite Dm. intro Q. unfold fts_delete. cbn [ft_tables]. rewrite F1 by auto. reflexivity.
      + unfold fts_delete. cbn [ft_tables ft_config]. intro Q. apply F2. intro Q'. rewrite Q' in Q. apply Q. reflexivity.
      + intros i x Hx. unfold text_of, fts_delete in Hx. cbn [ft_tables] in Hx. destruct (ft_tables f) as [tb|] eqn:Et; [|discriminate]. cbn [option_map] in Hx.
        rewrite delete_content in Hx. destruct (zmem i valid) eqn:Zi; [discriminate|].
        destruct (F3 i x) as (v & Hv & T); [unfold text_of; rewrite Et; auto|]. exists v. split; auto.
        assert (i < Z.of_nat (num_documents h))%Z by (destruct (Z.ltb_spec i (Z.of_nat (num_documents h))); auto; rewrite F4 in Hv by lia; discriminate).
        destruct (at_pos_nth _ _ _ Hv) as (Hi0 & Hn). destruct (suffix_all _ _ Sx) as (first & Hf & Hall). fold valid in Hall, Hf.
        assert (Ni : ~ In i valid) by (intro Hi; apply zmem_In in Hi; congruence).
        assert (i < first)%Z by (destruct (Z.ltb_spec i first); auto; exfalso; apply Ni, Hall; lia).
        assert (Nid : forall z, (0 <= z <= i)%Z -> ~ In z ids).
        { intros z Hz0 Hi. assert (Hv' : In z valid) by (apply valid_In; split; auto; lia). apply Hall in Hv'. lia. }
        pose proof (delete_positions_at ids M (Z.to_nat i) (Some v) Hn) as P. rewrite Z2Nat.id in P by auto.
        rewrite renumbered_same in P by (intros z Hz0; apply Nid; lia). unfold at_pos. destruct (Z.ltb_spec i 0); [lia|]. rewrite P; auto. apply Nid; lia.
    - destruct m' as [| |d].
      { apply None_case. destruct m; try discriminate Dm. apply It. }
      { apply None_case. destruct m; try discriminate Dm; try apply It. destruct ids as [|z ids]; [discriminate H|]. cbn [delete] in H. destruct (delete_v2 _ _); discriminate H. }
      constructor; auto; [discriminate..|].
      intros i x Hx. destruct It' as (W' & It'). rewrite rebuild_text in Hx by auto. specialize (It' i).
      destruct (lookup (rows d) i) as [q|]; [|discriminate]. injection Hx as <-. destruct (at_pos (delete_positions ids M) i) as [v|]; [|contradiction].
      exists v. split; auto. right. exists d. split; auto. destruct It' as (R1 & R2 & _). unfold stored_text, row_text. rewrite R1, R2, map_app. reflexivity.
  Qed.

  Lemma fstep iops s L o k r s' L' f : good_sync V E D docs0 g0 iops s L -> Forall (op_ok D) (index_ops o) ->
    disciplined true false (iops ++ index_ops o) -> sexec V E s o = Ok (r, s') ->
    calls L o r L' -> good_sync V E D docs0 g0 (iops ++ index_ops o) s' L' ->
    finv (snd s) (snd (fst s)) (map snd L) f -> finv (snd s') (snd (fst s')) (map snd L') (fts_step X s s' r o k f).
  Proof.
    intros Gs Ho Hd H C Gs' F. pose proof (han_step _ _ _ _ _ _ _ Gs Hd H C Gs' (fi_han _ _ _ _ F)) as Hh.
    destruct o as [docs g md|docs g md|docs g|ids|].
    - cbn [fts_step]. inversion C as [? ? ? ? ? Ad| | | |]; subst. exact (finv_add _ _ _ _ _ _ _ _ _ _ _ Gs Ho Hd H (or_introl eq_refl) Ad F Hh).
    - inversion C as [|? ? ? ? ? Ad| | |]; subst. pose proof (finv_add _ _ _ _ _ _ _ _ _ _ _ Gs Ho Hd H (or_intror eq_refl) Ad F Hh) as F'.
      cbn [fts_step]. destruct md as [md|]; auto. destruct r as [ids| |]; auto. destruct (adds_ok_shape _ _ _ _ _ Ad) as (-> & EM). rewrite EM in *.
      apply finv_index; [|destruct (db_exists (snd s)); auto; eapply finv_nofts; eauto].
      intro N. assert (B : bad_length docs (Some md) = false).
      { destruct (bad_length docs (Some md)) eqn:B; auto. destruct s as (i0, m). cbn [sexec] in H. rewrite B in H. discriminate. }
      destruct (sexec_adds _ _ _ _ _ _ _ _ _ Gs Ho Hd H (or_intror eq_refl) B) as (ids & mr & Ei & A & Er). destruct mr; try discriminate Er. eapply add_db_ok; eauto.
    - cbn [fts_step]. inversion C; subst. destruct F as [F1 F2 F3 F4]. assert (snd s' = snd s) as Q.
      { destruct s as (i0, m). cbn [sexec] in H. apply bind_Ok in H. destruct H as ((ids, i') & _ & H). injection H as _ <-. auto. }
      rewrite Q in *. constructor; auto. rewrite map_app. eapply txt_kept; eauto.
    - assert (Hm := han_same _ _ _ _ H I). inversion C as [| | |? ? Hr|]; subst. rewrite delete_positions_map in *. rewrite Hm in *. inversion Ho as [|? ? Ho1 _]; subst. cbn [op_ok] in Ho1.
      destruct s as ((d, h), m). cbn [fst snd] in *. cbn [sexec] in H. apply bind_Ok in H. destruct H as ((out, (d1, h1)) & H1 & H2).
      destruct (delete_metadata_rows m (hd 0%Z out) ids) as (m', mr) eqn:A. injection H2 as <- <-. cbn [fst snd] in *.
      destruct Gs as (_ & _ & It). cbn [snd] in It. unfold delete_metadata_rows in A. cbn [fts_step fst snd].
      destruct ((0 <? hd 0%Z out)%Z && db_exists m) eqn:B.
      + pose proof (finv_delete _ _ _ _ _ _ _ It Ho1 F A) as P. cbv zeta in P. destruct mr; cbn [after_metadata]; rewrite ?B; exact P.
      + injection A as <- <-. cbn [after_metadata]. rewrite B. destruct (db_exists m) eqn:Dm.
        * rewrite andb_true_r in B. apply Z.ltb_ge in B. rewrite (Hr out eq_refl) in B. cbn [hd] in B.
          rewrite delete_positions_same; auto. rewrite <- delete_positions_map, !map_length.
          pose proof (delete_positions_le ids L). lia.
        * destruct F as [F1 F2 F3 F4]. constructor; auto. intros i x Hx. unfold text_of in Hx. rewrite F1 in Hx by auto. discriminate.
    - cbn [fts_step]. inversion C; subst. destruct F as [F1 F2 F3 F4]. assert (snd s' = snd s) as Q.
      { destruct s as (i0, m). cbn [sexec] in H. apply bind_Ok in H. destruct H as ((ids, i') & _ & H). injection H as <-. auto. }
      rewrite Q in *. constructor; auto.
  Qed.

  (** *** the index agrees with the texts *)
  Lemma fagrees_step iops s L o k r s' L' f : good_sync V E D docs0 g0 iops s L -> calls L o r L' ->
    finv (snd s) (snd (fst s)) (map snd L) f -> (match o with SDelete _ => plain f | _ => True end) -> fagrees f -> fagrees (fts_step X s s' r o k f).
  Proof.
    intros Gs C [F1 F2 F3 F4] P A. destruct o as [docs g md|docs g md|docs g|ids|]; auto; cbn [fts_step].
    - inversion C as [|? ? ? ? ? Ad| | |]; subst. destruct md as [md|]; auto. destruct r as [ids| |]; auto. destruct (adds_ok_shape _ _ _ _ _ Ad) as (-> & EM).
      unfold fagrees. destruct (db_exists (snd s)) eqn:Dm.
      + intros tb k'. apply index_agrees; auto. intros i x Hx. destruct (F3 i x Hx) as (v & Hv & _).
        destruct (Z.ltb_spec i (Z.of_nat (length (map snd L)))); auto. rewrite at_pos_ge in Hv by lia. discriminate.
      + intros tb k'. apply index_agrees; [intros ? ? Q; discriminate Q|intro Q; exfalso; apply Q; reflexivity|]. intros i x Hx. discriminate.
    - destruct r as [out| |]; auto. destruct ((0 <? hd 0%Z out)%Z && db_exists (snd s)); auto.
      destruct (is_suffix_delete _ _).
      + intros tb k' H1 H2. unfold fts_delete in H1, H2. cbn [ft_tables ft_config] in H1, H2. destruct (ft_tables f) as [tb0|] eqn:Et; [|discriminate]. injection H1 as <-.
        replace (config_trigram f) with (is_trigram k') by (unfold config_trigram; rewrite H2; auto). apply delete_agrees; [|apply A; auto].
        intros ->. apply P. auto.
      + destruct (snd s') as [| |d]; auto. intros tb k' H1 H2. apply (rebuild_agrees X f d); auto. intros ->. apply P. unfold fts_rebuild in H2. cbn [ft_config] in H2.
        destruct (ft_config f); congruence.
  Qed.
  Lemma plain_step s s' r o k f : k <> IdentifierAware -> plain f -> plain (fts_step X s s' r o k f).
  Proof.
    unfold plain. intros Nk P. destruct o as [docs g md|docs g md|docs g|ids|]; auto; cbn [fts_step].
    - destruct md as [md|]; auto. destruct r as [ids| |]; auto. destruct md; [cbn; destruct (db_exists (snd s)); auto; discriminate|]. cbn. congruence.
    - destruct r as [out| |]; auto. destruct (_ && _); auto. destruct (is_suffix_delete _ _); auto. destruct (snd s'); auto. cbn. destruct (ft_config f); congruence.
  Qed.
  Lemma fagrees_follows f : fagrees f -> (ft_tables f <> None -> ft_config f <> None) -> index_follows X f.
  Proof.
    intros A Hc i t. unfold places_of, text_of. destruct (ft_tables f) as [tb|] eqn:Et; auto. destruct (ft_config f) as [k|] eqn:Ec; [|exfalso; apply Hc; auto; discriminate].
    rewrite (A tb k Et Ec i t). reflexivity.
  Qed.

  (** *** completeness *)
  Definition cinv (k : fts_tokenizer) (M : list (option json)) (f : fts) : Prop :=
    (forall i, at_pos M i <> None -> text_of f i <> None) /\ ((forall i, at_pos M i = None) \/ ft_config f = Some k).
  Lemma cinv_none k M f : (forall i, at_pos M i = None) -> cinv k M f.
  Proof. intro H. split; auto. Qed.
  Lemma cinv_bare k M n f : cinv k M f -> cinv k (M ++ repeat None n) f.
  Proof.
    intros (C1 & C2). assert (Q : forall i, at_pos (M ++ repeat None n) i = at_pos M i).
    { intro i. rewrite at_pos_app, at_pos_repeat. destruct (Z.ltb_spec i (Z.of_nat (length M))); auto. symmetry. apply at_pos_ge. lia. }
    split; [intros i Hi; rewrite Q in Hi; auto|]. destruct C2 as [C2|C2]; auto. left. intro i. rewrite Q; auto.
  Qed.
  Lemma cinv_step iops s L o k r s' L' f : good_sync V E D docs0 g0 iops s L -> Forall (op_ok D) (index_ops o) ->
    sexec V E s o = Ok (r, s') -> calls L o r L' -> good_sync V E D docs0 g0 (iops ++ index_ops o) s' L' ->
    (match o with SAdd _ _ (Some _) => False | _ => True end) ->
    finv (snd s) (snd (fst s)) (map snd L) f -> finv (snd s') (snd (fst s')) (map snd L') (fts_step X s s' r o k f) ->
    cinv k (map snd L) f -> cinv k (map snd L') (fts_step X s s' r o k f).
  Proof.
    intros Gs Ho H C Gs' Hk F F' Ci. destruct o as [docs g md|docs g md|docs g|ids|]; cbn [fts_step].
    - destruct md as [md|]; [contradiction|]. inversion C as [? ? ? ? ? Ad| | | |]; subst. inversion Ad; subst. rewrite map_app, map_snd_bare. apply cinv_bare; auto.
    - inversion C as [|? ? ? ? ? Ad| | |]; subst. destruct md as [md|].
      + destruct r as [ids| |].
        * destruct (adds_ok_shape _ _ _ _ _ Ad) as (-> & EM). rewrite EM.
          destruct md as [|a md]; [cbn [map fts_index]; rewrite app_nil_r; destruct (db_exists (snd s)) eqn:Dm; auto|].
          { apply cinv_none. destruct Gs as (_ & _ & It). destruct (snd s); try discriminate. apply It. }
          remember (a :: md) as l eqn:El.
          split; [|right; rewrite index_eq by (subst; discriminate); reflexivity].
          intros i Hi. apply index_has.
          -- destruct (db_exists (snd s)) eqn:Dm; [|right; left; reflexivity]. destruct Ci as (_ & [Ci|Ci]); auto. right. right. intro j.
             destruct (text_of f j) as [x|] eqn:T; auto. destruct (fi_txt _ _ _ _ F j x T) as (v & Hv & _). rewrite Ci in Hv. discriminate.
          -- rewrite at_pos_app in Hi. destruct (Z.ltb_spec i (Z.of_nat (length (map snd L)))) as [Hl|Hl].
             ++ left. destruct (db_exists (snd s)) eqn:Dm; [apply Ci; auto|]. exfalso. destruct Gs as (_ & _ & It). destruct (snd s); try discriminate. apply Hi, It.
             ++ right. destruct (Z.ltb_spec i (Z.of_nat (length (map snd L)) + Z.of_nat (length l))) as [Hu|Hu]; [lia|]. exfalso. apply Hi, at_pos_ge. rewrite map_length. lia.
        * inversion Ad; subst; auto. rewrite map_app, map_snd_bare. apply cinv_bare; auto.
        * inversion Ad; subst; auto. rewrite map_app, map_snd_bare. apply cinv_bare; auto.
      + inversion Ad; subst. rewrite map_app, map_snd_bare. apply cinv_bare; auto.
    - inversion C; subst. rewrite map_app, map_snd_bare. apply cinv_bare; auto.
    - assert (Gs0 := Gs). destruct Gs as (_ & _ & It). destruct Gs' as (_ & _ & It').
      inversion C as [| | |? ? Hr|]; subst. rewrite delete_positions_map in *.
      assert (Sub : forall i, at_pos (map snd L) i = None -> False \/ True) by auto.
      destruct Ci as (C1 & C2).
      assert (Hc : (forall i, at_pos (delete_positions ids (map snd L)) i = None) \/ ft_config f = Some k) by (destruct C2 as [C2|C2]; [left; apply delete_gone|]; auto).
      cbn [fts_step] in F'.
      destruct s as ((d, h), m). cbn [fst snd] in *. cbn [sexec] in H. apply bind_Ok in H. destruct H as ((out, (d1, h1)) & H1 & H2).
      destruct (delete_metadata_rows m (hd 0%Z out) ids) as (m', mr) eqn:A. injection H2 as <- <-. cbn [fst snd] in *. unfold delete_metadata_rows in A.
      destruct ((0 <? hd 0%Z out)%Z && db_exists m) eqn:B.
      + destruct mr as [n| |]; cbn [after_metadata] in *.
        2,3: apply cinv_none, delete_gone; destruct ids as [|z ids]; [discriminate A|]; cbn [delete] in A; destruct m; [discriminate A|try discriminate A; apply It|destruct (delete_v2 _ _); discriminate A].
        rewrite B in *. destruct (is_suffix_delete (num_documents h) (valid_ids (num_documents h) ids)) eqn:Sx.
        * split; [|exact Hc]. intros i Hi.
          unfold text_of, fts_delete. cbn [ft_tables].
          assert (Hi' : at_pos (delete_positions ids (map snd L)) i <> None) by auto.
          destruct (at_pos (delete_positions ids (map snd L)) i) as [v|] eqn:Hv; [|contradiction]. apply at_pos_nth in Hv. destruct Hv as (I0 & Hv).
          apply delete_positions_inv in Hv. destruct Hv as (n0 & Hn & Nin & Rn). rewrite Z2Nat.id in Rn by auto.
          assert (Hv0 : at_pos (map snd L) (Z.of_nat n0) = Some v) by (unfold at_pos; destruct (Z.ltb_spec (Z.of_nat n0) 0); [lia|]; rewrite Nat2Z.id, Hn; auto).
          assert (Ln : (Z.of_nat n0 < Z.of_nat (num_documents h))%Z).
          { destruct (Z.ltb_spec (Z.of_nat n0) (Z.of_nat (num_documents h))); auto. rewrite (fi_han _ _ _ _ F) in Hv0 by lia. discriminate. }
          destruct (suffix_all _ _ Sx) as (first & Hf & Hall).
          assert (Lf : (Z.of_nat n0 < first)%Z).
          { destruct (Z.ltb_spec (Z.of_nat n0) first); auto. exfalso. apply Nin. apply (valid_In (num_documents h)). apply Hall. lia. }
          rewrite renumbered_same in Rn.
          2: { intros z Hz Hz'. assert (In z (valid_ids (num_documents h) ids)) by (apply valid_In; split; auto; lia). apply Hall in H. lia. }
          subst i. assert (T : text_of f (Z.of_nat n0) <> None) by (apply C1; rewrite Hv0; discriminate). unfold text_of in T.
          destruct (ft_tables f) as [tb|]; auto. cbn [option_map]. rewrite delete_content. destruct (zmem (Z.of_nat n0) _) eqn:Zm; auto.
          exfalso. apply zmem_In in Zm. apply Hall in Zm. lia.
        * destruct m' as [| |db'].
          { apply cinv_none. apply It'. }
          { apply cinv_none. apply It'. }
          split; [|destruct Hc as [Hc|Hc]; [left; auto|right; cbn; rewrite Hc; auto]].
          intros i Hi. destruct It' as (W' & It'). rewrite rebuild_text by auto. specialize (It' i). destruct (at_pos (delete_positions ids (map snd L)) i); [|contradiction].
          destruct (lookup (rows db') i); [discriminate|contradiction].
      + injection A as <- <-. cbn [after_metadata] in *. rewrite B in *. destruct (db_exists m) eqn:Dm.
        * rewrite andb_true_r in B. apply Z.ltb_ge in B. rewrite (Hr out eq_refl) in B. cbn [hd] in B.
          rewrite delete_positions_same; [split; auto|]. rewrite <- delete_positions_map, !map_length.
          pose proof (delete_positions_le ids L). lia.
        * apply cinv_none. destruct m; try discriminate. apply It'.
    - inversion C; subst. auto.
  Qed.

  (** ** Histories *)
  Lemma fexec_all_inv ops : forall iops s f L outs s' f', good_sync V E D docs0 g0 iops s L -> Forall (op_ok D) (flat_map index_ops (map fst ops)) ->
    disciplined true false (iops ++ flat_map index_ops (map fst ops)) -> finv (snd s) (snd (fst s)) (map snd L) f ->
    fexec_all X V E (s, f) ops = Ok (outs, (s', f')) ->
    exists L', call_history L (map fst ops) outs L' /\ good_sync V E D docs0 g0 (iops ++ flat_map index_ops (map fst ops)) s' L'
      /\ finv (snd s') (snd (fst s')) (map snd L') f'
      /\ (fagrees f -> plain f -> Forall (fun o => snd o <> IdentifierAware) ops -> fagrees f')
      /\ (fagrees f -> no_deletion ops -> fagrees f')
      /\ (forall k, cinv k (map snd L) f -> all_indexed k ops -> cinv k (map snd L') f').
  Proof.
    induction ops as [|(o, k) ops IH]; intros iops s f L outs s' f' Gs Ho Hd F H.
    - injection H as <- <- <-. exists L. cbn. rewrite app_nil_r. split; [constructor|]. auto.
    - cbn [fexec_all flat_map map fst] in *. apply bind_Ok in H. destruct H as ((r, (s1, f1)) & H1 & H). apply bind_Ok in H. destruct H as ((rs, (s2, f2)) & H2 & H3). injection H3 as <- <- <-.
      unfold fexec in H1. cbn [fst snd] in H1. apply bind_Ok in H1. destruct H1 as ((r', s1') & H1 & H4). injection H4 as <- <- <-.
      apply Forall_app in Ho. destruct Ho as (Ho1 & Ho2). rewrite app_assoc in *.
      pose proof (disciplined_app _ _ _ _ Hd) as Hd1.
      destruct (sexec_good V E D docs0 g0 G _ _ _ _ _ _ Gs Ho1 Hd1 H1) as (L1 & C1 & G1).
      pose proof (fstep _ _ _ _ k _ _ _ _ Gs Ho1 Hd1 H1 C1 G1 F) as F1.
      destruct (IH _ _ _ _ _ _ _ G1 Ho2 Hd F1 H2) as (L2 & C2 & G2 & F2 & A1 & A2 & A3). exists L2. split; [econstructor; eauto|]. split; auto. split; auto.
      split; [|split].
      + intros A P N. inversion N as [|? ? N1 N2]; subst. cbn [snd] in N1. apply A1; auto.
        * eapply fagrees_step; eauto. destruct o; auto.
        * apply plain_step; auto.
      + intros A N. inversion N as [|? ? N1 N2]; subst. cbn [fst] in N1. apply A2; auto. eapply fagrees_step; eauto. destruct o; auto. contradiction.
      + intros k' Ck N. pose proof (Forall_inv N) as (N1 & N3). apply Forall_inv_tail in N. cbn [fst snd] in N1, N3. subst. apply A3; [|exact N]. eapply cinv_step; eauto.
  Qed.
  Lemma tells_built m M i v x : items E m M -> at_pos M i = Some v -> tells m v x -> built_from X m i v x.
  Proof.
    intros It Hv [->|(d & -> & ->)]; [left; auto|]. right. destruct It as (W & It). specialize (It i). rewrite Hv in It.
    rewrite find_cells by auto. destruct (lookup (rows d) i) as [q|]; [|contradiction]. destruct It as (R1 & R2 & _). cbn [option_map].
    eexists; eexists; split; [reflexivity|]. unfold stored_text. do 2 f_equal. unfold vis, vis_fat. rewrite R1, R2, !map_app.
    assert (Q : forall cs, map (fun c : text * (ctype * sqlv) => snd (snd c)) (combine (map c_name cs) (combine (map c_type cs) (map (cell E v) cs))) = map (cell E v) cs).
    { induction cs as [|c cs IH]; auto. cbn. f_equal. auto. }
    rewrite !Q. reflexivity.
  Qed.
End HISTORY.

(** C34 *)
Lemma fts_history V E X D docs0 g0 md0 k0 ops outs s f : freached V E X D docs0 g0 md0 k0 ops outs s f ->
  exists out0 outs' L0 L, outs = out0 :: outs' /\ adds [] docs0 md0 out0 L0 /\ call_history L0 (map fst ops) outs' L
    /\ rows_follow X (snd s) L f
    /\ (no_identifiers k0 ops \/ no_deletion ops -> index_follows X f)
    /\ (all_indexed k0 ops -> rows_complete L f)
    /\ (all_indexed k0 ops -> forall i, item_of L i <> None -> ft_config f = Some k0).
Proof.
  intros (HD & Hk & G & Hdim & I0 & So & Ho & Hd & H).
  unfold frun in H. apply bind_Ok in H. destruct H as ((out0, (s0, f0)) & H0 & H). apply bind_Ok in H. destruct H as ((outs', (s', f')) & H1 & H2). injection H2 as <- <- <-.
  unfold fcreate in H0. apply bind_Ok in H0. destruct H0 as ((out0', s0') & H0 & H2). injection H2 as <- <- <-.
  unfold screate in H0. destruct (bad_length docs0 md0) eqn:B; [discriminate|]. apply bind_Ok in H0. destruct H0 as ((o1, i0) & R0 & H0).
  fold (positions 0 (length docs0)) in H0.
  destruct (add_or_create_rows E NoDb md0 (positions 0 (length docs0))) as (m0, mr) eqn:A. injection H0 as <- <-.
  assert (Hi : items E NoDb (map snd (@nil (doc * option json)))) by (cbn; intro i; unfold at_pos; destruct (i <? 0)%Z; auto; destruct (Z.to_nat i); auto).
  destruct (add_rows_spec E G NoDb md0 _ [] docs0 m0 mr Hi B eq_refl (or_intror A)) as (L0 & A1 & A2 & A3).
  cbn [map app] in A2.
  assert (Rd : reached V D docs0 g0 [] o1 (fst i0) (snd i0)).
  { split; auto. split; auto. split; auto. split; auto. split; [exact I|]. destruct i0. exact R0. }
  assert (Gs : good_sync V E D docs0 g0 [] (i0, m0) L0) by (split; [exists o1; exact Rd|split; auto]).
  assert (Hh : forall i, (Z.of_nat (num_documents (snd i0)) <= i)%Z -> at_pos (map snd L0) i = None).
  { intros i Hi0. apply at_pos_ge. rewrite map_length, <- (map_length fst L0), A2. pose proof (fresh_handle V D docs0 g0 _ _ _ _ Rd) as N.
    rewrite N in Hi0 by (cbn; auto). cbn in Hi0. exact Hi0. }
  set (f0 := match md0, after_metadata (positions 0 (length docs0)) mr with Some md, Ok ids => fts_index X no_fts md ids k0 | _, _ => no_fts end) in *.
  assert (Base : finv X E m0 (snd i0) (map snd L0) no_fts).
  { constructor; auto. intros i x Hx. discriminate. }
  assert (F0 : finv X E m0 (snd i0) (map snd L0) f0 /\ fagrees X f0 /\ (k0 <> IdentifierAware -> plain f0) /\ cinv k0 (map snd L0) f0).
  { assert (An : fagrees X no_fts) by (intros tb k Q; discriminate Q).
    assert (Bare : f0 = no_fts -> map snd L0 = repeat None (length docs0) -> finv X E m0 (snd i0) (map snd L0) f0 /\ fagrees X f0 /\ (k0 <> IdentifierAware -> plain f0) /\ cinv k0 (map snd L0) f0).
    { intros -> Q. split; auto. split; auto. split; [intros _ Q'; discriminate Q'|]. apply cinv_none. intro i. rewrite Q. apply at_pos_repeat. }
    destruct md0 as [md|]; [|apply Bare; auto; apply (adds_bare_shape _ _ _ _ _ A1); auto].
    destruct mr as [n| |]; cbn [after_metadata] in *;
      [|apply Bare; auto; apply (adds_bare_shape _ _ _ _ _ A1); auto; right; split; auto; discriminate..].
    destruct (adds_ok_shape _ _ _ _ _ A1) as (Ei & EM). cbn [map app length] in EM, Ei. unfold f0. rewrite Ei.
    assert (Dm : md <> [] -> db_exists m0 = true) by (intro N; eapply add_db_ok; eauto).
    split; [rewrite EM in *; apply (finv_index X E m0 (snd i0) [] no_fts md k0); auto|].
    split; [intros tb k'; apply index_agrees; [intros ? ? Q; discriminate Q|intro Q; exfalso; apply Q; reflexivity|intros i x Q; discriminate Q]|].
    split; [intros Nk Q; destruct md; cbn in Q; congruence|].
    rewrite EM. destruct md as [|a md]; [apply cinv_none; intro i; cbn; unfold at_pos; destruct (i <? 0)%Z; auto; destruct (Z.to_nat i); auto|].
    split; [|right; reflexivity]. intros i Hi'. apply index_has; [right; left; reflexivity|]. right. change (Z.of_nat 0) with 0%Z.
    split; [unfold at_pos in Hi'; destruct (Z.ltb_spec i 0); [contradiction|lia]|].
    destruct (Z.ltb_spec i (0 + Z.of_nat (length (a :: md)))); auto. exfalso. apply Hi', at_pos_ge. rewrite map_length. lia. }
  destruct F0 as (F0 & Ag0 & Pl0 & Ci0).
  destruct (fexec_all_inv X V E D docs0 g0 G ops [] _ _ _ _ _ _ Gs Ho Hd F0 H1) as (L & C & (_ & _ & It) & [F1 F2 F3 F4] & P1 & P2 & P3).
  exists (after_metadata (positions 0 (length docs0)) mr), outs', L0, L. split; auto. split; auto. split; auto. split; [|split; [|split]].
  - intros i x Hx. destruct (F3 i x Hx) as (v & Hv & T). exists v. split; auto. eapply tells_built; eauto.
  - intro Q. apply fagrees_follows; auto. destruct Q as [(Q1 & Q2)|Q]; auto.
  - intros Q i Hi0. apply (P3 k0); auto.
  - intros Q i Hi0. destruct (P3 k0) as (_ & [N|N]); auto. destruct (Hi0 (N i)).
Qed.

(** ** Terms *)
Lemma places_from_In t ts : forall n, places_from n t ts <> [] <-> In t ts.
Proof.
  induction ts as [|u ts IH]; intro n; cbn [places_from]; [cbn; tauto|]. destruct (text_eqb t u) eqn:Q.
  - apply text_eqb_eq in Q. subst. split; [left; auto|discriminate].
  - cbn [app]. rewrite IH. split; [right; auto|]. intros [->|H]; auto. rewrite text_eqb_refl in Q. discriminate.
Qed.
Lemma places_In t ts : places t ts <> [] <-> In t ts.
Proof. apply places_from_In. Qed.
Lemma matches_iff X f i t : index_follows X f ->
  (matches f i t <-> exists x k, text_of f i = Some x /\ ft_config f = Some k /\ In t (indexed_terms X k x)).
Proof.
  intro F. unfold matches. rewrite F. destruct (text_of f i) as [x|]; [|split; [contradiction|intros (? & ? & Q & _); discriminate Q]].
  destruct (ft_config f) as [k|]; [|split; [contradiction|intros (? & ? & _ & Q & _); discriminate Q]]. rewrite places_In. split.
  - intro H. exists x, k. auto.
  - intros (x' & k' & Q1 & Q2 & H). injection Q1 as <-. injection Q2 as <-. auto.
Qed.

(** ** Texts *)
Lemma join_word s : forall l, In s l -> word_of s (join [32%Z] l).
Proof.
  induction l as [|y l IH]; [intros []|]. intros [->|H].
  - destruct l as [|z l]; cbn [join].
    + exists [], []. rewrite app_nil_r. auto.
    + exists [], ([32%Z] ++ join [32%Z] (z :: l)). split; [reflexivity|]. split; auto. right. eexists. reflexivity.
  - destruct l as [|z l]; [destruct H|]. destruct (IH H) as (a & b & E & Ha & Hb). cbn [join] in *. rewrite E.
    exists (y ++ [32%Z] ++ a), b. split; [rewrite <- !app_assoc; reflexivity|]. split; auto. right.
    destruct Ha as [->|(a' & ->)]; [exists y; rewrite app_nil_r; auto|]. exists (y ++ [32%Z] ++ a'). rewrite <- !app_assoc. reflexivity.
Qed.
Lemma collect_value X s v : occurs_in (JStr s) v -> s <> [] -> In s (collect_text_parts X v).
Proof.
  intros H N. induction H as [|o k w Hw _ IH|l w Hw _ IH].
  - cbn. destruct s; [contradiction|]. left; auto.
  - cbn [collect_text_parts]. apply in_flat_map. exists (k, w). auto.
  - cbn [collect_text_parts]. apply in_flat_map. exists w. auto.
Qed.

(** ** After update_where *)
Lemma update_rows_ok X k f d ids : k <> IdentifierAware -> wf_db d -> ft_config f = Some k -> index_follows X f ->
  Forall (has_row (Db d)) ids ->
  let f' := fts_update_rows X f d ids in
  index_follows X f' /\ ft_config f' = Some k
  /\ (forall i, ~ In i ids -> text_of f' i = text_of f i)
  /\ (ft_tables f <> None -> forall i, In i ids -> exists id row, cells (Db d) i = Some (id :: row)
       /\ text_of f' i = Some (join [32%Z] (flat_map (value_text X) (map (fun c => snd (snd c)) row)))).
Proof.
  intros Nk W Hc F Hr f'. assert (P : forall x, prepare_document_text x k = x) by (destruct k; auto; contradiction).
  destruct (ft_tables f) as [tb|] eqn:Et.
  2: { assert (Q : f' = f) by (destruct f; cbn in *; subst; reflexivity). rewrite Q. repeat split; auto. intro Q'. contradiction. }
  assert (A : agrees X k tb).
  { intros i t. specialize (F i t). unfold places_of, text_of in F. rewrite Et, Hc in F. exact F. }
  assert (Row : forall i, has_row (Db d) i -> exists q id row, lookup (rows d) i = Some q /\ cells (Db d) i = Some (id :: row)
            /\ row_text X q = join [32%Z] (flat_map (value_text X) (map (fun c => snd (snd c)) row))).
  { intros i Hi. unfold has_row in Hi. rewrite find_cells in * by auto. destruct (lookup (rows d) i) as [q|] eqn:Lq; [|contradiction Hi; reflexivity].
    exists q. eexists; eexists. split; auto. split; [reflexivity|]. unfold row_text. do 2 f_equal. unfold vis, vis_fat. rewrite map_app.
    assert (Q : forall (cs : list column) vs, length vs = length cs -> map (fun c : text * (ctype * sqlv) => snd (snd c)) (combine (map c_name cs) (combine (map c_type cs) vs)) = vs).
    { induction cs as [|c cs IH]; intros [|y vs] Lv; auto; try discriminate. cbn. f_equal. apply IH. cbn in Lv. lia. }
    destruct (wf_parts d W) as (_ & _ & _ & R). rewrite Forall_forall in R. destruct (wf_parts d W) as (_ & Nd & _).
    apply lookup_spec in Lq; [|exact Nd]. destruct (R q (proj1 Lq)) as (_ & _ & R1 & R2). rewrite !Q by auto. reflexivity. }
  assert (St : forall ids tb, agrees X k tb -> Forall (has_row (Db d)) ids ->
    let tb' := fold_left (fts_update_row X (is_trigram k) d) ids tb in
    agrees X k tb' /\ (forall i, ~ In i ids -> content_at (tb_content tb') i = content_at (tb_content tb) i)
    /\ (forall i, In i ids -> content_at (tb_content tb') i = option_map (row_text X) (lookup (rows d) i))).
  { clear -W P Row. induction ids as [|id ids IH]; intros tb A Hr; cbn [fold_left]; [repeat split; auto; intros i []|].
    inversion Hr as [|? ? Hr1 Hr2]; subst. destruct (Row id Hr1) as (q & _ & _ & Lq & _ & _).
    set (tb1 := fts_update_row X (is_trigram k) d tb id).
    assert (E1 : forall i, content_at (tb_content tb1) i = if (i =? id)%Z then Some (row_text X q) else content_at (tb_content tb) i).
    { intro i. unfold tb1, fts_update_row. rewrite joined_combine by auto. unfold lookup, rows, sub_of in Lq. rewrite Lq. cbn [tb_content].
      destruct (content_at (tb_content tb) id); cbn [tb_content]; apply content_put. }
    assert (A1 : agrees X k tb1).
    { intros i t. rewrite E1. unfold tb1, fts_update_row. rewrite joined_combine by auto. unfold lookup, rows, sub_of in Lq. rewrite Lq. cbn [tb_places].
      destruct (content_at (tb_content tb) id) as [x|] eqn:Cx; cbn [tb_places].
      - assert (C0 : forall u, tb_places tb id u = places u (x_terms X (is_trigram k) x)) by (intro u; rewrite A, Cx; unfold indexed_terms; rewrite P; reflexivity).
        rewrite put_at by (intro u; rewrite cut_at by auto; rewrite Z.eqb_refl; reflexivity).
        destruct (i =? id)%Z eqn:Q; [unfold indexed_terms; rewrite P; reflexivity|]. rewrite cut_at, Q by auto. apply A.
      - rewrite put_at by (intro u; rewrite A, Cx; reflexivity). destruct (i =? id)%Z; [unfold indexed_terms; rewrite P; reflexivity|apply A]. }
    destruct (IH tb1 A1 Hr2) as (B1 & B2 & B3). split; auto. split.
    - intros i Hi. rewrite B2 by (intro; apply Hi; right; auto). rewrite E1. destruct (Z.eqb_spec i id) as [->|]; auto. exfalso; apply Hi; left; auto.
    - intros i Hi. destruct (in_dec Z.eq_dec i ids) as [Hi'|Hi']; auto. destruct Hi as [->|Hi]; [|contradiction].
      rewrite B2 by auto. rewrite E1, Z.eqb_refl, Lq. reflexivity. }
  destruct (St ids tb A Hr) as (B1 & B2 & B3).
  assert (Tf : ft_tables f' = Some (fold_left (fts_update_row X (is_trigram k) d) ids tb)).
  { unfold f', fts_update_rows, config_trigram. cbn [ft_tables]. rewrite Et, Hc. reflexivity. }
  split; [|split; [|split]].
  - intros i t. unfold places_of, text_of. rewrite Tf. unfold f', fts_update_rows. cbn [ft_config]. rewrite Hc. apply B1.
  - exact Hc.
  - intros i Hi. unfold text_of. rewrite Tf, Et. auto.
  - intros _ i Hi. rewrite Forall_forall in Hr. destruct (Row i (Hr i Hi)) as (q & id & row & Lq & Cq & Tq). exists id, row. split; auto.
    unfold text_of. rewrite Tf, B3, Lq by auto. cbn [option_map]. rewrite Tq. reflexivity.
Qed.

Lemma fexec_all_sexec X V E ops : forall s f outs s' f', fexec_all X V E (s, f) ops = Ok (outs, (s', f')) -> sexec_all V E s (map fst ops) = Ok (outs, s').
Proof.
  induction ops as [|(o, k) ops IH]; intros s f outs s' f' H.
  - injection H as <- <- _. reflexivity.
  - cbn [fexec_all map fst sexec_all] in *. apply bind_Ok in H. destruct H as ((r, (s1, f1)) & H1 & H). apply bind_Ok in H. destruct H as ((rs, (s2, f2)) & H2 & H3). injection H3 as <- <- <-.
    unfold fexec in H1. cbn [fst snd] in H1. apply bind_Ok in H1. destruct H1 as ((r', s1') & H1 & H4). injection H4 as <- <- <-.
    rewrite H1. cbn [bind]. rewrite (IH _ _ _ _ _ H2). reflexivity.
Qed.
Lemma freached_sreached V E X D docs0 g0 md0 k0 ops outs s f : freached V E X D docs0 g0 md0 k0 ops outs s f -> sreached V E D docs0 g0 md0 (map fst ops) outs s.
Proof.
  intros (HD & Hk & G & Hdim & I0 & So & Ho & Hd & H). repeat (split; auto). { apply Forall_map. auto. }
  unfold frun in H. apply bind_Ok in H. destruct H as ((out0, (s0, f0)) & H0 & H). apply bind_Ok in H. destruct H as ((outs', (s', f')) & H1 & H2). injection H2 as <- <- <-.
  unfold fcreate in H0. apply bind_Ok in H0. destruct H0 as ((out0', s0') & H0 & H2). injection H2 as <- <- <-.
  unfold srun. rewrite H0. cbn [bind]. rewrite (fexec_all_sexec _ _ _ _ _ _ _ _ _ H1). reflexivity.
Qed.
Lemma freached_wf V E X D docs0 g0 md0 k0 ops outs s f : freached V E X D docs0 g0 md0 k0 ops outs s f -> wf (snd s).
Proof. intro R. eapply sync_wf, freached_sreached, R. Qed.
