(** Proofs about the background writers. *)
From Verif Require Import Base F32 CodecModel CodecSpec IndexModel IndexSpec IndexLemmas IndexDelete IndexCore IndexOps IndexAccess.
From Verif Require Import Text SqlModel SqlSpec MetaModel MetaQuery MetaSpec MetaProofs MetaCreate MetaContent MetaRead MetaFilter MetaWhere.
From Verif Require Import SyncModel SyncSpec SyncProofs ApiUpdate ApiUpdateSpec.
Open Scope nat_scope.

(** ** The batch worker *)
Section WORKER.
  Variables Emb Meta : Type.
  Variable max : nat.
  Notation item := (item Emb Meta).
  Notation worker := (worker Emb Meta).
  Notation event := (event Emb Meta).
  Definition nonempty (g : list item) : bool := match flat_map fst g with [] => false | _ => true end.
  Definition winv (all : list item) (w : worker) : Prop :=
    exists groups current,
      all = concat groups ++ current ++ w_queue w
      /\ w_done w = map together (filter nonempty groups)
      /\ Forall (fun g => g <> [] /\ (removelast g = [] \/ size (removelast g) < max)) groups
      /\ match w_phase w with
         | Waiting => current = []
         | Collecting embs metas n => (embs, metas) = together current /\ n = length embs /\ current <> []
                                      /\ (removelast current = [] \/ size (removelast current) < max)
         | Stopped => current = [] /\ w_queue w = [] /\ w_closed w = true
         end.
  Lemma together_app (a b : list item) : together (a ++ b) = (fst (together a) ++ fst (together b), snd (together a) ++ snd (together b)).
  Proof. unfold together. cbn. rewrite !flat_map_app. reflexivity. Qed.
  Lemma hand_over_inv all (w : worker) groups current p :
    all = concat groups ++ current ++ w_queue w -> w_done w = map together (filter nonempty groups) ->
    Forall (fun g => g <> [] /\ (removelast g = [] \/ size (removelast g) < max)) groups ->
    current <> [] -> (removelast current = [] \/ size (removelast current) < max) ->
    match p with Waiting => True | Stopped => w_queue w = [] /\ w_closed w = true | _ => False end ->
    winv all (hand_over w (fst (together current)) (snd (together current)) p).
  Proof.
    intros H1 H2 H3 H4 H5 Hp. exists (groups ++ [current]), []. cbn [hand_over w_queue w_done w_phase w_closed].
    split; [rewrite concat_app; cbn; rewrite app_nil_r, <- app_assoc; auto|]. split; [|split].
    - rewrite filter_app, map_app, H2. cbn [filter]. change (nonempty current) with (match fst (together current) with [] => false | _ => true end).
      destruct (together current) as (e, m) eqn:T. cbn [fst snd]. destruct e; cbn [map]; rewrite ?T, ?app_nil_r; reflexivity.
    - apply Forall_app. split; auto.
    - destruct p; tauto.
  Qed.
  Lemma wstep_inv all (w w' : worker) (e : event) : winv all w -> wstep max w e = Some w' ->
    winv (all ++ match e with Queue i => [i] | _ => [] end) w'.
  Proof.
    intros (groups & current & H1 & H2 & H3 & H4) H. destruct e as [i| | |]; cbn [wstep] in H.
    - destruct (w_closed w) eqn:Cl; [discriminate|]. injection H as <-. exists groups, current. cbn [w_queue w_done w_phase].
      split; [rewrite H1, <- !app_assoc; reflexivity|]. split; auto. split; auto.
      destruct (w_phase w); auto. destruct H4 as (_ & _ & X). congruence.
    - injection H as <-. rewrite app_nil_r. exists groups, current. cbn [w_queue w_done w_phase]. split; auto. split; auto. split; auto.
      destruct (w_phase w); auto. destruct H4 as (X & Y & _). auto.
    - rewrite app_nil_r. destruct (w_phase w) as [|embs metas n|] eqn:P; [| |discriminate].
      + subst current. destruct (w_queue w) as [|(embs, metas) q] eqn:Q.
        * destruct (w_closed w) eqn:Cl; [|discriminate]. injection H as <-. exists groups, []. cbn. cbn in H1. auto 10.
        * injection H as <-. exists groups, [(embs, metas)]. cbn [w_queue w_done w_phase]. split; auto. split; auto. split; auto.
          unfold together. cbn. rewrite !app_nil_r. split; auto. split; auto. split; [discriminate|auto].
      + destruct H4 as (T & -> & Ne & Sz). destruct (Nat.ltb_spec (length embs) max) as [Lt|Ge].
        * destruct (w_queue w) as [|(embs', metas') q] eqn:Q.
          -- destruct (w_closed w) eqn:Cl; [|discriminate]. injection H as <-.
             assert (embs = fst (together current) /\ metas = snd (together current)) as (-> & ->) by (rewrite <- T; auto).
             apply hand_over_inv with (groups := groups); auto. rewrite Q. auto.
          -- injection H as <-. exists groups, (current ++ [(embs', metas')]). cbn [w_queue w_done w_phase].
             split; [rewrite H1, <- !app_assoc; reflexivity|]. split; auto. split; auto.
             rewrite together_app, <- T. unfold together. cbn. rewrite !app_nil_r. split; auto. rewrite app_length. split; auto.
             split; [destruct current; discriminate|]. rewrite removelast_last. right. unfold size. injection T as E1 E2. unfold together in E1. cbn in E1. rewrite <- E1. auto.
        * injection H as <-. assert (embs = fst (together current) /\ metas = snd (together current)) as (-> & ->) by (rewrite <- T; auto).
          apply hand_over_inv with (groups := groups); auto.
    - rewrite app_nil_r. destruct (w_phase w) as [|embs metas n|] eqn:P; [discriminate| |discriminate].
      destruct (n <? max); [|discriminate]. injection H as <-. destruct H4 as (T & -> & Ne & Sz).
      assert (embs = fst (together current) /\ metas = snd (together current)) as (-> & ->) by (rewrite <- T; auto).
      apply hand_over_inv with (groups := groups); auto.
  Qed.
  Lemma wrun_inv es : forall all (w w' : worker), winv all w -> wrun max w es = Some w' -> winv (all ++ queued es) w'.
  Proof.
    induction es as [|e es IH]; intros all w w' H R.
    - injection R as <-. cbn. rewrite app_nil_r. auto.
    - cbn [wrun] in R. destruct (wstep max w e) as [w1|] eqn:Es; [|discriminate]. pose proof (wstep_inv _ _ _ _ H Es) as H1.
      specialize (IH _ _ _ H1 R). cbn [queued flat_map] in *. rewrite <- app_assoc in IH. exact IH.
  Qed.
  Lemma start_inv : winv [] (@start Emb Meta).
  Proof. exists [], []. cbn. auto. Qed.
  Theorem worker_batches es (w : worker) : wrun max start es = Some w ->
    exists groups current,
      queued es = concat groups ++ current ++ w_queue w
      /\ w_done w = map together (filter nonempty groups)
      /\ Forall (fun g => g <> [] /\ (removelast g = [] \/ size (removelast g) < max)) groups
      /\ match w_phase w with
         | Waiting => current = []
         | Collecting embs metas _ => (embs, metas) = together current
         | Stopped => current = [] /\ w_queue w = []
         end.
  Proof.
    intro R. destruct (wrun_inv es [] start w start_inv R) as (groups & current & H1 & H2 & H3 & H4).
    exists groups, current. split; auto. split; auto. split; auto. destruct (w_phase w); tauto.
  Qed.
  (** Nothing is lost *)
  Lemma done_embs groups : flat_map (@fst (list Emb) (list Meta)) (map together (filter nonempty groups)) = flat_map fst (concat groups).
  Proof.
    induction groups as [|g gs IH]; auto. cbn [filter concat]. rewrite flat_map_app. change (flat_map fst g) with (fst (together g)).
    change (nonempty g) with (match fst (together g) with [] => false | _ => true end).
    destruct (together g) as (e, m) eqn:T. cbn [fst snd]. destruct e; cbn [map flat_map]; rewrite IH, ?T; reflexivity.
  Qed.
  Lemma pairs_app (a b : list item) : Forall paired a -> pairs_of (together (a ++ b)) = pairs_of (together a) ++ pairs_of (together b).
  Proof.
    intro F. unfold pairs_of, together. cbn [fst snd]. rewrite !flat_map_app. induction F as [|(x, y) a Hp F IH]; auto. cbn [flat_map fst snd]. unfold paired in Hp. cbn in Hp.
    rewrite <- !app_assoc. rewrite combine_app2 by auto. rewrite IH, combine_app2, app_assoc by auto. reflexivity.
  Qed.
  Lemma pairs_all (a : list item) : Forall paired a -> pairs_of (together a) = flat_map pairs_of a.
  Proof.
    induction a as [|x a IH]; auto. intro F. inversion F; subst. change (x :: a) with ([x] ++ a). rewrite pairs_app by auto. rewrite IH by auto.
    cbn [flat_map app]. f_equal. unfold together, pairs_of. cbn. rewrite !app_nil_r. reflexivity.
  Qed.
  Lemma done_pairs groups : Forall paired (concat groups) ->
    flat_map pairs_of (map together (filter nonempty groups)) = flat_map pairs_of (concat groups).
  Proof.
    induction groups as [|g gs IH]; auto. cbn [filter concat]. intro F. apply Forall_app in F. destruct F as (F1 & F2). rewrite flat_map_app, <- (pairs_all g) by auto.
    change (nonempty g) with (match fst (together g) with [] => false | _ => true end).
    destruct (together g) as (e, m) eqn:T. cbn [fst snd]. destruct e; cbn [map flat_map]; rewrite IH, ?T by auto; reflexivity.
  Qed.
  Theorem worker_keeps es (w : worker) : wrun max start es = Some w -> Forall paired (queued es) ->
    let current := match w_phase w with Collecting embs metas _ => [(embs, metas)] | _ => [] end in
    flat_map pairs_of (w_done w) ++ flat_map pairs_of current ++ flat_map pairs_of (w_queue w) = flat_map pairs_of (queued es).
  Proof.
    intros R F. destruct (worker_batches es w R) as (groups & current & H1 & H2 & H3 & H4). rewrite H1 in F |- *.
    apply Forall_app in F. destruct F as (F1 & F2). apply Forall_app in F2. destruct F2 as (F2 & F3).
    cbv zeta. rewrite !flat_map_app, H2, done_pairs by auto. f_equal. f_equal.
    destruct (w_phase w); [subst; auto| |destruct H4 as (-> & _); auto]. cbn [flat_map]. rewrite H4, app_nil_r. apply pairs_all; auto.
  Qed.
  Theorem worker_paired es (w : worker) : wrun max start es = Some w -> Forall paired (queued es) -> Forall paired (w_done w).
  Proof.
    intros R F. destruct (worker_batches es w R) as (groups & current & H1 & H2 & _). rewrite H1 in F. apply Forall_app in F. destruct F as (F & _).
    rewrite H2. apply Forall_map. apply Forall_forall. intros g Hg. apply filter_In in Hg. destruct Hg as (Hg & _).
    assert (Fg : Forall paired g). { apply Forall_forall. intros x Hx. rewrite Forall_forall in F. apply F. apply in_concat. eauto. }
    clear - Fg. unfold paired, together. cbn. induction Fg as [|x g Hx _ IH]; auto. cbn. rewrite !app_length. unfold paired in Hx. lia.
  Qed.
  (** After the channel is closed the worker empties its queue and stops. *)
  Lemma drains n : forall w : worker, length (w_queue w) <= n -> w_closed w = true -> w_phase w <> Stopped ->
    exists k w', k <= 2 * length (w_queue w) + 2 /\ wrun max w (repeat Work k) = Some w' /\ w_phase w' = Stopped.
  Proof.
    assert (Wait : forall w : worker, w_queue w = [] -> w_closed w = true -> w_phase w = Waiting ->
       exists w', wrun max w (repeat Work 1) = Some w' /\ w_phase w' = Stopped).
    { intros w Q Cl P. eexists. cbn [repeat wrun wstep]. rewrite P, Q, Cl. split; reflexivity. }
    induction n as [|n IH]; intros w Ln Cl NS.
    - assert (Q : w_queue w = []) by (destruct (w_queue w); cbn in Ln; auto; lia). rewrite Q. cbn [length].
      destruct (w_phase w) as [|embs metas k|] eqn:P; [|destruct (k <? max) eqn:Lt|congruence].
      + destruct (Wait w Q Cl P) as (w' & R & S'). exists 1, w'. split; [lia|auto].
      + exists 1. eexists. split; [lia|]. cbn [repeat wrun wstep]. rewrite P, Q, Lt, Cl. split; reflexivity.
      + destruct (Wait (hand_over w embs metas Waiting) Q Cl eq_refl) as (w' & R & S'). exists 2, w'. split; [lia|]. split; auto.
        change (repeat Work 2) with (Work :: repeat (@Work Emb Meta) 1). cbn [wrun wstep]. rewrite P, Lt. exact R.
    - destruct (w_queue w) as [|(embs', metas') q] eqn:Q; [rewrite <- Q; apply IH; auto; rewrite Q; cbn; lia|].
      cbn [length] in Ln.
      assert (Wait2 : forall w : worker, w_queue w = (embs', metas') :: q -> w_closed w = true -> w_phase w = Waiting ->
        exists k w', k <= 2 * length q + 3 /\ wrun max w (repeat Work k) = Some w' /\ w_phase w' = Stopped).
      { intros v Qv Cv P. pose (v1 := {| w_queue := q; w_closed := w_closed v; w_phase := Collecting embs' metas' (length embs'); w_done := w_done v |}).
        destruct (IH v1) as (k & w' & Hk & R & S'); [cbn; lia|exact Cv|discriminate|]. exists (S k), w'. cbn [w_queue v1] in Hk. split; [lia|]. split; auto.
        cbn [repeat wrun wstep]. rewrite P, Qv. exact R. }
      cbn [length]. destruct (w_phase w) as [|embs metas k|] eqn:P; [|destruct (k <? max) eqn:Lt|congruence].
      + destruct (Wait2 w Q Cl P) as (k & w' & Hk & R). exists k, w'. split; [lia|auto].
      + pose (v1 := {| w_queue := q; w_closed := w_closed w; w_phase := Collecting (embs ++ embs') (metas ++ metas') (k + length embs'); w_done := w_done w |}).
        destruct (IH v1) as (j & w' & Hk & R & S'); [cbn; lia|exact Cl|discriminate|]. exists (S j), w'. cbn [w_queue v1] in Hk. split; [lia|]. split; auto.
        cbn [repeat wrun wstep]. rewrite P, Lt, Q. exact R.
      + destruct (Wait2 (hand_over w embs metas Waiting) Q Cl eq_refl) as (j & w' & Hk & R & S'). exists (S j), w'. split; [lia|]. split; auto.
        cbn [repeat wrun wstep]. rewrite P, Lt. exact R.
  Qed.
End WORKER.

(** ** Ranges of ids *)
Lemma id_range_new k n : id_range k n = new_ids k (n - k).
Proof. reflexivity. Qed.
Lemma range_out a b z : ~ (Z.of_nat a <= z < Z.of_nat (a + (b - a)))%Z -> in_ids (id_range a b) z = false.
Proof. intro H. destruct (in_ids (id_range a b) z) eqn:X; auto. rewrite id_range_new in X. apply in_new_ids in X. contradiction. Qed.
Lemma delete_tail {A} k n (l : list A) : length l <= n -> delete_positions (id_range k n) l = firstn k l.
Proof.
  intro H. destruct (Nat.le_gt_cases (length l) k) as [G|G].
  - rewrite firstn_all2 by auto. rewrite delete_positions_keep. apply keep_from_none. intros i Hi. apply range_out. lia.
  - rewrite <- (firstn_skipn k l) at 1. rewrite delete_positions_keep, keep_from_app.
    rewrite (keep_from_none _ (firstn k l)), (keep_from_all _ (skipn k l)), app_nil_r; auto.
    + intros i Hi. rewrite id_range_new. apply in_new_ids. rewrite firstn_length, skipn_length in *. lia.
    + intros i Hi. apply range_out. rewrite firstn_length in Hi. lia.
Qed.
Lemma delete_head {A} k (l : list A) : delete_positions (id_range 0 k) l = skipn k l.
Proof.
  rewrite <- (firstn_skipn k l) at 1. rewrite delete_positions_keep, keep_from_app.
  rewrite (keep_from_all _ (firstn k l)), (keep_from_none _ (skipn k l)); auto.
  - intros i Hi. apply range_out. rewrite firstn_length, skipn_length in *. lia.
  - intros i Hi. rewrite id_range_new. apply in_new_ids. rewrite firstn_length in Hi. lia.
Qed.
Lemma id_range_pos a b : Forall (fun z => 0 <= z)%Z (id_range a b).
Proof. apply new_ids_pos. Qed.
Lemma delete_positions_le {A} ids (l : list A) : length (delete_positions ids l) <= length l.
Proof.
  unfold delete_positions. rewrite map_length. pose proof (filter_le (fun p : Z * A => negb (existsb (Z.eqb (fst p)) ids)) (combine (map Z.of_nat (seq 0 (length l))) l)) as H.
  rewrite combine_length, map_length, seq_length in H. lia.
Qed.
Lemma last_n_length {A} n (l : list A) : length (last_n n l) = Nat.min n (length l).
Proof. unfold last_n. rewrite skipn_length. lia. Qed.

(** ** The index alone *)
Section INDEX.
  Variable V : env.
  Variable D : nat.
  Hypothesis HD : 1 <= D.
  Hypothesis HK : good_kmeans D (v_kmeans V).
  Notation good' := (good (v_fsub V) (v_dot V) D).
  Definition ih (fresh : bool) (i : disk * IndexModel.metadata) (ds : list doc) : Prop := exists pe, good' fresh pe i ds.
  Definition some_ih i ds := exists fr, ih fr i ds.

  Lemma step_all i o out i' : step V i o = Ok (out, i') ->
    exec_all (v_fsub V) (v_dot V) (v_mem V) (v_kmeans V) (v_quantile V) (v_threshold V) (v_next V) (v_outlier V) i [o] = Ok ([out], i').
  Proof. intro H. cbn [exec_all]. unfold step in H. rewrite H. reflexivity. Qed.
  Lemma ih_reload i ds out i' : some_ih i ds -> step V i OReload = Ok (out, i') -> ih true i' ds /\ fst i' = fst i.
  Proof using HK.
    intros (fr & pe & G) H. pose proof (step_all _ _ _ _ H) as H'.
    destruct (exec_all_good (v_fsub V) (v_dot V) (v_mem V) (v_kmeans V) (v_quantile V) (v_threshold V) (v_next V) (v_outlier V) D
      [OUpdate [] {| g_nbits := 0; g_batch_size := 0; g_start_from_scratch := 0; g_buffer_size := 0; g_seed := 0 |}] [OReload] fr pe i ds [out] i' HK G) as (_ & fr' & pe' & G' & Hf).
    - repeat constructor.
    - cbn. auto.
    - exact H'.
    - cbn in Hf. destruct Hf as (-> & _). split; [exists pe'; exact G'|]. unfold step in H. destruct i as (d, h). cbn [exec] in H.
      apply bind_Ok in H. destruct H as (x & _ & Ex). injection Ex as <- <-. reflexivity.
  Qed.
  Lemma ih_update i ds docs g ids i' : ih true i ds -> docs <> [] -> dim_ok D docs -> step V i (OUpdate docs g) = Ok (ids, i') ->
    ids = positions (length ds) (length docs) /\ ih true i' (ds ++ docs).
  Proof using HK.
    intros (pe & G) Ne Dm H. apply step_all in H.
    destruct (exec_all_good (v_fsub V) (v_dot V) (v_mem V) (v_kmeans V) (v_quantile V) (v_threshold V) (v_next V) (v_outlier V) D
      [OUpdate [] g] [OUpdate docs g] true pe i ds [ids] i' HK G) as (E & fr' & pe' & G' & Hf).
    - repeat constructor; auto.
    - cbn. auto.
    - exact H.
    - cbn in Hf. destruct Hf as (-> & _). cbn in E. injection E as ->. split; [reflexivity|exists pe'; exact G'].
  Qed.
  Lemma ih_delete i ds ids out i' : some_ih i ds -> Forall (fun z => 0 <= z)%Z ids -> step V i (ODelete ids) = Ok (out, i') ->
    out = [Z.of_nat (length ds - length (delete_positions ids ds))] /\ some_ih i' (delete_positions ids ds).
  Proof using HK.
    intros (fr & pe & G) P H. apply step_all in H.
    destruct (exec_all_good (v_fsub V) (v_dot V) (v_mem V) (v_kmeans V) (v_quantile V) (v_threshold V) (v_next V) (v_outlier V) D
      [] [ODelete ids] fr pe i ds [out] i' HK G) as (E & fr' & pe' & G' & Hf).
    - repeat constructor; auto.
    - cbn. auto.
    - exact H.
    - cbn in E. injection E as ->. split; [reflexivity|exists fr', pe'; exact G'].
  Qed.
  Lemma ih_create docs g outs i : dim_ok D docs -> run V docs g [] = Ok (outs, i) -> ih true i docs.
  Proof using HD HK.
    intros Dm H.
    destruct (history_good (v_fsub V) (v_dot V) (v_mem V) (v_kmeans V) (v_quantile V) (v_threshold V) (v_next V) (v_outlier V) D
      [OUpdate [] g] docs g [] outs i HD HK Dm) as (E & fr' & pe' & G' & Hf); auto.
    - cbn. auto.
    - cbn in Hf. destruct Hf as (-> & _). exists pe'. exact G'.
  Qed.
  Lemma ih_count i ds : some_ih i ds -> index_count i = Ok (length ds).
  Proof using.
    intros (fr & pe & nb & cents & cut & wei & css & E & B & HI & _). unfold index_count.
    rewrite (load_metadata_core _ _ _ _ _ _ _ _ _ _ (in_core _ _ _ _ _ _ _ _ _ _ _ _ HI)). reflexivity.
  Qed.
  Lemma ih_handle i ds : ih true i ds -> num_documents (snd i) = length ds.
  Proof using. intros (pe & nb & cents & cut & wei & css & E & B & HI & Hf & _). rewrite (Hf eq_refl). reflexivity. Qed.
  Lemma core_tokens d nb cents cut wei L css : core (v_fsub V) (v_dot V) D d nb cents cut wei L css -> concat L = [] -> concat (concat css) = [].
  Proof using.
    intros HC. pose proof (co_enc _ _ _ _ _ _ _ _ _ _ HC) as F. revert F. generalize (concat css) as sds. intros sds F. clear HC.
    induction F as [|dc sd L l (k & Hk & Hd) F IH]; auto. cbn. intro Hc. apply app_eq_nil in Hc. destruct Hc as (-> & Hc). inversion Hd; subst. cbn. auto.
  Qed.
  Lemma ih_open i ds : some_ih i ds ->
    (forall x, load (fst i) = Ok x -> env_shows V x ds) /\ ((exists x, load (fst i) = Ok x) <-> concat ds <> []).
  Proof using.
    intros (fr & pe & nb & cents & cut & wei & css & E & B & HI & _). pose proof (in_core _ _ _ _ _ _ _ _ _ _ _ _ HI) as HC. split.
    - intros x Hx. exact (core_shows _ _ _ _ _ _ _ _ _ _ _ _ _ HC (load_inv_loaded _ _ _ _ _ _ _ _ _ _ _ HC Hx)).
    - split.
      + intros (x & Hx) Hc. apply (core_tokens _ _ _ _ _ _ _ HC) in Hc. unfold load in Hx.
        rewrite (load_metadata_core _ _ _ _ _ _ _ _ _ _ HC), (load_codec_core _ _ _ _ _ _ _ _ _ _ HC) in Hx.
        cbn [bind] in Hx. rewrite (co_ivf _ _ _ _ _ _ _ _ _ _ HC), (co_ivl _ _ _ _ _ _ _ _ _ _ HC) in Hx. cbn [need bind] in Hx.
        apply bind_Ok in Hx. destruct Hx as (dls & _ & Hx). cbv zeta in Hx.
        apply bind_Ok in Hx. destruct Hx as (codes & Hx & _). unfold merge_chunks in Hx.
        change (num_chunks (meta_of D nb cents ds css)) with (length css) in Hx.
        rewrite (map_seq_nth _ (fun cs : list (list (nat * list N)) => map fst (concat cs))) in Hx.
        2:{ intros j cs Hj. destruct (co_chunks _ _ _ _ _ _ _ _ _ _ HC j cs Hj) as (_ & -> & _). reflexivity. }
        rewrite concat_map_concat, Hc in Hx. discriminate.
      + intro Hne. destruct (load_total _ _ _ _ _ _ _ _ _ _ HC Hne) as (x & Hx & _). eauto.
  Qed.
  Lemma reload_tokens i ds out i' : some_ih i ds -> step V i OReload = Ok (out, i') -> concat ds <> [].
  Proof using.
    intros G H. apply (proj2 (ih_open i ds G)). unfold step in H. destruct i as (d, h). cbn [exec] in H.
    apply bind_Ok in H. destruct H as (x & Hx & _). eauto.
  Qed.
End INDEX.

(** ** Repair *)
Section REPAIR.
  Variable V : env.
  Variable D : nat.
  Hypothesis HK : good_kmeans D (v_kmeans V).
  (** [P m R]: the database [m] holds the rows [R], numbered from 0 *)
  Variable Row : Type.
  Variable P : store -> list Row -> Prop.
  Hypothesis Pcount : forall m R k, P m R -> count m = Ok k -> k = length R.
  Hypothesis Pdelete : forall m R ids m' r, P m R -> MetaModel.delete m ids = (m', r) -> P m' (delete_positions ids R).
  Lemma repair_general s i b s' ds R : sv_index s = Some i -> some_ih V D i ds -> db_exists (sv_store s) = true -> P (sv_store s) R ->
    repair V s = Ok (b, s') ->
    exists i', sv_index s' = Some i' /\ some_ih V D i' (firstn (Nat.min (length ds) (length R)) ds)
      /\ P (sv_store s') (firstn (Nat.min (length ds) (length R)) R) /\ db_exists (sv_store s') = true
      /\ b = negb (length ds =? length R).
  Proof using HK Pcount Pdelete.
    intros Hi G Hdb HP H. unfold repair in H. rewrite Hi, Hdb in H. cbn [negb] in H. rewrite (ih_count V D i ds G) in H. cbn [bind] in H.
    apply bind_Ok in H. destruct H as (k & Ck & H). pose proof (Pcount _ _ _ HP Ck) as ->.
    destruct (Nat.eqb_spec (length ds) (length R)) as [E|Ne].
    - injection H as <- <-. exists i. rewrite <- E, Nat.min_id, firstn_all. split; auto. split; auto. rewrite E, firstn_all. auto.
    - apply bind_Ok in H. destruct H as ((i1, m1) & H & H'). cbn [fst snd] in H'.
      apply bind_Ok in H'. destruct H' as (n' & _ & H'). apply bind_Ok in H'. destruct H' as (k' & _ & H').
      destruct (n' =? k'); [|discriminate]. injection H' as <- <-. exists i1. cbn [sv_index sv_store negb]. split; auto.
      destruct (Nat.ltb_spec (length ds) (length R)) as [Lt|Ge].
      + destruct (MetaModel.delete (sv_store s) (id_range (length ds) (length R))) as (m', r) eqn:Dl.
        apply bind_Ok in H. destruct H as (n & -> & H). injection H as <- <-. rewrite Nat.min_l by lia. rewrite firstn_all. split; auto.
        split; [|split; auto].
        * rewrite <- (delete_tail (length ds) (length R) R) by lia. eapply Pdelete; eauto.
        * unfold MetaModel.delete in Dl. destruct (id_range _ _); [injection Dl as <- _; auto|]. destruct (sv_store s); try discriminate.
          destruct (delete_v2 d (z :: l)). injection Dl as <- _. reflexivity.
      + apply bind_Ok in H. destruct H as ((o1, i2) & H1 & H). apply bind_Ok in H. destruct H as ((o2, i3) & H2 & H). injection H as <- <-. cbn [snd] in H2.
        destruct (ih_reload V D HK _ _ _ _ G H1) as (G1 & _).
        destruct (ih_delete V D HK _ _ _ _ _ (ex_intro _ true G1) (id_range_pos _ _) H2) as (_ & G2).
        rewrite delete_tail in G2 by lia. rewrite Nat.min_r by lia. rewrite firstn_all. auto.
  Qed.
End REPAIR.

(** ** The database alone *)
Section ROWS.
  Variable E : engine.
  Hypothesis G : good_engine E.
  Definition holds_rows (m : store) (R : list json) : Prop := Forall item_ok R /\ items E m (map Some R).
  Lemma some_ok R : Forall item_ok R -> forall v, In (Some v) (map Some R) -> item_ok v.
  Proof. intros F v Hv. apply in_map_iff in Hv. destruct Hv as (w & Ew & Hw). injection Ew as ->. rewrite Forall_forall in F. auto. Qed.
  Lemma holds_described m R (L : list (doc * json)) X : map snd L = R -> holds_rows m R ->
    described E m (map (fun p => (fst p, Some (snd p))) L ++ bare X).
  Proof using G.
    intros <- (F & It) i. set (C := map (fun p => (fst p, Some (snd p))) L ++ bare X).
    assert (EC : map snd C = map Some (map snd L) ++ repeat None (length X)).
    { unfold C. rewrite map_app, map_snd_bare, !map_map. reflexivity. }
    assert (It' : items E m (map snd C)) by (rewrite EC; apply items_none; auto).
    assert (Ok' : forall v, In (Some v) (map snd C) -> item_ok v).
    { rewrite EC. intros v Hv. apply in_app_iff in Hv. destruct Hv as [Hv|Hv]; [eapply some_ok; eauto|apply repeat_spec in Hv; discriminate]. }
    pose proof (items_reflect E _ _ G Ok' It' i) as Y. unfold at_pos in Y. destruct (i <? 0)%Z; auto.
    rewrite nth_error_map in Y. destruct (nth_error C (Z.to_nat i)) as [(dc, o)|]; auto.
  Qed.
  Lemma holds_count m R k : holds_rows m R -> count m = Ok k -> k = length R.
  Proof using G.
    intros H C. pose proof (holds_described m R (map (fun v => ([], v)) R) []) as Ds. rewrite map_map, map_id in Ds. specialize (Ds eq_refl H).
    assert (NB : m <> Broken) by (intros ->; discriminate). rewrite (described_count E m _ G (items_wf _ _ _ (proj2 H)) NB Ds) in C. injection C as <-.
    cbn [bare map]. rewrite app_nil_r, map_map. cbn [fst snd]. clear. induction R as [|v R IH]; auto. cbn. auto.
  Qed.
  Lemma holds_delete m R ids m' r : holds_rows m R -> MetaModel.delete m ids = (m', r) -> holds_rows m' (delete_positions ids R).
  Proof using.
    intros (F & It) H. split; [|rewrite delete_positions_map; eapply items_delete; eauto].
    apply Forall_forall. intros v Hv. unfold delete_positions in Hv. apply in_map_iff in Hv. destruct Hv as ((z, v') & <- & Hv). apply filter_In in Hv. destruct Hv as (Hv & _).
    apply in_combine_r in Hv. rewrite Forall_forall in F. auto.
  Qed.
  Lemma holds_nodb m R : db_exists m = false \/ m = Broken -> holds_rows m R -> R = [].
  Proof using.
    intros H (_ & It). assert (A : forall i, at_pos (map Some R) i = None) by (destruct m; destruct H as [H|H]; try discriminate; exact It).
    destruct R as [|v R]; auto. specialize (A 0%Z). discriminate.
  Qed.
  Lemma delete_result m ids m' r : m <> Broken -> MetaModel.delete m ids = (m', r) -> (exists n, r = Ok n) /\ db_exists m' = db_exists m /\ m' <> Broken.
  Proof using.
    intros NB H. unfold MetaModel.delete in H. destruct ids; [injection H as <- <-; eauto|]. destruct m; [injection H as <- <-; split; [eauto|auto]|congruence|].
    destruct (delete_v2 d (z :: ids)). injection H as <- <-. split; [eauto|]. split; [reflexivity|discriminate].
  Qed.
  Lemma holds_update m R md m' n : holds_rows m R -> Forall item_ok md -> MetaModel.update E m md (positions (length R) (length md)) = (m', Ok n) ->
    holds_rows m' (R ++ md).
  Proof using G.
    intros (F & It) Fm H. split; [apply Forall_app; auto|]. rewrite map_app. apply items_update with (n := n) (s := m); auto.
    rewrite map_length, <- positions_zseq. exact H.
  Qed.
End ROWS.

(** ** The writers *)
Section WRITERS.
  Variable V : env.
  Variable U : unicode.
  Variable E : engine.
  Variable reg : option (text -> bool).
  Variable D : nat.
  Hypothesis HD : 1 <= D.
  Hypothesis HK : good_kmeans D (v_kmeans V).
  Hypothesis G : good_engine E.
  Hypothesis HU : good_unicode U.
  Notation some_ih := (some_ih V D).
  Notation ih := (ih V D).

  Definition pair_ok (fresh : bool) (s : synced) (L : list (doc * json)) : Prop :=
    (if fresh then ih true (fst s) (map fst L) else some_ih (fst s) (map fst L)) /\ holds_rows E (snd s) (map snd L).
  Lemma pair_weak fr s L : pair_ok fr s L -> pair_ok false s L.
  Proof using HD HK G HU. intros (A & B). split; auto. destruct fr; auto. exists true. auto. Qed.
  Lemma sdelete_ok s L ids r s' : pair_ok false s L -> Forall (fun z => 0 <= z)%Z ids -> sexec V E s (SDelete ids) = Ok (r, s') ->
    pair_ok false s' (delete_positions ids L)
    /\ (L <> [] -> r = Ok [Z.of_nat (length L - length (delete_positions ids L))]).
  Proof using HD HK G HU.
    intros (Gi & Gm) P H. destruct s as (i, m). cbn [fst snd] in *. cbn [sexec] in H. apply bind_Ok in H. destruct H as ((out, i') & H1 & H2).
    destruct (ih_delete V D HK _ _ _ _ _ Gi P H1) as (-> & Gi'). rewrite map_length, <- delete_positions_map, map_length in H2.
    destruct (delete_metadata_rows m (hd 0%Z [Z.of_nat (length L - length (delete_positions ids L))]) ids) as (m', mr) eqn:A. injection H2 as <- <-.
    cbn [hd] in A. unfold delete_metadata_rows in A. destruct (0 <? Z.of_nat (length L - length (delete_positions ids L)))%Z eqn:Z0; cbn [andb] in A.
    - assert (NE : L <> []) by (intros ->; cbn in Z0; discriminate).
      assert (X : db_exists m = true /\ m <> Broken).
      { split; [destruct (db_exists m) eqn:Q; auto|intros ->]; exfalso; apply NE.
        - apply (map_eq_nil snd). eapply holds_nodb; [|exact Gm]. auto.
        - apply (map_eq_nil snd). eapply holds_nodb; [|exact Gm]. auto. }
      destruct X as (X1 & X2). rewrite X1 in A. destruct (delete_result _ _ _ _ X2 A) as ((n & ->) & _ & _). split; [|intros _; reflexivity].
      split; cbn [fst snd]; [rewrite delete_positions_map; auto|]. rewrite delete_positions_map. eapply holds_delete; eauto.
    - injection A as <- <-. apply Z.ltb_ge in Z0. pose proof (delete_positions_le ids L).
      assert (Q : delete_positions ids L = L) by (apply delete_positions_same; lia). rewrite Q in *. split; [|intros _; reflexivity].
      rewrite <- delete_positions_map, Q in Gi'. split; auto.
  Qed.
  Lemma evict_ok s L k r : pair_ok true s L -> evict V E s k = Ok r -> exists s', r = (Ok (length L - length (last_n k L)), s') /\ pair_ok true s' (last_n k L).
  Proof using HD HK G HU.
    intros Gs H. unfold evict in H. rewrite (ih_handle V D _ _ (proj1 Gs)), map_length in H.
    destruct (Nat.leb_spec (length L) k) as [Le|Gt].
    - injection H as <-. unfold last_n. replace (length L - k) with 0 by lia. cbn [skipn]. rewrite Nat.sub_diag. eauto.
    - apply bind_Ok in H. destruct H as ((r1, s1) & H1 & H). cbn [fst snd] in H.
      destruct (sdelete_ok _ _ _ _ _ (pair_weak _ _ _ Gs) (id_range_pos _ _) H1) as (Gs1 & Hr). rewrite delete_head in *. fold (last_n k L) in *.
      rewrite Hr in H by (intros ->; cbn in Gt; lia). apply bind_Ok in H. destruct H as ((o2, i2) & H2 & H). injection H as <-. cbn [snd hd]. rewrite Nat2Z.id.
      eexists. split; [reflexivity|]. split; [|exact (proj2 Gs1)]. cbn [fst]. exact (proj1 (ih_reload V D HK _ _ _ _ (proj1 Gs1) H2)).
  Qed.
  Lemma evict_if_ok s L lim r : pair_ok true s L -> evict_if V E s lim = Ok r ->
    fst r = length L - length (within lim L) /\ pair_ok true (snd r) (within lim L).
  Proof using HD HK G HU.
    intros Gs H. destruct lim as [k|]; cbn [evict_if within] in *.
    - apply bind_Ok in H. destruct H as (r1 & H1 & H). destruct (evict_ok _ _ _ _ Gs H1) as (s' & -> & G'). injection H as <-. auto.
    - injection H as <-. cbn. rewrite Nat.sub_diag. auto.
  Qed.

  Definition holds (s : server) (c : contents) : Prop :=
    holds_rows E (sv_store s) (map snd (fst c))
    /\ (db_exists (sv_store s) = false -> c = ([], []))
    /\ match sv_index s with
       | None => c = ([], []) /\ sv_store s = NoDb
       | Some i => some_ih i (map fst (fst c) ++ snd c)
       end.
  Lemma holds_contents s c : holds s c -> has_contents V E s c.
  Proof using HD HK G HU.
    intros (H1 & H2 & H3). split; [eapply holds_described; eauto|]. destruct (sv_index s) as [i|]; [|tauto]. apply ih_open with (D := D). auto.
  Qed.
  Lemma repair_ok s c b s' : holds s c -> repair V s = Ok (b, s') -> holds s' (fst c, []).
  Proof using HD HK G HU.
    intros (H1 & H2 & H3) H. destruct c as (L, X). cbn [fst snd] in *. destruct (sv_index s) as [i|] eqn:Hi.
    2: { unfold repair in H. rewrite Hi in H. injection H as <- <-. destruct H3 as (Ec & Es). injection Ec as -> ->. split; auto. split; auto. rewrite Hi. auto. }
    destruct (db_exists (sv_store s)) eqn:Hdb.
    - destruct (repair_general V D HK json (holds_rows E) (holds_count E G) (holds_delete E) s i b s' _ _ Hi H3 Hdb H1 H) as (i' & E1 & E2 & E3 & E4 & _).
      rewrite app_length, !map_length in *. rewrite Nat.min_r in * by lia. split; cbn [fst snd].
      + rewrite firstn_all2 in E3 by (rewrite map_length; lia). auto.
      + split; [congruence|]. rewrite E1, app_nil_r. rewrite firstn_app, map_length, Nat.sub_diag in E2. cbn [firstn] in E2. rewrite app_nil_r, firstn_all2 in E2 by (rewrite map_length; lia). auto.
    - unfold repair in H. rewrite Hi, Hdb in H. injection H as <- <-. specialize (H2 eq_refl). injection H2 as -> ->. split; auto. split; auto. rewrite Hi. auto.
  Qed.
  Lemma finish fr i m L : (if fr : bool then ih true i (map fst L) else some_ih i (map fst L)) -> holds_rows E m (map snd L) -> (db_exists m = false -> L = []) ->
    holds {| sv_index := Some i; sv_store := m |} (L, []).
  Proof using HD HK G HU.
    intros A B C. split; auto. cbn [sv_store sv_index fst snd]. split; [intro X; rewrite (C X); auto|]. rewrite app_nil_r. destruct fr; auto. exists true. auto.
  Qed.
  Lemma rows_nodb m L : holds_rows E m (map snd L) -> db_exists m = false -> L = [] :> list (doc * json).
  Proof using HD HK G HU. intros H X. apply (map_eq_nil snd). eapply holds_nodb; [left; exact X|exact H]. Qed.
  Lemma map_fst_combine (docs : list doc) (md : list json) : length md = length docs -> map fst (combine docs md) = docs.
  Proof using HD HK G HU. revert md. induction docs as [|x docs IH]; intros [|y md] H; try discriminate; auto. cbn in *. f_equal. apply IH. lia. Qed.
  Lemma map_snd_combine (docs : list doc) (md : list json) : length md = length docs -> map snd (combine docs md) = md.
  Proof using HD HK G HU. revert md. induction docs as [|x docs IH]; intros [|y md] H; try discriminate; auto. cbn in *. f_equal. apply IH. lia. Qed.
  (** Eviction and reload after a successful write *)
  Lemma evict_reload i m L lim r : pair_ok true (i, m) L ->
    bind (evict_if V E (i, m) lim) (fun r => bind (step V (fst (snd r)) OReload) (fun r' =>
      Ok (@Ok nat (fst r), {| sv_index := Some (snd r'); sv_store := snd (snd r) |}))) = Ok r ->
    fst r = Ok (length L - length (within lim L)) /\ holds (snd r) (within lim L, []).
  Proof using HD HK G HU.
    intros Gs H. apply bind_Ok in H. destruct H as ((n & s1) & H1 & H). apply bind_Ok in H. destruct H as ((o2, i2) & H2 & H). injection H as <-. cbn [fst snd] in *.
    destruct (evict_if_ok _ _ _ _ Gs H1) as (En & G1). cbn [fst snd] in *. subst n. split; auto.
    apply finish with (fr := true); [exact (proj1 (ih_reload V D HK _ _ _ _ (proj1 (pair_weak _ _ _ G1)) H2))|exact (proj2 G1)|].
    apply rows_nodb. exact (proj2 G1).
  Qed.
  Lemma process_batch_ok s c docs md g lim r s' : holds s c -> api_ok U D (AUpdate docs md g lim) -> process_batch V E s docs md g lim = Ok (r, s') ->
    exists c', api_call U E reg c (AUpdate docs md g lim) r c' /\ holds s' c'.
  Proof using HD HK G HU.
    intros Hs (Ne & Dm & Lm & Im) H. destruct c as (L, X). unfold process_batch in H. apply bind_Ok in H. destruct H as ((b, s1) & H1 & H). cbn [snd] in H.
    pose proof (repair_ok _ _ _ _ Hs H1) as Hs1. cbn [fst] in Hs1. clear Hs H1 s b. destruct Hs1 as (R1 & R2 & R3). cbn [fst snd] in *.
    apply bind_Ok in H. destruct H as ((ids, i) & H2 & H).
    assert (Q : ids = positions (length L) (length docs) /\ ih true i (map fst L ++ docs)).
    { unfold update_or_create in H2. destruct (sv_index s1) as [i1|] eqn:Hi.
      - apply bind_Ok in H2. destruct H2 as ((o1, i2) & H3 & H2). cbn [snd] in H2. rewrite app_nil_r in R3.
        destruct (ih_reload V D HK _ _ _ _ R3 H3) as (G2 & _). destruct (ih_update V D HK _ _ _ _ _ _ G2 Ne Dm H2) as (-> & G3). rewrite map_length. auto.
      - apply bind_Ok in H2. destruct H2 as ((o1, i2) & H3 & H2). injection H2 as <- <-. destruct R3 as (Ec & _). injection Ec as ->. cbn [map app length snd].
        split; [reflexivity|]. exact (ih_create V D HD HK _ _ _ _ Dm H3). }
    destruct Q as (-> & Gi).
    destruct (add_or_create_rows E (sv_store s1) (Some md) (positions (length L) (length docs))) as (m, mr) eqn:A.
    assert (Gm : match mr with Ok _ => holds_rows E m (map snd L ++ md) | _ => holds_rows E m (map snd L) /\ (db_exists m = false -> L = []) end).
    { unfold add_or_create_rows in A. destruct (db_exists (sv_store s1)) eqn:Hdb.
      - destruct mr.
        + eapply holds_update; eauto. rewrite map_length, Lm. exact A.
        + apply update_err in A; [subst m; split; [exact R1|congruence]|discriminate].
        + apply update_err in A; [subst m; split; [exact R1|congruence]|discriminate].
      - specialize (R2 eq_refl). injection R2 as ->. cbn [map length app] in *. rewrite positions_zseq in A. destruct (sv_store s1); try discriminate.
        assert (LM : length md = length (zseq (Z.of_nat 0) (length docs))) by (rewrite zseq_length; auto).
        destruct mr as [n| |].
        + split; auto. apply (items_create E NoDb md 0 m n Logic.I). rewrite Lm. exact A.
        + split; auto. split; [constructor|]. apply (items_create_err E NoDb md _ m Err 0 A LM). discriminate.
        + split; auto. split; [constructor|]. apply (items_create_err E NoDb md _ m Panic 0 A LM). discriminate. }
    destruct mr as [n| |]; [| |discriminate].
    - pose (L2 := L ++ combine docs md).
      assert (Gp : pair_ok true (i, m) L2).
      { split; cbn [fst snd]; unfold L2; rewrite map_app; [rewrite map_fst_combine by auto; auto|rewrite map_snd_combine by auto; auto]. }
      destruct (evict_reload _ _ _ _ _ Gp H) as (Er & Hh). cbn [fst snd] in *. subst r. exists (within lim L2, []). split; [constructor|auto].
    - apply bind_Ok in H. destruct H as ((o2, i2) & H3 & H). injection H as <- <-. exists (L, []). split; [constructor|]. cbn [snd].
      assert (Pos : Forall (fun z => 0 <= z)%Z (positions (length L) (length docs))) by apply new_ids_pos.
      destruct (ih_delete V D HK _ _ _ _ _ (ex_intro _ true Gi) Pos H3) as (_ & G2).
      apply finish with (fr := false); try tauto.
      replace (positions (length L) (length docs)) with (id_range (length L) (length L + length docs)) in G2 by (unfold id_range, positions; do 2 f_equal; lia).
      rewrite delete_tail in G2 by (rewrite app_length, map_length; lia). rewrite firstn_app, map_length, Nat.sub_diag, firstn_all2 in G2 by (rewrite map_length; lia).
      cbn [firstn] in G2. rewrite app_nil_r in G2. exact G2.
  Qed.
  Lemma add_task_ok s c docs md g lim r s' : holds s c -> api_ok U D (AAdd docs md g lim) -> add_task V E s docs md g lim = Ok (r, s') ->
    exists c', api_call U E reg c (AAdd docs md g lim) r c' /\ holds s' c'.
  Proof using HD HK G HU.
    intros Hs (Ne & Dm & Lm & Im) H. pose proof Hs as (R1 & R2 & R3). destruct c as (L, X). unfold add_task in H. cbn [fst snd] in *.
    destruct (sv_index s) as [i|] eqn:Hi; [|discriminate]. apply bind_Ok in H. destruct H as (same & H1 & H).
    assert (Q : same = true -> X = []).
    { intros ->. destruct (db_exists (sv_store s)) eqn:Hdb; [|specialize (R2 eq_refl); congruence].
      rewrite (ih_count V D _ _ R3) in H1. cbn [bind] in H1. apply bind_Ok in H1. destruct H1 as (k & Ck & H1). rewrite (holds_count E G _ _ _ R1 Ck) in H1.
      injection H1 as H1. apply Nat.eqb_eq in H1. rewrite app_length, !map_length in H1. destruct X; auto. cbn in H1. lia. }
    destruct same; cbn [negb] in H.
    2: { injection H as <- <-. exists (L, X). split; auto. apply add_out_of_sync. intros ->. rewrite app_nil_r in R3.
      destruct (db_exists (sv_store s)) eqn:Hdb; [|discriminate].
      rewrite (ih_count V D _ _ R3) in H1. cbn [bind] in H1. apply bind_Ok in H1. destruct H1 as (k & Ck & H1). rewrite (holds_count E G _ _ _ R1 Ck) in H1.
      injection H1 as H1. apply Nat.eqb_neq in H1. rewrite !map_length in H1. lia. }
    specialize (Q eq_refl). subst X. rewrite app_nil_r in R3. clear H1.
    apply bind_Ok in H. destruct H as ((o1, i1) & H1 & H). cbn [snd] in H. destruct (ih_reload V D HK _ _ _ _ R3 H1) as (G1 & _).
    pose proof (reload_tokens V D _ _ _ _ R3 H1) as Tk.
    apply bind_Ok in H. destruct H as ((r2, (i2, m2)) & H2 & H). cbn [fst snd] in H. cbn [sexec] in H2.
    assert (B : bad_length docs (Some md) = false) by (cbn; rewrite Lm, Nat.eqb_refl; auto). rewrite B in H2.
    apply bind_Ok in H2. destruct H2 as ((ids, i3) & H3 & H2). destruct (ih_update V D HK _ _ _ _ _ _ G1 Ne Dm H3) as (-> & G3). rewrite map_length in H2.
    destruct (add_rows E (sv_store s) (Some md) (positions (length L) (length docs))) as (m', mr) eqn:A. injection H2 as <- <- <-. cbn [add_rows] in A.
    assert (Hdb : db_exists (sv_store s) = true).
    { destruct (db_exists (sv_store s)) eqn:X; auto. specialize (R2 eq_refl). injection R2 as ->. cbn in Tk. congruence. }
    destruct mr as [n| |]; cbn [after_metadata] in H; [| |discriminate].
    - pose (L2 := L ++ combine docs md).
      assert (Gp : pair_ok true (i3, m') L2).
      { split; cbn [fst snd]; unfold L2; rewrite map_app; [rewrite map_fst_combine by auto; auto|rewrite map_snd_combine by auto].
        eapply holds_update; eauto. rewrite map_length, Lm. exact A. }
      destruct (evict_reload _ _ _ _ _ Gp H) as (Er & Hh). cbn [fst snd] in *. subst r. exists (within lim L2, []). split; [constructor|auto].
    - injection H as <- <-. exists (L, docs). split; [constructor|]. apply update_err in A; [|discriminate]. subst m'.
      split; auto. cbn [sv_store sv_index fst snd]. split; [congruence|]. exists true. exact G3.
  Qed.
  Lemma row_nonneg m (L : list (doc * json)) i : holds_rows E m (map snd L) -> has_row m i -> (0 <= i)%Z /\ exists d, m = Db d.
  Proof using HD HK G HU.
    intros (_ & It) Hr. destruct m as [| |d]; [contradiction Hr; reflexivity..|]. split; [|eauto].
    destruct It as (W & It). apply (has_row_iff d i W) in Hr. specialize (It i).
    destruct (lookup (rows d) i) eqn:Lk; [|apply lookup_none in Lk; contradiction].
    destruct (at_pos (map Some (map snd L)) i) eqn:A; [|contradiction]. unfold at_pos in A. destruct (Z.ltb_spec i 0); [discriminate|lia].
  Qed.
  Lemma selects_row m c ps i : selects U E m c ps i -> has_row m i.
  Proof using HD HK G HU. intros [? ? H|? ? (H & _)]; auto. Qed.
  Lemma delete_one_ok s L c r : pair_ok false s L -> ascii_text (fst c) -> without_regexp U (fst c) -> delete_one V U E reg s c = Ok r ->
    exists L', removes U E reg L c L' /\ fst r = length L - length L' /\ length L' <= length L /\ pair_ok false (snd r) L'.
  Proof using HD HK G HU.
    intros Gs A N H. unfold delete_one in H.
    assert (Ds : described_by E (snd s) L).
    { pose proof (holds_described E G (snd s) _ L [] eq_refl (proj2 Gs)) as X. cbn [bare map] in X. rewrite app_nil_r in X. exact X. }
    destruct (where_condition U E reg (snd s) (fst c) (snd c)) as [ids| |] eqn:W; [| |discriminate].
    2: { injection H as <-. exists L. cbn [fst snd]. split; [eapply rm_refused; eauto|]. split; [lia|]. split; auto. }
    destruct (where_condition_ok U E reg (snd s) (fst c) (snd c) ids HU G (items_wf _ _ _ (proj2 (proj2 Gs))) A N W) as (ND & Sel).
    exists (delete_positions ids L). split; [eapply rm_selected; eauto|]. pose proof (delete_positions_le ids L) as Le.
    assert (P : Forall (fun z => 0 <= z)%Z ids).
    { apply Forall_forall. intros i Hi. apply Sel, selects_row in Hi. eapply row_nonneg; eauto. exact (proj2 Gs). }
    destruct ids as [|i0 ids0].
    - injection H as <-. cbn [fst snd]. assert (Q : delete_positions [] L = L). { rewrite delete_positions_keep. apply keep_from_none. intros k Hk. reflexivity. }
      rewrite Q. split; [lia|]. split; auto.
    - apply bind_Ok in H. destruct H as ((r1, s1) & H1 & H). cbn [fst snd] in H. destruct (sdelete_ok _ _ _ _ _ Gs P H1) as (G1 & Hr).
      rewrite Hr in H.
      + injection H as <-. cbn [fst snd hd]. rewrite Nat2Z.id. auto.
      + intros ->. assert (X : In i0 (i0 :: ids0)) by (left; auto). apply Sel, selects_row in X. destruct s as (i, m). cbn [snd] in *. destruct m as [| |d]; [contradiction X; reflexivity..|].
        destruct (proj2 Gs) as (_ & Wf & It). cbn [snd] in It. apply (has_row_iff d i0 Wf) in X. specialize (It i0).
        destruct (lookup (rows d) i0) eqn:Lk; [|apply lookup_none in Lk; contradiction]. unfold at_pos in It. destruct (i0 <? 0)%Z; [contradiction|].
        cbn [map] in It. destruct (Z.to_nat i0); contradiction.
  Qed.
  Lemma delete_each_ok cs : forall s L r, pair_ok false s L -> Forall (fun c => ascii_text (fst c) /\ without_regexp U (fst c)) cs ->
    delete_each V U E reg s cs = Ok r ->
    exists L', removes_all U E reg L cs L' /\ fst r = length L - length L' /\ length L' <= length L /\ pair_ok false (snd r) L'.
  Proof using HD HK G HU.
    induction cs as [|c cs IH]; intros s L r Gs F H; cbn [delete_each] in H.
    - injection H as <-. exists L. cbn [fst snd]. split; [constructor|]. split; [lia|]. auto.
    - inversion F as [|? ? (A & N) F']; subst. apply bind_Ok in H. destruct H as (r1 & H1 & H). apply bind_Ok in H. destruct H as (r2 & H2 & H). injection H as <-.
      destruct (delete_one_ok _ _ _ _ Gs A N H1) as (L1 & R1 & E1 & Le1 & G1). destruct (IH _ _ _ G1 F' H2) as (L2 & R2 & E2 & Le2 & G2).
      exists L2. cbn [fst snd]. split; [econstructor; eauto|]. split; [lia|]. split; [lia|auto].
  Qed.
  Lemma process_delete_ok s c cs r : holds s c -> api_ok U D (ADelete cs) -> process_delete_batch V U E reg s cs = Ok r ->
    exists c', api_call U E reg c (ADelete cs) (Ok (fst r)) c' /\ holds (snd r) c'.
  Proof using HD HK G HU.
    intros Hs Ok0 H. destruct c as (L, X). unfold process_delete_batch in H. apply bind_Ok in H. destruct H as ((b, s1) & H1 & H). cbn [snd] in H.
    pose proof (repair_ok _ _ _ _ Hs H1) as Hs1. cbn [fst] in Hs1. clear Hs H1 s b. destruct Hs1 as (R1 & R2 & R3). cbn [fst snd] in *.
    destruct (sv_index s1) as [i|]; [|discriminate]. rewrite app_nil_r in R3.
    apply bind_Ok in H. destruct H as ((o1, i1) & H1 & H). cbn [snd] in H. destruct (ih_reload V D HK _ _ _ _ R3 H1) as (G1 & _).
    apply bind_Ok in H. destruct H as (r2 & H2 & H). apply bind_Ok in H. destruct H as ((o3, i3) & H3 & H). injection H as <-. cbn [snd fst].
    assert (Gp : pair_ok false (i1, sv_store s1) L) by (split; [exists true; exact G1|exact R1]).
    destruct (delete_each_ok cs _ _ _ Gp Ok0 H2) as (L' & Rm & En & Le & G2). exists (L', []). rewrite En. split; [constructor; auto|].
    apply finish with (fr := true); [exact (proj1 (ih_reload V D HK _ _ _ _ (proj1 G2) H3))|exact (proj2 G2)|]. apply rows_nodb. exact (proj2 G2).
  Qed.
  Lemma api_step_ok s c o r s' : holds s c -> api_ok U D o -> api_step V U E reg s o = Ok (r, s') ->
    exists c', api_call U E reg c o r c' /\ holds s' c'.
  Proof using HD HK G HU.
    intros Hs Ho H. destruct o as [docs md g lim|docs md g lim|cs]; cbn [api_step] in H.
    - eapply process_batch_ok; eauto.
    - eapply add_task_ok; eauto.
    - apply bind_Ok in H. destruct H as (r1 & H1 & H). injection H as <- <-. eapply process_delete_ok; eauto.
  Qed.
  Lemma api_run_ok os : forall s c outs s', holds s c -> Forall (api_ok U D) os -> api_run V U E reg s os = Ok (outs, s') ->
    exists c', api_history U E reg c os outs c' /\ holds s' c'.
  Proof using HD HK G HU.
    induction os as [|o os IH]; intros s c outs s' Hs F H; cbn [api_run] in H.
    - injection H as <- <-. exists c. split; [constructor|auto].
    - inversion F as [|? ? F1 F2]; subst. apply bind_Ok in H. destruct H as ((r1, s1) & H1 & H). apply bind_Ok in H. destruct H as ((rs, s2) & H2 & H). injection H as <- <-. cbn [fst snd] in *.
      destruct (api_step_ok _ _ _ _ _ Hs F1 H1) as (c1 & C1 & Hs1). destruct (IH _ _ _ _ Hs1 F2 H2) as (c2 & C2 & Hs2).
      exists c2. split; [econstructor; eauto|auto].
  Qed.
  Lemma no_index_holds : holds no_index ([], []).
  Proof using HD HK G HU.
    split; [split; [constructor|]|]; cbn; auto. intro i. unfold at_pos. destruct (i <? 0)%Z; auto. destruct (Z.to_nat i); auto.
  Qed.
  (** An index without tokens accepts nothing any more. *)
  Lemma repair_stuck s c i b s' : holds s c -> sv_index s = Some i -> concat (map fst (fst c) ++ snd c) = [] -> repair V s = Ok (b, s') ->
    exists i', sv_index s' = Some i' /\ some_ih i' (map fst (fst c)).
  Proof using HD HK G HU.
    intros Hs Hi Hc H. pose proof (repair_ok _ _ _ _ Hs H) as (_ & _ & R3). cbn [fst snd] in R3. rewrite app_nil_r in R3.
    destruct (sv_index s') as [i'|] eqn:Hi'; [eauto|]. exfalso. clear - H Hi Hi'. unfold repair in H. rewrite Hi in H.
    destruct (negb _); [injection H as <- <-; congruence|]. apply bind_Ok in H. destruct H as (n & _ & H). apply bind_Ok in H. destruct H as (k & _ & H).
    destruct (n =? k); [injection H as <- <-; congruence|]. apply bind_Ok in H. destruct H as (q & _ & H). apply bind_Ok in H. destruct H as (n' & _ & H). apply bind_Ok in H. destruct H as (k' & _ & H).
    destruct (n' =? k'); [injection H as <- <-; discriminate|discriminate].
  Qed.
  Lemma stuck s c i o r s' : holds s c -> sv_index s = Some i -> concat (map fst (fst c) ++ snd c) = [] -> api_step V U E reg s o = Ok (r, s') ->
    exists docs md g lim, o = AAdd docs md g lim /\ r = Err /\ s' = s.
  Proof using HD HK G HU.
    intros Hs Hi Hc H.
    assert (NL : forall i out i', some_ih i (map fst (fst c)) -> step V i OReload = Ok (out, i') -> False).
    { intros j out j' Gj Hj. apply (reload_tokens V D _ _ _ _ Gj Hj). rewrite concat_app in Hc. apply app_eq_nil in Hc. tauto. }
    destruct o as [docs md g lim|docs md g lim|cs]; cbn [api_step] in H.
    - exfalso. unfold process_batch in H. apply bind_Ok in H. destruct H as ((b, s1) & H1 & H). cbn [snd] in H.
      destruct (repair_stuck _ _ _ _ _ Hs Hi Hc H1) as (i1 & E1 & G1). rewrite E1 in H. cbn [update_or_create] in H.
      apply bind_Ok in H. destruct H as (q & H2 & _). apply bind_Ok in H2. destruct H2 as ((o1, i2) & H2 & _). eauto.
    - exists docs, md, g, lim. split; auto. unfold add_task in H. rewrite Hi in H. apply bind_Ok in H. destruct H as (same & _ & H).
      destruct same; cbn [negb] in H; [|injection H as <- <-; auto]. exfalso. apply bind_Ok in H. destruct H as ((o1, i1) & H1 & _).
      destruct Hs as (_ & _ & R3). rewrite Hi in R3. exact (reload_tokens V D _ _ _ _ R3 H1 Hc).
    - exfalso. apply bind_Ok in H. destruct H as (r1 & H & _). unfold process_delete_batch in H. apply bind_Ok in H. destruct H as ((b, s1) & H1 & H). cbn [snd] in H.
      destruct (repair_stuck _ _ _ _ _ Hs Hi Hc H1) as (i1 & E1 & G1). rewrite E1 in H. apply bind_Ok in H. destruct H as ((o1, i2) & H2 & _). eauto.
  Qed.
End WRITERS.

Theorem api_contents V U E reg D os outs s : api_reached V U E reg D os outs s ->
  exists c, api_history U E reg ([], []) os outs c /\ has_contents V E s c.
Proof.
  intros (HD & HK & G & HU & F & H).
  destruct (api_run_ok V U E reg D HD HK G HU os no_index ([], []) outs s (no_index_holds V U E D HD HK G HU) F H) as (c & C1 & C2).
  exists c. split; auto. eapply holds_contents; eauto.
Qed.
Lemma wrun_app {Emb Meta} max es es' : forall w : worker Emb Meta, wrun max w (es ++ es') = match wrun max w es with Some w => wrun max w es' | None => None end.
Proof. induction es as [|e es IH]; intro w; auto. cbn. destruct (wstep max w e); auto. Qed.
Lemma worker_drained Emb Meta max es (w : worker Emb Meta) : wrun max start es = Some w -> w_closed w = true -> Forall paired (queued es) ->
  exists k w', k <= 2 * length (w_queue w) + 2 /\ wrun max start (es ++ repeat Work k) = Some w' /\ w_phase w' = Stopped
    /\ flat_map pairs_of (w_done w') = flat_map pairs_of (queued es).
Proof.
  intros R Cl F.
  assert (Q : exists k w', k <= 2 * length (w_queue w) + 2 /\ wrun max w (repeat Work k) = Some w' /\ w_phase w' = Stopped).
  { destruct (w_phase w) eqn:P; [apply (drains Emb Meta max _ w (le_n _) Cl); congruence..|]. exists 0, w. split; [lia|]. auto. }
  destruct Q as (k & w' & Hk & R' & S'). exists k, w'. split; auto.
  assert (R2 : wrun max start (es ++ repeat Work k) = Some w') by (rewrite wrun_app, R; exact R'). split; auto. split; auto.
  assert (Qe : queued (es ++ repeat (@Work Emb Meta) k) = queued es).
  { unfold queued. rewrite flat_map_app. assert (Z : forall n, flat_map (fun e : event Emb Meta => match e with Queue i => [i] | _ => [] end) (repeat Work n) = []) by (induction n; auto).
    rewrite Z, app_nil_r. reflexivity. }
  pose proof (worker_keeps Emb Meta max _ w' R2) as K. rewrite Qe in K. specialize (K F). cbv zeta in K. rewrite S' in K. cbn [flat_map app] in K.
  destruct (worker_batches Emb Meta max _ w' R2) as (gs & cur & _ & _ & _ & X). rewrite S' in X. destruct X as (_ & X). rewrite X in K. cbn [flat_map] in K. rewrite app_nil_r in K. exact K.
Qed.
Lemma openable_iff V D docs0 g0 ops outs d h : reached V D docs0 g0 ops outs d h ->
  ((exists x, load d = Ok x) <-> concat (documents docs0 ops) <> []).
Proof.
  intro R. destruct (reached_good _ _ _ _ _ _ _ _ R) as (_ & fr & pe & Gd).
  exact (proj2 (ih_open V D (d, h) _ (ex_intro _ fr (ex_intro _ pe Gd)))).
Qed.
Lemma most_recent U E reg L X docs md g k n c : length md = length docs ->
  api_call U E reg (L, X) (AUpdate docs md g (Some k)) (Ok n) c \/ api_call U E reg (L, X) (AAdd docs md g (Some k)) (Ok n) c ->
  exists old, L ++ combine docs md = old ++ fst c /\ snd c = [] /\ length old = n /\ length (fst c) = Nat.min k (length L + length docs).
Proof.
  intros Lm H. assert (Q : c = (last_n k (L ++ combine docs md), []) /\ n = length (L ++ combine docs md) - length (last_n k (L ++ combine docs md))) by (destruct H as [H|H]; inversion H; subst; auto).
  destruct Q as (-> & ->). cbn [fst snd]. set (all := L ++ combine docs md). exists (firstn (length all - k) all). unfold last_n at 1 2. rewrite firstn_skipn. split; auto. split; auto.
  rewrite firstn_length, skipn_length, last_n_length. split; [lia|]. unfold all. rewrite app_length, combine_length. lia.
Qed.
Lemma rolled_back V U E reg D os outs s docs md g limit s' : api_reached V U E reg D os outs s -> api_ok U D (AUpdate docs md g limit) ->
  process_batch V E s docs md g limit = Ok (Err, s') -> exists L X, has_contents V E s (L, X) /\ has_contents V E s' (L, []).
Proof.
  intros (HD & HK & G & HU & F & H) Ho P.
  destruct (api_run_ok V U E reg D HD HK G HU os no_index ([], []) outs s (no_index_holds V U E D HD HK G HU) F H) as ((L, X) & C1 & C2).
  destruct (process_batch_ok V U E reg D HD HK G HU _ _ _ _ _ _ _ _ C2 Ho P) as (c' & Cc & Hc). inversion Cc; subst.
  exists L, X. split; eapply holds_contents; eauto.
Qed.
Lemma repair_prefix V U E D docs0 g0 ops outs d h m R b s' :
  reached V D docs0 g0 ops outs d h -> good_engine E -> store_reached U E m -> db_exists m = true ->
  row_list E m (map Some R) -> repair V {| sv_index := Some (d, h); sv_store := m |} = Ok (b, s') ->
  let n := Nat.min (length (documents docs0 ops)) (length R) in
  b = negb (length (documents docs0 ops) =? length R)
  /\ row_list E (sv_store s') (map Some (firstn n R))
  /\ exists i, sv_index s' = Some i
     /\ (forall x, load (fst i) = Ok x -> env_shows V x (firstn n (documents docs0 ops)))
     /\ ((exists x, load (fst i) = Ok x) <-> concat (firstn n (documents docs0 ops)) <> []).
Proof.
  intros Rd G SR Hdb RL H. cbv zeta. pose proof Rd as (_ & HK & _). destruct (reached_good _ _ _ _ _ _ _ _ Rd) as (_ & fr & pe & Gd).
  pose (P := fun (m : store) (R : list (list (text * json))) => wf m /\ (m = Broken \/ row_list E m (map Some R))).
  assert (Pc : forall m R k, P m R -> count m = Ok k -> k = length R).
  { intros m0 R0 k (W & Q) C. destruct Q as [->|Q]; [discriminate|]. assert (NB : m0 <> Broken) by (intros ->; discriminate).
    rewrite (count_rows E m0 _ G W NB Q) in C. injection C as <-. clear. induction R0 as [|r R0 IH]; auto. cbn. auto. }
  assert (Pd : forall m R ids m' r, P m R -> MetaModel.delete m ids = (m', r) -> P m' (delete_positions ids R)).
  { intros m0 R0 ids m' r (W & Q) Dl. split.
    - unfold MetaModel.delete in Dl. destruct ids as [|i ids]; [congruence|]. destruct m0 as [| |d0]; try congruence. pose proof (wf_delete d0 (i :: ids) W) as H0.
      destruct (delete_v2 d0 (i :: ids)). injection Dl as <- _. exact H0.
    - destruct Q as [->|Q]; [left; unfold MetaModel.delete in Dl; destruct ids; congruence|].
      destruct m0 as [| |d0]; [right|left; unfold MetaModel.delete in Dl; destruct ids; congruence|right];
        (destruct (delete_row_list E _ ids m' r _ G W Dl Q) as (Q1 & _); [discriminate|rewrite delete_positions_map; exact Q1]). }
  assert (P0 : P m R) by (split; [eapply store_reached_wf; eauto|right; auto]).
  destruct (repair_general V D HK _ P Pc Pd {| sv_index := Some (d, h); sv_store := m |} (d, h) b s' _ R eq_refl (ex_intro _ fr (ex_intro _ pe Gd)) Hdb P0 H) as (i & E1 & E2 & E3 & E4 & E5).
  split; auto. split; [|exists i; split; auto; eapply ih_open; eauto].
  destruct E3 as (_ & [E3|E3]); auto. exfalso. cbn [sv_store] in *.
  assert (NB : forall b s', repair V {| sv_index := Some (d, h); sv_store := m |} = Ok (b, s') -> sv_store s' <> Broken); [|exact (NB _ _ H E3)].
  clear. intros b s' H X. unfold repair in H. cbn [sv_index sv_store] in H. destruct (db_exists m) eqn:Hdb; cbn [negb] in H.
  - apply bind_Ok in H. destruct H as (n & _ & H). apply bind_Ok in H. destruct H as (k & Ck & H).
    destruct (n =? k); [injection H as <- <-; cbn in X; subst; discriminate|]. apply bind_Ok in H. destruct H as (q & _ & H). apply bind_Ok in H. destruct H as (n' & _ & H). apply bind_Ok in H. destruct H as (k' & Ck' & H).
    destruct (n' =? k'); [injection H as <- <-|discriminate]. cbn in X. rewrite X in Ck'. discriminate.
  - injection H as <- <-. cbn in X. subst. discriminate.
Qed.

Lemma delete_worker Cond max es (w : worker Cond unit) cs : wrun max start es = Some w -> w_phase w = Stopped ->
  queued es = map (fun c => ([c], [tt])) cs ->
  concat (map fst (w_done w)) = cs /\ Forall (fun b => fst b <> [] /\ (length (fst b) <= 1 \/ length (fst b) <= max)) (w_done w).
Proof.
  intros R S Q. destruct (worker_batches Cond unit max es w R) as (gs & cur & H1 & H2 & H3 & H4). rewrite S in H4.
  destruct H4 as [-> H4]. rewrite H4 in H1. rewrite !app_nil_r in H1. rewrite Q in H1.
  assert (Forall (Forall (fun i : list Cond * list unit => exists c, i = ([c], [tt]))) gs) as F.
  { apply Forall_forall. intros g G. apply Forall_forall. intros i I.
    assert (In i (map (fun c => ([c], [tt])) cs)) as K by (rewrite H1; apply in_concat; exists g; auto).
    apply in_map_iff in K as (c & <- & _). exists c. reflexivity. }
  assert (forall g : list (list Cond * list unit), Forall (fun i => exists c, i = ([c], [tt])) g -> length (flat_map fst g) = length g) as L.
  { induction 1 as [|i g (c & ->) _ IH]; [reflexivity|]. cbn. f_equal. exact IH. }
  assert (filter (fun g : list (list Cond * list unit) => match flat_map fst g with [] => false | _ => true end) gs = gs) as E.
  { clear H1 H2 R. induction gs as [|g gs IH]; [reflexivity|]. inversion F as [|? ? F1 F2]; subst. inversion H3 as [|? ? [G1 _] G2]; subst.
    cbn [filter]. specialize (L g F1). destruct (flat_map fst g); [destruct g; [contradiction|discriminate]|]. f_equal. apply IH; assumption. }
  unfold nonempty in H2. assert (w_done w = map together gs) as H2' by (rewrite H2; f_equal; exact E). rewrite H2'. split.
  - assert (concat (map fst (map together gs)) = flat_map fst (concat gs)) as ->.
    { clear. induction gs as [|g gs IH]; [reflexivity|]. cbn [map concat]. rewrite flat_map_app, IH. reflexivity. }
    rewrite <- H1. clear. induction cs as [|c cs IH]; [reflexivity|]. cbn. f_equal. exact IH.
  - apply Forall_forall. intros b B. apply in_map_iff in B as (g & <- & G). rewrite Forall_forall in F, H3. specialize (F g G). specialize (H3 g G).
    destruct H3 as [N H3]. cbn [together fst]. pose proof (L g F) as Lg.
    destruct (exists_last N) as (g' & x & ->). rewrite removelast_last in H3. rewrite app_length in Lg. cbn [length] in Lg.
    split; [intros K; rewrite K in Lg; cbn in Lg; lia|]. rewrite Lg. destruct H3 as [-> | H3]; [left; cbn; lia|]. right.
    unfold size in H3. apply Forall_app in F as [F _]. rewrite (L g' F) in H3. lia.
Qed.
