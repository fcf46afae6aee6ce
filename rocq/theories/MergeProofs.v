From Verif Require Import Base IndexModel Text Calendar Npy NpySpec NpyProofs NpyHeader Merge MergeSpec.
Open Scope nat_scope.

Section ENTRIES.
  Let ent := (nat * (nat * Z))%type.
  Fixpoint inc (lo : nat) (l : list ent) : Prop :=
    match l with [] => True | e :: r => lo <= fst e /\ inc (S (fst e)) r end.
  Definition total (l : list ent) : nat := fold_right (fun e a => fst (snd e) + a) 0 l.
  Lemma inc_weak : forall l a b, a <= b -> inc b l -> inc a l.
  Proof. intros [|e l] a b H; cbn [inc]; [auto|]. intros [? ?]. split; [lia|auto]. Qed.
  Lemma inc_In : forall l lo e, inc lo l -> In e l -> lo <= fst e.
  Proof.
    induction l as [|x l IH]; intros lo e H Hin; [destruct Hin|]. destruct H as [H1 H2].
    destruct Hin as [<-|Hin]; [exact H1|]. specialize (IH _ _ H2 Hin). lia.
  Qed.
  Lemma sub_total : forall l2 l1 a b, inc a l1 -> inc b l2 -> incl l1 l2 -> total l1 <= total l2.
  Proof.
    induction l2 as [|x l2 IH]; intros l1 a b H1 H2 Hi.
    - destruct l1 as [|y l1]; [cbn; lia|]. exfalso. exact (Hi y (or_introl eq_refl)).
    - destruct l1 as [|y l1]; [cbn; lia|]. destruct H1 as [Ha H1], H2 as [Hb H2]. cbn [total fold_right].
      assert (Hr : forall z, In z l1 -> z <> x -> In z l2) by (intros z Hz Hne; destruct (Hi z (or_intror Hz)); [congruence|assumption]).
      destruct (Hi y (or_introl eq_refl)) as [<-|Hy].
      + assert (Hl : total l1 <= total l2).
        { apply (IH l1 (S (fst x)) (S (fst x))); auto. intros z Hz. apply Hr; [exact Hz|].
          intro E. pose proof (inc_In _ _ _ H1 Hz). subst z. lia. }
        unfold total in Hl. lia.
      + assert (Hl : total (y :: l1) <= total l2).
        { apply (IH (y :: l1) (fst y) (S (fst x))); auto.
          - split; auto.
          - intros z [<-|Hz]; [exact Hy|]. apply Hr; [exact Hz|].
            pose proof (inc_In _ _ _ H2 Hy). pose proof (inc_In _ _ _ H1 Hz). intro E. subst z. lia. }
        cbn [total fold_right] in Hl. unfold total in *. lia.
  Qed.
  Lemma sub_eq : forall l2 l1 a b, inc a l1 -> inc b l2 -> incl l1 l2 -> Forall (fun e => 0 < fst (snd e)) l2 ->
    total l1 = total l2 -> l1 = l2.
  Proof.
    induction l2 as [|x l2 IH]; intros l1 a b H1 H2 Hi Hp Ht.
    - destruct l1 as [|y l1]; [auto|]. exfalso. exact (Hi y (or_introl eq_refl)).
    - inversion Hp as [|? ? Hx Hp2]; subst. destruct H2 as [Hb H2].
      destruct l1 as [|y l1]; [cbn [total fold_right] in Ht; lia|]. destruct H1 as [Ha H1].
      assert (Hr : forall z, In z l1 -> z <> x -> In z l2) by (intros z Hz Hne; destruct (Hi z (or_intror Hz)); [congruence|assumption]).
      destruct (Hi y (or_introl eq_refl)) as [<-|Hy].
      + f_equal. apply (IH l1 (S (fst x)) (S (fst x))); auto.
        * intros z Hz. apply Hr; [exact Hz|]. intro E. pose proof (inc_In _ _ _ H1 Hz). subst z. lia.
        * cbn [total fold_right] in Ht. unfold total. lia.
      + exfalso. assert (Hl : total (y :: l1) <= total l2).
        { apply (sub_total l2 (y :: l1) (fst y) (S (fst x))); auto.
          - split; auto.
          - intros z [<-|Hz]; [exact Hy|]. apply Hr; [exact Hz|].
            pose proof (inc_In _ _ _ H2 Hy). pose proof (inc_In _ _ _ H1 Hz). intro E. subst z. lia. }
        rewrite Ht in Hl. cbn [total fold_right] in Hl. unfold total in *. lia.
  Qed.
  Lemma lookup_In : forall l i e, lookup_chunk i l = Some e -> In (i, e) l.
  Proof.
    induction l as [|[j x] l IH]; intros i e H; [discriminate|]. cbn [lookup_chunk] in H.
    destruct (j =? i) eqn:E; [apply Nat.eqb_eq in E; injection H as <-; subst; left; reflexivity|right; auto].
  Qed.
  Lemma inc_lookup : forall l lo i e, inc lo l -> In (i, e) l -> lookup_chunk i l = Some e.
  Proof.
    induction l as [|[j x] l IH]; intros lo i e H Hin; [destruct Hin|]. destruct H as [H1 H2]. cbn [lookup_chunk].
    destruct Hin as [E|Hin]; [injection E as <- <-; rewrite Nat.eqb_refl; reflexivity|].
    pose proof (inc_In _ _ _ H2 Hin) as Hle. cbn [fst] in Hle.
    destruct (j =? i) eqn:E; [apply Nat.eqb_eq in E; lia|]. exact (IH _ _ _ H2 Hin).
  Qed.
End ENTRIES.

Section MERGE.
  Context {A : Type}.
  Variable two_d : bool.
  Variable header : nat -> nat -> bytes.
  Variable row_bytes : A -> bytes.
  Variable zero_row : nat -> A.
  Set Default Proof Using "Type".

  Definition scan_at (v : version A) (i : nat) : list (nat * chunk_file A) :=
    match v_chunks v i with Some k => match k_rows k with [] => [] | _ => [(i, k)] end | None => [] end.
  Lemma scan_inc : forall (v : version A) n s, inc s (map entry (flat_map (scan_at v) (seq s n))).
  Proof.
    intros v. induction n as [|n IH]; intro s; [exact I|]. cbn [seq flat_map]. rewrite map_app.
    specialize (IH (S s)). unfold scan_at at 1. destruct (v_chunks v s) as [k|]; [destruct (k_rows k) eqn:E|].
    - cbn [map app]. eapply inc_weak; [|exact IH]. lia.
    - cbn [map app inc entry fst snd]. split; [lia|exact IH].
    - cbn [map app]. eapply inc_weak; [|exact IH]. lia.
  Qed.
  Lemma scan_pos : forall (v : version A) l, Forall (fun e => 0 < fst (snd e)) (map entry (flat_map (scan_at v) l)).
  Proof.
    intros v l. apply Forall_map. apply Forall_forall. intros [i k] H. apply in_flat_map in H. destruct H as [j [_ H]].
    unfold scan_at in H. destruct (v_chunks v j) as [k'|]; [destruct (k_rows k') eqn:E|]; [destruct H| |destruct H].
    destruct H as [H|[]]. injection H as <- <-. cbn [entry fst snd]. rewrite E. cbn. lia.
  Qed.
  Lemma scan_rows : forall (v : version A), scanned_rows v = all_rows v.
  Proof.
    intro v. unfold scanned_rows, all_rows, scan. induction (seq 0 (v_num v)) as [|i l IH]; [reflexivity|].
    cbn [flat_map]. rewrite flat_map_app, IH. f_equal. unfold rows_at.
    destruct (v_chunks v i) as [k|]; [destruct (k_rows k) eqn:E|]; cbn [flat_map snd]; rewrite ?app_nil_r; auto.
  Qed.
  Lemma scan_total : forall (v : version A), total (map entry (scan v)) = length (all_rows v).
  Proof.
    intro v. rewrite <- scan_rows. unfold scanned_rows. induction (scan v) as [|[i k] l IH]; [reflexivity|].
    cbn [map flat_map]. rewrite app_length, <- IH. reflexivity.
  Qed.
  Lemma scan_cols : forall (v : version A), scanned_cols A two_d v = if two_d then columns v else 0.
  Proof.
    intro v. unfold scanned_cols, columns. destruct two_d; [|reflexivity]. rewrite <- (rev_involutive (seq 0 (v_num v))) at 1.
    rewrite fold_left_rev_right with (f := fun i a => match v_chunks v i with Some k => k_cols k | None => a end) || idtac.
    generalize (rev (seq 0 (v_num v))). intro l.
    rewrite <- fold_left_rev_right, rev_involutive.
    induction l as [|i l IH]; [reflexivity|]. cbn [fold_right find]. destruct (v_chunks v i) as [k|] eqn:E; [rewrite E; reflexivity|].
    exact IH.
  Qed.
  Lemma stamp_In : forall (v : version A) i e, stamp v i = Some e <-> In (i, e) (map entry (scan v)).
  Proof.
    intros v i e. unfold stamp, scan. rewrite in_map_iff. split.
    - intro H. destruct (i <? v_num v) eqn:Hi; [|discriminate]. apply Nat.ltb_lt in Hi.
      destruct (v_chunks v i) as [k|] eqn:Ek; [|discriminate]. destruct (k_rows k) as [|r rs] eqn:Er; [discriminate|].
      injection H as <-. exists (i, k). split; [unfold entry; cbn [fst snd]; rewrite Er; reflexivity|].
      apply in_flat_map. exists i. split; [apply in_seq; lia|]. rewrite Ek, Er. left. reflexivity.
    - intros [[j k] [He Hin]]. apply in_flat_map in Hin. destruct Hin as [j' [Hs Hin]]. apply in_seq in Hs.
      destruct (v_chunks v j') as [k'|] eqn:Ek; [|destruct Hin]. destruct (k_rows k') as [|r rs] eqn:Er; [destruct Hin|].
      destruct Hin as [E|[]]. injection E as -> ->. unfold entry in He. cbn [fst snd] in He. injection He as <- <-.
      destruct (j <? v_num v) eqn:Hi; [|apply Nat.ltb_ge in Hi; lia]. rewrite Ek, Er. reflexivity.
  Qed.
  Lemma same_stamps_entries : forall v w : version A, map entry (scan v) = map entry (scan w) -> same_stamps v w.
  Proof.
    intros v w H i. destruct (stamp v i) as [e|] eqn:E.
    - apply stamp_In in E. rewrite H in E. apply stamp_In in E. auto.
    - destruct (stamp w i) as [e|] eqn:E2; [|reflexivity]. apply stamp_In in E2. rewrite <- H in E2. apply stamp_In in E2. congruence.
  Qed.

  Notation content := (content A two_d header row_bytes zero_row).
  Notation merge := (merge A two_d header row_bytes zero_row).
  Notation new_manifest := (new_manifest A two_d).
  Definition file_of (v : version A) : bytes :=
    header (length (array zero_row v)) (if two_d then columns v else 0) ++ flat_map row_bytes (array (fun c => zero_row (if two_d then c else 0)) v).
  Lemma content_file : forall v, content v = file_of v.
  Proof.
    intro v. unfold Merge.content, file_of, final_rows, array. rewrite scan_rows, scan_cols, !app_length, repeat_length, flat_map_app.
    reflexivity.
  Qed.
  Lemma same_content : forall v w, same_array v w -> content v = content w.
  Proof.
    intros v w [H1 [H2 H3]]. unfold Merge.content, final_rows. rewrite !scan_rows, !scan_cols, H1, H2, H3. reflexivity.
  Qed.

  Definition ok (v : version A) : Prop := all_rows v <> [] /\ (two_d = true -> columns v <> 0).
  Definition inv (R : nat -> nat -> Prop) (vs : list (version A)) (c : cache) : Prop :=
    forall m, c_manifest c = Some m ->
      exists i vi, nth_error vs i = Some vi /\ m = new_manifest vi /\ ok vi /\
        forall b, c_merged c = Some b -> exists j vj, R i j /\ nth_error vs j = Some vj /\ b = content vj /\ ok vj.

  (** what equal times give, for merged files made of version [j] with a manifest of version [i] *)
  Definition tells (R : nat -> nat -> Prop) (vs : list (version A)) : Prop :=
    forall i j k v u w, R i j -> j <= k -> nth_error vs i = Some v -> nth_error vs j = Some u -> nth_error vs k = Some w ->
      v_padding v = v_padding w -> same_stamps v w \/ (v_num v = v_num w /\ same_meta_time v w) -> same_array u w.
  Lemma tells_eq : forall vs, times_tell vs -> tells eq vs.
  Proof.
    intros vs H i j k v u w <- Hjk Hi Hj Hk Hp Hs. assert (u = v) as -> by congruence. exact (H i k v w Hjk Hi Hk Hp Hs).
  Qed.
  Lemma tells_le : forall vs, times_never_return vs -> tells le vs.
  Proof. intros vs H i j k v u w Hij Hjk. exact (H i j k v u w Hij Hjk). Qed.
  Lemma tells_sub : forall R vs ws, tells R (vs ++ ws) -> tells R vs.
  Proof.
    intros R vs ws H i j k v u w Hij Hjk Hi Hj Hk.
    assert (Hx : forall n x, nth_error vs n = Some x -> nth_error (vs ++ ws) n = Some x).
    { intros n x E. rewrite nth_error_app1; [exact E|]. apply nth_error_Some. congruence. }
    apply (H i j k); auto.
  Qed.

  Lemma last_nth : forall (vs : list (version A)) v0, vs <> [] -> nth_error vs (length vs - 1) = Some (current vs v0).
  Proof.
    intros vs v0 H. destruct (exists_last H) as [l [x ->]]. unfold current. rewrite last_last, app_length. cbn [length].
    replace (length l + 1 - 1) with (length l) by lia. rewrite nth_error_app2 by lia. rewrite Nat.sub_diag. reflexivity.
  Qed.

  Lemma same_ok : forall v w, same_array v w -> ok v -> ok w.
  Proof. intros v w [H1 [_ H3]] [H4 H5]. unfold ok. rewrite <- H1, <- H3. auto. Qed.

  (** the fast path *)
  Lemma fast_ok : forall R vs c v b, inv R vs c -> tells R vs -> nth_error vs (length vs - 1) = Some v ->
    fast_path A two_d header v c = Some b -> b = content v /\ c_merged c = Some b /\ ok v.
  Proof.
    intros R vs c v b Hi Ht Hk H. unfold fast_path in H.
    destruct (c_manifest c) as [m|] eqn:Em; [|discriminate]. destruct (c_merged c) as [b'|] eqn:Eb; [|discriminate].
    destruct (_ && _) eqn:E in H; [|discriminate]. injection H as <-.
    repeat (apply andb_true_iff in E; let H := fresh "E" in destruct E as [E H]).
    destruct (Hi m Em) as (i & vi & Hvi & -> & Hok & Hb). destruct (Hb b' Eb) as (j & vj & Hij & Hvj & -> & Hokj).
    cbn [m_num m_padding m_meta Merge.new_manifest] in *.
    apply Nat.eqb_eq in E. apply Nat.eqb_eq in E6. apply Z.ltb_lt in E2, E1.
    assert (Hjl : j < length vs) by (apply nth_error_Some; congruence).
    assert (Hsame : same_array vj v).
    { apply (Ht i j (length vs - 1) vi vj v); auto; [lia|]. right. split; [exact E|]. split; assumption. }
    split; [apply same_content; exact Hsame|]. split; [reflexivity|]. exact (same_ok _ _ Hsame Hokj).
  Qed.
  (** the slow path that keeps the file *)
  Lemma keep_ok : forall R vs c v b, inv R vs c -> tells R vs -> nth_error vs (length vs - 1) = Some v ->
    needs_rewrite A two_d v c = false -> c_merged c = Some b -> b = content v.
  Proof.
    intros R vs c v b Hi Ht Hk H Eb. unfold needs_rewrite in H. rewrite Eb in H.
    destruct (c_manifest c) as [m|] eqn:Em; [|discriminate].
    apply orb_false_iff in H. destruct H as [H _]. apply orb_false_iff in H. destruct H as [H E3].
    apply orb_false_iff in H. destruct H as [E1 E2]. apply negb_false_iff in E1, E2, E3.
    destruct (Hi m Em) as (i & vi & Hvi & -> & Hok & Hb). destruct (Hb b Eb) as (j & vj & Hij & Hvj & -> & Hokj).
    cbn [m_padding m_total Merge.new_manifest] in *. apply Nat.eqb_eq in E2, E3.
    assert (Hjl : j < length vs) by (apply nth_error_Some; congruence).
    apply same_content. apply (Ht i j (length vs - 1) vi vj v); auto; [lia|]. left.
    apply same_stamps_entries. symmetry.
    apply (sub_eq _ _ 0 0); [apply scan_inc|apply scan_inc| |apply scan_pos|].
    - intros e He. apply in_map_iff in He. destruct He as [ik [<- Hik]].
      pose proof (proj1 (forallb_forall _ _) E1 ik Hik) as Hc. unfold is_clean in Hc. cbn [m_chunks Merge.new_manifest] in Hc.
      destruct (lookup_chunk (fst ik) (map entry (scan vi))) as [[r t]|] eqn:El; [|discriminate].
      apply andb_true_iff in Hc. destruct Hc as [Hr Hm]. apply Nat.eqb_eq in Hr. apply Z.eqb_eq in Hm. cbn [fst snd] in *.
      apply lookup_In in El. unfold entry at 1. rewrite <- Hr, <- Hm. exact El.
    - change (total (map entry (scan v)) = total (map entry (scan vi))).
      rewrite !scan_total. unfold final_rows in E3. rewrite !scan_rows in E3. lia.
  Qed.

  Lemma guard_ok : forall v, (length (scanned_rows v) =? 0) || (two_d && (scanned_cols A two_d v =? 0)) = false <-> ok v.
  Proof.
    intro v. rewrite scan_rows, scan_cols. unfold ok. rewrite orb_false_iff, andb_false_iff, !Nat.eqb_neq.
    split.
    - intros [H1 H2]. split; [intro E; rewrite E in H1; apply H1; reflexivity|]. intros ->. destruct H2; [discriminate|].
      intro E. rewrite E in *. congruence.
    - intros [H1 H2]. split; [destruct (all_rows v); [congruence|discriminate]|]. destruct two_d; [right; auto|left; reflexivity].
  Qed.

  Lemma cut : forall (ws : list cwrite) k, firstn k ws = ws \/ (k < length ws).
  Proof. intros ws k. destruct (Nat.le_gt_cases (length ws) k); [left; apply firstn_all2; assumption|right; assumption]. Qed.

  (** one merge keeps the invariant; its result is the file of the current version *)
  Lemma merge_ok : forall R vs c v, inv R vs c -> tells R vs -> nth_error vs (length vs - 1) = Some v ->
    (forall i, R i i) ->
    let '(ws, r) := merge v c in
    (forall k, (4 <= k \/ forall i, i <= length vs - 1 -> R i (length vs - 1)) -> inv R vs (apply_cwrites c (firstn k ws)))
    /\ (forall b, r = Ok b -> b = content v /\ ok v /\ c_merged (apply_cwrites c ws) = Some b) /\ r <> Panic.
  Proof.
    intros R vs c v Hi Ht Hk Hrefl. unfold Merge.merge.
    destruct (fast_path A two_d header v c) as [b|] eqn:Ef.
    { destruct (fast_ok _ _ _ _ _ Hi Ht Hk Ef) as [-> [Hm Hok]]. split; [|split]; [|intros b' H; injection H as <-; auto|discriminate].
      intros k _. rewrite firstn_nil. exact Hi. }
    destruct (_ || _) eqn:Eg.
    { split; [|split]; [|discriminate|discriminate]. intros k _. rewrite firstn_nil. exact Hi. }
    apply guard_ok in Eg.
    assert (Hnew : forall c', c_manifest c' = Some (new_manifest v) -> c_merged c' = Some (content v) -> inv R vs c').
    { intros c' H1 H2 m Em. exists (length vs - 1), v. split; [exact Hk|]. split; [congruence|]. split; [exact Eg|].
      intros b' Hb. exists (length vs - 1), v. split; [apply Hrefl|]. split; [exact Hk|]. split; [congruence|exact Eg]. }
    assert (Hno : forall c', c_manifest c' = None -> inv R vs c') by (intros c' H1 m Em; congruence).
    assert (Hd : inv R vs (apply_cwrite c DelMerged)).
    { intros m Em. destruct (Hi m Em) as (i & vi & Hvi & Hm & Hok & _). exists i, vi. repeat (split; [assumption|]). discriminate. }
    destruct (needs_rewrite A two_d v c) eqn:En.
    - unfold rewrite. destruct (_ =? _).
      + split; [|split]; [|intros b H; injection H as <-; auto|discriminate].
        intros k Hc. destruct k as [|[|k]]; cbn [firstn]; [exact Hi| |].
        * destruct Hc as [Hc|Hc]; [lia|]. intros m Em. destruct (Hi m Em) as (i & vi & Hvi & Hm & Hok & _). exists i, vi.
          repeat (split; [assumption|]). intros b Hb. cbn in Hb. injection Hb as <-. exists (length vs - 1), v.
          assert (i < length vs) by (apply nth_error_Some; congruence). split; [apply Hc; lia|]. auto.
        * rewrite firstn_nil. apply Hnew; reflexivity.
      + split; [|split]; [|discriminate|discriminate]. intros k _. rewrite firstn_nil. exact Hi.
    - destruct (c_merged c) as [b|] eqn:Eb.
      2:{ unfold needs_rewrite in En. rewrite Eb in En. discriminate. }
      pose proof (keep_ok _ _ _ _ _ Hi Ht Hk En Eb) as ->.
      destruct (_ <? _).
      + unfold rewrite. destruct (_ =? _).
        * split; [|split]; [|intros b H; injection H as <-; auto|discriminate].
          intros k _. destruct k as [|[|[|[|k]]]]; cbn [firstn]; [exact Hi|exact Hd|apply Hno; reflexivity|apply Hno; reflexivity|].
          rewrite firstn_nil. apply Hnew; reflexivity.
        * split; [|split]; [|discriminate|discriminate]. intros k _.
          destruct k as [|[|k]]; cbn [firstn]; [exact Hi|exact Hd|rewrite firstn_nil; apply Hno; reflexivity].
      + split; [|split]; [|intros b H; injection H as <-; auto|discriminate].
        intros k _. destruct k as [|k]; cbn [firstn]; [exact Hi|]. rewrite firstn_nil. apply Hnew; [reflexivity|exact Eb].
  Qed.

  Notation run := (run A two_d header row_bytes zero_row).
  Lemma run_inv : forall (R : nat -> nat -> Prop) (v0 : version A) (es : list (event A)), (forall i, R i i) ->
    (Forall (fun e => match e with Merge k => 4 <= k | _ => True end) es \/ forall i j, i <= j -> R i j) ->
    forall vs c, run v0 es = (vs, c) -> tells R vs -> vs <> [] /\ inv R vs c.
  Proof.
    intros R v0 es Hrefl. induction es as [|e es IH] using rev_ind; intros Hc vs c Hr Ht.
    - injection Hr as <- <-. split; [discriminate|]. intros m Em. discriminate.
    - unfold Merge.run in Hr. rewrite fold_left_app in Hr. cbn [fold_left] in Hr.
      fold (run v0 es) in Hr. destruct (run v0 es) as [vs1 c1] eqn:Er1.
      assert (Hc1 : Forall (fun e => match e with Merge k => 4 <= k | _ => True end) es \/ forall i j, i <= j -> R i j).
      { destruct Hc as [Hc|Hc]; [left; apply Forall_app in Hc; tauto|right; exact Hc]. }
      destruct e as [v|k|k]; cbn [step fst snd] in Hr; injection Hr as <- <-.
      + destruct (IH Hc1 vs1 c1 eq_refl (tells_sub _ _ _ Ht)) as [Hne Hi]. split; [destruct vs1; discriminate|].
        intros m Em. destruct (Hi m Em) as (i & vi & Hvi & Hm & Hok & Hb). exists i, vi.
        assert (Hx : forall n x, nth_error vs1 n = Some x -> nth_error (vs1 ++ [v]) n = Some x).
        { intros n x E. rewrite nth_error_app1; [exact E|]. apply nth_error_Some. congruence. }
        split; [auto|]. split; [exact Hm|]. split; [exact Hok|]. intros b Eb. destruct (Hb b Eb) as (j & vj & H1 & H2 & H3).
        exists j, vj. auto.
      + destruct (IH Hc1 vs1 c1 eq_refl Ht) as [Hne Hi]. split; [exact Hne|].
        pose proof (merge_ok R vs1 c1 (current vs1 v0) Hi Ht (last_nth vs1 v0 Hne) Hrefl) as HH.
        destruct (merge (current vs1 v0) c1) as [ws r]. destruct HH as [HH _]. cbn [fst]. apply HH.
        destruct Hc as [Hc|Hc]; [left|right; auto]. apply Forall_app in Hc. destruct Hc as [_ Hc]. inversion Hc; auto.
      + destruct (IH Hc1 vs1 c1 eq_refl Ht) as [Hne Hi]. split; [exact Hne|].
        destruct k as [|[|k]]; cbn [firstn clear_writes]; [exact Hi| |].
        * intros m Em. destruct (Hi m Em) as (i & vi & Hvi & Hm & Hok & _). exists i, vi. repeat (split; [assumption|]). discriminate.
        * rewrite firstn_nil. intros m Em. discriminate.
  Qed.

  Lemma result_ok : forall (R : nat -> nat -> Prop) (v0 : version A) (es : list (event A)) vs c ws r, (forall i, R i i) ->
    (Forall (fun e => match e with Merge k => 4 <= k | _ => True end) es \/ forall i j, i <= j -> R i j) ->
    run v0 es = (vs, c) -> tells R vs -> merge (current vs v0) c = (ws, r) ->
    (forall b, r = Ok b -> b = file_of (current vs v0) /\ ok (current vs v0) /\ c_merged (apply_cwrites c ws) = Some b) /\ r <> Panic.
  Proof.
    intros R v0 es vs c ws r Hrefl Hc Hr Ht Hm. destruct (run_inv R v0 es Hrefl Hc vs c Hr Ht) as [Hne Hi].
    pose proof (merge_ok R vs c (current vs v0) Hi Ht (last_nth vs v0 Hne) Hrefl) as HH. rewrite Hm in HH.
    rewrite <- content_file. exact (proj2 HH).
  Qed.
  (** rows of the right size: the merge succeeds *)
  Lemma merge_total : forall v c, ok v ->
    length (flat_map row_bytes (array (fun c => zero_row (if two_d then c else 0)) v))
      = length (array zero_row v) * unit_size two_d (columns v) ->
    exists ws b, merge v c = (ws, Ok b).
  Proof.
    intros v c Hok Hlen. unfold Merge.merge.
    assert (Hrw : rewrite A two_d header row_bytes zero_row v = ([SetMerged (content v); SetManifest (new_manifest v)], Ok (content v))).
    { unfold rewrite. replace (_ =? _) with true; [reflexivity|]. symmetry. apply Nat.eqb_eq. rewrite content_file. unfold file_of.
      rewrite app_length, Hlen. unfold final_rows. rewrite scan_rows, scan_cols. unfold array. rewrite app_length, repeat_length.
      unfold unit_size. destruct two_d; reflexivity. }
    destruct (fast_path A two_d header v c); [eauto|]. rewrite (proj2 (guard_ok v) Hok).
    destruct (needs_rewrite A two_d v c) eqn:En; [rewrite Hrw; eauto|].
    destruct (c_merged c) eqn:Eb; [|unfold needs_rewrite in En; rewrite Eb in En; discriminate].
    rewrite Hrw. destruct (_ <? _); eauto.
  Qed.
End MERGE.

Section CLEARED.
  Context {A : Type}.
  Variable two_d : bool.
  Variable header : nat -> nat -> bytes.
  Variable row_bytes : A -> bytes.
  Variable zero_row : nat -> A.
  Set Default Proof Using "Type".
  Notation merge := (merge A two_d header row_bytes zero_row).
  Notation step := (step A two_d header row_bytes zero_row).
  Let any (i j : nat) := True.
  Definition inv1 (v : version A) (c : cache) : Prop := inv two_d header row_bytes zero_row any [v] c.
  Lemma tells1 : forall v : version A, tells any [v].
  Proof.
    intros v i j k a b d _ _ _ H2 H3 _ _. destruct j as [|j]; [|destruct j; discriminate]. destruct k as [|k]; [|destruct k; discriminate].
    injection H2 as <-. injection H3 as <-. repeat split.
  Qed.
  Lemma merge1 : forall v c ws r, inv1 v c -> merge v c = (ws, r) ->
    (forall k, inv1 v (apply_cwrites c (firstn k ws)))
    /\ (forall b, r = Ok b -> b = file_of two_d header row_bytes zero_row v /\ ok two_d v /\ c_merged (apply_cwrites c ws) = Some b) /\ r <> Panic.
  Proof.
    intros v c ws r Hi Hm. pose proof (merge_ok two_d header row_bytes zero_row any [v] c v Hi (tells1 v) eq_refl (fun _ => I)) as H.
    rewrite Hm in H. destruct H as [H1 H2]. split; [|rewrite <- content_file; exact H2].
    intro k. apply H1. right. intros. exact I.
  Qed.
  Lemma cleared_inv : forall v0 (es : list (event A)), cleared es -> forall s, fst s <> [] -> inv1 (current (fst s) v0) (snd s) ->
    let s' := fold_left (step v0) es s in fst s' <> [] /\ inv1 (current (fst s') v0) (snd s').
  Proof.
    intros v0 es H. induction H as [|v k es Hk H IH|k es H IH|k es H IH]; intros [vs c] Hne Hi; cbn [fst snd fold_left] in *.
    - auto.
    - apply IH; cbn [Merge.step fst snd]; [destruct vs; discriminate|]. destruct k as [|[|k]]; [lia|lia|]. cbn [firstn clear_writes].
      rewrite firstn_nil. intros m Em. discriminate.
    - apply IH; cbn [Merge.step fst snd]; [exact Hne|]. destruct (merge (current vs v0) c) as [ws r] eqn:Em.
      cbn [fst]. exact (proj1 (merge1 _ _ _ _ Hi Em) k).
    - apply IH; cbn [Merge.step fst snd]; [exact Hne|]. destruct k as [|[|k]]; cbn [firstn clear_writes]; [exact Hi| |].
      + intros m Em. destruct (Hi m Em) as (i & vi & Hvi & Hm & Hok & _). exists i, vi. repeat (split; [assumption|]). discriminate.
      + rewrite firstn_nil. intros m Em. discriminate.
  Qed.
  Lemma cleared_ok : forall v0 (es : list (event A)) vs c ws r, cleared es -> run A two_d header row_bytes zero_row v0 es = (vs, c) ->
    merge (current vs v0) c = (ws, r) ->
    (forall b, r = Ok b -> b = file_of two_d header row_bytes zero_row (current vs v0) /\ ok two_d (current vs v0) /\ c_merged (apply_cwrites c ws) = Some b) /\ r <> Panic.
  Proof.
    intros v0 es vs c ws r H Hr Hm.
    pose proof (cleared_inv v0 es H ([v0], no_cache)) as HH. unfold run in Hr. rewrite Hr in HH. cbn [fst snd] in HH.
    destruct HH as [_ Hi]; [discriminate|intros m Em; discriminate|]. exact (proj2 (merge1 _ _ _ _ Hi Hm)).
  Qed.
End CLEARED.

(** The two kinds of file. *)
Lemma codes_file : forall v, file_of false codes_header (le_bytes 8) (fun _ => 0%Z) v = write_npy_1d 8 (txt "<i8") (array (fun _ => 0%Z) v).
Proof. intro v. reflexivity. Qed.
Lemma codes_len : forall v : version Z, length (flat_map (le_bytes 8) (array (fun _ => 0%Z) v)) = length (array (fun _ => 0%Z) v) * 8.
Proof. intro v. rewrite flat_length. lia. Qed.
Lemma regular_rows : forall v, regular v -> Forall (fun r => length r = columns v /\ Forall (fun x => 0 <= x < 256)%Z r) (residual_array v).
Proof.
  intros v H. unfold residual_array, array. apply Forall_app. split.
  - apply Forall_forall. intros r Hr. unfold all_rows in Hr. apply in_flat_map in Hr. destruct Hr as [i [Hi Hr]]. apply in_seq in Hi.
    unfold rows_at in Hr. unfold bytes in *. destruct (v_chunks v i) as [k|] eqn:E; [|destruct Hr].
    destruct (H i k (proj2 Hi) E) as [_ HF]. exact (proj1 (Forall_forall _ _) HF r Hr).
  - apply Forall_forall. intros r Hr. apply repeat_spec in Hr. subst r. split; [apply repeat_length|].
    apply Forall_forall. intros x Hx. apply repeat_spec in Hx. subst. lia.
Qed.
Lemma id_flat : forall l : list bytes, flat_map (fun r => r) l = concat l.
Proof. induction l; cbn; congruence. Qed.
Lemma concat_rect : forall (l : list bytes) c P, Forall (fun r => length r = c /\ Forall P r) l -> length (concat l) = length l * c /\ Forall P (concat l).
Proof.
  intros l c P H. induction H as [|r l [H1 H2] _ [IH1 IH2]]; [split; [reflexivity|constructor]|].
  cbn [concat length]. rewrite app_length, H1, IH1. split; [lia|apply Forall_app; auto].
Qed.
Lemma bytes1 : forall d, Forall (fun x => 0 <= x < 256)%Z d -> flat_map (le_bytes 1) d = d.
Proof.
  intros d H. induction H as [|x d Hx _ IH]; [reflexivity|]. cbn [flat_map le_bytes app]. f_equal; [|exact IH].
  apply Z.mod_small. exact Hx.
Qed.
Lemma residuals_file : forall v, regular v ->
  file_of true residuals_header (fun r => r) (fun c => repeat 0%Z c) v
  = write_npy_2d 1 (txt "|u1") (Z.of_nat (length (residual_array v))) (Z.of_nat (columns v)) (concat (residual_array v)).
Proof.
  intros v H. unfold file_of, write_npy_2d, residuals_header. rewrite id_flat. fold (residual_array v).
  rewrite bytes1; [reflexivity|]. exact (proj2 (concat_rect _ _ _ (regular_rows v H))).
Qed.
Lemma residuals_len : forall v, regular v ->
  length (flat_map (fun r => r) (residual_array v)) = length (residual_array v) * columns v.
Proof. intros v H. rewrite id_flat. exact (proj1 (concat_rect _ _ _ (regular_rows v H))). Qed.

Lemma trusted_ok : forall A two_d header row_bytes zero_row v0 (es : list (event A)) vs c ws r,
  run A two_d header row_bytes zero_row v0 es = (vs, c) -> trusted vs es ->
  merge A two_d header row_bytes zero_row (current vs v0) c = (ws, r) ->
  (forall b, r = Ok b -> b = file_of two_d header row_bytes zero_row (current vs v0) /\ ok two_d (current vs v0) /\ c_merged (apply_cwrites c ws) = Some b) /\ r <> Panic.
Proof.
  intros A two_d header row_bytes zero_row v0 es vs c ws r Hr [[H1 H2]|[H|H]] Hm.
  - apply (result_ok two_d header row_bytes zero_row eq v0 es); auto. apply tells_eq, H2.
  - apply (result_ok two_d header row_bytes zero_row le v0 es); auto.
  - apply (cleared_ok two_d header row_bytes zero_row v0 es); auto.
Qed.
Lemma codes_merged : forall v0 es vs c ws r, codes_run v0 es = (vs, c) -> trusted vs es -> codes_merge (current vs v0) c = (ws, r) ->
  (all_rows (current vs v0) = [] -> r = Err) /\
  (all_rows (current vs v0) <> [] -> r = Ok (write_npy_1d 8 (txt "<i8") (array (fun _ => 0%Z) (current vs v0)))
     /\ c_merged (apply_cwrites c ws) = Some (write_npy_1d 8 (txt "<i8") (array (fun _ => 0%Z) (current vs v0)))).
Proof.
  intros v0 es vs c ws r Hr Ht Hm. destruct (trusted_ok _ _ _ _ _ _ _ _ _ _ _ Hr Ht Hm) as [Hok Hnp].
  rewrite codes_file in Hok. split.
  - intro E. destruct r as [b| |]; [|reflexivity|congruence]. destruct (Hok b eq_refl) as [_ [[Hne _] _]]. congruence.
  - intro Hne. assert (Ho : ok false (current vs v0)) by (split; [exact Hne|discriminate]).
    destruct (merge_total false codes_header (le_bytes 8) (fun _ => 0%Z) (current vs v0) c Ho (codes_len _)) as [ws' [b Hb]].
    unfold codes_merge in Hm. rewrite Hm in Hb. injection Hb as <- ->. destruct (Hok b eq_refl) as [-> [_ H]]. auto.
Qed.
Lemma residuals_merged : forall v0 es vs c ws r, residuals_run v0 es = (vs, c) -> trusted vs es -> residuals_merge (current vs v0) c = (ws, r) ->
  regular (current vs v0) ->
  (all_rows (current vs v0) = [] \/ columns (current vs v0) = 0 -> r = Err) /\
  (all_rows (current vs v0) <> [] -> columns (current vs v0) <> 0 ->
    forall f, f = write_npy_2d 1 (txt "|u1") (Z.of_nat (length (residual_array (current vs v0)))) (Z.of_nat (columns (current vs v0)))
                    (concat (residual_array (current vs v0))) ->
     r = Ok f /\ c_merged (apply_cwrites c ws) = Some f).
Proof.
  intros v0 es vs c ws r Hr Ht Hm Hreg. destruct (trusted_ok _ _ _ _ _ _ _ _ _ _ _ Hr Ht Hm) as [Hok Hnp].
  rewrite residuals_file in Hok by exact Hreg. split.
  - intro E. destruct r as [b| |]; [|reflexivity|congruence]. destruct (Hok b eq_refl) as [_ [[Hne Hc] _]]. specialize (Hc eq_refl). tauto.
  - intros Hne Hc f ->. assert (Ho : ok true (current vs v0)) by (split; auto).
    destruct (merge_total true residuals_header (fun r => r) (fun c => repeat 0%Z c) (current vs v0) c Ho (residuals_len _ Hreg)) as [ws' [b Hb]].
    unfold residuals_merge in Hm. rewrite Hm in Hb. injection Hb as <- ->. destruct (Hok b eq_refl) as [-> [_ H]]. auto.
Qed.
Lemma codes_read : forall U, good_unicode U -> forall utf8, good_utf8 utf8 ->
  forall v0 es vs c ws f, codes_run v0 es = (vs, c) -> trusted vs es -> codes_merge (current vs v0) c = (ws, Ok f) ->
    forall all, all = array (fun _ => 0%Z) (current vs v0) -> array1_ok 8 all -> numbers 8 all ->
    forall a n, a + n <= length all -> npy_slice_i64 U utf8 f a n = Ok (firstn n (skipn a all)).
Proof.
  intros U HU utf8 Hu v0 es vs c ws f Hr Ht Hm all -> H1 H2 a n Hle.
  destruct (codes_merged _ _ _ _ _ _ Hr Ht Hm) as [He Ho].
  destruct (all_rows (current vs v0)) eqn:E; [discriminate (He eq_refl)|].
  destruct Ho as [Ho _]; [discriminate|]. injection Ho as ->. apply npy_1d_slice; auto. left. reflexivity.
Qed.
Lemma array_pos : forall {A} z (v : version A), all_rows v <> [] -> length (array z v) <> 0.
Proof. intros A z v H. unfold array. rewrite app_length. destruct (all_rows v); [congruence|cbn; lia]. Qed.
Lemma residuals_read : forall U, good_unicode U -> forall utf8, good_utf8 utf8 ->
  forall v0 es vs c ws f, residuals_run v0 es = (vs, c) -> trusted vs es -> residuals_merge (current vs v0) c = (ws, Ok f) ->
    regular (current vs v0) ->
    forall all, all = residual_array (current vs v0) -> (Z.of_nat (length all) * Z.of_nat (columns (current vs v0)) < 2 ^ 63 - 2 ^ 20)%Z ->
    (Z.of_nat (length all) < 2 ^ 63)%Z ->
    npy_view U utf8 1 f = Ok (Z.of_nat (length all), Z.of_nat (columns (current vs v0)), concat all).
Proof.
  intros U HU utf8 Hu v0 es vs c ws f Hr Ht Hm Hreg all -> Hs Hs2.
  destruct (residuals_merged _ _ _ _ _ _ Hr Ht Hm Hreg) as [He Ho].
  assert (H1 : all_rows (current vs v0) <> []) by (intro E; discriminate (He (or_introl E))).
  assert (H2 : columns (current vs v0) <> 0) by (intro E; discriminate (He (or_intror E))).
  destruct (Ho H1 H2 _ eq_refl) as [E _]. injection E as ->.
  destruct (concat_rect _ _ _ (regular_rows _ Hreg)) as [Hl Hb].
  apply npy_2d_view; auto; [right; left; reflexivity|].
  assert (Hpos : length (residual_array (current vs v0)) <> 0).
  { exact (array_pos _ _ H1). }
  split; [lia|]. split; [nia|]. split; [rewrite Hl; lia|]. split; [lia|]. exact Hb.
Qed.
Lemma index_link : forall (A : Type) (files : nat -> option (list A)) (v : version A) (zero : A),
  (forall i, i < v_num v -> option_map k_rows (v_chunks v i) = files i) ->
  IndexModel.merge_chunks files (v_num v) (v_padding v) zero
  = match all_rows v with [] => Err | _ => Ok (array (fun _ => zero) v) end.
Proof.
  intros A files v zero H. unfold IndexModel.merge_chunks, array.
  replace (concat _) with (all_rows v).
  - destruct (all_rows v); reflexivity.
  - unfold all_rows. rewrite flat_map_concat_map. f_equal. apply map_ext_in. intros i Hi. apply in_seq in Hi.
    rewrite <- H by lia. unfold rows_at. destruct (v_chunks v i); reflexivity.
Qed.
