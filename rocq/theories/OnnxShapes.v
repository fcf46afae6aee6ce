(** The planned shapes of dynamic batching. *)
From Verif Require Import Base Onnx OnnxSpec OnnxPrepare.
Open Scope nat_scope.

Lemma round_up_ge len : 1 <= len -> len <= round_up len.
Proof. intros L. unfold round_up. destruct (len <=? 8) eqn:Q; [lia|]. apply Nat.leb_gt in Q. lia. Qed.
Lemma round_up_lt len : 9 <= len -> round_up len < len + 32.
Proof. intros L. unfold round_up. replace (len <=? 8) with false by (symmetry; apply Nat.leb_gt; lia). lia. Qed.
Lemma round_up_128 : round_up 128 = 128.
Proof. reflexivity. Qed.

Section Shapes.
  Context (max_len min_planned budget : nat).
  Notation next p := (Nat.min (round_up (Nat.max (p / 2) min_planned)) max_len).
  Definition shape_ok (s : nat * nat) : Prop := 1 <= fst s /\ fst s * snd s <= Nat.max budget (snd s) /\ 1 <= snd s <= max_len.
  Definition multiple (n : nat) : Prop := n = max_len \/ (exists k, n = 32 * k) \/ n <= 8.
  Lemma docs_ok planned : 1 <= planned <= max_len -> shape_ok (Nat.max (budget / planned) 1, planned).
  Proof.
    intros P. unfold shape_ok. cbn [fst snd]. split; [lia|]. split; [|lia].
    pose proof (Nat.mul_div_le budget planned ltac:(lia)).
    destruct (Nat.max_spec (budget / planned) 1) as [(_ & ->)|(_ & ->)]; lia.
  Qed.
  Lemma shape_loop_spec : 1 <= min_planned -> 1 <= max_len -> forall fuel shapes planned, 1 <= planned <= max_len ->
    exists more, shape_loop fuel max_len min_planned budget shapes planned = shapes ++ more /\ Forall shape_ok more.
  Proof.
    intros MP ML. induction fuel as [|fuel IH]; intros shapes planned P; cbn [shape_loop]; [exists []; now rewrite app_nil_r|].
    set (shapes' := if match shapes with [] => true | _ => negb (snd (last shapes (0, 0)) =? planned) end
                     then shapes ++ [(Nat.max (budget / planned) 1, planned)] else shapes).
    assert (S1 : exists more, shapes' = shapes ++ more /\ Forall shape_ok more).
    { unfold shapes'. destruct (match shapes with [] => true | _ => _ end); [exists [(Nat.max (budget / planned) 1, planned)]|exists []; now rewrite app_nil_r].
      split; auto. constructor; auto. now apply docs_ok. }
    destruct S1 as (m1 & E1 & F1). destruct (planned <=? min_planned); [eauto|]. destruct (next planned =? planned); [eauto|].
    destruct (IH shapes' (next planned)) as (m2 & E2 & F2).
    { pose proof (round_up_ge (Nat.max (planned / 2) min_planned) ltac:(lia)). lia. }
    exists (m1 ++ m2). split; [now rewrite E2, E1, app_assoc|now apply Forall_app].
  Qed.
  Lemma shape_loop_first fuel planned : exists more, shape_loop (S fuel) max_len min_planned budget [] planned = (Nat.max (budget / planned) 1, planned) :: more \/ False.
  Proof.
    cbn [shape_loop]. cbn [app]. destruct (planned <=? min_planned); [eexists; left; reflexivity|]. destruct (next planned =? planned); [eexists; left; reflexivity|].
    assert (G : forall fuel shapes p, exists more, shape_loop fuel max_len min_planned budget shapes p = shapes ++ more).
    { clear. induction fuel as [|fuel IH]; intros shapes p; cbn [shape_loop]; [exists []; now rewrite app_nil_r|].
      set (shapes' := if match shapes with [] => true | _ => negb (snd (last shapes (0, 0)) =? p) end then shapes ++ [(Nat.max (budget / p) 1, p)] else shapes).
      assert (S1 : exists more, shapes' = shapes ++ more).
      { unfold shapes'. destruct (match shapes with [] => true | _ => _ end); [eauto|exists []; now rewrite app_nil_r]. }
      destruct S1 as (m1 & E1). destruct (p <=? min_planned); [eauto|]. destruct (next p =? p); [eauto|].
      destruct (IH shapes' (next p)) as (m2 & E2). exists (m1 ++ m2). now rewrite E2, E1, app_assoc. }
    destruct (G fuel [(Nat.max (budget / planned) 1, planned)] (next planned)) as (more & E). exists more. left. rewrite E. reflexivity.
  Qed.
  (** The loop ends: the planned length falls. *)
  Lemma next_falls planned : min_planned = 128 -> min_planned < planned -> planned <= max_len -> next planned < planned.
  Proof.
    intros E L LM. rewrite E in *.
    destruct (Nat.le_gt_cases (planned / 2) 128) as [Q|Q].
    - rewrite (Nat.max_r _ _ Q), round_up_128. lia.
    - pose proof (round_up_lt (Nat.max (planned / 2) 128) ltac:(lia)) as R. rewrite (Nat.max_l _ 128) in * by lia. lia.
  Qed.
  Lemma shape_loop_ends : (min_planned = 128 \/ min_planned = max_len) -> forall fuel more shapes planned, planned <= max_len -> planned < fuel ->
    shape_loop (fuel + more) max_len min_planned budget shapes planned = shape_loop fuel max_len min_planned budget shapes planned.
  Proof.
    intros D. induction fuel as [|fuel IH]; intros more shapes planned LM LF; [lia|]. cbn [shape_loop Nat.add].
    destruct (planned <=? min_planned) eqn:Q; [reflexivity|]. apply Nat.leb_gt in Q. destruct D as [D|D]; [|lia].
    pose proof (next_falls planned D Q LM). destruct (next planned =? planned); [reflexivity|]. apply IH; lia.
  Qed.
  Lemma shape_loop_multiple : forall fuel shapes planned, (exists k, min_planned = 32 * k) \/ min_planned = max_len -> multiple planned -> Forall (fun s => multiple (snd s)) shapes ->
    Forall (fun s => multiple (snd s)) (shape_loop fuel max_len min_planned budget shapes planned).
  Proof.
    induction fuel as [|fuel IH]; intros shapes planned D P F; cbn [shape_loop]; auto.
    set (shapes' := if match shapes with [] => true | _ => negb (snd (last shapes (0, 0)) =? planned) end then shapes ++ [(Nat.max (budget / planned) 1, planned)] else shapes).
    assert (F' : Forall (fun s => multiple (snd s)) shapes').
    { unfold shapes'. destruct (match shapes with [] => true | _ => _ end); auto. apply Forall_app. split; auto. }
    destruct (planned <=? min_planned); auto. destruct (next planned =? planned); auto. apply IH; auto.
    unfold multiple. destruct (Nat.min_spec (round_up (Nat.max (planned / 2) min_planned)) max_len) as [(_ & ->)|(_ & ->)]; [|now left].
    unfold round_up. destruct (_ <=? 8) eqn:Q.
    - apply Nat.leb_le in Q. right. right. lia.
    - right. left. eexists. apply Nat.mul_comm.
  Qed.
End Shapes.

Lemma first_index_lt {A} (p : A -> bool) l i : first_index p l = Some i -> exists x, nth_error l i = Some x /\ p x = true.
Proof.
  revert i. induction l as [|x l IH]; intros i H; cbn in H; [discriminate|]. destruct (p x) eqn:Q; [injection H as <-; cbn; eauto|].
  destruct (first_index p l); [|discriminate]. cbn in H. injection H as <-. now apply IH.
Qed.
Lemma first_index_some {A} (p : A -> bool) l x : In x l -> p x = true -> exists i, first_index p l = Some i.
Proof.
  induction l as [|y l IH]; cbn; intros I P; [easy|]. destruct (p y) eqn:Q; [eauto|]. destruct I as [->|I]; [congruence|]. destruct (IH I P) as (i & ->). cbn. eauto.
Qed.
Lemma prepared_effective m (d : tokenized) : 1 <= m -> prepared_len m d = effective_len m (length (fst d)).
Proof. intros M. unfold prepared_len, effective_len. destruct (m - 1 <? length (fst d)) eqn:Q; [apply Nat.ltb_lt in Q|apply Nat.ltb_ge in Q]; lia. Qed.

Section Plan.
  Context (cap batch_size document_length : nat).
  Notation shapes := (dynamic_shapes cap batch_size document_length).
  Notation max_len := (Nat.max document_length 1).
  Notation budget := (Nat.min (Nat.max batch_size 1 * max_len) cap).
  Lemma planned_start : Nat.min (round_up max_len) max_len = max_len.
  Proof. pose proof (round_up_ge max_len ltac:(lia)). lia. Qed.
  Lemma shapes_all : Forall (shape_ok max_len budget) shapes.
  Proof.
    unfold dynamic_shapes. rewrite planned_start.
    destruct (shape_loop_spec max_len (Nat.min 128 (Nat.max max_len 1)) budget ltac:(lia) ltac:(lia) (S max_len) [] max_len ltac:(lia)) as (more & E & F).
    rewrite E. cbn [app]. eapply Permutation_Forall; [symmetry; apply isort_perm|exact F].
  Qed.
  Lemma shapes_full : In (Nat.max (budget / max_len) 1, max_len) shapes.
  Proof.
    unfold dynamic_shapes. rewrite planned_start.
    destruct (shape_loop_first max_len (Nat.min 128 (Nat.max max_len 1)) budget max_len max_len) as (more & [E|[]]). rewrite E.
    eapply Permutation_in; [symmetry; apply isort_perm|]. now left.
  Qed.
  Lemma shapes_budget s : In s shapes -> 1 <= fst s /\ 1 <= snd s <= max_len /\ fst s * snd s <= Nat.max batch_size 1 * max_len.
  Proof.
    intros I. pose proof shapes_all as F. rewrite Forall_forall in F. destruct (F s I) as (A & B & C). split; auto. split; auto.
    assert (max_len <= Nat.max batch_size 1 * max_len) by (rewrite <- (Nat.mul_1_l max_len) at 1; apply Nat.mul_le_mono_r; lia). lia.
  Qed.
  Lemma bucket_found len : 1 <= document_length -> len <= document_length -> exists n planned, nth_error shapes (bucket_index shapes len) = Some (n, planned) /\ len <= planned.
  Proof.
    intros D L. unfold bucket_index.
    destruct (first_index_some (fun s => len <=? snd s) shapes _ shapes_full) as (i & E); [apply Nat.leb_le; cbn; lia|]. rewrite E.
    apply first_index_lt in E. destruct E as ((n & planned) & E & P). exists n, planned. split; auto. now apply Nat.leb_le in P.
  Qed.
  (** Row lengths of batches: the document length, or a multiple of 32. *)
  Lemma shapes_multiple s : In s shapes -> snd s = max_len \/ exists k, snd s = 32 * k.
  Proof.
    intros I.
    assert (F : Forall (fun s => multiple max_len (snd s)) shapes).
    { unfold dynamic_shapes. rewrite planned_start. eapply Permutation_Forall; [symmetry; apply isort_perm|]. apply shape_loop_multiple; auto; [|now left].
      destruct (Nat.le_gt_cases 128 max_len); [left; exists 4; lia|right; lia]. }
    assert (G : Forall (fun s => Nat.min 128 max_len <= snd s) shapes).
    { clear F. unfold dynamic_shapes. rewrite planned_start. eapply Permutation_Forall; [symmetry; apply isort_perm|]. set (mp := Nat.min 128 (Nat.max max_len 1)).
      assert (EM : mp = Nat.min 128 max_len) by (unfold mp; lia). rewrite <- EM.
      assert (H : forall fuel sh p, mp <= p -> Forall (fun s => mp <= snd s) sh -> Forall (fun s => mp <= snd s) (shape_loop fuel max_len mp budget sh p)).
      { induction fuel as [|fuel IH]; intros sh p P F; cbn [shape_loop]; auto.
        set (sh' := if match sh with [] => true | _ => negb (snd (last sh (0, 0)) =? p) end then sh ++ [(Nat.max (budget / p) 1, p)] else sh).
        assert (F' : Forall (fun s => mp <= snd s) sh') by (unfold sh'; destruct (match sh with [] => true | _ => _ end); auto; apply Forall_app; split; auto).
        destruct (p <=? mp); auto. destruct (Nat.min (round_up (Nat.max (p / 2) mp)) max_len =? p); auto. apply IH; auto. pose proof (round_up_ge (Nat.max (p / 2) mp) ltac:(lia)). lia. }
      apply H; auto. lia. }
    rewrite Forall_forall in F, G. destruct (F s I) as [E|[E|E]]; auto. specialize (G s I). left. pose proof shapes_all as A. rewrite Forall_forall in A. destruct (A s I) as (_ & _ & B). lia.
  Qed.
End Plan.
