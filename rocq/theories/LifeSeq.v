(** Requests one after the other: the server answers like the index a client thinks of. *)
From Verif Require Import Base Life LifeSpec LifeProofs.
Open Scope nat_scope.

Section SEQ.
  Variable requests : nat -> request.
  Record calm_at (k : nat) (w : world) (x : index) : Prop := {
    q_config : w_config w = x_config x;
    q_docs : w_docs w = x_docs x;
    q_cached : forall c, w_cached w = Some c -> w_config w = Some c;
    q_current : forall s, w_current w = Some s -> w_docs w = Some (w_slots w s);
    q_name : w_name w = None; q_path : w_path w = None; q_loading : w_loading w = None;
    q_workers : forall q, w_phase w (W q) = Start /\ w_items w q = [];
    q_later : forall j, k <= j -> w_phase w (H j) = Start
  }.
  Lemma step_H k n w : step requests (H k) n w = step requests (H k) 0 w.
  Proof using Type. unfold step. destruct (w_phase w (H k)); reflexivity. Qed.
  Definition answered (w : world) (k : nat) : Prop := exists a, w_phase w (H k) = Answered a.
  Lemma forward k w w1 w' : alone requests (H k) w w1 -> answered w1 k -> step requests (H k) 0 w = Some w' -> alone requests (H k) w' w1.
  Proof using Type.
    intros A (a & AN) E. inversion A as [|t n v v' v'' S R]; subst.
    - unfold step in E. rewrite AN in E. discriminate.
    - rewrite step_H, E in S. injection S as <-. exact R.
  Qed.
  Lemma arrived k w w1 a : alone requests (H k) w w1 -> w_phase w (H k) = Answered a -> w1 = w.
  Proof using Type. intros A P. inversion A as [|t n v v' v'' S R]; subst; [reflexivity|]. unfold step in S. rewrite P in S. discriminate. Qed.
  Lemma no_move q n w : w_phase w (W q) = Start -> w_items w q = [] -> step requests (W q) n w = None.
  Proof using Type. intros P I. unfold step. rewrite P, I. cbn. destruct n; reflexivity. Qed.
  Lemma drained_none w w2 : (forall q, w_phase w (W q) = Start /\ w_items w q = []) -> drained requests w w2 -> w2 = w.
  Proof using Type.
    intros Q D. inversion D as [|q n v v' v'' S R]; subst; [reflexivity|]. destruct (Q q) as (P & I). rewrite (no_move _ _ _ P I) in S. discriminate.
  Qed.
  Lemma drained_forward w w1 w2 q : drained requests w w2 -> (w_phase w (W q) <> Start \/ w_items w q <> []) ->
    (forall q' n w', step requests (W q') n w = Some w' -> w' = w1) -> drained requests w1 w2.
  Proof using Type.
    intros D N A. inversion D as [v E|q' n v v' v'' S R]; subst; [destruct (E q); tauto|]. rewrite (A _ _ _ S) in R. exact R.
  Qed.

  Ltac proj := cbv beta iota zeta delta [w_config w_docs w_cached w_current w_slots w_next w_queue w_items w_queues w_name w_path w_loading w_phase w_batch w_versions w_published w_configured w_accepted
    set_phase set_files set_cached set_slots set_queues set_batch set_locks set_ghosts unlock finish store_slot insert_slot publish].
  Ltac proj_in S := cbv beta iota zeta delta [w_config w_docs w_cached w_current w_slots w_next w_queue w_items w_queues w_name w_path w_loading w_phase w_batch w_versions w_published w_configured w_accepted
    set_phase set_files set_cached set_slots set_queues set_batch set_locks set_ghosts unlock finish store_slot insert_slot publish] in S.
  Ltac other := match goal with
    N : ?q' <> ?q, O : forall q', q' <> ?q -> _ (W q') = Start /\ _, S : step _ (W ?q') _ _ = Some _ |- _ =>
      exfalso; rewrite no_move in S; [discriminate|cbn [w_phase]; rewrite ?updt_other by congruence; apply (O q' N)|cbn [w_items]; rewrite ?upd_other by congruence; apply (O q' N)] end.
  Ltac mine EQ := match goal with S : step _ (W ?q) _ _ = Some _ |- _ =>
      unfold step in S; cbn [w_phase] in S; rewrite updt_same in S; proj_in S; EQ S; injection S as <-; reflexivity end.
  Ltac fw D q EQ := eapply (drained_forward _ _ _ q) in D; [|left; cbn [w_phase]; rewrite updt_same; discriminate|
      let q' := fresh "q'" in let n := fresh "n" in let w' := fresh "w'" in let S := fresh "S" in let N := fresh "N" in
      intros q' n w' S; destruct (Nat.eq_dec q' q) as [->|N]; [mine EQ|other]].
  Record served (w w2 : world) (q : nat) (c : config) (b : docs) : Prop := {
    s_config : w_config w2 = w_config w;
    s_docs : w_docs w2 = Some (evict c (match w_docs w with Some l => l | None => [] end ++ b));
    s_cached : w_cached w2 = Some c;
    s_current : forall s, w_current w2 = Some s -> w_docs w2 = Some (w_slots w2 s);
    s_locks : w_name w2 = None /\ w_path w2 = None /\ w_loading w2 = None;
    s_workers : forall q, w_phase w2 (W q) = Start /\ w_items w2 q = [];
    s_requests : forall k, w_phase w2 (H k) = w_phase w (H k)
  }.
  Lemma worker_run w w2 q b c : (forall q', q' <> q -> w_phase w (W q') = Start /\ w_items w q' = []) -> w_phase w (W q) = Start -> w_items w q = [b] ->
    w_name w = None -> w_path w = None -> w_loading w = None -> w_config w = Some c -> (forall c', w_cached w = Some c' -> c' = c) ->
    drained requests w w2 -> served w w2 q c b.
  Proof using Type.
    destruct w as [wcf wdo wca wcu wsl wne wqu wit wqs wna wpa wlo wph wba wve wpu wcg wac]. proj. intros O P I -> -> -> -> CC D.
    eapply (drained_forward _ _ w2 q) in D; [|right; cbn [w_items]; rewrite I; discriminate|].
    2: { intros q' n w' S. destruct (Nat.eq_dec q' q) as [->|N]; [|other].
      unfold step in S. cbn [w_phase w_items] in S. rewrite P, I in S. destruct ((1 <=? n) && (n <=? length [b])) eqn:B; [|discriminate]. destruct n as [|[|n]]; try discriminate. proj_in S. injection S as <-. reflexivity. }
    cbn [firstn skipn concat] in D. rewrite app_nil_r in D.
    fw D q ltac:(fun S => idtac).
    assert (HC : exists ph', drained requests {| w_config := Some c; w_docs := wdo; w_cached := Some c; w_current := wcu; w_slots := wsl; w_next := wne; w_queue := wqu; w_items := upd wit q []; w_queues := wqs;
        w_name := None; w_path := Some (W q); w_loading := None; w_phase := updt ph' (W q) (CHave c); w_batch := upd wba q b; w_versions := wve; w_published := wpu; w_configured := wcg; w_accepted := wac |} w2 /\
        (forall t, t <> W q -> ph' t = wph t)).
    { destruct wca as [c'|].
      - pose proof (CC c' eq_refl) as ->. fw D q ltac:(fun S => idtac). eexists. split; [exact D|]. intros t N. rewrite !updt_other by exact N. reflexivity.
      - fw D q ltac:(fun S => idtac). fw D q ltac:(fun S => idtac). fw D q ltac:(fun S => idtac). eexists. split; [exact D|]. intros t N. rewrite !updt_other by exact N. reflexivity. }
    clear D. destruct HC as (ph' & D & PH).
    assert (O' : forall q', q' <> q -> ph' (W q') = Start /\ wit q' = []) by (intros q' N; rewrite PH by congruence; exact (O q' N)).
    clear O. rename O' into O.
    fw D q ltac:(fun S => idtac).
    set (l' := evict c (match wdo with Some l => l | None => [] end ++ b)).
    assert (D2 : exists v, drained requests {| w_config := Some c; w_docs := Some l'; w_cached := Some c; w_current := wcu; w_slots := wsl; w_next := wne; w_queue := wqu; w_items := upd wit q []; w_queues := wqs;
        w_name := None; w_path := Some (W q); w_loading := None; w_phase := updt (updt (updt ph' (W q) (CHave c)) (W q) (Write c)) (W q) (Written c); w_batch := upd wba q b; w_versions := v; w_published := wpu; w_configured := wcg; w_accepted := wac |} w2).
    { destruct wdo as [l|]; fw D q ltac:(fun S => cbv beta iota zeta delta [change_of apply] in S; proj_in S; rewrite upd_same in S); eexists; exact D. }
    clear D. destruct D2 as (v & D). fw D q ltac:(fun S => idtac).
    assert (END : exists s sl ne ph4 pu, drained requests {| w_config := Some c; w_docs := Some l'; w_cached := Some c; w_current := Some s; w_slots := sl; w_next := ne; w_queue := wqu; w_items := upd wit q []; w_queues := wqs;
        w_name := None; w_path := None; w_loading := None; w_phase := updt ph4 (W q) Start; w_batch := upd wba q b; w_versions := v; w_published := pu; w_configured := wcg; w_accepted := wac |} w2 /\ sl s = l' /\
        (forall t, t <> W q -> ph4 t = wph t)).
    { destruct wcu as [s|]; fw D q ltac:(fun S => rewrite thread_eqb_refl in S); eexists _, _, _, _, _; (split; [exact D|]); (split; [apply upd_same|]); intros t N; rewrite !updt_other by exact N; apply PH; exact N. }
    clear D. destruct END as (s & sl & ne & ph4 & pu & D & SL & P4).
    apply drained_none in D.
    2: { intro q'. proj. destruct (Nat.eq_dec q' q) as [->|N]; [rewrite updt_same, upd_same; auto|]. rewrite updt_other, upd_other, P4, <- PH by congruence. exact (O q' N). }
    subst w2. constructor; proj; auto.
    - intros s' Es. injection Es as <-. rewrite SL. reflexivity.
    - intro q'. destruct (Nat.eq_dec q' q) as [->|N]; [rewrite updt_same, upd_same; auto|]. rewrite updt_other, upd_other, P4, <- PH by congruence. exact (O q' N).
    - intro k. rewrite updt_other by discriminate. apply P4. discriminate.
  Qed.
  Ltac fa A ANS := eapply forward in A; [|exact ANS|unfold step; cbn [w_phase]; (rewrite updt_same || match goal with P : _ (H _) = Start |- _ => rewrite P end);
    repeat match goal with R : requests _ = _ |- _ => rewrite R end; proj; rewrite ?thread_eqb_refl; reflexivity].
  Ltac fin A D := eapply arrived in A; [|proj; rewrite updt_same; reflexivity]; subst; apply drained_none in D; [|let q := fresh in intro q; proj; rewrite ?updt_other by discriminate; auto]; subst.
  Lemma later k j : S k <= j -> H j <> H k.
  Proof using Type. intros L E. injection E as ->. lia. Qed.
  Ltac check := repeat match goal with
    | |- _ /\ _ => split
    | |- calm_at _ _ _ => constructor
    end; proj; auto; try congruence; try (rewrite updt_same; reflexivity); try (rewrite updt_same, upd_same; reflexivity);
    try (let s' := fresh in let Es := fresh in intros s' Es; injection Es as <-; rewrite upd_same; reflexivity);
    try (let q := fresh in intro q; rewrite ?updt_other by discriminate; auto; fail);
    try (let j := fresh in let L := fresh in intros j L; rewrite ?updt_other by (apply later; exact L); match goal with Q : forall j, _ -> _ (H j) = Start |- _ => apply Q; lia end);
    try (let j := fresh in let L := fresh in intros j L; rewrite !updt_other by congruence; auto; fail).
  Lemma one_request k w w1 w2 x : calm_at k w x -> alone requests (H k) w w1 -> answered w1 k -> drained requests w1 w2 ->
    calm_at (S k) w2 (snd (answer_to (requests k) x)) /\ w_phase w2 (H k) = Answered (fst (answer_to (requests k) x)) /\ (forall j, j <> k -> w_phase w2 (H j) = w_phase w (H j)).
  Proof using Type.
    destruct w as [wcf wdo wca wcu wsl wne wqu wit wqs wna wpa wlo wph wba wve wpu wcg wac]. destruct x as [xc xd].
    intros [Q1 Q2 Q3 Q4 Q5 Q6 Q7 Q8 Q9] A ANS D. cbn in Q1, Q2, Q3, Q4, Q5, Q6, Q7, Q8, Q9. subst. assert (P : wph (H k) = Start) by (apply Q9; lia).
    destruct (requests k) eqn:RQ; cbn [answer_to x_config x_docs].
    - (* Read *) destruct wcu as [s|].
      + destruct xd as [l|]; [|discriminate (Q4 s eq_refl)]. pose proof (Q4 s eq_refl) as E. injection E as ->. fa A ANS. fa A ANS. fin A D. check.
      + fa A ANS. fa A ANS. fa A ANS. destruct xd as [l|].
        * fa A ANS. fa A ANS. fa A ANS. fa A ANS. fin A D. check.
        * fa A ANS. fin A D. check.
    - (* Info *) destruct wca as [c|].
      + rewrite (Q3 c eq_refl) in *. fa A ANS. fa A ANS. fa A ANS. fin A D. check.
      + fa A ANS. fa A ANS. destruct xc as [c|].
        * fa A ANS. fa A ANS. fa A ANS. fin A D. check.
        * fa A ANS. fin A D. check.
    - (* Create *) fa A ANS. destruct xc as [c'|], xd as [l|].
      + fa A ANS. fin A D. check.
      + fa A ANS. fin A D. check.
      + fa A ANS. fin A D. check.
      + fa A ANS. fa A ANS. fin A D. check.
    - (* Update *) destruct xc as [c|]; cbn iota; rewrite <- ?evict_keep.
      + fa A ANS. destruct wqu as [q|].
        * fa A ANS. fa A ANS. eapply arrived in A; [|proj; rewrite updt_same; reflexivity]; subst.
          eapply (worker_run _ w2 q b c) in D; proj; auto.
          -- destruct D as [S1 S2 S3 S4 S5 S6 S7]. cbn -[updt upd] in S1, S2, S7. destruct S5 as (S5a & S5b & S5c). split; [|split].
             ++ constructor; auto; cbn [x_config x_docs snd]; try congruence. intros j L. rewrite S7, !updt_other by (apply later; exact L). apply Q9. lia.
             ++ rewrite S7, updt_same. reflexivity.
             ++ intros j N. rewrite S7, !updt_other by congruence. reflexivity.
          -- intros q' N. rewrite !updt_other, upd_other by congruence. apply Q8.
          -- rewrite !updt_other by discriminate. apply Q8.
          -- rewrite upd_same. rewrite (proj2 (Q8 q)). reflexivity.
          -- intros c' Ec. pose proof (Q3 c' Ec). congruence.
        * fa A ANS. fa A ANS. eapply arrived in A; [|proj; rewrite updt_same; reflexivity]; subst.
          eapply (worker_run _ w2 wqs b c) in D; proj; auto.
          -- destruct D as [S1 S2 S3 S4 S5 S6 S7]. cbn -[updt upd] in S1, S2, S7. destruct S5 as (S5a & S5b & S5c). split; [|split].
             ++ constructor; auto; cbn [x_config x_docs snd]; try congruence. intros j L. rewrite S7, !updt_other by (apply later; exact L). apply Q9. lia.
             ++ rewrite S7, updt_same. reflexivity.
             ++ intros j N. rewrite S7, !updt_other by congruence. reflexivity.
          -- intros q' N. rewrite !updt_other, upd_other by congruence. apply Q8.
          -- rewrite !updt_other by discriminate. apply Q8.
          -- rewrite upd_same. rewrite (proj2 (Q8 wqs)). reflexivity.
          -- intros c' Ec. pose proof (Q3 c' Ec). congruence.
      + fa A ANS. fin A D. check.
    - (* Delete *) fa A ANS. destruct xd as [l|].
      + fa A ANS. fa A ANS. fa A ANS. cbn [apply change_of] in A. rewrite RQ in A. destruct wcu as [s|].
        * fa A ANS. fin A D. check.
        * fa A ANS. fa A ANS. fin A D. check.
      + fa A ANS. fin A D. check.
    - (* Add *) destruct wcu as [s|].
      + destruct xd as [l|]; [|discriminate (Q4 s eq_refl)]. fa A ANS. fa A ANS. fa A ANS. fa A ANS. destruct wca as [c1|].
        * rewrite (Q3 c1 eq_refl) in *. fa A ANS. fa A ANS. fa A ANS. fa A ANS. cbn [apply change_of] in A. rewrite RQ in A. fa A ANS. fin A D. cbn iota; rewrite <- ?evict_keep. check.
        * fa A ANS. destruct xc as [c1|].
          -- fa A ANS. fa A ANS. fa A ANS. fa A ANS. fa A ANS. cbn [apply change_of] in A. rewrite RQ in A. fa A ANS. fin A D. cbn iota; rewrite <- ?evict_keep. check.
          -- fa A ANS. fin A D. cbn iota; rewrite <- ?evict_keep. check.
      + fa A ANS. fa A ANS. fa A ANS. destruct xd as [l|].
        2: { fa A ANS. fin A D. cbn iota; rewrite <- ?evict_keep. check. }
        fa A ANS. fa A ANS. fa A ANS. fa A ANS. fa A ANS. fa A ANS. destruct wca as [c1|].
        * rewrite (Q3 c1 eq_refl) in *. fa A ANS. fa A ANS. fa A ANS. fa A ANS. cbn [apply change_of] in A. rewrite RQ in A. fa A ANS. fin A D. cbn iota; rewrite <- ?evict_keep. check.
        * fa A ANS. destruct xc as [c1|].
          -- fa A ANS. fa A ANS. fa A ANS. fa A ANS. fa A ANS. cbn [apply change_of] in A. rewrite RQ in A. fa A ANS. fin A D. cbn iota; rewrite <- ?evict_keep. check.
          -- fa A ANS. fin A D. cbn iota; rewrite <- ?evict_keep. check.
    - (* Configure *) fa A ANS. fa A ANS. destruct wca as [c1|].
      + rewrite (Q3 c1 eq_refl) in *. fa A ANS. fa A ANS. fa A ANS. fin A D. check.
      + fa A ANS. destruct xc as [c1|].
        * fa A ANS. fa A ANS. fa A ANS. fa A ANS. fin A D. check.
        * fa A ANS. fin A D. check.
    - (* Drop *) fa A ANS. fa A ANS. fa A ANS. fa A ANS. fa A ANS. fa A ANS. fin A D. check.
  Qed.
  Lemma calm_boot c d : calm_at 0 (boot c d) {| x_config := c; x_docs := d |}.
  Proof using Type. constructor; cbn; auto; discriminate. Qed.
  Lemma in_turn_calm c d k w : in_turn requests k (boot c d) w ->
    calm_at k w (after requests k {| x_config := c; x_docs := d |}) /\
    forall j, j < k -> w_phase w (H j) = Answered (fst (answer_to (requests j) (after requests j {| x_config := c; x_docs := d |}))).
  Proof using Type.
    intro T. remember (boot c d) as w0. induction T as [w0|k w0 w w1 w2 T IH A ANS D].
    - subst w0. split; [apply calm_boot|]. intros j L. lia.
    - specialize (IH Heqw0). destruct IH as (C & AN). destruct (one_request k w w1 w2 _ C A ANS D) as (C' & P & F). split; [exact C'|].
      intros j L. destruct (Nat.eq_dec j k) as [->|N]; [exact P|]. rewrite (F j N). apply AN. lia.
  Qed.
End SEQ.
