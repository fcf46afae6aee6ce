(** Proofs about the life of an index in the server. *)
From Verif Require Import Base Life LifeSpec.
Open Scope nat_scope.

Lemma evict_keep c l : evict c l = keep c l.
Proof. destruct c as [n|]; [|reflexivity]. cbn [evict keep]. rewrite firstn_rev, rev_involutive. reflexivity. Qed.
Lemma apply_effect x l : apply x l = effect x l.
Proof. destruct x as [c b|f|]; [apply evict_keep|reflexivity|reflexivity]. Qed.
Lemma thread_eqb_refl t : thread_eqb t t = true.
Proof. destruct t; cbn; apply Nat.eqb_refl. Qed.
Lemma thread_eqb_eq a b : thread_eqb a b = true <-> a = b.
Proof. destruct a, b; cbn; rewrite ?Nat.eqb_eq; split; congruence. Qed.
Lemma thread_eqb_neq a b : a <> b -> thread_eqb a b = false.
Proof. intro N. destruct (thread_eqb a b) eqn:E; [|reflexivity]. apply thread_eqb_eq in E. contradiction. Qed.
Lemma thread_dec (a b : thread) : {a = b} + {a <> b}.
Proof. decide equality; apply Nat.eq_dec. Qed.
Lemma updt_same {A} (f : thread -> A) t a : updt f t a t = a.
Proof. unfold updt. rewrite thread_eqb_refl. reflexivity. Qed.
Lemma updt_other {A} (f : thread -> A) t a u : u <> t -> updt f t a u = f u.
Proof. intro N. unfold updt. rewrite (thread_eqb_neq _ _ N). reflexivity. Qed.
Lemma upd_same {A} (f : nat -> A) k a : upd f k a k = a.
Proof. unfold upd. rewrite Nat.eqb_refl. reflexivity. Qed.
Lemma upd_other {A} (f : nat -> A) k a i : i <> k -> upd f k a i = f i.
Proof. intro N. unfold upd. rewrite (proj2 (Nat.eqb_neq _ _) N). reflexivity. Qed.

(** ** Every answer is one version *)
Definition phase_known (vs : list (option docs)) (next : nat) (p : phase) : Prop :=
  match p with
  | RLoaded l | Loaded _ l | NoSlot _ l | Answered (Documents l) => In (Some l) vs
  | RGot s => s < next
  | _ => True
  end.
Record known (w : world) : Prop := {
  k_docs : forall l, w_docs w = Some l -> In (Some l) (w_versions w);
  k_cur : forall s, w_current w = Some s -> s < w_next w;
  k_slots : forall s, s < w_next w -> In (Some (w_slots w s)) (w_versions w);
  k_phase : forall t, phase_known (w_versions w) (w_next w) (w_phase w t)
}.
Lemma known_phase_mono vs vs' n n' p : phase_known vs n p -> incl vs vs' -> n <= n' -> phase_known vs' n' p.
Proof. unfold phase_known. intros K I L. destruct p; auto; try lia. destruct a; auto. Qed.
(** What a move may do, as far as this is concerned. *)
Lemma known_move w w' t p' : known w -> incl (w_versions w) (w_versions w') -> w_next w <= w_next w' ->
  (forall l, w_docs w' = Some l -> In (Some l) (w_versions w')) ->
  (forall s, w_current w' = Some s -> s < w_next w') ->
  (forall s, s < w_next w' -> In (Some (w_slots w' s)) (w_versions w')) ->
  w_phase w' = updt (w_phase w) t p' -> phase_known (w_versions w') (w_next w') p' -> known w'.
Proof.
  intros K I L D C S P Q. constructor; auto. intro u. rewrite P. destruct (thread_dec u t) as [->|N]; [rewrite updt_same; exact Q|].
  rewrite (updt_other _ _ _ _ N). exact (known_phase_mono _ _ _ _ _ (k_phase _ K u) I L).
Qed.
Lemma known_step requests t n w w' : known w -> step requests t n w = Some w' -> known w'.
Proof.
  intros K E. pose proof (k_docs _ K) as KD. pose proof (k_cur _ K) as KC. pose proof (k_slots _ K) as KS. pose proof (k_phase _ K) as KP. pose proof (KP t) as KT. unfold step in E. unfold phase_known in KT.
  destruct (w_phase w t) eqn:PH; cbv zeta in E; try discriminate;
    repeat match type of E with
    | context [match ?x with _ => _ end] =>
      match x with
      | w_phase _ _ => fail 1
      | _ => destruct x eqn:?; try discriminate
      end
    end; injection E as <-;
    (eapply (known_move w); [exact K|..|reflexivity|];
      cbn [w_versions w_next w_docs w_current w_slots set_phase set_files set_cached set_slots set_queues set_batch set_locks set_ghosts unlock finish store_slot insert_slot publish phase_known];
      try (intros x Hx; first [exact Hx | apply in_or_app; left; exact Hx]);
      try lia; try exact I; try exact (k_cur w K); try exact (k_docs w K); auto).
  all: try (intros l Hl; try rewrite app_nil_r; apply in_or_app; right; left; congruence).
  all: try (intros l Hl; apply in_or_app; left; auto; fail).
  all: try (intros s Hs; injection Hs as <-; lia).
  all: try (intros s Hs; apply in_or_app; left; apply KS; exact Hs).
  all: try discriminate.
  all: try (intros s Hs; unfold upd; destruct (s =? _) eqn:Q; [auto|apply KS; apply Nat.eqb_neq in Q; lia]).
  all: try (cbn; apply KS; apply KC; congruence).
  all: try (destruct t; cbn; auto).
  all: try (cbn; apply KS; lia).
Qed.
Lemma known_boot c d : known (boot c d).
Proof. constructor; cbn; intros; try (left; congruence); try discriminate; try lia. Qed.
Lemma known_reach requests w0 w : known w0 -> reach requests w0 w -> known w.
Proof. intros K R. induction R as [|w t n w' R IH E]; [exact K|]. exact (known_step _ _ _ _ _ IH E). Qed.

(** ** Requests that leave the index in place *)
Section INPLACE.
  Variable requests : nat -> request.
  Variable c0 : config.
  Variable d0 : docs.
  Hypothesis calm : forall k, in_place (requests k).

  Definition ok_phase (path : option thread) (queue : option nat) (items : nat -> list docs) (t : thread) (p : phase) : Prop :=
    match t with
    | W 0 =>
      match p with
      | Start | Batch => True
      | CLook | CHave _ | Write _ | Written _ | Loaded _ _ => path = Some (W 0)
      | _ => False
      end
    | W (S q) => p = Start /\ items (S q) = []
    | H k =>
      match p, requests k with
      | Start, _ | Answered _, _ => True
      | RGot s, Read => s = 0
      | CLook, Info | CHave _, Info | UQueue, Update _ => True
      | USend q, Update _ => q = 0 /\ queue = Some 0
      | Locked, Delete _ | Write _, Delete _ | Written _, Delete _ | Loaded _ _, Delete _ => path = Some t
      | Locked, Configure _ | CLook, Configure _ | CHave _, Configure _ | NewConfig _, Configure _ => True
      | _, _ => False
      end
    end.
  Definition between (w : world) (dd : docs) : Prop :=
    match w_path w with
    | Some t =>
      match w_phase w t with
      | Written c => dd = apply (change_of requests w t c) (w_slots w 0)
      | Loaded c l => l = dd /\ dd = apply (change_of requests w t c) (w_slots w 0)
      | _ => dd = w_slots w 0
      end
    | None => dd = w_slots w 0
    end.
  Record inv (w : world) : Prop := {
    i_cur : w_current w = Some 0;
    i_config : w_config w <> None;
    i_cached : w_cached w = Some (last (w_configured w) c0);
    i_queue : (w_queue w = None /\ w_queues w = 0) \/ (w_queue w = Some 0 /\ w_queues w = 1);
    i_threads : forall t, ok_phase (w_path w) (w_queue w) (w_items w) t (w_phase w t);
    i_docs : exists dd, w_docs w = Some dd /\ between w dd;
    i_pub : w_slots w 0 = replay (w_published w) d0;
    i_acc : concat (w_accepted w) = concat (map added (w_published w)) ++ in_hand w ++ concat (w_items w 0)
  }.
  Lemma inv_ready : inv (ready c0 d0).
  Proof using Type.
    constructor; cbn; auto; try discriminate. - intros [k|[|q]]; cbn; auto. - eauto.
  Qed.
  Lemma ok_other path queue items path' queue' items' t p : ok_phase path queue items t p ->
    (path = Some t -> path' = Some t) -> (queue = Some 0 -> queue' = Some 0) -> (forall q, items (S q) = [] -> items' (S q) = []) ->
    ok_phase path' queue' items' t p.
  Proof using Type.
    unfold ok_phase. intros O P Q I. destruct t as [k|[|q]].
    - destruct p; try exact O; destruct (requests k); try exact O; try (apply P; exact O). destruct O as (O1 & O2). split; auto.
    - destruct p; try exact O; apply P; exact O.
    - destruct O as (O1 & O2). split; [exact O1|apply I; exact O2].
  Qed.
  (** the threads other than the one that moves *)
  Lemma threads_move w t p' path' queue' items' : (forall u, ok_phase (w_path w) (w_queue w) (w_items w) u (w_phase w u)) ->
    (forall u, u <> t -> w_path w = Some u -> path' = Some u) -> (w_queue w = Some 0 -> queue' = Some 0) -> (forall q, w_items w (S q) = [] -> items' (S q) = []) ->
    ok_phase path' queue' items' t p' -> forall u, ok_phase path' queue' items' u (updt (w_phase w) t p' u).
  Proof using Type.
    intros O P Q I T u. destruct (thread_dec u t) as [->|N]; [rewrite updt_same; exact T|]. rewrite updt_other by exact N. apply (ok_other (w_path w) (w_queue w) (w_items w)); auto.
  Qed.
  Definition freed (o : option thread) (t : thread) : option thread := match o with Some u => if thread_eqb u t then None else o | None => None end.
  Lemma freed_other o t u : u <> t -> o = Some u -> freed o t = Some u.
  Proof using Type. intros N ->. cbn. rewrite (thread_eqb_neq _ _ N). reflexivity. Qed.
  Lemma freed_same t : freed (Some t) t = None.
  Proof using Type. cbn. rewrite thread_eqb_refl. reflexivity. Qed.
  (** [between] for a holder that does not move, or a thread that does not hold the lock *)
  Lemma between_other w w' t dd : between w dd -> w_path w <> Some t -> w_slots w' 0 = w_slots w 0 -> (w_path w' = w_path w) ->
    (forall u, u <> t -> w_phase w' u = w_phase w u) -> (forall q, W q <> t -> w_batch w' q = w_batch w q) -> between w' dd.
  Proof using Type.
    unfold between. intros B N S P F G. rewrite P, S. destruct (w_path w) as [u|]; [|exact B]. assert (u <> t) by congruence. rewrite (F u H).
    assert (C : forall c, change_of requests w' u c = change_of requests w u c) by (intro c; unfold change_of; destruct u; [reflexivity|rewrite G by exact H; reflexivity]).
    destruct (w_phase w u); rewrite ?C; exact B.
  Qed.
  Definition neutral (p : phase) : Prop := match p with Written _ | Loaded _ _ => False | _ => True end.
  Lemma inv_quiet w w' t p' : inv w -> w_current w' = w_current w -> w_config w' <> None -> w_cached w' = Some (last (w_configured w') c0) ->
    (w_queue w' = None /\ w_queues w' = 0) \/ (w_queue w' = Some 0 /\ w_queues w' = 1) -> w_docs w' = w_docs w -> w_slots w' 0 = w_slots w 0 -> w_published w' = w_published w ->
    w_phase w' = updt (w_phase w) t p' -> (forall u, u <> t -> w_path w = Some u <-> w_path w' = Some u) -> (w_queue w = Some 0 -> w_queue w' = Some 0) ->
    (forall q, w_items w (S q) = [] -> w_items w' (S q) = []) -> ok_phase (w_path w') (w_queue w') (w_items w') t p' ->
    neutral (w_phase w t) -> neutral p' -> (forall q, W q <> t -> w_batch w' q = w_batch w q) ->
    concat (w_accepted w') = concat (map added (w_published w')) ++ in_hand w' ++ concat (w_items w' 0) -> inv w'.
  Proof using Type.
    intros I C CF CA Q D S P PH PA QM IM O N N' B A. destruct I as [I1 I2 I3 I4 I5 I6 I7 I8]. constructor; auto.
    - congruence.
    - intro u. rewrite PH. apply (threads_move w t p'); auto. intros v Nv. apply (PA v Nv).
    - destruct I6 as (dd & DD & BT). exists dd. split; [congruence|]. destruct (w_path w) as [u|] eqn:PW.
      + destruct (thread_dec u t) as [->|Nu].
        * unfold between in BT. rewrite PW in BT. assert (DS : dd = w_slots w 0) by (destruct (w_phase w t); cbn in N; try contradiction; exact BT).
          unfold between. destruct (w_path w') as [v|] eqn:PW'; [|congruence]. destruct (thread_dec v t) as [->|Nv].
          -- rewrite PH, updt_same. destruct p'; cbn in N'; try contradiction; congruence.
          -- pose proof (proj2 (PA v Nv) eq_refl). congruence.
        * apply (between_other w w' t); auto; [congruence|transitivity (Some u); [apply (PA u Nu); reflexivity|congruence]|]. intros v Nv. rewrite PH. apply updt_other. exact Nv.
      + unfold between in BT. rewrite PW in BT. unfold between. destruct (w_path w') as [v|] eqn:PW'; [|congruence]. destruct (thread_dec v t) as [->|Nv].
        * rewrite PH, updt_same. destruct p'; cbn in N'; try contradiction; congruence.
        * pose proof (proj2 (PA v Nv) eq_refl). congruence.
    - congruence.
  Qed.
  Lemma between_at w t dd : between w dd -> w_path w = Some t -> neutral (w_phase w t) -> dd = w_slots w 0.
  Proof using Type. unfold between. intros B P N. rewrite P in B. destruct (w_phase w t); try contradiction; exact B. Qed.
  Lemma in_hand_other w t p' : t <> W 0 -> updt (w_phase w) t p' (W 0) = w_phase w (W 0).
  Proof using Type. intro N. apply updt_other. congruence. Qed.
  Lemma inv_write w t c l : inv w -> w_phase w t = Write c -> w_path w = Some t -> w_docs w = Some l -> ok_phase (w_path w) (w_queue w) (w_items w) t (Written c) ->
    inv (set_phase (set_files w (w_config w) (Some (apply (change_of requests w t c) l))) t (Written c)).
  Proof using Type.
    intros I PH PA D O. destruct I as [I1 I2 I3 I4 I5 I6 I7 I8]. constructor; cbn; auto.
    - apply (threads_move w); auto.
    - eexists. split; [reflexivity|]. unfold between. cbn. rewrite PA, updt_same. destruct I6 as (dd & DD & BT). rewrite D in DD. injection DD as <-.
      rewrite (between_at w t l BT PA) by (rewrite PH; exact I). destruct t; reflexivity.
    - unfold in_hand in *. cbn. unfold updt. destruct (thread_eqb (W 0) t) eqn:E; [|exact I8]. apply thread_eqb_eq in E. subst t. rewrite PH in I8. exact I8.
  Qed.
  Lemma inv_load w t c l : inv w -> w_phase w t = Written c -> w_path w = Some t -> w_docs w = Some l -> ok_phase (w_path w) (w_queue w) (w_items w) t (Loaded c l) ->
    inv (set_phase w t (Loaded c l)).
  Proof using Type.
    intros I PH PA D O. destruct I as [I1 I2 I3 I4 I5 I6 I7 I8]. constructor; cbn; auto.
    - apply (threads_move w); auto.
    - exists l. split; [exact D|]. unfold between. cbn. rewrite PA, updt_same. split; [reflexivity|]. destruct I6 as (dd & DD & BT). rewrite D in DD. injection DD as <-. unfold between in BT. rewrite PA, PH in BT. rewrite BT at 1. destruct t; reflexivity.
    - unfold in_hand in *. cbn. unfold updt. destruct (thread_eqb (W 0) t) eqn:E; [|exact I8]. apply thread_eqb_eq in E. subst t. rewrite PH in I8. exact I8.
  Qed.
  Lemma replay_snoc l x d : replay (l ++ [x]) d = apply x (replay l d).
  Proof using Type. unfold replay. rewrite fold_left_app, apply_effect. reflexivity. Qed.
  Lemma inv_publish w t c l : inv w -> w_phase w t = Loaded c l -> w_path w = Some t -> (t <> W 0 -> added (change_of requests w t c) = []) ->
    (forall q, t <> W (S q)) -> inv (finish (publish (store_slot w 0 l) (change_of requests w t c)) t Done).
  Proof using Type.
    intros I PH PA AD NW. destruct I as [I1 I2 I3 I4 I5 I6 I7 I8]. destruct I6 as (dd & DD & BT). unfold between in BT. rewrite PA, PH in BT. destruct BT as (-> & BT).
    constructor; cbn; auto.
    - intro u. apply (threads_move w); auto. { intros v Nv PV. cbn. congruence. } { destruct t as [k|[|q]]; cbn; auto. exfalso. apply (NW q). reflexivity. }
    - exists dd. split; [exact DD|]. unfold between. cbn. rewrite PA, thread_eqb_refl. reflexivity.
    - rewrite replay_snoc, <- I7. rewrite BT at 1. destruct t; reflexivity.
    - rewrite map_app, concat_app. cbn [map concat]. rewrite app_nil_r, <- app_assoc. rewrite I8. f_equal. unfold in_hand. cbn. destruct (thread_dec t (W 0)) as [->|N].
      + rewrite updt_same, PH. reflexivity.
      + rewrite updt_other by congruence. rewrite (AD N). reflexivity.
  Qed.

  Lemma freed_iff o t u : u <> t -> o = Some u <-> freed o t = Some u.
  Proof using Type.
    intro N. split; [apply freed_other; exact N|]. unfold freed. destruct o as [v|]; [|discriminate]. destruct (thread_eqb v t); [discriminate|auto].
  Qed.
  Ltac quiet := match goal with I : inv ?w, PH : w_phase ?w ?t = _, I8 : concat _ = _ |- inv ?w' =>
    eapply (inv_quiet w _ t);
      [exact I|first [reflexivity|assumption|cbn; congruence]|cbn; try congruence|cbn; first [assumption|idtac]|cbn; first [assumption|idtac]|first [reflexivity|assumption|cbn; congruence]|first [reflexivity|idtac]|first [reflexivity|idtac]|reflexivity
      |cbn; first [tauto|intros; apply freed_iff; assumption|idtac]|cbn; first [tauto|idtac]|cbn; first [tauto|idtac]|cbn; repeat match goal with R : requests _ = _ |- _ => rewrite R end; first [exact Logic.I|assumption|reflexivity|tauto|idtac]|rewrite PH; exact Logic.I|exact Logic.I|first [reflexivity|idtac]|first [exact I8|idtac]] end.
  Lemma inv_step t n w w' : inv w -> step requests t n w = Some w' -> inv w'.
  Proof using calm.
    intros I E. pose proof I as J. destruct J as [I1 I2 I3 I4 I5 I6 I7 I8]. pose proof (I5 t) as O. unfold step in E. cbv zeta in E.
    destruct I6 as (dd & DD & BT).
    destruct t as [k|[|q]]; cbn [ok_phase] in O.
    - pose proof (calm k) as CK. destruct (w_phase w (H k)) eqn:PH; destruct (requests k) eqn:RK; cbn in CK; try contradiction; try discriminate.
      all: rewrite ?I1, ?I3, ?DD in E.
      (* Start *)
      + injection E as <-. quiet.
      + injection E as <-. quiet.
      + destruct (w_config w) eqn:CW; [|congruence]. injection E as <-. quiet.
      + destruct (w_path w) eqn:PW; [discriminate|]. injection E as <-. quiet. intros u N. rewrite PW. split; congruence.
      + destruct (w_name w) eqn:NW; [discriminate|]. injection E as <-. quiet.
      (* RGot, CLook, CHave *)
      + injection E as <-. quiet.
      + injection E as <-. quiet.
      + injection E as <-. quiet.
      + injection E as <-. quiet.
      + destruct (w_config w) eqn:CW; [|congruence]. injection E as <-. quiet.
      (* Locked *)
      + injection E as <-. quiet.
      + injection E as <-. quiet.
      (* Write, Written, Loaded *)
      + injection E as <-. refine (inv_write w (H k) c dd I PH O DD _). cbn. rewrite RK. exact O.
      + injection E as <-. apply inv_load; auto. cbn. rewrite RK. exact O.
      + injection E as <-. refine (inv_publish w (H k) c l I PH O _ _); [|discriminate]. intros _. cbn. rewrite RK. reflexivity.
      + injection E as <-. quiet. rewrite last_last. reflexivity.
      + destruct I4 as [(Q & Z)|(Q & Z)]; rewrite Q in E; injection E as <-; quiet; rewrite ?Z; auto; congruence.
      + destruct O as (-> & Q). injection E as <-. quiet.
        unfold in_hand. cbn. rewrite concat_app, I8. unfold in_hand. cbn. unfold upd. cbn. rewrite concat_app. cbn. rewrite !app_nil_r, <- !app_assoc. reflexivity.
    - destruct (w_phase w (W 0)) eqn:PH; try contradiction; rewrite ?I1, ?I3, ?DD in E.
      + destruct ((1 <=? n) && (n <=? length (w_items w 0))); [|discriminate]. injection E as <-. quiet; [intros q N; apply upd_other; congruence|].
        unfold in_hand in *. cbn. rewrite PH in I8. rewrite I8. unfold upd. cbn. rewrite <- (firstn_skipn n (w_items w 0)) at 1. rewrite concat_app. reflexivity.
      + injection E as <-. quiet. unfold in_hand in *. cbn. rewrite PH in I8. exact I8.
      + injection E as <-. quiet. unfold in_hand in *. cbn. rewrite PH in I8. exact I8.
      + injection E as <-. exact (inv_write w (W 0) c dd I PH O DD O).
      + injection E as <-. apply inv_load; auto.
      + injection E as <-. refine (inv_publish w (W 0) c l I PH O _ _); [congruence|discriminate].
      + destruct (w_path w) eqn:PW; [discriminate|]. injection E as <-. quiet; [intros u N; rewrite PW; split; congruence|]. unfold in_hand in *. cbn. rewrite PH in I8. exact I8.
    - destruct O as (PH & IT). rewrite PH, IT in E. cbn in E. destruct n; discriminate.
  Qed.
End INPLACE.
