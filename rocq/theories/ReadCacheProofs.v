(** Proofs about the cache of read connections. *)
From Verif Require Import Base F32 IndexModel IndexSpec.
From Verif Require Import Text SqlModel MetaModel MetaQuery SyncModel ApiUpdate ReadCache ReadCacheSpec.
Open Scope nat_scope.

Lemma put_same {A} (f : nat -> A) k v : put f k v k = v.
Proof. unfold put. rewrite Nat.eqb_refl. reflexivity. Qed.
Lemma put_other {A} (f : nat -> A) k v j : j <> k -> put f k v j = f j.
Proof. intro N. unfold put. destruct (Nat.eqb_spec j k); [contradiction|reflexivity]. Qed.

Section C.
  Variable D : Type.
  Record sound (s : process D) (m : nat -> option D) (seen : list nat) : Prop := {
    so_now : forall p, current s p = m p;
    so_old : forall p i, p_file s p = Some i -> i < p_next s;
    so_inj : forall p q i, p_file s p = Some i -> p_file s q = Some i -> p = q;
    so_conn : forall p i, p_conn s p = Some i -> p_file s p = Some i /\ In p seen }.

  Lemma file_current (s : process D) p : p_file s p = None <-> current s p = None.
  Proof. unfold current. destruct (p_file s p); cbn; split; congruence. Qed.

  Lemma unlink_sound s m seen p : sound s m seen -> p_conn s p = None -> sound (unlink s p) (put m p None) seen.
  Proof.
    intros [N O I C] Z. split.
    - intro q. unfold current, unlink. cbn. unfold put. destruct (Nat.eqb_spec q p); [reflexivity|]. exact (N q).
    - intros q i. cbn. unfold put. destruct (Nat.eqb_spec q p); [discriminate|]. apply O.
    - intros q r i. cbn. unfold put. destruct (Nat.eqb_spec q p); [discriminate|]. destruct (Nat.eqb_spec r p); [discriminate|]. apply I.
    - intros q i. cbn. unfold put. intro H. destruct (Nat.eqb_spec q p) as [->|]; [congruence|]. exact (C q i H).
  Qed.
  Lemma invalidate_sound s m seen p : sound s m seen -> sound (invalidate s p) m seen.
  Proof.
    intros [N O I C]. split; [exact N|exact O|exact I|]. intros q i. cbn. unfold put. destruct (Nat.eqb_spec q p); [discriminate|]. apply C.
  Qed.
  Lemma new_file_sound s m seen p d : sound s m seen -> p_file s p = None -> sound (new_file s p d) (put m p (Some d)) seen.
  Proof.
    intros [N O I C] Z. split.
    - intro q. unfold current, new_file. cbn. unfold put at 2 3. destruct (Nat.eqb_spec q p); cbn; [rewrite put_same; reflexivity|].
      rewrite <- N. unfold current. destruct (p_file s q) as [i|] eqn:F; [|reflexivity]. cbn. rewrite put_other; [reflexivity|]. specialize (O q i F). lia.
    - intros q i. cbn. unfold put. destruct (Nat.eqb_spec q p); [intro H; injection H as <-; lia|]. intro H. specialize (O q i H). lia.
    - intros q r i. cbn. unfold put. destruct (Nat.eqb_spec q p) as [->|]; destruct (Nat.eqb_spec r p) as [->|]; intros H1 H2; auto; [injection H1 as <-; specialize (O _ _ H2); lia|injection H2 as <-; specialize (O _ _ H1); lia|exact (I _ _ _ H1 H2)].
    - intros q i H. cbn in *. destruct (C q i H) as (F & S). split; [|exact S]. unfold put. destruct (Nat.eqb_spec q p) as [->|]; [congruence|exact F].
  Qed.
  Lemma sound_ext s m m' seen : (forall p, m p = m' p) -> sound s m seen -> sound s m' seen.
  Proof. intros E [N O I C]. split; auto. intro p. rewrite <- E. apply N. Qed.
  Lemma create_sound s m seen p md : sound s m seen -> sound (create_db s p md) (put m p md) seen.
  Proof.
    intro H. unfold create_db. set (s1 := match p_file s p with Some _ => _ | None => s end).
    assert (S1 : sound s1 (put m p None) seen /\ p_file s1 p = None).
    { unfold s1. destruct (p_file s p) as [i|] eqn:F.
      - split; [|cbn; apply put_same]. apply unlink_sound; [apply invalidate_sound, H|cbn; apply put_same].
      - split; [|exact F]. eapply sound_ext; [|exact H]. intro q. unfold put. destruct (Nat.eqb_spec q p) as [->|]; [|reflexivity]. rewrite <- (so_now _ _ _ H). apply file_current. exact F. }
    destruct S1 as (S1 & F1). destruct md as [d|]; [|exact S1]. eapply sound_ext; [|apply new_file_sound; [exact S1|exact F1]].
    intro q. unfold put. destruct (q =? p); reflexivity.
  Qed.
  Lemma write_sound s m seen p f : sound s m seen -> sound (write_db s p f) (put m p (option_map f (m p))) seen.
  Proof.
    intros [N O I C]. unfold write_db. pose proof (N p) as Np. unfold current in Np. destruct (p_file s p) as [i|] eqn:F.
    - split; [|exact O|exact I|exact C]. intro q. unfold current. cbn. unfold put at 2. destruct (Nat.eqb_spec q p) as [->|Q].
      + rewrite F, <- Np. cbn. rewrite put_same. reflexivity.
      + rewrite <- N. unfold current. destruct (p_file s q) as [j|] eqn:G; [|reflexivity]. cbn. rewrite put_other; [reflexivity|]. intro Z. subst j. exact (Q (I _ _ _ G F)).
    - split; [|exact O|exact I|exact C]. intro q. unfold put. destruct (Nat.eqb_spec q p) as [->|]; [|apply N]. rewrite <- Np. unfold current. rewrite F. reflexivity.
  Qed.
  Lemma read_sound s m seen p : sound s m seen -> snd (read_db s p) = m p /\ sound (fst (read_db s p)) m (p :: seen).
  Proof.
    intros [N O I C]. unfold read_db. pose proof (N p) as Np. unfold current in Np. destruct (p_file s p) as [i|] eqn:F; cbn in Np.
    - destruct (p_conn s p) as [j|] eqn:K.
      + destruct (C p j K) as (F' & _). rewrite F in F'. injection F' as <-. split; [exact Np|]. split; auto. intros q k H. destruct (C q k H). split; [assumption|right; assumption].
      + split; [exact Np|]. split; [exact N|exact O|exact I|]. intros q k. cbn. unfold put. destruct (Nat.eqb_spec q p) as [->|]; [intro H; injection H as <-; split; [exact F|left; reflexivity]|].
        intro H. destruct (C q k H). split; [assumption|right; assumption].
    - split; [exact Np|]. split; auto. intros q k H. destruct (C q k H). split; [assumption|right; assumption].
  Qed.
  Lemma rename_sound s m seen p q : sound s m seen -> ~ In p seen -> ~ In q seen ->
    sound (rename s p q) (match m q with Some _ => m | None => put (put m q (m p)) p None end) seen.
  Proof.
    intros [N O I C] P Q. unfold rename. pose proof (N q) as Nq. unfold current in Nq. destruct (p_file s q) as [i|] eqn:F; cbn in Nq; rewrite <- Nq; [split; auto|].
    split.
    - intro r. unfold current. cbn. unfold put. destruct (Nat.eqb_spec r p); [reflexivity|]. destruct (Nat.eqb_spec r q); [exact (N p)|exact (N r)].
    - intros r k. cbn. unfold put. destruct (Nat.eqb_spec r p); [discriminate|]. destruct (Nat.eqb_spec r q); apply O.
    - intros r t k. cbn. unfold put. destruct (Nat.eqb_spec r p); [discriminate|]. destruct (Nat.eqb_spec t p); [discriminate|].
      destruct (Nat.eqb_spec r q); destruct (Nat.eqb_spec t q); intros H1 H2; try congruence; [exfalso; pose proof (I _ _ _ H1 H2); congruence|exfalso; pose proof (I _ _ _ H1 H2); congruence|exact (I _ _ _ H1 H2)].
    - intros r k H. cbn in *. destruct (C r k H) as (G & S). split; [|exact S]. unfold put. destruct (Nat.eqb_spec r p); [subst; contradiction|]. destruct (Nat.eqb_spec r q); [subst; contradiction|exact G].
  Qed.

  Lemma reads_current : forall l s m seen, sound s m seen -> undisturbed seen l -> answers s l = plain_answers m l.
  Proof.
    induction l as [|a l IH]; intros s m seen S H; [reflexivity|]. cbn [answers plain_answers]. destruct a as [p md|p f|p|p|p q]; cbn [do_act plain undisturbed] in *.
    - f_equal. apply (IH _ _ seen); [apply create_sound, S|exact H].
    - f_equal. apply (IH _ _ seen); [apply write_sound, S|exact H].
    - destruct (read_sound s m seen p S) as (R & S'). destruct (read_db s p) as (s', x). cbn [fst snd] in *. subst x. f_equal. exact (IH _ _ _ S' H).
    - destruct H as (N & H). f_equal. apply (IH _ _ seen); [|exact H]. apply unlink_sound; [exact S|]. destruct (p_conn s p) as [i|] eqn:K; [|reflexivity]. destruct (so_conn _ _ _ S p i K). contradiction.
    - destruct H as (N1 & N2 & H). f_equal. apply (IH _ _ seen); [apply rename_sound; assumption|exact H].
  Qed.
  Lemma begin_sound any : sound (begin any) (fun _ => None) [].
  Proof. split; cbn; try discriminate. reflexivity. Qed.

  (** *** Threads *)
  Definition calm_state (s : shared D) : Prop :=
    (forall p i, p_conn (h_proc s) p = Some i -> p_file (h_proc s) p = Some i) /\
    (forall t p i, h_reader s t = Opened p i \/ h_reader s t = Ready p i -> p_file (h_proc s) p = Some i).
  Lemma quiet_calm any s : quiet_run any s -> calm_state s.
  Proof.
    induction 1 as [|s e s' x Q (C & R) K G]; [split; cbn; [discriminate|intros t p i [H|H]; discriminate]|].
    assert (Keep : forall pr, p_conn pr = p_conn (h_proc s) -> (forall p i, p_file (h_proc s) p = Some i -> p_file pr p = Some i) -> calm_state {| h_proc := pr; h_reader := h_reader s |}).
    { intros pr E F. split; cbn; [intros p i; rewrite E; auto|intros t p i H; apply F; exact (R t p i H)]. }
    destruct e as [t p|t|t|t|a]; cbn [go] in G.
    - destruct (h_reader s t) eqn:T; try discriminate. destruct (p_file (h_proc s) p) eqn:F; [|discriminate]. injection G as <- _. split; [exact C|]. cbn. intros t' p' i'. unfold put. destruct (Nat.eqb_spec t' t); [|apply R].
      destruct (p_conn (h_proc s) p) eqn:K'; intros [H|H]; try discriminate. injection H as <- <-. exact (C _ _ K').
    - destruct (h_reader s t) eqn:T; try discriminate. injection G as <- _. split; [exact C|]. cbn. intros t' p' i'. unfold put. destruct (Nat.eqb_spec t' t); [|apply R].
      destruct (p_file (h_proc s) p) eqn:F; intros [H|H]; try discriminate. injection H as <- <-. exact F.
    - destruct (h_reader s t) as [|?|p i|?] eqn:T; try discriminate. pose proof (R t p i (or_introl T)) as F. destruct (p_conn (h_proc s) p) as [j|] eqn:K'; injection G as <- _; (split; cbn; [|intros t' p' i'; unfold put; destruct (Nat.eqb_spec t' t); [|apply R]; intros [H|H]; try discriminate; injection H as <- <-]).
      + exact C.
      + exact (C _ _ K').
      + intros p' i'. unfold put. destruct (Nat.eqb_spec p' p) as [->|]; [intro H; injection H as <-; exact F|apply C].
      + exact F.
    - destruct (h_reader s t) as [|?|?|p i] eqn:T; try discriminate. injection G as <- _. split; [exact C|]. cbn. intros t' p' i'. unfold put. destruct (Nat.eqb_spec t' t); [intros [H|H]; discriminate|apply R].
    - destruct a as [p md|p f|p|p|p q]; cbn [keeps_files] in K; try contradiction; try discriminate; injection G as <- _; cbn [do_act fst].
      + apply Keep; unfold create_db; apply file_current in K; rewrite K; destruct md; cbn; auto. intros q i H. unfold put. destruct (Nat.eqb_spec q p) as [->|]; [congruence|exact H].
      + apply Keep; unfold write_db; destruct (p_file (h_proc s) p); cbn; auto.
  Qed.
  Lemma query_current any (s : shared D) e s' p x : quiet_run any s -> go s e = Some (s', Some (p, x)) -> x = current (h_proc s) p.
  Proof.
    intros Q G. destruct (quiet_calm any s Q) as (_ & R). destruct e as [t q|t|t|t|a]; cbn [go] in G.
    - destruct (h_reader s t); try discriminate. destruct (p_file _ _); discriminate.
    - destruct (h_reader s t); discriminate.
    - destruct (h_reader s t) as [|?|q i|?]; try discriminate. destruct (p_conn _ _); discriminate.
    - destruct (h_reader s t) as [|?|?|q i] eqn:T; try discriminate. injection G as _ <- <-. unfold current. rewrite (R t q i (or_intror T)). reflexivity.
    - destruct a; discriminate.
  Qed.
End C.

Lemma repair_direct V s : repair_through V (fun m => m) s = repair V s.
Proof. reflexivity. Qed.
