From Coq Require Import String.
From Verif Require Import Base Text Calendar Npy NpyHeader AtomicFile AtomicSpec.
Open Scope list_scope. Open Scope nat_scope.

Lemma name_eqb_refl : forall n, name_eqb n n = true.
Proof. intro n. unfold name_eqb. destruct (list_eq_dec Z.eq_dec n n); congruence. Qed.
Lemma name_eqb_ne : forall a b, a <> b -> name_eqb a b = false.
Proof. intros a b H. unfold name_eqb. destruct (list_eq_dec Z.eq_dec a b); congruence. Qed.
Lemma set_same : forall d n x, set_entry d n x n = x.
Proof. intros. unfold set_entry. rewrite name_eqb_refl. reflexivity. Qed.
Lemma set_other : forall d n x m, m <> n -> set_entry d n x m = d m.
Proof. intros. unfold set_entry. rewrite name_eqb_ne by assumption. reflexivity. Qed.
Lemma change_out : forall c d n, ~ In n (map fst c) -> apply_change d c n = d n.
Proof.
  induction c as [|[m x] c IH]; intros d n H; [reflexivity|]. change (apply_change (set_entry d m x) c n = d n).
  cbn [map fst In] in H. rewrite IH by tauto. apply set_other. intro E. apply H. left. auto.
Qed.
Lemma changes_out : forall cs d n, Forall (fun c => ~ In n (map fst c)) cs -> apply_changes d cs n = d n.
Proof.
  induction cs as [|c cs IH]; intros d n H; [reflexivity|]. inversion H; subst. change (apply_changes (apply_change d c) cs n = d n).
  rewrite IH by assumption. apply change_out. assumption.
Qed.
Lemma sub_Forall : forall {A} (P : A -> Prop) l m, sub l m -> Forall P m -> Forall P l.
Proof. induction 1; intro HF; [constructor|inversion HF; auto|inversion HF; constructor; auto]. Qed.
Lemma sub_app_inv : forall {A} (m1 m2 l : list A), sub l (m1 ++ m2) -> exists l1 l2, l = l1 ++ l2 /\ sub l1 m1 /\ sub l2 m2.
Proof.
  induction m1 as [|x m1 IH]; intros m2 l H; cbn [app] in H.
  - exists [], l. repeat split; [constructor|exact H].
  - inversion H as [|x0 l0 m0 H0|x0 l0 m0 H0]; subst.
    + destruct (IH _ _ H0) as (l1 & l2 & -> & H1 & H2). exists l1, l2. repeat split; auto. constructor. exact H1.
    + destruct (IH _ _ H0) as (l1 & l2 & -> & H1 & H2). exists (x :: l1), l2. repeat split; auto. apply sub_take. exact H1.
Qed.

Lemma exec_all_app : forall a b s, exec_all s (a ++ b) = exec_all (exec_all s a) b.
Proof. intros. unfold exec_all. apply fold_left_app. Qed.
Lemma exec_all_cons : forall o b s, exec_all s (o :: b) = exec_all (exec s o) b.
Proof. reflexivity. Qed.
(** the state as seen for one name: the inode it has, kept clean and unchanged *)
Lemma settled_read : forall s n r, settled s n -> after_power_loss s n r -> r = read s n.
Proof.
  intros s n r [H1 [H2 H3]] [cs [Hs Hr]]. rewrite changes_out in Hr by exact (sub_Forall _ _ _ Hs H2).
  unfold read. rewrite H1 in Hr. destruct (entries s n) as [i|] eqn:E; [|exact Hr].
  destruct Hr as [b [-> Hb]]. cbn [option_map]. rewrite Hb; [reflexivity|]. exact (proj2 (H3 i eq_refl)).
Qed.

(** Operations that do not touch the name nor its inode. *)
Definition away (lim : nat) (n : name) (o : op) : Prop :=
  match o with Create m => m <> n | Write i _ => lim <= i | Fsync _ => True | Rename a b => a <> n /\ b <> n | Unlink m => m <> n | FsyncDir => True end.
Lemma exec_away : forall s n o lim, settled s n -> lim <= next s -> (forall i, entries s n = Some i -> i < lim) -> away lim n o ->
  settled (exec s o) n /\ lim <= next (exec s o) /\ entries (exec s o) n = entries s n /\ read (exec s o) n = read s n.
Proof.
  intros s n o lim [H1 [H2 H3]] Hl Hlt Ha. unfold settled, read.
  destruct o as [m|i b|i|a b|m|]; cbn [exec away entries content clean next durable unsynced dir_change] in *.
  - rewrite set_other by congruence. repeat split; [exact H1| | | |lia|].
    + apply Forall_app. split; [exact H2|]. constructor; [|constructor]. cbn. intros [E|[]]. congruence.
    + specialize (Hlt _ H). lia.
    + destruct (i =? next s) eqn:E; [apply Nat.eqb_eq in E; specialize (Hlt _ H); lia|]. apply H3, H.
    + destruct (entries s n) as [j|] eqn:E; [|reflexivity]. cbn [option_map].
      destruct (j =? next s) eqn:E2; [apply Nat.eqb_eq in E2; specialize (Hlt _ eq_refl); lia|]. reflexivity.
  - repeat split; [exact H1|exact H2|apply (H3 i0), H| |lia|].
    + destruct (i0 =? i) eqn:E; [apply Nat.eqb_eq in E; specialize (Hlt _ H); lia|]. apply H3, H.
    + destruct (entries s n) as [j|] eqn:E; [|reflexivity]. cbn [option_map].
      destruct (j =? i) eqn:E2; [apply Nat.eqb_eq in E2; specialize (Hlt _ eq_refl); lia|]. reflexivity.
  - repeat split; [exact H1|exact H2|apply (H3 i0), H| |lia]. destruct (i0 =? i); [reflexivity|]. apply H3, H.
  - destruct Ha as [Ha Hb]. unfold apply_change. cbn [fold_left fst snd]. rewrite !set_other by congruence.
    repeat split; [exact H1| |apply (H3 i), H|apply (H3 i), H|lia].
    apply Forall_app. split; [exact H2|]. constructor; [|constructor]. cbn. intros [E|[E|[]]]; congruence.
  - unfold apply_change. cbn [fold_left fst snd]. rewrite !set_other by congruence.
    repeat split; [exact H1| |apply (H3 i), H|apply (H3 i), H|lia].
    apply Forall_app. split; [exact H2|]. constructor; [|constructor]. cbn. intros [E|[]]; congruence.
  - repeat split; [constructor|apply (H3 i), H|apply (H3 i), H|lia].
Qed.
Lemma exec_all_away : forall n lim os s, settled s n -> lim <= next s -> (forall i, entries s n = Some i -> i < lim) -> Forall (away lim n) os ->
  settled (exec_all s os) n /\ lim <= next (exec_all s os) /\ entries (exec_all s os) n = entries s n /\ read (exec_all s os) n = read s n.
Proof.
  intros n lim. induction os as [|o os IH]; intros s Hs Hl Hlt Ha; [auto|]. inversion Ha; subst.
  destruct (exec_away s n o lim Hs Hl Hlt H1) as (Ha1 & Ha2 & Ha3 & Ha4).
  destruct (IH (exec s o) Ha1 Ha2 ltac:(rewrite Ha3; exact Hlt) H2) as (Hb1 & Hb2 & Hb3 & Hb4).
  unfold exec_all in *. cbn [fold_left]. rewrite Hb3, Hb4. auto.
Qed.
(** names are at most set, files kept: also for names that are not settled *)
Lemma exec_all_read : forall n lim os s, lim <= next s -> (forall i, entries s n = Some i -> i < lim) -> Forall (away lim n) os ->
  read (exec_all s os) n = read s n /\ lim <= next (exec_all s os) /\ entries (exec_all s os) n = entries s n.
Proof.
  intros n lim. induction os as [|o os IH]; intros s Hl Hlt Ha; [auto|]. inversion Ha; subst.
  assert (HH : read (exec s o) n = read s n /\ lim <= next (exec s o) /\ entries (exec s o) n = entries s n).
  { unfold read. destruct o as [m|i b|i|a b|m|]; cbn [exec away entries content clean next durable unsynced dir_change] in *.
    - rewrite set_other by congruence. repeat split; [|lia]. destruct (entries s n) as [j|] eqn:E; [|reflexivity]. cbn [option_map].
      destruct (j =? next s) eqn:E2; [apply Nat.eqb_eq in E2; specialize (Hlt _ eq_refl); lia|]. reflexivity.
    - repeat split; [|lia]. destruct (entries s n) as [j|] eqn:E; [|reflexivity]. cbn [option_map].
      destruct (j =? i) eqn:E2; [apply Nat.eqb_eq in E2; specialize (Hlt _ eq_refl); lia|]. reflexivity.
    - auto.
    - destruct H1 as [Ha' Hb]. unfold apply_change. cbn [fold_left fst snd]. rewrite !set_other by congruence. auto.
    - unfold apply_change. cbn [fold_left fst snd]. rewrite !set_other by congruence. auto.
    - auto. }
  destruct HH as (Ha1 & Ha2 & Ha3). destruct (IH (exec s o) Ha2 ltac:(rewrite Ha3; exact Hlt) H2) as (Hb1 & Hb2 & Hb3).
  unfold exec_all in *. cbn [fold_left]. rewrite Hb1, Hb3. auto.
Qed.

Section ATOMIC.
  Variable valid_utf8 : name -> bool.
  Variable pid : Z.
  Variable ascii_ok : forall n, ascii_text n -> valid_utf8 n = true.
  Set Default Proof Using "Type".
  Notation temp_name := (temp_name valid_utf8 pid).
  Notation atomic := (atomic_write_file valid_utf8 pid).

  Lemma ascii_digit n : (0 <= n)%Z -> ascii_text (digits n).
  Proof. intros H c I. pose proof (digits_digit n c H I). unfold is_ascii. lia. Qed.
  Lemma temp_ne : (0 <= pid)%Z -> forall n z k, (0 <= z)%Z -> temp_name n z k <> n.
  Proof using ascii_ok.
    intros Hp n z k Hz E. unfold AtomicFile.temp_name in E. destruct (valid_utf8 n) eqn:Ev.
    - apply (f_equal (@length Z)) in E. rewrite !app_length in E. cbn in E. lia.
    - rewrite <- E, ascii_ok in Ev; [discriminate|].
      intros c Hc. repeat (apply in_app_or in Hc; destruct Hc as [Hc|Hc]);
        try (match goal with Hc : In c (txt ?l) |- _ => revert c Hc; apply forallb_forall; reflexivity end).
      + exact (ascii_digit pid Hp c Hc).
      + exact (ascii_digit (z + Z.of_nat k) ltac:(lia) c Hc).
  Qed.

  Lemma open_temp_ok : forall x s n left k t, open_temp valid_utf8 pid x s n k left = Ok t ->
    (exists j, t = temp_name n (clock x j) j) /\ entries s t = None.
  Proof.
    intros x s n. induction left as [|l IH]; intros k t H; cbn [open_temp] in H; destruct (open_fails x k); try discriminate;
      destruct (entries s (temp_name n (clock x k) k)) eqn:E; try discriminate.
    - injection H as <-. eauto.
    - exact (IH _ _ H).
    - injection H as <-. eauto.
  Qed.
  Lemma open_temp_res : forall x s n left k, open_temp valid_utf8 pid x s n k left <> Panic.
  Proof.
    intros x s n. induction left as [|l IH]; intro k; cbn [open_temp]; destruct (open_fails x k); try discriminate;
      destruct (entries s (temp_name n (clock x k) k)); try discriminate. apply IH.
  Qed.

  (** the temporary file while it is written *)
  Lemma writes_state : forall ws i s t, entries s t = Some i -> forall s', s' = exec_all s (map (Write i) ws) ->
    entries s' t = Some i /\ content s' i = content s i ++ concat ws.
  Proof.
    induction ws as [|w ws IH]; intros i s t Ht s' ->; cbn [map concat]; [rewrite app_nil_r; auto|].
    rewrite exec_all_cons.
    destruct (IH i (exec s (Write i w)) t Ht _ eq_refl) as [H1 H2]. rewrite H1, H2. cbn [exec content]. rewrite Nat.eqb_refl, <- app_assoc. auto.
  Qed.
  Definition pre (s : fs) (t : name) (ws : list bytes) : list op := Create t :: map (Write (next s)) ws ++ [Fsync (next s)].
  Lemma pre_state : forall s t ws s1, s1 = exec_all s (pre s t ws) ->
    entries s1 t = Some (next s) /\ content s1 (next s) = concat ws /\ clean s1 (next s) = true.
  Proof.
    intros s t ws s1 ->. unfold pre. rewrite exec_all_cons, exec_all_app.
    destruct (writes_state ws (next s) (exec s (Create t)) t) with (s' := exec_all (exec s (Create t)) (map (Write (next s)) ws)) as [H1 H2];
      [cbn [exec entries]; apply set_same|reflexivity|].
    rewrite exec_all_cons. cbn [exec_all fold_left].
    generalize dependent (exec_all (exec s (Create t)) (map (Write (next s)) ws)). intros s1 H1 H2.
    cbn [exec entries content clean] in *. rewrite H1, H2, Nat.eqb_refl. cbn [app]. auto.
  Qed.
  Lemma start_away : forall s t n ws, t <> n -> Forall (away (next s) n) (Create t :: map (Write (next s)) ws).
  Proof. intros s t n ws H. constructor; [exact H|]. apply Forall_map, Forall_forall. intros b _. apply le_n. Qed.
  Lemma pre_away : forall s t n ws, t <> n -> Forall (away (next s) n) (pre s t ws).
  Proof.
    intros s t n ws H. unfold pre. change (Create t :: map (Write (next s)) ws ++ [Fsync (next s)]) with ((Create t :: map (Write (next s)) ws) ++ [Fsync (next s)]).
    apply Forall_app. split; [apply start_away, H|]. constructor; [exact I|constructor].
  Qed.
  Lemma firstn_Forall : forall {A} (P : A -> Prop) l k, Forall P l -> Forall P (firstn k l).
  Proof. intros A P l k H. rewrite <- (firstn_skipn k l) in H. apply Forall_app in H. tauto. Qed.

  (** the shape of a run *)
  Lemma shape : forall x s n os r, atomic x s n = (os, r) ->
    (r = Ok tt /\ write_ok x = true /\ exists t, (exists j, t = temp_name n (clock x j) j) /\
       os = pre s t (writes x) ++ Rename t n :: (if dirsync_ok x then [FsyncDir] else []))
    \/ (r = Err /\ (os = [] \/ exists t, (exists j, t = temp_name n (clock x j) j) /\ entries s t = None /\
          ((rename_ok x = false /\ os = pre s t (writes x)) \/ os = (Create t :: map (Write (next s)) (writes x)) ++ [Unlink t]))).
  Proof.
    intros x s n os r H. unfold atomic_write_file in H. destruct (open_temp valid_utf8 pid x s n 0 8) as [t| |] eqn:Et.
    - destruct (open_temp_ok _ _ _ _ _ _ Et) as [Ht He]. destruct (write_ok x) eqn:Ew; cbn [andb] in H.
      + destruct (sync_ok x); cbn [andb] in H.
        * destruct (rename_ok x) eqn:Er; injection H as <- <-.
          -- left. split; [reflexivity|]. split; [reflexivity|]. exists t. split; [exact Ht|]. unfold pre. cbn [app].
             rewrite <- app_assoc. reflexivity.
          -- right. split; [reflexivity|]. right. exists t. repeat split; auto.
        * injection H as <- <-. right. split; [reflexivity|]. right. exists t. repeat split; auto.
      + injection H as <- <-. right. split; [reflexivity|]. right. exists t. repeat split; auto.
    - injection H as <- <-. right. auto.
    - exfalso. exact (open_temp_res _ _ _ _ _ Et).
  Qed.

  Definition new (x : io) : option bytes := if write_ok x then Some (concat (writes x)) else None.
  Lemma all_points : (0 <= pid)%Z -> forall x s n os r k, (forall j, (0 <= clock x j)%Z) -> settled s n -> atomic x s n = (os, r) ->
    forall s', s' = exec_all s (firstn k os) ->
    (read s' n = read s n /\ forall a, after_power_loss s' n a -> a = read s n)
    \/ (r = Ok tt /\ read s' n = Some (concat (writes x)) /\ write_ok x = true /\
        forall a, after_power_loss s' n a -> (a = read s n /\ (length os <= k -> dirsync_ok x = false)) \/ a = Some (concat (writes x))).
  Proof using ascii_ok.
    intros Hp x s n os r k Hc Hs H s' ->.
    assert (Hlt : forall i, entries s n = Some i -> i < next s) by (intros i E; exact (proj1 (proj2 (proj2 Hs) i E))).
    assert (Hold : forall l, Forall (away (next s) n) l ->
      read (exec_all s l) n = read s n /\ forall a, after_power_loss (exec_all s l) n a -> a = read s n).
    { intros l Hl. destruct (exec_all_away n (next s) l s Hs (le_n _) Hlt Hl) as (H1 & _ & _ & H2). split; [exact H2|].
      intros a Ha. rewrite <- H2. exact (settled_read _ _ _ H1 Ha). }
    destruct (shape _ _ _ _ _ H) as [[-> [Hw [t [[j Ht] ->]]]]|[-> [->|[t [[j Ht] [_ [[_ ->]| ->]]]]]]].
    - assert (Hne : t <> n) by (subst t; apply temp_ne; auto).
      destruct (Nat.le_gt_cases k (length (pre s t (writes x)))) as [Hk|Hk].
      + left. rewrite firstn_app. replace (k - _) with 0 by lia. cbn [firstn]. rewrite app_nil_r. apply Hold. apply firstn_Forall, pre_away, Hne.
      + right. split; [reflexivity|]. rewrite firstn_app, firstn_all2 by lia. rewrite exec_all_app.
        destruct (pre_state s t (writes x) _ eq_refl) as (P1 & P2 & P3).
        destruct (exec_all_away n (next s) _ s Hs (le_n _) Hlt (pre_away s t n (writes x) Hne)) as ((Q1 & Q2 & Q3) & Q4 & Q5 & Q6).
        set (s1 := exec_all s (pre s t (writes x))) in *.
        destruct (k - length (pre s t (writes x))) as [|k'] eqn:Ek; [lia|]. cbn [firstn fold_left].
        set (s2 := exec s1 (Rename t n)).
        assert (E2 : entries s2 n = Some (next s)).
        { unfold s2. cbn [exec dir_change entries]. unfold apply_change. cbn [fold_left fst snd]. rewrite set_other by congruence.
          rewrite set_same. exact P1. }
        assert (Hnew2 : forall a, after_power_loss s2 n a -> a = read s n \/ a = Some (concat (writes x))).
        { intros a [cs [Hsub Ha]]. unfold s2 in Hsub. cbn [exec dir_change unsynced] in Hsub.
          destruct (sub_app_inv _ _ _ Hsub) as (l1 & l2 & -> & S1 & S2).
          unfold apply_changes in Ha. rewrite fold_left_app in Ha. fold (apply_changes (durable s2) l1) in Ha.
          inversion S2 as [|? ? ? S3|? ? ? S3]; subst; inversion S3; subst.
          - left. rewrite <- Q6. apply (settled_read s1 n a (conj Q1 (conj Q2 Q3))).
            exists l1. split; [exact S1|]. exact Ha.
          - right. cbn [fold_left] in Ha. unfold apply_change in Ha. cbn [fold_left fst snd] in Ha. rewrite set_other in Ha by congruence.
            rewrite set_same, P1 in Ha. destruct Ha as [b [-> Hb]]. rewrite <- P2. f_equal. apply Hb. exact P3. }
        assert (R2 : read s2 n = Some (concat (writes x))) by (unfold read; rewrite E2; cbn [option_map]; rewrite <- P2; reflexivity).
        assert (F2 : entries (exec s2 FsyncDir) n = Some (next s)) by exact E2.
        assert (R3 : read (exec s2 FsyncDir) n = Some (concat (writes x))) by exact R2.
        rewrite exec_all_cons. change (exec s1 (Rename t n)) with s2.
        destruct (dirsync_ok x) eqn:Ed.
        * destruct k' as [|k'']; cbn [firstn].
          -- change (exec_all s2 []) with s2. split; [exact R2|]. split; [exact Hw|].
             intros a Ha. destruct (Hnew2 a Ha) as [-> | ->]; [left|right; reflexivity]. split; [reflexivity|].
             intro Hlen. rewrite app_length in Hlen. cbn [length] in Hlen. lia.
          -- rewrite firstn_nil. change (exec_all s2 [FsyncDir]) with (exec s2 FsyncDir). split; [exact R3|]. split; [exact Hw|].
             intros a [cs [Hsub Ha]]. change (unsynced (exec s2 FsyncDir)) with (@nil change) in Hsub.
             change (durable (exec s2 FsyncDir)) with (entries s2) in Ha. inversion Hsub; subst cs.
             change (apply_changes (entries s2) []) with (entries s2) in Ha. rewrite E2 in Ha. destruct Ha as [b [-> Hb]]. right. rewrite <- P2. f_equal. apply Hb. exact P3.
        * rewrite firstn_nil. change (exec_all s2 []) with s2. split; [exact R2|]. split; [exact Hw|].
          intros a Ha. destruct (Hnew2 a Ha) as [-> | ->]; [left|right; reflexivity]. auto.
    - left. rewrite firstn_nil. apply Hold. constructor.
    - left. assert (Hne : t <> n) by (subst t; apply temp_ne; auto). apply Hold. apply firstn_Forall, pre_away, Hne.
    - left. assert (Hne : t <> n) by (subst t; apply temp_ne; auto). apply Hold. apply firstn_Forall, Forall_app. split; [apply start_away, Hne|].
      constructor; [exact Hne|constructor].
  Qed.

  Lemma running : (0 <= pid)%Z -> forall x s n os r k, (forall j, (0 <= clock x j)%Z) -> settled s n -> atomic x s n = (os, r) ->
    read (exec_all s (firstn k os)) n = read s n \/ (write_ok x = true /\ r = Ok tt /\ read (exec_all s (firstn k os)) n = Some (concat (writes x))).
  Proof using ascii_ok.
    intros Hp x s n os r k Hc Hs H. destruct (all_points Hp x s n os r k Hc Hs H _ eq_refl) as [[H1 _]|(H1 & H2 & H3 & _)]; auto.
  Qed.
  Lemma power_loss : (0 <= pid)%Z -> forall x s n os r k a, (forall j, (0 <= clock x j)%Z) -> settled s n -> atomic x s n = (os, r) ->
    after_power_loss (exec_all s (firstn k os)) n a -> a = read s n \/ (write_ok x = true /\ r = Ok tt /\ a = Some (concat (writes x))).
  Proof using ascii_ok.
    intros Hp x s n os r k a Hc Hs H Ha. destruct (all_points Hp x s n os r k Hc Hs H _ eq_refl) as [[_ H1]|(H1 & H2 & H3 & H4)]; auto.
    destruct (H4 a Ha) as [[-> _] | ->]; auto.
  Qed.
  Lemma failed : (0 <= pid)%Z -> forall x s n os r, (forall j, (0 <= clock x j)%Z) -> settled s n -> atomic x s n = (os, r) -> r <> Ok tt ->
    r = Err /\ read (exec_all s os) n = read s n /\ forall a, after_power_loss (exec_all s os) n a -> a = read s n.
  Proof using ascii_ok.
    intros Hp x s n os r Hc Hs H Hr.
    assert (Hk : firstn (length os) os = os) by apply firstn_all.
    pose proof (all_points Hp x s n os r (length os) Hc Hs H _ eq_refl) as HH. rewrite Hk in HH.
    destruct HH as [[H1 H2]|(H1 & _)]; [|congruence]. split; [|auto].
    destruct (shape _ _ _ _ _ H) as [[-> _]|[-> _]]; [congruence|reflexivity].
  Qed.
  Lemma succeeded : (0 <= pid)%Z -> forall x s n os, (forall j, (0 <= clock x j)%Z) -> settled s n -> atomic x s n = (os, Ok tt) ->
    read (exec_all s os) n = Some (concat (writes x)) /\
    (dirsync_ok x = true -> settled (exec_all s os) n /\ forall a, after_power_loss (exec_all s os) n a -> a = Some (concat (writes x))).
  Proof using ascii_ok.
    intros Hp x s n os Hc Hs H.
    destruct (shape _ _ _ _ _ H) as [[_ [Hw [t [[j Ht] E]]]]|[E _]]; [|discriminate].
    assert (Hne : t <> n) by (subst t; apply temp_ne; auto).
    destruct (pre_state s t (writes x) _ eq_refl) as (P1 & P2 & P3).
    assert (Hlt : forall i, entries s n = Some i -> i < next s) by (intros i Ei; exact (proj1 (proj2 (proj2 Hs) i Ei))).
    assert (Hnx : next s < next (exec_all s (pre s t (writes x)))).
    { unfold pre. rewrite exec_all_cons, exec_all_app, exec_all_cons. cbn [exec_all fold_left exec next].
      enough (HH : forall ws s0, next (exec_all s0 (map (Write (next s)) ws)) = next s0) by (rewrite HH; cbn [exec next]; apply Nat.lt_succ_diag_r).
      induction ws as [|w ws IH]; intro s0; [reflexivity|]. cbn [map]. rewrite exec_all_cons, IH. reflexivity. }
    rewrite E, exec_all_app, exec_all_cons.
    set (s1 := exec_all s (pre s t (writes x))) in *. set (s2 := exec s1 (Rename t n)).
    assert (E2 : entries s2 n = Some (next s)).
    { unfold s2. cbn [exec dir_change entries]. unfold apply_change. cbn [fold_left fst snd]. rewrite set_other by congruence.
      rewrite set_same. exact P1. }
    assert (R2 : read s2 n = Some (concat (writes x))) by (unfold read; rewrite E2; cbn [option_map]; rewrite <- P2; reflexivity).
    destruct (dirsync_ok x).
    - split; [exact R2|]. intros _.
      assert (Hset : settled (exec s2 FsyncDir) n).
      { split; [reflexivity|]. split; [constructor|]. intros i Ei. change (entries (exec s2 FsyncDir) n) with (entries s2 n) in Ei.
        rewrite E2 in Ei. injection Ei as <-. split; [exact Hnx|exact P3]. }
      split; [exact Hset|]. intros a Ha. rewrite (settled_read _ _ _ Hset Ha). exact R2.
    - split; [exact R2|discriminate].
  Qed.
  (** every other file *)
  Lemma ops_away : forall x s n os r m, atomic x s n = (os, r) -> m <> n -> ~ temporary valid_utf8 pid n m -> Forall (away (next s) m) os.
  Proof.
    intros x s n os r m H Hm Ht.
    assert (Hne : forall t, (exists j, t = temp_name n (clock x j) j) -> t <> m).
    { intros t [j ->] E. apply Ht. exists (clock x j), j. auto. }
    destruct (shape _ _ _ _ _ H) as [[_ [_ [t [Hj ->]]]]|[_ [->|[t [Hj [_ [[_ ->]| ->]]]]]]].
    - specialize (Hne t Hj). apply Forall_app. split; [apply pre_away, Hne|]. constructor; [split; congruence|].
      destruct (dirsync_ok x); repeat constructor.
    - constructor.
    - apply pre_away. exact (Hne t Hj).
    - specialize (Hne t Hj). apply Forall_app. split; [apply start_away, Hne|]. constructor; [exact Hne|constructor].
  Qed.
  Lemma others : forall x s n os r m k, fresh_next s -> atomic x s n = (os, r) -> m <> n -> ~ temporary valid_utf8 pid n m ->
    read (exec_all s (firstn k os)) m = read s m /\
    (settled s m -> forall a, after_power_loss (exec_all s (firstn k os)) m a -> a = read s m).
  Proof.
    intros x s n os r m k Hf H Hm Ht. pose proof (firstn_Forall _ _ k (ops_away _ _ _ _ _ _ H Hm Ht)) as Ha. split.
    - exact (proj1 (exec_all_read m (next s) _ s (le_n _) (Hf m) Ha)).
    - intros Hs a Hl. destruct (exec_all_away m (next s) _ s Hs (le_n _) (Hf m) Ha) as (H1 & _ & _ & H2).
      rewrite <- H2. exact (settled_read _ _ _ H1 Hl).
  Qed.
  (** an error before the rename leaves no file behind *)
  Lemma error_clean : forall x s n os, atomic x s n = (os, Err) -> rename_ok x = true ->
    forall m, entries (exec_all s os) m = entries s m.
  Proof.
    intros x s n os H Hr m. destruct (shape _ _ _ _ _ H) as [[E _]|[_ [->|[t [_ [He [[Hn _]| ->]]]]]]]; [discriminate|reflexivity|congruence|].
    rewrite exec_all_app.
    assert (HH : forall ws s0, entries (exec_all s0 (map (Write (next s)) ws)) = entries s0).
    { induction ws as [|w ws IH]; intro s0; [reflexivity|]. cbn [map]. rewrite exec_all_cons, IH. reflexivity. }
    change (entries (exec (exec_all (exec s (Create t)) (map (Write (next s)) (writes x))) (Unlink t)) m = entries s m).
    cbn [exec dir_change entries]. unfold apply_change. cbn [fold_left fst snd]. rewrite HH. cbn [exec entries]. unfold set_entry. destruct (name_eqb m t) eqn:E; [|reflexivity].
    unfold name_eqb in E. destruct (list_eq_dec Z.eq_dec m t); [subst; auto|discriminate].
  Qed.
End ATOMIC.
