(** Proofs about the walk. *)
From Verif Require Import Base Text Colgrep Walk WalkSpec.
Open Scope nat_scope.

Lemma entry_rec (P : entry -> Prop) : (forall f, P (File f)) -> P Other ->
  (forall l, (forall n e, In (n, e) l -> P e) -> P (Dir l)) -> forall e, P e.
Proof.
  intros F O D. fix IH 1. intros [f|l|]; [apply F| |apply O]. apply D.
  induction l as [|(n0, e0) l I]; intros n e K; [destruct K|]. destruct K as [K|K]; [|exact (I n e K)]. injection K as _ <-. apply IH.
Qed.

Lemma mem_In p l : mem p l = true <-> In p l.
Proof.
  unfold mem. rewrite existsb_exists. split; [intros (q & K & E); apply text_eqb_eq in E; subst; exact K|].
  intros K. exists p. split; [exact K|]. apply text_eqb_eq. reflexivity.
Qed.
Lemma ends_with_spec s t : ends_with s t = true <-> exists x, t = x ++ s.
Proof.
  unfold ends_with. rewrite starts_with_spec. split; intros (x & E).
  - exists (rev x). apply (f_equal (@rev Z)) in E. rewrite rev_involutive, rev_app_distr, rev_involutive in E. exact E.
  - exists (rev x). rewrite E, rev_app_distr. reflexivity.
Qed.
Lemma star_dec (p : text) : (exists s, p = ch "*" :: s) \/ ~ (exists s, p = ch "*" :: s).
Proof.
  destruct p as [|c s]; [right; intros (s & E); discriminate|].
  destruct (Z.eq_dec c (ch "*")) as [->|N]; [left; eauto|right; intros (s' & E); injection E as -> _; auto].
Qed.
Lemma on_name_star n s : on_name n (ch "*" :: s) = ends_with s n.
Proof. unfold on_name. rewrite Z.eqb_refl. reflexivity. Qed.
Lemma on_name_plain n p : ~ (exists s, p = ch "*" :: s) -> on_name n p = text_eqb n p.
Proof.
  intros N. unfold on_name. destruct p as [|c s]; [reflexivity|]. destruct (c =? ch "*")%Z eqn:E; [|reflexivity].
  apply Z.eqb_eq in E. subst. destruct N. eauto.
Qed.
Lemma on_name_spec n p : on_name n p = true <-> names p n.
Proof.
  unfold names. destruct (star_dec p) as [(s & ->)|N].
  - rewrite on_name_star, ends_with_spec. split; [left; exists s; auto|].
    intros [(s' & E & K)|(N & _)]; [injection E as <-; exact K|destruct N; eauto].
  - rewrite (on_name_plain _ _ N), text_eqb_eq. split; [right; auto|]. intros [(s & -> & _)|(_ & K)]; [destruct N; eauto|exact K].
Qed.
Lemma on_path_star n s : on_path n (ch "*" :: s) = ends_with s n.
Proof. unfold on_path. rewrite Z.eqb_refl. reflexivity. Qed.
Lemma on_path_plain n p : ~ (exists s, p = ch "*" :: s) -> on_path n p = text_eqb n p || starts_with (p ++ txt "/") n.
Proof.
  intros N. unfold on_path. destruct p as [|c s]; [reflexivity|]. destruct (c =? ch "*")%Z eqn:E; [|reflexivity].
  apply Z.eqb_eq in E. subst. destruct N. eauto.
Qed.
Lemma on_path_spec n p : on_path n p = true <-> covers p n.
Proof.
  unfold covers. destruct (star_dec p) as [(s & ->)|N].
  - rewrite on_path_star, ends_with_spec. split; [left; exists s; auto|].
    intros [(s' & E & K)|(N & _)]; [injection E as <-; exact K|destruct N; eauto].
  - rewrite (on_path_plain _ _ N), orb_true_iff, text_eqb_eq, starts_with_spec. split.
    + intros [K|(t & K)]; right; (split; [exact N|]); [left; exact K|right; exists t; rewrite K, <- app_assoc; reflexivity].
    + intros [(s & -> & _)|(_ & [K|(t & K)])]; [destruct N; eauto|left; exact K|right; exists t; rewrite <- app_assoc; exact K].
Qed.
Lemma one_of_spec l n : existsb (on_name n) l = true <-> one_of l n.
Proof.
  unfold one_of. rewrite existsb_exists. split; intros (p & K & E); exists p; (split; [exact K|]); apply on_name_spec; exact E.
Qed.
Lemma hidden_spec n : starts_with (txt ".") n && negb (mem n allowed_hidden_dirs) && negb (mem n allowed_hidden_files) = true <-> hidden n.
Proof.
  unfold hidden. rewrite !andb_true_iff, !negb_true_iff, starts_with_spec, <- !not_true_iff_false, !mem_In. tauto.
Qed.
Lemma name_ignored_spec extra force n : name_ignored extra force n = true <-> left_out extra force n.
Proof.
  unfold name_ignored, left_out. destruct (existsb (on_name n) force) eqn:F.
  - apply one_of_spec in F. split; [discriminate|]. intros (K & _). contradiction.
  - rewrite !orb_true_iff, hidden_spec, !one_of_spec. rewrite <- not_true_iff_false, one_of_spec in F. tauto.
Qed.
Lemma should_ignore_spec extra force p : should_ignore extra force p = false <-> allowed extra force p.
Proof.
  unfold should_ignore, allowed. destruct (existsb (on_path (slashed p)) force) eqn:F.
  - apply existsb_exists in F. destruct F as (pat & K & E). split; [|reflexivity]. intros _. left. exists pat.
    split; [exact K|]. apply on_path_spec. exact E.
  - rewrite <- not_true_iff_false, existsb_exists. split.
    + intros N. right. intros n K L. apply N. exists n. split; [exact K|]. apply name_ignored_spec. exact L.
    + intros [(pat & K & E)|N] (n & K1 & L).
      * rewrite <- not_true_iff_false in F. apply F. apply existsb_exists. exists pat. split; [exact K|]. apply on_path_spec. exact E.
      * apply (N n K1). apply name_ignored_spec. exact L.
Qed.
Lemma kept_spec W extra force p : kept W extra force p = true <-> w_git W p = false /\ allowed extra force p.
Proof. unfold kept. rewrite andb_true_iff, !negb_true_iff, should_ignore_spec. reflexivity. Qed.

(** ** The walk *)
Section Walked.
  Variable W : surroundings.
  Variables extra force : list text.
  Definition free (path p : list text) : Prop := forall q r, p = q ++ r -> q <> [] -> kept W extra force (path ++ q) = true.
  Lemma free_cons path n p : free path (n :: p) <-> kept W extra force (path ++ [n]) = true /\ free (path ++ [n]) p.
  Proof using Type.
    unfold free. split.
    - intros H. split; [exact (H [n] p eq_refl ltac:(discriminate))|]. intros q r E Q.
      specialize (H (n :: q) r ltac:(cbn; congruence) ltac:(discriminate)). rewrite <- app_assoc. exact H.
    - intros (K & H) q r E Q. destruct q as [|n' q]; [contradiction|]. cbn in E. injection E as <- E.
      destruct q as [|m q]; [exact K|]. specialize (H (m :: q) r E ltac:(discriminate)). rewrite <- app_assoc in H. exact H.
  Qed.
  Lemma walk_dir path l : walk W extra force path (Dir l)
    = flat_map (fun c => if kept W extra force (path ++ [fst c]) then walk W extra force (path ++ [fst c]) (snd c) else []) l.
  Proof using Type. cbn [walk]. induction l as [|(n, c) l IH]; [reflexivity|]. cbn [flat_map fst snd]. f_equal. exact IH. Qed.
  Lemma walk_spec e : forall path q f, In (q, f) (walk W extra force path e) <->
    exists p, q = path ++ p /\ stands e p f /\ free path p.
  Proof using Type.
    induction e as [g| |l IH] using entry_rec; intros path q f.
    - cbn. split.
      + intros [K|[]]. injection K as <- <-. exists []. rewrite app_nil_r. repeat split; [constructor|].
        intros q r E Q. destruct q; [contradiction|discriminate].
      + intros (p & -> & K & _). inversion K; subst. rewrite app_nil_r. left. reflexivity.
    - cbn. split; [intros []|]. intros (p & _ & K & _). inversion K.
    - rewrite walk_dir, in_flat_map. split.
      + intros ((n, c) & K & I). cbn [fst snd] in I. destruct (kept W extra force (path ++ [n])) eqn:Kp; [|destruct I].
        apply (IH n c K) in I. destruct I as (p & -> & S1 & F). exists (n :: p).
        split; [rewrite <- app_assoc; reflexivity|]. split; [econstructor; eassumption|]. apply free_cons. split; assumption.
      + intros (p & -> & S1 & F). inversion S1 as [|l' n c p' f' Hin Hs]; subst. exists (n, c). split; [exact Hin|].
        apply free_cons in F. destruct F as (Kp & F). cbn [fst snd]. rewrite Kp. apply (IH n c Hin). exists p'.
        split; [rewrite <- app_assoc; reflexivity|]. split; assumption.
  Qed.
  Lemma free_reached p : free [] p <-> reached W extra force p.
  Proof using Type. unfold free, reached. split; intros H q r E Q; apply kept_spec; exact (H q r E Q). Qed.

  (** The walk visits a file once. *)
  Lemma walk_below e : forall path q f, In (q, f) (walk W extra force path e) -> exists p, q = path ++ p.
  Proof using Type. intros path q f K. apply walk_spec in K. destruct K as (p & -> & _). eauto. Qed.
  Lemma NoDup_map_app {A B} (g : A -> B) (l m : list A) : NoDup (map g l) -> NoDup (map g m) ->
    (forall x y, In x l -> In y m -> g x <> g y) -> NoDup (map g (l ++ m)).
  Proof using Type.
    induction l as [|a l IH]; cbn [map app]; intros L M D; [exact M|]. inversion L as [|? ? N L']; subst. constructor.
    - rewrite map_app, in_app_iff. intros [K|K]; [contradiction|]. apply in_map_iff in K. destruct K as (y & E & K).
      exact (D a y (or_introl eq_refl) K (eq_sym E)).
    - apply IH; [exact L'|exact M|]. intros x y X Y. apply D; [right; exact X|exact Y].
  Qed.
  Lemma walk_once e : tidy e -> forall path, NoDup (map fst (walk W extra force path e)).
  Proof using Type.
    induction e as [g| |l IH] using entry_rec; intros T path.
    - cbn. constructor; [intros []|constructor].
    - constructor.
    - inversion T as [| |l' ND C]; subst. rewrite walk_dir.
      assert (C' : forall n e, In (n, e) l -> forall pa, NoDup (map fst (walk W extra force pa e))).
      { intros n e K pa. apply (IH n e K). exact (proj2 (proj2 (C n e K))). }
      clear IH T C. induction l as [|(n, e) l I]; [constructor|]. cbn [flat_map fst snd]. cbn [map fst] in ND. inversion ND as [|? ? N ND']; subst.
      apply NoDup_map_app.
      + destruct (kept W extra force (path ++ [n])); [|constructor]. apply (C' n e). left. reflexivity.
      + apply I; [exact ND'|]. intros n' e' K. apply (C' n' e'). right. exact K.
      + intros (q1, f1) (q2, f2) K1 K2. cbn [fst]. intros <-. apply in_flat_map in K2. destruct K2 as ((n2, e2) & L2 & K2). cbn [fst snd] in K2.
        destruct (kept W extra force (path ++ [n])); [|destruct K1]. destruct (kept W extra force (path ++ [n2])); [|destruct K2].
        apply walk_below in K1. apply walk_below in K2. destruct K1 as (p1 & ->). destruct K2 as (p2 & E).
        rewrite <- !app_assoc in E. apply app_inv_head in E. cbn in E. injection E as <- _. apply N. apply in_map_iff. exists (n, e2). auto.
  Qed.
End Walked.

(** ** Languages *)
Lemma last_dot_none s : last_dot s = None -> ~ In (ch ".") s.
Proof.
  induction s as [|c s IH]; intros L K; [destruct K|]. cbn [last_dot] in L. destruct (last_dot s) as [(b, a)|]; [discriminate|].
  destruct (c =? ch ".")%Z eqn:D; [discriminate|]. destruct K as [->|K]; [rewrite Z.eqb_refl in D; discriminate|exact (IH eq_refl K)].
Qed.
Lemma last_dot_spec s : forall b a, last_dot s = Some (b, a) <-> s = b ++ ch "." :: a /\ ~ In (ch ".") a.
Proof.
  induction s as [|c s IH]; intros b a.
  - cbn. split; [discriminate|]. intros (E & _). destruct b; discriminate.
  - cbn [last_dot]. destruct (last_dot s) as [(b', a')|] eqn:L.
    + destruct (proj1 (IH b' a') eq_refl) as (E' & N'). split.
      * intros K. injection K as <- <-. split; [cbn; congruence|exact N'].
      * intros (E & N). destruct b as [|x b]; cbn in E; injection E as -> E.
        { exfalso. apply N. rewrite <- E, E'. apply in_or_app. right. left. reflexivity. }
        { pose proof (proj2 (IH b a) (conj E N)) as K. injection K as <- <-. reflexivity. }
    + destruct (c =? ch ".")%Z eqn:D.
      * apply Z.eqb_eq in D. subst c. split.
        { intros K. injection K as <- <-. split; [reflexivity|]. exact (last_dot_none s L). }
        { intros (E & N). destruct b as [|x b]; cbn in E; [injection E as <-; reflexivity|]. injection E as E1 E2.
          pose proof (proj2 (IH b a) (conj E2 N)) as K. discriminate. }
      * split; [discriminate|]. intros (E & N). destruct b as [|x b]; cbn in E; injection E as -> E; [rewrite Z.eqb_refl in D; discriminate|].
        pose proof (proj2 (IH b a) (conj E N)) as K. discriminate.
Qed.
Lemma assoc_In {A} (l : list (text * A)) k v : assoc l k = Some v -> In (k, v) l.
Proof.
  induction l as [|(k', v') l IH]; cbn [assoc]; [discriminate|]. destruct (text_eqb k k') eqn:E.
  - intros K. injection K as ->. apply text_eqb_eq in E. subst. left. reflexivity.
  - intros K. right. exact (IH K).
Qed.
Lemma assoc_None {A} (l : list (text * A)) k : assoc l k = None -> forall v, ~ In (k, v) l.
Proof.
  induction l as [|(k', v') l IH]; cbn [assoc]; intros H v K; [destruct K|]. destruct K as [K|K].
  - injection K as -> ->. rewrite (proj2 (text_eqb_eq k k) eq_refl) in H. discriminate.
  - destruct (text_eqb k k'); [discriminate|]. exact (IH H v K).
Qed.
Lemma In_assoc {A} (l : list (text * A)) k v : NoDup (map fst l) -> In (k, v) l -> assoc l k = Some v.
Proof.
  induction l as [|(k', v') l IH]; intros N K; [destruct K|]. destruct K as [K|K]; cbn [map fst] in N; inversion N as [|? ? N1 N2]; subst; cbn [assoc].
  - injection K as -> ->. rewrite (proj2 (text_eqb_eq k k) eq_refl). reflexivity.
  - destruct (text_eqb k k') eqn:E; [|exact (IH N2 K)]. apply text_eqb_eq in E. subst. destruct N1. apply in_map_iff. exists (k', v). auto.
Qed.
Definition nodupb (l : list text) : bool := (fix go l := match l with [] => true | x :: r => negb (mem x r) && go r end) l.
Lemma nodupb_ok l : nodupb l = true -> NoDup l.
Proof.
  induction l as [|x l IH]; cbn; intros H; [constructor|]. apply andb_true_iff in H. destruct H as (H1 & H2). constructor; [|exact (IH H2)].
  intros K. apply mem_In in K. rewrite K in H1. discriminate.
Qed.
Lemma special_once : NoDup (map fst special_names). Proof. apply nodupb_ok. vm_compute. reflexivity. Qed.
Lemma extensions_once : NoDup (map fst extensions). Proof. apply nodupb_ok. vm_compute. reflexivity. Qed.
Lemma detect_spec U p lang : detect_language U p = Some lang <-> of_language U p lang.
Proof.
  unfold detect_language, of_language. cbn zeta. set (name := last p []). destruct (assoc special_names (u_lower U name)) as [l|] eqn:S1.
  - apply assoc_In in S1. split.
    + intros K. injection K as <-. left. exact S1.
    + intros [K|(N & _)]; [|destruct (N l S1)]. f_equal. pose proof (In_assoc _ _ _ special_once S1) as E1.
      pose proof (In_assoc _ _ _ special_once K) as E2. pose proof (eq_trans (eq_sym E1) E2) as E. injection E as <-. reflexivity.
  - pose proof (assoc_None _ _ S1) as N. unfold extension. destruct (last_dot name) as [(b, a)|] eqn:L.
    + apply last_dot_spec in L. destruct L as (E & D). destruct b as [|c b].
      * split; [discriminate|]. intros [K|(_ & base & ext & B & E' & D' & _)]; [destruct (N lang K)|].
        pose proof (proj2 (last_dot_spec name [] a) (conj E D)) as L1. pose proof (proj2 (last_dot_spec name base ext) (conj E' D')) as L2.
        pose proof (eq_trans (eq_sym L1) L2) as Q. injection Q as Q _. destruct (B (eq_sym Q)).
      * split.
        { intros K. right. split; [exact N|]. exists (c :: b), a. repeat split; [discriminate|exact E|exact D|exact (assoc_In _ _ _ K)]. }
        { intros [K|(_ & base & ext & B & E' & D' & K)]; [destruct (N lang K)|].
          pose proof (proj2 (last_dot_spec name (c :: b) a) (conj E D)) as L1. pose proof (proj2 (last_dot_spec name base ext) (conj E' D')) as L2.
          pose proof (eq_trans (eq_sym L1) L2) as Q. injection Q as _ <-. exact (In_assoc _ _ _ extensions_once K). }
    + split; [discriminate|]. intros [K|(_ & base & ext & B & E' & D' & K)]; [destruct (N lang K)|].
      pose proof (proj2 (last_dot_spec name base ext) (conj E' D')) as L2. pose proof (eq_trans (eq_sym L) L2) as Q. discriminate.
Qed.
