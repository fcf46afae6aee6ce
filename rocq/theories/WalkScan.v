(** The files of a scan, and the project they make. *)
From Verif Require Import Base Text Colgrep ColgrepSpec Walk WalkSpec WalkProofs.
Open Scope nat_scope.

Lemma contains_dots p : contains (txt "..") (slashed p) = true <-> dotted p.
Proof. rewrite contains_spec. reflexivity. Qed.
Lemma within_spec W p : is_within_project_root W p = true <-> stays_inside W p.
Proof.
  unfold is_within_project_root, stays_inside. destruct (contains (txt "..") (slashed p)) eqn:E; cbn [negb].
  - apply contains_dots in E. split; [auto|]. intros K. exact (K E).
  - split; [|reflexivity]. intros _ K. apply contains_dots in K. rewrite K in E. discriminate.
Qed.
Lemma wanted_spec (w : option (list text)) lang : match w with Some ls => mem lang ls | None => true end = true <-> asked w lang.
Proof. destruct w as [ls|]; cbn [asked]; [apply mem_In|tauto]. Qed.

Section Scan.
  Variable W : surroundings.
  Variables extra force : list text.
  Variable U : unicode.
  Variable max_size : Z.
  Variable wanted : option (list text).
  Definition taken (e : list text * file) : bool :=
    (f_size (snd e) <=? max_size)%Z &&
    match detect_language U (fst e) with
    | Some lang => match wanted with Some ls => mem lang ls | None => true end && is_within_project_root W (fst e)
    | None => false
    end.
  Definition counted (e : list text * file) : bool :=
    (max_size <? f_size (snd e))%Z ||
    match detect_language U (fst e) with
    | Some lang => match wanted with Some ls => mem lang ls | None => true end && negb (is_within_project_root W (fst e))
    | None => false
    end.
  Lemma scan_fold l : forall fs k, fold_left (scan_step W U max_size wanted) l (fs, k)
    = (fs ++ map fst (filter taken l), k + length (filter counted l)).
  Proof using Type.
    induction l as [|e l IH]; intros fs k; cbn [fold_left filter map length]; [rewrite app_nil_r, Nat.add_0_r; reflexivity|].
    unfold scan_step at 2, taken at 1, counted at 1.
    destruct (max_size <? f_size (snd e))%Z eqn:B.
    - replace (f_size (snd e) <=? max_size)%Z with false by lia. cbn [andb orb]. rewrite IH. cbn [length]. f_equal. lia.
    - replace (f_size (snd e) <=? max_size)%Z with true by lia. cbn [andb orb]. destruct (detect_language U (fst e)) as [lang|]; [|apply IH].
      destruct (match wanted with Some ls => mem lang ls | None => true end); cbn [andb]; [|apply IH].
      destruct (is_within_project_root W (fst e)); cbn [negb map]; rewrite IH.
      + rewrite <- app_assoc. reflexivity.
      + cbn [length]. f_equal. lia.
  Qed.
  Lemma taken_spec p f : taken (p, f) = true <->
    (f_size f <= max_size)%Z /\ exists lang, of_language U p lang /\ asked wanted lang /\ stays_inside W p.
  Proof using Type.
    unfold taken. cbn [fst snd]. rewrite andb_true_iff, Z.leb_le. apply and_iff_compat_l.
    destruct (detect_language U p) as [lang|] eqn:D.
    - rewrite andb_true_iff, wanted_spec, within_spec. split.
      + intros (A & S1). exists lang. split; [apply detect_spec; exact D|]. split; assumption.
      + intros (l & L & A & S1). apply detect_spec in L. rewrite D in L. injection L as <-. split; assumption.
    - split; [discriminate|]. intros (l & L & _). apply detect_spec in L. rewrite D in L. discriminate.
  Qed.
  Lemma counted_spec p f : counted (p, f) = true <->
    (max_size < f_size f)%Z \/ exists lang, of_language U p lang /\ asked wanted lang /\ ~ stays_inside W p.
  Proof using Type.
    unfold counted. cbn [fst snd]. rewrite orb_true_iff, Z.ltb_lt. apply or_iff_compat_l.
    destruct (detect_language U p) as [lang|] eqn:D.
    - rewrite andb_true_iff, wanted_spec, negb_true_iff, <- not_true_iff_false, within_spec. split.
      + intros (A & S1). exists lang. split; [apply detect_spec; exact D|]. split; assumption.
      + intros (l & L & A & S1). apply detect_spec in L. rewrite D in L. injection L as <-. split; assumption.
    - split; [discriminate|]. intros (l & L & _). apply detect_spec in L. rewrite D in L. discriminate.
  Qed.
  Definition scanned (root : entry) := scan_files W extra force U max_size wanted root.
  Lemma scanned_eq root : scanned root =
    (map fst (filter taken (walk W extra force [] root)), length (filter counted (walk W extra force [] root))).
  Proof using Type. unfold scanned, scan_files. rewrite scan_fold. reflexivity. Qed.
  Lemma scanned_spec root p : In p (fst (scanned root)) <-> exists f lang,
    stands root p f /\ reached W extra force p /\ (f_size f <= max_size)%Z /\ of_language U p lang /\ asked wanted lang /\ stays_inside W p.
  Proof using Type.
    rewrite scanned_eq. cbn [fst]. rewrite in_map_iff. split.
    - intros ((q, f) & E & K). cbn [fst] in E. subst q. apply filter_In in K. destruct K as (K & T). apply walk_spec in K.
      destruct K as (p' & E & S1 & F). cbn [app] in E. subst p'. apply free_reached in F. apply taken_spec in T.
      destruct T as (Z1 & lang & L). exists f, lang. auto.
    - intros (f & lang & S1 & R & Z1 & L). exists (p, f). split; [reflexivity|]. apply filter_In. split.
      + apply walk_spec. exists p. split; [reflexivity|]. split; [exact S1|]. apply free_reached. exact R.
      + apply taken_spec. split; [exact Z1|]. exists lang. exact L.
  Qed.
  Lemma NoDup_map_filter {A B} (g : A -> B) (t : A -> bool) l : NoDup (map g l) -> NoDup (map g (filter t l)).
  Proof using Type.
    induction l as [|x l IH]; cbn [map filter]; intros N; [constructor|]. inversion N as [|? ? N1 N2]; subst.
    destruct (t x); [|exact (IH N2)]. cbn [map]. constructor; [|exact (IH N2)]. intros K. apply N1.
    apply in_map_iff in K. destruct K as (y & E & K). apply filter_In in K. apply in_map_iff. exists y. tauto.
  Qed.
  Lemma scanned_once root : tidy root -> NoDup (fst (scanned root)).
  Proof using Type. intros T. rewrite scanned_eq. cbn [fst]. apply NoDup_map_filter. apply walk_once. exact T. Qed.
  Lemma scanned_skipped root : tidy root -> exists l, NoDup l /\ length l = snd (scanned root) /\ forall p, In p l <->
    exists f, stands root p f /\ reached W extra force p /\
      ((max_size < f_size f)%Z \/ exists lang, of_language U p lang /\ asked wanted lang /\ ~ stays_inside W p).
  Proof using Type.
    intros T. exists (map fst (filter counted (walk W extra force [] root))). split; [apply NoDup_map_filter; apply walk_once; exact T|].
    split; [rewrite map_length, scanned_eq; reflexivity|]. intros p. rewrite in_map_iff. split.
    - intros ((q, f) & E & K). cbn [fst] in E. subst q. apply filter_In in K. destruct K as (K & C). apply walk_spec in K.
      destruct K as (p' & E & S1 & F). cbn [app] in E. subst p'. apply free_reached in F. apply counted_spec in C. exists f. auto.
    - intros (f & S1 & R & C). exists (p, f). split; [reflexivity|]. apply filter_In. split.
      + apply walk_spec. exists p. split; [reflexivity|]. split; [exact S1|]. apply free_reached. exact R.
      + apply counted_spec. exact C.
  Qed.
End Scan.

(** ** All files of a tree *)
Lemma all_files_dir path l : all_files path (Dir l) = flat_map (fun c => all_files (path ++ [fst c]) (snd c)) l.
Proof. cbn [all_files]. induction l as [|(n, c) l IH]; [reflexivity|]. cbn [flat_map fst snd]. f_equal. exact IH. Qed.
Definition all_open : surroundings := {| w_git := fun _ => false; w_inside := fun _ => true |}.
(** The pattern "*" alone forces every path. *)
Lemma forced_all p : should_ignore [] [txt "*"] p = false.
Proof. unfold should_ignore. cbn [existsb]. replace (on_path (slashed p) (txt "*")) with true; [reflexivity|]. symmetry. apply on_path_spec. left. exists []. split; [reflexivity|]. exists (slashed p). rewrite app_nil_r. reflexivity. Qed.
Lemma all_files_walk e : forall path, all_files path e = walk all_open [] [txt "*"] path e.
Proof.
  induction e as [g| |l IH] using entry_rec; intros path; [reflexivity|reflexivity|]. rewrite all_files_dir, walk_dir.
  induction l as [|(n, c) l I]; [reflexivity|]. cbn [flat_map fst snd]. unfold kept at 1. rewrite forced_all. cbn [all_open w_git negb andb]. apply f_equal2.
  - apply (IH n c). left. reflexivity.
  - apply I. intros n' e' K. apply (IH n' e'). right. exact K.
Qed.
Lemma all_files_spec root p f : In (p, f) (all_files [] root) <-> stands root p f.
Proof.
  rewrite all_files_walk, walk_spec. split.
  - intros (p' & -> & S1 & _). exact S1.
  - intros S1. exists p. split; [reflexivity|]. split; [exact S1|]. intros q r _ _. unfold kept. rewrite forced_all. reflexivity.
Qed.
Lemma all_files_once root : tidy root -> NoDup (map fst (all_files [] root)).
Proof. intros T. rewrite all_files_walk. apply walk_once. exact T. Qed.

(** Paths as texts and back. *)
Definition proper (p : list text) : Prop := p <> [] /\ forall n, In n p -> n <> [] /\ ~ In (ch "/") n.
Lemma unslashed_plain n : ~ In (ch "/") n -> unslashed n = [n].
Proof.
  induction n as [|c n IH]; intros N; [reflexivity|]. cbn [unslashed]. destruct (c =? ch "/")%Z eqn:E.
  - apply Z.eqb_eq in E. subst. destruct N. left. reflexivity.
  - rewrite IH; [reflexivity|]. intros K. apply N. right. exact K.
Qed.
Lemma unslashed_cons n s : ~ In (ch "/") n -> unslashed (n ++ ch "/" :: s) = n :: unslashed s.
Proof.
  induction n as [|c n IH]; intros N; cbn [unslashed app]; [rewrite Z.eqb_refl; reflexivity|]. destruct (c =? ch "/")%Z eqn:E.
  - apply Z.eqb_eq in E. subst. destruct N. left. reflexivity.
  - rewrite IH; [reflexivity|]. intros K. apply N. right. exact K.
Qed.
Lemma slashed_cons n m p : slashed (n :: m :: p) = n ++ ch "/" :: slashed (m :: p). Proof. reflexivity. Qed.
Lemma unslashed_slashed p : proper p -> unslashed (slashed p) = p.
Proof.
  intros (N & A). induction p as [|n p IH]; [contradiction|]. destruct p as [|m p].
  - apply unslashed_plain. apply (A n). left. reflexivity.
  - rewrite slashed_cons, unslashed_cons; [|apply (A n); left; reflexivity]. f_equal. apply IH; [discriminate|]. intros x K. apply A. right. exact K.
Qed.
Lemma stands_names e : tidy e -> forall p f, stands e p f -> forall n, In n p -> n <> [] /\ ~ In (ch "/") n.
Proof.
  induction e as [g| |l IH] using entry_rec; intros T p f S1 n K; inversion S1; subst; [destruct K|].
  inversion T as [| |l' ND C]; subst. destruct K as [<-|K].
  - match goal with H : In (?a, ?b) l |- _ => destruct (C a b H) as (A1 & A2 & _) end. auto.
  - match goal with H : In (?a, ?b) l |- _ => destruct (C a b H) as (_ & _ & A3); exact (IH a b H A3 _ _ ltac:(eassumption) n K) end.
Qed.
Lemma stands_proper root p f : tidy root -> (exists l, root = Dir l) -> stands root p f -> proper p.
Proof.
  intros T (l & ->) S1. split; [|exact (stands_names _ T p f S1)]. inversion S1. discriminate.
Qed.
Lemma prefixes_spec (P : list text -> bool) p : forallb P (prefixes p) = true <-> forall q r, p = q ++ r -> q <> [] -> P q = true.
Proof.
  rewrite forallb_forall. unfold prefixes. split.
  - intros H q r E Q. apply H. apply in_map_iff. exists (length q - 1). destruct q as [|x q]; [contradiction|]. split.
    + subst p. cbn [length]. replace (S (S (length q) - 1)) with (length (x :: q)) by (cbn; lia). rewrite firstn_app, Nat.sub_diag. cbn [firstn]. rewrite app_nil_r. apply firstn_all.
    + apply in_seq. subst p. rewrite app_length. cbn. lia.
  - intros H x K. apply in_map_iff in K. destruct K as (i & <- & K). apply in_seq in K.
    apply (H _ (skipn (S i) p)); [symmetry; apply firstn_skipn|]. destruct p; [cbn in K; lia|]. discriminate.
Qed.

Section Project.
  Variable W : surroundings.
  Variables extra force : list text.
  Variable U : unicode.
  Lemma candidate_iff T root p f : tidy root -> (exists l, root = Dir l) -> proper p ->
    (forall q, t_language T q = match detect_language U (unslashed q) with Some _ => true | None => false end) ->
    candidate T (project_of W extra force root) (slashed p) f <->
    stands root p f /\ In p (fst (scan_files W extra force U (t_max_size T) None root)).
  Proof using Type.
    intros TD D PP L. unfold candidate, project_of. cbn [p_files p_visible]. rewrite L, (unslashed_slashed p PP), in_map_iff, andb_true_iff, prefixes_spec, within_spec.
    fold (scanned W extra force U (t_max_size T) None root). rewrite scanned_spec.
    assert (R : (forall q r, p = q ++ r -> q <> [] -> kept W extra force q = true) <-> reached W extra force p).
    { rewrite <- free_reached. reflexivity. }
    rewrite R. split.
    - intros (((q, g) & E & K) & (R1 & I1) & L1 & Z1). cbn [fst snd] in E. injection E as E <-. apply all_files_spec in K.
      assert (q = p) as -> by (rewrite <- (unslashed_slashed q (stands_proper root q g TD D K)), E; exact (unslashed_slashed p PP)).
      split; [exact K|]. destruct (detect_language U p) as [lang|] eqn:DL; [|discriminate]. exists g, lang.
      apply detect_spec in DL. repeat (split; [assumption|]). split; [exact Logic.I|exact I1].
    - intros (S1 & g & lang & S2 & R1 & Z1 & L1 & _ & I1). split; [exists (p, f); split; [reflexivity|apply all_files_spec; exact S1]|].
      split; [split; assumption|]. apply detect_spec in L1. rewrite L1. split; [reflexivity|].
      assert (g = f) as <-; [|exact Z1]. pose proof (all_files_once root TD) as ND. apply all_files_spec in S1. apply all_files_spec in S2.
      clear - ND S1 S2. induction (all_files [] root) as [|(a, b) l IH]; [destruct S1|]. cbn [map fst] in ND. inversion ND as [|? ? N1 N2]; subst.
      destruct S1 as [S1|S1], S2 as [S2|S2].
      + congruence.
      + injection S1 as -> ->. destruct N1. apply in_map_iff. exists (p, g). auto.
      + injection S2 as -> ->. destruct N1. apply in_map_iff. exists (p, f). auto.
      + exact (IH S1 S2 N2).
  Qed.
  Lemma project_listed root : tidy root -> (exists l, root = Dir l) -> listed_once (project_of W extra force root).
  Proof using Type.
    intros TD D. unfold listed_once, project_of. cbn [p_files]. rewrite map_map. cbn [fst].
    assert (PP : forall x, In x (all_files [] root) -> unslashed (slashed (fst x)) = fst x).
    { intros (p, f) K. apply all_files_spec in K. apply unslashed_slashed. exact (stands_proper root p f TD D K). }
    pose proof (all_files_once root TD) as ND. apply (NoDup_map_inv unslashed). rewrite map_map.
    rewrite (map_ext_in _ fst); [exact ND|]. exact PP.
  Qed.
End Project.
