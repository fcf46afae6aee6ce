(** C92: which files of a project are indexed. *)
From Verif Require Import Base Text ApiProgress Colgrep ColgrepSpec PropsColgrep Walk WalkSpec WalkProofs WalkScan.
Open Scope nat_scope.

(** A file is indexed exactly if nothing on the way to it is left out or hidden by git, it is small
    enough, its language is known and asked for, and its path does not lead out of the project. *)
Theorem C92_indexed_files : forall W extra force U max_size wanted root p,
  In p (fst (scan_files W extra force U max_size wanted root)) <-> exists f lang,
    stands root p f /\ reached W extra force p /\ (f_size f <= max_size)%Z /\ of_language U p lang /\ asked wanted lang /\ stays_inside W p.
Proof. exact scanned_spec. Qed.
Print Assumptions C92_indexed_files.

(** Each file is listed once, and the number reported as skipped is that of the visited files that
    are too large or whose path leads out. *)
Theorem C92_once_and_skipped : forall W extra force U max_size wanted root, tidy root ->
  NoDup (fst (scan_files W extra force U max_size wanted root)) /\
  exists l, NoDup l /\ length l = snd (scan_files W extra force U max_size wanted root) /\ forall p, In p l <->
    exists f, stands root p f /\ reached W extra force p /\
      ((max_size < f_size f)%Z \/ exists lang, of_language U p lang /\ asked wanted lang /\ ~ stays_inside W p).
Proof. intros. split; [apply scanned_once; assumption|apply scanned_skipped; assumption]. Qed.
Print Assumptions C92_once_and_skipped.

(** Without forced patterns the rule is about names alone. *)
Theorem C92_rules_by_name : forall W extra p,
  reached W extra [] p <-> (forall q r, p = q ++ r -> q <> [] -> w_git W q = false) /\
    forall n, In n p -> ~ hidden n /\ ~ one_of ignored_dirs n /\ ~ one_of extra n.
Proof.
  intros W extra p. split.
  - intros R. split; [intros q r E Q; exact (proj1 (R q r E Q))|]. intros n K.
    destruct p as [|m p]; [destruct K|]. destruct (R (m :: p) [] (eq_sym (app_nil_r _)) ltac:(discriminate)) as (_ & [(pat & [] & _)|A]).
    assert (F : ~ one_of [] n) by (intros (x & [] & _)). pose proof (A n K) as B. unfold left_out in B. tauto.
  - intros (G & N) q r E Q. split; [exact (G q r E Q)|]. right. intros n K (F & L).
    destruct (N n) as (A & B & C1); [rewrite E; apply in_or_app; left; exact K|]. tauto.
Qed.
Print Assumptions C92_rules_by_name.

(** A forced pattern never costs a file, an ignored one never brings one in. *)
Lemma left_out_mono extra extra' force force' n : incl extra' extra -> incl force force' -> left_out extra' force' n -> left_out extra force n.
Proof.
  intros IE IF (F & L). split.
  - intros (p & K & M). apply F. exists p. auto.
  - destruct L as [L|[L|(p & K & M)]]; [left; exact L|right; left; exact L|right; right; exists p; auto].
Qed.
Theorem C92_settings_monotone : forall W extra extra' force force' U max_size wanted root p,
  incl extra' extra -> incl force force' ->
  In p (fst (scan_files W extra force U max_size wanted root)) -> In p (fst (scan_files W extra' force' U max_size wanted root)).
Proof.
  intros W extra extra' force force' U max_size wanted root p IE IF K. apply C92_indexed_files in K. apply C92_indexed_files.
  destruct K as (f & lang & S1 & R & K). exists f, lang. split; [exact S1|]. split; [|exact K]. intros q r E Q.
  destruct (R q r E Q) as (G & [(pat & I1 & C1)|A]); (split; [exact G|]).
  - left. exists pat. auto.
  - right. intros n I1 L. exact (A n I1 (left_out_mono _ _ _ _ _ IE IF L)).
Qed.
Print Assumptions C92_settings_monotone.

(** A forced directory of the top level brings in all that git does not hide below it, whatever the
    names; elsewhere a forced name takes back the rule about this name. *)
Theorem C92_forced_names : forall W extra force p,
  (forall q r, p = q ++ r -> q <> [] -> w_git W q = false) ->
  (exists d rest, p = d :: rest /\ In d force /\ ~ (exists s, d = ch "*" :: s)) \/ (forall n, In n p -> left_out extra [] n -> one_of force n) ->
  reached W extra force p.
Proof.
  intros W extra force p G H q r E Q. split; [exact (G q r E Q)|]. destruct H as [(d & rest & -> & K & N)|H].
  - left. exists d. split; [exact K|]. right. split; [exact N|]. destruct q as [|x q]; [contradiction|]. cbn in E. injection E as <- E.
    destruct q as [|y q]; [left; reflexivity|]. right. exists (slashed (y :: q)). reflexivity.
  - right. intros n K (F & L). apply F. apply H; [rewrite E; apply in_or_app; left; exact K|]. split; [intros (x & [] & _)|exact L].
Qed.
Print Assumptions C92_forced_names.

(** After a forced run the documents of the index are the units of these files. *)
Theorem C92_index_of_the_tree : forall W extra force U T sch siblings root d,
  tidy root -> (exists l, root = Dir l) ->
  (forall q, t_language T q = match detect_language U (unslashed q) with Some _ => true | None => false end) ->
  wanted T (project_of W extra force root) <> [] ->
  outcome (index T sch siblings (project_of W extra force root) true) d = Ok tt /\
  exists rows, d_vec (after (index T sch siblings (project_of W extra force root) true) d) = Some rows /\ forall r, In r rows <->
    exists p f, stands root p f /\ In p (fst (scan_files W extra force U (t_max_size T) None root)) /\
      t_utf8 T (f_content f) = true /\ In r (rows_of T (slashed p) (f_content f)).
Proof.
  intros W extra force U T sch siblings root d TD D L NE.
  destruct (C63_forced_run_is_exact T sch siblings _ d (project_listed W extra force root TD D) NE) as (O & rows & db & V & _ & P & _).
  split; [exact O|]. exists rows. split; [exact V|]. intros r.
  assert (E : In r rows <-> In r (wanted T (project_of W extra force root))) by (split; [apply Permutation_in; exact P|apply Permutation_in; apply Permutation_sym; exact P]).
  rewrite E. unfold wanted. rewrite in_flat_map. split.
  - intros ((q, f) & K & I1). cbn [fst snd] in I1. destruct (_ && _) eqn:B in I1; [|destruct I1]. rewrite !andb_true_iff, Z.leb_le in B. destruct B as (((B1 & B2) & B3) & B4).
    pose proof K as K'. cbn [project_of p_files] in K'. apply in_map_iff in K'. destruct K' as ((p, g) & E1 & K'). cbn [fst snd] in E1. injection E1 as E1 E2. subst g q.
    apply all_files_spec in K'. exists p, f.
    pose proof (proj1 (candidate_iff W extra force U T root p f TD D (stands_proper root p f TD D K') L)) as CI.
    destruct CI as (C1 & C2); [split; [exact K|auto]|]. auto.
  - intros (p & f & S1 & I1 & U1 & R). exists (slashed p, f).
    pose proof (proj2 (candidate_iff W extra force U T root p f TD D (stands_proper root p f TD D S1) L) (conj S1 I1)) as (C1 & C2 & C3 & C4).
    split; [exact C1|]. cbn [fst snd]. rewrite C2, C3, U1. replace (f_size f <=? t_max_size T)%Z with true by lia. exact R.
Qed.
Print Assumptions C92_index_of_the_tree.

(** The documented pattern for a directory inside an ignored one has no effect: the walk never
    enters the directory above it. *)
Definition lib_file : file := {| f_content := txt "func F() {}"; f_mtime := 0 |}.
Definition vendored : entry :=
  Dir [(txt "main.go", File lib_file); (txt "vendor", Dir [(txt "internal", Dir [(txt "lib.go", File lib_file)])]);
       (txt ".github", Dir [(txt "ci.yml", File lib_file)]); (txt ".hidden.go", File lib_file); (txt "notes", File lib_file);
       (txt "link.go", Other)].
Definition vendored_path : list text := [txt "vendor"; txt "internal"; txt "lib.go"].
Theorem C92_force_include_path_refuted :
  (forall W extra U max_size wanted root rest, ~ In (txt "vendor" :: rest) (fst (scan_files W extra [txt "vendor/internal"] U max_size wanted root))) /\
  stands vendored vendored_path lib_file /\ covers (txt "vendor/internal") (slashed vendored_path) /\
  should_ignore [] [txt "vendor/internal"] vendored_path = false /\
  (exists lang, of_language ascii_unicode vendored_path lang) /\ (f_size lib_file <= 524288)%Z.
Proof.
  split; [|split; [|split; [|split; [|split]]]].
  - intros W extra U max_size wanted root rest K. apply C92_indexed_files in K. destruct K as (f & lang & _ & R & _).
    destruct (R [txt "vendor"] rest eq_refl ltac:(discriminate)) as (_ & A). apply should_ignore_spec in A.
    unfold should_ignore in A. replace (existsb (on_path (slashed [txt "vendor"])) [txt "vendor/internal"]) with false in A by (vm_compute; reflexivity).
    cbn [existsb] in A. unfold name_ignored in A.
    replace (existsb (on_name (txt "vendor")) [txt "vendor/internal"]) with false in A by (vm_compute; reflexivity).
    replace (existsb (on_name (txt "vendor")) ignored_dirs) with true in A by (vm_compute; reflexivity).
    rewrite orb_true_r in A. discriminate.
  - unfold vendored, vendored_path. econstructor; [right; left; reflexivity|]. econstructor; [left; reflexivity|]. econstructor; [left; reflexivity|]. constructor.
  - apply on_path_spec. vm_compute. reflexivity.
  - vm_compute. reflexivity.
  - exists (txt "go"). apply detect_spec. vm_compute. reflexivity.
  - vm_compute. discriminate.
Qed.
Print Assumptions C92_force_include_path_refuted.

Lemma vendored_tidy : tidy vendored.
Proof.
  assert (N : forall s : text, negb (mem s [[]]) && negb (existsb (Z.eqb (ch "/")) s) = true -> s <> [] /\ ~ In (ch "/") s).
  { intros s H. apply andb_true_iff in H. destruct H as (H1 & H2). split; [intros ->; discriminate|]. intros K.
    rewrite (proj2 (existsb_exists _ _)) in H2; [discriminate|]. exists (ch "/"). split; [exact K|apply Z.eqb_refl]. }
  assert (D : forall l, nodupb (map fst l) && forallb (fun c : text * entry => negb (mem (fst c) [[]]) && negb (existsb (Z.eqb (ch "/")) (fst c))) l = true ->
    (forall n e, In (n, e) l -> tidy e) -> tidy (Dir l)).
  { intros l H T. apply andb_true_iff in H. destruct H as (H1 & H2). constructor; [apply nodupb_ok; exact H1|]. intros n e K.
    rewrite forallb_forall in H2. destruct (N n (H2 (n, e) K)). split; [assumption|]. split; [assumption|exact (T n e K)]. }
  unfold vendored. apply D; [vm_compute; reflexivity|]. intros n e K.
  destruct K as [K|[K|[K|[K|[K|[K|[]]]]]]]; injection K as _ <-; try (constructor; fail); apply D; try (vm_compute; reflexivity); intros n2 e2 [K2|[]]; injection K2 as _ <-.
  - apply D; [vm_compute; reflexivity|]. intros n3 e3 [K3|[]]. injection K3 as _ <-. constructor.
  - constructor.
Qed.
(** The defaults take main.go and the workflow; forcing the name of the directory brings in its files. *)
Example C92_example : tidy vendored /\
  map slashed (fst (scan_files all_open [] [] ascii_unicode 524288 None vendored)) = [txt "main.go"; txt ".github/ci.yml"] /\
  map slashed (fst (scan_files all_open [] [txt "vendor"] ascii_unicode 524288 None vendored)) = [txt "main.go"; txt "vendor/internal/lib.go"; txt ".github/ci.yml"] /\
  map slashed (fst (scan_files all_open [txt "*.yml"] [txt "vendor/internal"] ascii_unicode 524288 None vendored)) = [txt "main.go"] /\
  scan_files all_open [] [] ascii_unicode 5 (Some [txt "go"]) vendored = ([], 3).
Proof. split; [exact vendored_tidy|]. vm_compute. auto. Qed.
(** The run over the tree: the hypotheses of the theorem about the index are met. *)
Definition tree_tool : tool :=
  {| t_language := fun q => match detect_language ascii_unicode (unslashed q) with Some _ => true | None => false end;
     t_utf8 := fun _ => true; t_hash := fun _ => 0%Z; t_units := fun p c => [(1%Z, c)]; t_path_leb := ApiProgress.text_leb;
     t_max_size := 524288; t_chunk := 2; t_flush := 2; t_checkpoint := 2 |}.
Example C92_index_example : wanted tree_tool (project_of all_open [] [] vendored) <> [] /\
  map r_file (wanted tree_tool (project_of all_open [] [] vendored)) = [txt "main.go"; txt ".github/ci.yml"].
Proof. vm_compute. split; [discriminate|reflexivity]. Qed.
