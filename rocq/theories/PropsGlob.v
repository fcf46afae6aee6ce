(** Properties C79-C82: the file filters of colgrep. *)
From Verif Require Import Base Text Regex RegexProofs Glob GlobSpec GlobProofs GlobMore.
Open Scope nat_scope.

(** * C79: --exclude *)
(** Exactly the units of files no pattern names are kept, in the order of the index; every pattern
    is accepted by the engine. *)
Theorem C79_excludes : forall E rows patterns, faithful E -> (forall r, In r rows -> one_line (snd r)) -> patterns <> [] ->
  exists keep, filter_exclude_by_patterns E rows patterns = map fst (filter (fun r => keep (snd r)) rows) /\
    forall file, one_line file -> keep file = true <-> ~ exists p, In p patterns /\ hits p file.
Proof.
  intros E rows patterns HE NL NE.
  destruct (not_regexp_spec E glob_to_regex glob_parts hits rows patterns HE NE read_glob glob_first NL) as (keep & EQ & K).
  - intros p x NX. apply found_glob. exact NX.
  - exists keep. split; [|exact K]. etransitivity; [|exact EQ]. destruct patterns; [congruence|reflexivity].
Qed.
Print Assumptions C79_excludes.
Theorem C79_nothing : forall E rows, filter_exclude_by_patterns E rows [] = map fst rows.
Proof. reflexivity. Qed.
Print Assumptions C79_nothing.

(** The two usual forms.  A plain name or path: the file, at any depth. *)
Theorem C79_name : forall name file, no_wildcard name -> ~ begins (txt "/") name ->
  hits name file <-> file = name \/ exists d, file = d ++ txt "/" ++ name.
Proof.
  intros name file (W1 & W2 & W3) NS. assert (NR : ~ rooted name).
  { intros [(t & ->)|H]; [|auto]. apply W1. left. reflexivity. }
  unfold hits. split.
  - intros [(R & _)|(_ & pre & rest & -> & B & G)]; [contradiction|]. apply glob_literal in G; auto. subst rest.
    destruct B as [->|(d & ->)]; [left; reflexivity|right]. exists d. rewrite <- app_assoc. reflexivity.
  - intros H. right. split; auto. assert (G : glob name name) by (apply glob_literal; auto).
    destruct H as [->|(d & ->)]; [exists [], name|exists (d ++ txt "/"), name]; repeat split; auto.
    + left. reflexivity.
    + rewrite <- app_assoc. reflexivity.
    + right. eauto.
Qed.
Print Assumptions C79_name.
(** A star and an ending: the files with that ending. *)
Theorem C79_ending : forall ending file, no_wildcard ending -> ~ In (ch "/") ending ->
  hits (txt "*" ++ ending) file <-> exists stem, file = stem ++ ending.
Proof.
  intros ending file (W1 & W2 & W3) NS.
  assert (NR : ~ rooted (txt "*" ++ ending)).
  { intros [(t & E)|(t & E)]; cbn in E; [|discriminate]. injection E as E. apply W1. rewrite E. left. reflexivity. }
  assert (N : forall p', ending <> ch "*" :: p') by (intros p' ->; apply W1; left; reflexivity).
  assert (G : forall x, ~ In (ch "/") x -> glob (txt "*" ++ ending) (x ++ ending)).
  { intros x NX. apply g_run; auto. apply glob_literal; auto. }
  unfold hits. split.
  - intros [(R & _)|(_ & pre & rest & -> & B & K)]; [contradiction|].
    remember (txt "*" ++ ending) as q eqn:EQ. destruct K as [|d p s D K2|x p s D K2|x p s D N2 K2|c p s K2|c p s N1 N2 K2]; try discriminate.
    + exfalso. injection EQ as EQ. apply W1. rewrite <- EQ. left. reflexivity.
    + exfalso. injection EQ as EQ. apply W1. rewrite <- EQ. left. reflexivity.
    + injection EQ as ->. apply glob_literal in K2; auto. subst s. exists (pre ++ x). rewrite <- app_assoc. reflexivity.
    + exfalso. injection EQ as EQ _. apply N1. exact EQ.
  - intros (stem & ->). right. split; auto.
    assert (L : exists pre x, stem = pre ++ x /\ boundary pre /\ ~ In (ch "/") x).
    { clear. induction stem as [|c stem IH] using rev_ind; [exists [], []; repeat split; auto; left; reflexivity|].
      destruct (Z.eq_dec c (ch "/")) as [->|NC].
      - exists (stem ++ txt "/"), []. rewrite app_nil_r. split; [reflexivity|]. split; [right; eauto|auto].
      - destruct IH as (pre & x & -> & B & NX). exists pre, (x ++ [c]). rewrite app_assoc. split; [reflexivity|]. split; auto.
        intros I. apply in_app_or in I. destruct I as [I|[I|[]]]; auto. }
    destruct L as (pre & x & -> & B & NX). exists pre, (x ++ ending). rewrite <- app_assoc. auto.
Qed.
Print Assumptions C79_ending.
Lemma hits_one E p file : faithful E -> one_line file -> hits p file -> filter_exclude_by_patterns E [(0%Z, file)] [p] = [].
Proof.
  intros HE NL H. destruct (C79_excludes E [(0%Z, file)] [p] HE) as (keep & -> & K); [intros r [<-|[]]; auto|discriminate|].
  cbn [filter snd]. destruct (keep file) eqn:EK; [|reflexivity]. apply K in EK; auto. exfalso. apply EK. exists p. split; [left|]; auto.
Qed.
Lemma misses_one E p file : faithful E -> one_line file -> ~ hits p file -> filter_exclude_by_patterns E [(0%Z, file)] [p] = [0%Z].
Proof.
  intros HE NL H. destruct (C79_excludes E [(0%Z, file)] [p] HE) as (keep & -> & K); [intros r [<-|[]]; auto|discriminate|].
  cbn [filter snd]. rewrite (proj2 (K file NL)); [reflexivity|]. intros (q & [<-|[]] & J). auto.
Qed.
Ltac one_line_text := unfold one_line; vm_compute; intuition discriminate.
(** A pattern that begins with two stars and a slash reaches into the middle of a name: excluding
    the files called foo.rs also excludes barfoo.rs. *)
Theorem C79_double_star_refuted : exists p file, begins (txt "**/") p /\ ~ excludes p file /\
  forall E, faithful E -> filter_exclude_by_patterns E [(0%Z, file)] [p] = [].
Proof.
  exists (txt "**/foo.rs"), (txt "barfoo.rs"). split; [exists (txt "foo.rs"); reflexivity|].
  assert (L : forall mid, glob (txt "foo.rs") mid <-> mid = txt "foo.rs") by (apply glob_literal; vm_compute; intuition discriminate).
  split.
  - intros (pre & rest & E & B & G).
    assert (K : exists dirs, rest = dirs ++ txt "foo.rs" /\ boundary dirs).
    { change (txt "**/foo.rs") with (txt "**/" ++ txt "foo.rs") in G. remember (txt "**/" ++ txt "foo.rs") as q eqn:EQ.
      destruct G as [|d p s D K2|x p s D K2|x p s D N2 K2|c p s K2|c p s N1 N2 K2]; try discriminate.
      - apply app_inv_head in EQ. subst p. apply L in K2. subst s. exists d. split; auto.
      - exfalso. injection EQ as EQ. eapply D. exact EQ.
      - exfalso. injection EQ as EQ. eapply N2. exact EQ.
      - exfalso. injection EQ as EQ _. apply N1. exact EQ. }
    destruct K as (dirs & -> & B2). rewrite app_assoc in E. change (txt "barfoo.rs") with (txt "bar" ++ txt "foo.rs") in E. apply app_inv_tail in E.
    assert (NS : ~ In (ch "/") (txt "bar")) by (vm_compute; intuition discriminate).
    destruct B as [->|(d & ->)]; [|apply NS; rewrite E; apply in_or_app; left; apply in_or_app; right; left; reflexivity].
    destruct B2 as [->|(d & ->)]; [discriminate|]. apply NS. rewrite E. cbn [app]. apply in_or_app. right. left. reflexivity.
  - intros E HE. apply hits_one; [exact HE|one_line_text|]. left. split; [left; exists (txt "foo.rs"); reflexivity|].
    exists (txt "bar"), (txt "foo.rs"). split; [reflexivity|]. change (glob (txt "**/" ++ txt "foo.rs") ([] ++ txt "foo.rs")). apply g_dirs; [left; reflexivity|apply L; reflexivity].
Qed.
Print Assumptions C79_double_star_refuted.
(** A pattern that begins with a slash names no file at the root, where one expects it, and files
    of that name further down. *)
Theorem C79_leading_slash_refuted : exists p, forall E, faithful E ->
  filter_exclude_by_patterns E [(0%Z, p)] [txt "/" ++ p] = [0%Z] /\ filter_exclude_by_patterns E [(0%Z, txt "src/" ++ p)] [txt "/" ++ p] = [].
Proof.
  exists (txt "main.rs"). intros E HE.
  assert (L : forall mid, glob (txt "/" ++ txt "main.rs") mid <-> mid = txt "/" ++ txt "main.rs") by (apply glob_literal; vm_compute; intuition discriminate).
  assert (R : rooted (txt "/" ++ txt "main.rs")) by (right; exists (txt "main.rs"); reflexivity). split.
  - apply misses_one; [exact HE|one_line_text|]. intros [(_ & pre & rest & E1 & G)|(NR & _)]; [|auto].
    apply L in G. subst rest. apply (f_equal (@length Z)) in E1. rewrite !app_length in E1. cbn in E1. lia.
  - apply hits_one; [exact HE|one_line_text|]. left. split; auto. exists (txt "src"), (txt "/" ++ txt "main.rs"). split; [reflexivity|apply L; reflexivity].
Qed.
Print Assumptions C79_leading_slash_refuted.
(** Braces mean alternatives to --include but nothing to --exclude. *)
Theorem C79_braces_refuted : exists p file, In file (map (fun e => txt "a." ++ e) [txt "rs"; txt "md"]) /\
  (forall x, In x (expand_braces p) <-> x = txt "*.rs" \/ x = txt "*.md") /\ hits (txt "*.rs") file /\
  forall E, faithful E -> filter_exclude_by_patterns E [(0%Z, file)] [p] = [0%Z].
Proof.
  exists (txt "*.{rs,md}"), (txt "a.rs"). split; [left; reflexivity|]. split.
  - intros x. vm_compute expand_braces. cbn [In]. intuition (subst; auto).
  - split.
    + apply (C79_ending (txt ".rs")); [split; [|split]; vm_compute; intuition discriminate|vm_compute; intuition discriminate|exists (txt "a"); reflexivity].
    + intros E HE. apply misses_one; [exact HE|one_line_text|].
      change (txt "*.{rs,md}") with (txt "*" ++ txt ".{rs,md}"). intros H.
      apply (C79_ending (txt ".{rs,md}")) in H; [|split; [|split]; vm_compute; intuition discriminate|vm_compute; intuition discriminate].
      destruct H as (stem & H). apply (f_equal (@length Z)) in H. rewrite app_length in H. cbn in H. lia.
Qed.
Print Assumptions C79_braces_refuted.
Definition some_rows : list row :=
  [(0, txt "src/main.rs"); (1, txt "src/main_test.rs"); (2, txt "main.rs"); (3, txt "vendor/src/a.c"); (4, txt "vendored/b.c")]%Z.
Example C79_example : filter_exclude_by_patterns fragment_engine some_rows [txt "*_test.rs"; txt "main.rs"] = [3; 4]%Z /\
  filter_exclude_by_patterns fragment_engine some_rows [txt "src/**/*.c"] = [0; 1; 2; 4]%Z /\
  faithful fragment_engine /\ (forall r, In r some_rows -> one_line (snd r)).
Proof.
  split; [vm_compute; reflexivity|]. split; [vm_compute; reflexivity|]. split; [apply fragment_faithful|].
  intros r I. cbn [some_rows In] in I. repeat (destruct I as [<-|I]; [one_line_text|]). destruct I.
Qed.

(** * C80: --exclude-dir *)
Theorem C80_excludes : forall E rows dirs, faithful E -> (forall r, In r rows -> one_line (snd r)) -> dirs <> [] ->
  exists keep, filter_exclude_by_dirs E rows dirs = map fst (filter (fun r => keep (snd r)) rows) /\
    forall file, one_line file -> keep file = true <-> ~ exists p, In p dirs /\ dir_hits p file.
Proof.
  intros E rows dirs HE NL NE.
  destruct (not_regexp_spec E dir_pattern_to_regex dir_parts dir_hits rows dirs HE NE read_dir dir_begins NL) as (keep & EQ & K).
  - intros p x NX. apply found_directory. exact NX.
  - exists keep. split; [|exact K]. etransitivity; [|exact EQ]. destruct dirs; [congruence|reflexivity].
Qed.
Print Assumptions C80_excludes.
(** A plain name: a directory on the way to the file is called so, whole name against whole name. *)
Theorem C80_name : forall name file, no_wildcard name -> ~ In (ch "/") name -> dir_hits name file <-> In name (directories file).
Proof. intros name file W NS. rewrite directories_in by exact NS. unfold dir_hits. tauto. Qed.
Print Assumptions C80_name.
(** Plain names together, on the rows of an index: the kept rows are those with none of the names
    among their directories. *)
Theorem C80_names : forall E rows names, faithful E -> (forall r, In r rows -> one_line (snd r)) ->
  (forall n, In n names -> no_wildcard n /\ ~ In (ch "/") n) ->
  filter_exclude_by_dirs E rows names =
  map fst (filter (fun r => negb (existsb (fun d => existsb (text_eqb d) names) (directories (snd r)))) rows).
Proof.
  intros E rows names HE NL HN. destruct names as [|n names].
  - cbn [filter_exclude_by_dirs]. f_equal. clear HE NL HN. induction rows as [|r rows IH]; [reflexivity|]. cbn [filter].
    assert (Z0 : existsb (fun d => existsb (text_eqb d) []) (directories (snd r)) = false) by (induction (directories (snd r)); cbn [existsb]; auto).
    rewrite Z0, <- IH. reflexivity.
  - destruct (C80_excludes E rows (n :: names) HE NL) as (keep & -> & K); [discriminate|]. f_equal. apply filter_ext_in. intros r I.
    apply eq_true_iff_eq. rewrite (K (snd r) (NL r I)), negb_true_iff.
    assert (B : existsb (fun d => existsb (text_eqb d) (n :: names)) (directories (snd r)) = true <-> exists p, In p (n :: names) /\ dir_hits p (snd r)).
    { rewrite existsb_exists. split.
      - intros (d & ID & H). apply existsb_exists in H. destruct H as (p & IP & H). apply text_eqb_eq in H. subst d. exists p. split; auto.
        apply C80_name; try apply HN; auto.
      - intros (p & IP & H). apply C80_name in H; try apply HN; auto. exists p. split; auto. apply existsb_exists. exists p. split; auto. apply text_eqb_eq. reflexivity. }
    rewrite <- B. destruct (existsb (fun d => existsb (text_eqb d) (n :: names)) (directories (snd r))); intuition congruence.
Qed.
Print Assumptions C80_names.
(** A name written with a slash before or behind it excludes nothing. *)
Theorem C80_slash_refuted : forall E rows name, faithful E -> (forall r, In r rows -> one_line (snd r) /\ clean (snd r)) ->
  no_wildcard name ->
  filter_exclude_by_dirs E rows [name ++ txt "/"] = map fst rows /\ filter_exclude_by_dirs E rows [txt "/" ++ name] = map fst rows.
Proof.
  intros E rows name HE NL (W1 & W2 & W3).
  assert (K : forall p, no_wildcard p -> begins (txt "/") p \/ (exists d, p = d ++ txt "/") -> filter_exclude_by_dirs E rows [p] = map fst rows).
  { intros p W H. destruct (C80_excludes E rows [p] HE) as (keep & -> & K); [intros; apply NL; auto|discriminate|]. f_equal.
    rewrite (filter_ext_in (fun r => keep (snd r)) (fun _ => true)); [clear; induction rows; cbn; congruence|].
    intros r I. apply K; [apply NL; auto|]. intros (q & [<-|[]] & [(_ & J)|(NW & _)]); [|auto].
    revert J. apply slash_names_nothing; [apply NL; auto|exact H]. }
  split; apply K.
  - split; [|split]; intros I; apply in_app_or in I; (destruct I as [I|[I|[]]]; [auto|discriminate]).
  - right. eauto.
  - split; [|split]; intros I; apply in_app_or in I; (destruct I as [[I|[]]|I]; [discriminate|auto]).
  - left. exists name. reflexivity.
Qed.
Print Assumptions C80_slash_refuted.
Example C80_example : filter_exclude_by_dirs fragment_engine some_rows [txt "vendor"] = [0; 1; 2; 4]%Z /\
  filter_exclude_by_dirs fragment_engine some_rows [txt "vendor*"; txt "*/src"] = [0; 1; 2]%Z /\
  filter_exclude_by_dirs fragment_engine some_rows [txt "vendor/"] = [0; 1; 2; 3; 4]%Z /\
  directories (txt "vendor/src/a.c") = [txt "vendor"; txt "src"] /\ clean (txt "src/main.rs").
Proof.
  split; [vm_compute; reflexivity|]. split; [vm_compute; reflexivity|]. split; [vm_compute; reflexivity|]. split; [vm_compute; reflexivity|].
  intros a b. split; [|discriminate]. intros E. do 12 (destruct a as [|? a]; [discriminate|]; try discriminate; injection E as _ E).
Qed.

(** * C81: braces and --include *)
(** One expansion per way to choose an alternative in every group, and no other. *)
Theorem C81_braces : forall segments, Forall flat segments -> forall x, In x (expand_braces (write segments)) <-> chosen segments x.
Proof. intros segments F x. apply expand_braces_spec. exact F. Qed.
Print Assumptions C81_braces.
(** The recursion ends on every pattern, braces balanced or not. *)
Theorem C81_terminates : forall p, exists l, expand_fuel (S (length p)) p = Some l.
Proof. intros p. apply expand_total. pose proof (closes_le p). lia. Qed.
Print Assumptions C81_terminates.
Theorem C81_plain : forall p, ~ In (ch "{") p -> expand_braces p = [p].
Proof. intros p N. unfold expand_braces. rewrite expand_step, find_char_none by exact N. reflexivity. Qed.
Print Assumptions C81_plain.
(** --include: the units of the files some choice of some pattern matches, at any depth. *)
Theorem C81_include : forall glob rows patterns, exists keep,
  filter_by_file_patterns glob rows (map write patterns) = map fst (filter (fun r => keep (snd r)) rows) /\
  (Forall (Forall flat) patterns -> forall file, keep file = true <->
    exists p x f, In p patterns /\ chosen p x /\
      glob (if starts_with (txt "**/") x || starts_with (txt "/") x then x else txt "**/" ++ x) = Some f /\ f file = true).
Proof.
  intros glob rows patterns. exists (fun file => existsb (fun f => f file) (glob_set glob (map write patterns))). split.
  - unfold filter_by_file_patterns. destruct patterns as [|p l]; [|reflexivity]. cbn [map]. symmetry. cbn [glob_set flat_map existsb].
    induction rows as [|r rows IH]; cbn [filter]; auto.
  - intros F file. rewrite existsb_exists. unfold glob_set.
    assert (EN : forall x, normalize_glob x = if starts_with (txt "**/") x || starts_with (txt "/") x then x else txt "**/" ++ x).
    { intros x. unfold normalize_glob. destruct (starts_with (txt "**/") x), (starts_with (txt "/") x); reflexivity. }
    rewrite Forall_forall in F. split.
    + intros (f & I & H). apply in_flat_map in I. destruct I as (x & I & G). apply in_flat_map in I. destruct I as (w & I & J).
      apply in_map_iff in I. destruct I as (p & <- & I). exists p, x. destruct (glob (normalize_glob x)) as [g|] eqn:EG; [|destruct G].
      destruct G as [->|[]]. exists f. rewrite <- EN. split; [exact I|]. split; [apply C81_braces; auto|]. auto.
    + intros (p & x & f & I & C & G & H). exists f. split; [|exact H]. apply in_flat_map. exists x. split.
      * apply in_flat_map. exists (write p). split; [apply in_map; exact I|]. apply C81_braces; auto.
      * rewrite EN, G. left. reflexivity.
Qed.
Print Assumptions C81_include.
(** Groups in groups, and the empty group, are not what a shell would make of them. *)
Theorem C81_nested_refuted : expand_braces (txt "{a,{b,c}}") = [txt "a}"; txt "b"; txt "c"].
Proof. vm_compute. reflexivity. Qed.
Print Assumptions C81_nested_refuted.
Theorem C81_empty_group_refuted : forall pre post, ~ In (ch "{") pre -> expand_braces (pre ++ txt "{}" ++ post) = [].
Proof.
  intros pre post N. unfold expand_braces. rewrite expand_step.
  rewrite (proj2 (find_char_spec (ch "{") _ pre (txt "}" ++ post))) by (split; [reflexivity|exact N]).
  rewrite (proj2 (find_char_spec (ch "}") _ [] post)) by (split; [reflexivity|intros []]). reflexivity.
Qed.
Print Assumptions C81_empty_group_refuted.
Example C81_example :
  let q := [Plain (txt "*."); Group [txt "rs"; txt "md"]; Plain (txt "."); Group [txt "a"; []]] in
  Forall flat q /\ write q = txt "*.{rs,md}.{a,}" /\ expand_braces (write q) = [txt "*.rs.a"; txt "*.rs."; txt "*.md.a"; txt "*.md."].
Proof.
  cbv zeta. split; [|split; vm_compute; reflexivity].
  assert (B : forall a, forallb (fun c => negb (zmem c (txt "{},"))) a = true -> braceless a /\ ~ In (ch ",") a).
  { intros a H. rewrite forallb_forall in H. split; [split|]; intros I; apply H in I; vm_compute in I; discriminate. }
  apply Forall_cons; [apply B; vm_compute; reflexivity|]. apply Forall_cons.
  - split; [discriminate|]. split; [discriminate|]. repeat apply Forall_cons; try apply Forall_nil; apply B; vm_compute; reflexivity.
  - apply Forall_cons; [apply B; vm_compute; reflexivity|]. apply Forall_cons; [|apply Forall_nil].
    split; [discriminate|]. split; [discriminate|]. repeat apply Forall_cons; try apply Forall_nil; apply B; vm_compute; reflexivity.
Qed.

(** * C82: searching below a directory *)
(** Every unit below the directory is among the candidates, whatever characters its name has. *)
Theorem C82_below : forall rows dir id file, In (id, file) rows -> below dir file -> In id (filter_by_path_prefix rows dir).
Proof.
  intros rows dir id file I (rest & ->). unfold filter_by_path_prefix. apply in_map_iff. exists (id, dir ++ txt "/" ++ rest). split; [reflexivity|].
  apply filter_In. split; [exact I|]. apply like_prefix_all.
Qed.
Print Assumptions C82_below.
(** And exactly: the files whose path begins with the name, letter case aside, for names without
    percent signs and underscores. *)
Theorem C82_exact : forall rows dir, ~ In (ch "%") dir -> ~ In (ch "_") dir -> exists keep,
  filter_by_path_prefix rows dir = map fst (filter (fun r => keep (snd r)) rows) /\
  forall file, keep file = true <-> exists a rest, file = a ++ rest /\ map to_lower1 a = map to_lower1 dir.
Proof.
  intros rows dir N1 N2. exists (like (dir ++ txt "%")). split; [reflexivity|]. intros file. apply like_prefix_plain.
  intros c I. unfold wild. apply orb_false_iff. split; apply Z.eqb_neq; intros ->; auto.
Qed.
Print Assumptions C82_exact.
(** Sibling directories whose name goes on, or differs where the name has an underscore, or in
    letter case, are searched too. *)
Theorem C82_only_below_refuted : forall dir rest, filter_by_path_prefix [(0%Z, dir ++ txt "_old/" ++ rest)] dir = [0%Z] /\
  ~ below (txt "src") (txt "src_old/a.rs") /\
  filter_by_path_prefix [(0%Z, txt "my-dir/a.rs")] (txt "my_dir") = [0%Z] /\ filter_by_path_prefix [(0%Z, txt "SRC/a.rs")] (txt "src") = [0%Z].
Proof.
  intros dir rest. split; [unfold filter_by_path_prefix; cbn [filter snd]; rewrite like_prefix_all; reflexivity|].
  split; [intros (r & E); discriminate|]. split; vm_compute; reflexivity.
Qed.
Print Assumptions C82_only_below_refuted.
(** A search in single files considers exactly the units of these files. *)
Theorem C82_files : forall rows files id, In id (filter_by_files rows files) <-> exists file, In (id, file) rows /\ In file files.
Proof.
  intros rows files id. unfold filter_by_files. rewrite in_map_iff. split.
  - intros ((i, f) & <- & I). apply filter_In in I. destruct I as (I & H). apply existsb_exists in H. destruct H as (g & G & Q). cbn [fst snd] in *. exists f. split; [exact I|].
    apply text_eqb_eq in Q. subst g. exact G.
  - intros (f & I & G). exists (id, f). split; [reflexivity|]. apply filter_In. split; [exact I|]. apply existsb_exists. exists f. split; [exact G|]. apply text_eqb_eq. reflexivity.
Qed.
Print Assumptions C82_files.
Example C82_example : filter_by_path_prefix some_rows (txt "src") = [0; 1]%Z /\ below (txt "src") (txt "src/main.rs") /\
  filter_by_files some_rows [txt "main.rs"] = [2]%Z.
Proof. split; [vm_compute; reflexivity|]. split; [exists (txt "main.rs"); reflexivity|vm_compute; reflexivity]. Qed.
