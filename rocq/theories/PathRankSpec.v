(** Which paths are those of tests, of code kept for compatibility and of examples. *)
From Verif Require Import Base Text FtsText FtsRank.
From Coq Require Import String.
Open Scope string_scope.
Open Scope nat_scope.
Open Scope list_scope.

(** [c] is one of the names between the slashes of [p]; the last one if [b] is empty. *)
Definition part_of (p c b : text) : Prop :=
  exists a, p = a ++ c ++ b /\ (a = [] \/ exists a', a = a' ++ [47%Z]) /\ (b = [] \/ exists b', b = 47%Z :: b') /\ ~ In 47%Z c.
Definition goes_through (names : list string) (p : text) : Prop := exists c b, part_of p c b /\ In c (map txt names).
(** Both kinds of slash separate. *)
Definition with_slashes (file p : text) : Prop := Forall2 (fun c d => (c = 92%Z /\ d = 47%Z) \/ (c <> 92%Z /\ d = c)) file p.

Definition test_dirs : list string := ["test"; "tests"; "__tests__"; "spec"; "testing"].
Definition compat_dirs : list string := ["compat"; "_compat"; "legacy"].
Definition example_dirs : list string := ["example"; "examples"; "_example"; "_examples"; "doc_src"; "docs_src"].
(** How the names of test files begin and end, by the ending of the name *)
Definition test_beginnings : list (string * list string) :=
  [("test_", ["py"; "c"; "cc"; "cpp"; "cxx"; "dart"; "jl"; "lua"; "ml"; "r"; "R"; "sh"; "bash"; "zsh"; "zig"]); ("test-", ["r"; "R"]); ("tst_", ["qml"])].
Definition test_endings : list (string * list string) :=
  [("_test", ["py"; "go"; "rb"; "c"; "cc"; "cpp"; "cxx"; "dart"; "exs"; "jl"; "lua"; "ml"; "rs"; "sh"; "bash"; "zsh"; "zig"]); ("_spec", ["rb"; "lua"]);
   (".test", ["js"; "jsx"; "ts"; "tsx"; "vue"; "svelte"]); (".spec", ["js"; "jsx"; "ts"; "tsx"; "vue"; "svelte"]);
   ("Test", ["java"; "kt"; "swift"; "cs"; "php"; "scala"; "hs"]); ("Tests", ["java"; "kt"; "swift"; "cs"]); (".Tests", ["ps1"]);
   ("Spec", ["kt"; "swift"; "scala"; "hs"]); ("Suite", ["scala"]); ("", ["bats"])].
Definition test_name (U : unicode) (n : text) : Prop :=
  (exists b es e m, In (b, es) test_beginnings /\ In e es /\ n = txt b ++ m ++ txt "." ++ txt e)
  \/ (exists b es e m, In (b, es) test_endings /\ In e es /\ n = m ++ txt b ++ txt "." ++ txt e)
  \/ n = txt "tests.rs" \/ n = txt "runtests.jl"
  \/ (exists m w, n = txt "test_helper" ++ m ++ txt "." ++ w /\ w <> [] /\ forall c, In c w -> u_word U c = true).
(** the name of the file: what follows the last slash *)
Definition of_test (U : unicode) (p : text) : Prop := (exists c, part_of p c [] /\ test_name U c) \/ goes_through test_dirs p.

(** The factors of a path, in order *)
Definition factor {F} (P : Prop) (f : F) (l : list F) : Prop := (P /\ l = [f]) \/ (~ P /\ l = []).
Definition factors {F} (U : unicode) (strong moderate mild : F) (barrel : text -> Prop) (p : text) (l : list F) : Prop :=
  exists a b c d e, l = a ++ b ++ c ++ d ++ e
    /\ factor (of_test U p) strong a /\ factor (goes_through compat_dirs p) strong b /\ factor (goes_through example_dirs p) strong c
    /\ factor (exists m, p = m ++ txt ".d.ts") mild d /\ factor (barrel p) moderate e.
(** the last part of a path that is neither empty nor a dot *)
Definition last_part (p c : text) : Prop :=
  exists b, part_of p c b /\ c <> [] /\ c <> txt "." /\ forall c' b', part_of p c' b' -> List.length b' < List.length b -> c' = [] \/ c' = txt ".".
Definition barrel_name (p : text) : Prop := exists c, last_part p c /\ (c = txt "__init__.py" \/ c = txt "package-info.java").
(** ** Numbers: between nothing and one *)
Definition at_most (A : arith) (x y : num A) : Prop := f_cmp A x y = Some Lt \/ f_cmp A x y = Some Eq.
Definition finite (A : arith) (x : num A) : Prop := f_cmp A x (f_inf A) = Some Lt.
Record good_products (A : arith) : Prop := {
  gp_one : at_most A (f_0 A) (f_1 A) /\ finite A (f_1 A);
  gp_self : forall x, at_most A (f_0 A) x -> at_most A x x;
  gp_trans : forall x y z, at_most A x y -> at_most A y z -> at_most A x z;
  gp_finite : forall x y, at_most A x y -> finite A y -> finite A x;
  gp_mul : forall x y, at_most A (f_0 A) x -> finite A x -> at_most A (f_0 A) y -> at_most A y (f_1 A) -> at_most A (f_0 A) (f_mul A x y) /\ at_most A (f_mul A x y) x }.
