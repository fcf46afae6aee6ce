(** How the path of a file lowers the score of its hits (colgrep/src/ranking.rs 22-163). *)
From Verif Require Import Base Text FtsText FtsRank.
From Verif Require Npy Walk.
From Coq Require Import String.
Open Scope string_scope.
Open Scope nat_scope.
Open Scope list_scope.

(** ** The regular expressions, as far as they are used here *)
(** A piece of an expression: fixed text; text that may be missing; one of some characters; one of some
    texts; any characters but the slash; one or more word characters. *)
Inductive piece := Lit (s : string) | Maybe (s : string) | OneOf (s : string) | Alts (l : list string) | Run | Words.
Section EXPRESSIONS.
  Variable U : unicode.
  Definition after (t s : text) : list text := if starts_with t s then [skipn (List.length t) s] else [].
  (** what is left after taking any number of characters with [f] *)
  Fixpoint run (f : Z -> bool) (s : text) : list text :=
    s :: match s with c :: r => if f c then run f r else [] | [] => [] end.
  (** all that a piece can leave of a text.  The engine (crate regex) only has to tell whether there is a
      match, so all ways are tried, in no particular order. *)
  Definition leaves (p : piece) (s : text) : list text :=
    match p with
    | Lit t => after (txt t) s
    | Maybe t => s :: after (txt t) s
    | OneOf cs => match s with c :: r => if existsb (Z.eqb c) (txt cs) then [r] else [] | [] => [] end
    | Alts l => flat_map (fun t => after (txt t) s) l
    | Run => run (fun c => negb (c =? 47)%Z) s
    | Words => match s with c :: r => if u_word U c then run (u_word U) r else [] | [] => [] end
    end.
  Fixpoint leaves_all (ps : list piece) (s : text) : list text :=
    match ps with [] => [s] | p :: r => flat_map (leaves_all r) (leaves p s) end.
  (** [(?:^|/)]: where the text can go on *)
  Fixpoint after_slashes (s : text) : list text :=
    match s with [] => [] | c :: r => (if (c =? 47)%Z then [r] else []) ++ after_slashes r end.
  Definition entries (s : text) : list text := s :: after_slashes s.
  (** [(?:^|/)(?: ... )$] *)
  Definition to_end (alts : list (list piece)) (s : text) : bool :=
    existsb (fun e => existsb (fun ps => existsb (fun r => match r with [] => true | _ => false end) (leaves_all ps e)) alts) (entries s).
  (** [(?:^|/)(?: ... )(?:/|$)] *)
  Definition to_slash (alts : list (list piece)) (s : text) : bool :=
    existsb (fun e => existsb (fun ps => existsb (fun r => match r with [] => true | c :: _ => (c =? 47)%Z end) (leaves_all ps e)) alts) (entries s).

  (** ranking.rs 42-104 [test_file_re] *)
  Definition test_file_re : list (list piece) :=
    [ [Lit "test_"; Run; Lit ".py"]; [Run; Lit "_test.py"]; [Run; Lit "_test.go"]; [Run; Lit "Test"; Maybe "s"; Lit ".java"]; [Run; Lit "Test.php"];
      [Run; Lit "_spec.rb"]; [Run; Lit "_test.rb"]; [Run; Lit ".test."; OneOf "jt"; Lit "s"; Maybe "x"]; [Run; Lit ".spec."; OneOf "jt"; Lit "s"; Maybe "x"];
      [Run; Lit "Test"; Maybe "s"; Lit ".kt"]; [Run; Lit "Spec.kt"]; [Run; Lit "Test"; Maybe "s"; Lit ".swift"]; [Run; Lit "Spec.swift"];
      [Run; Lit "Test"; Maybe "s"; Lit ".cs"]; [Lit "test_"; Run; Lit "."; Alts ["cpp"; "cc"; "cxx"]]; [Run; Lit "_test."; Alts ["cpp"; "cc"; "cxx"]];
      [Lit "test_"; Run; Lit ".c"]; [Run; Lit "_test.c"]; [Run; Lit "Spec.scala"]; [Run; Lit "Suite.scala"]; [Run; Lit "Test.scala"];
      [Run; Lit "_test.dart"]; [Lit "test_"; Run; Lit ".dart"]; [Run; Lit "_spec.lua"]; [Run; Lit "_test.lua"]; [Lit "test_"; Run; Lit ".lua"];
      [Run; Lit "_test.rs"]; [Lit "tests.rs"]; [Run; Lit "_test.exs"]; [Run; Lit "Spec.hs"]; [Run; Lit "Test.hs"]; [Lit "test_"; Run; Lit ".ml"];
      [Run; Lit "_test.ml"]; [Lit "test"; OneOf "-_"; Run; Lit "."; OneOf "rR"]; [Run; Lit "_test.zig"]; [Lit "test_"; Run; Lit ".zig"]; [Lit "runtests.jl"];
      [Lit "test_"; Run; Lit ".jl"]; [Run; Lit "_test.jl"]; [Run; Lit ".test.vue"]; [Run; Lit ".spec.vue"]; [Run; Lit ".test.svelte"]; [Run; Lit ".spec.svelte"];
      [Lit "tst_"; Run; Lit ".qml"]; [Run; Lit ".bats"]; [Lit "test_"; Run; Lit "."; Alts ["sh"; "bash"; "zsh"]]; [Run; Lit "_test."; Alts ["sh"; "bash"; "zsh"]];
      [Run; Lit ".Tests.ps1"]; [Lit "test_helper"; Maybe "s"; Run; Lit "."; Words] ].
  (** ranking.rs 106-119 [test_dir_re], [compat_dir_re], [examples_dir_re] *)
  Definition test_dir_re : list (list piece) := [[Lit "test"; Maybe "s"]; [Lit "__tests__"]; [Lit "spec"]; [Lit "testing"]].
  Definition compat_dir_re : list (list piece) := [[Lit "compat"]; [Lit "_compat"]; [Lit "legacy"]].
  Definition examples_dir_re : list (list piece) := [[Maybe "_"; Lit "example"; Maybe "s"]; [Lit "doc"; Maybe "s"; Lit "_src"]].

  (** ** The penalty *)
  Variable A : arith.
  Notation F := (num A).
  (** [str::parse::<f32>] and the environment *)
  Variable parse : text -> option F.
  Variable env : text -> option text.
  (** the constants 0.30, 0.50 and 0.70 *)
  Variables d_strong d_moderate d_mild : F.
  (** ranking.rs 25-30 [env_f32] *)
  Definition env_f32 (name : string) (default : F) : F :=
    match env (txt name) with Some s => match parse s with Some x => x | None => default end | None => default end.
  (** ranking.rs 32-40 *)
  Definition strong_penalty : F := env_f32 "COLGREP_STRONG_PENALTY" d_strong.
  Definition moderate_penalty : F := env_f32 "COLGREP_MODERATE_PENALTY" d_moderate.
  Definition mild_penalty : F := env_f32 "COLGREP_MILD_PENALTY" d_mild.
  (** [file.replace('\\', "/")] *)
  Definition normalised (file : text) : text := map (fun c => if (c =? 92)%Z then 47%Z else c) file.
  (** [Path::file_name] on Unix: the last component that is neither empty nor a dot; two dots are no name,
      and no name is the empty text here *)
  Definition file_name (p : text) : text :=
    let c := last (filter (fun c => negb (text_eqb c []) && negb (text_eqb c (txt "."))) (Npy.split_on 47 p)) [] in
    if text_eqb c (txt "..") then [] else c.
  (** ranking.rs 135-163 [file_path_penalty] *)
  Definition file_path_penalty (file : text) : F :=
    let n := normalised file in
    let p := f_1 A in
    let p := if to_end test_file_re n || to_slash test_dir_re n then f_mul A p strong_penalty else p in
    let p := if to_slash compat_dir_re n then f_mul A p strong_penalty else p in
    let p := if to_slash examples_dir_re n then f_mul A p strong_penalty else p in
    let p := if Walk.ends_with (txt ".d.ts") n then f_mul A p mild_penalty else p in
    if existsb (text_eqb (file_name n)) [txt "__init__.py"; txt "package-info.java"] then f_mul A p moderate_penalty else p.
End EXPRESSIONS.
