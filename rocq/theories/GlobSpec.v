(** What the file filters of colgrep are for, said without the code. *)
From Verif Require Import Base Text.
Open Scope nat_scope.

(** The texts a glob stands for. *)
Inductive glob : text -> text -> Prop :=
| g_end : glob [] []
(** Two stars and a slash: any number of directories, none included. *)
| g_dirs dirs p s : dirs = [] \/ (exists d, dirs = d ++ txt "/") -> glob p s -> glob (txt "**/" ++ p) (dirs ++ s)
(** Two stars otherwise: anything. *)
| g_all x p s : (forall p', p <> ch "/" :: p') -> glob p s -> glob (txt "**" ++ p) (x ++ s)
(** One star: anything within a path component. *)
| g_run x p s : ~ In (ch "/") x -> (forall p', p <> ch "*" :: p') -> glob p s -> glob (txt "*" ++ p) (x ++ s)
(** A question mark: one character. *)
| g_one c p s : glob p s -> glob (txt "?" ++ p) (c :: s)
(** Any other character: itself. *)
| g_same c p s : c <> ch "*" -> c <> ch "?" -> glob p s -> glob (c :: p) (c :: s).

(** The beginning of a path, or what follows one of its slashes. *)
Definition boundary (pre : text) : Prop := pre = [] \/ exists d, pre = d ++ txt "/".
Definition begins (p s : text) : Prop := exists t, s = p ++ t.

(** --exclude: the pattern stands for the end of the path, from a component on... *)
Definition excludes (p file : text) : Prop := exists pre rest, file = pre ++ rest /\ boundary pre /\ glob p rest.
(** ... and this is what the program does with a pattern that begins with two stars and a slash,
    or with a slash: from anywhere on. *)
Definition excludes_anywhere (p file : text) : Prop := exists pre rest, file = pre ++ rest /\ glob p rest.
Definition rooted (p : text) : Prop := begins (txt "**/") p \/ begins (txt "/") p.
Definition hits (p file : text) : Prop := (rooted p /\ excludes_anywhere p file) \/ (~ rooted p /\ excludes p file).

(** --exclude-dir: some directory of the path, given by its path [pre ++ dir], is named. *)
Definition in_directory (name : text -> text -> Prop) (file : text) : Prop :=
  exists pre dir post, file = pre ++ dir ++ txt "/" ++ post /\ name pre dir.
Inductive named (p : text) : text -> text -> Prop :=
| n_any p' pre dir : p = txt "**/" ++ p' -> boundary pre -> glob p' dir -> named p pre dir
| n_second p' parent dir : p = txt "*/" ++ p' -> ~ In (ch "/") parent -> glob p' dir -> named p (parent ++ txt "/") dir
| n_root p' dir : p = txt "/" ++ p' -> glob p' dir -> named p [] dir
| n_here pre dir : ~ begins (txt "**/") p -> ~ begins (txt "*/") p -> ~ begins (txt "/") p -> boundary pre -> glob p dir -> named p pre dir.
(** Without wildcards the name itself, with wildcards what it stands for. *)
Definition no_wildcard (p : text) : Prop := ~ In (ch "*") p /\ ~ In (ch "?") p /\ ~ In (ch "[") p.
Definition dir_hits (p file : text) : Prop :=
  (no_wildcard p /\ in_directory (fun pre dir => boundary pre /\ dir = p) file) \/ (~ no_wildcard p /\ in_directory (named p) file).
(** The components of a path. *)
Fixpoint components (s : text) : list text :=
  match s with
  | [] => [[]]
  | c :: s' => if (c =? ch "/")%Z then [] :: components s'
               else match components s' with x :: l => (c :: x) :: l | [] => [[c]] end
  end.
Definition directories (file : text) : list text := removelast (components file).
(** Paths as the index stores them: relative, no empty component. *)
Definition clean (file : text) : Prop := forall a b, file <> a ++ txt "//" ++ b /\ file <> txt "/" ++ b.

(** A text without line feeds. *)
Definition one_line (s : text) : Prop := ~ In 10%Z s.

(** Below a directory. *)
Definition below (dir file : text) : Prop := exists rest, file = dir ++ txt "/" ++ rest.

(** Braces: a pattern is a row of plain pieces and groups of alternatives. *)
Inductive segment := Plain (s : text) | Group (alternatives : list text).
Fixpoint commas (l : list text) : text :=
  match l with [] => [] | [x] => x | x :: l' => x ++ txt "," ++ commas l' end.
Definition write_segment (g : segment) : text :=
  match g with Plain s => s | Group l => txt "{" ++ commas l ++ txt "}" end.
Definition write (l : list segment) : text := flat_map write_segment l.
(** One choice per group. *)
Inductive chosen : list segment -> text -> Prop :=
| c_none : chosen [] []
| c_plain s l t : chosen l t -> chosen (Plain s :: l) (s ++ t)
| c_group a alts l t : In a alts -> chosen l t -> chosen (Group alts :: l) (a ++ t).
Definition braceless (s : text) : Prop := ~ In (ch "{") s /\ ~ In (ch "}") s.
Definition flat (g : segment) : Prop :=
  match g with
  | Plain s => braceless s
  | Group l => l <> [] /\ l <> [[]] /\ Forall (fun a => braceless a /\ ~ In (ch ",") a) l
  end.
