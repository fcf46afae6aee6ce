(** What it means that a file of a tree is indexed.  Of the model, only the tree, the tables of
    names and [slashed] (a path as text) are used. *)
From Verif Require Import Base Text Colgrep Walk.
Open Scope nat_scope.

(** The file [f] stands at the path below the entry. *)
Inductive stands : entry -> list text -> file -> Prop :=
| stands_here f : stands (File f) [] f
| stands_below l n e p f : In (n, e) l -> stands e p f -> stands (Dir l) (n :: p) f.

(** A pattern is a name, or a star and the end of a name. *)
Definition names (p n : text) : Prop := (exists s, p = ch "*" :: s /\ exists x, n = x ++ s) \/ (~ (exists s, p = ch "*" :: s) /\ n = p).
(** On a path: the end of it, or the path itself or a directory above it. *)
Definition covers (p path : text) : Prop :=
  (exists s, p = ch "*" :: s /\ exists x, path = x ++ s)
  \/ (~ (exists s, p = ch "*" :: s) /\ (path = p \/ exists rest, path = p ++ txt "/" ++ rest)).
Definition one_of (l : list text) (n : text) : Prop := exists p, In p l /\ names p n.

(** The names that are left out: hidden ones with few exceptions, the built-in list, the user's list,
    unless the user forces the name. *)
Definition hidden (n : text) : Prop := (exists s, n = ch "." :: s) /\ ~ In n allowed_hidden_dirs /\ ~ In n allowed_hidden_files.
Definition left_out (extra force : list text) (n : text) : Prop :=
  ~ one_of force n /\ (hidden n \/ one_of ignored_dirs n \/ one_of extra n).
Definition allowed (extra force p : list text) : Prop :=
  (exists pat, In pat force /\ covers pat (slashed p)) \/ (forall n, In n p -> ~ left_out extra force n).
(** Nothing on the way to the file is left out: every directory above it and itself. *)
Definition reached (W : surroundings) (extra force p : list text) : Prop :=
  forall q r, p = q ++ r -> q <> [] -> w_git W q = false /\ allowed extra force q.

(** The language is known by the name or by the ending, in any case. *)
Definition of_language (U : unicode) (p : list text) (lang : text) : Prop :=
  let name := last p [] in
  In (u_lower U name, lang) special_names
  \/ ((forall l, ~ In (u_lower U name, l) special_names) /\
      exists base ext, base <> [] /\ name = base ++ ch "." :: ext /\ ~ In (ch ".") ext /\ In (u_lower U ext, lang) extensions).
Definition asked (wanted : option (list text)) (lang : text) : Prop := match wanted with Some ls => In lang ls | None => True end.
(** A path that could lead out of the project. *)
Definition dotted (p : list text) : Prop := exists a b, slashed p = a ++ txt ".." ++ b.
Definition stays_inside (W : surroundings) (p : list text) : Prop := dotted p -> w_inside W p = true.

(** Names in a directory differ and are names. *)
Inductive tidy : entry -> Prop :=
| tidy_file f : tidy (File f)
| tidy_other : tidy Other
| tidy_dir l : NoDup (map fst l) -> (forall n e, In (n, e) l -> n <> [] /\ ~ In (ch "/") n /\ tidy e) -> tidy (Dir l).
