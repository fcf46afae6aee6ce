(** What a user of colgrep relies on about the index that a command uses. *)
From Verif Require Import Base Text Regex Glob Which.
Open Scope nat_scope.

(** [p] is [q] or lies below it; [p] lies strictly below [q]. *)
Definition below (q p : path) : Prop := exists rest, p = q ++ rest.
Definition inside (q p : path) : Prop := exists n rest, p = q ++ n :: rest.

(** The data directory has an index for the directory [p] and the model; it records that the directory
    [q] has been indexed with the model. *)
Definition has_index (name : path -> text -> text) (s : store) (p : path) (m : text) : Prop :=
  exists e c, In (name p m, e) s /\ e_index e = Some c.
Definition recorded (s : store) (q : path) (m : text) : Prop :=
  exists d e, In (d, e) s /\ e_meta e = Some {| m_path := q; m_model := Some m |}.
Definition outside (p : path) (cwd : option path) : Prop := exists c, cwd = Some c /\ ~ below c p.

(** The project whose index a search in [p] must use: [p] itself if it has an index or lies outside
    the working directory; else the nearest directory above that has been indexed; else [p]. *)
Definition project_of (name : path -> text -> text) (s : store) (p : path) (m : text) (cwd : option path) (root : path) : Prop :=
  (has_index name s p m /\ root = p) \/
  (~ has_index name s p m /\ outside p cwd /\ root = p) \/
  (~ has_index name s p m /\ ~ outside p cwd /\ recorded s root m /\ inside root p /\
     forall q, recorded s q m -> inside q p -> length q <= length root) \/
  (~ has_index name s p m /\ ~ outside p cwd /\ root = p /\ forall q, recorded s q m -> ~ inside q p).

(** A pattern names something below any directory that is not there in [p]. *)
Definition names_absent (disk : content) (pats : list text) (p : path) : Prop :=
  exists pat n rest, In pat pats /\ pat = txt "**/" ++ n ++ rest /\ (rest = [] \/ exists r, rest = ch "/" :: r) /\
    ~ In (ch "/") n /\ ~ In (ch "*") n /\ n <> [] /\ n <> txt "." /\ n <> txt ".." /\
    forall f t, In (f, t) disk -> ~ below (p ++ [n]) f.

(** No file of the project looks by its text, as [LIKE] compares it, as if it were in [p]. *)
Definition no_lookalike (disk : content) (root p : path) : Prop :=
  forall sub rel t, p = root ++ sub -> In (root ++ rel, t) disk -> like (shown_path sub ++ txt "%") (shown_path rel) = true -> below sub rel.

(** The files a search considers: those on disk that belong to the project, lie below [p] (or anywhere
    in the project, if the patterns name something absent from [p]), and pass the filters. *)
Definition considered (wanted : path -> path -> bool) (included : list text -> path -> bool)
  (disk : content) (root : path) (q : request) (f : path) (t : text) : Prop :=
  In (f, t) disk /\ (exists rel, f = root ++ rel /\ wanted root rel = true /\ (q_include q = [] \/ included (q_include q) rel = true)) /\
  (below (q_path q) f \/ (root <> q_path q /\ names_absent disk (q_include q) (q_path q))) /\
  (forall n, q_file q = Some n -> f = q_path q ++ [n]).

(** The disks of a history. *)
Fixpoint disks (disk : content) (evs : list event) : list content :=
  disk :: match evs with [] => [] | Edit d :: evs' => disks d evs' | _ :: evs' => disks disk evs' end.

(** The names of index directories do not collide. *)
Definition distinct_names (name : path -> text -> text) : Prop := forall p m p' m', name p m = name p' m' -> p = p' /\ m = m'.
