(** Sibling worktrees of a project and the copy of an index directory. *)
From Verif Require Import Base Text.
From Coq Require Import String.
Open Scope string_scope.
Open Scope nat_scope.
Open Scope list_scope.

(** What is at a path. [LinkFile c] is a link to a file that holds [c]; [LinkOther] a link to a directory or to nothing. *)
Inductive node := File (c : text) | Dir (es : list (text * node)) | LinkFile (c : text) | LinkOther.

Fixpoint lookup (x : text) (es : list (text * node)) : option node :=
  match es with
  | [] => None
  | (y, n) :: r => if text_eqb x y then Some n else lookup x r
  end.
(** An entry of a directory made or replaced *)
Fixpoint put (x : text) (n : node) (es : list (text * node)) : list (text * node) :=
  match es with
  | [] => [(x, n)]
  | (y, m) :: r => if text_eqb x y then (y, n) :: r else (y, m) :: put x n r
  end.

(** std::fs::copy of a file that holds [c]: it writes through a link to a file; a directory is no place for it *)
Definition copy_file (c : text) (dst : option node) : option node :=
  match dst with
  | None | Some (File _) => Some (File c)
  | Some (LinkFile _) => Some (LinkFile c)
  | Some (Dir _) | Some LinkOther => None
  end.

(** colgrep/src/index/worktree.rs 105-123 [copy_dir_all], and 114-120 for one entry: what is at the destination afterwards, [None] for an error. std::fs::copy follows a link in the source (and fails on one to a directory or to nothing). Simplified: a copy that fails leaves nothing; create_dir_all fails on what is no directory; a link to a directory at the destination is taken for an error. *)
Fixpoint copy_node (src : node) (dst : option node) : option node :=
  match src with
  | File c | LinkFile c => copy_file c dst
  | LinkOther => None
  | Dir es =>
      let fix go (es : list (text * node)) (ds : list (text * node)) : option node :=
        match es with
        | [] => Some (Dir ds)
        | (x, n) :: r => match copy_node n (lookup x ds) with
                         | Some m => go r (put x m ds)
                         | None => None
                         end
        end in
      match dst with
      | None => go es []
      | Some (Dir ds) => go es ds
      | Some _ => None
      end
  end.

Section WORKTREES.
  (** White space, std::fs::canonicalize, and the index directory of a root (get_index_dir_for_project; [None] an error) *)
  Variable ws : Z -> bool.
  Variable canonical : text -> option text.
  Variable index_dir : text -> option text.

  (** colgrep/src/index/worktree.rs 61-70, one line of the answer of git *)
  Definition root_of_line (line : text) : list text :=
    if starts_with (txt "worktree ") line then
      match canonical (trim ws (skipn 9 line)) with Some r => [r] | None => [] end
    else [].
  (** colgrep/src/index/worktree.rs 36-73 [list_worktree_roots]. [git] is the lines of the answer, [None] if git fails. *)
  Definition list_worktree_roots (git : option (list text)) : list text :=
    match git with None => [] | Some lines => flat_map root_of_line lines end.

  (** colgrep/src/index/worktree.rs 86-97, the loop *)
  Fixpoint candidates (self : text) (roots : list text) : option (list (text * text)) :=
    match roots with
    | [] => Some []
    | r :: l => if text_eqb r self then candidates self l
                else match index_dir r with
                     | None => None
                     | Some d => option_map (cons (r, d)) (candidates self l)
                     end
    end.
  (** colgrep/src/index/worktree.rs 81-98 [seed_candidates] *)
  Definition seed_candidates (project : text) (git : option (list text)) : option (list (text * text)) :=
    let self := match canonical project with Some p => p | None => project end in
    candidates self (list_worktree_roots git).
End WORKTREES.
