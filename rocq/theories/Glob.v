(** File filters of colgrep: --exclude, --exclude-dir, --include, and the subdirectory filter.

    A row of the index is its document id and the relative path stored in its [file] column.
    The SQL layer (conditions, parameters, REGEXP) is modelled in [MetaWhere.v] (C29, C58); here
    a condition on [file] is evaluated row by row in the order of the table. *)
From Verif Require Import Base Text Regex.
Open Scope nat_scope.

Definition row := (Z * text)%type.

(** ** glob_to_regex
    colgrep/src/index/mod.rs 3491-3530 *)
Fixpoint glob_body (p : text) : text :=
  match p with
  | [] => []
  | c :: p1 =>
      if (c =? ch "*")%Z then
        match p1 with
        | d :: p2 =>
            if (d =? ch "*")%Z then
              match p2 with
              | e :: p3 => if (e =? ch "/")%Z then txt "(.*/)?" ++ glob_body p3 else txt ".*" ++ glob_body p2
              | [] => txt ".*"
              end
            else txt "[^/]*" ++ glob_body p1
        | [] => txt "[^/]*"
        end
      else if (c =? ch "?")%Z then txt "." ++ glob_body p1
      else if zmem c (txt ".+()[]{}^$|\") then ch "\" :: c :: glob_body p1
      else c :: glob_body p1
  end.
Definition glob_to_regex (p : text) : text :=
  (if negb (starts_with (txt "**/") p) && negb (starts_with (txt "/") p) then txt "(^|.*/)" else []) ++ glob_body p ++ txt "$".

(** ** regex::escape (a dependency): a backslash before every meta character *)
Fixpoint escape (p : text) : text :=
  match p with
  | [] => []
  | c :: p' => if zmem c punctuation then ch "\" :: c :: escape p' else c :: escape p'
  end.

(** ** is_glob_pattern, dir_pattern_to_regex
    colgrep/src/index/mod.rs 3533-3593 *)
Definition is_glob_pattern (p : text) : bool := zmem (ch "*") p || zmem (ch "?") p || zmem (ch "[") p.
Definition dir_pattern_to_regex (p : text) : text :=
  if is_glob_pattern p then
    (if starts_with (txt "**/") p then txt "(^|.*/)" ++ glob_body (skipn 3 p)
     else if starts_with (txt "*/") p then txt "^[^/]*/" ++ glob_body (skipn 2 p)
     else if starts_with (txt "/") p then txt "^" ++ glob_body (skipn 1 p)
     else txt "(^|/)" ++ glob_body p) ++ txt "/"
  else txt "(^|/)" ++ escape p ++ txt "/".

(** ** join on a vertical bar
    the calls of [join] at mod.rs 3812 and 3845 *)
Fixpoint join (l : list text) : text :=
  match l with [] => [] | [x] => x | x :: l' => x ++ ch "|" :: join l' end.

Section Filters.
  Variable E : engine.
  (** "NOT (file REGEXP ?)" with [unwrap_or_default]: a pattern the engine refuses selects nothing.
      next-plaid/src/filtering.rs 1976-2058 *)
  Definition not_regexp (rows : list row) (p : text) : list Z :=
    match compile E p with
    | Some f => map fst (filter (fun r => negb (f (snd r))) rows)
    | None => []
    end.
  (** ** filter_exclude_by_patterns
      mod.rs 3796-3825 *)
  Definition filter_exclude_by_patterns (rows : list row) (patterns : list text) : list Z :=
    match patterns with [] => map fst rows | _ => not_regexp rows (join (map glob_to_regex patterns)) end.
  (** ** filter_exclude_by_dirs
      mod.rs 3832-3858 *)
  Definition filter_exclude_by_dirs (rows : list row) (dirs : list text) : list Z :=
    match dirs with [] => map fst rows | _ => not_regexp rows (join (map dir_pattern_to_regex dirs)) end.
End Filters.

(** ** filter_by_files: "file = ? OR file = ? ..."
    mod.rs 3861-3880 *)
Definition filter_by_files (rows : list row) (files : list text) : list Z :=
  map fst (filter (fun r => existsb (text_eqb (snd r)) files) rows).

(** ** SQLite's LIKE
    A dependency: [%] stands for any text, [_] for one character, other characters are compared
    without regard to ASCII case. *)
Fixpoint like (p s : text) : bool :=
  match p with
  | [] => match s with [] => true | _ => false end
  | c :: p' =>
      if (c =? ch "%")%Z then
        (fix any (s : text) : bool := like p' s || match s with [] => false | _ :: s' => any s' end) s
      else match s with
           | [] => false
           | d :: s' => ((c =? ch "_")%Z || (to_lower1 c =? to_lower1 d)%Z) && like p' s'
           end
  end.
(** ** filter_by_path_prefix: "file LIKE ?" with the prefix followed by a percent sign
    mod.rs 3751-3763 *)
Definition filter_by_path_prefix (rows : list row) (prefix : text) : list Z :=
  map fst (filter (fun r => like (prefix ++ txt "%") (snd r)) rows).

(** ** expand_braces
    mod.rs 3413-3463.  [String::find] for the first opening and the first closing brace after it. *)
Fixpoint find_char (c : Z) (s : text) : option (text * text) :=
  match s with
  | [] => None
  | d :: s' => if (c =? d)%Z then Some ([], s') else match find_char c s' with Some (a, b) => Some (d :: a, b) | None => None end
  end.
(** The loop over the characters between the braces: the finished alternatives and the last one.
    [depth] is never decreased in fact, since a closing brace ends the group. *)
Fixpoint split_alternatives (s current : text) (depth : Z) : list text * text :=
  match s with
  | [] => ([], current)
  | c :: s' =>
      if (c =? ch "{")%Z then split_alternatives s' (current ++ [c]) (depth + 1)
      else if (c =? ch "}")%Z then split_alternatives s' (current ++ [c]) (depth - 1)
      else if (c =? ch ",")%Z && (depth =? 0)%Z then
        let '(l, last) := split_alternatives s' [] depth in (current :: l, last)
      else split_alternatives s' (current ++ [c]) depth
  end.
Definition ends_with_comma (s : text) : bool := match rev s with c :: _ => (c =? ch ",")%Z | [] => false end.
(** [fuel] bounds the recursion; [S] of the length is enough ([C81_terminates]). *)
Fixpoint expand_fuel (fuel : nat) (p : text) : option (list text) :=
  match fuel with
  | 0 => None
  | S fuel' =>
      match find_char (ch "{") p with
      | None => Some [p]
      | Some (prefix, rest) =>
          match find_char (ch "}") rest with
          | None => Some [p]
          | Some (alts, suffix) =>
              let '(l, last) := split_alternatives alts [] 0 in
              let all := l ++ (match last with [] => if ends_with_comma alts then [last] else [] | _ => [last] end) in
              fold_right (fun a acc => match expand_fuel fuel' (prefix ++ a ++ suffix), acc with
                                       | Some x, Some y => Some (x ++ y) | _, _ => None end) (Some []) all
          end
      end
  end.
Definition expand_braces (p : text) : list text :=
  match expand_fuel (S (length p)) p with Some l => l | None => [] end.

(** ** build_glob_set, matches_glob_pattern, filter_by_file_patterns
    mod.rs 3466-3488, 3597-3609, 3766-3793.  [Glob::new] and its matcher (crate globset) are the
    parameter [glob]; a pattern it refuses is left out. *)
Definition normalize_glob (p : text) : text :=
  if negb (starts_with (txt "**/") p) && negb (starts_with (txt "/") p) then txt "**/" ++ p else p.
Section Include.
  Variable glob : text -> option (text -> bool).
  Definition glob_set (patterns : list text) : list (text -> bool) :=
    flat_map (fun p => match glob (normalize_glob p) with Some f => [f] | None => [] end) (flat_map expand_braces patterns).
  Definition filter_by_file_patterns (rows : list row) (patterns : list text) : list Z :=
    match patterns with
    | [] => []
    | _ => map fst (filter (fun r => existsb (fun f => f (snd r)) (glob_set patterns)) rows)
    end.
End Include.
