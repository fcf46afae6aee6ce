(** The texts colgrep gives to the model: for a code unit (colgrep/src/embed.rs) and for a query
    with a pattern (colgrep/src/commands/search.rs 245-364). *)
From Verif Require Import Base Text FtsText SqlModel MetaModel Units.
Open Scope nat_scope.

Section EMBED.
  Variable U : unicode.
  Variables is_upper is_lower : Z -> bool.   (* char::is_uppercase, char::is_lowercase *)

  (** ** embed.rs: a code unit *)

  (** 18-27 [shorten_path]: at most the last four components.  A path is the list of its names
      (the index holds paths relative to the project). *)
  Definition shorten_path (names : list text) : text := join (txt "/") (skipn (length names - 4) names).

  Definition is_sep (c : Z) : bool := (c =? ch "/")%Z || (c =? 92)%Z.
  (** 37: [rsplit(['/', '\\']).next()]: what follows the last separator *)
  Fixpoint after_last_sep (s : text) : text :=
    match s with [] => [] | c :: r => if existsb is_sep s then (if is_sep c && negb (existsb is_sep r) then r else after_last_sep r) else s end.
  (** 40-44: up to the last dot, if there is one *)
  Fixpoint before_last_dot (s : text) : text :=
    match s with
    | [] => []
    | c :: r => if existsb (Z.eqb (ch ".")) s then (if (c =? ch ".")%Z && negb (existsb (Z.eqb (ch ".")) r) then [] else c :: before_last_dot r) else s
    end.
  (** 46-76: the loop.  [out]: what was pushed so far; [prev]: the previous character *)
  Definition ends_with_space (out : text) : bool := match rev out with c :: _ => (c =? 32)%Z | [] => false end.
  Fixpoint spread (out : text) (prev : option Z) (s : text) : text :=
    match s with
    | [] => out
    | c :: r =>
      let out' :=
        if is_sep c then if negb (ends_with_space out) && nonempty out then out ++ [32%Z] else out
        else if (c =? ch "_")%Z || (c =? ch "-")%Z || (c =? ch ".")%Z then if negb (ends_with_space out) then out ++ [32%Z] else out
        else if is_upper c then (match prev with Some p => if is_lower p then out ++ [32%Z] else out | None => out end) ++ [c]
        else out ++ [c] in
      spread out' (Some c) r
    end.
  (** 35-84 [normalize_path_for_embedding] *)
  Definition normalize_path (path : text) : text :=
    u_lower U (join (txt " ") (split_whitespace (u_ws U) (spread [] None (before_last_dot path)))) ++ txt " " ++ after_last_sep path.

  (** 9-10 *)
  Definition max_chars : nat := 8 * 1024.
  Definition marker : text := [10%Z] ++ txt "[...truncated...]" ++ [10%Z].
  (** 91-99 [prefix_by_chars], 101-113 [truncate_text] *)
  Definition trim_end (s : text) : text := rev (trim_start (u_ws U) (rev s)).
  Definition truncate (s : text) (m : nat) : text :=
    if length s <=? m then s
    else if m <=? length marker then firstn m marker
    else trim_end (firstn (m - length marker) s) ++ marker.

  (** 115-208 [build_embedding_text] *)
  Definition type_name (t : text) : text :=
    if text_eqb t (txt "function") then txt "Function" else if text_eqb t (txt "method") then txt "Method" else if text_eqb t (txt "class") then txt "Class"
    else if text_eqb t (txt "constant") then txt "Constant" else if text_eqb t (txt "document") then txt "Document" else if text_eqb t (txt "section") then txt "Section"
    else txt "Code block".
  Definition opt_part (label : text) (o : option text) : list text := match o with Some (c :: r) => [label ++ c :: r] | _ => [] end.
  Definition list_part (label : text) (l : list text) : list text := match l with [] => [] | _ => [label ++ join (txt ", ") l] end.
  Definition before_code (u : code_unit) (names : list text) : list text :=
    [type_name (cu_unit_type u) ++ txt ": " ++ cu_name u]
    ++ opt_part (txt "Signature: ") (Some (cu_signature u)) ++ opt_part (txt "Extends: ") (cu_extends u) ++ opt_part (txt "Class: ") (cu_parent_class u)
    ++ opt_part (txt "Description: ") (cu_docstring u) ++ list_part (txt "Parameters: ") (cu_parameters u) ++ opt_part (txt "Returns: ") (cu_return_type u)
    ++ list_part (txt "Calls: ") (cu_calls u) ++ list_part (txt "Called by: ") (cu_called_by u) ++ list_part (txt "Variables: ") (cu_variables u)
    ++ list_part (txt "Uses: ") (cu_imports u) ++ [txt "File: " ++ normalize_path (shorten_path names)].
  Definition full_text (u : code_unit) (names : list text) : text :=
    if text_eqb (cu_unit_type u) (txt "rawcode") || text_eqb (cu_unit_type u) (txt "constant") then cu_code u
    else join [10%Z] (before_code u names ++ opt_part (txt "Code:" ++ [10%Z]) (Some (cu_code u))).
  (** [names]: the components of [cu_file u] *)
  Definition build_embedding_text (u : code_unit) (names : list text) : text := truncate (full_text u names) max_chars.

  (** ** commands/search.rs: a query with a pattern *)

  (** 284-301: the rest after a class was opened *)
  Fixpoint skip_class (depth : nat) (s : text) : text :=
    match s with
    | [] => []
    | c :: r =>
      if (c =? 92)%Z then match r with [] => [] | _ :: r' => skip_class depth r' end
      else if (c =? ch "[")%Z then skip_class (S depth) r
      else if (c =? ch "]")%Z then match depth with S (S d) => skip_class (S d) r | _ => r end
      else skip_class depth r
    end.
  (** 311-318: the rest after a brace was opened *)
  Fixpoint skip_brace (s : text) : text := match s with [] => [] | c :: r => if (c =? ch "}")%Z then r else skip_brace r end.
  Definition space_once (out : text) : text := if negb (ends_with_space out) && nonempty out then out ++ [32%Z] else out.
  (** 259-262: escapes that stand for a class or a white space *)
  Definition class_letter (c : Z) : bool := existsb (Z.eqb c) (txt "sSwWdDbBnrt").
  (** 249-326: the loop.  The fuel is the length of the pattern. *)
  Fixpoint strip_loop (fuel : nat) (out s : text) : text :=
    match fuel with
    | O => out
    | S f =>
      match s with
      | [] => out
      | c :: r =>
        if (c =? 92)%Z then
          match r with
          | [] => out
          | n :: r' => if class_letter n then strip_loop f (space_once out) r' else strip_loop f (out ++ [n]) r'
          end
        else if existsb (Z.eqb c) (txt "*+?^$().") then strip_loop f out r
        else if (c =? ch "[")%Z then strip_loop f out (skip_class 1 r)
        else if (c =? ch "|")%Z then strip_loop f (space_once out) r
        else if (c =? ch "{")%Z then strip_loop f out (skip_brace r)
        else strip_loop f (out ++ [c]) r
      end
    end.
  (** 245-332 [strip_regex_for_semantic] *)
  Definition strip_regex (p : text) : text := join (txt " ") (split_whitespace (u_ws U) (strip_loop (length p) [] p)).
  (** 340-364 [merge_query_with_pattern] *)
  Definition merge_query (q p : text) : text :=
    if negb (nonempty p) then q else
    let have := map (u_lower U) (split_whitespace (u_ws U) q) in
    match filter (fun t => negb (existsb (text_eqb (u_lower U t)) have)) (split_whitespace (u_ws U) p) with
    | [] => q
    | new => q ++ txt " " ++ join (txt " ") new
    end.
  (** 1511-1512: the query that is encoded when -e is given; [-F] makes no difference here *)
  Definition semantic_query (q p : text) : text := merge_query q (strip_regex p).
End EMBED.
