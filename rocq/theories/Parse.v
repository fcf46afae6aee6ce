(** How colgrep cuts a file into units: text files, source files (over any syntax tree), HTML,
    Vue and Svelte files, and the call graph. *)
From Verif Require Import Base Text Calendar FtsText Units.
From Verif Require Pattern.
Open Scope nat_scope.

(** [str::lines], as in Pattern.v *)
Definition file_lines (s : text) : list text := Pattern.lines s.
(** [join("\n")] *)
Definition join_lines (l : list text) : text := join [10%Z] l.
(** [&lines[a..b]] *)
Definition cut {A} (a b : nat) (l : list A) : res (list A) :=
  if (a <=? b) && (b <=? length l) then Ok (firstn (b - a) (skipn a l)) else Panic.

Section FILE.
  Variable U : unicode.
  Definition clean (l : text) : text := trim (u_ws U) l.
  Definition is_blank (l : text) : bool := match clean l with [] => true | _ => false end.
  (** first line that is not blank, trimmed *)
  Definition first_signature (l : list text) : text := match find (fun x => negb (is_blank x)) l with Some x => clean x | None => [] end.

  (** The file: its path as text, the stem of its name ([file_stem], "document" if there is none). *)
  Variable path stem : text.
  (** A unit with everything but its texts left at the default of [CodeUnit::new] (types.rs 155-195). *)
  Definition plain_unit (name qualified : text) (first last : nat) (lang kind : text) (signature code : text) (imports : list text) : code_unit :=
    {| cu_name := name; cu_qualified_name := qualified; cu_file := path; cu_line := first; cu_end_line := last; cu_language := lang; cu_unit_type := kind;
       cu_signature := signature; cu_docstring := None; cu_parameters := []; cu_return_type := None; cu_extends := None; cu_parent_class := None;
       cu_calls := []; cu_called_by := []; cu_complexity := 1; cu_has_loops := false; cu_has_branches := false; cu_has_error_handling := false;
       cu_variables := []; cu_imports := imports; cu_code := code |}.
  Definition with_docstring (d : option text) (u : code_unit) : code_unit :=
    {| cu_name := cu_name u; cu_qualified_name := cu_qualified_name u; cu_file := cu_file u; cu_line := cu_line u; cu_end_line := cu_end_line u;
       cu_language := cu_language u; cu_unit_type := cu_unit_type u; cu_signature := cu_signature u; cu_docstring := d; cu_parameters := cu_parameters u;
       cu_return_type := cu_return_type u; cu_extends := cu_extends u; cu_parent_class := cu_parent_class u; cu_calls := cu_calls u; cu_called_by := cu_called_by u;
       cu_complexity := cu_complexity u; cu_has_loops := cu_has_loops u; cu_has_branches := cu_has_branches u; cu_has_error_handling := cu_has_error_handling u;
       cu_variables := cu_variables u; cu_imports := cu_imports u; cu_code := cu_code u |}.

  (** ** Text files: colgrep/src/parser/text.rs 7-123.  The two branches of [extract_text_units] differ
      in the language only. *)
  Fixpoint take_while {A} (p : A -> bool) (l : list A) : list A := match l with [] => [] | x :: r => if p x then x :: take_while p r else [] end.
  Definition text_docstring (ls : list text) : option text :=
    match firstn 5 (filter (fun l => match l with [] => false | _ => true end) (map clean (take_while (fun l => negb (is_blank l)) ls))) with
    | [] => None
    | para => Some (join [32%Z] para)
    end.
  Definition create_text_unit (name : text) (first last : nat) (lang kind : text) (ls : list text) : code_unit :=
    with_docstring (text_docstring ls)
      (plain_unit name (path ++ txt "::" ++ name) first last lang kind (first_signature ls) (join_lines ls) []).
  Definition extract_text_units (lang source : text) : list code_unit :=
    let ls := file_lines source in
    if forallb is_blank ls then [] else [create_text_unit stem 1 (length ls) lang (txt "document") ls].

  (** ** Source files *)
  (** A node of the syntax tree: its kind, the rows (from 0) of its first and last character, and its
      children. *)
  Inductive node := Node (kind : text) (first last : nat) (children : list node).
  Definition n_kind (n : node) : text := let 'Node k _ _ _ := n in k.
  Definition n_first (n : node) : nat := let 'Node _ a _ _ := n in a.
  Definition n_last (n : node) : nat := let 'Node _ _ b _ := n in b.
  Definition n_children (n : node) : list node := let 'Node _ _ _ cs := n in cs.
  (** What the code knows of a language: kinds of nodes, names, bodies, names of constants (with the
      test on Python names), the fields found by the analysis of a node (parser/analysis.rs; a whole
      unit, of which the place and the code are not used), and the lines that belong to what follows
      (the match of ast.rs 380-398, on the trimmed line). *)
  Record grammar := {
    g_function : text -> bool; g_class : text -> bool; g_constant : text -> bool; g_abstract : text -> bool;
    g_name : node -> option text; g_body : node -> option node; g_constant_name : node -> option text;
    g_analysis : node -> option text -> code_unit;
    g_attribute : text -> bool }.
  Variable G : grammar.
  Variable ls : list text.

  (** ast.rs 364-409 [find_start_with_attributes]; the loop on [i] from [n - 1] down to 0 *)
  Fixpoint attributes_from (n start : nat) : nat :=
    match n with
    | O => start
    | S i =>
      let line := match nth_error ls i with Some l => clean l | None => [] end in
      match line with
      | [] => attributes_from i start
      | _ => if g_attribute G line then attributes_from i i else start
      end
    end.
  Definition find_start_with_attributes (n : nat) : nat := attributes_from n n.
  (** extract.rs 13-88, 92-157, 279-343, 538-615: the place and the code, the same in the four; the
      signature is the line the node begins on *)
  Definition placed (n : node) (u : code_unit) : res code_unit :=
    let start := find_start_with_attributes (n_first n) in
    bind (cut start (Nat.min (n_last n + 1) (length ls)) ls) (fun body =>
    Ok {| cu_name := cu_name u; cu_qualified_name := cu_qualified_name u; cu_file := path; cu_line := start + 1; cu_end_line := n_last n + 1;
          cu_language := cu_language u; cu_unit_type := cu_unit_type u;
          cu_signature := match nth_error ls (n_first n) with Some l => clean l | None => [] end;
          cu_docstring := cu_docstring u; cu_parameters := cu_parameters u;
          cu_return_type := cu_return_type u; cu_extends := cu_extends u; cu_parent_class := cu_parent_class u; cu_calls := cu_calls u; cu_called_by := [];
          cu_complexity := cu_complexity u; cu_has_loops := cu_has_loops u; cu_has_branches := cu_has_branches u; cu_has_error_handling := cu_has_error_handling u;
          cu_variables := cu_variables u; cu_imports := cu_imports u; cu_code := join_lines body |}).
  (** mod.rs 76-87 [body_has_function_descendant] *)
  Fixpoint below (p : text -> bool) (n : node) : bool :=
    let 'Node _ _ _ cs := n in existsb (fun c => let 'Node k _ _ _ := c in p k || below p c) cs.
  (** mod.rs 214-325 [extract_from_node].  [fuel] is the depth left, [max_depth - depth + 1]; the flag is
      [depth_limit_hit]; [recurse_all]: html.rs, vue.rs and svelte.rs have their own copies, which enter
      every class body. *)
  Variable recurse_all : bool.
  Definition walk := (list code_unit * bool)%type.
  Fixpoint extract_from_node (fuel : nat) (n : node) (parent : option text) (st : walk) : res walk :=
    if snd st then Ok st else
    match fuel with
    | O => Ok (fst st, true)
    | S f =>
      let into cs p st := foldM (fun st c => extract_from_node f c p st) cs st in
      let add u := bind (placed n u) (fun u => Ok (fst st ++ [u], snd st)) in
      if g_function G (n_kind n) then
        bind (match g_name G n with Some _ => add (g_analysis G n parent) | None => Ok st end) (into (n_children n) parent)
      else if g_class G (n_kind n) then
        match g_name G n with
        | Some name =>
          bind (add (g_analysis G n None)) (fun st =>
          if negb recurse_all && g_abstract G (n_kind n) then Ok st else
          match g_body G n with
          | Some body => if recurse_all || below (g_function G) body then into (n_children body) (Some name) st else Ok st
          | None => Ok st
          end)
        | None => into (n_children n) parent st
        end
      else if match parent with None => true | Some _ => false end && g_constant G (n_kind n) then
        match g_constant_name G n with Some _ => add (g_analysis G n None) | None => Ok st end
      else into (n_children n) parent st
    end.

  (** extract.rs 710-770 [fill_raw_code_gaps], 773-825 [create_raw_code_unit] *)
  Definition fill_range (a b : nat) (v : list bool) : res (list bool) :=
    if (a <=? S b) && (S b <=? length v) then Ok (firstn a v ++ repeat true (S b - a) ++ skipn (S b) v) else Panic.
  Definition mark (total : nat) (v : list bool) (u : code_unit) : res (list bool) :=
    if cu_line u <=? total then fill_range (cu_line u) (Nat.min (cu_end_line u) total) v else Ok v.
  Definition create_raw_code_unit (lang : text) (imports : list text) (first last : nat) : option code_unit :=
    let content := if (first - 1 <=? last) && (last <=? length ls) then firstn (last - (first - 1)) (skipn (first - 1) ls) else [] in
    if forallb is_blank content then None else
    let name := txt "raw_code_" ++ digits (Z.of_nat first) in
    Some (plain_unit name (path ++ txt "::" ++ name) first last lang (txt "rawcode") (first_signature content) (join_lines content) imports).
  Definition close_gap (lang : text) (imports : list text) (gap : option nat * option nat) : list code_unit :=
    match gap with
    | (Some a, Some b) => match create_raw_code_unit lang imports a b with Some u => [u] | None => [] end
    | _ => []
    end.
  (** one line of the loop: its number, its text, whether it is covered *)
  Definition gap_step (lang : text) (imports : list text) (st : list code_unit * (option nat * option nat)) (l : nat * (text * bool)) :=
    let '(raw, (start, stop)) := st in
    let '(num, (line, covered)) := l in
    if (covered : bool) then (raw ++ close_gap lang imports (start, stop), (None, None))
    else if negb (is_blank line) then (raw, (match start with None => Some num | s => s end, Some num))
    else st.
  Definition fill_raw_code_gaps (lang : text) (imports : list text) (units : list code_unit) : res (list code_unit) :=
    match ls with
    | [] => Ok units
    | _ =>
      let total := length ls in
      bind (foldM (mark total) units (repeat false (total + 1))) (fun covered =>
      let '(raw, gap) := fold_left (gap_step lang imports) (combine (seq 1 total) (combine ls (tl covered))) ([], (None, None)) in
      Ok (units ++ raw ++ close_gap lang imports gap))
    end.
  (** mod.rs 133-206 [extract_units] for a source file: the tree is what the parser gives for the
      source, the imports those found in it *)
  Definition extract_source_units (lang : text) (imports : list text) (max_depth : nat) (root : node) : res (list code_unit) :=
    bind (extract_from_node (S max_depth) root None ([], false)) (fun st =>
    if snd st then Ok [] else fill_raw_code_gaps lang imports (fst st)).
End FILE.
