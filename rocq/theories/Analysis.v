(** What colgrep records of a piece of code: its comment, its calls, its variables, its control flow,
    its imports and its parent class (colgrep/src/parser/analysis.rs), over any syntax tree. *)
From Verif Require Import Base Text FtsText.
From Verif Require ApiProgress.
From Coq Require Import String.
Open Scope string_scope.
Open Scope nat_scope.
Open Scope list_scope.

(** A node of the syntax tree: its kind, the field it has in its parent, whether it is named, its text,
    the rows (from 0) of its first and last character, and its children.  A node's text is always
    readable: the source is a string and tree-sitter cuts it at character boundaries, so the
    [utf8_text] tests of the code never fail and are left out. *)
Inductive tree := Tree (kind : text) (field : option text) (named : bool) (src : text) (first last : nat) (children : list tree).
Definition t_kind (t : tree) : text := let 'Tree k _ _ _ _ _ _ := t in k.
Definition t_field (t : tree) : option text := let 'Tree _ f _ _ _ _ _ := t in f.
Definition t_named (t : tree) : bool := let 'Tree _ _ b _ _ _ _ := t in b.
Definition t_text (t : tree) : text := let 'Tree _ _ _ s _ _ _ := t in s.
Definition t_first (t : tree) : nat := let 'Tree _ _ _ _ a _ _ := t in a.
Definition t_last (t : tree) : nat := let 'Tree _ _ _ _ _ b _ := t in b.
Definition t_children (t : tree) : list tree := let 'Tree _ _ _ _ _ _ cs := t in cs.
Fixpoint size (t : tree) : nat := let 'Tree _ _ _ _ _ _ cs := t in S (list_sum (map size cs)).
Definition mem (k : text) (l : list text) : bool := existsb (text_eqb k) l.
Definition one_of (l : list string) (k : text) : bool := mem k (map txt l).
Definition is_field (f : string) (t : tree) : bool := match t_field t with Some g => text_eqb g (txt f) | None => false end.
(** tree-sitter's [child_by_field_name], [child(i)], [named_child(0)]; first child of a kind *)
Definition by_field (f : string) (t : tree) : option tree := find (is_field f) (t_children t).
Definition child (i : nat) (t : tree) : option tree := nth_error (t_children t) i.
Definition named_child (t : tree) : option tree := find t_named (t_children t).
Definition by_kind (k : string) (t : tree) : option tree := find (fun c => text_eqb (t_kind c) (txt k)) (t_children t).
Definition or_else {A} (a b : option A) : option A := match a with Some _ => a | None => b end.
Definition and_then {A B} (a : option A) (f : A -> option B) : option B := match a with Some x => f x | None => None end.
Definition keep_kind (k : string) (t : tree) : option tree := if text_eqb (t_kind t) (txt k) then Some t else None.

(** analysis.rs 7-18 [walk_tree]: the nodes in the order they are popped; the head of the list is the
    top of the stack, so the children, pushed in order, are popped from the last to the first.  [size] is
    the number of turns of the loop. *)
Fixpoint walk_stack (fuel : nat) (stack : list tree) : list tree :=
  match fuel, stack with
  | S f, t :: rest => t :: walk_stack f (rev (t_children t) ++ rest)
  | _, _ => []
  end.
Definition walk_tree (t : tree) : list tree := walk_stack (size t) [t].

(** analysis.rs 20-60 [find_first_by_kind], [find_first_by_kinds]: the children are pushed in reverse
    order, so popped in order *)
Fixpoint find_stack (fuel : nat) (kinds : list text) (max_depth : nat) (stack : list (tree * nat)) : option tree :=
  match fuel, stack with
  | S f, (t, d) :: rest =>
    if mem (t_kind t) kinds then Some t
    else find_stack f kinds max_depth (if d <? max_depth then map (fun c => (c, S d)) (t_children t) ++ rest else rest)
  | _, _ => None
  end.
Definition find_first_by_kinds (kinds : list string) (max_depth : nat) (t : tree) : option tree := find_stack (size t) (map txt kinds) max_depth [(t, 0)].
Definition find_first_by_kind (kind : string) : nat -> tree -> option tree := find_first_by_kinds [kind].

(** [str::trim_start_matches], [trim_end_matches] of a string; of a set of characters *)
Fixpoint strip_fuel (fuel : nat) (p s : text) : text :=
  match fuel with
  | O => s
  | S f => if starts_with p s then strip_fuel f p (skipn (List.length p) s) else s
  end.
Definition strip_start (p s : text) : text := strip_fuel (List.length s) p s.
Definition strip_end (p s : text) : text := rev (strip_start (rev p) (rev s)).
Definition ends_in (p s : text) : bool := starts_with (rev p) (rev s).
(** [str::split] at a string that is not empty *)
Fixpoint split_fuel (fuel : nat) (sep s : text) : list text :=
  match fuel, s with
  | S f, c :: r =>
    if starts_with sep s then [] :: split_fuel f sep (skipn (List.length sep) s)
    else match split_fuel f sep r with h :: t => (c :: h) :: t | [] => [[c]] end
  | _, _ => [s]
  end.
Definition split (sep : string) (s : text) : list text := split_fuel (List.length s) (txt sep) s.
Definition last_part (sep : string) (s : text) : text := last (split sep s) s.
Definition first_part (sep : string) (s : text) : text := hd [] (split sep s).
(** bytes of a string in UTF-8 *)
Definition width (c : Z) : nat := if (c <? 128)%Z then 1 else if (c <? 2048)%Z then 2 else if (c <? 65536)%Z then 3 else 4.
Definition byte_len (s : text) : nat := list_sum (map width s).
(** [sort] then [dedup] of strings *)
Definition sorted_once (l : list text) : list text := dedup text_eqb (isort ApiProgress.text_leb l).
Definition non_empty (s : text) : bool := match s with [] => false | _ => true end.

Section ANALYSIS.
  Variable U : unicode.
  Variable max_depth : nat.   (* mod.rs 102-115 *)
  Variable lang : text.
  Definition is (l : list string) : bool := one_of l lang.
  Definition js : list string := ["javascript"; "typescript"; "vue"; "svelte"]%string.
  Definition neat (s : text) : text := trim (u_ws U) s.

  (** ** Comments: analysis.rs 98-399 [extract_docstring] *)
  (** A loop going up from the line above the code; what a line does to it. *)
  Inductive step := Take (s : text) | Skip | Stop.
  Fixpoint go_up (f : bool -> text -> step) (above acc : list text) : list text :=
    match above with
    | [] => acc
    | l :: r =>
      match f (match acc with [] => false | _ => true end) (neat l) with
      | Take s => go_up f r (s :: acc)
      | Skip => go_up f r acc
      | Stop => acc
      end
    end.
  Definition spoken (l : list text) : option text := match l with [] => None | _ => Some (join [32%Z] l) end.
  (** a line comment beginning with [mark] *)
  Definition uncomment (mark : string) (l : text) : text := neat (strip_start (txt mark) l).
  Definition line_comment (mark : string) (skip : list string) (l : text) : step :=
    if starts_with (txt mark) l then Take (uncomment mark l)
    else if existsb (fun p => starts_with (txt p) l) skip || negb (non_empty l) then Skip
    else Stop.
  Definition haskell_comment (have : bool) (l : text) : step :=
    if starts_with (txt "-- |") l || starts_with (txt "-- ^") l then Take (neat (strip_start (txt "-- ^") (strip_start (txt "-- |") l)))
    else if starts_with (txt "--") l && have then Take (uncomment "--" l)
    else if non_empty l then Stop else Skip.
  Definition lua_comment (l : text) : step :=
    if starts_with (txt "---") l then Take (uncomment "---" l) else line_comment "--" [] l.
  (** the lines read by the Lua loop contain one beginning with three dashes *)
  Fixpoint lua_marked (above : list text) : bool :=
    match above with
    | [] => false
    | l :: r => match lua_comment (neat l) with Stop => false | _ => starts_with (txt "---") (neat l) || lua_marked r end
    end.
  (** a block comment: the nearest line above that begins with [opens] *)
  Fixpoint block_from (opens : string) (above taken : list text) : option (list text) :=
    match above with
    | [] => None
    | l :: r => if starts_with (txt opens) (neat l) then Some (l :: taken) else block_from opens r (l :: taken)
    end.
  Definition bare_c (l : text) : text :=
    neat (strip_end (txt "*/") (strip_start (txt "*") (strip_start (txt "/*") (strip_start (txt "/**") (neat l))))).
  Definition bare_ml (l : text) : text := neat (strip_end (txt "*)") (strip_start (txt "(*") (strip_start (txt "(**") (neat l)))).
  (** A line beginning with [/**] begins with [/*] too, so the test of the code is the second. *)
  Definition block_comment (opens closes : string) (bare : text -> text) (above : list text) : option text :=
    match above with
    | [] => None
    | prev :: _ =>
      if ends_in (txt closes) (neat prev) then
        option_map (fun ls => join [32%Z] (filter non_empty (map bare ls))) (block_from opens above [])
      else None
    end.
  Fixpoint elixir_doc (above : list text) : option text :=
    match above with
    | [] => None
    | l :: r =>
      let l := neat l in
      if starts_with (txt "@doc") l || starts_with (txt "@moduledoc") l then
        match drop_while (fun c => negb (c =? 34)%Z) l with
        | [] => elixir_doc r
        | q => Some (trim (fun c => (c =? 34)%Z) q)
        end
      else if non_empty l && negb (starts_with (txt "#") l) && negb (starts_with (txt "@") l) then None
      else elixir_doc r
    end.
  Definition is_quote (c : Z) : bool := (c =? 34)%Z || (c =? 39)%Z.
  (** [&lines[start..=end.min(lines.len() - 1)]] *)
  Definition rows (a b : nat) (ls : list text) : res (list text) :=
    match ls with
    | [] => Panic
    | _ => let e := Nat.min b (List.length ls - 1) in if a <=? S e then Ok (firstn (S e - a) (skipn a ls)) else Panic
    end.
  Definition python_doc (ls : list text) (t : tree) : res (option text) :=
    match and_then (by_field "body" t) (fun b => and_then (child 0 b) (fun s => and_then (keep_kind "expression_statement" s) (fun s => and_then (child 0 s) (keep_kind "string")))) with
    | None => Ok None
    | Some e => bind (rows (t_first e) (t_last e) ls) (fun l => Ok (Some (neat (trim is_quote (join [10%Z] l)))))
    end.
  (** The other languages.  [lines.get(i)?] leaves with nothing when the code begins below the last line. *)
  Definition comment_doc (ls : list text) (start : nat) : option text :=
    let above := rev (firstn start ls) in
    let block := block_comment "/*" "*/" bare_c above in
    if List.length ls <? start then None
    else if is ["rust"]%string then spoken (go_up (fun _ => line_comment "///" ["//!"; "#["]) above [])
    else if is ["javascript"; "typescript"; "vue"; "svelte"; "java"; "csharp"; "kotlin"; "scala"; "php"]%string then block
    else if is ["haskell"]%string then spoken (go_up haskell_comment above [])
    else if is ["elixir"]%string then elixir_doc above
    else if is ["swift"]%string then spoken (go_up (fun _ => line_comment "///" []) above [])
    else if is ["go"]%string then spoken (go_up (fun _ => line_comment "//" []) above [])
    else if is ["c"; "cpp"]%string then or_else (spoken (go_up (fun _ => line_comment "///" []) above [])) block
    else if is ["ruby"]%string then spoken (go_up (fun _ => line_comment "#" []) above [])
    else if is ["ocaml"]%string then block_comment "(**" "*)" bare_ml above
    else if is ["lua"]%string then if lua_marked above then spoken (go_up (fun _ => lua_comment) above []) else None
    else None.
  Definition extract_docstring (ls : list text) (t : tree) : res (option text) :=
    if is ["python"]%string then python_doc ls t else Ok (comment_doc ls (t_first t)).

  (** ** Declarators: analysis.rs 62-95 [find_identifier_in_declarator]; [fuel] is the depth left plus one *)
  Definition declarators : list string := ["pointer_declarator"; "array_declarator"; "function_declarator"; "parenthesized_declarator"; "reference_declarator"]%string.
  Fixpoint identifier_in (fuel : nat) (t : tree) : option tree :=
    match fuel with
    | O => None
    | S f =>
      if one_of ["identifier"]%string (t_kind t) then Some t
      else if one_of declarators (t_kind t) then
        match by_field "declarator" t with
        | Some i => identifier_in f i
        | None => fold_left (fun a c => or_else a (identifier_in f c)) (t_children t) None
        end
      else None
    end.
  Definition declared (t : tree) : option tree := and_then (by_field "declarator" t) (identifier_in (S max_depth)).

  (** ** Parameters: analysis.rs 402-560 [extract_parameters] *)
  (** 497-528 [find_ocaml_param_name] *)
  Fixpoint ocaml_name (fuel : nat) (t : tree) : option tree :=
    match fuel with
    | O => None
    | S f =>
      if one_of ["value_pattern"; "value_name"]%string (t_kind t) then Some t
      else if one_of ["typed"; "typed_pattern"; "parameter"]%string (t_kind t) then and_then (named_child t) (ocaml_name f)
      else None
    end.
  Definition params_node (t : tree) : option tree :=
    if is ["python"; "rust"; "go"; "java"; "csharp"; "ruby"; "php"; "lua"; "elixir"; "haskell"]%string then by_field "parameters" t
    else if is js then or_else (by_field "parameters" t) (by_field "formal_parameters" t)
    else if is ["c"; "cpp"]%string then and_then (by_field "declarator" t) (by_field "parameters")
    else if is ["kotlin"]%string then or_else (by_field "parameters" t) (by_kind "function_value_parameters" t)
    else if is ["swift"]%string then Some t
    else if is ["scala"]%string then by_kind "parameters" t
    else if is ["ocaml"]%string then
      if one_of ["value_definition"]%string (t_kind t) then by_kind "let_binding" t
      else if one_of ["let_binding"]%string (t_kind t) then Some t else None
    else None.
  Definition param_name (c : tree) : option tree :=
    or_else (by_field "name" c)
      (if one_of ["identifier"]%string (t_kind c) then Some c
       else if is ["python"; "kotlin"]%string then and_then (child 0 c) (keep_kind "identifier")
       else if is ("rust" :: js)%string then and_then (by_field "pattern" c) (keep_kind "identifier")
       else if is ["c"; "cpp"]%string then declared c
       else if is ["ocaml"]%string then ocaml_name (S max_depth) c
       else None).
  Definition identifiers (t : tree) : list text := filter non_empty (map t_text (filter (fun c => one_of ["identifier"]%string (t_kind c)) (t_children t))).
  Definition params_of (c : tree) : list text :=
    let k := t_kind c in
    if contains (txt "parameter") k || one_of ["identifier"]%string k || is ["ocaml"]%string && one_of ["typed"]%string k then
      if is ["go"]%string && one_of ["parameter_declaration"]%string k then identifiers c
      else match param_name c with
           | Some n => if non_empty (t_text n) && negb (one_of ["self"; "this"; "cls"]%string (t_text n)) then [t_text n] else []
           | None => []
           end
    else if is ["python"]%string && one_of ["list_splat_pattern"; "dictionary_splat_pattern"]%string k then
      match by_kind "identifier" c with Some s => if non_empty (t_text s) then [t_text s] else [] | None => [] end
    else [].
  Definition extract_parameters (t : tree) : list text := match params_node t with Some p => flat_map params_of (t_children p) | None => [] end.
  (** analysis.rs 563-577 [extract_return_type] *)
  Definition extract_return_type (t : tree) : option text :=
    option_map t_text
      (if is ["python"; "rust"; "typescript"; "vue"; "svelte"]%string then by_field "return_type" t
       else if is ["go"]%string then by_field "result" t
       else if is ["java"; "csharp"; "c"; "cpp"]%string then by_field "type" t
       else None).

  (** ** Calls: analysis.rs 580-637 [extract_function_calls] *)
  Definition call_kinds : list string :=
    if is ["python"; "elixir"]%string then ["call"]%string
    else if is ["rust"]%string then ["call_expression"; "macro_invocation"]%string
    else if is ("go" :: "c" :: "cpp" :: "swift" :: "scala" :: js)%string then ["call_expression"]%string
    else if is ["java"; "csharp"]%string then ["method_invocation"; "object_creation_expression"]%string
    else if is ["ruby"]%string then ["call"; "method_call"]%string
    else if is ["kotlin"]%string then ["call_expression"; "navigation_expression"]%string
    else if is ["php"]%string then ["function_call_expression"; "method_call_expression"]%string
    else if is ["lua"]%string then ["function_call"]%string
    else if is ["haskell"]%string then ["function_application"]%string
    else if is ["ocaml"]%string then ["application_expression"]%string
    else [].
  Definition begins (p : Z -> bool) (s : text) : bool := match s with c :: _ => p c | [] => false end.
  Definition callee (t : tree) : option tree := or_else (by_field "function" t) (or_else (by_field "name" t) (or_else (by_field "method" t) (child 0 t))).
  Definition call_name (t : tree) : list text :=
    match callee t with
    | Some n => let name := strip_end (txt "!") (last_part "::" (last_part "." (t_text n))) in
                if begins (u_alpha U) name then [name] else []
    | None => []
    end.
  Definition extract_function_calls (t : tree) : list text :=
    sorted_once (flat_map (fun n => if one_of call_kinds (t_kind n) then call_name n else []) (walk_tree t)).

  (** ** Control flow: analysis.rs 640-687 [extract_control_flow] *)
  Definition branch_kinds : list string :=
    ["if_statement"; "if_expression"; "match_expression"; "match_statement"; "switch_statement"; "case_statement"; "conditional_expression"; "ternary_expression"; "if"; "unless"; "when"]%string.
  Definition loop_kinds : list string :=
    ["for_statement"; "for_expression"; "while_statement"; "while_expression"; "loop_expression"; "for_in_statement"; "foreach_statement"; "do_statement"; "for"; "while"; "until"]%string.
  Definition error_kinds : list string := ["try_statement"; "try_expression"; "catch_clause"; "rescue"; "except_clause"; "try"; "?"; "try_operator"]%string.
  Definition flow := (nat * bool * bool * bool)%type.
  Definition flow_step (st : flow) (n : tree) : flow :=
    let '(c, loops, branches, errors) := st in
    if one_of branch_kinds (t_kind n) then (S c, loops, true, errors)
    else if one_of loop_kinds (t_kind n) then (S c, true, branches, errors)
    else if one_of error_kinds (t_kind n) then (c, loops, branches, true)
    else st.
  Definition extract_control_flow (t : tree) : flow := fold_left flow_step (walk_tree t) (1, false, false, false).

  (** ** Variables: analysis.rs 690-770 [extract_variables] *)
  Definition variable_kinds : list string :=
    if is ["python"]%string then ["assignment"; "named_expression"; "augmented_assignment"]%string
    else if is ["rust"]%string then ["let_declaration"]%string
    else if is js then ["variable_declarator"; "lexical_declaration"]%string
    else if is ["go"]%string then ["short_var_declaration"; "var_declaration"]%string
    else if is ["java"; "csharp"]%string then ["variable_declarator"; "local_variable_declaration"]%string
    else if is ["c"; "cpp"]%string then ["declaration"; "init_declarator"]%string
    else if is ["ruby"]%string then ["assignment"]%string
    else if is ["kotlin"]%string then ["property_declaration"; "variable_declaration"]%string
    else if is ["swift"]%string then ["property_declaration"; "constant_declaration"]%string
    else if is ["scala"]%string then ["val_definition"; "var_definition"]%string
    else if is ["php"]%string then ["simple_variable"]%string
    else if is ["lua"]%string then ["variable_declaration"; "local_variable_declaration"]%string
    else if is ["elixir"]%string then ["match"]%string
    else if is ["haskell"]%string then ["function_binding"]%string
    else [].
  (** The two branches of the code for C and C++ are the same. *)
  Definition variable_node (t : tree) : option tree :=
    if is ["c"; "cpp"]%string then declared t
    else or_else (by_field "left" t) (or_else (by_field "name" t) (or_else (by_field "pattern" t) (child 0 t))).
  Definition variable_name (t : tree) : list text :=
    match variable_node t with
    | Some n => let name := neat (t_text n) in
                if (byte_len name <? 50) && begins (fun c => u_alpha U c || under c) name then [name] else []
    | None => []
    end.
  Definition extract_variables (t : tree) : list text :=
    sorted_once (flat_map (fun n => if one_of variable_kinds (t_kind n) then variable_name n else []) (walk_tree t)).

  (** ** Imports of a file: analysis.rs 773-1003 [extract_file_imports] *)
  Definition import_kinds : list string :=
    if is ["python"]%string then ["import_statement"; "import_from_statement"]%string
    else if is ["rust"]%string then ["use_declaration"]%string
    else if is js then ["import_statement"]%string
    else if is ["go"]%string then ["import_spec"]%string
    else if is ["java"; "swift"; "scala"]%string then ["import_declaration"]%string
    else if is ["csharp"]%string then ["using_directive"]%string
    else if is ["c"; "cpp"]%string then ["preproc_include"]%string
    else if is ["ruby"; "elixir"]%string then ["call"]%string
    else if is ["kotlin"; "haskell"]%string then ["import"]%string
    else if is ["php"]%string then ["namespace_use_declaration"]%string
    else if is ["lua"]%string then ["function_call"]%string
    else if is ["ocaml"]%string then ["open_module"]%string
    else [].
  (** 864-893, 887-915, 928-953 [find_string_content], [find_module_name]: the first node of a kind, in order,
      with the depth counted from the node searched *)
  Fixpoint first_of_kind (fuel : nat) (kinds : list string) (t : tree) : option tree :=
    match fuel with
    | O => None
    | S f => if one_of kinds (t_kind t) then Some t else fold_left (fun a c => or_else a (first_of_kind f kinds c)) (t_children t) None
    end.
  Definition named_text (s : text) : list text := if non_empty s then [s] else [].
  Definition keyword_word (w : text) : bool := existsb (fun k => starts_with (txt k) w) ["import"; "from"; "use"; "using"]%string.
  Definition outside_path (c : Z) : bool := negb (u_alnum U c) && negb (under c) && negb (c =? 46)%Z.
  (** 955-990: the word of the statement that is taken for the module *)
  Definition import_path (s : text) : text :=
    let s := neat s in
    trim outside_path (match find (fun w => negb (keyword_word w)) (split_whitespace (u_ws U) s) with Some w => w | None => s end).
  Definition import_module (s : text) : text :=
    if is ["java"; "kotlin"; "scala"; "csharp"]%string then last_part "." (import_path s)
    else first_part "." (first_part "::" (import_path s)).
  Definition ruby_module (s : text) : text := last_part "/" (trim is_quote s).
  (** What a node of these kinds adds, and whether its children are visited. *)
  Definition import_here (t : tree) : list text * bool :=
    if is ["ruby"]%string then
      let required := match by_field "method" t with Some m => one_of ["require"; "require_relative"]%string (t_text m) | None => true end in
      (if required then
         match and_then (by_field "arguments" t) (fun a => find (fun c => one_of ["string"; "string_content"]%string (t_kind c)) (t_children a)) with
         | Some s => named_text (ruby_module (t_text s))
         | None => []
         end
       else [], false)
    else if is ["lua"]%string then
      match and_then (child 0 t) (fun c => if one_of ["identifier"]%string (t_kind c) && negb (one_of ["require"]%string (t_text c)) then Some c else None) with
      | Some _ => ([], true)
      | None => (match and_then (by_field "arguments" t) (first_of_kind (S max_depth) ["string_content"]%string) with Some s => named_text (t_text s) | None => [] end, false)
      end
    else if is ["go"]%string then
      (match first_of_kind (S max_depth) ["interpreted_string_literal_content"]%string t with Some s => named_text (last_part "/" (t_text s)) | None => [] end, false)
    else if is ["ocaml"]%string then
      (match first_of_kind (S max_depth) ["module_name"]%string t with Some s => named_text (t_text s) | None => [] end, false)
    else (named_text (import_module (t_text t)), true).
  Fixpoint import_visit (fuel : nat) (t : tree) : list text :=
    match fuel with
    | O => []
    | S f =>
      let '(found, on) := if one_of import_kinds (t_kind t) then import_here t else ([], true) in
      found ++ (if on : bool then flat_map (import_visit f) (t_children t) else [])
    end.
  Definition extract_file_imports (t : tree) : list text := sorted_once (import_visit (S max_depth) t).

  (** ** Modules used by a piece of code: analysis.rs 1005-1153 [extract_used_modules] *)
  Definition attribute_kinds : list string :=
    if is ["python"]%string then ["attribute"]%string
    else if is js then ["member_expression"]%string
    else if is ["rust"]%string then ["field_expression"; "scoped_identifier"]%string
    else if is ["go"]%string then ["selector_expression"]%string
    else if is ["java"; "csharp"]%string then ["field_access"; "member_access_expression"; "object_creation_expression"]%string
    else if is ["scala"; "c"; "cpp"]%string then ["field_expression"]%string
    else if is ["kotlin"; "swift"]%string then ["navigation_expression"]%string
    else if is ["ruby"]%string then ["call"]%string
    else if is ["php"]%string then ["member_access_expression"; "scoped_call_expression"; "object_creation_expression"]%string
    else if is ["lua"]%string then ["dot_index_expression"; "method_index_expression"]%string
    else if is ["ocaml"]%string then ["field_get_expression"; "value_path"]%string
    else [].
  Definition object_node (t : tree) : option tree :=
    if is ("python" :: js)%string then by_field "object" t
    else if is ["rust"; "scala"]%string then by_field "value" t
    else if is ["go"]%string then by_field "operand" t
    else if is ["java"; "csharp"]%string then or_else (by_field "object" t) (by_field "expression" t)
    else if is ["kotlin"]%string then named_child t
    else if is ["ruby"]%string then by_field "receiver" t
    else if is ["ocaml"]%string then first_of_kind (S max_depth) ["module_name"]%string t
    else child 0 t.
  Definition module_here (t : tree) : list text :=
    if one_of ["object_creation_expression"]%string (t_kind t) then
      match first_of_kind (S max_depth) ["type_identifier"; "identifier"; "name"]%string t with Some n => named_text (neat (t_text n)) | None => [] end
    else
      match object_node t with
      | Some o =>
        if one_of ["identifier"; "constant"; "simple_identifier"; "module_name"]%string (t_kind o) then
          let name := neat (t_text o) in
          if negb (one_of ["self"; "this"; "super"]%string name) && begins (u_alpha U) name then [name] else []
        else []
      | None => []
      end.
  Fixpoint module_visit (fuel : nat) (t : tree) : list text :=
    match fuel with
    | O => []
    | S f => (if one_of attribute_kinds (t_kind t) then module_here t else []) ++ flat_map (module_visit f) (t_children t)
    end.
  Definition extract_used_modules (t : tree) : list text := sorted_once (module_visit (S max_depth) t).

  (** ** The imports of a unit: extract.rs 66-81, 132-147, 590-606: those of the file that the unit seems to
      use *)
  Definition unit_imports (file_imports used calls : list text) : list text :=
    filter (fun i => existsb (fun m => text_eqb (u_lower U m) (u_lower U i)) used
                     || existsb (fun c => contains (u_lower U i) (u_lower U c) || contains (u_lower U c) (u_lower U i)) calls) file_imports.

  (** ** Parent class: analysis.rs 1156-1323 [extract_parent_class] *)
  Definition first_some {A B} (f : A -> option B) (l : list A) : option B := fold_left (fun a x => or_else a (f x)) l None.
  Definition heritage (kinds wanted : list string) (t : tree) : option tree :=
    first_some (fun c => if one_of kinds (t_kind c) then find_first_by_kinds wanted max_depth c else None) (t_children t).
  Definition extract_parent_class (t : tree) : option text :=
    option_map t_text
      (if is ["python"]%string then and_then (by_field "superclasses" t) (by_kind "identifier")
       else if is js then
         first_some (fun c => if one_of ["class_heritage"]%string (t_kind c) then or_else (by_kind "identifier" c) (heritage ["extends_clause"] ["identifier"] c)%string else None) (t_children t)
       else if is ["java"]%string then and_then (by_field "superclass" t) (find_first_by_kind "type_identifier" max_depth)
       else if is ["csharp"]%string then heritage ["base_list"] ["identifier"]%string t
       else if is ["kotlin"]%string then heritage ["delegation_specifiers"] ["simple_identifier"; "identifier"]%string t
       else if is ["ruby"]%string then and_then (by_field "superclass" t) (find_first_by_kind "constant" max_depth)
       else if is ["swift"]%string then heritage ["type_inheritance_clause"; "inheritance_specifier"] ["type_identifier"]%string t
       else if is ["php"]%string then heritage ["base_clause"] ["name"; "qualified_name"]%string t
       else if is ["cpp"]%string then heritage ["base_class_clause"] ["type_identifier"]%string t
       else if is ["scala"]%string then heritage ["extends_clause"] ["type_identifier"]%string t
       else None).
End ANALYSIS.
