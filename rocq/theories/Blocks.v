(** HTML, Vue and Svelte files: scripts are parsed, the rest is one piece. *)
From Verif Require Import Base Text Calendar FtsText Units Parse.
Open Scope nat_scope.

(** [str::find], with the texts before the match and from it on *)
Fixpoint find_text (p s : text) : option (text * text) :=
  if starts_with p s then Some ([], s) else
  match s with
  | [] => None
  | c :: r => match find_text p r with Some (a, b) => Some (c :: a, b) | None => None end
  end.

Section BLOCKS.
  Variable U : unicode.
  (** A block: its lines, and the 0-based line it starts at. *)
  Definition block := (list text * nat)%type.
  (** The opening tag <tag ...> at the start of a line: html.rs 38-41, vue.rs 37, 88, svelte.rs 37;
      [skip_src]: html.rs leaves out the tags that mention src= *)
  Definition opens (tag : text) (skip_src : bool) (l : text) : bool :=
    let t := clean U l in
    starts_with (ch "<" :: tag) t && negb (skip_src && contains (txt "src=") t) && contains [ch ">"] t.
  (** html.rs 57, vue.rs 53, 104, svelte.rs 53 *)
  Definition closes (tag : text) (l : text) : bool :=
    let t := clean U l in starts_with (txt "</" ++ tag) t || contains (txt "</" ++ tag ++ txt ">") t.
  (** html.rs 47-53, vue.rs 42-48, 95-101, svelte.rs 43-49: what follows the tag on its line *)
  Definition after_tag (tag : text) (l : text) : list text :=
    match find_text [ch ">"] (clean U l) with
    | Some (_, _ :: rest) => if negb (is_blank U rest) && negb (starts_with (txt "</" ++ tag) (clean U rest)) then [rest] else []
    | _ => []
    end.
  (** html.rs 59-64, vue.rs 55-60, 105-110, svelte.rs 55-60: what comes before the closing tag *)
  Definition before_tag (tag : text) (l : text) : list text :=
    match find_text (txt "</" ++ tag) l with
    | Some (before, _) => if is_blank U before then [] else [before]
    | None => []
    end.
  (** the block begun at line [i] *)
  Definition begun (tag : text) (i : nat) (l : text) : block :=
    match after_tag tag l with [] => ([], i + 1) | c => (c, i) end.

  (** html.rs 25-81, svelte.rs 26-79 [extract_script_blocks]; [cur] is the block being read, if
      [in_script] *)
  Fixpoint script_blocks (skip_src : bool) (i : nat) (ls : list text) (cur : option block) : list block :=
    match ls with
    | [] => []
    | l :: r =>
      match cur with
      | None => if opens (txt "script") skip_src l then script_blocks skip_src (S i) r (Some (begun (txt "script") i l)) else script_blocks skip_src (S i) r None
      | Some (content, start) =>
        if closes (txt "script") l then
          match content ++ before_tag (txt "script") l with
          | [] => script_blocks skip_src (S i) r None
          | c => (c, start) :: script_blocks skip_src (S i) r None
          end
        else script_blocks skip_src (S i) r (Some (content ++ [l], start))
      end
    end.
  (** vue.rs 26-74 [extract_script_block], 77-125 [extract_template_block]: the first block only *)
  Fixpoint first_block (tag : text) (i : nat) (ls : list text) (cur : option block) : block :=
    match ls with
    | [] => match cur with Some b => b | None => ([], 0) end
    | l :: r =>
      match cur with
      | None => if opens tag false l then first_block tag (S i) r (Some (begun tag i l)) else first_block tag (S i) r None
      | Some (content, start) =>
        if closes tag l then (content ++ before_tag tag l, start) else first_block tag (S i) r (Some (content ++ [l], start))
      end
    end.
  Definition vue_block (tag : text) (ls : list text) : option block := match first_block tag 0 ls None with ([], _) => None | b => Some b end.
  (** html.rs 84-127 [extract_html_structure]: the lines kept, with their numbers *)
  Fixpoint html_structure (i : nat) (ls : list text) (in_script : bool) : list (nat * text) :=
    match ls with
    | [] => []
    | l :: r =>
      if opens (txt "script") true l then (i, l) :: html_structure (S i) r true
      else if in_script && closes (txt "script") l then (i, l) :: html_structure (S i) r false
      else if negb in_script && negb (is_blank U l) then (i, l) :: html_structure (S i) r in_script
      else html_structure (S i) r in_script
    end.
  (** svelte.rs 83-133 [extract_template_block] *)
  Fixpoint svelte_template (i : nat) (ls : list text) (in_script in_style : bool) : list (nat * text) :=
    match ls with
    | [] => []
    | l :: r =>
      if opens (txt "script") false l then svelte_template (S i) r true in_style
      else if in_script && closes (txt "script") l then svelte_template (S i) r false in_style
      else if opens (txt "style") false l then svelte_template (S i) r in_script true
      else if in_style && closes (txt "style") l then svelte_template (S i) r in_script false
      else if negb in_script && negb in_style && negb (is_blank U l) then (i, l) :: svelte_template (S i) r in_script in_style
      else svelte_template (S i) r in_script in_style
    end.
  (** the block of the lines kept: html.rs 112-126, svelte.rs 118-132 *)
  Definition kept (l : list (nat * text)) : option block :=
    match l with [] => None | (i, _) :: _ => Some (map snd l, i) end.

  (** html.rs 130-165, vue.rs 128-163, svelte.rs 136-171: the unit of the rest *)
  Variable path : text.
  Definition rest_unit (name lang : text) (b : block) : code_unit :=
    let code := join_lines (fst b) in
    plain_unit path name (path ++ txt "::" ++ name) (snd b + 1) (snd b + 1 + (length (file_lines code) - 1)) lang (txt "rawcode") (first_signature U (file_lines code)) code [].

  (** [parse_script_content] (html.rs 199-251, vue.rs 198-251, svelte.rs 205-258): what the parser
      knows of the text of a script *)
  Variable js : text -> grammar * node.
  Variable max_depth : nat.
  Definition moved (lang : text) (by_ : nat) (u : code_unit) : code_unit :=
    {| cu_name := cu_name u; cu_qualified_name := cu_qualified_name u; cu_file := cu_file u; cu_line := cu_line u + by_; cu_end_line := cu_end_line u + by_;
       cu_language := lang; cu_unit_type := cu_unit_type u; cu_signature := cu_signature u; cu_docstring := cu_docstring u; cu_parameters := cu_parameters u;
       cu_return_type := cu_return_type u; cu_extends := cu_extends u; cu_parent_class := cu_parent_class u; cu_calls := cu_calls u; cu_called_by := cu_called_by u;
       cu_complexity := cu_complexity u; cu_has_loops := cu_has_loops u; cu_has_branches := cu_has_branches u; cu_has_error_handling := cu_has_error_handling u;
       cu_variables := cu_variables u; cu_imports := cu_imports u; cu_code := cu_code u |}.
  (** [None]: the depth limit was hit *)
  Definition script_units (lang : text) (b : block) : res (option (list code_unit)) :=
    let code := join_lines (fst b) in
    let '(G, root) := js code in
    bind (extract_from_node U path G (file_lines code) true (S max_depth) root None ([], false)) (fun st =>
    Ok (if snd st then None else Some (map (moved lang (snd b)) (fst st)))).
  Fixpoint all_scripts (lang : text) (bs : list block) (acc : list code_unit) : res (option (list code_unit)) :=
    match bs with
    | [] => Ok (Some acc)
    | b :: r => bind (script_units lang b) (fun o => match o with None => Ok None | Some us => all_scripts lang r (acc ++ us) end)
    end.
  Definition with_rest (name lang : text) (rest : option block) (scripts : res (option (list code_unit))) : res (list code_unit) :=
    bind scripts (fun o => match o with
    | None => Ok []
    | Some us => Ok (us ++ match rest with Some b => [rest_unit name lang b] | None => [] end)
    end).
  (** html.rs 172-196 [extract_html_units] *)
  Definition extract_html_units (source : text) : res (list code_unit) :=
    let ls := file_lines source in
    with_rest (txt "html_structure") (txt "html") (kept (html_structure 0 ls false)) (all_scripts (txt "html") (script_blocks true 0 ls None) []).
  (** vue.rs 170-195 [extract_vue_units] *)
  Definition extract_vue_units (source : text) : res (list code_unit) :=
    let ls := file_lines source in
    with_rest (txt "template") (txt "vue") (vue_block (txt "template") ls)
      (all_scripts (txt "vue") (match vue_block (txt "script") ls with Some b => [b] | None => [] end) []).
  (** svelte.rs 178-202 [extract_svelte_units] *)
  Definition extract_svelte_units (source : text) : res (list code_unit) :=
    let ls := file_lines source in
    with_rest (txt "template") (txt "svelte") (kept (svelte_template 0 ls false false)) (all_scripts (txt "svelte") (script_blocks false 0 ls None) []).
End BLOCKS.
