(** Pages with scripts in them. *)
From Verif Require Import Base Text FtsText Units Parse ParseSpec.
Open Scope nat_scope.

Section PAGE.
  Variable U : unicode.
  Definition bare (l : text) : text := trim (u_ws U) l.
  Definition blank (l : text) : Prop := forall c, In c l -> u_ws U c = true.
  Definition tag_at_start (tag l : text) : Prop := exists rest, bare l = ch "<" :: tag ++ rest /\ In (ch ">") rest.
  Definition mentions_src (l : text) : Prop := exists a b, bare l = a ++ txt "src=" ++ b.
  Definition end_tag_on (tag l : text) : Prop := (exists b, bare l = txt "</" ++ tag ++ b) \/ exists a b, bare l = a ++ txt "</" ++ tag ++ txt ">" ++ b.
  (** nothing else stands on the line *)
  Definition tag_alone (l : text) : Prop := exists a, bare l = a ++ [ch ">"] /\ ~ In (ch ">") a.
  Definition end_tag_first (tag l : text) : Prop := exists w b, l = w ++ txt "</" ++ tag ++ b /\ blank w.

  (** What may stand for a line in a block: the line, what follows the tag on it, what comes before
      the end tag on it. *)
  Definition piece_of (tag p l : text) : Prop :=
    p = l
    \/ (tag_at_start tag l /\ exists a, bare l = a ++ ch ">" :: p /\ ~ In (ch ">") a)
    \/ (end_tag_on tag l /\ exists b, l = p ++ txt "</" ++ tag ++ b).
  (** A unit shows the lines of the file it names, line by line. *)
  Definition shows_pieces (tag : text) (ls : list text) (u : code_unit) : Prop :=
    1 <= cu_line u <= cu_end_line u /\ exists pieces, cu_code u = join_lines pieces
    /\ length pieces <= cu_end_line u + 1 - cu_line u
    /\ forall j p, nth_error pieces j = Some p -> exists l, nth_error ls (cu_line u - 1 + j) = Some l /\ piece_of tag p l.

  (** Pages whose tags stand alone on their lines.  [page k ls outer scripts]: in the lines [ls],
      numbered from [k], the lines outside scripts are [outer], and [scripts] are the lines of the
      scripts with the number of the first.
      [html]: scripts with src= are plain lines; the tags of scripts are among the lines outside.
      Otherwise (Svelte) styles are left out as well, and so are the tags. *)
  Variable html : bool.
  Definition opens_script (l : text) : Prop := tag_at_start (txt "script") l /\ ~ (html = true /\ mentions_src l).
  Definition opens_style (l : text) : Prop := html = false /\ tag_at_start (txt "style") l.
  Definition tags (l : list text) : list text := if html then l else [].
  Inductive page : nat -> list text -> list text -> list (list text * nat) -> Prop :=
  | page_end k : page k [] [] []
  | page_blank k l r outer scripts : ~ opens_script l -> ~ opens_style l -> blank l -> page (S k) r outer scripts -> page k (l :: r) outer scripts
  | page_line k l r outer scripts : ~ opens_script l -> ~ opens_style l -> ~ blank l -> page (S k) r outer scripts -> page k (l :: r) (l :: outer) scripts
  | page_script k o inner c r outer scripts :
      opens_script o -> tag_alone o ->
      Forall (fun l => ~ tag_at_start (txt "script") l /\ ~ opens_style l /\ ~ end_tag_on (txt "script") l) inner ->
      ~ opens_script c -> end_tag_on (txt "script") c -> end_tag_first (txt "script") c ->
      page (k + S (S (length inner))) r outer scripts ->
      page k (o :: inner ++ c :: r) (tags [o; c] ++ outer) ((inner, S k) :: scripts)
  | page_style k o inner c r outer scripts :
      opens_style o -> ~ opens_script o ->
      Forall (fun l => ~ opens_script l /\ ~ end_tag_on (txt "style") l) inner ->
      ~ opens_script c -> ~ opens_style c -> end_tag_on (txt "style") c ->
      page (k + S (S (length inner))) r outer scripts ->
      page k (o :: inner ++ c :: r) outer scripts.
End PAGE.

(** The parser of scripts: trees that lie in the script. *)
Definition good_parser (js : text -> grammar * node) : Prop :=
  forall code, bodies_ok (fst (js code)) /\ rows_ok (length (file_lines code)) (snd (js code)).
(** The unit of a node of a script that begins after [start] lines. *)
Definition script_unit_of_node (start : nat) (n : node) (found u : code_unit) : Prop :=
  cu_name u = cu_name found /\ cu_unit_type u = cu_unit_type found /\ cu_docstring u = cu_docstring found /\ cu_calls u = cu_calls found /\ cu_qualified_name u = cu_qualified_name found
  /\ cu_line u <= start + n_first n + 1 /\ cu_end_line u = start + n_last n + 1.
(** Every function, class and constant of the script is among the units. *)
Definition script_units_in (js : text -> grammar * node) (script : list text * nat) (units : list code_unit) : Prop :=
  let '(G, root) := js (join_lines (fst script)) in
  forall n o, looked_at G true root None n o -> is_unit G n o ->
    exists u, In u units /\ script_unit_of_node (snd script) n (g_analysis G n (if g_function G (n_kind n) then o else None)) u.
Definition shallow (js : text -> grammar * node) (max_depth : nat) (script : list text * nat) : Prop := height (snd (js (join_lines (fst script)))) <= max_depth.
(** A part of a Vue file: the lines between the first opening tag and the first end tag after it,
    each alone on its line; [start] lines come before. *)
Definition vue_part (U : unicode) (tag : text) (ls inner : list text) (start : nat) : Prop :=
  inner <> [] /\ exists before o c after, ls = before ++ o :: inner ++ c :: after /\ start = length before + 1
    /\ Forall (fun l => ~ tag_at_start U tag l) before /\ tag_at_start U tag o /\ tag_alone U o
    /\ Forall (fun l => ~ end_tag_on U tag l) inner /\ end_tag_on U tag c /\ end_tag_first U tag c.
Definition no_part (U : unicode) (tag : text) (ls : list text) : Prop := Forall (fun l => ~ tag_at_start U tag l) ls.
(** Units of scripts in their places, then at most one unit for the rest. *)
Definition in_place (U : unicode) (ls : list text) (lang rest_name : text) (units : list code_unit) : Prop :=
  exists scripts rest, units = scripts ++ rest /\ Forall (shows_pieces U (txt "script") ls) scripts /\ Forall (fun u => cu_language u = lang) units
    /\ length rest <= 1 /\ Forall (fun u => cu_name u = rest_name /\ cu_unit_type u = txt "rawcode") rest.
