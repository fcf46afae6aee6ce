(** Model of what colgrep changes in files of other tools when it is installed and uninstalled
    (colgrep/src/install): the section in AGENTS.md, Codex's config.toml, the hooks in
    settings.json.  Reading and writing the files succeed; a TOML or JSON file is the value it
    carries (for TOML with the comments at its end). *)
From Coq Require Import String.
From Verif Require Import Base Text MetaModel.
Open Scope nat_scope.

(** ** The section in AGENTS.md
    install/codex.rs 11-12, 159-226; opencode.rs 9-10, 25-86 and hermes.rs 8-9, 20-67 are the same
    but for the title.  hermes.rs does not look for the first marker before looking for both. *)
Definition marker_start : text := txt "<!-- COLGREP_START -->".
Definition marker_end : text := txt "<!-- COLGREP_END -->".
Definition newline : text := [10%Z].
(** [str::find] *)
Fixpoint find_sub (p s : text) : option nat :=
  if starts_with p s then Some 0
  else match s with [] => None | _ :: s' => option_map S (find_sub p s') end.
(** [&content[..start]] and [&content[end_pos..]] *)
Definition without_section (content : text) (start end_ : nat) : text :=
  firstn start content ++ skipn (end_ + length marker_end) content.
Section AGENTS.
  Variable title : text.      (* the first line of a file that colgrep makes *)
  Variable skill : text.      (* SKILL.md *)
  Variable ws : Z -> bool.
  Definition section : text := marker_start ++ newline ++ skill ++ newline ++ marker_end ++ newline.
  (** codex.rs 159-195 [add_to_agents_md] *)
  Definition add_to_agents_md (file : option text) : option text :=
    let content := match file with Some c => c | None => title ++ newline ++ newline end in
    let content :=
      if contains marker_start content then
        match find_sub marker_start content, find_sub marker_end content with
        | Some start, Some end_ => without_section content start end_
        | _, _ => content
        end
      else content in
    Some (content ++ section).
  (** codex.rs 197-226 [remove_from_agents_md] *)
  Definition remove_from_agents_md (file : option text) : option text :=
    match file with
    | None => None
    | Some content =>
      match find_sub marker_start content, find_sub marker_end content with
      | Some start, Some end_ =>
        let cleaned := trim ws (without_section content start end_) in
        if text_eqb cleaned [] || text_eqb cleaned title then None else Some (cleaned ++ newline)
      | _, _ => Some content
      end
    end.
End AGENTS.

(** ** config.toml of Codex
    The document: keys with their items, and the text after the last of them (comments). *)
Inductive item := IStr (s : text) | IArray (l : list item) | ITable (l : list (text * item)) | IOther (s : text).
Record toml := { m_items : list (text * item); m_rest : text }.
Definition sandbox : text := txt "sandbox_workspace_write".
Definition roots : text := txt "writable_roots".
Definition get {A} (k : text) (l : list (text * A)) : option A :=
  match find (fun p => text_eqb (fst p) k) l with Some p => Some (snd p) | None => None end.
(** a key keeps its place, a new one comes last *)
Definition set {A} (k : text) (v : A) (l : list (text * A)) : list (text * A) :=
  if existsb (fun p => text_eqb (fst p) k) l
  then map (fun p => if text_eqb (fst p) k then (fst p, v) else p) l
  else l ++ [(k, v)].
Definition drop {A} (k : text) (l : list (text * A)) : list (text * A) := filter (fun p => negb (text_eqb (fst p) k)) l.
Definition is_str (s : text) (i : item) : bool := match i with IStr t => text_eqb t s | _ => false end.
(** codex.rs 52-97 [add_sandbox_writable_root]; no file is the empty document *)
Definition add_root (path : text) (file : option toml) : option toml * res bool :=
  let doc := match file with Some d => d | None => {| m_items := []; m_rest := [] |} end in
  match match get sandbox (m_items doc) with None => Some [] | Some (ITable t) => Some t | Some _ => None end with
  | None => (file, Err)
  | Some table =>
    match match get roots table with None => Some [] | Some (IArray a) => Some a | Some _ => None end with
    | None => (file, Err)
    | Some arr =>
      if existsb (is_str path) arr then (file, Ok false)
      else (Some {| m_items := set sandbox (ITable (set roots (IArray (arr ++ [IStr path])) table)) (m_items doc); m_rest := m_rest doc |}, Ok true)
    end
  end.
(** codex.rs 102-157 [remove_sandbox_writable_root] *)
Definition remove_root (path : text) (file : option toml) : option toml * res bool :=
  match file with
  | None => (None, Ok false)
  | Some doc =>
    match get sandbox (m_items doc) with
    | Some (ITable table) =>
      match get roots table with
      | Some (IArray arr) =>
        let arr' := filter (fun i => negb (is_str path i)) arr in
        if length arr' =? length arr then (file, Ok false)
        else
          let table' := match arr' with [] => drop roots table | _ => set roots (IArray arr') table end in
          let items := match table' with [] => drop sandbox (m_items doc) | _ => set sandbox (ITable table') (m_items doc) end in
          match items with
          | [] => (None, Ok true)
          | _ => (Some {| m_items := items; m_rest := m_rest doc |}, Ok true)
          end
      | _ => (file, Ok false)
      end
    | _ => (file, Ok false)
    end
  end.

(** ** The hooks in settings.json
    install/claude_code.rs 195-264 [remove_hooks_from_settings], on the parsed value.  An object
    is an association list; what is written out has the same keys and values. *)
Definition field (k : text) (j : json) : option json := match j with JObj o => get k o | _ => None end.
Definition hooks_key : text := txt "hooks".
Definition about_colgrep (hook : json) : bool :=
  match field (txt "command") hook with Some (JStr s) => contains (txt "colgrep") s | _ => false end.
(** 214-231: the closure of [retain] *)
Definition keep_matcher (m : json) : bool :=
  match field hooks_key m with Some (JArr l) => negb (existsb about_colgrep l) | _ => true end.
Definition is_nil {A} (l : list A) : bool := match l with [] => true | _ => false end.
Definition remove_hooks (settings : json) : json * bool :=
  match settings with
  | JObj top =>
    match get hooks_key top with
    | Some (JObj events) =>
      let trimmed := map (fun p => match snd p with JArr l => (fst p, JArr (filter keep_matcher l)) | _ => p end) events in
      let changed := existsb (fun p => match snd p with JArr l => negb (length (filter keep_matcher l) =? length l) | _ => false end) events in
      let empty (p : text * json) := match snd p with JArr l => is_nil l | _ => false end in
      let left_ := filter (fun p => negb (empty p)) trimmed in
      let changed := changed || existsb empty trimmed in
      if is_nil left_ then (JObj (drop hooks_key top), true)
      else (JObj (set hooks_key (JObj left_) top), changed)
    | _ => (settings, false)
    end
  | _ => (settings, false)
  end.
