(** What the user's own part of a file is. *)
From Coq Require Import String.
From Verif Require Import Base Text MetaModel Install.
Open Scope nat_scope.

(** A text of the user's: it mentions neither marker. *)
Definition unmarked (s : text) : Prop := contains marker_start s = false /\ contains marker_end s = false.
Inductive change := Install | Uninstall.
Section SPEC.
  Variables title skill : text.
  Variable ws : Z -> bool.
  Definition apply (file : option text) (c : change) : option text :=
    match c with Install => add_to_agents_md title skill file | Uninstall => remove_from_agents_md title ws file end.
  Definition history (file : option text) (l : list change) : option text := fold_left apply l file.
  (** The user's text without the blank ends, and no file if there is none, or only the title. *)
  Definition user_part (file : option text) : option text :=
    match file with
    | None => None
    | Some s => if text_eqb (trim ws s) [] || text_eqb (trim ws s) title then None else Some (trim ws s ++ newline)
    end.
  Definition unmarked_file (file : option text) : Prop := match file with None => True | Some s => unmarked s end.
  (** What is assumed of the texts: the section mentions no marker itself, the title is one line. *)
  Record good_texts : Prop := {
    gt_skill : unmarked skill;
    gt_title : unmarked title /\ trim ws title = title;
    gt_ws : ws 10%Z = true }.
End SPEC.

(** The entries of the list, [None] when it is not there. *)
Definition listed (file : option toml) : option (list item) :=
  match file with
  | None => None
  | Some d => match get sandbox (m_items d) with
              | Some (ITable t) => match get roots t with Some (IArray a) => Some a | _ => None end
              | _ => None
              end
  end.
(** Keys are given once. *)
Definition once {A} (l : list (text * A)) : Prop := NoDup (map fst l).
Definition good_toml (file : option toml) : Prop :=
  match file with
  | None => True
  | Some d => once (m_items d) /\ forall t, get sandbox (m_items d) = Some (ITable t) -> once t
  end.

(** The matchers of an event in the settings. *)
Definition matchers (settings : json) (event : text) : option (list json) :=
  match field hooks_key settings with
  | Some h => match field event h with Some (JArr l) => Some l | _ => None end
  | None => None
  end.
(** A matcher that runs a command that mentions colgrep. *)
Definition runs_colgrep (m : json) : Prop :=
  exists l h s, field hooks_key m = Some (JArr l) /\ In h l /\ field (txt "command") h = Some (JStr s) /\ contains (txt "colgrep") s = true.
(** Uninstalling gives back the very file unless something of the user's was empty. *)
Definition nothing_empty (file : option toml) : Prop :=
  match file with
  | None => True
  | Some d => match get sandbox (m_items d) with
              | Some (ITable t) => match get roots t with Some (IArray a) => a <> [] | _ => t <> [] end
              | _ => m_items d <> []
              end
  end.
Definition others (file : option toml) (k : text) : option item := match file with Some d => get k (m_items d) | None => None end.
Definition in_sandbox (file : option toml) (k : text) : option item :=
  match others file sandbox with Some (ITable t) => get k t | _ => None end.
Definition entries (file : option toml) : list item := match listed file with Some l => l | None => [] end.
(** The settings as parsed: keys are given once in the objects that are looked into. *)
Definition good_settings (s : json) : Prop :=
  forall top, s = JObj top -> once top /\ forall events, get hooks_key top = Some (JObj events) -> once events.
