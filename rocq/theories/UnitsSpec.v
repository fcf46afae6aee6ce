(** What reading a unit back should give. *)
From Verif Require Import Base Text F32 CodecModel CodecSpec IndexModel IndexSpec.
From Verif Require Import SqlModel MetaModel MetaSpec Units.
Open Scope nat_scope.

(** The texts of a unit that are stored as they are. *)
Definition texts_of (u : code_unit) : list text :=
  let opt o := match o with Some t => [t] | None => [] end in
  [cu_name u; cu_qualified_name u; cu_file u; cu_signature u; cu_code u]
  ++ opt (cu_docstring u) ++ opt (cu_return_type u) ++ opt (cu_extends u) ++ opt (cu_parent_class u).
(** The text is taken for a stored array. *)
Definition is_array_text (parse : text -> option json) (t : text) : Prop :=
  (exists r, t = ch "[" :: r) /\ exists l, parse t = Some (JArr l).
(** Units the parser makes: known language and type, line numbers that SQLite can store. *)
Definition proper (u : code_unit) : Prop :=
  In (cu_language u) languages /\ In (cu_unit_type u) unit_types
  /\ Forall (fun n => (Z.of_nat n < 2 ^ 63)%Z) [cu_line u; cu_end_line u; cu_complexity u].
(** Lists of strings are written as JSON arrays and read back. *)
Definition good_json (E : engine) (parse : text -> option json) : Prop :=
  forall l : list text, (exists r, e_json E (JArr (map JStr l)) = ch "[" :: r) /\ parse (e_json E (JArr (map JStr l))) = Some (JArr (map JStr l)).
(** The database has the columns of units. *)
Definition for_units (s : store) : Prop := forall u k x, In (k, x) (unit_fields u) -> declared s k (kind x).
(** The unit shown for document [i]: what a search makes of its row. *)
Definition unit_at (E : engine) (parse : text -> option json) (s : store) (i : Z) : option code_unit :=
  match row_at E s i with Some f => unit_of_row parse (JObj ((subset_column, JInt i) :: f)) | None => None end.

(** The units of an index over its life: position [i] holds the unit written for document [i], or
    nothing.  A first run of the program stores units from some position on, later runs store units
    after the last position, and deleting documents removes their positions. *)
Definition ids_from (n k : nat) : list Z := map Z.of_nat (seq n k).
Inductive unit_history (E : engine) : store -> list (option code_unit) -> Prop :=
| uh_create n us : us <> [] -> Forall proper us ->
    unit_history E (fst (create E NoDb (map to_value us) (ids_from n (length us)))) (repeat None n ++ map Some us)
| uh_update s L us : unit_history E s L -> Forall proper us ->
    unit_history E (fst (update E s (map to_value us) (ids_from (length L) (length us)))) (L ++ map Some us)
| uh_delete s L ids : unit_history E s L -> unit_history E (fst (delete s ids)) (delete_positions ids L).
