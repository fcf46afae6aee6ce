(** The code units of colgrep's index: what was parsed is what a search shows. *)
From Verif Require Import Base Text F32 CodecModel CodecSpec IndexModel IndexSpec.
From Verif Require Import SqlModel MetaModel MetaSpec MetaProofs SyncProofs MetaCreate MetaContent MetaRead MetaExamples.
From Verif Require Import Units UnitsSpec UnitsProofs UnitsStore.
Open Scope nat_scope.

(** ** A concrete engine: a list of strings is a bracket, then each string with its characters
    doubled, ended by 1. *)
Definition wj_enc (l : list text) : text := flat_map (fun s => map (fun c => 2 * c)%Z s ++ [1%Z]) l.
Fixpoint wj_dec (cur t : text) : option (list text) :=
  match t with
  | [] => match cur with [] => Some [] | _ => None end
  | c :: r => if (c =? 1)%Z then option_map (cons (rev cur)) (wj_dec [] r)
              else if Z.even c then wj_dec ((c / 2)%Z :: cur) r else None
  end.
Definition wj_strings (l : list json) : list text := flat_map (fun v => match v with JStr s => [s] | _ => [] end) l.
Definition wj_json (v : json) : text := match v with JArr l => ch "[" :: wj_enc (wj_strings l) | _ => txt "{}" end.
Definition wj_parse (t : text) : option json :=
  match t with c :: r => if (c =? ch "[")%Z then option_map (fun l => JArr (map JStr l)) (wj_dec [] r) else None | [] => None end.
Definition wj_engine : engine := {|
  e_aff := e_aff ex_engine; e_f64 := e_f64 ex_engine; e_finite := e_finite ex_engine; e_json := wj_json; e_unjson := e_unjson ex_engine;
  e_scan := e_scan ex_engine; e_cmp := e_cmp ex_engine; e_like := e_like ex_engine; e_num := e_num ex_engine; e_regex := e_regex ex_engine |}.
Lemma wj_good : good_engine wj_engine.
Proof. destruct ex_good. split; assumption. Qed.
Lemma wj_dec_string s : forall cur r, wj_dec cur (map (fun c => 2 * c)%Z s ++ 1%Z :: r) = option_map (cons (rev cur ++ s)) (wj_dec [] r).
Proof.
  induction s as [|c s IH]; intros cur r; cbn [map app wj_dec].
  - rewrite app_nil_r. reflexivity.
  - replace (2 * c =? 1)%Z with false by lia. rewrite Z.even_mul. cbn [Z.even orb]. replace (2 * c / 2)%Z with c by (rewrite Z.mul_comm, Z.div_mul; lia).
    rewrite IH. cbn [rev]. rewrite <- app_assoc. reflexivity.
Qed.
Lemma wj_dec_enc l : wj_dec [] (wj_enc l) = Some l.
Proof.
  induction l as [|s l IH]; [reflexivity|]. cbn [wj_enc flat_map]. rewrite <- app_assoc. cbn [app]. rewrite wj_dec_string. unfold wj_enc in IH. rewrite IH. reflexivity.
Qed.
Lemma wj_strings_map l : wj_strings (map JStr l) = l.
Proof. induction l as [|s l IH]; [reflexivity|]. cbn. unfold wj_strings in IH. rewrite IH. reflexivity. Qed.
Lemma wj_good_json : good_json wj_engine wj_parse.
Proof.
  intro l. cbn [wj_engine e_json wj_json]. rewrite wj_strings_map. split; [eexists; reflexivity|]. unfold wj_parse. rewrite Z.eqb_refl. rewrite wj_dec_enc. reflexivity.
Qed.
Definition ex_unit (name code : Coq.Strings.String.string) : code_unit :=
  {| cu_name := txt name; cu_qualified_name := txt "m." ++ txt name; cu_file := txt "src/m.py"; cu_line := 3; cu_end_line := 9; cu_language := txt "python"; cu_unit_type := txt "function";
     cu_signature := txt "def f(a, b)"; cu_docstring := None; cu_parameters := [txt "a"; txt "b"]; cu_return_type := Some (txt "int"); cu_extends := None; cu_parent_class := None;
     cu_calls := []; cu_called_by := [txt "main"]; cu_complexity := 2; cu_has_loops := true; cu_has_branches := false; cu_has_error_handling := false;
     cu_variables := [txt "x"]; cu_imports := []; cu_code := txt code |}.
Lemma ex_unit_proper name code : proper (ex_unit name code).
Proof.
  split; [|split].
  - unfold languages. cbn [map In ex_unit cu_language]. tauto.
  - unfold unit_types. cbn [map In ex_unit cu_unit_type]. tauto.
  - repeat constructor.
Qed.
Definition ex_life : store :=
  let s := fst (create wj_engine NoDb (map to_value [ex_unit "f"%string "x = 1"%string; ex_unit "g"%string "["%string]) (ids_from 0 2)) in
  let s := fst (update wj_engine s (map to_value [ex_unit "h"%string "y = 2"%string]) (ids_from 2 1)) in
  fst (delete s [0]%Z).
Definition ex_life_units : list (option code_unit) :=
  delete_positions [0]%Z ((repeat None 0 ++ map Some [ex_unit "f"%string "x = 1"%string; ex_unit "g"%string "["%string]) ++ map Some [ex_unit "h"%string "y = 2"%string]).
Lemma ex_life_history : unit_history wj_engine ex_life ex_life_units.
Proof.
  unfold ex_life, ex_life_units. cbv zeta. apply uh_delete.
  apply (uh_update wj_engine _ (repeat None 0 ++ map Some [ex_unit "f"%string "x = 1"%string; ex_unit "g"%string "["%string]) [ex_unit "h"%string "y = 2"%string]).
  - apply (uh_create wj_engine 0 [ex_unit "f"%string "x = 1"%string; ex_unit "g"%string "["%string]); [discriminate|]. repeat (constructor; [apply ex_unit_proper|]). constructor.
  - constructor; [apply ex_unit_proper|constructor].
Qed.

(** ** C85: storing units never fails ... *)
Theorem C85_first_run_stores :
  forall E n us, good_engine E -> us <> [] -> Forall proper us ->
    snd (MetaModel.create E NoDb (map to_value us) (ids_from n (length us))) = Ok (length us).
Proof. intros E n us G H P. exact (proj1 (held_create E n us G H P)). Qed.
Print Assumptions C85_first_run_stores.
Theorem C85_later_runs_store :
  forall E s L us, good_engine E -> unit_history E s L -> Forall proper us ->
    snd (MetaModel.update E s (map to_value us) (ids_from (length L) (length us))) = Ok (length us).
Proof. intros E s L us G H P. exact (proj1 (held_update E s L us G (history_held E s L G H) P)). Qed.
Print Assumptions C85_later_runs_store.

(** ... and over any history of storing and deleting, the unit shown for a document is the one
    stored for it, in every field, unless one of its texts reads as a JSON array; a position with no
    unit shows none. *)
Theorem C85_units_come_back :
  forall E parse s L i, good_engine E -> good_json E parse -> unit_history E s L ->
    (forall u, at_pos L i = Some u -> (forall t, In t (texts_of u) -> ~ is_array_text parse t) -> unit_at E parse s i = Some u)
    /\ (at_pos L i = None -> unit_at E parse s i = None).
Proof.
  intros E parse s L i G GJ H. rewrite (held_shown E parse s L i GJ (history_held E s L G H)). split.
  - intros u -> T. replace (existsb (taken parse) (texts_of u)) with false; [reflexivity|]. symmetry. apply existsb_taken. exact T.
  - intros ->. reflexivity.
Qed.
Print Assumptions C85_units_come_back.
(** A unit shown was stored for this very document. *)
Theorem C85_nothing_made_up :
  forall E parse s L i u, good_engine E -> good_json E parse -> unit_history E s L -> unit_at E parse s i = Some u -> at_pos L i = Some u.
Proof.
  intros E parse s L i u G GJ H. rewrite (held_shown E parse s L i GJ (history_held E s L G H)). destruct (at_pos L i) as [v|]; [|discriminate].
  destruct (existsb _ _); [discriminate|]. intro Q. injection Q as ->. reflexivity.
Qed.
Print Assumptions C85_nothing_made_up.
(** Finding: a unit one of whose texts (its code, a docstring, a name...) reads as a JSON array is in
    the index but is never shown by any search. *)
Theorem C85_array_text_refuted :
  forall E parse s L i u t, good_engine E -> good_json E parse -> unit_history E s L ->
    at_pos L i = Some u -> In t (texts_of u) -> is_array_text parse t -> unit_at E parse s i = None.
Proof.
  intros E parse s L i u t G GJ H A T Q. rewrite (held_shown E parse s L i GJ (history_held E s L G H)), A.
  replace (existsb (taken parse) (texts_of u)) with true; [reflexivity|]. symmetry. apply existsb_taken. exists t. split; assumption.
Qed.
Print Assumptions C85_array_text_refuted.

Example C85_example :
  good_engine wj_engine /\ good_json wj_engine wj_parse /\ unit_history wj_engine ex_life ex_life_units
  /\ at_pos ex_life_units 0 = Some (ex_unit "g"%string "["%string) /\ at_pos ex_life_units 1 = Some (ex_unit "h"%string "y = 2"%string)
  /\ is_array_text wj_parse (txt "[")
  /\ unit_at wj_engine wj_parse ex_life 0 = None /\ unit_at wj_engine wj_parse ex_life 1 = Some (ex_unit "h"%string "y = 2"%string) /\ unit_at wj_engine wj_parse ex_life 2 = None.
Proof.
  split; [exact wj_good|]. split; [exact wj_good_json|]. split; [exact ex_life_history|]. split; [vm_compute; reflexivity|]. split; [vm_compute; reflexivity|].
  split; [split; [exists []; reflexivity|exists []; vm_compute; reflexivity]|]. repeat split; vm_compute; reflexivity.
Qed.
