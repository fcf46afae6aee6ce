(** What it means for the index of a project to be up to date. *)
From Verif Require Import Base Text Colgrep.
Open Scope nat_scope.

(** A file that belongs in the index: on disk, not ignored, of a supported language, not too
    large, and valid UTF-8. *)
Definition candidate (T : tool) (pj : project) (p : path) (f : file) : Prop :=
  In (p, f) (p_files pj) /\ p_visible pj p = true /\ t_language T p = true /\ (f_size f <= t_max_size T)%Z.
Definition indexable (T : tool) (pj : project) (p : path) (f : file) : Prop :=
  candidate T pj p f /\ t_utf8 T (f_content f) = true.
Definition unreadable (T : tool) (pj : project) (p : path) (f : file) : Prop :=
  candidate T pj p f /\ t_utf8 T (f_content f) = false.

(** The units of the files that belong in the index. *)
Definition wanted (T : tool) (pj : project) : list row :=
  flat_map (fun e => if p_visible pj (fst e) && t_language T (fst e) && (f_size (snd e) <=? t_max_size T)%Z
                        && t_utf8 T (f_content (snd e))
                     then rows_of T (fst e) (f_content (snd e)) else []) (p_files pj).

(** Search shows, for document [i], the metadata row numbered [i].  The index is up to date when
    the documents are the wanted units, each once, and the row shown for a document is the one
    of the unit embedded there, with no other rows. *)
Definition paired (rows : list row) (db : list (nat * row)) : Prop :=
  length db = length rows /\ forall i r, nth_error rows i = Some r -> forall r', In (i, r') db <-> r' = r.
Definition up_to_date (T : tool) (pj : project) (d : store) : Prop :=
  exists rows db, d_vec d = Some rows /\ d_db d = Some db /\ Permutation rows (wanted T pj) /\ paired rows db.

(** Paths are listed once. *)
Definition listed_once (pj : project) : Prop := NoDup (map fst (p_files pj)).
(** An edit is visible: it changes the time or the size of the file, and the hash of its content. *)
Definition edits_visible (T : tool) (old new : project) : Prop :=
  forall p f0 f, candidate T old p f0 -> candidate T new p f -> f_content f0 <> f_content f ->
    (f_mtime f0 <> f_mtime f \/ f_size f0 <> f_size f) /\ t_hash T (f_content f0) <> t_hash T (f_content f).
(** No file that was not valid UTF-8 in [old] belongs in the index in [new]. *)
Definition none_repaired (T : tool) (old new : project) : Prop :=
  forall p f0 f, unreadable T old p f0 -> ~ indexable T new p f.
(** Either no edited file lost all its units, or some added or edited file has units. *)
Definition none_emptied (T : tool) (old new : project) : Prop :=
  (forall p f0 f, indexable T old p f0 -> indexable T new p f -> f_content f0 <> f_content f ->
     rows_of T p (f_content f) = [] -> rows_of T p (f_content f0) = [])
  \/ (exists p f, indexable T new p f /\ rows_of T p (f_content f) <> [] /\
        forall f0, indexable T old p f0 -> f_content f0 <> f_content f).
(** No file that did not belong in the index in [old] does in [new]. *)
Definition none_added (T : tool) (old new : project) : Prop :=
  forall p f, indexable T new p f -> exists f0, indexable T old p f0.
(** Sensible batch sizes. *)
Definition good_tool (T : tool) : Prop := 1 <= t_chunk T.

(** A killed run: the effects of a prefix.  [between] excludes the points between the removal of
    documents from the vector index and the removal of their metadata rows. *)
Definition killed {A} (m : act A) (d d' : store) : Prop :=
  exists before rest, fst (m d) = before ++ rest /\ d' = apply_all d before.
Definition killed_outside_deletion {A} (m : act A) (d d' : store) : Prop :=
  exists before rest, fst (m d) = before ++ rest /\ d' = apply_all d before /\
    (forall ids rest', rest <> DbDel ids :: rest').

(** A history of runs of [index]: the project found by each run, how the threads of the pipeline
    interleave, and whether the run is forced. *)
Record visit := { v_project : project; v_sched : list row -> list bool; v_force : bool }.
Definition visit_run (T : tool) (v : visit) : act unit := index T (v_sched v) [] (v_project v) (v_force v).
Fixpoint visits (T : tool) (d : store) (vs : list visit) : store :=
  match vs with [] => d | v :: vs' => visits T (after (visit_run T v) d) vs' end.
Fixpoint all_succeed (T : tool) (d : store) (vs : list visit) : Prop :=
  match vs with
  | [] => True
  | v :: vs' => outcome (visit_run T v) d = Ok tt /\ all_succeed T (after (visit_run T v) d) vs'
  end.
(** What the theorems ask of a history. *)
Fixpoint consecutive (R : project -> project -> Prop) (vs : list visit) : Prop :=
  match vs with
  | v :: ((w :: _) as vs') => R (v_project v) (v_project w) /\ consecutive R vs'
  | _ => True
  end.
Fixpoint pairwise (R : project -> project -> Prop) (vs : list visit) : Prop :=
  match vs with
  | [] => True
  | v :: vs' => (forall w, In w vs' -> R (v_project v) (v_project w)) /\ pairwise R vs'
  end.

(** Runs on one project, each killed somewhere outside a deletion; [ok] may narrow the points. *)
Inductive killed_runs (T : tool) (pj : project) (ok : store -> Prop) : store -> store -> Prop :=
| no_run d : killed_runs T pj ok d d
| one_more d d1 d2 sch :
    killed_outside_deletion (index T sch [] pj false) d d1 -> ok d1 ->
    killed_runs T pj ok d1 d2 -> killed_runs T pj ok d d2.
Definition anywhere (d : store) : Prop := True.
(** The vector index and the metadata database both exist, or neither does. *)
Definition both_or_neither (d : store) : Prop := d_vec d = None <-> d_db d = None.
(** The same file has the same content in two worktrees. *)
Definition same_contents (T : tool) (a b : project) : Prop :=
  forall p f g, candidate T a p f -> candidate T b p g -> f_content f = f_content g.

(** A history the theorems speak about, ending with [v]. *)
Record ordinary (T : tool) (vs : list visit) : Prop := {
  ord_listed : forall w, In w vs -> listed_once (v_project w);
  ord_units : forall w, In w vs -> wanted T (v_project w) <> [];
  ord_visible : consecutive (edits_visible T) vs;
  ord_emptied : consecutive (none_emptied T) vs;
  ord_repaired : pairwise (none_repaired T) vs
}.
