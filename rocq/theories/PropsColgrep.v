(** Properties C62 to C66: the index that [colgrep] keeps of a project. *)
From Verif Require Import Base Text Colgrep ColgrepSpec ColgrepHistory ColgrepFindings ColgrepTidy.
Open Scope nat_scope.

(** * C62: after any history of runs the index holds exactly the units of the current files *)

(** However files were added, edited, touched, deleted, hidden or shown between the runs, every
    run succeeds, and after it the documents are the units of the files that belong in the index,
    each once and each with its own metadata, as long as edits show in the time or size of the
    file and in its hash, the project always has a unit, no file once invalid UTF-8 became valid,
    and edited files did not lose all their units while nothing else gained any. *)
Theorem C62_index_follows_the_files : forall T vs v,
  good_tool T -> ordinary T (vs ++ [v]) ->
  all_succeed T empty_store (vs ++ [v]) /\ up_to_date T (v_project v) (visits T empty_store (vs ++ [v])).
Proof. intros T vs v GT. exact (history_up_to_date T GT vs v). Qed.
Print Assumptions C62_index_follows_the_files.

Definition tour : list visit := [visit_of base; visit_of more; visit_of edited; visit_of reverted].
Example C62_example : ordinary toy tour /\ length (wanted toy (proj more)) = 4.
Proof.
  split; [|reflexivity]. constructor.
  - intros w [<-|[<-|[<-|[<-|[]]]]]; listed.
  - intros w [<-|[<-|[<-|[<-|[]]]]]; discriminate.
  - repeat split; in_cases; auto; left; discriminate.
  - cbn [consecutive tour]. split; [|split; [|split; [|exact I]]]; left; intros p f0 f H0 H1 HC; in_cases.
  - cbn [pairwise tour]. repeat split; try (intros w Hw p f0 f H; in_cases; fail).
Qed.

(** The four conditions cannot be dropped. *)
Theorem C62_lost_units_refuted : exists T v w,
  good_tool T /\ listed_once (v_project v) /\ listed_once (v_project w) /\
  wanted T (v_project v) <> [] /\ wanted T (v_project w) <> [] /\
  edits_visible T (v_project v) (v_project w) /\ none_repaired T (v_project v) (v_project w) /\
  all_succeed T empty_store [v; w] /\ ~ up_to_date T (v_project w) (visits T empty_store [v; w]).
Proof.
  exists toy, (visit_of base), (visit_of emptied).
  split; [exact toy_good|]. split; [listed|]. split; [listed|]. split; [discriminate|]. split; [discriminate|].
  split; [intros p f0 f H0 H1 HC; in_cases; split; [right; discriminate|discriminate]|].
  split; [intros p f0 f H0 H1; in_cases|].
  split; [vm_compute; auto|]. apply stale_not. vm_compute. reflexivity.
Qed.
Print Assumptions C62_lost_units_refuted.

Theorem C62_mended_file_refuted : exists T v w,
  good_tool T /\ listed_once (v_project v) /\ listed_once (v_project w) /\
  wanted T (v_project v) <> [] /\ wanted T (v_project w) <> [] /\
  edits_visible T (v_project v) (v_project w) /\ none_emptied T (v_project v) (v_project w) /\
  all_succeed T empty_store [v; w] /\ ~ up_to_date T (v_project w) (visits T empty_store [v; w]).
Proof.
  exists toy, (visit_of broken), (visit_of mended).
  split; [exact toy_good|]. split; [listed|]. split; [listed|]. split; [discriminate|]. split; [discriminate|].
  split; [intros p f0 f H0 H1 HC; in_cases; split; [left; discriminate|discriminate]|].
  split; [left; intros p f0 f H0 H1 HC; in_cases|].
  split; [vm_compute; auto|]. apply stale_not. vm_compute. reflexivity.
Qed.
Print Assumptions C62_mended_file_refuted.

Theorem C62_no_units_refuted : exists T v w,
  good_tool T /\ listed_once (v_project v) /\ listed_once (v_project w) /\ wanted T (v_project w) <> [] /\
  edits_visible T (v_project v) (v_project w) /\ none_emptied T (v_project v) (v_project w) /\
  none_repaired T (v_project v) (v_project w) /\
  all_succeed T empty_store [v; w] /\ d_vec (visits T empty_store [v; w]) = None.
Proof.
  exists toy, (visit_of blank), (visit_of coded).
  split; [exact toy_good|]. split; [listed|]. split; [listed|]. split; [discriminate|].
  split; [intros p f0 f H0 H1 HC; in_cases; split; [left; discriminate|discriminate]|].
  split; [left; intros p f0 f H0 H1 HC; in_cases|].
  split; [intros p f0 f H0 H1; in_cases|].
  split; vm_compute; auto.
Qed.
Print Assumptions C62_no_units_refuted.

Theorem C62_same_time_and_size_refuted : exists T v w,
  good_tool T /\ listed_once (v_project v) /\ listed_once (v_project w) /\
  wanted T (v_project v) <> [] /\ wanted T (v_project w) <> [] /\
  none_emptied T (v_project v) (v_project w) /\ none_repaired T (v_project v) (v_project w) /\
  all_succeed T empty_store [v; w] /\ ~ up_to_date T (v_project w) (visits T empty_store [v; w]).
Proof.
  exists toy, (visit_of base), (visit_of hidden).
  split; [exact toy_good|]. split; [listed|]. split; [listed|]. split; [discriminate|]. split; [discriminate|].
  split; [left; intros p f0 f H0 H1 HC; in_cases|].
  split; [intros p f0 f H0 H1; in_cases|].
  split; [vm_compute; auto|]. apply stale_not. vm_compute. reflexivity.
Qed.
Print Assumptions C62_same_time_and_size_refuted.

(** A lost state.json is rebuilt from the database with the hashes of the current files, so that
    edits made before stay unseen. *)
Theorem C62_lost_state_refuted : exists T v w,
  good_tool T /\ listed_once (v_project v) /\ listed_once (v_project w) /\
  wanted T (v_project v) <> [] /\ wanted T (v_project w) <> [] /\
  edits_visible T (v_project v) (v_project w) /\
  let d := after (visit_run T v) empty_store in
  let d' := {| d_vec := d_vec d; d_db := d_db d; d_state := None; d_building := d_building d |} in
  up_to_date T (v_project v) d /\ outcome (visit_run T w) d' = Ok tt /\
  ~ up_to_date T (v_project w) (after (visit_run T w) d').
Proof.
  exists toy, (visit_of base), (visit_of edited).
  split; [exact toy_good|]. split; [listed|]. split; [listed|]. split; [discriminate|]. split; [discriminate|].
  split; [intros p f0 f H0 H1 HC; in_cases; split; [left; discriminate|discriminate]|].
  cbv zeta. split.
  - apply (C62_index_follows_the_files toy [] (visit_of base) toy_good). constructor; cbn [app].
    + intros w [<-|[]]; listed.
    + intros w [<-|[]]; discriminate.
    + exact I.
    + exact I.
    + cbn. split; [intros w []|exact I].
  - split; [reflexivity|]. apply stale_not. vm_compute. reflexivity.
Qed.
Print Assumptions C62_lost_state_refuted.

(** * C63: a forced run gives an exact index whatever was there before *)
Theorem C63_forced_run_is_exact : forall T sch siblings pj d,
  listed_once pj -> wanted T pj <> [] ->
  outcome (index T sch siblings pj true) d = Ok tt /\
  up_to_date T pj (after (index T sch siblings pj true) d).
Proof. intros T sch siblings pj d. exact (forced_up_to_date T pj sch siblings d). Qed.
Print Assumptions C63_forced_run_is_exact.
Example C63_example : listed_once (proj pairs) /\ wanted toy (proj pairs) <> [] /\
  stale toy (proj pairs) (visits toy empty_store [visit_of broken]) = true.
Proof. split; [listed|]. split; [discriminate|]. vm_compute. reflexivity. Qed.

(** A forced run killed between its two renames loses the index, and unforced runs, though they
    report success, never bring it back. *)
Theorem C63_killed_swap_refuted : exists T pj d d',
  good_tool T /\ listed_once pj /\ wanted T pj <> [] /\ up_to_date T pj d /\
  killed (index T (fun _ => []) [] pj true) d d' /\
  forall schs, let d'' := fold_left (fun x sch => after (index T sch [] pj false) x) schs d' in
    d_vec d'' = None /\ forall sch, outcome (index T sch [] pj false) d'' = Ok tt.
Proof.
  exists toy, (proj base), indexed, (cut_at 2 (index toy (fun _ => []) [] (proj base) true) indexed).
  split; [exact toy_good|]. split; [listed|]. split; [discriminate|]. split.
  { apply (C62_index_follows_the_files toy [] (visit_of base) toy_good). constructor; cbn [app].
    - intros w [<-|[]]; listed.
    - intros w [<-|[]]; discriminate.
    - exact I.
    - exact I.
    - cbn. split; [intros w []|exact I]. }
  split; [apply cut_killed|]. intros schs. cbv zeta.
  set (lost := cut_at 2 _ indexed).
  assert (FIX : forall sch, after (index toy sch [] (proj base) false) lost = lost /\ outcome (index toy sch [] (proj base) false) lost = Ok tt).
  { intros sch. split; vm_compute; reflexivity. }
  assert (ALL : fold_left (fun x sch => after (index toy sch [] (proj base) false) x) schs lost = lost).
  { induction schs as [|sch schs IH]; [reflexivity|]. cbn [fold_left]. rewrite (proj1 (FIX sch)). exact IH. }
  rewrite ALL. split; [reflexivity|]. intros sch. apply FIX.
Qed.
Print Assumptions C63_killed_swap_refuted.

(** * C64: an update killed at any point is completed by the next run *)

(** After an ordinary history, any number of runs on a changed project may be killed at any point
    other than between the removal of documents and the removal of their rows; the next complete
    run leaves the index up to date, if the change added no file. *)
Theorem C64_killed_update_recovers : forall T vs v pj sch d',
  good_tool T -> ordinary T (vs ++ [v]) -> listed_once pj -> wanted T pj <> [] ->
  edits_visible T (v_project v) pj -> none_emptied T (v_project v) pj ->
  (forall w, In w (vs ++ [v]) -> none_repaired T (v_project w) pj) ->
  none_added T (v_project v) pj ->
  killed_runs T pj anywhere (visits T empty_store (vs ++ [v])) d' ->
  outcome (index T sch [] pj false) d' = Ok tt /\ up_to_date T pj (after (index T sch [] pj false) d').
Proof. intros T vs v pj sch d' GT O L W E N R NA. exact (recovered_updates T GT vs v pj d' sch O L W E N NA R). Qed.
Print Assumptions C64_killed_update_recovers.

Lemma base_ordinary l : NoDup (map fst l) -> wanted toy (proj l) <> [] -> ordinary toy ([] ++ [visit_of l]).
Proof.
  intros H W. constructor; cbn [app].
  - intros w [<-|[]]. now apply listed_proj.
  - intros w [<-|[]]. exact W.
  - exact I.
  - exact I.
  - cbn. split; [intros w []|exact I].
Qed.
(** Killed right after the new documents were written, then again in the repair of the second run. *)
Example C64_example : exists d', killed_runs toy (proj edited) anywhere indexed d' /\
  stale toy (proj edited) d' = true /\ none_added toy (proj base) (proj edited).
Proof.
  set (d1 := cut_at 4 (run (proj edited)) indexed).
  exists (cut_at 1 (run (proj edited)) d1). split; [|split].
  - eapply (one_more _ _ _ _ _ _ turns); [apply (cut_outside 4); vm_compute; exact I|exact I|].
    eapply (one_more _ _ _ _ _ _ turns); [apply (cut_outside 1); vm_compute; exact I|exact I|]. apply no_run.
  - vm_compute. reflexivity.
  - intros p f H. in_cases; eexists; (split; [split; [|split; [|split]]|]); try reflexivity; cbn; eauto; vm_compute; discriminate.
Qed.

Theorem C64_killed_addition_refuted : exists T pj0 pj d',
  good_tool T /\ ordinary T [pj0] /\ listed_once pj /\ wanted T pj <> [] /\
  edits_visible T (v_project pj0) pj /\ none_emptied T (v_project pj0) pj /\ none_repaired T (v_project pj0) pj /\
  killed_runs T pj anywhere (visits T empty_store [pj0]) d' /\
  outcome (index T (fun _ => []) [] pj false) d' = Ok tt /\
  ~ up_to_date T pj (after (index T (fun _ => []) [] pj false) d').
Proof.
  exists toy, (visit_of base), (proj more), (cut_at 3 (run (proj more)) indexed).
  split; [exact toy_good|]. split; [apply (base_ordinary base); [repeat constructor; cbn; intuition discriminate|discriminate]|].
  split; [listed|]. split; [discriminate|].
  split; [intros p f0 f H0 H1 HC; in_cases|].
  split; [left; intros p f0 f H0 H1 HC; in_cases|].
  split; [intros p f0 f H0 H1; in_cases|].
  split; [eapply (one_more _ _ _ _ _ _ turns); [apply (cut_outside 3); vm_compute; exact I|exact I|apply no_run]|].
  split; [reflexivity|]. apply stale_not. vm_compute. reflexivity.
Qed.
Print Assumptions C64_killed_addition_refuted.

(** Killed inside a deletion: the next run removes rows of the wrong files, and search results
    show another file than the one matched. *)
Theorem C64_killed_deletion_refuted : exists T pj0 pj d',
  good_tool T /\ ordinary T [pj0] /\ listed_once pj /\ wanted T pj <> [] /\
  edits_visible T (v_project pj0) pj /\ none_emptied T (v_project pj0) pj /\ none_repaired T (v_project pj0) pj /\
  none_added T (v_project pj0) pj /\
  killed (index T (fun _ => []) [] pj false) (visits T empty_store [pj0]) d' /\
  outcome (index T (fun _ => []) [] pj false) d' = Ok tt /\
  exists rows db r r', d_vec (after (index T (fun _ => []) [] pj false) d') = Some rows /\
    d_db (after (index T (fun _ => []) [] pj false) d') = Some db /\
    nth_error rows 0 = Some r /\ In (0, r') db /\ r_file r <> r_file r'.
Proof.
  exists toy, (visit_of more), (proj fewer), (cut_at 1 (index toy (fun _ => []) [] (proj fewer) false) (visits toy empty_store [visit_of more])).
  split; [exact toy_good|]. split; [apply (base_ordinary more); [repeat constructor; cbn; intuition discriminate|discriminate]|].
  split; [listed|]. split; [discriminate|].
  split; [intros p f0 f H0 H1 HC; in_cases|].
  split; [left; intros p f0 f H0 H1 HC; in_cases|].
  split; [intros p f0 f H0 H1; in_cases|].
  split; [intros p f H; in_cases; eexists; (split; [split; [|split; [|split]]|]); try reflexivity; cbn; eauto; vm_compute; discriminate|].
  split; [apply cut_killed|]. split; [vm_compute; reflexivity|].
  eexists _, _, _, _. split; [vm_compute; reflexivity|]. split; [vm_compute; reflexivity|].
  split; [reflexivity|]. split; [left; reflexivity|]. discriminate.
Qed.
Print Assumptions C64_killed_deletion_refuted.

(** A file restored after a killed update: the interrupted version stays in the index. *)
Theorem C64_reverted_file_refuted : exists T pj0 pj pj' d',
  good_tool T /\ ordinary T [pj0] /\ listed_once pj /\ listed_once pj' /\ wanted T pj' <> [] /\
  edits_visible T (v_project pj0) pj /\ edits_visible T pj pj' /\ edits_visible T (v_project pj0) pj' /\
  none_added T (v_project pj0) pj /\ none_added T pj pj' /\
  killed_runs T pj anywhere (visits T empty_store [pj0]) d' /\
  outcome (index T (fun _ => []) [] pj' false) d' = Ok tt /\
  ~ up_to_date T pj' (after (index T (fun _ => []) [] pj' false) d').
Proof.
  exists toy, (visit_of base), (proj edited), (proj reverted), (cut_at 5 (run (proj edited)) indexed).
  split; [exact toy_good|]. split; [apply (base_ordinary base); [repeat constructor; cbn; intuition discriminate|discriminate]|].
  split; [listed|]. split; [listed|]. split; [discriminate|].
  split; [intros p f0 f H0 H1 HC; in_cases; split; [left; discriminate|discriminate]|].
  split; [intros p f0 f H0 H1 HC; in_cases; split; [left; discriminate|discriminate]|].
  split; [intros p f0 f H0 H1 HC; in_cases|].
  split; [intros p f H; in_cases; eexists; (split; [split; [|split; [|split]]|]); try reflexivity; cbn; eauto; vm_compute; discriminate|].
  split; [intros p f H; in_cases; eexists; (split; [split; [|split; [|split]]|]); try reflexivity; cbn; eauto; vm_compute; discriminate|].
  split; [eapply (one_more _ _ _ _ _ _ turns); [apply (cut_outside 5); vm_compute; exact I|exact I|apply no_run]|].
  split; [reflexivity|]. apply stale_not. vm_compute. reflexivity.
Qed.
Print Assumptions C64_reverted_file_refuted.

(** The steps a run starts with, for any lengths: documents and rows are cut to the common number,
    rows beyond the last document are removed, and a lost state file is rebuilt from the rows. *)
Theorem C64_repair_keeps_common_part : forall d v rows, d_vec d = Some v -> d_db d = Some (number 0 rows) ->
  let m := Nat.min (length v) (length rows) in
  outcome repair d = Ok true /\ d_vec (after repair d) = Some (firstn m v) /\ d_db (after repair d) = Some (number 0 (firstn m rows)) /\
  d_state (after repair d) = d_state d /\ d_building (after repair d) = d_building d.
Proof. exact repair_common. Qed.
Print Assumptions C64_repair_keeps_common_part.
Theorem C64_surplus_rows_removed : forall d v rows, d_vec d = Some v -> d_db d = Some (number 0 rows) ->
  d_vec (after reconcile d) = Some v /\ d_db (after reconcile d) = Some (number 0 (firstn (length v) rows)) /\ outcome reconcile d = Ok tt.
Proof. exact reconcile_rows. Qed.
Print Assumptions C64_surplus_rows_removed.
Theorem C62_state_rebuilt_from_rows : forall T pj db s, reconstruct T pj db = Some s -> forall p i,
  In (p, i) (s_files s) <-> (exists f, assoc (p_files pj) p = Some f /\ i = info_of T f) /\ exists k r, In (k, r) db /\ r_file r = p.
Proof. exact reconstruct_files. Qed.
Print Assumptions C62_state_rebuilt_from_rows.
Example C64_repair_example : let rows := match d_vec indexed with Some v => v | None => [] end in
  let d := {| d_vec := Some (firstn 1 rows); d_db := Some (number 0 rows); d_state := None; d_building := false |} in
  1 < length rows /\ d_db (after repair d) = Some (number 0 (firstn 1 rows)) /\
  match reconstruct toy (proj base) (number 0 rows) with Some s => s_files s <> [] | None => False end.
Proof. vm_compute. repeat split; auto. discriminate. Qed.

(** * C65: a killed first build is completed by the next run *)

(** Any number of first builds may be killed, at points where the vector index and the metadata
    database both exist or neither does; the next complete run leaves the index up to date. *)
Theorem C65_killed_build_recovers : forall T pj sch d',
  good_tool T -> listed_once pj -> wanted T pj <> [] ->
  killed_runs T pj both_or_neither empty_store d' ->
  outcome (index T sch [] pj false) d' = Ok tt /\ up_to_date T pj (after (index T sch [] pj false) d').
Proof. intros T pj sch d' GT. exact (recovered_build T GT pj d' sch). Qed.
Print Assumptions C65_killed_build_recovers.
(** Killed twice: after the first batch, then when the documents of the second are written. *)
Example C65_example : exists d', killed_runs toy (proj pairs) both_or_neither empty_store d' /\
  d_vec d' <> None /\ stale toy (proj pairs) d' = true.
Proof.
  set (d1 := cut_at 4 (run (proj pairs)) empty_store).
  exists (cut_at 2 (run (proj pairs)) d1). split; [|split].
  - eapply (one_more _ _ _ _ _ _ turns); [apply (cut_outside 4); vm_compute; exact I|split; intros H; vm_compute in H; discriminate H|].
    eapply (one_more _ _ _ _ _ _ turns); [apply (cut_outside 2); vm_compute; exact I|split; intros H; vm_compute in H; discriminate H|]. apply no_run.
  - vm_compute. discriminate.
  - vm_compute. reflexivity.
Qed.

(** A first build killed inside its first batch, with rows written and no vector index yet, makes
    every later run fail. *)
Theorem C65_killed_first_batch_refuted : exists T pj sch d',
  good_tool T /\ listed_once pj /\ wanted T pj <> [] /\
  killed_outside_deletion (index T sch [] pj false) empty_store d' /\
  forall schs, let d'' := fold_left (fun x s => after (index T s [] pj false) x) schs d' in
    d_vec d'' = None /\ forall s, outcome (index T s [] pj false) d'' = Err.
Proof.
  exists toy, (proj pairs), (fun _ => [false; true]), (cut_at 2 (index toy (fun _ => [false; true]) [] (proj pairs) false) empty_store).
  split; [exact toy_good|]. split; [listed|]. split; [discriminate|].
  split; [apply (cut_outside 2); vm_compute; exact I|]. intros schs. cbv zeta.
  set (bad := cut_at 2 _ empty_store).
  assert (FIX : forall sch, after (index toy sch [] (proj pairs) false) bad = bad /\ outcome (index toy sch [] (proj pairs) false) bad = Err).
  { intros sch. split; vm_compute; reflexivity. }
  assert (ALL : fold_left (fun x sch => after (index toy sch [] (proj pairs) false) x) schs bad = bad).
  { induction schs as [|sch schs IH]; [reflexivity|]. cbn [fold_left]. rewrite (proj1 (FIX sch)). exact IH. }
  rewrite ALL. split; [reflexivity|]. intros sch. apply FIX.
Qed.
Print Assumptions C65_killed_first_batch_refuted.

(** A file of a finished batch that is edited before the build resumes keeps its old units. *)
Theorem C65_edit_before_resuming_refuted : exists T pj pj' d',
  good_tool T /\ listed_once pj /\ listed_once pj' /\ wanted T pj' <> [] /\ edits_visible T pj pj' /\
  killed_runs T pj both_or_neither empty_store d' /\
  outcome (index T (fun _ => []) [] pj' false) d' = Ok tt /\
  ~ up_to_date T pj' (after (index T (fun _ => []) [] pj' false) d').
Proof.
  exists toy, (proj pairs), (proj pairs'), (cut_at 4 (run (proj pairs)) empty_store).
  split; [exact toy_good|]. split; [listed|]. split; [listed|]. split; [discriminate|].
  split; [intros p f0 f H0 H1 HC; in_cases; split; [left; discriminate|discriminate]|].
  split; [eapply (one_more _ _ _ _ _ _ turns); [apply (cut_outside 4); vm_compute; exact I|split; intros H; vm_compute in H; discriminate H|apply no_run]|].
  split; [reflexivity|]. apply stale_not. vm_compute. reflexivity.
Qed.
Print Assumptions C65_edit_before_resuming_refuted.

(** * C66: a worktree seeded from the index of another is up to date *)

(** The index of another worktree, after an ordinary history, is copied and brought up to date,
    if files present in both have the same content. *)
Theorem C66_seeded_worktree : forall T vs v pj sch d,
  good_tool T -> ordinary T (vs ++ [v]) -> listed_once pj ->
  same_contents T (v_project v) pj -> (forall w, In w (vs ++ [v]) -> none_repaired T (v_project w) pj) ->
  d_vec d = None -> d_building d = false ->
  let sibling := visits T empty_store (vs ++ [v]) in
  outcome (index T sch [sibling] pj false) d = Ok tt /\ up_to_date T pj (after (index T sch [sibling] pj false) d).
Proof. intros T vs v pj sch d GT O L S R V B. exact (seeded_run T GT vs v pj d sch O L S R V B). Qed.
Print Assumptions C66_seeded_worktree.
Example C66_example : same_contents toy (proj more) (proj fewer) /\ none_repaired toy (proj more) (proj fewer) /\
  ordinary toy ([] ++ [visit_of more]) /\ d_vec empty_store = None.
Proof.
  split; [intros p f g H H'; in_cases|]. split; [intros p f0 f H0 H1; in_cases|].
  split; [apply base_ordinary; [repeat constructor; cbn; intuition discriminate|discriminate]|reflexivity].
Qed.

(** Files that differ between the worktrees keep the units of the other worktree, in this run and
    in every later one. *)
Theorem C66_different_files_refuted : exists T v pj,
  good_tool T /\ ordinary T [v] /\ listed_once pj /\ wanted T pj <> [] /\ edits_visible T (v_project v) pj /\
  none_repaired T (v_project v) pj /\
  let d := after (index T (fun _ => []) [visits T empty_store [v]] pj false) empty_store in
  outcome (index T (fun _ => []) [visits T empty_store [v]] pj false) empty_store = Ok tt /\
  forall schs, let d' := fold_left (fun x s => after (index T s [] pj false) x) schs d in
    ~ up_to_date T pj d' /\ forall s, outcome (index T s [] pj false) d' = Ok tt.
Proof.
  exists toy, (visit_of base), (proj edited).
  split; [exact toy_good|]. split; [apply (base_ordinary base); [repeat constructor; cbn; intuition discriminate|discriminate]|].
  split; [listed|]. split; [discriminate|].
  split; [intros p f0 f H0 H1 HC; in_cases; split; [left; discriminate|discriminate]|].
  split; [intros p f0 f H0 H1; in_cases|]. cbv zeta. split; [vm_compute; reflexivity|]. intros schs.
  set (seeded := after _ empty_store).
  assert (FIX : forall sch, after (index toy sch [] (proj edited) false) seeded = seeded /\ outcome (index toy sch [] (proj edited) false) seeded = Ok tt).
  { intros sch. split; vm_compute; reflexivity. }
  assert (ALL : fold_left (fun x sch => after (index toy sch [] (proj edited) false) x) schs seeded = seeded).
  { induction schs as [|sch schs IH]; [reflexivity|]. cbn [fold_left]. rewrite (proj1 (FIX sch)). exact IH. }
  rewrite ALL. split; [|intros sch; apply FIX]. apply stale_not. vm_compute. reflexivity.
Qed.
Print Assumptions C66_different_files_refuted.
