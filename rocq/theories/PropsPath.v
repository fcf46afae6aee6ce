(** C49: directories of indexes.  C39: mutual exclusion of writers. *)
From Verif Require Import Base Text ApiPath ApiPathSpec ApiPathProofs.
Open Scope Z_scope.

(** C49.  The full statement, for every name, is false (below).  It holds for every relative name
    without a piece [..], and for an ordinary name the directory is a child of the data directory. *)
Theorem C49_descending_names_inside_partial cwd dir name :
  dir <> [] -> descending name -> inside cwd dir (index_path dir name).
Proof. exact (descending_inside cwd dir name). Qed.
Print Assumptions C49_descending_names_inside_partial.
Theorem C49_plain_names_are_children_partial cwd dir name file :
  dir <> [] -> plain name -> plain file ->
  resolve cwd (index_path dir name) = resolve cwd dir ++ [name] /\
  resolve cwd (join (index_path dir name) file) = resolve cwd dir ++ [name; file].
Proof. intros D N F. split; [exact (plain_resolve cwd dir name D N)|exact (plain_file cwd dir name file D N F)]. Qed.
Print Assumptions C49_plain_names_are_children_partial.
(** Indexes with different ordinary names do not share files. *)
Theorem C49_plain_names_separate_partial cwd dir n1 n2 :
  dir <> [] -> plain n1 -> plain n2 -> n1 <> n2 -> ~ inside cwd (index_path dir n1) (index_path dir n2).
Proof. exact (plain_distinct cwd dir n1 n2). Qed.
Print Assumptions C49_plain_names_separate_partial.

(** Finding: whatever the data directory (other than the root), there is a name that leads out of
    it, and any absolute path is a name of itself. *)
Theorem C49_parent_refuted cwd dir : dir <> [] -> resolve cwd dir <> [] ->
  exists name, name <> [] /\ ~ inside cwd dir (index_path dir name).
Proof. intros D R. exists (txt ".."). split; [discriminate|exact (parent_outside cwd dir D R)]. Qed.
Print Assumptions C49_parent_refuted.
Theorem C49_absolute_refuted dir name : is_absolute name = true -> index_path dir name = name.
Proof. exact (absolute_replaces dir name). Qed.
Print Assumptions C49_absolute_refuted.
(** Finding: the index named [.] is the data directory itself. *)
Theorem C49_dot_refuted cwd dir : dir <> [] -> resolve cwd (index_path dir (txt ".")) = resolve cwd dir.
Proof. exact (dot_is_directory cwd dir). Qed.
Print Assumptions C49_dot_refuted.

Lemma plain_a : plain (txt "a").
Proof. repeat split; try discriminate. intros [H|[]]; discriminate. Qed.
Example C49_example :
  let cwd := [txt "home"; txt "me"] in let dir := txt "./indices" in
  dir <> [] /\ resolve cwd dir <> [] /\ plain (txt "a") /\ plain (txt "metadata.json") /\ descending (txt "a/./b") /\
  resolve cwd (join (index_path dir (txt "a")) (txt "metadata.json")) = [txt "home"; txt "me"; txt "indices"; txt "a"; txt "metadata.json"] /\
  resolve cwd (index_path dir (txt "a/../../secret")) = [txt "home"; txt "me"; txt "secret"] /\
  resolve cwd (index_path dir (txt "/etc")) = [txt "etc"].
Proof.
  cbv zeta. split; [discriminate|]. split; [vm_compute; discriminate|]. split; [exact plain_a|]. split.
  - repeat split; try discriminate. vm_compute. intuition discriminate.
  - split; [split; [reflexivity|vm_compute; intuition discriminate]|]. repeat split; vm_compute; reflexivity.
Qed.

(** C39.  The full statement is [exclusive] for all reachable states, which is false (below).  For
    every schedule of any number of writers: background writers of one index (queued updates and
    deletions) exclude each other, and so do create, direct addition and change of configuration. *)
Theorem C39_background_writers_partial dir ss ts i j a b :
  lrun dir [] ss = Some ts -> i <> j -> nth_error ts i = Some a -> nth_error ts j = Some b ->
  In (t_kind a) [WUpdate; WDelete] -> In (t_kind b) [WUpdate; WDelete] -> t_name a = t_name b ->
  writing a -> writing b -> False.
Proof.
  intros H D A B KA KB N. apply (exclusive_family dir ss ts i j a b H D A B).
  - exists (index_path dir (t_name a)). destruct KA as [<-|[<-|[]]]; destruct KB as [<-|[<-|[]]]; rewrite N; split; reflexivity.
  - destruct KA as [<-|[<-|[]]]; discriminate.
  - destruct KB as [<-|[<-|[]]]; discriminate.
Qed.
Print Assumptions C39_background_writers_partial.
Theorem C39_direct_writers_partial dir ss ts i j a b :
  lrun dir [] ss = Some ts -> i <> j -> nth_error ts i = Some a -> nth_error ts j = Some b ->
  In (t_kind a) [WCreate; WAdd; WConfig] -> In (t_kind b) [WCreate; WAdd; WConfig] -> t_name a = t_name b ->
  writing a -> writing b -> False.
Proof.
  intros H D A B KA KB N. apply (exclusive_family dir ss ts i j a b H D A B).
  - exists (t_name a). destruct KA as [<-|[<-|[<-|[]]]]; destruct KB as [<-|[<-|[<-|[]]]]; rewrite N; split; reflexivity.
  - destruct KA as [<-|[<-|[<-|[]]]]; discriminate.
  - destruct KB as [<-|[<-|[<-|[]]]]; discriminate.
Qed.
Print Assumptions C39_direct_writers_partial.
(** Whatever the names: for an absolute name the two kinds of keys are one, so all writers but drop
    and metadata changes exclude each other. *)
Theorem C39_absolute_names_partial dir ss ts i j a b :
  lrun dir [] ss = Some ts -> i <> j -> nth_error ts i = Some a -> nth_error ts j = Some b ->
  t_name a = t_name b -> is_absolute (t_name a) = true ->
  ~ In (t_kind a) [WDrop; WMetadata] -> ~ In (t_kind b) [WDrop; WMetadata] ->
  writing a -> writing b -> False.
Proof.
  intros H D A B N AB KA KB. apply (exclusive_family dir ss ts i j a b H D A B).
  - exists (t_name a). unfold lock_key. rewrite <- N, (absolute_replaces dir (t_name a) AB).
    split; [destruct (t_kind a)|destruct (t_kind b)]; try reflexivity; exfalso; [apply KA|apply KB]; cbn; tauto.
  - intros E. apply KA. rewrite E. left. reflexivity.
  - intros E. apply KB. rewrite E. left. reflexivity.
Qed.
Print Assumptions C39_absolute_names_partial.

(** Finding: a direct addition and a queued update (or deletion) of one index run at the same time,
    because one locks the name of the index and the other its path. *)
Theorem C39_add_and_update_refuted : exists cwd dir name w1 w2 ss ts,
  plain name /\ w1 = WAdd /\ In w2 [WUpdate; WDelete] /\
  ss = [Start w1 name; Start w2 name; Go 0; Go 1] /\
  lrun dir [] ss = Some ts /\ ~ exclusive cwd dir ts.
Proof.
  exists [], (txt "/data"), (txt "a"), WAdd, WUpdate. eexists. eexists. split; [exact plain_a|]. split; [reflexivity|]. split; [left; reflexivity|].
  split; [reflexivity|]. split; [vm_compute; reflexivity|].
  intros H. eapply (H 0%nat 1%nat); [discriminate|reflexivity|reflexivity|reflexivity|left; reflexivity|left; reflexivity].
Qed.
Print Assumptions C39_add_and_update_refuted.
(** Finding: dropping an index removes its directory after giving up its lock, while another writer
    works under the same lock. *)
Theorem C39_drop_and_add_refuted : exists cwd dir name ss ts,
  plain name /\ ss = [Start WDrop name; Start WAdd name; Go 0; Go 0; Go 1] /\
  lrun dir [] ss = Some ts /\ ~ exclusive cwd dir ts.
Proof.
  exists [], (txt "/data"), (txt "a"). eexists. eexists. split; [exact plain_a|]. split; [reflexivity|]. split; [vm_compute; reflexivity|].
  intros H. eapply (H 0%nat 1%nat); [discriminate|reflexivity|reflexivity|reflexivity|right; reflexivity|left; reflexivity].
Qed.
Print Assumptions C39_drop_and_add_refuted.
(** Finding: two names of one directory have two locks. *)
Theorem C39_two_names_refuted : exists cwd dir n1 n2 ss ts,
  n1 <> n2 /\ ss = [Start WUpdate n1; Start WUpdate n2; Go 0; Go 1] /\
  lrun dir [] ss = Some ts /\ ~ exclusive cwd dir ts.
Proof.
  exists [], (txt "/data"), (txt "a"), (txt "./a"). eexists. eexists. split; [discriminate|]. split; [reflexivity|]. split; [vm_compute; reflexivity|].
  intros H. eapply (H 0%nat 1%nat); [discriminate|reflexivity|reflexivity|vm_compute; reflexivity|left; reflexivity|left; reflexivity].
Qed.
Print Assumptions C39_two_names_refuted.
(** Writers of one family do wait for each other, and go on when the lock is free. *)
Example C39_example :
  let dir := txt "/data" in
  lrun dir [] [Start WUpdate (txt "a"); Start WDelete (txt "a"); Go 0; Go 1] = None /\
  option_map (map t_phase) (lrun dir [] [Start WUpdate (txt "a"); Start WDelete (txt "a"); Start WUpdate (txt "b"); Go 0; Go 2; Go 0; Go 1])
    = Some [Finished; Locked; Locked].
Proof. split; vm_compute; reflexivity. Qed.
