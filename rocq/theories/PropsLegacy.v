(** C97: metadata files of earlier layouts, and operations killed in the middle. *)
From Coq Require Import Permutation String.
From Verif Require Import Base F32 IndexModel IndexSpec IndexExamples.
From Verif Require Import Text SqlModel SqlSpec MetaModel MetaQuery MetaSpec MetaExamples.
From Verif Require Import Legacy LegacySpec LegacyProofs LegacyUpdate LegacyMain.
Open Scope nat_scope.
Open Scope list_scope.

(** C97. A file of an earlier layout is read like the split store of the same documents: the same
    objects in the same order, for any list of ids and for all rows. *)
Theorem C97_reads : forall E scan f s sub, good_engine E -> (forall l, Permutation (scan l) l) -> old_file E f s ->
  exists l l', get_disk E scan f sub = Ok l /\ get_rows E s sub = Ok l' /\ Forall2 same_object l l'.
Proof. exact file_reads. Qed.
Print Assumptions C97_reads.

(** It stays so through every history of updates and deletions, ... *)
Theorem C97_histories : forall E f s f' s', good_engine E -> settled E -> old_file E f s -> side_by_side E f s f' s' -> old_file E f' s'.
Proof. intros E f s f' s' G S F H. eapply history_same; eauto. Qed.
Print Assumptions C97_histories.

(** ... in which each operation gives the answer of the split store, or is refused and leaves the
    file as it was. *)
Theorem C97_answers : forall E f s o, good_engine E -> settled E -> old_file E f s -> op_ok E s o ->
  (exists n, snd (trace E f o) = Ok n /\ snd (on_split E s o) = Ok n) \/ (snd (trace E f o) = Err /\ fst (trace E f o) = []).
Proof.
  intros E f s o G S F O. destruct (snd (trace E f o)) as [n| |] eqn:T.
  - left. exists n. split; [reflexivity|]. destruct (after_step E f s o n G S F O T) as (s' & -> & _). reflexivity.
  - right. split; [reflexivity|]. apply (after_refused E f s o F). intros n Q. congruence.
  - exfalso. destruct (after_refused E f s o F) as (_ & Q); [intros n Q; congruence|congruence].
Qed.
Print Assumptions C97_answers.

(** Every table of an earlier layout holds the documents of some split store. *)
Theorem C97_counterpart : forall E f t, (d_version f = 0 \/ d_version f = 1 /\ l_pk t = false)%Z -> d_meta f = Some t -> old_table E t -> exists s, old_file E f s.
Proof.
  intros E f t V M O. destruct (counterpart E t O) as (d & SD). exists (Db d). split; [destruct V as [V|(V & _)]; auto|]. split.
  - intros Q t' M'. rewrite M in M'. injection M' as <-. destruct V as [V|(_ & V)]; [congruence|exact V].
  - exists t, d. auto.
Qed.
Print Assumptions C97_counterpart.

(** A process killed at any moment of an update or a deletion, the migration included, leaves a
    file that reads as before the operation or as after it. *)
Theorem C97_killed : forall E scan f o g, (2 <= d_version f)%Z \/ (exists s, old_file E f s) -> In g (f :: fst (trace E f o)) ->
  (forall sub, get_disk E scan g sub = get_disk E scan f sub) \/ (forall sub, get_disk E scan g sub = get_disk E scan (after E f o) sub).
Proof.
  intros E scan f o g [V|(s & F)] I.
  - destruct (killed_new E f o g V I) as [->| ->]; auto.
  - destruct (killed_old E scan f s o g F I) as [H| ->]; auto.
Qed.
Print Assumptions C97_killed.

(** Files of the split layout are the stores of the other properties: same reads, and the file
    after an accepted operation is that of the store after it. *)
Theorem C97_split_files : forall E scan d, (forall sub, get_disk E scan (stored d) sub = get_rows E (Db d) sub) /\
  (forall o d' n, on_split E (Db d) o = (Db d', Ok n) -> after E (stored d) o = stored d' /\ snd (trace E (stored d) o) = Ok n).
Proof. intros E scan d. split; [apply stored_reads|apply stored_trace]. Qed.
Print Assumptions C97_split_files.

(** Creation is different.  Killed before it sets the version, it leaves a file that is taken for
    one of an earlier layout, for ever: whatever updates and deletions follow, no update is
    accepted, and no value of a column outside the thin table is ever shown again. *)
Theorem C97_killed_create_stuck : forall E scan md ids d n g ops, good_engine E -> NoDup ids -> Forall (fun i => 0 <= i)%Z ids ->
  create E NoDb md ids = (Db d, Ok n) -> In (Some g) (create_trace md d) -> d_version g = 0%Z -> Forall plain_op ops ->
  (forall md' ids', md' <> [] -> plain_op (OUpdate md' ids') -> snd (trace E (after_all E g ops) (OUpdate md' ids')) = Err) /\
  (forall sub l o k x, get_disk E scan (after_all E g ops) sub = Ok l -> In (JObj o) l -> In (k, x) o ->
     k = subset_column \/ k = content_column \/ is_thin_column k = true).
Proof.
  intros E scan md ids d n g ops G N P C I V PO. destruct (killed_create E scan md ids d n g ops G N P C I V PO) as (A & B). split; [|exact B].
  intros md' ids' Hm Q. rewrite (A md' ids' Hm Q). reflexivity.
Qed.
Print Assumptions C97_killed_create_stuck.

Definition lg_items : list json := [obj [("file", str "a.rs")]; obj [("code", str "fn a")]]%string.
Definition lg_db : db := match fst (create ex_engine NoDb lg_items [0; 1]%Z) with Db d => d | _ => {| thin_cols := []; fat_cols := []; thin_rows := []; fat_rows := [] |} end.
Definition lg_scan : list lrow -> list lrow := @rev _.
Lemma lg_perm : forall l, Permutation (lg_scan l) l.
Proof. intro l. apply Permutation_sym, Permutation_rev. Qed.
(** So a killed creation need not read as nothing or as everything: here the rows are there
    without their [code]. *)
Theorem C97_create_killed_refuted : ~ (forall E scan md ids d n g, good_engine E -> (forall l, Permutation (scan l) l) -> create E NoDb md ids = (Db d, Ok n) ->
  In (Some g) (create_trace md d) ->
  get_disk E scan g None = Err \/ get_disk E scan g None = Ok [] \/ get_disk E scan g None = get_rows E (Db d) None).
Proof.
  intro H. specialize (H ex_engine lg_scan lg_items [0; 1]%Z lg_db 2
    {| d_version := 0; d_meta := Some (thin_table (thin_cols lg_db) (thin_rows lg_db)); d_content := Some (fat_cols lg_db, fat_rows lg_db) |} ex_good lg_perm eq_refl).
  assert (I : In (Some {| d_version := 0; d_meta := Some (thin_table (thin_cols lg_db) (thin_rows lg_db)); d_content := Some (fat_cols lg_db, fat_rows lg_db) |}) (create_trace lg_items lg_db)).
  { unfold create_trace. replace (try_fixed_schema lg_items) with (Ok (@None (list column))) by reflexivity. cbn [In]. auto. }
  destruct (H I) as [Q|[Q|Q]]; vm_compute in Q; discriminate Q.
Qed.
Print Assumptions C97_create_killed_refuted.

(** *** Examples *)
Definition lg_col (n : string) (t : ctype) : column := {| c_name := txt n; c_type := t |}.
(** A file of version 0: ids 0, 1, 2 and three columns. *)
Definition lg_table : ltab := {| l_pk := true; l_cols := [lg_col "title" CText; lg_col "file" CText; lg_col "year" CInt]; l_need := [];
  l_rows := [{| l_sub := 0; l_vals := [SText (txt "one"); SText (txt "a.rs"); SInt 1990] |};
             {| l_sub := 1; l_vals := [SText (txt "two"); SNull; SInt 2001] |};
             {| l_sub := 2; l_vals := [SNull; SText (txt "c.rs"); SNull] |}] |}.
Definition lg_file : disk := {| d_version := 0; d_meta := Some lg_table; d_content := None |}.
Lemma lg_old : old_table ex_engine lg_table.
Proof.
  split; [repeat constructor; cbn; intuition lia|repeat constructor; cbn; lia| | | |reflexivity].
  - cbn. repeat constructor; cbn; intuition discriminate.
  - repeat constructor.
  - repeat constructor.
Qed.
Lemma ex_settled : settled ex_engine.
Proof. intros [] []; reflexivity. Qed.
(** The hypotheses are met; an update with a new column and a deletion are accepted, the deletion
    migrates the file first and moves the later rows down. *)
Example C97_example :
  (exists s, old_file ex_engine lg_file s) /\ good_engine ex_engine /\ settled ex_engine /\
  let f1 := after ex_engine lg_file (OUpdate [obj [("code", str "fn x"); ("title", str "new")]] [3%Z])%string in
  let f2 := after ex_engine f1 (ODelete [1%Z]) in
  List.length (fst (trace ex_engine f1 (ODelete [1%Z]))) = 2 /\ d_version f2 = 1%Z /\
  get_disk ex_engine lg_scan f2 (Some [2; 1; 7]%Z) =
    Ok [obj [("_subset_", JInt 2); ("title", str "new"); ("file", JNull); ("year", JNull); ("code", str "fn x")];
        obj [("_subset_", JInt 1); ("title", JNull); ("file", str "c.rs"); ("year", JNull); ("code", JNull)]]%string.
Proof.
  split; [|split; [exact ex_good|split; [exact ex_settled|vm_compute; auto]]]. apply (C97_counterpart ex_engine lg_file lg_table); [left; reflexivity|reflexivity|exact lg_old].
Qed.
(** A killed creation, read and used. *)
Example C97_killed_example :
  let g := {| d_version := 0; d_meta := Some (thin_table (thin_cols lg_db) (thin_rows lg_db)); d_content := Some (fat_cols lg_db, fat_rows lg_db) |} in
  In (Some g) (create_trace lg_items lg_db) /\
  get_rows ex_engine (Db lg_db) (Some [1%Z]) = Ok [obj [("_subset_", JInt 1); ("file", JNull); ("code", str "fn a")]]%string /\
  get_disk ex_engine lg_scan g (Some [1%Z]) = Ok [obj [("_subset_", JInt 1); ("_content_id_", JInt 1); ("file", JNull)]]%string /\
  snd (trace ex_engine g (OUpdate [obj [("file", str "b.rs")]] [2%Z])%string) = Err /\
  d_version (after ex_engine g (ODelete [0%Z])) = 1%Z.
Proof. split; [|vm_compute; auto 10]. unfold create_trace. replace (try_fixed_schema lg_items) with (Ok (@None (list column))) by reflexivity. cbn [In]. auto. Qed.
