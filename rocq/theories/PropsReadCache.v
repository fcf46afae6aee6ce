(** C96: metadata read through cached connections. *)
From Coq Require Import String.
From Verif Require Import Base F32 IndexModel IndexSpec IndexExamples.
From Verif Require Import Text SqlModel SqlSpec MetaModel MetaQuery MetaSpec MetaExamples SyncModel SyncSpec ApiUpdate ApiUpdateSpec.
From Verif Require Import ReadCache ReadCacheSpec ReadCacheProofs.
Open Scope nat_scope.
Open Scope list_scope.

(** C96. In every history of creating, updating and reading databases at any paths, in which no
    directory is removed or renamed once it was read, each read shows what was last written. *)
Theorem C96_reads_current : forall D (any : D) (l : list (act D)), undisturbed [] l -> answers (begin any) l = plain_answers (fun _ => None) l.
Proof. intros D any l H. exact (reads_current D l _ _ [] (begin_sound D any) H). Qed.
Print Assumptions C96_reads_current.

(** However the steps of reading and writing threads are interleaved, as long as no file is
    removed each query shows the database as it is at that moment. *)
Theorem C96_interleaved_reads_current : forall D (any : D) s e s' p x, quiet_run any s -> go s e = Some (s', Some (p, x)) -> x = current (h_proc s) p.
Proof. exact query_current. Qed.
Print Assumptions C96_interleaved_reads_current.

(** A database read once, whose directory is then removed and made again, as when an index is
    deleted and created again under its name: reads show the deleted database, for good. *)
Theorem C96_deleted_index_refuted : forall D (any old new : D) p fs, old <> new ->
  let l := [Create p (Some old); Read p; RemoveDir p; Read p; Create p (Some new)] ++ map (Write p) fs ++ [Read p] in
  last (answers (begin any) l) None = Some (Some old) /\ last (plain_answers (fun _ => None) l) None = Some (Some (fold_left (fun d f => f d) fs new)).
Proof.
  intros D any old new p fs N. cbv zeta.
  assert (A : forall (fs : list (D -> D)) (s : process D) i j, p_file s p = Some i -> p_conn s p = Some j -> i <> j -> p_data s j = old -> last (answers s (map (Write p) fs ++ [Read p])) None = Some (Some old)).
  { induction fs0 as [|f fs' IH]; intros s i j F C NE E; cbn [map app answers do_act].
    - unfold read_db. rewrite F, C. cbn. congruence.
    - set (s1 := write_db s p f). assert (S : last (answers s1 (map (Write p) fs' ++ [Read p])) None = Some (Some old)).
      { unfold s1, write_db. rewrite F. apply (IH _ i j); auto. cbn. rewrite put_other by congruence. exact E. }
      clearbody s1. destruct (answers s1 (map (Write p) fs' ++ [Read p])) eqn:Q; [discriminate S|exact S]. }
  assert (B : forall (fs : list (D -> D)) (m : nat -> option D) d, m p = Some d -> last (plain_answers m (map (Write p) fs ++ [Read p])) None = Some (Some (fold_left (fun d f => f d) fs d))).
  { induction fs0 as [|f fs' IH]; intros m d E; cbn [map app plain_answers plain fold_left].
    - cbn. congruence.
    - specialize (IH (put m p (option_map f (m p))) (f d)). rewrite put_same, E in IH. specialize (IH eq_refl). rewrite E.
      destruct (plain_answers (put m p (option_map f (Some d))) (map (Write p) fs' ++ [Read p])) eqn:Q; [discriminate IH|exact IH]. }
  split.
  - set (w := map (Write p) fs ++ [Read p]). cbn [app answers do_act]. unfold create_db, read_db, unlink, new_file, begin. cbn. rewrite !put_same. cbn. rewrite !put_same. cbn.
    match goal with |- match answers ?s w with _ => _ end = _ => set (s1 := s) end.
    assert (S : last (answers s1 w) None = Some (Some old)) by (apply (A fs s1 1 0); unfold s1; cbn; rewrite ?put_same; auto; rewrite !put_other by lia; apply put_same).
    destruct (answers s1 w) eqn:Q; [discriminate S|exact S].
  - set (w := map (Write p) fs ++ [Read p]). cbn [app plain_answers plain].
    match goal with |- last (_ :: _ :: _ :: _ :: _ :: plain_answers ?m w) None = _ => set (m1 := m) end.
    assert (S := B fs m1 new (put_same _ _ _)). fold w in S. cbn [last]. destruct (plain_answers m1 w) eqn:Q; [discriminate S|exact S].
Qed.
Print Assumptions C96_deleted_index_refuted.

(** Likewise when a rebuilt index is renamed to its place. *)
Theorem C96_rebuilt_index_refuted : ~ forall D (any : D) (l : list (act D)), answers (begin any) l = plain_answers (fun _ => None) l.
Proof.
  intro H. specialize (H nat 0 [Create 1 (Some 10); Read 1; Create 2 (Some 20); RenameDir 1 3; RenameDir 2 1; RemoveDir 3; Read 1]). vm_compute in H. discriminate.
Qed.
Print Assumptions C96_rebuilt_index_refuted.

(** And without any of this when a database is created anew while a thread opens its connection:
    afterwards every read of every thread shows the database that was replaced. *)
Theorem C96_interleaved_create_refuted : ~ forall D (any : D) es s p i, goes {| h_proc := begin any; h_reader := fun _ => Idle |} es = Some s ->
  (forall e, In e es -> match e with EAct (RemoveDir _) | EAct (RenameDir _ _) => False | _ => True end) ->
  p_conn (h_proc s) p = Some i -> current (h_proc s) p = Some (p_data (h_proc s) i).
Proof.
  intro H. set (es := [EAct (Create 1 (Some 10)); ELook 7 1; EOpen 7; EAct (Create 1 (Some 20)); EEnter 7; EQuery 7]).
  destruct (goes {| h_proc := begin 0; h_reader := fun _ => Idle |} es) as [s|] eqn:E; [|vm_compute in E; discriminate].
  specialize (H nat 0 es s 1 0 E). vm_compute in E. injection E as <-.
  assert (Q : forall e, In e es -> match e with EAct (RemoveDir _) | EAct (RenameDir _ _) => False | _ => True end) by (intros e I; cbn in I; repeat (destruct I as [<-|I]; [exact Logic.I|]); destruct I).
  specialize (H Q eq_refl). vm_compute in H. discriminate.
Qed.
Print Assumptions C96_interleaved_create_refuted.

(** The API repairs an index whose number of documents differs from the number of rows it reads.
    With rows that are read as they are this is ApiUpdate.repair (C41).  With rows of a deleted
    database it deletes documents of an index that is in order, reports success, and leaves rows
    without documents. *)
Theorem C96_repair_sees_rows : forall V s, repair_through V (fun m => m) s = repair V s.
Proof. reflexivity. Qed.
Print Assumptions C96_repair_sees_rows.
Theorem C96_repair_deletes_documents_refuted :
  exists docs1 md1 docs2 md2 g s1 s2 s3 x2 x3,
    process_batch ex_env ex_engine no_index docs1 md1 g None = Ok (Ok 0, s1)
    /\ process_batch ex_env ex_engine no_index docs2 md2 g None = Ok (Ok 0, s2)
    /\ last (answers (begin NoDb) [Create 1 (Some (sv_store s1)); Read 1; RemoveDir 1; Create 1 (Some (sv_store s2)); Read 1]) None = Some (Some (sv_store s1))
    /\ repair ex_env s2 = Ok (false, s2)
    /\ repair_through ex_env (fun _ => sv_store s1) s2 = Ok (true, s3)
    /\ option_map (fun i => load (fst i)) (sv_index s2) = Some (Ok x2) /\ num_documents (x_meta x2) = 3
    /\ option_map (fun i => load (fst i)) (sv_index s3) = Some (Ok x3) /\ num_documents (x_meta x3) = 1
    /\ count (sv_store s3) = Ok 3.
Proof.
  pose (g := cfg 2 0 0 0). pose (docs1 := [[tok 10]]). pose (md1 := [obj [("title", str "old")]]%string).
  pose (docs2 := [[tok 10]; [tok 20]; [tok 20; tok 10]]). pose (md2 := [obj [("title", str "a")]; obj [("title", str "b")]; obj [("title", str "c")]]%string).
  pose (q1 := got (Ok 0, no_index) (process_batch ex_env ex_engine no_index docs1 md1 g None)).
  pose (q2 := got (Ok 0, no_index) (process_batch ex_env ex_engine no_index docs2 md2 g None)).
  pose (q3 := got (false, no_index) (repair_through ex_env (fun _ => sv_store (snd q1)) (snd q2))).
  exists docs1, md1, docs2, md2, g, (snd q1), (snd q2), (snd q3),
    (match sv_index (snd q2) with Some i => opened (fst i) | None => ex_index0 end), (match sv_index (snd q3) with Some i => opened (fst i) | None => ex_index0 end).
  repeat split; vm_compute; reflexivity.
Qed.
Print Assumptions C96_repair_deletes_documents_refuted.

Definition ex_history : list (act nat) :=
  [Create 1 (Some 5); Write 1 S; Read 1; Read 1; Create 2 (Some 7); RenameDir 2 3; Read 3; RemoveDir 2; Create 1 (Some 9); Read 1; Write 3 S; Read 3; Create 3 None; Read 3].
Fixpoint all_keep (s : shared nat) (es : list (event nat)) : Prop :=
  match es with [] => True | e :: r => keeps_files s e /\ match go s e with Some (s', _) => all_keep s' r | None => False end end.
Lemma quiet_goes any : forall es s s', quiet_run any s -> all_keep s es -> goes s es = Some s' -> quiet_run any s'.
Proof.
  induction es as [|e es IH]; cbn [all_keep goes]; intros s s' Q K G; [congruence|]. destruct K as (K & A). destruct (go s e) as [(s1, x)|] eqn:E; [|discriminate].
  exact (IH s1 s' (quiet_step _ _ s e s1 x Q K E) A G).
Qed.
Definition ex_events : list (event nat) := [EAct (Create 1 (Some 5)); ELook 4 1; ELook 5 1; EOpen 4; EOpen 5; EEnter 5; EEnter 4; EAct (Write 1 S)].
Definition ex_begin : shared nat := {| h_proc := begin 0; h_reader := fun _ => Idle |}.
Definition ex_state := match goes ex_begin ex_events with Some s => s | None => ex_begin end.
Lemma ex_goes : goes ex_begin ex_events = Some ex_state.
Proof. unfold ex_state. destruct (goes ex_begin ex_events) eqn:E; [reflexivity|]. assert (H : match goes ex_begin ex_events with Some _ => true | None => false end = true) by (vm_compute; reflexivity). rewrite E in H. discriminate. Qed.
Example C96_example : undisturbed [] ex_history /\ answers (begin 0) ex_history = [None; None; Some (Some 6); Some (Some 6); None; None; Some (Some 7); None; None; Some (Some 9); None; Some (Some 8); None; Some None] /\
  quiet_run 0 ex_state /\ option_map snd (go ex_state (EQuery 4)) = Some (Some (1, Some 6)).
Proof.
  split; [cbn; repeat split; intro H; intuition discriminate|]. split; [vm_compute; reflexivity|]. split; [|vm_compute; reflexivity].
  apply (quiet_goes 0 ex_events ex_begin); [apply quiet_start| |exact ex_goes]. vm_compute. repeat split.
Qed.
