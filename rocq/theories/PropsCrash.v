(** Property C37: a process that stops in the middle of an update or a creation. *)
From Verif Require Import Base F32 CodecModel CodecSpec IndexModel IndexSpec IndexExamples CrashSpec CrashProofs.
Open Scope nat_scope.

(** ** C37. Stopping at any point. *)

(** Partial: covers the updates that add in place (see [adds_in_place]). The process may stop
    after any number [k] of file replacements, and the operation may also have ended in an
    error. Re-opening always succeeds. Unless everything was done, all documents stored before
    are still counted and read exactly as before; when new documents go to new chunk files,
    the index shows exactly the documents before. Not covered (false, see the refutations):
    "exactly the documents before" when the last chunk file is extended, updates that flush
    the buffer, updates that rebuild, deletions. *)
Theorem C37_update_partial :
  forall V D docs0 g0 ops outs d h o x k,
    reached V D docs0 g0 ops outs d h -> op_ok D o -> disciplined true false (ops ++ [o]) ->
    load d = Ok x -> adds_in_place d (length (documents docs0 ops)) o ->
    exists x', load (stopped V (d, h) o k) = Ok x'
      /\ (same_documents V (length (documents docs0 ops)) x x'
            /\ (last_chunk_full d -> env_shows V x' (documents docs0 ops))
          \/ length (replacements V (d, h) o) <= k
             /\ (exists out s', step V (d, h) o = Ok (out, s'))
             /\ env_shows V x' (documents docs0 (ops ++ [o]))).
Proof. exact crash_keeps. Qed.
Print Assumptions C37_update_partial.

(** Creating where there is no index: at every point either there is still nothing to open,
    or the finished index opens. *)
Theorem C37_create :
  forall V docs g d k, f_meta d = None ->
    let ws := create_replacements V docs g d in
    load (final d (firstn k ws)) = Err \/ load (final d (firstn k ws)) = load (final d ws).
Proof. intros V docs g d k H. apply create_crash. exact H. Qed.
Print Assumptions C37_create.

(** The cases meet the hypotheses: three documents, then an append of one, of seven file
    replacements; the first three replacements leave the documents as they were. *)
Definition cr_s := st ex_docs3 (cfg 2 0 2 0) [].
Definition cr_d := fst (snd cr_s).
Definition cr_h := snd (snd cr_s).
Definition cr_new : list (list (list f32)) := [[tok 30]].
Definition cr_op := OAppend cr_new (cfg 2 0 2 0).
Lemma cr_reached : reached ex_env 8 ex_docs3 (cfg 2 0 2 0) [] (fst cr_s) cr_d cr_h.
Proof.
  split; [lia|]. split; [exact ex_kmeans|]. split; [repeat constructor|]. split; [constructor|]. split; [exact I|].
  unfold cr_d, cr_h, cr_s. apply run_st. vm_compute. reflexivity.
Qed.
Lemma cr_open : load cr_d = Ok (opened cr_d).
Proof. apply load_opened. vm_compute. reflexivity. Qed.
Example C37_example :
  reached ex_env 8 ex_docs3 (cfg 2 0 2 0) [] (fst cr_s) cr_d cr_h
  /\ op_ok 8 cr_op /\ disciplined true false ([] ++ [cr_op]) /\ load cr_d = Ok (opened cr_d)
  /\ adds_in_place cr_d (length (documents ex_docs3 [])) cr_op
  /\ length (replacements ex_env (cr_d, cr_h) cr_op) = 7
  /\ map (fun k => x_doc_lengths (opened (stopped ex_env (cr_d, cr_h) cr_op k))) [0; 1; 2; 3; 7]
     = [[2; 1; 1]; [2; 1; 1]; [2; 1; 1]; [2; 1; 1; 1]; [2; 1; 1; 1]]
  /\ map (fun k => is_ok (load (final empty_disk (firstn k (create_replacements ex_env ex_docs3 (cfg 2 9 2 0) empty_disk)))))
       [0; 10; 16; 17; 18; 19]
     = [false; false; false; true; true; true].
Proof.
  split; [exact cr_reached|]. split; [split; [discriminate|repeat constructor]|]. split; [split; reflexivity|].
  split; [exact cr_open|]. split; [exact I|]. split; [vm_compute; reflexivity|]. split; vm_compute; reflexivity.
Qed.

(** A last chunk of 2000 documents: at every point of the append the index shows exactly the
    documents before or exactly the documents after. *)
Definition full_docs : list (list (list f32)) := repeat [tok 10] 2000.
Definition full_s := st full_docs (cfg 5000 0 2 0) [].
Definition full_d := fst (snd full_s).
Example C37_full_chunk_example :
  reached ex_env 8 full_docs (cfg 5000 0 2 0) [] (fst full_s) full_d (snd (snd full_s))
  /\ last_chunk_full full_d
  /\ map (fun k => length (x_doc_lengths (opened (stopped ex_env (full_d, snd (snd full_s)) cr_op k)))) [0; 3; 6; 7]
     = [2000; 2000; 2000; 2001].
Proof.
  split.
  { split; [lia|]. split; [exact ex_kmeans|]. split.
    - unfold dim_ok, full_docs. apply Forall_forall. intros r Hr. apply in_concat in Hr. destruct Hr as (y & Hy & Hr).
      apply repeat_spec in Hy. subst y. destruct Hr as [<-|[]]. reflexivity.
    - split; [constructor|]. split; [exact I|].
      unfold full_d, full_s. apply run_st. vm_compute. reflexivity. }
  split.
  - intros m c Hm Hc.
    assert (Hx : option_map (fun m => option_map (fun c => last_chunk_limit <=? m_ndocs c) (f_cmeta full_d (num_chunks m - 1))) (f_meta full_d)
                 = Some (Some true)) by (vm_compute; reflexivity).
    rewrite Hm in Hx. cbn [option_map] in Hx. rewrite Hc in Hx. cbn [option_map] in Hx. injection Hx as Hx.
    apply Nat.leb_le. exact Hx.
  - vm_compute. reflexivity.
Qed.

(** Stopping after the new document lengths are written and before the counts are: re-opening
    shows neither the state before nor the state after; the next append then returns an id
    under which another document, the one of the interrupted append, is read. *)
Theorem C37_interrupted_append_refuted :
  exists V D docs0 g0 outs d h new g k x' new2 d2 x2 e,
    reached V D docs0 g0 [] outs d h /\ op_ok D (OAppend new g) /\ op_ok D (OAppend new2 g)
    /\ load (stopped V (d, h) (OAppend new g) k) = Ok x'
    /\ ~ env_shows V x' docs0 /\ ~ env_shows V x' (docs0 ++ new)
    /\ step V (stopped V (d, h) (OAppend new g) k, h) (OAppend new2 g)
       = Ok ([Z.of_nat (length docs0)], d2)
    /\ load (fst d2) = Ok x2
    /\ embeddings V x2 (length docs0) = Ok e /\ map (@length _) new2 = [2] /\ length e = 1
    /\ (exists y, load (fst (snd (stepped (d, h) (OAppend new g)))) = Ok y /\ embeddings V y (length docs0) = Ok e).
Proof.
  pose (dk := stopped ex_env (cr_d, cr_h) cr_op 3).
  pose (o2 := OAppend [[tok 40; tok 40]] (cfg 2 0 2 0)).
  exists ex_env, 8, ex_docs3, (cfg 2 0 2 0), (fst cr_s), cr_d, cr_h, cr_new, (cfg 2 0 2 0), 3,
    (opened dk), [[tok 40; tok 40]], (snd (stepped (dk, cr_h) o2)),
    (opened (fst (snd (stepped (dk, cr_h) o2)))), [tok 27].
  split; [exact cr_reached|]. split; [split; [discriminate|repeat constructor]|].
  split; [split; [discriminate|repeat constructor]|].
  split; [apply load_opened; vm_compute; reflexivity|].
  split; [intros (_ & F & _); vm_compute in F; discriminate|].
  split; [intros (F & _); vm_compute in F; discriminate|].
  split.
  { fold cr_op. fold dk. fold o2. rewrite (step_stepped dk cr_h o2) by (vm_compute; reflexivity).
    rewrite <- surjective_pairing. f_equal. }
  split; [apply load_opened; vm_compute; reflexivity|].
  split; [vm_compute; reflexivity|]. split; [reflexivity|]. split; [reflexivity|].
  eexists. split; [apply load_opened; vm_compute; reflexivity|]. vm_compute. reflexivity.
Qed.
Print Assumptions C37_interrupted_append_refuted.

(** Stopping while buffered documents are moved into the index: documents that had been
    added by an earlier, finished update are gone, from the index and from the buffer. *)
Definition fl_s := st ex_docs3 (cfg 2 0 2 0) [OUpdate [[tok 30]] (cfg 2 0 5 0)].
Theorem C37_interrupted_flush_refuted :
  exists V D docs0 g0 ops outs d h o k x',
    reached V D docs0 g0 ops outs d h /\ op_ok D o /\ disciplined true false (ops ++ [o])
    /\ is_ok (step V (d, h) o) = true
    /\ length (documents docs0 ops) = 4
    /\ load (stopped V (d, h) o k) = Ok x'
    /\ num_documents (x_meta x') = 3 /\ length (x_doc_lengths x') = 3
    /\ load_buffer (stopped V (d, h) o k) = [].
Proof.
  pose (o := OUpdate [[tok 40]; [tok 50]] (cfg 2 0 3 0)).
  exists ex_env, 8, ex_docs3, (cfg 2 0 2 0), [OUpdate [[tok 30]] (cfg 2 0 5 0)], (fst fl_s),
    (fst (snd fl_s)), (snd (snd fl_s)), o, 20, (opened (stopped ex_env (fst (snd fl_s), snd (snd fl_s)) o 20)).
  split.
  { split; [lia|]. split; [exact ex_kmeans|]. split; [repeat constructor|].
    split; [repeat (constructor; [split; [discriminate|repeat constructor]|]); constructor|].
    split; [repeat split|]. unfold fl_s. apply run_st. vm_compute. reflexivity. }
  split; [split; [discriminate|repeat constructor]|]. split; [repeat split|].
  split; [vm_compute; reflexivity|]. split; [reflexivity|].
  split; [apply load_opened; vm_compute; reflexivity|].
  split; [vm_compute; reflexivity|]. split; vm_compute; reflexivity.
Qed.
Print Assumptions C37_interrupted_flush_refuted.

(** Stopping after the first replacement of an update that rebuilds the index (new
    centroids, old codes): the stored documents read differently. *)
Definition rb_s := st ex_docs3 (cfg 2 9 2 0) [].
Theorem C37_interrupted_rebuild_refuted :
  exists V D docs0 g0 outs d h o x x',
    reached V D docs0 g0 [] outs d h /\ op_ok D o /\ is_ok (step V (d, h) o) = true
    /\ load d = Ok x /\ load (stopped V (d, h) o 1) = Ok x'
    /\ num_documents (x_meta x') = num_documents (x_meta x)
    /\ embeddings V x' 0 <> embeddings V x 0.
Proof.
  pose (o := OUpdate [[tok 40]; [tok 50]] (cfg 2 9 3 7)).
  exists ex_env, 8, ex_docs3, (cfg 2 9 2 0), (fst rb_s), (fst (snd rb_s)), (snd (snd rb_s)), o,
    (opened (fst (snd rb_s))), (opened (stopped ex_env (fst (snd rb_s), snd (snd rb_s)) o 1)).
  split.
  { split; [lia|]. split; [exact ex_kmeans|]. split; [repeat constructor|]. split; [constructor|]. split; [exact I|].
    unfold rb_s. apply run_st. vm_compute. reflexivity. }
  split; [split; [discriminate|repeat constructor]|]. split; [vm_compute; reflexivity|].
  split; [apply load_opened; vm_compute; reflexivity|]. split; [apply load_opened; vm_compute; reflexivity|].
  split; [vm_compute; reflexivity|]. vm_compute. discriminate.
Qed.
Print Assumptions C37_interrupted_rebuild_refuted.

(** Stopping inside a deletion (whose files are truncated, then written): the index no
    longer opens. *)
Theorem C37_interrupted_delete_refuted :
  exists V D docs0 g0 outs d h ids k,
    reached V D docs0 g0 [] outs d h /\ op_ok D (ODelete ids)
    /\ is_ok (load d) = true /\ is_ok (step V (d, h) (ODelete ids)) = true
    /\ load (stopped V (d, h) (ODelete ids) k) = Err.
Proof.
  exists ex_env, 8, ex_docs3, (cfg 2 0 2 0), (fst cr_s), cr_d, cr_h, [0%Z], 1.
  split; [exact cr_reached|]. split; [repeat constructor; lia|]. split; [vm_compute; reflexivity|].
  split; vm_compute; reflexivity.
Qed.
Print Assumptions C37_interrupted_delete_refuted.

(** Creating over an existing index is not covered by [C37_create]: stopping inside shows the
    old documents through the new centroids. *)
Theorem C37_interrupted_recreate_refuted :
  exists V D docs0 g0 outs d h docs1 g1 x x',
    reached V D docs0 g0 [] outs d h /\ dim_ok D docs1
    /\ load d = Ok x /\ load (final d (firstn 1 (create_replacements V docs1 g1 d))) = Ok x'
    /\ embeddings V x' 0 <> embeddings V x 0
    /\ load (final d (create_replacements V docs1 g1 d)) <> Ok x'.
Proof.
  exists ex_env, 8, ex_docs3, (cfg 2 0 2 0), (fst cr_s), cr_d, cr_h, [[tok 50]], (cfg 2 0 2 7),
    (opened cr_d), (opened (final cr_d (firstn 1 (create_replacements ex_env [[tok 50]] (cfg 2 0 2 7) cr_d)))).
  split; [exact cr_reached|]. split; [repeat constructor|].
  split; [exact cr_open|]. split; [apply load_opened; vm_compute; reflexivity|].
  split; [vm_compute; discriminate|]. vm_compute. discriminate.
Qed.
Print Assumptions C37_interrupted_recreate_refuted.
