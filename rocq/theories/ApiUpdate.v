(** Background writers of the HTTP API (handlers/documents.rs): collecting queued requests into
    batches, and processing a batch on the index and its metadata database. *)
From Verif Require Import Base F32 IndexModel IndexSpec.
From Verif Require Import Text SqlModel MetaModel MetaQuery SyncModel.
Open Scope nat_scope.

(** ** The batch worker (documents.rs 323-380)

    The channel is a queue; senders and clock are the environment.  One event at a time. *)
Section WORKER.
  Variables Emb Meta : Type.
  (** [max_batch_documents()] *)
  Variable max : nat.
  (** documents.rs 224-228 [BatchItem] *)
  Definition item : Type := list Emb * list Meta.
  Inductive phase :=
  | Waiting                                            (* for the first item *)
  | Collecting (embs : list Emb) (metas : list Meta) (doc_count : nat)
  | Stopped.
  Record worker := { w_queue : list item; w_closed : bool; w_phase : phase; w_done : list (list Emb * list Meta) }.
  (** A request is queued; all senders are dropped; the worker receives, or finds that its batch is
      full; the deadline of the batch is over. *)
  Inductive event := Queue (i : item) | Close | Work | Deadline.
  Definition start : worker := {| w_queue := []; w_closed := false; w_phase := Waiting; w_done := [] |}.
  (** documents.rs 367-369, 376-378: a batch without embeddings is not processed *)
  Definition hand_over (w : worker) (embs : list Emb) (metas : list Meta) (p : phase) : worker :=
    {| w_queue := w_queue w; w_closed := w_closed w; w_phase := p;
       w_done := match embs with [] => w_done w | _ => w_done w ++ [(embs, metas)] end |}.
  Definition wstep (w : worker) (e : event) : option worker :=
    match e with
    | Queue i =>
      if w_closed w then None
      else Some {| w_queue := w_queue w ++ [i]; w_closed := false; w_phase := w_phase w; w_done := w_done w |}
    | Close => Some {| w_queue := w_queue w; w_closed := true; w_phase := w_phase w; w_done := w_done w |}
    | Deadline =>
      match w_phase w with
      | Collecting embs metas n => if n <? max then Some (hand_over w embs metas Waiting) else None
      | _ => None
      end
    | Work =>
      match w_phase w, w_queue w with
      | Waiting, (embs, metas) :: q =>
        Some {| w_queue := q; w_closed := w_closed w; w_phase := Collecting embs metas (length embs); w_done := w_done w |}
      | Waiting, [] => if w_closed w then Some {| w_queue := []; w_closed := true; w_phase := Stopped; w_done := w_done w |} else None
      | Collecting embs metas n, q =>
        if n <? max then
          match q with
          | (embs', metas') :: q =>
            Some {| w_queue := q; w_closed := w_closed w;
                    w_phase := Collecting (embs ++ embs') (metas ++ metas') (n + length embs'); w_done := w_done w |}
          | [] => if w_closed w then Some (hand_over w embs metas Stopped) else None
          end
        else Some (hand_over w embs metas Waiting)
      | Stopped, _ => None
      end
    end.
  Fixpoint wrun (w : worker) (es : list event) : option worker :=
    match es with [] => Some w | e :: es => match wstep w e with Some w => wrun w es | None => None end end.
  (** What has been queued by the events *)
  Definition queued (es : list event) : list item := flat_map (fun e => match e with Queue i => [i] | _ => [] end) es.
End WORKER.
Arguments Waiting {Emb Meta}. Arguments Collecting {Emb Meta}. Arguments Stopped {Emb Meta}.
Arguments Queue {Emb Meta}. Arguments Close {Emb Meta}. Arguments Work {Emb Meta}. Arguments Deadline {Emb Meta}.
Arguments w_queue {Emb Meta}. Arguments w_closed {Emb Meta}. Arguments w_phase {Emb Meta}. Arguments w_done {Emb Meta}.
Arguments start {Emb Meta}. Arguments hand_over {Emb Meta}. Arguments wstep {Emb Meta}. Arguments wrun {Emb Meta}. Arguments queued {Emb Meta}.

(** ** Processing *)

(** The directory of an index: the index proper once it has been created, with the handle of the
    last call, and the database. *)
Record server := { sv_index : option (disk * IndexModel.metadata); sv_store : store }.
Definition no_index : server := {| sv_index := None; sv_store := NoDb |}.
(** [(a as i64..b as i64).collect()] *)
Definition id_range (a b : nat) : list Z := map Z.of_nat (seq a (b - a)).

Section PROCESS.
  Variable V : env.
  Variable U : unicode.
  Variable E : engine.
  Variable reg : option (text -> bool).

  (** [Metadata::load_from_path(path)?.num_documents] *)
  Definition index_count (i : disk * IndexModel.metadata) : res nat :=
    bind (load_metadata (fst i)) (fun md => Ok (num_documents md)).

  (** documents.rs 110-192 [repair_index_db_sync]: was something repaired?  [Err] and [Panic]: the
      repair failed (the caller then gives up; the directory is not described any more). *)
  Definition repair (s : server) : res (bool * server) :=
    match sv_index s with
    | None => Ok (false, s)
    | Some i =>
      if negb (db_exists (sv_store s)) then Ok (false, s)
      else bind (index_count i) (fun n => bind (count (sv_store s)) (fun k =>
        if n =? k then Ok (false, s)
        else bind (if n <? k then
                     let (m, r) := MetaModel.delete (sv_store s) (id_range n k) in
                     bind r (fun _ => Ok (i, m))
                   else
                     bind (step V i OReload) (fun r => bind (step V (snd r) (ODelete (id_range k n))) (fun r =>
                     Ok (snd r, sv_store s)))) (fun s' =>
             bind (index_count (fst s')) (fun n' => bind (count (snd s')) (fun k' =>
             if n' =? k' then Ok (true, {| sv_index := Some (fst s'); sv_store := snd s' |}) else Err)))))
    end.

  (** documents.rs 633-656 [evict_oldest_documents]; the count is that of the handle *)
  Definition evict (s : synced) (max_documents : nat) : res (res nat * synced) :=
    let n := num_documents (snd (fst s)) in
    if n <=? max_documents then Ok (Ok 0, s)
    else bind (sexec V E s (SDelete (id_range 0 (n - max_documents)))) (fun r =>
         match fst r with
         | Ok out => bind (step V (fst (snd r)) OReload) (fun r' => Ok (Ok (Z.to_nat (hd 0%Z out)), (snd r', snd (snd r))))
         | Err => Ok (Err, snd r)
         | Panic => Panic
         end).
  (** documents.rs 509-524: a failed eviction counts as none *)
  Definition evict_if (s : synced) (limit : option nat) : res (nat * synced) :=
    match limit with
    | None => Ok (0, s)
    | Some k => bind (evict s k) (fun r => Ok (match fst r with Ok n => n | _ => 0 end, snd r))
    end.
  (** [MmapIndex::update_or_create]: ids and handle *)
  Definition update_or_create (i : option (disk * IndexModel.metadata)) (docs : list doc) (g : config)
    : res (list Z * (disk * IndexModel.metadata)) :=
    match i with
    | Some i => bind (step V i OReload) (fun r => step V (snd r) (OUpdate docs g))
    | None => bind (run V docs g []) (fun r => Ok (map Z.of_nat (seq 0 (length docs)), snd r))
    end.
  (** documents.rs 392-533 [process_batch], the work in the blocking thread.  The outer failure:
      the repair or the index failed (nothing is claimed then).  The inner result: the number of
      evicted documents, or an error because the metadata were refused.  The full-text tables are
      left out (a failure there is ignored). *)
  Definition process_batch (s : server) (docs : list doc) (md : list json) (g : config) (limit : option nat)
    : res (res nat * server) :=
    bind (repair s) (fun r => let s := snd r in
    bind (update_or_create (sv_index s) docs g) (fun r => let '(ids, i) := r in
    let (m, mr) := add_or_create_rows E (sv_store s) (Some md) ids in
    match mr with
    | Ok _ =>
      bind (evict_if (i, m) limit) (fun r =>
      bind (step V (fst (snd r)) OReload) (fun r' =>
      Ok (Ok (fst r), {| sv_index := Some (snd r'); sv_store := snd (snd r) |})))
    | Err =>
      bind (step V i (ODelete ids)) (fun r => Ok (Err, {| sv_index := Some (snd r); sv_store := m |}))
    | Panic => Panic
    end)).

  (** documents.rs 865-905: one condition of a delete batch; failures are skipped *)
  Definition delete_one (s : synced) (c : text * list json) : res (nat * synced) :=
    match where_condition U E reg (snd s) (fst c) (snd c) with
    | Err => Ok (0, s)
    | Panic => Panic
    | Ok [] => Ok (0, s)
    | Ok ids => bind (sexec V E s (SDelete ids)) (fun r =>
        match fst r with Ok out => Ok (Z.to_nat (hd 0%Z out), snd r) | Err => Ok (0, snd r) | Panic => Panic end)
    end.
  Fixpoint delete_each (s : synced) (cs : list (text * list json)) : res (nat * synced) :=
    match cs with
    | [] => Ok (0, s)
    | c :: cs => bind (delete_one s c) (fun r => bind (delete_each (snd r) cs) (fun r' => Ok (fst r + fst r', snd r')))
    end.
  (** documents.rs 825-922 [process_delete_batch] *)
  Definition process_delete_batch (s : server) (cs : list (text * list json)) : res (nat * server) :=
    bind (repair s) (fun r => let s := snd r in
    match sv_index s with
    | None => Err
    | Some i =>
      bind (step V i OReload) (fun r =>
      bind (delete_each (snd r, sv_store s) cs) (fun r =>
      bind (step V (fst (snd r)) OReload) (fun r' =>
      Ok (fst r, {| sv_index := Some (snd r'); sv_store := snd (snd r) |}))))
    end).

  (** documents.rs 1205-1262: the background task of [add_documents].  The inner result: accepted,
      or an error, either because the counts differ (nothing is changed) or because the metadata
      were refused. *)
  Definition add_task (s : server) (docs : list doc) (md : list json) (g : config) (limit : option nat)
    : res (res nat * server) :=
    match sv_index s with
    | None => Err
    | Some i =>
      bind (if db_exists (sv_store s) then bind (index_count i) (fun n => bind (count (sv_store s)) (fun k => Ok (n =? k))) else Ok true) (fun same =>
      if negb same then Ok (Err, s)
      else
      bind (step V i OReload) (fun r =>
      bind (sexec V E (snd r, sv_store s) (SAdd docs g (Some md))) (fun r =>
      match fst r with
      | Ok _ =>
        bind (evict_if (snd r) limit) (fun r =>
        bind (step V (fst (snd r)) OReload) (fun r' =>
        Ok (Ok (fst r), {| sv_index := Some (snd r'); sv_store := snd (snd r) |})))
      | Err => Ok (Err, {| sv_index := Some (fst (snd r)); sv_store := snd (snd r) |})
      | Panic => Panic
      end)))
    end.

  (** The writers of one index, one after the other *)
  Inductive api_op :=
  | AUpdate (docs : list doc) (md : list json) (g : config) (limit : option nat)
  | AAdd (docs : list doc) (md : list json) (g : config) (limit : option nat)
  | ADelete (cs : list (text * list json)).
  Definition api_step (s : server) (o : api_op) : res (res nat * server) :=
    match o with
    | AUpdate docs md g limit => process_batch s docs md g limit
    | AAdd docs md g limit => add_task s docs md g limit
    | ADelete cs => bind (process_delete_batch s cs) (fun r => Ok (Ok (fst r), snd r))
    end.
  Fixpoint api_run (s : server) (os : list api_op) : res (list (res nat) * server) :=
    match os with
    | [] => Ok ([], s)
    | o :: os => bind (api_step s o) (fun r => bind (api_run (snd r) os) (fun r' => Ok (fst r :: fst r', snd r')))
    end.
End PROCESS.
