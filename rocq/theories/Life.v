(** Model of the life of one index in the server: the loaded index (a slot that is swapped), the
    cached configuration, the queue of updates with its worker, and the requests that create,
    fill, read, configure and delete it, as threads (next-plaid-api/src/state.rs,
    handlers/documents.rs).
    One move is one access to the shared state, to the index directory, or to a lock; changing the
    files of the index is one move.  Failing file operations, a full queue, repairs (C41) and
    Windows' unloading before an update are left out.  All requests use one name. *)
From Verif Require Import Base.
Open Scope nat_scope.

(** documents by number; the configuration is max_documents *)
Definition docs := list nat.
Definition config := option nat.
(** documents.rs 633-656 [evict_oldest_documents] (C40) *)
Definition evict (c : config) (l : docs) : docs := match c with Some n => skipn (length l - n) l | None => l end.

(** A change to the documents. *)
Inductive change := CAdd (c : config) (b : docs) | CDelete (f : nat -> bool) | CNone.
Definition apply (x : change) (l : docs) : docs :=
  match x with CAdd c b => evict c (l ++ b) | CDelete f => filter (fun d => negb (f d)) l | CNone => l end.

Inductive thread := H (k : nat) | W (q : nat).   (** a request; the worker of a queue *)
Definition thread_eqb (a b : thread) : bool := match a, b with H i, H j | W i, W j => i =? j | _, _ => false end.
Inductive request :=
| Read                       (** search.rs, get_index_info: state.rs 379-418 *)
| Info                       (** max_documents of get_index_info, 1053: state.rs 462-484 *)
| Create (c : config)        (** 975-1023 [create_index] *)
| Update (b : docs)          (** 1509-1600 [update_index]; the worker does the rest *)
| Delete (f : nat -> bool)   (** 830-922 [process_delete_batch] for the documents that [f] holds of *)
| Add (b : docs)             (** 1118-1330 [add_documents] with its background task *)
| Configure (c : config)     (** 1618-1665 [update_index_config] *)
| Drop.                      (** 1420-1490 [delete_index] *)
Inductive answer :=
| Documents (l : docs) | Settings (c : option config) | Accepted | Done | NotFound | AlreadyExists | Failed.
(** Where a thread is.  Comments name the next access. *)
Inductive phase :=
| Start
(* get_index_slot, state.rs 379-411 *)
| RWait                           (** wait for the loading lock *)
| RIn                             (** look again *)
| RMiss                           (** 359-367: load the files *)
| RLoaded (l : docs)              (** 369-370: insert a slot *)
| RPut                            (** 406-410: look it up *)
| RGot (s : nat)                  (** 416-417: slot.load *)
(* get_index_config, state.rs 462-484, inside a request or a worker *)
| CLook | CRead | CFill (c : config) | CHave (c : config)
(* locks taken, then the files *)
| ALock                           (** add_documents waits for the lock of the name *)
| Locked                          (** the lock of the request is held *)
| Write (c : config)              (** about to change the files *)
| Written (c : config)            (** about to load them *)
| Loaded (c : config) (l : docs)  (** about to publish the loaded index *)
| NoSlot (c : config) (l : docs)  (** reload_index, state.rs 454-457: has seen no slot *)
| NewConfig (c : config)          (** config.json is written, about to write the cache *)
| UQueue                          (** update_index has seen config.json *)
| USend (q : nat)                 (** update_index has the sender of queue q *)
| D1 | D2 | D3 | D4               (** delete_index: unqueue, unload, forget the configuration, remove the files *)
(* the worker *)
| Batch                           (** has taken a batch, waits for the lock of the path *)
| Answered (a : answer).

Record world := {
  w_config : option config;        (** config.json *)
  w_docs : option docs;            (** the files of the index, from metadata.json on *)
  w_cached : option config;        (** index_configs *)
  w_current : option nat;          (** the slot in the map of indices *)
  w_slots : nat -> docs;           (** what each slot holds *)
  w_next : nat;
  w_queue : option nat;            (** the queue in BATCH_QUEUES *)
  w_items : nat -> list docs;      (** what is in each queue *)
  w_queues : nat;
  w_name : option thread;          (** who holds the lock of the name *)
  w_path : option thread;          (** the lock of the path *)
  w_loading : option thread;       (** the loading lock *)
  w_phase : thread -> phase;
  w_batch : nat -> docs;           (** the batch that a worker works on *)
  w_versions : list (option docs); (** what the files have held, newest last; not part of the code *)
  w_published : list change;       (** the changes whose result was published, newest last; not part of the code *)
  w_configured : list config;      (** the configurations that were cached by [Configure], newest last; not part of the code *)
  w_accepted : list docs           (** the updates that were accepted, newest last; not part of the code *)
}.

Definition upd {A} (f : nat -> A) (k : nat) (a : A) : nat -> A := fun i => if i =? k then a else f i.
Definition updt {A} (f : thread -> A) (k : thread) (a : A) : thread -> A := fun i => if thread_eqb i k then a else f i.
Definition set_phase (w : world) (t : thread) (p : phase) : world :=
  {| w_config := w_config w; w_docs := w_docs w; w_cached := w_cached w; w_current := w_current w; w_slots := w_slots w; w_next := w_next w;
     w_queue := w_queue w; w_items := w_items w; w_queues := w_queues w; w_name := w_name w; w_path := w_path w; w_loading := w_loading w;
     w_phase := updt (w_phase w) t p; w_batch := w_batch w; w_versions := w_versions w; w_published := w_published w; w_configured := w_configured w; w_accepted := w_accepted w |}.
Definition set_files (w : world) (c : option config) (d : option docs) : world :=
  {| w_config := c; w_docs := d; w_cached := w_cached w; w_current := w_current w; w_slots := w_slots w; w_next := w_next w;
     w_queue := w_queue w; w_items := w_items w; w_queues := w_queues w; w_name := w_name w; w_path := w_path w; w_loading := w_loading w;
     w_phase := w_phase w; w_batch := w_batch w; w_versions := w_versions w ++ [d]; w_published := w_published w; w_configured := w_configured w; w_accepted := w_accepted w |}.
Definition set_cached (w : world) (c : option config) : world :=
  {| w_config := w_config w; w_docs := w_docs w; w_cached := c; w_current := w_current w; w_slots := w_slots w; w_next := w_next w;
     w_queue := w_queue w; w_items := w_items w; w_queues := w_queues w; w_name := w_name w; w_path := w_path w; w_loading := w_loading w;
     w_phase := w_phase w; w_batch := w_batch w; w_versions := w_versions w; w_published := w_published w; w_configured := w_configured w; w_accepted := w_accepted w |}.
Definition set_slots (w : world) (cur : option nat) (s : nat -> docs) (n : nat) : world :=
  {| w_config := w_config w; w_docs := w_docs w; w_cached := w_cached w; w_current := cur; w_slots := s; w_next := n;
     w_queue := w_queue w; w_items := w_items w; w_queues := w_queues w; w_name := w_name w; w_path := w_path w; w_loading := w_loading w;
     w_phase := w_phase w; w_batch := w_batch w; w_versions := w_versions w; w_published := w_published w; w_configured := w_configured w; w_accepted := w_accepted w |}.
Definition set_queues (w : world) (q : option nat) (i : nat -> list docs) (n : nat) : world :=
  {| w_config := w_config w; w_docs := w_docs w; w_cached := w_cached w; w_current := w_current w; w_slots := w_slots w; w_next := w_next w;
     w_queue := q; w_items := i; w_queues := n; w_name := w_name w; w_path := w_path w; w_loading := w_loading w;
     w_phase := w_phase w; w_batch := w_batch w; w_versions := w_versions w; w_published := w_published w; w_configured := w_configured w; w_accepted := w_accepted w |}.
Definition set_batch (w : world) (b : nat -> docs) : world :=
  {| w_config := w_config w; w_docs := w_docs w; w_cached := w_cached w; w_current := w_current w; w_slots := w_slots w; w_next := w_next w;
     w_queue := w_queue w; w_items := w_items w; w_queues := w_queues w; w_name := w_name w; w_path := w_path w; w_loading := w_loading w;
     w_phase := w_phase w; w_batch := b; w_versions := w_versions w; w_published := w_published w; w_configured := w_configured w; w_accepted := w_accepted w |}.
Definition set_locks (w : world) (n p l : option thread) : world :=
  {| w_config := w_config w; w_docs := w_docs w; w_cached := w_cached w; w_current := w_current w; w_slots := w_slots w; w_next := w_next w;
     w_queue := w_queue w; w_items := w_items w; w_queues := w_queues w; w_name := n; w_path := p; w_loading := l;
     w_phase := w_phase w; w_batch := w_batch w; w_versions := w_versions w; w_published := w_published w; w_configured := w_configured w; w_accepted := w_accepted w |}.
Definition set_ghosts (w : world) (p : list change) (c : list config) (a : list docs) : world :=
  {| w_config := w_config w; w_docs := w_docs w; w_cached := w_cached w; w_current := w_current w; w_slots := w_slots w; w_next := w_next w;
     w_queue := w_queue w; w_items := w_items w; w_queues := w_queues w; w_name := w_name w; w_path := w_path w; w_loading := w_loading w;
     w_phase := w_phase w; w_batch := w_batch w; w_versions := w_versions w; w_published := p; w_configured := c; w_accepted := a |}.
(** The guards go when a request, or the processing of a batch, ends. *)
Definition unlock (w : world) (t : thread) : world :=
  let free (o : option thread) := match o with Some u => if thread_eqb u t then None else o | None => None end in
  set_locks w (free (w_name w)) (free (w_path w)) (free (w_loading w)).
(** a worker goes back to its queue *)
Definition finish (w : world) (t : thread) (a : answer) : world :=
  set_phase (unlock w t) t (match t with H _ => Answered a | W _ => Start end).
(** state.rs 421-430 [register_index]; the same for 446-452 when there is a slot *)
Definition store_slot (w : world) (s : nat) (l : docs) : world := set_slots w (w_current w) (upd (w_slots w) s l) (w_next w).
Definition insert_slot (w : world) (l : docs) : world := set_slots w (Some (w_next w)) (upd (w_slots w) (w_next w) l) (S (w_next w)).
Definition publish (w : world) (x : change) : world := set_ghosts w (w_published w ++ [x]) (w_configured w) (w_accepted w).

Section STEP.
  Variable requests : nat -> request.
  (** What a thread writes when it has the configuration [c]. *)
  Definition change_of (w : world) (t : thread) (c : config) : change :=
    match t with
    | W q => CAdd c (w_batch w q)
    | H k => match requests k with Add b => CAdd c b | Delete f => CDelete f | _ => CNone end
    end.
  (** The next move of a thread, [None] when it has none or waits.  [n] is how many items a
      worker takes into its batch. *)
  Definition step (t : thread) (n : nat) (w : world) : option world :=
    let job := match t with H k => Some (requests k) | W _ => None end in
    match w_phase w t with
    | Answered _ => None
    | Start =>
      match t, job with
      | W q, _ =>                      (* 333-379 [batch_worker]: the first [n] items *)
        if (1 <=? n) && (n <=? length (w_items w q))
        then Some (set_phase (set_batch (set_queues w (w_queue w) (upd (w_items w) q (skipn n (w_items w q))) (w_queues w))
                                        (upd (w_batch w) q (concat (firstn n (w_items w q))))) t Batch)
        else None
      | H k, Some Read | H k, Some (Add _) =>
        match w_current w with Some s => Some (set_phase w t (RGot s)) | None => Some (set_phase w t RWait) end
      | H k, Some Info => Some (set_phase w t CLook)
      | H k, Some (Update _) =>        (* 1523-1526, then 289-313 [get_or_create_batch_queue] *)
        match w_config w with
        | None => Some (finish w t NotFound)
        | Some _ => Some (set_phase w t UQueue)
        end
      | H k, Some (Delete _) =>        (* 843-844 *)
        match w_path w with None => Some (set_phase (set_locks w (w_name w) (Some t) (w_loading w)) t Locked) | Some _ => None end
      | H k, Some (Create _) | H k, Some (Configure _) | H k, Some Drop =>
        match w_name w with None => Some (set_phase (set_locks w (Some t) (w_path w) (w_loading w)) t Locked) | Some _ => None end
      | H _, None => None
      end
    (* ---- get_index_slot ---- *)
    | RWait => match w_loading w with None => Some (set_phase (set_locks w (w_name w) (w_path w) (Some t)) t RIn) | Some _ => None end
    | RIn => match w_current w with Some s => Some (set_phase (unlock w t) t (RGot s)) | None => Some (set_phase w t RMiss) end
    | RMiss => match w_docs w with None => Some (finish w t NotFound) | Some l => Some (set_phase w t (RLoaded l)) end
    | RLoaded l => Some (set_phase (insert_slot w l) t RPut)
    | RPut => match w_current w with Some s => Some (set_phase (unlock w t) t (RGot s)) | None => Some (finish w t NotFound) end
    | RGot s => match job with Some (Add _) => Some (set_phase w t ALock) | _ => Some (finish w t (Documents (w_slots w s))) end
    | ALock => match w_name w with None => Some (set_phase (set_locks w (Some t) (w_path w) (w_loading w)) t Locked) | Some _ => None end
    (* ---- get_index_config ---- *)
    | CLook => match w_cached w with Some c => Some (set_phase w t (CHave c)) | None => Some (set_phase w t CRead) end
    | CRead =>
      match w_config w with
      | Some c => Some (set_phase w t (CFill c))
      | None => match job with
                | Some Info => Some (finish w t (Settings None))
                | Some (Configure _) => Some (finish w t NotFound)
                | _ => Some (finish w t Failed)
                end
      end
    | CFill c => Some (set_phase (set_cached w (Some c)) t (CHave c))
    | CHave c =>
      match job with
      | Some Info => Some (finish w t (Settings (Some c)))
      | Some (Configure c') =>         (* 487-493: File::create fails when the directory is gone *)
        match w_config w, w_docs w with
        | None, None => Some (finish w t Failed)
        | _, _ => Some (set_phase (set_files w (Some c') (w_docs w)) t (NewConfig c'))
        end
      | _ => Some (set_phase w t (Write c))
      end
    | NewConfig c =>                   (* 496-497 *)
      let w1 := set_cached w (Some c) in
      let w2 := match job with Some (Configure _) => set_ghosts w1 (w_published w1) (w_configured w1 ++ [c]) (w_accepted w1) | _ => w1 end in
      Some (finish w2 t Done)
    (* ---- a batch ---- *)
    | Batch => match w_path w with None => Some (set_phase (set_locks w (w_name w) (Some t) (w_loading w)) t CLook) | Some _ => None end
    (* ---- with the lock ---- *)
    | Locked =>
      match job with
      | Some (Create c) =>             (* 992-1007 *)
        match w_config w, w_docs w with
        | None, None => Some (set_phase (set_files w (Some c) None) t (NewConfig c))
        | _, _ => Some (finish w t AlreadyExists)
        end
      | Some (Configure _) => Some (set_phase w t CLook)
      | Some (Delete _) =>             (* 853-854: load; the deletion of all conditions *)
        match w_docs w with None => Some (finish w t Failed) | Some _ => Some (set_phase w t (Write None)) end
      | Some (Add _) =>                (* 1228 *)
        match w_docs w with None => Some (finish w t Failed) | Some _ => Some (set_phase w t CLook) end
      | Some Drop => Some (set_phase w t D1)
      | _ => None
      end
    | Write c =>
      match t, w_docs w with
      | H _, None => Some (finish w t Failed)
      | W _, None => Some (set_phase (set_files w (w_config w) (Some (apply (change_of w t c) []))) t (Written c))  (* update_or_create *)
      | _, Some l => Some (set_phase (set_files w (w_config w) (Some (apply (change_of w t c) l))) t (Written c))
      end
    | Written c => match w_docs w with None => Some (finish w t Failed) | Some l => Some (set_phase w t (Loaded c l)) end
    | Loaded c l =>
      match t, w_current w with
      | _, Some s => Some (finish (publish (store_slot w s l) (change_of w t c)) t Done)
      | W _, None => Some (finish (publish (insert_slot w l) (change_of w t c)) t Done)    (* register_index *)
      | H _, None => Some (set_phase w t (NoSlot c l))                                     (* reload_index *)
      end
    | NoSlot c l => Some (finish (publish (insert_slot w l) (change_of w t c)) t Done)
    (* ---- update_index ---- *)
    | UQueue =>
      match w_queue w with
      | Some q => Some (set_phase w t (USend q))
      | None => Some (set_phase (set_queues w (Some (w_queues w)) (w_items w) (S (w_queues w))) t (USend (w_queues w)))
      end
    | USend q =>
      match job with
      | Some (Update b) =>
        let w1 := set_queues w (w_queue w) (upd (w_items w) q (w_items w q ++ [b])) (w_queues w) in
        Some (finish (set_ghosts w1 (w_published w1) (w_configured w1) (w_accepted w1 ++ [b])) t Accepted)
      | _ => None
      end
    (* ---- delete_index, 1429-1453: stop the worker, unload, forget, unlock, remove ---- *)
    | D1 => Some (set_phase (set_queues w None (w_items w) (w_queues w)) t D2)
    | D2 => Some (set_phase (set_slots w None (w_slots w) (w_next w)) t D3)
    | D3 => Some (set_phase (unlock (set_cached w None) t) t D4)
    | D4 => Some (finish (set_files w None None) t Done)
    end.
  Fixpoint steps (l : list (thread * nat)) (w : world) : option world :=
    match l with
    | [] => Some w
    | (t, n) :: l' => match step t n w with Some w' => steps l' w' | None => None end
    end.
End STEP.
(** A server that has just started on what is on disk. *)
Definition boot (c : option config) (d : option docs) : world :=
  {| w_config := c; w_docs := d; w_cached := None; w_current := None; w_slots := fun _ => []; w_next := 0;
     w_queue := None; w_items := fun _ => []; w_queues := 0; w_name := None; w_path := None; w_loading := None;
     w_phase := fun _ => Start; w_batch := fun _ => []; w_versions := [d]; w_published := []; w_configured := []; w_accepted := [] |}.
