(** What the pipeline should leave on the disk. *)
From Coq Require Import String.
From Verif Require Import Base Threads Pipeline.
Open Scope nat_scope.
Open Scope list_scope.

(** Documents and rows written so far, by whichever thread. *)
Definition docs_of {U V} (e : effect U V) : list V := match e with EAppend es => es | ECreate cs => concat cs | _ => [] end.
Definition rows_of {U V} (e : effect U V) : list (nat * U) := match e with ERows rows => rows | _ => [] end.
Definition effects {U K R V} (s : @state (msg U K R V) (effect U V)) : list (effect U V) :=
  flat_map (fun i => flat_map is_do (t_done (s i))) (seq 0 threads).
Definition documents {U K R V} (s : @state (msg U K R V) (effect U V)) : list V := flat_map docs_of (effects s).
Definition rows {U K R V} (s : @state (msg U K R V) (effect U V)) : list (nat * U) := flat_map rows_of (effects s).

(** The model embeds each text by itself. *)
Definition good_model {U K R V} (W : world U K R V) (raw : string -> R) : Prop := forall k ts b rs, w_tok W ts = Ok b -> w_enc W k b = Encoded rs -> rs = map raw ts.
(** The embedding a unit should get, and the rows that [units] should get. *)
Definition embedding {U K R V} (W : world U K R V) (raw : string -> R) (u : sorted_unit U) : V := w_pool W (raw (su_text u)).
Definition numbered {U} (base : nat) (units : list (sorted_unit U)) : list (nat * U) := combine (seq base (length units)) (map su_unit units).
Definition first_id {U K R V} (W : world U K R V) : nat := if w_fresh W then 0 else w_base W.
(** Nobody pressed Ctrl-C. *)
Definition uninterrupted {U K R V} (W : world U K R V) : Prop := (forall k, w_main W k = false) /\ (forall k, w_stop W k = false) /\ forall k b, w_enc W k b <> Cancelled.
(** A schedule of the threads; one that cannot go on is passed over. *)
Fixpoint run {U K R V} (W : world U K R V) (cs : list (list (sorted_unit U))) (sch : list nat) (s : state) : @state (msg U K R V) (effect U V) :=
  match sch with
  | [] => s
  | i :: r => run W cs r (match step1 parent cap (prog_of W cs) i s with Some s' => s' | None => s end)
  end.
(** [s] can come about when [cs] is indexed. *)
Definition may_be {U K R V} (W : world U K R V) (cs : list (list (sorted_unit U))) (s : @state (msg U K R V) (effect U V)) : Prop := reached parent cap (prog_of W cs) threads s.
Definition all_ended {M E} (s : @state M E) : Prop := forall i, i < threads -> t_status (s i) <> Running.
