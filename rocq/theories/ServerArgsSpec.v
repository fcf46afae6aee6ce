(** The command line of the server as a grammar, and the limits in words of their own. *)
From Verif Require Import Base Text FtsText ServerArgs.
From Coq Require Import String.
Open Scope string_scope.
Open Scope nat_scope.
Open Scope list_scope.

(** The number decimal digits spell. *)
Inductive spells : text -> Z -> Prop :=
| spells_one : forall d, (0 <= d < 10)%Z -> spells [(48 + d)%Z] d
| spells_more : forall t n d, spells t n -> (0 <= d < 10)%Z -> spells (t ++ [(48 + d)%Z]) (10 * n + d)%Z.
(** A number below [max], with or without a plus sign. *)
Definition number (max : Z) (t : text) (n : Z) : Prop := (n < max)%Z /\ (spells t n \/ exists u, t = txt "+" ++ u /\ spells u n).

(** What an option asks for *)
Inductive item := Host (v : text) | Port (n : Z) | IndexDir (v : text) | Model (v : text) | Cuda | Int8 | Count (c : counter) (n : Z).

Definition counter_word (c : counter) : text :=
  match c with
  | Parallel => txt "--parallel" | BatchSize => txt "--batch-size" | Threads => txt "--threads"
  | QueryLength => txt "--query-length" | DocumentLength => txt "--document-length" | ModelPoolSize => txt "--model-pool-size"
  end.

(** The words of one option *)
Inductive one : list text -> item -> Prop :=
| one_host : forall w v, w = txt "--host" \/ w = txt "-h" -> one [w; v] (Host v)
| one_port : forall w v n, w = txt "--port" \/ w = txt "-p" -> number (2 ^ 16) v n -> one [w; v] (Port n)
| one_dir : forall w v, w = txt "--index-dir" \/ w = txt "-d" -> one [w; v] (IndexDir v)
| one_model : forall w v, w = txt "--model" \/ w = txt "-m" -> one [w; v] (Model v)
| one_cuda : one [txt "--cuda"] Cuda
| one_int8 : one [txt "--int8"] Int8
| one_count : forall c v n, number (2 ^ 64) v n -> one [counter_word c; v] (Count c n).

(** A command line is a row of options. *)
Definition reads (args : list text) (items : list item) : Prop :=
  exists groups, args = List.concat groups /\ Forall2 one groups items.

(** The last item of a kind, or what is given *)
Inductive last_of {A} (f : item -> option A) (default : A) : list item -> A -> Prop :=
| last_none : forall items, (forall i, In i items -> f i = None) -> last_of f default items default
| last_some : forall a i b x, f i = Some x -> (forall j, In j b -> f j = None) -> last_of f default (a ++ i :: b) x.

Definition host_of (i : item) : option text := match i with Host v => Some v | _ => None end.
Definition port_of (i : item) : option Z := match i with Port n => Some n | _ => None end.
Definition dir_of (i : item) : option text := match i with IndexDir v => Some v | _ => None end.
Definition model_of (i : item) : option (option text) := match i with Model v => Some (Some v) | _ => None end.
Definition count_of (c : counter) (i : item) : option (option Z) :=
  match i with Count d n => if counter_eqb c d then Some (Some n) else None | _ => None end.

(** The settings a row of options asks for *)
Definition asks_for (items : list item) (s : settings) : Prop :=
  last_of host_of (txt "0.0.0.0") items (s_host s)
  /\ last_of port_of 8080%Z items (s_port s)
  /\ last_of dir_of (txt "./indices") items (s_index_dir s)
  /\ last_of model_of None items (s_model s)
  /\ (s_cuda s = true <-> In Cuda items)
  /\ (s_int8 s = true <-> In Int8 items)
  /\ forall c, last_of (count_of c) None items (s_count s c).
