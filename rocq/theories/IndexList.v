(** The indices a server lists and what it says of each. *)
From Verif Require Import Base Text ApiProgress.
Open Scope nat_scope.
Open Scope list_scope.

(** What an entry of a directory is, links not followed (std::fs::DirEntry::file_type; [Unknown] is its error). *)
Inductive etype := Directory | Link | File | Unknown.

Section FIGURES.
  (** f64 numbers and how an integer becomes one *)
  Variable F : Type.
  Variable f_zero : F.
  Variable f_int : Z -> F.

  (** A value of metadata.json, as far as its readers tell apart *)
  Inductive figure := FInt (z : Z) | FFloat (f : F) | FOther.

  (** metadata.json of a directory, links followed: not there, cannot be opened or is no JSON, or the value of each key ([FOther] for a key that is missing, and for every key if the file holds no object: serde_json gives null) *)
  Inductive meta_file := Missing | Damaged | Parsed (key : text -> figure).

  (** config.json as it is read: nbits and max_documents *)
  Record config := { c_nbits : nat; c_max : option nat }.

  Record entry := {
    e_name : option text;        (* None: not UTF-8 *)
    e_type : etype;
    e_meta : meta_file;
    e_config_there : bool;       (* config.json exists *)
    e_config : option config;    (* get_index_config, state.rs 462-484: read or cached *)
    e_db : bool                  (* the metadata database exists *)
  }.

  (** next-plaid-api/src/state.rs 517 *)
  Definition is_dir (t : etype) : bool := match t with Directory => true | _ => false end.
  (** next-plaid-api/src/state.rs 519, 717 *)
  Definition meta_there (m : meta_file) : bool := match m with Missing => false | _ => true end.

  (** next-plaid-api/src/state.rs 516-525, one entry; [None] is an entry that could not be read (516, flatten) *)
  Definition listed (x : option entry) : list (text * entry) :=
    match x with
    | None => []
    | Some e =>
        if is_dir (e_type e) then
          if meta_there (e_meta e) || e_config_there e then
            match e_name e with Some n => [(n, e)] | None => [] end
          else []
        else []
    end.

  (** next-plaid-api/src/state.rs 511-530 [list_all], each name with its directory. [None]: the directory of indices cannot be read. Simplified: the directory does not change during the reading. *)
  Definition list_dirs (dir : option (list (option entry))) : list (text * entry) :=
    match dir with
    | None => []
    | Some es => isort (fun a b => text_leb (fst a) (fst b)) (flat_map listed es)
    end.
  Definition list_all (dir : option (list (option entry))) : list text := map fst (list_dirs dir).

  (** serde_json::Value::as_u64 *)
  Definition as_u64 (v : figure) : option nat :=
    match v with
    | FInt z => if ((0 <=? z) && (z <? 2 ^ 64))%Z then Some (Z.to_nat z) else None
    | _ => None
    end.
  (** serde_json::Value::as_f64 *)
  Definition as_f64 (v : figure) : option F :=
    match v with FInt z => Some (f_int z) | FFloat f => Some f | FOther => None end.
  Definition or_default {A} (o : option A) (d : A) : A := match o with Some x => x | None => d end.

  (** next-plaid-api/src/models.rs [IndexSummary] *)
  Record summary := {
    s_name : text; s_documents : nat; s_embeddings : nat; s_partitions : nat; s_dimension : nat;
    s_nbits : nat; s_avg : F; s_has_metadata : bool; s_max : option nat }.

  (** next-plaid-api/src/state.rs 702-754 [get_index_summary]. Simplified: a usize is as large as a u64. *)
  Definition get_index_summary (name : text) (e : entry) : res summary :=
    let max_documents := match e_config e with Some c => c_max c | None => None end in
    let nbits := match e_config e with Some c => c_nbits c | None => 4 end in
    match e_meta e with
    | Missing => Ok {| s_name := name; s_documents := 0; s_embeddings := 0; s_partitions := 0; s_dimension := 0;
                       s_nbits := nbits; s_avg := f_zero; s_has_metadata := false; s_max := max_documents |}
    | Damaged => Err
    | Parsed key =>
        Ok {| s_name := name;
              s_documents := or_default (as_u64 (key (txt "num_documents"))) 0;
              s_embeddings := or_default (as_u64 (key (txt "num_embeddings"))) 0;
              s_partitions := or_default (as_u64 (key (txt "num_partitions"))) 0;
              s_dimension := or_default (as_u64 (key (txt "embedding_dim"))) 0;
              s_nbits := or_default (as_u64 (key (txt "nbits"))) 4;
              s_avg := or_default (as_f64 (key (txt "avg_doclen"))) f_zero;
              s_has_metadata := e_db e;
              s_max := max_documents |}
    end.

  (** next-plaid-api/src/state.rs 689-700 [get_all_index_summaries] *)
  Definition get_all_index_summaries (dir : option (list (option entry))) : list summary :=
    flat_map (fun x => match get_index_summary (fst x) (snd x) with Ok s => [s] | _ => [] end) (list_dirs dir).
End FIGURES.
Arguments FInt {F}. Arguments FFloat {F}. Arguments FOther {F}.
Arguments Missing {F}. Arguments Damaged {F}. Arguments Parsed {F}.
Arguments e_name {F}. Arguments e_type {F}. Arguments e_meta {F}. Arguments e_config_there {F}. Arguments e_config {F}. Arguments e_db {F}.
Arguments listed {F}. Arguments list_dirs {F}. Arguments list_all {F}. Arguments as_u64 {F}.
Arguments s_name {F}. Arguments s_documents {F}. Arguments s_embeddings {F}. Arguments s_partitions {F}. Arguments s_dimension {F}.
Arguments s_nbits {F}. Arguments s_avg {F}. Arguments s_has_metadata {F}. Arguments s_max {F}.
