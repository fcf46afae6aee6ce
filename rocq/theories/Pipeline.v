(** The threads of colgrep's indexing pipeline (colgrep/src/index/mod.rs). *)
From Coq Require Import String.
From Verif Require Import Base Threads.
Open Scope nat_scope.
Open Scope list_scope.
Set Default Proof Using "Type".

(** mod.rs 358-363 [SortedUnit]: a unit and the text embedded for it; [U]: units. *)
Record sorted_unit (U : Type) := { su_unit : U; su_text : string }.
Arguments su_unit {U}. Arguments su_text {U}.
(** mod.rs 365-397, 411-415: what is sent.  [K]: tokenized batches, [R]: token embeddings,
    [V]: pooled embeddings. *)
Inductive msg (U K R V : Type) :=
| MPrepared (units : list U) (uniq : list string) (back : list nat)
| MTokenized (units : list U) (batches : K) (back : list nat)
| MRaw (units : list U) (raws : list R) (back : list nat)
| MPooled (units : list U) (embs : list V)
| MIndexed (units : list U) (ids : list nat)
| MCoding (embs : list V).
Arguments MPrepared {U K R V}. Arguments MTokenized {U K R V}. Arguments MRaw {U K R V}. Arguments MPooled {U K R V}. Arguments MIndexed {U K R V}. Arguments MCoding {U K R V}.
(** Effects on the disk: documents appended to the index; the index created from chunks; rows
    inserted; documents removed again. *)
Inductive effect (U V : Type) := EAppend (embs : list V) | ECreate (chunks : list (list V)) | ERows (rows : list (nat * U)) | ERollback (ids : list nat).
Arguments EAppend {U V}. Arguments ECreate {U V}. Arguments ERows {U V}. Arguments ERollback {U V}.
Inductive encoded (R : Type) := Encoded (raws : list R) | Cancelled | EncodeError.
Arguments Encoded {R}. Arguments Cancelled {R}. Arguments EncodeError {R}.

(** Everything outside: the model, Ctrl-C ([w_main], [w_stop]: seen before the n-th chunk by the
    main and by the encoding thread; [Cancelled]: seen within one), and which writes succeed. *)
Record world (U K R V : Type) := {
  w_tok : list string -> res K;
  w_enc : nat -> K -> encoded R;
  w_pool : R -> V;
  w_main : nat -> bool;
  w_stop : nat -> bool;
  w_fresh : bool;                          (* no metadata.json when the index stage begins *)
  w_base : nat;                            (* documents in the index then *)
  w_limit : nat;                           (* UPDATE_FLUSH_DOC_LIMIT *)
  w_append : nat -> list V -> bool;        (* does appending at this id succeed *)
  w_kmeans : list V -> bool;
  w_code : list V -> bool;
  w_create : list (list V) -> bool;
  w_rows : list (nat * U) -> bool }.
Arguments w_tok {U K R V}. Arguments w_enc {U K R V}. Arguments w_pool {U K R V}. Arguments w_main {U K R V}. Arguments w_stop {U K R V}. Arguments w_fresh {U K R V}. Arguments w_base {U K R V}.
Arguments w_limit {U K R V}. Arguments w_append {U K R V}. Arguments w_kmeans {U K R V}. Arguments w_code {U K R V}. Arguments w_create {U K R V}. Arguments w_rows {U K R V}.

(** mod.rs 463-479: index of a text in the map, if seen before *)
Fixpoint seen (t : string) (m : list (string * nat)) : option nat :=
  match m with
  | [] => None
  | (t', k) :: r => if String.eqb t t' then Some k else seen t r
  end.
Fixpoint dedup {U} (m : list (string * nat)) (uniq : list string) (back : list nat) (items : list (sorted_unit U)) : list string * list nat :=
  match items with
  | [] => (uniq, back)
  | it :: r =>
      match seen (su_text it) m with
      | Some k => dedup m uniq (back ++ [k]) r
      | None => dedup ((su_text it, length uniq) :: m) (uniq ++ [su_text it]) (back ++ [length uniq]) r
      end
  end.

Section STAGES.
  Context {U K R V : Type}.
  Variable W : world U K R V.
  Notation msg := (msg U K R V).
  Notation effect := (effect U V).
  Notation act := (action msg effect).

  (** mod.rs 463-487 [prepare_deduplicated_chunk] *)
  Definition prepare_deduplicated_chunk (c : list (sorted_unit U)) : msg :=
    let '(uniq, back) := dedup [] [] [] c in MPrepared (map su_unit c) uniq back.
  (** mod.rs 937-948: the main thread feeds the chunks until interrupted *)
  Fixpoint feed (k : nat) (cs : list (list (sorted_unit U))) : list act :=
    match cs with
    | [] => []
    | c :: r => if w_main W k then [] else Send 1 (prepare_deduplicated_chunk c) :: feed (S k) r
    end.
  (** mod.rs 879-972 [run_chunk_pipeline] after spawning *)
  Definition main_prog (cs : list (list (sorted_unit U))) : program msg effect :=
    {| p_start := feed 0 cs ++ [Close 1; Join 1; Join 2; Join 3; Join 4; Join 5; Stop]; p_on := fun _ => []; p_end := fun _ => [] |}.
  Definition latest (h : list msg) : option msg := match rev h with m :: _ => Some m | [] => None end.
  (** mod.rs 526-549 [run_tokenize_stage] *)
  Definition tokenize_prog : program msg effect :=
    {| p_start := []; p_end := fun _ => [];
       p_on := fun h => match latest h with
                        | Some (MPrepared us uniq back) => match w_tok W uniq with Ok b => [Send 2 (MTokenized us b back)] | _ => [Fail] end
                        | _ => []
                        end |}.
  (** mod.rs 489-524 [run_encode_stage] *)
  Definition encode_prog : program msg effect :=
    {| p_start := []; p_end := fun _ => [];
       p_on := fun h => match latest h with
                        | Some (MTokenized us b back) =>
                            if w_stop W (length h) then [Stop]
                            else match w_enc W (length h) b with Encoded rs => [Send 3 (MRaw us rs back)] | Cancelled => [Stop] | EncodeError => [Fail] end
                        | _ => []
                        end |}.
  (** mod.rs 554-577 [run_pool_stage]; next-plaid-onnx/src/lib.rs 1632-1643 pools each by itself *)
  Definition pool_prog : program msg effect :=
    {| p_start := []; p_end := fun _ => [];
       p_on := fun h => match latest h with
                        | Some (MRaw us rs back) => match mapM (idx (map (w_pool W) rs)) back with Ok es => [Send 4 (MPooled us es)] | _ => [Fail] end
                        | _ => []
                        end |}.
  Definition docs_in (m : msg) : nat := match m with MPooled _ es => length es | _ => 0 end.
  (** mod.rs 745-768 [flush_update_batch] *)
  Definition flush (k : nat) (us : list U) (es : list V) : list act :=
    match es with
    | [] => []
    | _ => if w_append W k es then [Do (EAppend es); Send 5 (MIndexed us (seq k (length es)))] else [Fail]
    end.
  (** mod.rs 708-726: next id, pending units and embeddings after the chunks *)
  Definition take_chunk (s : nat * list U * list V) (m : msg) : nat * list U * list V :=
    let '(k, us, es) := s in
    match m with
    | MPooled u e => if w_limit W <=? length (es ++ e) then (k + length (es ++ e), [], []) else (k, us ++ u, es ++ e)
    | _ => s
    end.
  Definition pending (h : list msg) : nat * list U * list V := fold_left take_chunk h (w_base W, [], []).
  (** mod.rs 587-738 [run_index_stage]: first build (ids from 0, embeddings to the coding thread),
      or update (batches of at least UPDATE_FLUSH_DOC_LIMIT documents) *)
  Definition index_prog : program msg effect :=
    {| p_start := [];
       p_on := fun h => match latest h with
                        | Some (MPooled u e) =>
                            if w_fresh W then [Send 6 (MCoding e); Send 5 (MIndexed u (seq (list_sum (map docs_in (removelast h))) (length e)))]
                            else let '(k, us, es) := pending (removelast h) in
                                 if w_limit W <=? length (es ++ e) then flush k (us ++ u) (es ++ e) else []
                        | _ => []
                        end;
       p_end := fun h => if w_fresh W then match h with [] => [] | _ => [Close 6; Join 6] end
                         else let '(k, us, es) := pending h in flush k us es |}.
  (** mod.rs 819-869 [run_metadata_stage] *)
  Definition metadata_prog : program msg effect :=
    {| p_start := []; p_end := fun _ => [];
       p_on := fun h => match latest h with
                        | Some (MIndexed us ids) => if w_rows W (combine ids us) then [Do (ERows (combine ids us))] else [Do (ERollback ids); Fail]
                        | _ => []
                        end |}.
  Definition codes_in (m : msg) : list (list V) := match m with MCoding es => [es] | _ => [] end.
  (** mod.rs 607-669: k-means on the first chunk (its thread is joined before anything else is
      done, so it is a part of the coding thread here), coding of every chunk, the write at the end.  The thread is
      spawned with the first chunk; here it exists before, and does nothing. *)
  Definition coding_prog : program msg effect :=
    {| p_start := [];
       p_on := fun h => match latest h with
                        | Some (MCoding es) => if ((1 <? length h) || w_kmeans W es) && w_code W es then [] else [Fail]
                        | _ => []
                        end;
       p_end := fun h => match h with [] => [] | _ => if w_create W (flat_map codes_in h) then [Do (ECreate (flat_map codes_in h))] else [Fail] end |}.

  Definition prog_of (cs : list (list (sorted_unit U))) (i : nat) : program msg effect :=
    match i with
    | 0 => main_prog cs | 1 => tokenize_prog | 2 => encode_prog | 3 => pool_prog | 4 => index_prog | 5 => metadata_prog | _ => coding_prog
    end.
End STAGES.
(** Who holds the sender of a channel: each stage that of the next; the index thread also that of
    the coding thread. *)
Definition parent (i : nat) : nat := match i with 6 => 4 | _ => i - 1 end.
(** mod.rs 213-228, 261 *)
Definition cap (i : nat) : nat := match i with 4 => 4 | 5 => 8 | _ => 2 end.
Definition threads : nat := 7.

(** mod.rs 421-458 [prepare_units_for_encoding], after sorting: a strided sample comes first *)
Definition arrange {A} (sample : nat) (items : list A) : list A :=
  let k := Nat.min sample (length items) in
  if (0 <? k) && (k <? length items) then
    let stride := length items / k in
    let picked := map (fun i => i * stride) (seq 0 k) in
    let tagged := combine (seq 0 (length items)) items in
    map snd (filter (fun p => existsb (Nat.eqb (fst p)) picked) tagged) ++ map snd (filter (fun p => negb (existsb (Nat.eqb (fst p)) picked)) tagged)
  else items.
