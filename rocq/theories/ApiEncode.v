(** Encoding requests of the HTTP API (handlers/encode.rs): concurrent requests are collected into
    batches by a pool of workers and encoded together. *)
From Verif Require Import Base.
Open Scope nat_scope.

Section ENCODE.
  (** Texts, and the embeddings of one text *)
  Variables Txt Emb : Type.
  (** models.rs [InputType] *)
  Inductive input_type := Query | Document.
  (** encode.rs 67-76 [EncodeBatchItem]; the response channel is the place of the request *)
  Record eitem := { it_texts : list Txt; it_type : input_type; it_pool : option nat }.
  (** The model (next_plaid_onnx::Colbert) *)
  Record encoder := {
    encode_queries : list Txt -> res (list Emb);
    encode_documents : list Txt -> option nat -> res (list Emb)
  }.
  Variable M : encoder.
  (** The iteration order of the HashMap of groups *)
  Variable order : list (option nat * list (nat * eitem)) -> list (option nat * list (nat * eitem)).

  (** encode.rs 376-411 [encode_texts_with_model] *)
  Definition encode_texts (ts : list Txt) (t : input_type) (p : option nat) : res (list Emb) :=
    match t with Query => encode_queries M ts | Document => encode_documents M ts p end.

  (** [items.iter().enumerate()] *)
  Definition enumerate {A} (l : list A) : list (nat * A) := combine (seq 0 (length l)) l.
  Definition same_pool (a b : option nat) : bool :=
    match a, b with Some a, Some b => a =? b | None, None => true | _, _ => false end.
  (** [document_groups.entry(pool_factor).or_default().push(x)] *)
  Fixpoint push_group (gs : list (option nat * list (nat * eitem))) (p : option nat) (x : nat * eitem)
    : list (option nat * list (nat * eitem)) :=
    match gs with
    | [] => [(p, [x])]
    | (q, l) :: gs => if same_pool q p then (q, l ++ [x]) :: gs else (q, l) :: push_group gs p x
    end.
  (** encode.rs 267-284 *)
  Fixpoint group (l : list (nat * eitem)) (qs : list (nat * eitem)) (gs : list (option nat * list (nat * eitem)))
    : list (nat * eitem) * list (option nat * list (nat * eitem)) :=
    match l with
    | [] => (qs, gs)
    | x :: l =>
      match it_type (snd x) with
      | Query => group l (qs ++ [x]) gs
      | Document => group l qs (push_group gs (it_pool (snd x)) x)
      end
    end.
  (** [results]: a map from the place of a request to its answer *)
  Definition results : Type := nat -> option (res (list Emb)).
  Definition insert (k : nat) (v : res (list Emb)) (m : results) : results := fun j => if j =? k then Some v else m j.
  (** [embeddings[offset..offset + count].to_vec()] *)
  Definition slice (e : list Emb) (off count : nat) : res (list Emb) :=
    if off + count <=? length e then Ok (firstn count (skipn off e)) else Panic.
  (** encode.rs 301-309, 336-344 *)
  Fixpoint distribute (e : list Emb) (off : nat) (l : list (nat * eitem)) (m : results) : res results :=
    match l with
    | [] => Ok m
    | (i, it) :: l =>
      let count := length (it_texts it) in
      bind (slice e off count) (fun s => distribute e (off + count) l (insert i (Ok s) m))
    end.
  (** encode.rs 290-318, 322-353: one group *)
  Definition encode_group (t : input_type) (p : option nat) (l : list (nat * eitem)) (m : results) : res results :=
    match encode_texts (flat_map (fun x => it_texts (snd x)) l) t p with
    | Ok e => distribute e 0 l m
    | Err => Ok (fold_left (fun m x => insert (fst x) Err m) l m)
    | Panic => Panic
    end.
  Fixpoint encode_groups (gs : list (option nat * list (nat * eitem))) (m : results) : res results :=
    match gs with
    | [] => Ok m
    | (p, l) :: gs => bind (encode_group Document p l m) (encode_groups gs)
    end.
  (** encode.rs 257-372 [process_encode_batch_with_model]: the answer of every request, in order.
      [Panic]: the task of the worker ends, its requests get no answer from it. *)
  Definition process_batch (items : list eitem) : res (list (res (list Emb))) :=
    let (qs, gs) := group (enumerate items) [] [] in
    bind (match qs with [] => Ok (fun _ => None) | _ => encode_group Query None qs (fun _ => None) end) (fun m =>
    bind (encode_groups (order gs) m) (fun m =>
    Ok (map (fun x => match m (fst x) with Some r => r | None => Err end) (enumerate items)))).

  (** ** The pool of workers (encode.rs 87-153, 191-250)

      Requests carry the number of their place in the order of sending.  One worker at a time holds
      the receiver; it waits for a first request, then collects until the batch is full, the
      deadline is over or all senders are gone; then it lets go of the receiver and processes. *)
  Record pool := {
    p_queue : list (nat * eitem);
    p_sent : nat;
    p_closed : bool;
    p_holder : option (nat * list (nat * eitem));      (* the worker with the receiver, and its batch *)
    p_busy : list (nat * list (nat * eitem));          (* workers processing a batch *)
    p_ended : list nat;                                (* workers that have stopped or panicked *)
    p_answers : list (nat * res (list Emb))
  }.
  Inductive pevent :=
  | Send (it : eitem)
  | CloseAll
  | Take (w : nat)            (* a worker gets the receiver *)
  | Receive                   (* its holder receives, or finds the batch full or the channel closed *)
  | Timeout                   (* the deadline of its holder is over *)
  | Finish (w : nat).         (* a worker processes its batch *)
  Variable workers : nat.     (* pool_size *)
  Variable max : nat.         (* max_batch_texts() *)
  Definition pstart : pool :=
    {| p_queue := []; p_sent := 0; p_closed := false; p_holder := None; p_busy := []; p_ended := []; p_answers := [] |}.
  Definition texts_in (b : list (nat * eitem)) : nat := length (flat_map (fun x => it_texts (snd x)) b).
  (** The holder lets go of the receiver and starts processing *)
  Definition release (s : pool) (w : nat) (b : list (nat * eitem)) : pool :=
    {| p_queue := p_queue s; p_sent := p_sent s; p_closed := p_closed s; p_holder := None;
       p_busy := p_busy s ++ [(w, b)]; p_ended := p_ended s; p_answers := p_answers s |}.
  Definition hold (s : pool) (q : list (nat * eitem)) (w : nat) (b : list (nat * eitem)) : pool :=
    {| p_queue := q; p_sent := p_sent s; p_closed := p_closed s; p_holder := Some (w, b);
       p_busy := p_busy s; p_ended := p_ended s; p_answers := p_answers s |}.
  Definition mem_nat (w : nat) (l : list nat) : bool := existsb (Nat.eqb w) l.
  Fixpoint take_busy (w : nat) (l : list (nat * list (nat * eitem)))
    : option (list (nat * eitem) * list (nat * list (nat * eitem))) :=
    match l with
    | [] => None
    | (v, b) :: l => if v =? w then Some (b, l)
                     else match take_busy w l with Some (c, l) => Some (c, (v, b) :: l) | None => None end
    end.
  Definition pstep (s : pool) (e : pevent) : option pool :=
    match e with
    | Send it =>
      if p_closed s then None
      else Some {| p_queue := p_queue s ++ [(p_sent s, it)]; p_sent := S (p_sent s); p_closed := false;
                   p_holder := p_holder s; p_busy := p_busy s; p_ended := p_ended s; p_answers := p_answers s |}
    | CloseAll =>
      Some {| p_queue := p_queue s; p_sent := p_sent s; p_closed := true;
              p_holder := p_holder s; p_busy := p_busy s; p_ended := p_ended s; p_answers := p_answers s |}
    | Take w =>
      match p_holder s with
      | Some _ => None
      | None => if (w <? workers) && negb (mem_nat w (map fst (p_busy s))) && negb (mem_nat w (p_ended s))
                then Some (hold s (p_queue s) w []) else None
      end
    | Receive =>
      match p_holder s with
      | None => None
      | Some (w, []) =>
        match p_queue s with
        | x :: q => Some (hold s q w [x])
        | [] => if p_closed s then
                  Some {| p_queue := []; p_sent := p_sent s; p_closed := true; p_holder := None;
                          p_busy := p_busy s; p_ended := w :: p_ended s; p_answers := p_answers s |}
                else None
        end
      | Some (w, b) =>
        if texts_in b <? max then
          match p_queue s with
          | x :: q => Some (hold s q w (b ++ [x]))
          | [] => if p_closed s then Some (release s w b) else None
          end
        else Some (release s w b)
      end
    | Timeout =>
      match p_holder s with
      | Some (w, (_ :: _) as b) => if texts_in b <? max then Some (release s w b) else None
      | _ => None
      end
    | Finish w =>
      match take_busy w (p_busy s) with
      | None => None
      | Some (b, rest) =>
        let '(ended, answers) :=
          match process_batch (map snd b) with
          | Ok rs => (p_ended s, combine (map fst b) rs)
          | _ => (w :: p_ended s, map (fun x => (fst x, Err)) b)      (* the channels are dropped *)
          end in
        Some {| p_queue := p_queue s; p_sent := p_sent s; p_closed := p_closed s; p_holder := p_holder s;
                p_busy := rest; p_ended := ended; p_answers := p_answers s ++ answers |}
      end
    end.
  Fixpoint prun (s : pool) (es : list pevent) : option pool :=
    match es with [] => Some s | e :: es => match pstep s e with Some s => prun s es | None => None end end.
  (** The requests sent by the events *)
  Definition sent (es : list pevent) : list eitem := flat_map (fun e => match e with Send it => [it] | _ => [] end) es.
End ENCODE.
Arguments it_texts {Txt}. Arguments it_type {Txt}. Arguments it_pool {Txt}. Arguments Build_eitem {Txt}.
Arguments encode_queries {Txt Emb}. Arguments encode_documents {Txt Emb}. Arguments Build_encoder {Txt Emb}.
Arguments encode_texts {Txt Emb}. Arguments push_group {Txt}. Arguments group {Txt}. Arguments insert {Emb}. Arguments slice {Emb}.
Arguments distribute {Txt Emb}. Arguments encode_group {Txt Emb}. Arguments encode_groups {Txt Emb}. Arguments process_batch {Txt Emb}.
Arguments p_queue {Txt Emb}. Arguments p_sent {Txt Emb}. Arguments p_closed {Txt Emb}. Arguments p_holder {Txt Emb}.
Arguments p_busy {Txt Emb}. Arguments p_ended {Txt Emb}. Arguments p_answers {Txt Emb}. Arguments Build_pool {Txt Emb}.
Arguments Send {Txt}. Arguments CloseAll {Txt}. Arguments Take {Txt}. Arguments Receive {Txt}. Arguments Timeout {Txt}. Arguments Finish {Txt}.
Arguments pstart {Txt Emb}. Arguments texts_in {Txt}. Arguments release {Txt Emb}. Arguments hold {Txt Emb}. Arguments take_busy {Txt}.
Arguments pstep {Txt Emb}. Arguments prun {Txt Emb}. Arguments sent {Txt}.
