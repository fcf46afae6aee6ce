(** Specification of the encoding requests of the HTTP API. *)
From Verif Require Import Base ApiEncode.
Open Scope nat_scope.

Section SPEC.
  Variables Txt Emb : Type.
  Variable M : encoder Txt Emb.

  (** What a request asks of the model *)
  Definition asks (it : eitem Txt) (ts : list Txt) : res (list Emb) :=
    match it_type it with Query => encode_queries M ts | Document => encode_documents M ts (it_pool it) end.
  (** Two requests the model may serve in one call: two queries, or two documents with one pool factor *)
  Definition alike (a b : eitem Txt) : bool :=
    match it_type a, it_type b with
    | Query, Query => true
    | Document, Document =>
        match it_pool a, it_pool b with Some p, Some q => p =? q | None, None => true | _, _ => false end
    | _, _ => false
    end.
  (** All texts of the requests like [it] *)
  Definition texts_like (it : eitem Txt) (l : list (eitem Txt)) : list Txt := flat_map it_texts (filter (alike it) l).

  (** The model embeds every text by itself, whatever the texts it is given with; and it may fail. *)
  Definition text_by_text (fq : Txt -> Emb) (fd : option nat -> Txt -> Emb) : Prop :=
    (forall ts r, encode_queries M ts = Ok r -> r = map fq ts) /\
    (forall ts p r, encode_documents M ts p = Ok r -> r = map (fd p) ts).
  (** The embeddings of the texts of a request, under its own type and pool factor *)
  Definition own (fq : Txt -> Emb) (fd : option nat -> Txt -> Emb) (it : eitem Txt) : list Emb :=
    match it_type it with Query => map fq (it_texts it) | Document => map (fd (it_pool it)) (it_texts it) end.
End SPEC.
Arguments asks {Txt Emb}. Arguments alike {Txt}. Arguments texts_like {Txt}. Arguments text_by_text {Txt Emb}. Arguments own {Txt Emb}.
