(** C46: every encoding request gets the embeddings of its own texts. *)
From Verif Require Import Base ApiEncode ApiEncodeSpec ApiEncodeProofs.
Open Scope nat_scope.

(** One batch: for every model and every iteration order of the groups.  The answer of a request is
    its own part of what the model answers for the texts of all requests like it, in order. *)
Theorem C46_answer_is_own_slice Txt Emb (M : encoder Txt Emb) order items rs pre it post a :
  (forall gs, Permutation gs (order gs)) ->
  process_batch M order items = Ok rs -> items = pre ++ it :: post -> nth_error rs (length pre) = Some a ->
  match asks M it (texts_like it items) with
  | Ok e => length (texts_like it pre) + length (it_texts it) <= length e /\
            a = Ok (firstn (length (it_texts it)) (skipn (length (texts_like it pre)) e))
  | Err => a = Err
  | Panic => False
  end.
Proof. intros P. exact (process_answer Txt Emb M order P items rs pre it post a). Qed.
Print Assumptions C46_answer_is_own_slice.

(** One batch, for a model that embeds every text by itself: exactly the embeddings of the own texts
    under the own type and pool factor, or an error when the model refused the texts of its kind. *)
Theorem C46_own_embeddings Txt Emb (M : encoder Txt Emb) order fq fd items rs :
  (forall gs, Permutation gs (order gs)) -> text_by_text M fq fd ->
  process_batch M order items = Ok rs ->
  Forall2 (fun it a => a = Ok (own fq fd it) \/ (a = Err /\ asks M it (texts_like it items) = Err)) items rs.
Proof. intros P T. exact (process_own Txt Emb M order P fq fd T items rs). Qed.
Print Assumptions C46_own_embeddings.

(** The whole service: whatever requests are sent, however they are collected by however many
    workers, no request is answered twice, and every answer is the own embeddings or an error. *)
Theorem C46_pool_answers Txt Emb (M : encoder Txt Emb) order fq fd workers max es s :
  (forall gs, Permutation gs (order gs)) -> text_by_text M fq fd ->
  prun M order workers max pstart es = Some s ->
  NoDup (map fst (p_answers s)) /\
  forall i a, In (i, a) (p_answers s) -> exists it, nth_error (sent es) i = Some it /\ (a = Ok (own fq fd it) \/ a = Err).
Proof. intros P T. exact (pool_answers Txt Emb M order P fq fd T workers max es s). Qed.
Print Assumptions C46_pool_answers.

(** At every moment the pool can go on to answer all requests sent so far, unless the model answers
    with fewer embeddings than texts. *)
Theorem C46_pool_can_answer_all Txt Emb (M : encoder Txt Emb) order fq fd workers max es s :
  (forall gs, Permutation gs (order gs)) -> text_by_text M fq fd ->
  (forall ts, encode_queries M ts <> Panic) -> (forall ts p, encode_documents M ts p <> Panic) ->
  0 < workers ->
  prun M order workers max pstart es = Some s ->
  exists es' s', prun M order workers max s es' = Some s' /\ sent es' = [] /\
    forall i it, nth_error (sent es) i = Some it -> exists a, In (i, a) (p_answers s') /\ (a = Ok (own fq fd it) \/ a = Err).
Proof.
  intros P T NQ ND W. refine (pool_drains Txt Emb M order P fq fd T workers max _ W es s).
  intros items. destruct (process_total Txt Emb M order items) as (rs & ->); [| |discriminate].
  - intros ts. pose proof (NQ ts) as N. destruct T as [T _]. specialize (T ts). destruct (encode_queries M ts); [|exact I|congruence].
    cbn. rewrite (T _ eq_refl), map_length. lia.
  - intros ts p. pose proof (ND ts p) as N. destruct T as [_ T]. specialize (T ts p). destruct (encode_documents M ts p); [|exact I|congruence].
    cbn. rewrite (T _ eq_refl), map_length. lia.
Qed.
Print Assumptions C46_pool_can_answer_all.

(** A model that fails on the text 13; three kinds of requests; the groups in reverse order. *)
Definition ex_fq (t : nat) : nat := 100 + t.
Definition ex_fd (p : option nat) (t : nat) : nat := match p with Some p => (p + 2) * 100 + t | None => 200 + t end.
Definition ex_model : encoder nat nat :=
  {| encode_queries := fun ts => if existsb (Nat.eqb 13) ts then Err else Ok (map ex_fq ts);
     encode_documents := fun ts p => if existsb (Nat.eqb 13) ts then Err else Ok (map (ex_fd p) ts) |}.
Lemma ex_text_by_text : text_by_text ex_model ex_fq ex_fd.
Proof.
  split; unfold ex_model; cbn [encode_queries encode_documents].
  - intros ts r. destruct (existsb (Nat.eqb 13) ts); [discriminate|]. intros E. injection E as <-. reflexivity.
  - intros ts p r. destruct (existsb (Nat.eqb 13) ts); [discriminate|]. intros E. injection E as <-. reflexivity.
Qed.
Definition rq (ts : list nat) := {| it_texts := ts; it_type := Query; it_pool := Some 9 |}.
Definition rd (ts : list nat) p := {| it_texts := ts; it_type := Document; it_pool := p |}.
Example C46_example :
  let order := fun gs => rev gs in
  let items := [rd [1; 2] (Some 3); rq [7]; rd [3] None; rd [13] (Some 4); rq [8; 9]; rd [] (Some 3); rd [4] (Some 3); rd [5] (Some 4)] in
  (forall gs : list (option nat * list (nat * eitem nat)), Permutation gs (order gs)) /\ text_by_text ex_model ex_fq ex_fd /\
  process_batch ex_model order items =
    Ok [Ok [501; 502]; Ok [107]; Ok [203]; Err; Ok [108; 109]; Ok []; Ok [504]; Err] /\
  option_map p_answers (prun ex_model order 2 3 pstart
    [Take 1; Send (rd [1; 2] (Some 3)); Receive; Send (rq [7]); Receive; Receive; Take 0; Send (rd [4] (Some 3));
     Receive; Timeout; Finish 0; Finish 1])
    = Some [(2, Ok [504]); (0, Ok [501; 502]); (1, Ok [107])].
Proof.
  split; [intros gs; apply Permutation_rev|]. split; [exact ex_text_by_text|]. split; vm_compute; reflexivity.
Qed.
