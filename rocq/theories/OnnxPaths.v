(** The ways through the encoder all give every text its own embedding. *)
From Verif Require Import Base Onnx OnnxSpec OnnxPrepare OnnxEncode.
Open Scope nat_scope.

(** * Lists *)
Lemma mapM_Forall2 {A B} (f : A -> res B) l ys : Forall2 (fun x y => f x = Ok y) l ys -> mapM f l = Ok ys.
Proof. induction 1 as [|x y l ys H _ IH]; cbn [mapM]; auto. rewrite H, IH. reflexivity. Qed.
Lemma join_all_ok {A} (rs : list (res A)) l : join_all rs = Ok l -> Forall2 (fun r x => r = Ok x) rs l.
Proof.
  unfold join_all. destruct (existsb panicked rs); [discriminate|]. intros H. now apply mapM_Ok_inv in H.
Qed.
Lemma Forall2_map_l {A B C} (g : A -> B) (P : B -> C -> Prop) l r : Forall2 P (map g l) r <-> Forall2 (fun x y => P (g x) y) l r.
Proof.
  revert r. induction l as [|x l IH]; intros r; cbn; split; intros H; inversion H; subst; constructor; auto; now apply IH.
Qed.
Lemma Forall2_concat {A B} (P : A -> B -> Prop) ls rs : Forall2 (Forall2 P) ls rs -> Forall2 P (concat ls) (concat rs).
Proof. induction 1; cbn; [constructor|]. now apply Forall2_app. Qed.
Lemma Forall2_impl_in {A B} (P Q : A -> B -> Prop) l r : (forall x y, In x l -> P x y -> Q x y) -> Forall2 P l r -> Forall2 Q l r.
Proof.
  intros H F. induction F as [|x y l r HP F IH]; constructor; [apply H; [now left|exact HP]|]. apply IH. intros a b I. apply H. now right.
Qed.
Lemma nth_ext_error {A} (l r : list A) : (forall i, nth_error l i = nth_error r i) -> l = r.
Proof.
  revert r. induction l as [|x l IH]; intros [|y r] H; auto; try (specialize (H 0); discriminate).
  pose proof (H 0) as E. injection E as ->. f_equal. apply IH. intros i. exact (H (S i)).
Qed.
Lemma numbered_fst {A} (l : list A) : map fst (numbered l) = seq 0 (length l).
Proof.
  unfold numbered. generalize 0. induction l as [|x l IH]; intros k; cbn; auto. now rewrite IH.
Qed.
Lemma numbered_snd {A} (l : list A) : map snd (numbered l) = l.
Proof.
  unfold numbered. generalize 0. induction l as [|x l IH]; intros k; cbn; auto. now rewrite IH.
Qed.
Lemma numbered_nth {A} (l : list A) i : nth_error (numbered l) i = option_map (fun x => (i, x)) (nth_error l i).
Proof.
  unfold numbered. change i with (0 + i) at 2. generalize 0. revert i. induction l as [|x l IH]; intros [|i] k; cbn; auto.
  - now rewrite Nat.add_0_r.
  - rewrite IH. now rewrite Nat.add_succ_r.
Qed.

(** * Restoring the order *)
Lemma place_len {A} n ts (xs : list A) : forall slots slots', place n ts xs slots = Ok slots' -> length slots' = length slots.
Proof.
  revert ts. induction xs as [|x xs IH]; intros [|t ts] slots slots' H; cbn in H; try congruence. destruct (n <=? t); [discriminate|].
  apply IH in H. now rewrite upd_length in H.
Qed.
Lemma place_other {A} n t : forall (xs : list A) ts slots slots', place n ts xs slots = Ok slots' -> ~ In t ts -> nth_error slots' t = nth_error slots t.
Proof.
  induction xs as [|x xs IH]; intros [|u ts] slots slots' H NI; cbn in H; try congruence. destruct (n <=? u); [discriminate|].
  rewrite (IH _ _ _ H) by (intros I; apply NI; now right). apply upd_nth_other. intros ->. apply NI. now left.
Qed.
Lemma place_spec {A} n : forall (xs : list A) ts slots slots', place n ts xs slots = Ok slots' -> length slots = n -> NoDup ts ->
  forall i t x, nth_error ts i = Some t -> nth_error xs i = Some x -> nth_error slots' t = Some (Some x).
Proof.
  induction xs as [|x xs IH]; intros [|u ts] slots slots' H L ND i t y HT HX; try (destruct i; discriminate). cbn in H.
  destruct (n <=? u) eqn:Q; [discriminate|]. apply Nat.leb_gt in Q. inversion ND; subst. destruct i as [|i]; cbn in HT, HX.
  - injection HT as <-. injection HX as <-. rewrite (place_other _ _ _ _ _ _ H) by auto. apply upd_nth_same. lia.
  - eapply IH; eauto. now rewrite upd_length.
Qed.
Lemma place_ok {A} n : forall (xs : list A) ts slots, Forall (fun t => t < n) ts -> exists slots', place n ts xs slots = Ok slots'.
Proof.
  induction xs as [|x xs IH]; intros [|u ts] slots F; cbn; eauto. inversion F; subst.
  replace (n <=? u) with false by (symmetry; apply Nat.leb_gt; lia). auto.
Qed.
Lemma place_never {A} n : forall (xs : list A) ts slots, place n ts xs slots <> Panic.
Proof. induction xs as [|x xs IH]; intros [|u ts] slots; cbn; try congruence. destruct (n <=? u); [congruence|auto]. Qed.
(** Documents that travelled in any order come back in their places. *)
Lemma restore_spec {A B} (h : A -> B) (l : list A) ps : Permutation ps (numbered l) ->
  restore (map fst ps) (map (fun p => h (snd p)) ps) = Ok (map h l).
Proof.
  intros P. unfold restore. rewrite map_length.
  assert (LP : length ps = length l) by (rewrite (Permutation_length P); unfold numbered; rewrite combine_length, seq_length; lia). rewrite LP.
  assert (PF : Permutation (map fst ps) (seq 0 (length l))) by (rewrite <- numbered_fst; now apply Permutation_map).
  assert (ND : NoDup (map fst ps)) by (eapply Permutation_NoDup; [symmetry; exact PF|apply seq_NoDup]).
  destruct (place_ok (length l) (map (fun p => h (snd p)) ps) (map fst ps) (repeat None (length l))) as (slots & E).
  { apply Forall_forall. intros t H. eapply Permutation_in in H; [|exact PF]. apply in_seq in H. lia. }
  rewrite E. cbn [bind].
  assert (ES : slots = map (fun d => Some (h d)) l).
  { pose proof (place_len _ _ _ _ _ E) as LS. rewrite repeat_length in LS. apply nth_ext_error. intros t. rewrite nth_error_map.
    destruct (nth_error l t) as [d|] eqn:ED; cbn [option_map].
    - assert (I : In (t, d) ps).
      { eapply Permutation_in; [symmetry; exact P|]. apply nth_error_In with t. now rewrite numbered_nth, ED. }
      apply In_nth_error in I. destruct I as (i & I).
      eapply (place_spec _ _ _ _ _ E (repeat_length _ _) ND i); rewrite nth_error_map, I; reflexivity.
    - apply nth_error_None. apply nth_error_None in ED. lia. }
  rewrite ES. clear. induction l as [|d l IH]; cbn [map mapM]; auto. cbn [bind]. now rewrite IH.
Qed.
(** Whatever the batches: nothing is lost or duplicated, or an error is returned. *)
Lemma restore_general {A} idxs (enc out : list A) : length idxs = length enc -> restore idxs enc = Ok out ->
  Permutation idxs (seq 0 (length enc)) /\
  forall i t x, nth_error idxs i = Some t -> nth_error enc i = Some x -> nth_error out t = Some x.
Proof.
  intros L H. unfold restore in H. apply bind_Ok in H. destruct H as (slots & E & H). apply mapM_Ok_inv in H.
  pose proof (place_len _ _ _ _ _ E) as LS. rewrite repeat_length in LS.
  assert (C : incl (seq 0 (length enc)) idxs).
  { intros t I. apply in_seq in I. destruct (in_dec Nat.eq_dec t idxs) as [Y|NY]; auto. exfalso.
    pose proof (place_other _ _ _ _ _ _ E NY) as O. rewrite nth_repeat_some in O by lia.
    clear - H O. revert t O. induction H as [|o x slots out HO _ IH]; intros [|t] O; cbn in O; try discriminate; [|eauto].
    injection O as ->. discriminate. }
  assert (P : Permutation idxs (seq 0 (length enc))).
  { symmetry. apply NoDup_Permutation_bis; auto; [apply seq_NoDup|]. rewrite seq_length. lia. }
  split; auto. intros i t x HT HX.
  assert (ND : NoDup idxs) by (eapply Permutation_NoDup; [symmetry; exact P|apply seq_NoDup]).
  pose proof (place_spec _ _ _ _ _ E (repeat_length _ _) ND i t x HT HX) as O.
  clear - H O. revert t O. induction H as [|o y slots out HO _ IH]; intros [|t] O; cbn in O; try discriminate; cbn; [|eauto].
  injection O as ->. injection HO as ->. reflexivity.
Qed.

Definition nonempty (v : list (nat * nat)) : Prop := v <> [].
Lemma visible_nonempty e : proper e -> nonempty (visible e).
Proof. intros P E. pose proof (visible_length e P) as L. rewrite E in L. destruct P as (_ & _ & _ & H). cbn in L. lia. Qed.
Section Paths.
  Context {T : tokenizer} (N : network) (c : config T) (dim : nat) (f : list nat -> option (list nat) -> list (list (value N))).
  Context (HT : steady T) (HN : ignores_padding N dim f).
  Definition own (is_query filter_skiplist : bool) (prefix : nat) : list (nat * nat) -> list (list (value N)) :=
    embedding N c f is_query filter_skiplist prefix (max_length c is_query).
  Lemma own_any_len is_query filter_skiplist prefix pad vs v :
    embedding N c f is_query filter_skiplist prefix (batch_len c is_query pad vs) v = own is_query filter_skiplist prefix v.
  Proof. unfold own, embedding, full, batch_len. destruct (is_query && do_query_expansion c); reflexivity. Qed.

  (** A batch that the network answers. *)
  Lemma batch_answers is_query filter_skiplist prefix pad vs origin out : 3 <= max_length c is_query -> Forall nonempty vs ->
    encode_prepared N c (batch c is_query filter_skiplist prefix (batch_len c is_query pad vs) vs origin) = Ok out ->
    out = map (own is_query filter_skiplist prefix) vs.
  Proof.
    intros M NE H. destruct vs as [|v vs]; [change (Ok [] = Ok out) in H; injection H as <-; reflexivity|]. set (ws := v :: vs) in *.
    assert (HF : Forall (fits c is_query (batch_len c is_query pad ws)) ws).
    { pose proof (batch_len_enough c is_query pad ws ltac:(lia)) as B. rewrite Forall_forall in *. intros w I. split; [exact (NE w I)|exact (B w I)]. }
    unfold encode_prepared in H. assert (Z : (b_size (batch c is_query filter_skiplist prefix (batch_len c is_query pad ws) ws origin) =? 0) = false) by reflexivity.
    rewrite Z in H. apply bind_Ok in H. destruct H as ((shape & data) & R & H).
    pose proof (encode_batch_spec N c dim f HN is_query filter_skiplist prefix _ ws M HF shape data origin ltac:(discriminate) R) as S.
    unfold encode_prepared in S. rewrite Z, R in S. cbn [bind] in S. assert (EO : Ok out = Ok (map (embedding N c f is_query filter_skiplist prefix (batch_len c is_query pad ws)) ws)) by (rewrite <- H; exact S). assert (E2 : forall (x y : list (list (list (value N)))), Ok x = Ok y -> x = y) by (intros x y EE; injection EE; auto).
    rewrite (E2 _ _ EO). apply map_ext. intros w. apply own_any_len.
  Qed.
  (** Under a network that answers the batch is encoded. *)
  Lemma batch_total is_query filter_skiplist prefix pad vs origin : 3 <= max_length c is_query -> Forall nonempty vs -> answers N dim ->
    encode_prepared N c (batch c is_query filter_skiplist prefix (batch_len c is_query pad vs) vs origin) = Ok (map (own is_query filter_skiplist prefix) vs).
  Proof.
    intros M NE AN. destruct vs as [|v vs]; [reflexivity|]. set (ws := v :: vs) in *.
    assert (HF : Forall (fits c is_query (batch_len c is_query pad ws)) ws).
    { pose proof (batch_len_enough c is_query pad ws ltac:(lia)) as B. rewrite Forall_forall in *. intros w I. split; [exact (NE w I)|exact (B w I)]. }
    set (p := batch c is_query filter_skiplist prefix (batch_len c is_query pad ws) ws origin) in *.
    destruct (AN (b_size p) (b_len p) (b_ids p) (b_mask p) (b_types p)) as (shape & data & R & _).
    unfold p in *. rewrite (encode_batch_spec N c dim f HN is_query filter_skiplist prefix _ ws M HF shape data origin ltac:(discriminate) R).
    f_equal. apply map_ext. intros w. apply own_any_len.
  Qed.

  Context (is_query filter_skiplist : bool) (prefix : nat) (M3 : 3 <= max_length c is_query) (HP : prefix_token c is_query = Ok prefix).
  Notation g := (own is_query filter_skiplist prefix).
  Lemma preprocess_map ts : preprocess c ts = map (cleaned c) ts.
  Proof. reflexivity. Qed.
  Lemma encode_texts_spec ts out : encode_texts N c is_query filter_skiplist ts = Ok out -> Forall2 (embeds c g) ts out.
  Proof.
    intros H. destruct ts as [|t ts]; [cbn in H; injection H as <-; constructor|]. set (us := t :: ts) in *.
    unfold encode_texts in H. fold us in H. change (bind (prepare_texts c us is_query filter_skiplist) (encode_prepared N c) = Ok out) in H.
    apply bind_Ok in H. destruct H as (p & HPR & H). unfold prepare_texts in HPR.
    change (bind (encode_batch T (preprocess c us)) (fun encs => prepare_encodings c encs is_query filter_skiplist) = Ok p) in HPR.
    apply bind_Ok in HPR. destruct HPR as (es & HE & HPR). rewrite preprocess_map in HE. apply (proj2 HT) in HE.
    assert (PE : Forall proper es).
    { clear -HE. remember (map (cleaned c) us) as xs. clear Heqxs. induction HE; constructor; auto. tauto. }
    rewrite (prepare_encodings_spec c es is_query filter_skiplist prefix M3 HP PE) in HPR. injection HPR as <-.
    apply batch_answers in H; auto; [|apply Forall_map; eapply Forall_impl; [|exact PE]; apply visible_nonempty].
    subst out. rewrite map_map. apply Forall2_map_l in HE. clear -HE. induction HE as [|x e l es (P & e' & E & V) _ IH]; cbn [map]; constructor; auto.
    exists e'. split; auto. now rewrite V.
  Qed.
  (** Single session and parallel sessions. *)
  Lemma chunked_spec n ts parts : 1 <= n -> Forall2 (fun ch p => encode_texts N c is_query filter_skiplist ch = Ok p) (chunks n ts) parts ->
    Forall2 (embeds c g) ts (concat parts).
  Proof.
    intros L H. rewrite <- (concat_chunks n ts L) at 1. apply Forall2_concat. eapply Forall2_impl_in; [|exact H]. cbn beta. intros ch p _ E. now apply encode_texts_spec.
  Qed.
End Paths.

Lemma encode_all_spec {T} (N : network) (M : model T) dim f is_query filter_skiplist prefix ts out :
  steady T -> ignores_padding N dim f -> 3 <= max_length (m_config M) is_query -> prefix_token (m_config M) is_query = Ok prefix ->
  encode_all N M is_query filter_skiplist ts = Ok out -> Forall2 (embeds (m_config M) (own N (m_config M) f is_query filter_skiplist prefix)) ts out.
Proof.
  intros HT HN M3 HP H. destruct ts as [|t ts]; [cbn in H; injection H as <-; constructor|]. unfold encode_all in H.
  destruct (m_sessions M =? 1).
  - unfold single_session in H. destruct (m_batch_size M =? 0) eqn:Q; [discriminate|]. apply Nat.eqb_neq in Q. apply bind_Ok in H. destruct H as (parts & H & E). injection E as <-.
    apply mapM_Ok_inv in H. apply (chunked_spec N (m_config M) dim f HT HN is_query filter_skiplist prefix M3 HP (m_batch_size M)); [lia|exact H].
  - unfold parallel in H. apply bind_Ok in H. destruct H as (parts & H & E). injection E as <-.
    apply join_all_ok, Forall2_map_l in H. apply (chunked_spec N (m_config M) dim f HT HN is_query filter_skiplist prefix M3 HP (Nat.max (m_batch_size M) 1)); [lia|exact H].
Qed.

(** * Prepared batches *)
Lemma filter_split {A} (h : A -> nat) k l : Permutation (filter (fun x => h x <? k) l ++ filter (fun x => h x =? k) l) (filter (fun x => h x <? S k) l).
Proof.
  induction l as [|x l IH]; cbn [filter]; [constructor|].
  destruct (h x <? k) eqn:Q1, (h x =? k) eqn:Q2, (h x <? S k) eqn:Q3; try (rewrite ?Nat.ltb_lt, ?Nat.ltb_ge, ?Nat.eqb_eq, ?Nat.eqb_neq in *; lia); cbn [app]; auto.
  rewrite <- IH. symmetry. apply Permutation_middle.
Qed.
Lemma buckets_perm {A} (h : A -> nat) l k : Permutation (flat_map (fun i => filter (fun x => h x =? i) l) (seq 0 k)) (filter (fun x => h x <? k) l).
Proof.
  induction k as [|k IH]; [cbn; clear; induction l; cbn; auto|]. rewrite seq_S, flat_map_app. cbn [flat_map Nat.add]. rewrite app_nil_r, IH. apply filter_split.
Qed.
Lemma filter_all {A} (p : A -> bool) l : Forall (fun x => p x = true) l -> filter p l = l.
Proof. induction 1 as [|x l H _ IH]; cbn; auto. now rewrite H, IH. Qed.

Section Batches.
  Context {T : tokenizer} (M : model T) (prefix : nat).
  Notation c := (m_config M).
  Context (M3 : 3 <= document_length c) (HP : prefix_token c false = Ok prefix).
  Definition piece := (list (nat * tokenized) * option nat)%type.
  Definition piece_batch (p : piece) : prepared :=
    let vs := map pairs (map snd (fst p)) in batch c false true prefix (batch_len c false (snd p) vs) vs (map fst (fst p)).
  (** The batches hold every document once. *)
  Definition covers (docs : list tokenized) (ps : list piece) : Prop :=
    Permutation (concat (map fst ps)) (numbered docs) /\ Forall (fun p => fst p <> []) ps.
  Lemma mapM_pieces pad (l : list (list (nat * tokenized))) : Forall (Forall (fun p => proper_tokenized (snd p))) l ->
    mapM (fun piece => prepare_tokenized c (map snd piece) false true (map fst piece) pad) l = Ok (map piece_batch (map (fun p => (p, pad)) l)).
  Proof.
    intros F. rewrite map_map. apply mapM_Ok_map. intros p I. rewrite Forall_forall in F. specialize (F p I). unfold piece_batch. cbn [fst snd].
    apply prepare_tokenized_spec; auto. now apply Forall_map.
  Qed.
  Lemma chunks_nonempty {A} n (l : list A) : 1 <= n -> Forall (fun p => p <> []) (chunks n l).
  Proof. intros L. apply Forall_forall. intros p. apply chunks_fuel_nonempty. exact L. Qed.
  Lemma Forall_concat_inv {A} (P : A -> Prop) ls : Forall P (concat ls) -> Forall (Forall P) ls.
  Proof. induction ls as [|l ls IH]; cbn; intros H; constructor; apply Forall_app in H; [tauto|apply IH; tauto]. Qed.
  Lemma numbered_proper docs : Forall proper_tokenized docs -> Forall (fun p => proper_tokenized (snd p)) (numbered docs).
  Proof. intros F. apply Forall_map with (f := snd) (P := proper_tokenized). now rewrite numbered_snd. Qed.
  Lemma map_fst_const {A B} (l : list A) (b : B) : map fst (map (fun p => (p, b)) l) = l.
  Proof. induction l; cbn; congruence. Qed.
  Lemma static_spec docs : Forall proper_tokenized docs -> exists ps, static_batches M docs = Ok (map piece_batch ps) /\ covers docs ps /\
    Forall (fun p => length (fst p) <= Nat.max (m_batch_size M) 1 /\ snd p = None) ps.
  Proof.
    intros F. unfold static_batches. set (n := Nat.max (m_batch_size M) 1). assert (1 <= n) by lia.
    exists (map (fun p => (p, None)) (chunks n (numbered docs))). split; [|split].
    - apply mapM_pieces. apply Forall_concat_inv. rewrite concat_chunks by auto. now apply numbered_proper.
    - split; [|apply Forall_map; now apply chunks_nonempty]. rewrite map_fst_const, concat_chunks by auto. reflexivity.
    - apply Forall_map. apply Forall_forall. intros p I. split; auto. cbn. now apply chunks_len in I.
  Qed.
  Lemma dynamic_spec cap docs : Forall proper_tokenized docs ->
    (forall d, In d docs -> bucket_index (dynamic_shapes cap (Nat.max (m_batch_size M) 1) (document_length c)) (prepared_len (document_length c) d)
       < length (dynamic_shapes cap (Nat.max (m_batch_size M) 1) (document_length c))) ->
    exists ps, dynamic_batches cap M docs = Ok (map piece_batch ps) /\ covers docs ps /\
    Forall (fun p => exists i n planned, nth_error (dynamic_shapes cap (Nat.max (m_batch_size M) 1) (document_length c)) i = Some (n, planned) /\
      snd p = Some planned /\ length (fst p) <= Nat.max n 1 /\
      Forall (fun x => bucket_index (dynamic_shapes cap (Nat.max (m_batch_size M) 1) (document_length c)) (prepared_len (document_length c) (snd x)) = i) (fst p)) ps.
  Proof.
    intros F B. unfold dynamic_batches. set (m := document_length c) in *. set (shapes := dynamic_shapes _ _ _) in *.
    set (items := isort _ (numbered docs)).
    assert (PI : Permutation items (numbered docs)) by apply isort_perm.
    set (h := fun x : nat * tokenized => bucket_index shapes (prepared_len m (snd x))).
    assert (HB : Forall (fun x => h x < length shapes) items).
    { apply Forall_forall. intros x I. eapply Permutation_in in I; [|exact PI]. apply B. rewrite <- (numbered_snd docs). now apply in_map. }
    assert (FI : Forall (fun p => proper_tokenized (snd p)) items) by (eapply Permutation_Forall; [symmetry; exact PI|now apply numbered_proper]).
    replace (existsb _ items) with false.
    2: { symmetry. apply Bool.not_true_is_false. intros E. apply existsb_exists in E. destruct E as (x & I & E). rewrite Forall_forall in HB. specialize (HB x I). apply Nat.leb_le in E. unfold h in HB. lia. }
    set (bucket := fun i => filter (fun x => h x =? i) items).
    set (row_of := fun e : nat * (nat * nat) => map (fun p => (p, Some (snd (snd e)))) (chunks (Nat.max (fst (snd e)) 1) (bucket (fst e)))).
    exists (flat_map row_of (numbered shapes)). split; [|split].
    - rewrite (mapM_Ok_map _ (fun e => map piece_batch (row_of e))).
      + cbn [bind]. rewrite flat_map_concat_map, concat_map, map_map. reflexivity.
      + intros (i & n & planned) _. change (filter (fun x => bucket_index shapes (prepared_len m (snd x)) =? i) items) with (bucket i). unfold row_of. cbn [fst snd].
        apply mapM_pieces. apply Forall_concat_inv. rewrite concat_chunks by lia. unfold bucket. clear -FI. induction FI as [|x l H _ IH]; cbn; auto. destruct (h x =? i); auto.
    - split.
      + assert (E : concat (map fst (flat_map row_of (numbered shapes))) = flat_map bucket (seq 0 (length shapes))).
        { rewrite <- numbered_fst. generalize (numbered shapes). intros l. induction l as [|e l IH]; cbn [flat_map map]; auto.
          rewrite map_app, concat_app, IH. f_equal. unfold row_of. rewrite map_fst_const, concat_chunks by lia. reflexivity. }
        rewrite E. unfold bucket. rewrite buckets_perm, filter_all; auto. eapply Forall_impl; [|exact HB]. intros x L. now apply Nat.ltb_lt.
      + apply Forall_forall. intros p I. apply in_flat_map in I. destruct I as (e & _ & I). unfold row_of in I. apply in_map_iff in I. destruct I as (q & <- & I).
        cbn. revert I. apply chunks_fuel_nonempty. lia.
    - apply Forall_forall. intros p I. apply in_flat_map in I. destruct I as ((i & n & planned) & IE & I). unfold row_of in I. apply in_map_iff in I. destruct I as (q & <- & I). cbn [fst snd] in *.
      exists i, n, planned. split; [|split; [reflexivity|split; [now apply chunks_len in I|]]].
      + apply In_nth_error in IE. destruct IE as (k & IE). rewrite numbered_nth in IE. destruct (nth_error shapes k) as [s|] eqn:ES; [|discriminate]. cbn in IE. injection IE as <- <-. exact ES.
      + apply Forall_forall. intros x IX. assert (IB : In x (bucket i)). { rewrite <- (concat_chunks (Nat.max n 1) (bucket i)) by lia. apply in_concat. eauto. }
        unfold bucket in IB. apply filter_In in IB. destruct IB as (_ & IB). now apply Nat.eqb_eq in IB.
  Qed.
End Batches.
