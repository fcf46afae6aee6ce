(** Prepared batches given back in another order or in part; no panics; totality; the numbers of
    rows; a tokenizer and a network. *)
From Verif Require Import Base Onnx OnnxSpec OnnxPrepare OnnxEncode OnnxPaths OnnxShapes OnnxBatches OnnxStream.
Open Scope nat_scope.

Lemma own_document {T} (N : network) (c : config T) f prefix v : own N c f false true prefix v = document_embedding c f prefix v.
Proof.
  unfold own, embedding, document_embedding, full. cbn [andb]. f_equal. apply filter_ext. intros (t, o). cbn [fst]. unfold skipped, skip_token, build_skiplist.
  cbn [andb]. f_equal. induction (skiplist_words c) as [|w l IH]; [reflexivity|]. cbn [flat_map existsb]. rewrite existsb_app, IH.
  destruct (token_id T w) as [i|]; cbn [existsb]; [rewrite orb_false_r, Nat.eqb_sym|]; reflexivity.
Qed.
Lemma filter_true {A} (l : list A) : filter (fun _ => true) l = l.
Proof. induction l; cbn; congruence. Qed.
Lemma snd_combine {A B} (l : list A) (r : list B) : length l = length r -> map snd (combine l r) = r.
Proof. revert r. induction l as [|x l IH]; intros [|y r] L; cbn in *; try discriminate; auto. rewrite IH; auto. Qed.
Lemma own_query {T} (N : network) (c : config T) f prefix v : (forall ids types, length (f ids types) = length ids) ->
  own N c f true false prefix v = query_embedding c f prefix v.
Proof.
  intros L. unfold own, embedding, query_embedding, full. cbn [andb max_length]. destruct (do_query_expansion c); auto.
  unfold skipped. cbn [andb negb]. rewrite filter_true. apply snd_combine. unfold outputs. now rewrite L.
Qed.
Lemma prefix_document {T} (c : config T) prefix : prefix_of (document_prefix_id c) (document_prefix c) prefix -> prefix_token c false = Ok prefix.
Proof. unfold prefix_token. intros [->|(-> & ->)]; reflexivity. Qed.
Lemma prefix_query {T} (c : config T) prefix : prefix_of (query_prefix_id c) (query_prefix c) prefix -> prefix_token c true = Ok prefix.
Proof. unfold prefix_token. intros [->|(-> & ->)]; reflexivity. Qed.
Lemma embeds_ext {T V} (c : config T) (g h : list (nat * nat) -> list (list V)) ts out : (forall v, g v = h v) ->
  Forall2 (embeds c g) ts out -> Forall2 (embeds c h) ts out.
Proof. intros E F. eapply Forall2_impl_in; [|exact F]. intros t o _ (e & A & B). exists e. now rewrite <- E. Qed.
Lemma embeds_det {T V} (c : config T) (g : list (nat * nat) -> list (list V)) ts out out' :
  Forall2 (embeds c g) ts out -> Forall2 (embeds c g) ts out' -> out = out'.
Proof.
  intros F. revert out'. induction F as [|t o ts out (e & E & ->) _ IH]; intros out' F'; inversion F' as [|t' o' ts' out2 (e' & E' & ->) F2]; subst; auto.
  rewrite E in E'. injection E' as <-. f_equal. now apply IH.
Qed.

(** * Totality *)
Lemma chunked_total {T} (N : network) (c : config T) dim f is_query filter_skiplist prefix ts :
  steady T -> ignores_padding N dim f -> 3 <= max_length c is_query -> prefix_token c is_query = Ok prefix -> answers N dim ->
  (forall us, exists es, encode_batch T us = Ok es) -> exists out, encode_texts N c is_query filter_skiplist ts = Ok out.
Proof.
  intros HT HN M3 HP AN EB. destruct ts as [|t ts]; [now exists []|]. set (us := t :: ts). unfold encode_texts.
  change (exists out, bind (bind (encode_batch T (preprocess c us)) (fun encs => prepare_encodings c encs is_query filter_skiplist)) (encode_prepared N c) = Ok out).
  destruct (EB (preprocess c us)) as (es & E). rewrite E. cbn [bind]. apply (proj2 HT) in E.
  assert (PE : Forall proper es) by (clear -E; remember (preprocess c us) as xs; clear Heqxs; induction E; constructor; auto; tauto).
  rewrite (prepare_encodings_spec c es is_query filter_skiplist prefix M3 HP PE). cbn [bind]. eexists. eapply batch_total; eauto.
  apply Forall_map. eapply Forall_impl; [|exact PE]. intros e HE. now apply visible_nonempty.
Qed.
Lemma encode_all_total {T} (N : network) (M : model T) dim f is_query filter_skiplist prefix ts :
  steady T -> ignores_padding N dim f -> 3 <= max_length (m_config M) is_query -> prefix_token (m_config M) is_query = Ok prefix -> answers N dim ->
  (forall us, exists es, encode_batch T us = Ok es) -> 1 <= m_batch_size M -> exists out, encode_all N M is_query filter_skiplist ts = Ok out.
Proof.
  intros HT HN M3 HP AN EB B. destruct ts as [|t ts]; [now exists []|]. unfold encode_all.
  assert (K : forall l, exists parts, Forall2 (fun us out => encode_texts N (m_config M) is_query filter_skiplist us = Ok out) l parts).
  { induction l as [|us l (parts & IH)]; [exists []; constructor|]. destruct (chunked_total N (m_config M) dim f is_query filter_skiplist prefix us) as (o & O); auto. exists (o :: parts). now constructor. }
  destruct (m_sessions M =? 1).
  - unfold single_session. replace (m_batch_size M =? 0) with false by (symmetry; apply Nat.eqb_neq; lia).
    destruct (K (chunks (m_batch_size M) (t :: ts))) as (parts & F). rewrite (mapM_Forall2 _ _ _ F). cbn. eauto.
  - unfold parallel. destruct (K (chunks (Nat.max (m_batch_size M) 1) (t :: ts))) as (parts & F). unfold join_all.
    replace (existsb panicked _) with false.
    + rewrite (mapM_Forall2 (fun r => r) (map (encode_texts N (m_config M) is_query filter_skiplist) (chunks (Nat.max (m_batch_size M) 1) (t :: ts))) parts); [cbn; eauto|now apply Forall2_map_l].
    + symmetry. clear -F. induction F as [|x o l r E _ IH]; cbn [map existsb]; auto. now rewrite E.
Qed.

(** * Batches in another order, or not all of them *)
Lemma restore_length {A} idxs (enc out : list A) : restore idxs enc = Ok out -> length out = length enc.
Proof.
  unfold restore. intros H. apply bind_Ok in H. destruct H as (slots & E & H). apply mapM_Ok_inv in H. apply f2_len in H.
  apply place_len in E. rewrite repeat_length in E. lia.
Qed.
Lemma restore_calm {A} idxs (enc : list A) : restore idxs enc <> Panic.
Proof.
  unfold restore. destruct (place _ _ _ _) as [slots| |] eqn:E; cbn; try discriminate; [|exfalso; now apply place_never in E].
  apply mapM_calm. intros [x|] _; discriminate.
Qed.
Lemma concat_perm {A B} (h : A -> list B) l r : Permutation l r -> Permutation (concat (map h l)) (concat (map h r)).
Proof.
  induction 1; cbn; auto; [now apply Permutation_app_head|rewrite !app_assoc; apply Permutation_app_tail, Permutation_app_comm|etransitivity; eauto].
Qed.
Section Batched.
  Context {T : tokenizer} (N : network) (M : model T) (dim : nat) (f : list nat -> option (list nat) -> list (list (value N))).
  Notation c := (m_config M).
  Context (HT : steady T) (HN : ignores_padding N dim f) (prefix : nat) (M3 : 3 <= document_length c) (HP : prefix_token c false = Ok prefix).
  Notation g := (own N c f false true prefix).
  Lemma encode_batches_unfold cancelled (qs : list (piece )) : qs <> [] ->
    encode_batches N M cancelled (map (piece_batch M prefix) qs) =
    bind (encoded_parts N M cancelled (map (piece_batch M prefix) qs)) (fun parts =>
          if negb (existsb (fun b => negb (length (b_origin b) =? 0)) (map (piece_batch M prefix) qs)) || negb (length (flat_map b_origin (map (piece_batch M prefix) qs)) =? length (concat parts))
          then Ok (concat parts) else restore (flat_map b_origin (map (piece_batch M prefix) qs)) (concat parts)).
  Proof. destruct qs; [congruence|reflexivity]. Qed.
  Lemma some_batches cancelled docs ps qs rest out : Forall proper_tokenized docs -> covers docs ps -> Permutation ps (qs ++ rest) ->
    encode_batches N M cancelled (map (piece_batch M prefix) qs) = Ok out ->
    out = map (fun d => g (pairs d)) (firstn (length out) docs) /\ length out = list_sum (map (fun p => length (fst p)) qs).
  Proof.
    intros F CV P H. assert (D : qs = [] \/ qs <> []) by (destruct qs; [now left|right; discriminate]). destruct D as [E|NQ].
    { subst qs. cbn in H. injection H as <-. split; reflexivity. }
    rewrite encode_batches_unfold in H by auto.
    apply bind_Ok in H. destruct H as (parts & H1 & H2). apply encoded_parts_ok in H1. apply Forall2_map_l in H1.
    pose proof (covers_proper docs ps F CV) as CP. destruct CV as (CV & CN).
    assert (CP2 : Forall (fun p => Forall (fun x => proper_tokenized (snd x)) (fst p)) qs).
    { rewrite Forall_forall in *. intros p I. apply CP. eapply Permutation_in; [symmetry; exact P|]. apply in_or_app. now left. }
    assert (CN2 : Forall (fun p => fst p <> []) qs).
    { rewrite Forall_forall in *. intros p I. apply CN. eapply Permutation_in; [symmetry; exact P|]. apply in_or_app. now left. }
    assert (F3 : Forall2 (fun p out => out = map (fun x => g (pairs (snd x))) (fst p)) qs parts).
    { rewrite Forall_forall in CP2. eapply Forall2_impl_in; [|exact H1]. cbn beta. intros q o I E. eapply piece_answers; eauto. }
    rewrite (parts_concat N M f prefix qs parts F3), (origins M prefix), !map_length, Nat.eqb_refl in H2.
    assert (EX : existsb (fun b => negb (length (b_origin b) =? 0)) (map (piece_batch M prefix) qs) = true).
    { destruct qs as [|p qs']; [congruence|]. inversion CN2; subst. cbn [map existsb]. apply Bool.orb_true_iff. left. unfold piece_batch. cbn [batch b_origin]. rewrite map_length.
      destruct (fst p); [congruence|reflexivity]. }
    rewrite EX in H2. cbn [negb orb] in H2. set (items := concat (map fst qs)) in *.
    pose proof (restore_length _ _ _ H2) as LO. rewrite map_length in LO.
    assert (PI : Permutation (numbered docs) (items ++ concat (map fst rest))).
    { rewrite <- CV. unfold items. rewrite <- concat_app, <- map_app. now apply concat_perm. }
    assert (LN : length (numbered docs) = length docs) by (unfold numbered; rewrite combine_length, seq_length; lia).
    assert (LI : length items <= length docs).
    { pose proof (Permutation_length PI) as L. rewrite app_length in L. lia. }
    split; [|rewrite LO; unfold items, list_sum; clear; induction qs as [|p qs IH]; cbn; auto; rewrite app_length, IH; lia].
    apply restore_general in H2; [|now rewrite !map_length]. destruct H2 as (PS & NT). rewrite map_length in PS.
    apply nth_ext_error. intros t. rewrite nth_error_map. destruct (Nat.lt_ge_cases t (length out)) as [L|L].
    - assert (I : In t (map fst items)) by (eapply Permutation_in; [symmetry; exact PS|]; apply in_seq; lia).
      apply in_map_iff in I. destruct I as ((t' & d) & ET & I). cbn in ET. subst t'. pose proof I as I2. apply In_nth_error in I. destruct I as (i & I).
      rewrite (NT i t (g (pairs d))); [|now rewrite nth_error_map, I|now rewrite nth_error_map, I].
      assert (ID : In (t, d) (numbered docs)) by (eapply Permutation_in; [symmetry; exact PI|]; apply in_or_app; now left).
      apply In_nth_error in ID. destruct ID as (k & ID). rewrite numbered_nth in ID. destruct (nth_error docs k) eqn:EK; [|discriminate]. cbn in ID. injection ID as -> ->.
      assert (EF : nth_error (firstn (length out) docs) t = Some d).
      { rewrite <- EK. rewrite <- (firstn_skipn (length out) docs) at 2. symmetry. apply nth_error_app1. rewrite firstn_length. lia. }
      now rewrite EF.
    - assert (E1 : nth_error out t = None) by (now apply nth_error_None). rewrite E1.
      assert (E2 : nth_error (firstn (length out) docs) t = None) by (apply nth_error_None; rewrite firstn_length; lia). now rewrite E2.
  Qed.
  Lemma some_batches_texts cap cancelled ts bs qs rest out : tokenize_batches cap M ts = Ok bs -> Permutation bs (qs ++ rest) ->
    encode_batches N M cancelled qs = Ok out ->
    Forall2 (embeds c g) (firstn (length out) ts) out /\ length out = list_sum (map b_size qs).
  Proof.
    intros HB P H. destruct (tokenize_batches_spec M HT prefix M3 HP cap ts bs HB) as (docs & ps & F2 & -> & CV & _).
    assert (F : Forall proper_tokenized docs) by (clear -F2; induction F2 as [|x d l r (e & _ & _ & PR) _ IH]; constructor; auto).
    apply Permutation_sym, Permutation_map_inv in P. destruct P as (ls & EQ & P). symmetry in EQ. apply map_eq_app in EQ. destruct EQ as (l1 & l2 & -> & <- & <-).
    destruct (some_batches cancelled docs ps l1 l2 out F CV P H) as (EO & LO).
    split.
    - assert (F3 : Forall2 (tokens_of M) (firstn (length out) ts) (firstn (length out) docs)) by now apply Forall2_firstn.
      set (n := length out) in *. clearbody n. subst out. clear -F3. revert F3. generalize (firstn n ts) (firstn n docs). intros l r F3.
      induction F3 as [|x d l r (e & E & V & _) _ IH]; cbn; constructor; auto. exists e. split; auto. now rewrite V.
    - rewrite LO. rewrite map_map. f_equal. apply map_ext. intros p. unfold piece_batch. cbn [batch b_size]. now rewrite !map_length.
  Qed.
  (** No panics. *)
  Context (HC : calm T N).
  Lemma tokenize_one_calm (t : text T) : tokenize_one t <> Panic.
  Proof.
    unfold tokenize_one. destruct (encode T t) as [e| |] eqn:E; cbn [bind]; [|discriminate|exfalso; now apply (proj1 HC) in E].
    destruct (tokenize_one_total HT t e E) as (d & D). unfold tokenize_one in D. rewrite E in D. cbn [bind] in D. rewrite D. discriminate.
  Qed.
  Lemma tokenize_batches_calm cap ts : tokenize_batches cap M ts <> Panic.
  Proof.
    destruct ts as [|t ts]; [discriminate|]. unfold tokenize_batches.
    destruct (join_all (map tokenize_one (preprocess c (t :: ts)))) as [docs| |] eqn:E; cbn [bind]; [|discriminate|].
    - apply join_all_ok, Forall2_map_l in E.
      assert (F : Forall proper_tokenized docs).
      { clear -E HT. induction E as [|x d l r Q _ IH]; constructor; auto. apply (tokenize_one_spec HT) in Q. destruct Q as (e & _ & _ & P). exact P. }
      destruct (mode_batches M prefix M3 HP cap docs F) as (ps & EQ & _). rewrite EQ. discriminate.
    - exfalso. revert E. apply join_all_calm. intros r I. apply in_map_iff in I. destruct I as (x & <- & _). apply tokenize_one_calm.
  Qed.
  Lemma encode_batches_calm cap cancelled ts bs : tokenize_batches cap M ts = Ok bs -> encode_batches N M cancelled bs <> Panic.
  Proof.
    intros HB. destruct (tokenize_batches_spec M HT prefix M3 HP cap ts bs HB) as (docs & ps & F2 & -> & CV & _).
    assert (F : Forall proper_tokenized docs) by (clear -F2; induction F2 as [|x d l r (e & _ & _ & PR) _ IH]; constructor; auto).
    destruct ps as [|p ps]; [discriminate|]. remember (p :: ps) as qs eqn:EQ. assert (NQ : qs <> []) by (subst; discriminate). clear p ps EQ.
    rewrite encode_batches_unfold by auto. pose proof (covers_proper docs qs F CV) as CP.
    assert (K : forall q, In q qs -> encode_prepared N c (piece_batch M prefix q) <> Panic).
    { intros q I. rewrite Forall_forall in CP. specialize (CP q I). unfold piece_batch. apply (batch_calm N c dim f HN HC); auto.
      rewrite map_map. apply Forall_map. eapply Forall_impl; [|exact CP]. intros x A. now apply pairs_nonempty. }
    assert (K2 : forall x, In x (numbered (map (piece_batch M prefix) qs)) -> (let '(i, b) := x in if cancelled i then Err else encode_prepared N c b) <> Panic).
    { intros (i & b) I. destruct (cancelled i); [discriminate|]. apply in_map with (f := snd) in I. rewrite numbered_snd in I. cbn in I. apply in_map_iff in I. destruct I as (q & <- & I). now apply K. }
    assert (K3 : encoded_parts N M cancelled (map (piece_batch M prefix) qs) <> Panic).
    { unfold encoded_parts. destruct ((_ <=? _) || _).
      - apply mapM_calm. exact K2.
      - apply join_all_calm. intros r I. apply in_map_iff in I. destruct I as (x & <- & I). exact (K2 x I). }
    destruct (encoded_parts N M cancelled (map (piece_batch M prefix) qs)); cbn [bind]; [|discriminate|congruence].
    destruct (_ || _); [discriminate|apply restore_calm].
  Qed.
End Batched.

(** * The number of rows *)
Lemma document_rows {T V} (c : config T) (f : list nat -> option (list nat) -> list (list V)) prefix v : 3 <= document_length c ->
  length (document_embedding c f prefix v) <= document_length c.
Proof.
  intros M. unfold document_embedding. rewrite map_length. etransitivity.
  - assert (L : forall (A : Type) (p : A -> bool) l, length (filter p l) <= length l) by (intros A p l; induction l as [|x l IH]; cbn; auto; destruct (p x); cbn; lia). apply L.
  - rewrite combine_length, map_length. destruct v as [|x v]; [cbn; lia|]. rewrite sequence_length by (auto; discriminate). pose proof (effective_le (document_length c) (length (x :: v)) ltac:(lia)). lia.
Qed.
Lemma query_rows {T V} (c : config T) (f : list nat -> option (list nat) -> list (list V)) prefix v : 3 <= query_length c -> v <> [] ->
  (forall ids types, length (f ids types) = length ids) ->
  length (query_embedding c f prefix v) = if do_query_expansion c then query_length c else Nat.min (length v + 1) (query_length c).
Proof.
  intros M NE L. unfold query_embedding, outputs. rewrite L, map_length. pose proof (sequence_length (query_length c) prefix v M NE) as SL.
  unfold effective_len in SL. destruct (do_query_expansion c); [rewrite app_length, repeat_length|]; destruct (_ <? _) eqn:Q; rewrite ?Nat.ltb_lt, ?Nat.ltb_ge in *; lia.
Qed.

Lemma nth_firstn_lt {A} (l : list A) k j d : j < k -> nth j (firstn k l) d = nth j l d.
Proof. revert k j. induction l as [|x l IH]; intros [|k] [|j] L; cbn; auto; try lia. apply IH. lia. Qed.
Lemma nth_skipn_plus {A} (l : list A) k j d : nth j (skipn k l) d = nth (k + j) l d.
Proof. revert k. induction l as [|x l IH]; intros [|k]; cbn; auto; now destruct j. Qed.
(** * A tokenizer and a network *)
(** Texts are lists of token ids; 101 and 102 frame them; a batch is padded to its longest. *)
Definition toy_encode (t : list nat) : encoding :=
  {| e_ids := 101 :: t ++ [102]; e_masks := repeat 1 (S (S (length t))); e_types := repeat 0 (S (S (length t))) |}.
Definition toy_pad (n : nat) (e : encoding) : encoding :=
  {| e_ids := e_ids e ++ repeat 0 (n - length (e_ids e)); e_masks := e_masks e ++ repeat 0 (n - length (e_ids e)); e_types := e_types e ++ repeat 0 (n - length (e_ids e)) |}.
Definition toy_tokenizer : tokenizer := {|
  text := list nat;
  trim t := filter (fun x => negb (x =? 32)) t;
  lower t := t;
  encode t := Ok (toy_encode t);
  encode_batch ts := Ok (map (toy_pad (list_max (map (fun t => S (S (length t))) ts))) (map toy_encode ts));
  token_id t := match t with [i] => Some i | _ => None end |}.
Lemma leading_ones n rest : leading (repeat 1 n ++ repeat 0 rest) = n.
Proof. induction n as [|n IH]; cbn; [destruct rest; reflexivity|now rewrite IH]. Qed.
Lemma repeat01 n rest : Forall (fun m => m = 0 \/ m = 1) (repeat 1 n ++ repeat 0 rest).
Proof. apply Forall_app. split; apply Forall_forall; intros x I; apply repeat_spec in I; auto. Qed.
Lemma toy_steady : steady toy_tokenizer.
Proof.
  split.
  - intros t e H. cbn in H. injection H as <-. unfold proper. cbn [e_ids e_masks e_types toy_encode]. cbn [length]. rewrite app_length, !repeat_length. cbn [length].
    repeat split; try lia; [|cbn; lia]. pose proof (repeat01 (S (S (length t))) 0) as R. now rewrite app_nil_r in R.
  - intros ts es H. cbn [encode_batch toy_tokenizer] in H. set (n := list_max _) in H. injection H as <-. rewrite map_map. clearbody n.
    induction ts as [|t ts IH]; cbn [map]; constructor; auto. split.
    + unfold proper, toy_pad. cbn [e_ids e_masks e_types toy_encode]. rewrite !app_length, !repeat_length. cbn [length]. rewrite app_length. cbn [length].
      split; [lia|]. split; [lia|]. split; [apply repeat01|]. rewrite leading_ones. lia.
    + exists (toy_encode t). split; [reflexivity|]. unfold visible, toy_pad. cbn [e_ids e_masks e_types toy_encode].
      pose proof (leading_ones (S (S (length t))) 0) as L. rewrite app_nil_r in L. rewrite L, leading_ones. clear L.
      rewrite !firstn_app, !repeat_length. cbn [length]. rewrite !app_length. cbn [length]. replace (S (S (length t)) - S (length t + 1)) with 0 by lia.
      replace (S (S (length t)) - S (S (length t))) with 0 by lia. cbn [firstn]. now rewrite !app_nil_r.
Qed.
(** A network of dimension 2: the token, and the sum of the attended tokens of the row. *)
Definition toy_sum (ids mask : list nat) : nat := list_sum (map (fun p => fst p * snd p) (combine ids mask)).
Definition toy_network : network := {|
  value := nat;
  run size len ids mask _ := Ok ([size; len; 2], concat (map (fun p => [nth p ids 0; toy_sum (row ids len (p / len)) (row mask len (p / len))]) (seq 0 (size * len)))) |}.
Definition toy_f (ids : list nat) (_ : option (list nat)) : list (list nat) := map (fun t => [t; list_sum ids]) ids.
Lemma toy_sum_ones r rest ids : r <= length ids -> toy_sum ids (repeat 1 r ++ repeat 0 rest) = list_sum (firstn r ids).
Proof.
  unfold toy_sum. revert ids. induction r as [|r IH]; intros ids L.
  - cbn [repeat app firstn]. clear. revert rest. induction ids as [|x ids IH]; intros [|rest]; cbn; auto. rewrite Nat.mul_0_r. cbn. apply IH.
  - destruct ids as [|x ids]; cbn in L; [lia|]. cbn [repeat app combine map list_sum fold_right firstn fst snd]. unfold list_sum in IH. rewrite IH by lia. lia.
Qed.
Lemma toy_ignores : ignores_padding toy_network 2 toy_f.
Proof.
  split; [intros; unfold toy_f; now rewrite map_length|].
  intros size len ids mask types shape data LI LM LT H. cbn [run toy_network] in H. injection H as <- <-.
  set (cells := map _ (seq 0 (size * len))).
  assert (C2 : Forall (fun l => length l = 2) cells) by (apply Forall_map, Forall_forall; reflexivity).
  assert (LC : length cells = size * len) by (unfold cells; now rewrite map_length, seq_length).
  split; [reflexivity|]. split; [exact (eq_trans (concat_length_all 2 cells C2) (f_equal (fun n => n * 2) LC))|].
  intros i r I R HR j J.
  assert (P : i * len + j < size * len) by nia.
  transitivity (nth (i * len + j) cells []); [apply (row_concat 2 cells); [exact C2|rewrite LC; exact P]|]. unfold cells. rewrite (nth_map_lt _ _ _ [] 0) by (rewrite seq_length; lia). rewrite seq_nth by lia. cbn [plus].
  replace ((i * len + j) / len) with i by (rewrite Nat.div_add_l by lia; rewrite Nat.div_small by lia; lia).
  assert (LR : length (row ids len i) = len) by (unfold row; rewrite firstn_length, skipn_length, LI; nia).
  rewrite HR, toy_sum_ones by lia. unfold toy_f.
  rewrite (nth_map_lt _ _ _ [] 0) by (rewrite firstn_length; lia). f_equal. unfold row.
  rewrite nth_firstn_lt by lia. rewrite nth_firstn_lt by lia. now rewrite nth_skipn_plus.
Qed.
Lemma toy_answers : answers toy_network 2.
Proof.
  intros size len ids mask types. eexists; eexists. split; [reflexivity|]. split; [reflexivity|].
  etransitivity; [apply (concat_length_all 2); apply Forall_map, Forall_forall; reflexivity|]. now rewrite map_length, seq_length.
Qed.
Lemma toy_calm : calm toy_tokenizer toy_network.
Proof. repeat split; intros; discriminate. Qed.
