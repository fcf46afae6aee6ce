(** The rows of a prepared batch. *)
From Verif Require Import Base Onnx OnnxSpec.
Open Scope nat_scope.

Definition attended (x : nat * nat) : triple := (fst x, 1, snd x).
Definition good (s : source) (v : list (nat * nat)) : Prop :=
  s_real s = length v /\ v <> [] /\ forall i x, nth_error v i = Some x -> at_source s i = Ok (attended x).

Lemma put_app (a b : list triple) x y : put (a ++ x :: b) (length a) y = Ok (a ++ y :: b).
Proof.
  unfold put. rewrite app_length. cbn [length]. replace (length a <? length a + S (length b)) with true by (symmetry; apply Nat.ltb_lt; lia).
  f_equal. induction a as [|z a IH]; cbn; [reflexivity|now rewrite IH].
Qed.
Lemma put_at (a b : list triple) x y pos : pos = length a -> put (a ++ x :: b) pos y = Ok (a ++ y :: b).
Proof. intros ->. apply put_app. Qed.
Lemma copy_app s d (xs : list (nat * nat)) : forall src (a b : list triple) pos toks, pos = length a ->
  (forall i x, nth_error xs i = Some x -> at_source s (src + i) = Ok (attended x)) ->
  copy s src (length xs) (a ++ repeat d (length xs) ++ b) pos toks =
  Ok (a ++ map attended xs ++ b, pos + length xs, toks ++ map fst xs).
Proof.
  induction xs as [|x xs IH]; intros src a b pos toks E H; cbn [length copy repeat map app].
  - now rewrite Nat.add_0_r, app_nil_r.
  - assert (E0 : at_source s src = Ok (attended x)) by (specialize (H 0 x eq_refl); now rewrite Nat.add_0_r in H).
    rewrite E0. cbn [bind]. rewrite (put_at a _ d _ pos E). cbn [bind].
    replace (a ++ attended x :: repeat d (length xs) ++ b) with ((a ++ [attended x]) ++ repeat d (length xs) ++ b) by now rewrite <- app_assoc.
    rewrite (IH (S src) (a ++ [attended x]) b (S pos)).
    + rewrite <- !app_assoc. cbn [app attended fst snd]. f_equal. f_equal. f_equal. lia.
    + rewrite app_length. cbn. lia.
    + intros i y HY. rewrite Nat.add_succ_comm. now apply H.
Qed.

Lemma last_nth {A} (l : list A) d : last l d = nth (length l - 1) l d.
Proof.
  induction l as [|x l IH]; [reflexivity|]. destruct l as [|y l]; [reflexivity|]. change (last (x :: y :: l) d) with (last (y :: l) d).
  rewrite IH. cbn [length]. now replace (S (S (length l)) - 1) with (S (S (length l) - 1)) by lia.
Qed.
Lemma sequence_length m p v : 3 <= m -> v <> [] -> length (sequence m p v) = effective_len m (length v).
Proof.
  intros M V. unfold effective_len. destruct v as [|x v]; [congruence|]. cbn [sequence]. set (L := length (x :: v)) in *. assert (EL : L = S (length v)) by reflexivity.
  destruct (m - 1 <? L) eqn:Q; [apply Nat.ltb_lt in Q|apply Nat.ltb_ge in Q].
  - replace (L <=? m - 1) with false by (symmetry; apply Nat.leb_gt; lia). cbn [length]. rewrite app_length, firstn_length. cbn [length]. lia.
  - replace (L <=? m - 1) with true by (symmetry; apply Nat.leb_le; lia). cbn [length]. lia.
Qed.
Lemma repeat_plus {A} (d : A) a b : repeat d (a + b) = repeat d a ++ repeat d b.
Proof. apply repeat_app. Qed.

(** One row: written in its place, and nowhere else. *)
Lemma fill_row_spec m prefix len s v (d : triple) n a b : 3 <= m -> good s v -> effective_len m (length v) <= len -> length a = n * len ->
  fill_row m prefix len n s (a ++ repeat d len ++ b) =
  Ok (a ++ (map attended (sequence m prefix v) ++ repeat d (len - length (sequence m prefix v))) ++ b,
      map fst (sequence m prefix v), length (sequence m prefix v)).
Proof.
  intros M (ER & NV & AT) LE LA. rewrite (sequence_length m prefix v M NV). unfold fill_row. rewrite ER.
  destruct v as [|x rest]; [congruence|]. cbn [sequence]. set (L := length (x :: rest)) in *. assert (EL : L = S (length rest)) by reflexivity.
  rewrite (AT 0 x eq_refl). cbn [bind]. unfold effective_len in *.
  assert (EXP : exists k, len = 2 + k /\ k = len - 2) by (exists (len - 2); destruct (m - 1 <? L) eqn:Q; [apply Nat.ltb_lt in Q|apply Nat.ltb_ge in Q]; lia).
  destruct EXP as (k & EK & EK'). assert (ED : repeat d len = d :: d :: repeat d k) by (rewrite EK; reflexivity). rewrite ED. cbn [app].
  rewrite <- LA. rewrite (put_app a). cbn [bind].
  replace (a ++ attended x :: d :: repeat d k ++ b) with ((a ++ [attended x]) ++ d :: repeat d k ++ b) by now rewrite <- app_assoc.
  rewrite (put_at (a ++ [attended x])) by (rewrite app_length; cbn; lia). cbn [bind].
  replace ((a ++ [attended x]) ++ (prefix, 1, 0) :: repeat d k ++ b) with ((a ++ [attended x; (prefix, 1, 0)]) ++ repeat d k ++ b) by (rewrite <- !app_assoc; reflexivity).
  destruct (m - 1 <? L) eqn:Q; [apply Nat.ltb_lt in Q|apply Nat.ltb_ge in Q].
  - replace (L <=? m - 1) with false by (symmetry; apply Nat.leb_gt; lia).
    set (xs := firstn (m - 3) rest).
    assert (LX : length xs = m - 3) by (unfold xs; rewrite firstn_length; lia).
    replace (m - 1 - 1 - 1) with (length xs) by lia.
    assert (EKK : k = length xs + S (k - length xs - 1)) by (rewrite LX; lia).
    rewrite EKK at 1. rewrite repeat_app, <- !app_assoc. rewrite (app_assoc a). cbn [repeat].
    rewrite (copy_app s d xs 1 (a ++ [attended x; (prefix, 1, 0)]) _ (length a + 2)).
    3: { intros i y HY. apply AT. cbn [Nat.add nth_error]. unfold xs in HY. rewrite <- HY. clear -HY.
         revert i HY. generalize (m - 3). induction rest as [|z rest IH]; intros [|q] [|i] HY; cbn in *; try discriminate; auto. }
    2: { rewrite app_length. reflexivity. }
    cbn [bind].
    assert (NZ : nth_error (x :: rest) (L - 1) = Some (last rest x)).
    { replace (L - 1) with (length rest) by lia. destruct rest as [|y rest]; [reflexivity|]. cbn [length nth_error].
      rewrite last_nth. cbn [length]. replace (S (length rest) - 1) with (length rest) by lia. apply nth_error_nth'. cbn. lia. }
    rewrite (AT _ _ NZ). cbn [bind].
    rewrite (app_assoc (a ++ [attended x; (prefix, 1, 0)]) (map attended xs)). cbn [app].
    rewrite (put_at ((a ++ [attended x; (prefix, 1, 0)]) ++ map attended xs)) by (rewrite !app_length, map_length; cbn [length]; lia).
    cbn [bind]. apply f_equal. apply f_equal2; [apply f_equal2|reflexivity]; [|cbn [map app fst attended]; now rewrite map_app]. cbn [map]. rewrite map_app.
    rewrite <- !app_assoc. cbn [app map]. rewrite <- !app_assoc. cbn [app].
    replace (len - m) with (k - length xs - 1) by lia. reflexivity.
  - replace (L <=? m - 1) with true by (symmetry; apply Nat.leb_le; lia).
    replace (L - 1) with (length rest) by lia.
    assert (EKK : k = length rest + (k - length rest)) by lia.
    rewrite EKK at 1. rewrite repeat_app, <- !app_assoc. rewrite (app_assoc a).
    rewrite (copy_app s d rest 1 (a ++ [attended x; (prefix, 1, 0)]) _ (length a + 2)).
    3: { intros i y HY. apply AT. exact HY. }
    2: { rewrite app_length. reflexivity. }
    cbn [bind map app fst]. apply f_equal. apply f_equal2; [apply f_equal2|reflexivity]; [|reflexivity]. rewrite <- !app_assoc. cbn [app attended fst snd].
    replace (len - (L + 1)) with (k - length rest) by lia. reflexivity.
Qed.

Definition padded (d : triple) len (s : list (nat * nat)) : list triple := map attended s ++ repeat d (len - length s).
Lemma fill_rows_spec m prefix len (d : triple) : 3 <= m -> forall docs vs n a, Forall2 good docs vs ->
  Forall (fun v => effective_len m (length v) <= len) vs -> length a = n * len ->
  fill_rows m prefix len n docs (a ++ repeat d (length docs * len)) =
  Ok (a ++ concat (map (fun v => padded d len (sequence m prefix v)) vs),
      map (fun v => map fst (sequence m prefix v)) vs, map (fun v => length (sequence m prefix v)) vs).
Proof.
  intros M docs. induction docs as [|s docs IH]; intros vs n a G LE LA; inversion G; subst; cbn [fill_rows length Nat.mul repeat map concat].
  - reflexivity.
  - inversion LE; subst. rewrite repeat_app.
    rewrite (fill_row_spec m prefix len s y d n a) by auto. cbn [bind]. fold (padded d len (sequence m prefix y)). rewrite app_assoc.
    rewrite (IH l' (S n)); auto.
    + cbn [bind]. now rewrite <- app_assoc.
    + rewrite app_length. unfold padded. rewrite app_length, map_length, repeat_length, sequence_length; auto; [lia|].
      match goal with H : good s y |- _ => apply H end.
Qed.

(** Padding of a batch. *)
Definition padding {T} (c : config T) (is_query : bool) : triple :=
  let expand := is_query && do_query_expansion c in (if expand then mask_token_id c else pad_token_id c, if expand then 1 else 0, 0).
Definition batch {T} (c : config T) (is_query filter_skiplist : bool) (prefix len : nat) (vs : list (list (nat * nat))) (origin : list nat) : prepared :=
  let seqs := map (sequence (max_length c is_query) prefix) vs in
  let flat := concat (map (padded (padding c is_query) len) seqs) in
  {| b_size := length vs; b_len := len; b_ids := map (fun x => fst (fst x)) flat; b_mask := map (fun x => snd (fst x)) flat;
     b_types := if uses_token_type_ids c then Some (map snd flat) else None;
     b_tokens := map (map fst) seqs; b_lengths := map (@length _) seqs; b_query := is_query; b_filter := filter_skiplist; b_origin := origin |}.
Lemma f2_len {A B} (P : A -> B -> Prop) l l' : Forall2 P l l' -> length l = length l'.
Proof. induction 1; cbn; auto. Qed.
Lemma prepare_spec {T} (c : config T) is_query filter_skiplist prefix len docs vs origin :
  3 <= max_length c is_query -> Forall2 good docs vs -> Forall (fun v => effective_len (max_length c is_query) (length v) <= len) vs ->
  prepare c is_query filter_skiplist prefix len docs origin = Ok (batch c is_query filter_skiplist prefix len vs origin).
Proof.
  intros M G LE. unfold prepare. change (if is_query && do_query_expansion c then mask_token_id c else pad_token_id c, if is_query && do_query_expansion c then 1 else 0, 0) with (padding c is_query).
  pose proof (fill_rows_spec _ prefix len (padding c is_query) M docs vs 0 [] G LE eq_refl) as E. cbn [app] in E. rewrite E. cbn [bind].
  unfold batch. rewrite (f2_len _ _ _ G), !map_map. reflexivity.
Qed.

(** The longest row decides the length of the batch. *)
Lemma fold_max {A} (g : A -> nat) l : forall z, z <= fold_left (fun acc x => Nat.max acc (g x)) l z /\
  Forall (fun x => g x <= fold_left (fun acc x => Nat.max acc (g x)) l z) l.
Proof.
  induction l as [|x l IH]; intros z; cbn [fold_left]; [auto|]. destruct (IH (Nat.max z (g x))) as (A1 & A2). split; [lia|]. constructor; [lia|]. exact A2.
Qed.
Lemma fold_max_le {A} (g : A -> nat) b l : forall z, z <= b -> Forall (fun x => g x <= b) l -> fold_left (fun acc x => Nat.max acc (g x)) l z <= b.
Proof. induction l as [|x l IH]; intros z Z F; cbn [fold_left]; auto. inversion F; subst. apply IH; auto. lia. Qed.
Lemma effective_le m r : 2 <= m -> effective_len m r <= m.
Proof. intros M. unfold effective_len. destruct (m - 1 <? r) eqn:Q; [lia|apply Nat.ltb_ge in Q; lia]. Qed.

(** Sources made from encodings and from tokenized documents. *)
Definition pairs (d : tokenized) : list (nat * nat) := combine (fst d) (snd d).
Definition source_tokenized (d : tokenized) : source :=
  {| s_ids := fst d; s_masks := repeat 1 (length (fst d)); s_types := snd d; s_real := Nat.max (length (fst d)) 1 |}.
Lemma nth_combine {A B} (l : list A) (r : list B) i x : nth_error (combine l r) i = Some x -> nth_error l i = Some (fst x) /\ nth_error r i = Some (snd x).
Proof.
  revert r i. induction l as [|a l IH]; intros [|b r] [|i] H; cbn in *; try discriminate; [injection H as <-; auto|auto].
Qed.
Lemma nth_repeat_some {A} (a : A) n i : i < n -> nth_error (repeat a n) i = Some a.
Proof. revert i. induction n as [|n IH]; intros [|i] H; cbn; [lia|lia|auto|apply IH; lia]. Qed.
Lemma tokenized_good d : fst d <> [] -> length (snd d) = length (fst d) -> good (source_tokenized d) (pairs d).
Proof.
  intros N L. assert (LC : length (pairs d) = length (fst d)) by (unfold pairs; rewrite combine_length; lia).
  assert (1 <= length (fst d)) by (destruct (fst d); [congruence|cbn; lia]).
  split; [cbn; lia|]. split; [intros E; rewrite E in LC; cbn in LC; lia|].
  intros i x H1. assert (I : i < length (pairs d)) by (apply nth_error_Some; congruence). apply nth_combine in H1. unfold at_source. cbn.
  destruct H1 as (-> & ->). rewrite nth_repeat_some by lia. reflexivity.
Qed.
Lemma leading_le ms : leading ms <= length ms.
Proof. induction ms as [|m ms IH]; cbn; auto. destruct (m =? 0); cbn; lia. Qed.
Lemma leading_one ms : Forall (fun m => m = 0 \/ m = 1) ms -> forall i, i < leading ms -> nth_error ms i = Some 1.
Proof.
  induction 1 as [|m ms H _ IH]; cbn [leading]; intros i L; [lia|]. destruct (m =? 0) eqn:Q; [lia|]. apply Nat.eqb_neq in Q.
  destruct i as [|i]; cbn; [f_equal; lia|apply IH; lia].
Qed.
Lemma nth_firstn_some {A} (l : list A) k i x : nth_error (firstn k l) i = Some x -> nth_error l i = Some x /\ i < k.
Proof. revert l i. induction k as [|k IH]; intros [|y l] [|i] H; cbn in *; try discriminate; [auto with arith|]. destruct (IH l i H). split; auto. lia. Qed.
Definition source_encoding (e : encoding) : source :=
  {| s_ids := e_ids e; s_masks := e_masks e; s_types := e_types e; s_real := Nat.max (leading (e_masks e)) 1 |}.
Lemma visible_length e : proper e -> length (visible e) = leading (e_masks e).
Proof.
  intros (L1 & L2 & _ & _). pose proof (leading_le (e_masks e)). unfold visible. rewrite combine_length, !firstn_length. lia.
Qed.
Lemma encoding_good e : proper e -> good (source_encoding e) (visible e).
Proof.
  intros P. pose proof (visible_length e P) as VL. destruct P as (L1 & L2 & O & L). split; [cbn; lia|]. split; [intros E; rewrite E in VL; cbn in VL; lia|].
  intros i x H. apply nth_combine in H. destruct H as (H1 & H2). apply nth_firstn_some in H1. apply nth_firstn_some in H2. unfold at_source. cbn.
  destruct H1 as (-> & I), H2 as (-> & _). now rewrite (leading_one _ O i I).
Qed.

(** Batches made of encodings. *)
Lemma Forall2_map_good {A} (src : A -> source) (v : A -> list (nat * nat)) l : Forall (fun x => good (src x) (v x)) l -> Forall2 good (map src l) (map v l).
Proof. induction 1; cbn; constructor; auto. Qed.
Definition batch_len {T} (c : config T) (is_query : bool) (pad : option nat) (vs : list (list (nat * nat))) : nat :=
  let m := max_length c is_query in
  let len0 := fold_left (fun acc v => Nat.max acc (effective_len m (length v))) vs 0 in
  let len1 := match pad with Some p => Nat.max len0 (Nat.min p m) | None => len0 end in
  if is_query && do_query_expansion c then m else len1.
Lemma batch_len_enough {T} (c : config T) is_query pad vs : 2 <= max_length c is_query ->
  Forall (fun v => effective_len (max_length c is_query) (length v) <= batch_len c is_query pad vs) vs.
Proof.
  intros M. unfold batch_len. destruct (is_query && do_query_expansion c).
  - apply Forall_forall. intros v _. now apply effective_le.
  - destruct (fold_max (fun v : list (nat * nat) => effective_len (max_length c is_query) (length v)) vs 0) as (_ & F).
    eapply Forall_impl; [|exact F]. cbn beta. intros v H. destruct pad; lia.
Qed.
Lemma batch_len_le {T} (c : config T) is_query pad vs : 2 <= max_length c is_query -> batch_len c is_query pad vs <= max_length c is_query.
Proof.
  intros M. unfold batch_len. destruct (is_query && do_query_expansion c); [lia|].
  pose proof (fold_max_le (fun v : list (nat * nat) => effective_len (max_length c is_query) (length v)) (max_length c is_query) vs 0 ltac:(lia)) as B.
  assert (F : Forall (fun v : list (nat * nat) => effective_len (max_length c is_query) (length v) <= max_length c is_query) vs).
  { apply Forall_forall. intros v _. now apply effective_le. }
  specialize (B F). destruct pad; lia.
Qed.
Lemma fold_map_max {A B} (h : A -> B) (g : B -> nat) l : forall z,
  fold_left (fun acc x => Nat.max acc (g x)) (map h l) z = fold_left (fun acc x => Nat.max acc (g (h x))) l z.
Proof. induction l as [|x l IH]; intros z; cbn; auto. Qed.
Lemma fold_ext_in {A} (g h : A -> nat) l : Forall (fun x => g x = h x) l -> forall z,
  fold_left (fun acc x => Nat.max acc (g x)) l z = fold_left (fun acc x => Nat.max acc (h x)) l z.
Proof. induction 1 as [|x l H _ IH]; intros z; cbn; auto. now rewrite H, IH. Qed.
Lemma prepare_encodings_spec {T} (c : config T) es is_query filter_skiplist prefix : 3 <= max_length c is_query ->
  prefix_token c is_query = Ok prefix -> Forall proper es ->
  prepare_encodings c es is_query filter_skiplist =
  Ok (batch c is_query filter_skiplist prefix (batch_len c is_query None (map visible es)) (map visible es) []).
Proof.
  intros M P F. unfold prepare_encodings. rewrite P. cbn [bind].
  assert (E : fold_left (fun acc e => Nat.max acc (effective_len (max_length c is_query) (Nat.max (leading (e_masks e)) 1))) es 0 =
              fold_left (fun acc v => Nat.max acc (effective_len (max_length c is_query) (length v))) (map visible es) 0).
  { rewrite fold_map_max. apply fold_ext_in. eapply Forall_impl; [|exact F]. intros e PE. rewrite visible_length by auto. f_equal. destruct PE as (_ & _ & _ & L). lia. }
  rewrite E. fold (batch_len c is_query None (map visible es)).
  apply prepare_spec; auto.
  - apply (Forall2_map_good source_encoding visible). eapply Forall_impl; [|exact F]. apply encoding_good.
  - apply batch_len_enough. lia.
Qed.
Definition proper_tokenized (d : tokenized) : Prop := fst d <> [] /\ length (snd d) = length (fst d).
Lemma prepare_tokenized_spec {T} (c : config T) ds is_query filter_skiplist prefix origin pad : 3 <= max_length c is_query ->
  prefix_token c is_query = Ok prefix -> Forall proper_tokenized ds ->
  prepare_tokenized c ds is_query filter_skiplist origin pad =
  Ok (batch c is_query filter_skiplist prefix (batch_len c is_query pad (map pairs ds)) (map pairs ds) origin).
Proof.
  intros M P F. unfold prepare_tokenized. rewrite P. cbn [bind].
  assert (E : fold_left (fun acc d => Nat.max acc (effective_len (max_length c is_query) (length (fst d)))) ds 0 =
              fold_left (fun acc v => Nat.max acc (effective_len (max_length c is_query) (length v))) (map pairs ds) 0).
  { rewrite fold_map_max. apply fold_ext_in. eapply Forall_impl; [|exact F]. intros d (_ & PL). unfold pairs. rewrite combine_length. f_equal. lia. }
  rewrite E. fold (batch_len c is_query pad (map pairs ds)).
  apply prepare_spec; auto.
  - apply (Forall2_map_good source_tokenized pairs). eapply Forall_impl; [|exact F]. intros d (A & B). now apply tokenized_good.
  - apply batch_len_enough. lia.
Qed.
