From Verif Require Import Base F32 Text Base64 Base64Spec Base64Proofs Npy NpySpec NpyProofs ApiEmbed ApiEmbedSpec.
Open Scope nat_scope.

(** ** The strict decoder only accepts texts the encoder writes *)
Lemma sextet_inv c v : sextet c = Some v -> (0 <= v < 64)%Z /\ c = b64_char v.
Proof.
  intro H.
  assert (R : (43 <= c <= 122)%Z).
  { unfold sextet in H. repeat match type of H with (if ?b then _ else _) = _ => destruct b eqn:? end; try discriminate; lia. }
  pose proof (small_Z 123 (fun c => match sextet c with Some v => ((0 <=? v) && (v <? 64) && (c =? b64_char v))%Z | None => true end) eq_refl c ltac:(lia)) as Q.
  cbn beta in Q. rewrite H in Q. lia.
Qed.
Lemma list4_ind {A} (P : list A -> Prop) : P [] -> (forall a, P [a]) -> (forall a b, P [a; b]) -> (forall a b c, P [a; b; c]) ->
  (forall a b c d r, P r -> P (a :: b :: c :: d :: r)) -> forall l, P l.
Proof.
  intros H0 H1 H2 H3 H4. assert (Q : forall n l, length l < n -> P l).
  { induction n as [|n IH]; [lia|]. intros [|a [|b [|c [|d r]]]] Hl; auto. apply H4. apply IH. cbn [length] in Hl. lia. }
  intro l. apply (Q (S (length l))). lia.
Qed.
Lemma byte1 x y : (0 <= x < 64)%Z -> (0 <= y < 64)%Z -> is_byte (x * 4 + y / 16).
Proof. unfold is_byte. intros. Z.to_euclidean_division_equations. nia. Qed.
Lemma byte2 y z : (0 <= y < 64)%Z -> (0 <= z < 64)%Z -> is_byte ((y mod 16) * 16 + z / 4).
Proof. unfold is_byte. intros. Z.to_euclidean_division_equations. nia. Qed.
Lemma byte3 z w : (0 <= z < 64)%Z -> (0 <= w < 64)%Z -> is_byte ((z mod 4) * 64 + w).
Proof. unfold is_byte. intros. Z.to_euclidean_division_equations. nia. Qed.
Lemma unpieces x y z w : (0 <= x < 64)%Z -> (0 <= y < 64)%Z -> (0 <= z < 64)%Z -> (0 <= w < 64)%Z ->
  ((x * 4 + y / 16) / 4 = x /\ (x * 4 + y / 16) mod 4 * 16 + ((y mod 16) * 16 + z / 4) / 16 = y
   /\ ((y mod 16) * 16 + z / 4) mod 16 * 4 + ((z mod 4) * 64 + w) / 64 = z /\ ((z mod 4) * 64 + w) mod 64 = w)%Z.
Proof. intros. repeat split; Z.to_euclidean_division_equations; nia. Qed.
Lemma chunk3 a b c : is_byte a -> is_byte b -> is_byte c ->
  b64_chunk [a; b; c] = [b64_char (a / 4); b64_char (a mod 4 * 16 + b / 16); b64_char (b mod 16 * 4 + c / 64); b64_char (c mod 64)]%Z.
Proof.
  intros A B D. unfold b64_chunk. cbn [nth length]. change (1 <? 3) with true. change (2 <? 3) with true. cbn match.
  rewrite (proj1 (shiftr2 a A)), (proj1 (second a b A B)), (proj1 (third b c B D)), (proj1 (fourth c D)). reflexivity.
Qed.
Lemma chunk2 a b : is_byte a -> is_byte b ->
  b64_chunk [a; b] = [b64_char (a / 4); b64_char (a mod 4 * 16 + b / 16); b64_char (b mod 16 * 4); b64_pad]%Z.
Proof.
  intros A B. unfold b64_chunk. cbn [nth length]. change (1 <? 2) with true. change (2 <? 2) with false. cbn match.
  assert (Z0 : is_byte 0) by (unfold is_byte; lia).
  rewrite (proj1 (shiftr2 a A)), (proj1 (second a b A B)), (proj1 (third b 0 B Z0)). change (0 / 64)%Z with 0%Z. rewrite Z.add_0_r. reflexivity.
Qed.
Lemma chunk1 a : is_byte a -> b64_chunk [a] = [b64_char (a / 4); b64_char (a mod 4 * 16); b64_pad; b64_pad]%Z.
Proof.
  intros A. unfold b64_chunk. cbn [nth length]. change (1 <? 1) with false. change (2 <? 1) with false. cbn match.
  assert (Z0 : is_byte 0) by (unfold is_byte; lia).
  rewrite (proj1 (shiftr2 a A)), (proj1 (second a 0 A Z0)). change (0 / 16)%Z with 0%Z. rewrite Z.add_0_r. reflexivity.
Qed.
Lemma decode_strict t : forall b, base64_decode t = Some b -> Forall is_byte b /\ t = base64_encode b.
Proof.
  induction t as [|a|a a2|a a2 a3|a a2 a3 a4 r IH] using list4_ind; intros b H; cbn [base64_decode] in H; try discriminate.
  - injection H as <-. split; [constructor|reflexivity].
  - destruct (sextet a) as [x|] eqn:Ea; [|discriminate]. destruct (sextet a2) as [y|] eqn:Eb; [|discriminate].
    apply sextet_inv in Ea. apply sextet_inv in Eb. destruct Ea as (Rx & ->). destruct Eb as (Ry & ->).
    destruct (sextet a3) as [z|] eqn:Ec.
    + apply sextet_inv in Ec. destruct Ec as (Rz & ->). destruct (sextet a4) as [w|] eqn:Ed.
      * apply sextet_inv in Ed. destruct Ed as (Rw & ->). destruct (base64_decode r) as [br|] eqn:Er; [|discriminate].
        injection H as <-. destruct (IH br eq_refl) as (Fb & ->).
        pose proof (byte1 x y Rx Ry) as B1. pose proof (byte2 y z Ry Rz) as B2. pose proof (byte3 z w Rz Rw) as B3.
        split; [repeat constructor; auto; apply B1 || apply B2 || apply B3|].
        rewrite encode_3, chunk3 by assumption. destruct (unpieces x y z w Rx Ry Rz Rw) as (-> & -> & -> & ->). reflexivity.
      * destruct ((a4 =? 61)%Z && (z mod 4 =? 0)%Z && (length r =? 0)) eqn:Q; [|discriminate]. injection H as <-.
        apply andb_prop in Q. destruct Q as (Q & L). apply andb_prop in Q. destruct Q as (Q1 & Q2).
        apply Z.eqb_eq in Q1. apply Z.eqb_eq in Q2. subst a4. destruct r; [|discriminate].
        pose proof (byte1 x y Rx Ry) as B1. pose proof (byte2 y z Ry Rz) as B2.
        split; [repeat constructor; apply B1 || apply B2|].
        change (base64_encode [(x * 4 + y / 16)%Z; (y mod 16 * 16 + z / 4)%Z]) with (b64_chunk [(x * 4 + y / 16)%Z; (y mod 16 * 16 + z / 4)%Z] ++ []).
        rewrite chunk2 by assumption. destruct (unpieces x y z 0 Rx Ry Rz ltac:(lia)) as (-> & -> & H3 & _). rewrite Q2 in H3.
        change (0 * 64 + 0)%Z with 0%Z in H3. change (0 / 64)%Z with 0%Z in H3. rewrite Z.add_0_r in H3. rewrite H3. reflexivity.
    + destruct ((a3 =? 61)%Z && (a4 =? 61)%Z && (y mod 16 =? 0)%Z && (length r =? 0)) eqn:Q; [|discriminate]. injection H as <-.
      apply andb_prop in Q. destruct Q as (Q & L). apply andb_prop in Q. destruct Q as (Q & Q3). apply andb_prop in Q. destruct Q as (Q1 & Q2).
      apply Z.eqb_eq in Q1. apply Z.eqb_eq in Q2. apply Z.eqb_eq in Q3. subst a3 a4. destruct r; [|discriminate].
      pose proof (byte1 x y Rx Ry) as B1. split; [repeat constructor; apply B1|].
      change (base64_encode [(x * 4 + y / 16)%Z]) with (b64_chunk [(x * 4 + y / 16)%Z] ++ []). rewrite chunk1 by assumption.
      destruct (unpieces x y 0 0 Rx Ry ltac:(lia) ltac:(lia)) as (-> & H2 & _). rewrite Q3 in H2. change (0 * 16 + 0 / 4)%Z with 0%Z in H2.
      change (0 / 16)%Z with 0%Z in H2. rewrite Z.add_0_r in H2. rewrite H2. reflexivity.
Qed.

(** ** Values and bytes *)
Lemma flat_bytes v : Forall is_byte (flat_map (le_bytes 4) v).
Proof. apply Forall_forall. intros b H. apply in_flat_map in H. destruct H as (z & _ & H). exact (le_bytes_byte 4 z b H). Qed.
Lemma wf_patterns v : Forall f32_wf v <-> patterns 4 v.
Proof. unfold patterns, f32_wf. change (256 ^ Z.of_nat 4)%Z with 4294967296%Z. tauto. Qed.
Lemma le_value_byte b : Forall is_byte b -> (0 <= le_value b < 256 ^ Z.of_nat (length b))%Z.
Proof.
  induction 1 as [|x b H F IH]; [cbn; lia|]. cbn [le_value fold_right]. change (fold_right _ _ b) with (le_value b).
  replace (Z.of_nat (length (x :: b))) with (1 + Z.of_nat (length b))%Z by (cbn [length]; lia). rewrite Z.pow_add_r by lia.
  unfold is_byte in H. change (256 ^ 1)%Z with 256%Z. lia.
Qed.
Lemma le_bytes_value b : Forall is_byte b -> le_bytes (length b) (le_value b) = b.
Proof.
  induction 1 as [|x b H F IH]; [reflexivity|]. cbn [length le_bytes le_value fold_right]. change (fold_right _ _ b) with (le_value b).
  unfold is_byte in H. replace ((x + 256 * le_value b) mod 256)%Z with x by (Z.to_euclidean_division_equations; nia).
  replace ((x + 256 * le_value b) / 256)%Z with (le_value b) by (Z.to_euclidean_division_equations; nia). f_equal. exact IH.
Qed.
Lemma chunks_exact4 : forall k (b : bytes) f, length b = k * 4 -> length b <= f -> exists ls, chunks_fuel f 4 b = ls /\ concat ls = b /\ Forall (fun c => length c = 4) ls /\ length ls = k.
Proof.
  induction k as [|k IH]; intros b f Hl Hf.
  - destruct b; [|cbn in Hl; lia]. exists []. destruct f; cbn; auto.
  - destruct f as [|f]; [lia|]. destruct b as [|x0 [|x1 [|x2 [|x3 b]]]]; cbn [length] in Hl; try lia.
    destruct (IH b f ltac:(lia) ltac:(cbn [length] in Hf; lia)) as (ls & E & Cc & F & L).
    exists ([x0; x1; x2; x3] :: ls). split; [cbn [chunks_fuel firstn skipn]; f_equal; exact E|]. split; [cbn; now rewrite Cc|]. split; [constructor; auto|cbn; lia].
Qed.
Lemma elements4 b n : Forall is_byte b -> length b = n * 4 ->
  length (elements 4 b) = n /\ Forall f32_wf (elements 4 b) /\ flat_map (le_bytes 4) (elements 4 b) = b.
Proof.
  intros F L. unfold elements, chunks. destruct (chunks_exact4 n b (length b) L (le_n _)) as (ls & -> & Cc & F4 & Ln).
  rewrite map_length. split; [exact Ln|]. subst b. clear L Ln n. induction F4 as [|c ls Hc F4 IH]; [split; [constructor|reflexivity]|].
  cbn [concat] in F. apply Forall_app in F. destruct F as (Fc & Fr). destruct (IH Fr) as (I1 & I2). split.
  - cbn [map]. constructor; [|exact I1]. pose proof (le_value_byte c Fc) as Q. rewrite Hc in Q. unfold f32_wf. change (256 ^ Z.of_nat 4)%Z with 4294967296%Z in Q. lia.
  - cbn [map flat_map concat]. rewrite I2. f_equal. rewrite <- Hc at 1. apply le_bytes_value. exact Fc.
Qed.
Lemma find_none_finite v : Forall (fun x => is_finite x = true) v <-> find (fun v => negb (is_finite v)) v = None.
Proof.
  induction v as [|x v IH]; [split; [reflexivity|constructor]|]. cbn [find]. split; intro H.
  - inversion H as [|? ? H1 H2]; subst. rewrite H1. cbn. apply IH. exact H2.
  - destruct (is_finite x) eqn:E; [|discriminate]. constructor; [exact E|]. apply IH. exact H.
Qed.
Lemma finite_split v : Forall finite v <-> Forall f32_wf v /\ Forall (fun x => is_finite x = true) v.
Proof. unfold finite. split; intro H.
  - split; eapply Forall_impl; try apply H; cbn; tauto.
  - destruct H as (H1 & H2). apply Forall_forall. intros x Hx. rewrite Forall_forall in H1, H2. auto.
Qed.
Lemma checked_some a b n : checked_mul a b = Some n <-> (a * b < 2 ^ 64 /\ n = a * b)%Z.
Proof.
  unfold checked_mul. destruct (Z.ltb_spec (a * b) (2 ^ 64)); split; intro H'; try discriminate; try (destruct H'; lia).
  - injection H' as <-. lia.
  - destruct H' as (_ & ->). reflexivity.
Qed.
Lemma decode_iff b64 s0 s1 v : usize s0 -> usize s1 ->
  decode_b64_embeddings b64 s0 s1 = Ok v <-> text_of_values b64 v /\ fills s0 s1 v /\ Forall finite v.
Proof.
  intros U0 U1. unfold usize in *. unfold decode_b64_embeddings, text_of_values, fills. rewrite finite_split. split.
  - intro H. destruct (base64_decode b64) as [b|] eqn:D; [|discriminate]. destruct (decode_strict b64 b D) as (Fb & ->).
    destruct (checked_mul s0 s1) as [n|] eqn:M1; [|discriminate]. apply checked_some in M1. destruct M1 as (B1 & ->).
    destruct (checked_mul (s0 * s1) 4) as [e|] eqn:M2; [|discriminate]. apply checked_some in M2. destruct M2 as (B2 & ->).
    destruct (size b =? s0 * s1 * 4)%Z eqn:E; [|discriminate]. cbn [negb] in H. apply Z.eqb_eq in E. unfold size in E.
    assert (L : length b = Z.to_nat (s0 * s1) * 4) by nia. destruct (elements4 b _ Fb L) as (Ln & Fw & Fl).
    cbv zeta in H. destruct (find (fun v => negb (is_finite v)) (elements 4 b)) eqn:Fi; [discriminate|]. injection H as <-. apply find_none_finite in Fi.
    split; [now rewrite Fl|]. split; [split; [transitivity (Z.of_nat (Z.to_nat (s0 * s1))); [exact (f_equal Z.of_nat Ln)|apply Z2Nat.id; nia]|exact B2]|]. split; [exact Fw|exact Fi].
  - intros (-> & (L & B) & Fw & Fi). rewrite base64_inverse by apply flat_bytes.
    assert (M1 : checked_mul s0 s1 = Some (s0 * s1)%Z) by (apply checked_some; nia). rewrite M1.
    assert (M2 : checked_mul (s0 * s1) 4 = Some (s0 * s1 * 4)%Z) by (apply checked_some; lia). rewrite M2.
    assert (E : (size (flat_map (le_bytes 4) v) =? s0 * s1 * 4)%Z = true).
    { unfold size. rewrite flat_length. apply Z.eqb_eq. rewrite Nat2Z.inj_mul. change (Z.of_nat (@length Z v)) with (Z.of_nat (@length f32 v)). rewrite L. reflexivity. }
    rewrite E. cbn [negb]. rewrite elements_patterns; [|lia|now apply wf_patterns]. cbv zeta.
    apply find_none_finite in Fi. rewrite Fi. reflexivity.
Qed.
Lemma decode_no_panic b64 s0 s1 : decode_b64_embeddings b64 s0 s1 <> Panic.
Proof.
  unfold decode_b64_embeddings. destruct (base64_decode b64); [|discriminate]. destruct (checked_mul s0 s1); [|discriminate].
  destruct (checked_mul z 4); [|discriminate]. destruct (negb _); [discriminate|]. cbv zeta. match goal with |- context [find ?p ?l] => destruct (find p l) end; discriminate.
Qed.
Lemma encode_values rows : fst (encode_b64_embeddings rows) = base64_encode (flat_map (le_bytes 4) (concat rows)).
Proof. unfold encode_b64_embeddings. cbn [fst]. f_equal. induction rows as [|r rows IH]; [reflexivity|]. cbn [flat_map concat]. rewrite flat_map_app, IH. reflexivity. Qed.
Lemma cols_ok rows r c : rectangular rows r c -> (1 <= r)%Z -> Z.of_nat (cols_of rows) = c.
Proof. intros (<- & F) R. destruct rows as [|x rows]; [cbn in R; lia|]. inversion F; subst. reflexivity. Qed.
Lemma concat_size rows r c : rectangular rows r c -> Z.of_nat (length (concat rows)) = (r * c)%Z.
Proof. intros (<- & F). induction F as [|x rows H F IH]; [reflexivity|]. cbn [concat length]. rewrite app_length. lia. Qed.
Lemma round_trip rows r c b64 shape : encode_b64_embeddings rows = (b64, shape) -> rectangular rows r c -> (1 <= r)%Z -> usize r -> usize c -> (r * c * 4 < 2 ^ 64)%Z ->
  Forall (Forall finite) rows -> shape = (r, c) /\ decode_b64_embeddings b64 r c = Ok (concat rows).
Proof.
  intros E R R1 Ur Uc B F. assert (Eb : b64 = fst (encode_b64_embeddings rows)) by now rewrite E. assert (Es : shape = snd (encode_b64_embeddings rows)) by now rewrite E.
  cbn [snd encode_b64_embeddings] in Es. unfold len in Es. rewrite (cols_ok rows r c R R1), (proj1 R) in Es. split; [exact Es|].
  pose proof (concat_size rows r c R) as L. apply decode_iff.
  - exact Ur.
  - exact Uc.
  - split; [rewrite Eb, encode_values; reflexivity|]. split; [split; assumption|]. apply Forall_concat. exact F.
Qed.
Lemma shape_vec_iff r c v m : (0 <= r)%Z -> (0 <= c)%Z -> from_shape_vec r c v = Ok m <-> allocatable r c /\ Z.of_nat (length v) = (r * c)%Z /\ m = (r, c, v).
Proof.
  intros R Cc. unfold from_shape_vec, allocatable. cbv zeta.
  assert (NZ : forall x, (0 <= x)%Z -> (if (x =? 0)%Z then 1%Z else x) = Z.max 1 x) by (intros x Hx; destruct (Z.eqb_spec x 0); lia).
  rewrite (NZ r R), (NZ c Cc). destruct (Z.ltb_spec (Z.max 1 r * Z.max 1 c) (2 ^ 63)); destruct (Z.eqb_spec (Z.of_nat (length v)) (r * c)); cbn [andb]; split; intro H'; try discriminate; try (destruct H' as (? & ? & ->)); try lia.
  - injection H' as <-. auto.
  - reflexivity.
Qed.
Lemma rect_forallb rows : forallb (fun r => length r =? cols_of rows) rows = true <-> rectangular rows (len rows) (Z.of_nat (cols_of rows)).
Proof.
  rewrite forallb_forall. unfold rectangular, len. rewrite Forall_forall. split.
  - intro H. split; [reflexivity|]. intros x Hx. apply H in Hx. apply Nat.eqb_eq in Hx. lia.
  - intros (_ & H) x Hx. apply H in Hx. apply Nat.eqb_eq. lia.
Qed.
Lemma to_ndarray_iff d r c v : sent_ok d ->
  to_ndarray d = Ok (r, c, v) <-> (sent_b64 d r c v \/ sent_json d r c v) /\ allocatable r c.
Proof.
  intros (W1 & W2). unfold to_ndarray, sent_b64, sent_json.
  assert (J : (s_b64 d = None \/ s_shape d = None) ->
    match s_rows d with None => Err | Some rows => if length rows =? 0 then Err else if cols_of rows =? 0 then Err else if forallb (fun r => length r =? cols_of rows) rows
           then from_shape_vec (len rows) (Z.of_nat (cols_of rows)) (concat rows) else Err end = Ok (r, c, v)
    <-> (exists rows, s_rows d = Some rows /\ rectangular rows r c /\ v = concat rows /\ 1 <= r /\ 1 <= c)%Z /\ allocatable r c).
  { intros _. destruct (s_rows d) as [rows|]; [|split; [discriminate|intros ((? & [=] & _) & _)]]. split.
    - intro H. destruct (Nat.eqb_spec (length rows) 0) as [|N0]; [discriminate|]. destruct (Nat.eqb_spec (cols_of rows) 0) as [|N1]; [discriminate|].
      destruct (forallb _ rows) eqn:Fb; [|discriminate]. apply rect_forallb in Fb. apply shape_vec_iff in H; [|unfold len; lia|lia].
      destruct H as (Al & L & [= -> -> ->]). split; [|exact Al]. exists rows. unfold len. repeat split; try lia; apply Fb.
    - intros ((rows' & [= <-] & R & -> & R1 & C1) & Al). pose proof (cols_ok rows r c R R1) as Ec. pose proof (proj1 R) as Er.
      destruct (Nat.eqb_spec (length rows) 0) as [|N0]; [lia|]. destruct (Nat.eqb_spec (cols_of rows) 0) as [|N1]; [lia|].
      assert (Fb : forallb (fun r => length r =? cols_of rows) rows = true) by (apply rect_forallb; unfold len; rewrite Er, Ec; exact R). rewrite Fb.
      unfold len. rewrite Er, Ec. apply shape_vec_iff; [lia|lia|]. split; [exact Al|]. split; [exact (concat_size rows r c R)|reflexivity]. }
  destruct (s_b64 d) as [b|] eqn:Eb; [destruct (s_shape d) as [(s0, s1)|] eqn:Es|].
  - destruct (W1 s0 s1 eq_refl) as (U0 & U1). split.
    + intro H. apply bind_Ok in H. destruct H as (v' & Dv & H). apply (decode_iff b s0 s1 v' U0 U1) in Dv. destruct Dv as (T & Fl & Fi). unfold usize in *.
      apply shape_vec_iff in H; [|lia|lia]. destruct H as (Al & L & [= -> -> ->]). split; [|exact Al]. left. exists b. auto 6.
    + intros ([(b' & [= <-] & [= -> ->] & T & Fl & Fi) | ([[=] | [=]] & _)] & Al). apply bind_Ok. exists v.
      split; [apply decode_iff; auto|]. unfold usize in *. apply shape_vec_iff; [lia|lia|]. split; [exact Al|]. split; [apply Fl|reflexivity].
  - rewrite (J (or_intror eq_refl)). split.
    + intros (H & Al). split; [|exact Al]. right. auto.
    + intros ([(? & _ & [=] & _) | (_ & H)] & Al). auto.
  - rewrite (J (or_introl eq_refl)). split.
    + intros (H & Al). split; [|exact Al]. right. auto.
    + intros ([(? & [=] & _) | (_ & H)] & Al). auto.
Qed.
Lemma validate_iff a b : (0 <= a)%Z -> (0 <= b)%Z -> validate_embedding_shape a b = Ok tt <-> (1 <= a /\ 1 <= b)%Z.
Proof. unfold validate_embedding_shape. intros. destruct (Z.eqb_spec a 0); [split; [discriminate|lia]|]. destruct (Z.eqb_spec b 0); split; try discriminate; try lia; reflexivity. Qed.
Lemma rerank_to_ndarray_iff d r c v : sent_ok d ->
  rerank_to_ndarray d = Ok (r, c, v) <-> (sent_b64 d r c v \/ sent_json d r c v) /\ allocatable r c /\ (1 <= r)%Z /\ (1 <= c)%Z /\ Forall finite v.
Proof.
  intros W. destruct W as (W1 & W2). unfold rerank_to_ndarray, sent_b64, sent_json.
  assert (J : match s_rows d with None => Err | Some rows => json_embeddings_to_array2 rows end = Ok (r, c, v)
    <-> (exists rows, s_rows d = Some rows /\ rectangular rows r c /\ v = concat rows /\ 1 <= r /\ 1 <= c)%Z /\ allocatable r c /\ (1 <= r)%Z /\ (1 <= c)%Z /\ Forall finite v).
  { destruct (s_rows d) as [rows|] eqn:Er0; [|split; [discriminate|intros ((? & [=] & _) & _)]]. unfold json_embeddings_to_array2. specialize (W2 rows eq_refl).
    assert (FB : forallb (fun r => (length r =? cols_of rows) && forallb is_finite r) rows = true
                 <-> forallb (fun r => length r =? cols_of rows) rows = true /\ Forall finite (concat rows)).
    { rewrite !forallb_forall. split.
      - intro H. split; [intros x Hx; apply H in Hx; now apply andb_prop in Hx|]. apply Forall_concat. apply Forall_forall. intros x Hx. apply finite_split. split; [rewrite Forall_forall in W2; auto|].
        apply H in Hx. apply andb_prop in Hx. destruct Hx as (_ & Hx). rewrite forallb_forall in Hx. apply Forall_forall. exact Hx.
      - intros (H1 & H2) x Hx. rewrite (H1 x Hx). cbn [andb]. apply forallb_forall. intros y Hy. rewrite Forall_forall in H2. apply H2. apply in_concat. eauto. }
    split.
    - intro H. apply bind_Ok in H. destruct H as ([] & Va & H). apply validate_iff in Va; [|unfold len; lia|lia]. match type of H with (if ?b then _ else _) = _ => destruct b eqn:Fb; [|discriminate] end.
      pose proof (proj1 FB eq_refl) as (Fb' & Fi). clear FB. rename Fb into Fb0. rename Fb' into Fb. apply rect_forallb in Fb. apply shape_vec_iff in H; [|lia|lia].
      destruct H as (Al & L & [= -> -> ->]). split; [|tauto]. exists rows. tauto.
    - intros ((rows' & [= <-] & R & -> & R1 & C1) & Al & _ & _ & Fi). pose proof (cols_ok rows r c R R1) as Ec. pose proof (proj1 R) as Er.
      unfold len. rewrite Er, Ec. assert (Va : validate_embedding_shape r c = Ok tt) by (apply validate_iff; lia). rewrite Va. cbn [bind].
      assert (Fb : forallb (fun r => length r =? cols_of rows) rows = true) by (apply rect_forallb; unfold len; rewrite Er, Ec; exact R).
      rewrite (proj2 FB (conj Fb Fi)). apply shape_vec_iff; [lia|lia|]. split; [exact Al|]. split; [exact (concat_size rows r c R)|reflexivity]. }
  destruct (s_b64 d) as [b|] eqn:Eb; [destruct (s_shape d) as [(s0, s1)|] eqn:Es|].
  - destruct (W1 s0 s1 eq_refl) as (U0 & U1). unfold decode_b64_embeddings_to_array2. split.
    + intro H. apply bind_Ok in H. destruct H as ([] & Va & H). apply validate_iff in Va; [|unfold usize in *; lia|unfold usize in *; lia].
      apply bind_Ok in H. destruct H as (v' & Dv & H). apply (decode_iff b s0 s1 v' U0 U1) in Dv. destruct Dv as (T & Fl & Fi). unfold usize in *.
      apply shape_vec_iff in H; [|lia|lia]. destruct H as (Al & L & [= -> -> ->]). split; [|tauto]. left. exists b. auto 6.
    + intros ([(b' & [= <-] & [= -> ->] & T & Fl & Fi) | ([[=] | [=]] & _)] & Al & R1 & C1 & _).
      assert (Va : validate_embedding_shape r c = Ok tt) by (apply validate_iff; lia). rewrite Va. cbn [bind]. apply bind_Ok. exists v.
      split; [apply decode_iff; auto|]. unfold usize in *. apply shape_vec_iff; [lia|lia|]. split; [exact Al|]. split; [apply Fl|reflexivity].
  - rewrite J. split.
    + intros (H & Al). split; [|exact Al]. right. auto.
    + intros ([(? & _ & [=] & _) | (_ & H)] & Al). auto.
  - rewrite J. split.
    + intros (H & Al). split; [|exact Al]. right. auto.
    + intros ([(? & [=] & _) | (_ & H)] & Al). auto.
Qed.
