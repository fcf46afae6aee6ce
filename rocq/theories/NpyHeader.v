(** Proofs about the NPY header: what is written is what is parsed. *)
From Verif Require Import Base Text Calendar CalendarSpec CalendarProofs Npy NpySpec NpyProofs.
Open Scope nat_scope.

(** ** Searching and splitting *)
Lemma find_char c a b : ~ In c a -> find_text [c] (a ++ c :: b) = Some (length a).
Proof.
  induction a as [|x a IH]; intro N; cbn [app find_text starts_with].
  - rewrite Z.eqb_refl. reflexivity.
  - destruct (Z.eqb_spec c x) as [->|D]; [exfalso; apply N; left; auto|]. cbn [andb]. rewrite IH by (intro; apply N; right; auto). reflexivity.
Qed.
Lemma split_on_app c a b : ~ In c a -> split_on c (a ++ c :: b) = a :: split_on c b.
Proof.
  induction a as [|x a IH]; intro N; cbn [app split_on].
  - rewrite Z.eqb_refl. reflexivity.
  - destruct (Z.eqb_spec x c) as [->|D]; [exfalso; apply N; left; auto|]. rewrite IH by (intro; apply N; right; auto). reflexivity.
Qed.
Lemma split_on_none c a : ~ In c a -> split_on c a = [a].
Proof.
  induction a as [|x a IH]; intro N; cbn [split_on]; [reflexivity|].
  destruct (Z.eqb_spec x c) as [->|D]; [exfalso; apply N; left; auto|]. rewrite IH by (intro; apply N; right; auto). reflexivity.
Qed.
(** ** Decimal numbers *)
Lemma digits_nonempty n : digits n <> [].
Proof. unfold digits. cbn [digits_fuel]. destruct (n <? 10)%Z; [discriminate|]. intro H. apply app_eq_nil in H. destruct H; discriminate. Qed.
Lemma digits_digit n c : (0 <= n)%Z -> In c (digits n) -> (48 <= c <= 57)%Z.
Proof. intros H I. destruct (digits_ok n H) as (F & _). rewrite Forall_forall in F. specialize (F c I). unfold is_digit_char in F. lia. Qed.
Lemma digits_len n : (0 <= n < 2 ^ 64)%Z -> length (digits n) <= 20.
Proof. intro H. apply digits_fuel_len; [|lia]. change (10 ^ Z.of_nat 20)%Z with 100000000000000000000%Z. lia. Qed.
Lemma parse_digits n : (0 <= n < 2 ^ 64)%Z -> parse_usize (digits n) = Ok n.
Proof.
  intro H. destruct (digits_ok n (proj1 H)) as (F & V). pose proof (digits_nonempty n) as N. unfold parse_usize.
  assert (E : match digits n with c :: r => if (c =? 43)%Z then r else digits n | [] => digits n end = digits n).
  { destruct (digits n) as [|c r] eqn:D; auto. assert (48 <= c <= 57)%Z by (apply (digits_digit n); [lia|rewrite D; left; auto]). destruct (Z.eqb_spec c 43); [lia|auto]. }
  rewrite E. destruct (digits n) as [|c r] eqn:D; [contradiction|]. rewrite <- D in *.
  assert (A : forallb a_digit (digits n) = true). { apply forallb_forall. intros x Hx. pose proof (digits_digit n x (proj1 H) Hx). unfold a_digit. lia. }
  rewrite A. change (dec_value (digits n)) with (decimal_value (digits n)). rewrite V. destruct (Z.ltb_spec n (2 ^ 64)); [reflexivity|lia].
Qed.
Section HEADER.
  Variable U : unicode.
  Hypothesis GU : good_unicode U.
  Variable utf8 : bytes -> option text.
  Hypothesis G8 : good_utf8 utf8.
  Set Default Proof Using "GU".
  Lemma ws_digit c : (48 <= c <= 57)%Z -> u_ws U c = false.
  Proof. intro H. rewrite (gu_ws U GU); unfold is_ascii, a_ws; lia. Qed.
  Lemma ws_space : u_ws U 32%Z = true.
  Proof. rewrite (gu_ws U GU); reflexivity. Qed.
  Lemma trim_start_digits t : Forall (fun c => (48 <= c <= 57)%Z) t -> trim_start (u_ws U) t = t.
  Proof. intro F. destruct F as [|c t F1 F2]; [reflexivity|]. cbn. rewrite ws_digit by auto. reflexivity. Qed.
  Lemma trim_digits n : (0 <= n)%Z -> trim (u_ws U) (digits n) = digits n.
  Proof.
    intro H. assert (F : Forall (fun c => (48 <= c <= 57)%Z) (digits n)) by (apply Forall_forall; intros; eapply digits_digit; eauto).
    unfold trim. rewrite (trim_start_digits (digits n)) by auto. rewrite trim_start_digits; [apply rev_involutive|]. apply Forall_rev; auto.
  Qed.
  Lemma trim_space_digits n : (0 <= n)%Z -> trim (u_ws U) (32%Z :: digits n) = digits n.
  Proof. intro H. transitivity (trim (u_ws U) (digits n)); [|apply trim_digits; auto]. unfold trim. cbn [trim_start]. rewrite ws_space. reflexivity. Qed.
  Lemma parse_part p r n : (0 <= n < 2 ^ 64)%Z -> trim (u_ws U) p = digits n -> parse_parts U (p :: r) = bind (parse_parts U r) (fun l => Ok (n :: l)).
  Proof.
    intros H T. cbn [parse_parts]. rewrite T. pose proof (parse_digits n H) as P. destruct (digits n) as [|c t] eqn:D; [exfalso; apply (digits_nonempty n); auto|].
    rewrite P. reflexivity.
  Qed.
  Lemma not_digit c n : (0 <= n)%Z -> (c < 48)%Z -> ~ In c (digits n).
  Proof. intros H L I. pose proof (digits_digit n c H I). lia. Qed.

  Lemma shape_text h d rest : find_text (txt "'shape':") h = Some d -> skipn (d + 8) h = txt " (" ++ rest ->
    forall inner tail, rest = inner ++ 41%Z :: tail -> ~ In 41%Z inner -> parse_shape_from_header U h = parse_parts U (split_on 44 inner).
  Proof.
    intros F S1 inner tail -> N. unfold parse_shape_from_header. rewrite F, S1.
    assert (E1 : find_text (txt "(") (txt " (" ++ inner ++ 41%Z :: tail) = Some 1) by reflexivity. rewrite E1.
    change (txt " (" ++ inner ++ 41%Z :: tail) with ((32 :: 40 :: inner)%Z ++ 41%Z :: tail). change (txt ")") with [41%Z].
    rewrite find_char; [|intros [Q|[Q|Q]]; try discriminate; auto]. cbn [length Nat.leb plus].
    replace (S (S (length inner)) - 2) with (length inner) by lia. cbn [app skipn]. rewrite firstn_app_exact by reflexivity. reflexivity.
  Qed.
  Lemma shape_1d len dtype rest : (0 <= len < 2 ^ 64)%Z -> In dtype dtypes -> parse_shape_from_header U (npy_header_dict_1d len dtype ++ rest) = Ok [len].
  Proof.
    intros H D.
    assert (E : exists d, find_text (txt "'shape':") (npy_header_dict_1d len dtype ++ rest) = Some d
      /\ skipn (d + 8) (npy_header_dict_1d len dtype ++ rest) = txt " (" ++ (digits len ++ txt ",), }" ++ rest)).
    { unfold npy_header_dict_1d. rewrite <- !app_assoc. cbn in D. decompose [or] D; try contradiction; subst dtype; eexists; split; reflexivity. }
    destruct E as (d & E1 & E2). rewrite (shape_text _ d _ E1 E2 (digits len ++ [44%Z]) (txt ", }" ++ rest)).
    - rewrite split_on_app by (apply not_digit; lia). cbn [split_on]. rewrite (parse_part _ _ len) by (auto; apply trim_digits; lia). reflexivity.
    - rewrite <- app_assoc. reflexivity.
    - intro I. apply in_app_or in I. destruct I as [I|[I|[]]]; [revert I; apply not_digit; lia|discriminate].
  Qed.
  Lemma shape_2d nrows ncols dtype rest : (0 <= nrows < 2 ^ 64)%Z -> (0 <= ncols < 2 ^ 64)%Z -> In dtype dtypes ->
    parse_shape_from_header U (npy_header_dict_2d nrows ncols dtype ++ rest) = Ok [nrows; ncols].
  Proof.
    intros H1 H2 D.
    assert (E : exists d, find_text (txt "'shape':") (npy_header_dict_2d nrows ncols dtype ++ rest) = Some d
      /\ skipn (d + 8) (npy_header_dict_2d nrows ncols dtype ++ rest) = txt " (" ++ (digits nrows ++ txt ", " ++ digits ncols ++ txt "), }" ++ rest)).
    { unfold npy_header_dict_2d. rewrite <- !app_assoc. cbn in D. decompose [or] D; try contradiction; subst dtype; eexists; split; reflexivity. }
    destruct E as (d & E1 & E2). rewrite (shape_text _ d _ E1 E2 (digits nrows ++ 44%Z :: 32%Z :: digits ncols) (txt ", }" ++ rest)).
    - rewrite split_on_app by (apply not_digit; lia). rewrite split_on_none by (intros [Q|Q]; [discriminate|revert Q; apply not_digit; lia]).
      rewrite (parse_part _ _ nrows) by (auto; apply trim_digits; lia). rewrite (parse_part _ _ ncols) by (auto; apply trim_space_digits; lia). reflexivity.
    - rewrite <- !app_assoc. reflexivity.
    - intro I. apply in_app_or in I. destruct I as [I|[I|[I|I]]]; try discriminate; revert I; apply not_digit; lia.
  Qed.
  Lemma dtype_1d len dtype rest : In dtype dtypes -> parse_dtype_from_header (npy_header_dict_1d len dtype ++ rest) = Ok dtype.
  Proof. intro D. unfold npy_header_dict_1d. rewrite <- !app_assoc. cbn in D. decompose [or] D; try contradiction; subst dtype; reflexivity. Qed.
  Lemma dtype_2d nrows ncols dtype rest : In dtype dtypes -> parse_dtype_from_header (npy_header_dict_2d nrows ncols dtype ++ rest) = Ok dtype.
  Proof. intro D. unfold npy_header_dict_2d. rewrite <- !app_assoc. cbn in D. decompose [or] D; try contradiction; subst dtype; reflexivity. Qed.

  (** ** The fixed part *)
  Definition good_dict (dict : text) : Prop := ascii_text dict /\ length dict < 1000.
  Lemma ascii_digits n : (0 <= n)%Z -> ascii_text (digits n).
  Proof. intros H c I. pose proof (digits_digit n c H I). unfold is_ascii. lia. Qed.
  Lemma ascii_app a b : ascii_text a -> ascii_text b -> ascii_text (a ++ b).
  Proof. intros A B c I. apply in_app_or in I. destruct I; auto. Qed.
  Lemma ascii_lit s : forallb is_ascii (txt s) = true -> ascii_text (txt s).
  Proof. intros F c I. rewrite forallb_forall in F. auto. Qed.
  Lemma ascii_dtype dtype : In dtype dtypes -> ascii_text dtype /\ length dtype <= 3.
  Proof. intro D. cbn in D. decompose [or] D; try contradiction; subst dtype; (split; [intros c I; apply (fun P => proj1 (forallb_forall is_ascii _) P c I); reflexivity|cbn; lia]). Qed.
  Lemma good_1d len dtype : (0 <= len < 2 ^ 64)%Z -> In dtype dtypes -> good_dict (npy_header_dict_1d len dtype).
  Proof.
    intros H D. destruct (ascii_dtype dtype D) as (A & L). pose proof (digits_len len H). split; unfold npy_header_dict_1d.
    - repeat apply ascii_app; auto; try (apply ascii_lit; reflexivity). apply ascii_digits. lia.
    - rewrite !app_length. change (length (txt "{'descr': '")) with 11. change (length (txt "', 'fortran_order': False, 'shape': (")) with 37. change (length (txt ",), }")) with 5. lia.
  Qed.
  Lemma good_2d nrows ncols dtype : (0 <= nrows < 2 ^ 64)%Z -> (0 <= ncols < 2 ^ 64)%Z -> In dtype dtypes -> good_dict (npy_header_dict_2d nrows ncols dtype).
  Proof.
    intros H H2 D. destruct (ascii_dtype dtype D) as (A & L). pose proof (digits_len nrows H). pose proof (digits_len ncols H2). split; unfold npy_header_dict_2d.
    - repeat apply ascii_app; auto; try (apply ascii_lit; reflexivity); apply ascii_digits; lia.
    - rewrite !app_length. change (length (txt "{'descr': '")) with 11. change (length (txt "', 'fortran_order': False, 'shape': (")) with 37. change (length (txt ", ")) with 2. change (length (txt "), }")) with 4. lia.
  Qed.
  Definition padded_dict (dict : text) : text := dict ++ repeat 32%Z (fst (npy_header_layout dict)) ++ [10%Z].
  Lemma header_length dict : length (write_npy_header dict) = snd (npy_header_layout dict).
  Proof. unfold write_npy_header, npy_header_layout. cbn [fst snd]. rewrite !app_length, le_bytes_length, repeat_length. cbn [NPY_MAGIC length]. lia. Qed.
  Lemma header_aligned dict : length (write_npy_header dict) mod 64 = 1.
  Proof.
    rewrite header_length. unfold npy_header_layout. cbn [snd]. set (n := 10 + length dict). pose proof (Nat.mod_upper_bound n 64 ltac:(lia)).
    pose proof (Nat.div_mod n 64 ltac:(lia)). destruct (Nat.eq_dec (n mod 64) 0) as [E|E].
    - rewrite E. change ((64 - 0) mod 64) with 0. replace (n + 0 + 1) with (1 + (n / 64) * 64) by lia. rewrite Nat.mod_add by lia. reflexivity.
    - rewrite (Nat.mod_small (64 - n mod 64)) by lia. replace (n + (64 - n mod 64) + 1) with (1 + (n / 64 + 1) * 64) by lia. rewrite Nat.mod_add by lia. reflexivity.
  Qed.
  Lemma header_small dict : length dict < 1000 -> 65 <= length (write_npy_header dict) < 2000.
  Proof.
    intro L. pose proof (header_aligned dict) as A. pose proof (Nat.div_mod (length (write_npy_header dict)) 64 ltac:(lia)) as D.
    assert (B : 10 < length (write_npy_header dict) < 2000). { rewrite header_length. unfold npy_header_layout. cbn [snd]. pose proof (Nat.mod_upper_bound (64 - (10 + length dict) mod 64) 64 ltac:(lia)). lia. }
    rewrite A in D. destruct (length (write_npy_header dict) / 64); lia.
  Qed.
  Lemma header_read dict data k : good_dict dict -> k <= length (write_npy_header dict ++ data) ->
    header_text utf8 (firstn k (write_npy_header dict ++ data)) =
      if k <? length (write_npy_header dict) then Err else Ok (padded_dict dict, Z.of_nat (length (write_npy_header dict))).
  Proof using GU G8.
    intros (A & L) K. pose proof (header_small dict L) as HS. assert (HL : length (write_npy_header dict) = 10 + length (padded_dict dict)).
    { unfold write_npy_header. fold (padded_dict dict). rewrite !app_length, le_bytes_length. reflexivity. }
    assert (Lp : (0 <= Z.of_nat (length (padded_dict dict)) < 65536)%Z) by lia.
    unfold header_text, header_range, size. rewrite firstn_length, Nat.min_l by auto. destruct (Z.ltb_spec (Z.of_nat k) 10) as [Q|Q].
    { destruct (Nat.ltb_spec k (length (write_npy_header dict))); [reflexivity|lia]. }
    assert (EQ : write_npy_header dict ++ data = (NPY_MAGIC ++ [1; 0]%Z ++ le_bytes 2 (Z.of_nat (length (padded_dict dict)))) ++ (padded_dict dict ++ data)).
    { unfold write_npy_header. fold (padded_dict dict). rewrite <- !app_assoc. reflexivity. }
    set (F := write_npy_header dict ++ data) in *.
    assert (P10 : length (NPY_MAGIC ++ [1; 0]%Z ++ le_bytes 2 (Z.of_nat (length (padded_dict dict)))) = 10) by (rewrite !app_length, le_bytes_length; reflexivity).
    assert (FK : firstn k F = (NPY_MAGIC ++ [1; 0]%Z ++ le_bytes 2 (Z.of_nat (length (padded_dict dict)))) ++ firstn (k - 10) (padded_dict dict ++ data)).
    { rewrite EQ, firstn_app, P10. rewrite firstn_all2 by lia. reflexivity. }
    assert (F6 : firstn 6 (firstn k F) = NPY_MAGIC) by (rewrite FK; reflexivity).
    assert (N6 : nth 6 (firstn k F) 0%Z = 1%Z) by (rewrite FK; reflexivity).
    assert (F2 : firstn 2 (skipn 8 (firstn k F)) = le_bytes 2 (Z.of_nat (length (padded_dict dict)))).
    { rewrite FK, <- !app_assoc. cbn [NPY_MAGIC app skipn]. apply firstn_app_exact, le_bytes_length. }
    rewrite F6, N6, F2, text_eqb_refl. cbn [negb Z.eqb Pos.eqb bind fst snd]. rewrite le_value_le. rewrite Z.mod_small by (change (256 ^ Z.of_nat 2)%Z with 65536%Z; lia).
    replace (Z.of_nat 10 + Z.of_nat (length (padded_dict dict)))%Z with (Z.of_nat (length (write_npy_header dict))) by lia.
    destruct (Z.ltb_spec (Z.of_nat k) (Z.of_nat (length (write_npy_header dict)))) as [R|R], (Nat.ltb_spec k (length (write_npy_header dict))) as [R'|R']; try lia; [reflexivity|].
    cbn [bind fst snd]. rewrite FK. rewrite firstn_app. rewrite (firstn_all2 (padded_dict dict)) by lia.
    pose proof (bslice_app (NPY_MAGIC ++ [1; 0]%Z ++ le_bytes 2 (Z.of_nat (length (padded_dict dict)))) (padded_dict dict) (firstn (k - 10 - length (padded_dict dict)) data)) as B.
    unfold size in B. rewrite P10 in B. replace (Z.of_nat (length (write_npy_header dict))) with (Z.of_nat 10 + Z.of_nat (length (padded_dict dict)))%Z by lia. rewrite B.
    cbn [bind]. rewrite G8; [reflexivity|]. unfold padded_dict. apply ascii_app; auto. apply ascii_app; [|intros c [<-|[]]; reflexivity].
    intros c I. apply repeat_spec in I. subst. reflexivity.
  Qed.
  Lemma header_read_all dict data : good_dict dict ->
    header_text utf8 (write_npy_header dict ++ data) = Ok (padded_dict dict, Z.of_nat (length (write_npy_header dict))).
  Proof using GU G8.
    intro G. pose proof (header_read dict data _ G (le_n _)) as H. rewrite firstn_all in H. rewrite H. rewrite app_length.
    destruct (Nat.ltb_spec (length (write_npy_header dict) + length data) (length (write_npy_header dict))); [lia|reflexivity].
  Qed.
  Lemma parse_header dict data k shape : good_dict dict -> (forall rest, parse_shape_from_header U (dict ++ rest) = Ok shape) -> k <= length (write_npy_header dict ++ data) ->
    exists fo, parse_npy_header U utf8 (firstn k (write_npy_header dict ++ data)) =
      if k <? length (write_npy_header dict) then Err else Ok (shape, Z.of_nat (length (write_npy_header dict)), fo).
  Proof using GU G8.
    intros G P K. unfold parse_npy_header. rewrite header_read by auto. destruct (Nat.ltb_spec k (length (write_npy_header dict))); [exists true; reflexivity|].
    cbn [bind fst snd]. unfold padded_dict at 1. rewrite P. cbn [bind]. eexists. reflexivity.
  Qed.

  (** ** Round trips *)
  Lemma npy_1d_shape dtype data k : In dtype dtypes -> array1_ok 8 data -> k <= length (write_npy_1d 8 dtype data) ->
    from_npy_1d U utf8 (firstn k (write_npy_1d 8 dtype data)) =
      if k <? length (write_npy_1d 8 dtype data) then Err
      else Ok (Z.of_nat (length data), Z.of_nat (npy_header_size_1d (Z.of_nat (length data)) dtype)).
  Proof using GU G8.
    intros D A K. unfold array1_ok in A. assert (B : (0 <= Z.of_nat (length data) < 2 ^ 64)%Z) by lia. unfold write_npy_1d in *. set (dict := npy_header_dict_1d (Z.of_nat (length data)) dtype) in *.
    assert (G : good_dict dict) by (apply good_1d; auto).
    destruct (parse_header dict (flat_map (le_bytes 8) data) k [Z.of_nat (length data)] G) as (fo & P); auto; [intro; apply shape_1d; auto|].
    unfold from_npy_1d. rewrite P. clear P. pose proof (header_small dict (proj2 G)) as HS. rewrite app_length, flat_length in *.
    destruct (Nat.ltb_spec k (length (write_npy_header dict))) as [Q|Q].
    { destruct (Nat.ltb_spec k (length (write_npy_header dict) + length data * 8)); [reflexivity|lia]. }
    cbn [bind]. unfold size. rewrite firstn_length, app_length, flat_length, Nat.min_l by auto. rewrite (wrap_small (Z.of_nat (length data) * 8)) by lia. rewrite wrap_small by lia.
    unfold npy_header_size_1d. fold dict. rewrite <- header_length.
    destruct (Z.ltb_spec (Z.of_nat k) (Z.of_nat (length (write_npy_header dict)) + Z.of_nat (length data) * 8)), (Nat.ltb_spec k (length (write_npy_header dict) + length data * 8)); try lia; reflexivity.
  Qed.
  Lemma npy_1d_slice dtype data a n : In dtype dtypes -> array1_ok 8 data -> numbers 8 data -> a + n <= length data ->
    npy_slice_i64 U utf8 (write_npy_1d 8 dtype data) a n = Ok (firstn n (skipn a data)).
  Proof using GU G8.
    intros D A N L. unfold npy_slice_i64. pose proof (npy_1d_shape dtype data _ D A (le_n _)) as S1. rewrite firstn_all, Nat.ltb_irrefl in S1. rewrite S1. cbn [bind snd].
    rewrite (mapM_Ok_map _ (fun i => nth i data 0%Z)).
    - f_equal. apply nth_ext with (d := 0%Z) (d' := 0%Z); [rewrite map_length, seq_length, firstn_length, skipn_length; lia|]. intros i Hi. rewrite map_length, seq_length in Hi.
      rewrite (nth_indep _ 0%Z (nth 0 data 0%Z)) by (rewrite map_length, seq_length; auto). change (nth 0 data 0%Z) with ((fun i => nth i data 0%Z) 0). rewrite map_nth, seq_nth by auto. cbn [plus].
      rewrite <- (firstn_skipn a data) at 1. rewrite app_nth2; rewrite firstn_length, Nat.min_l by lia; [|lia]. replace (a + i - a) with i by lia.
      rewrite <- (firstn_skipn n (skipn a data)) at 1. apply app_nth1. rewrite firstn_length, skipn_length. lia.
    - intros i Hi. apply in_seq in Hi. unfold write_npy_1d. assert (G : good_dict (npy_header_dict_1d (Z.of_nat (length data)) dtype)) by (apply good_1d; auto; unfold array1_ok in A; lia).
      pose proof (header_small _ (proj2 G)). unfold npy_header_size_1d. rewrite <- header_length. apply get_ok; auto; [unfold size; lia|lia].
  Qed.
  Lemma npy_2d_shape w dtype nrows ncols data k : 1 <= w -> In dtype dtypes -> array2_ok w nrows ncols data -> k <= length (write_npy_2d w dtype nrows ncols data) ->
    from_npy_2d U utf8 w (firstn k (write_npy_2d w dtype nrows ncols data)) =
      if k <? length (write_npy_2d w dtype nrows ncols data) then Err
      else Ok (nrows, ncols, Z.of_nat (npy_header_size_2d nrows ncols dtype)).
  Proof using GU G8.
    intros W D (R & C & L & B & P0) K. unfold write_npy_2d in *. set (dict := npy_header_dict_2d nrows ncols dtype) in *.
    assert (G : good_dict dict) by (apply good_2d; auto; lia).
    destruct (parse_header dict (flat_map (le_bytes w) data) k [nrows; ncols] G) as (fo & P); auto; [intro; apply shape_2d; auto; lia|].
    unfold from_npy_2d. rewrite P. clear P. pose proof (header_small dict (proj2 G)) as HS. rewrite app_length, flat_length in *.
    destruct (Nat.ltb_spec k (length (write_npy_header dict))) as [Q|Q].
    { destruct (Nat.ltb_spec k (length (write_npy_header dict) + length data * w)); [reflexivity|lia]. }
    cbn [bind]. unfold size. rewrite firstn_length, app_length, flat_length, Nat.min_l by auto. assert (PW : (0 <= nrows * ncols <= nrows * ncols * Z.of_nat w)%Z) by nia.
    rewrite (wrap_small (nrows * ncols)) by lia. rewrite (wrap_small (nrows * ncols * Z.of_nat w)) by lia. rewrite wrap_small by lia.
    unfold npy_header_size_2d. fold dict. rewrite <- header_length. rewrite <- L in *.
    destruct (Z.ltb_spec (Z.of_nat k) (Z.of_nat (length (write_npy_header dict)) + Z.of_nat (length data) * Z.of_nat w)), (Nat.ltb_spec k (length (write_npy_header dict) + length data * w)); try lia; reflexivity.
  Qed.
  Lemma npy_2d_rows w dtype nrows ncols data a b : 1 <= w -> In dtype dtypes -> array2_ok w nrows ncols data -> (0 <= a <= b)%Z -> (b <= nrows)%Z ->
    npy_rows U utf8 w (write_npy_2d w dtype nrows ncols data) a b = Ok (rows_of data ncols a b).
  Proof using GU G8.
    intros W D A H1 H2. unfold npy_rows. pose proof (npy_2d_shape w dtype nrows ncols data _ W D A (le_n _)) as S1. rewrite firstn_all, Nat.ltb_irrefl in S1. rewrite S1. cbn [bind].
    unfold write_npy_2d, npy_header_size_2d. rewrite <- header_length. assert (G : good_dict (npy_header_dict_2d nrows ncols dtype)) by (destruct A; apply good_2d; auto; lia).
    pose proof (header_small _ (proj2 G)). apply (load_rows_ok w _ nrows); auto. unfold size. lia.
  Qed.
  Lemma npy_2d_view w dtype nrows ncols data : 1 <= w -> In dtype dtypes -> array2_ok w nrows ncols data ->
    npy_view U utf8 w (write_npy_2d w dtype nrows ncols data) = Ok (nrows, ncols, data).
  Proof using GU G8.
    intros W D A. unfold npy_view. pose proof (npy_2d_shape w dtype nrows ncols data _ W D A (le_n _)) as S1. rewrite firstn_all, Nat.ltb_irrefl in S1. rewrite S1. cbn [bind].
    pose proof (npy_2d_rows w dtype nrows ncols data 0 nrows W D A) as R. unfold npy_rows in R. rewrite S1 in R. cbn [bind] in R. rewrite R by (destruct A; lia). cbn [bind].
    rewrite rows_of_all; [reflexivity|]. destruct A as (_ & _ & L & _); auto.
  Qed.
  Lemma detect_1d w dtype data : In dtype dtypes -> (Z.of_nat (length data) < 2 ^ 64)%Z -> detect_npy_dtype utf8 (write_npy_1d w dtype data) = Ok dtype.
  Proof using GU G8. intros D L. unfold detect_npy_dtype, write_npy_1d. rewrite header_read_all by (apply good_1d; auto; lia). cbn [bind fst]. apply dtype_1d; auto. Qed.
  Lemma detect_2d w dtype nrows ncols data : In dtype dtypes -> (0 <= nrows < 2 ^ 64)%Z -> (0 <= ncols < 2 ^ 64)%Z -> detect_npy_dtype utf8 (write_npy_2d w dtype nrows ncols data) = Ok dtype.
  Proof using GU G8. intros D L1 L2. unfold detect_npy_dtype, write_npy_2d. rewrite header_read_all by (apply good_2d; auto). cbn [bind fst]. apply dtype_2d; auto. Qed.

  (** ** Conversions *)
  Lemma le_bytes_mod n : forall m z, n <= m -> le_bytes n (z mod 256 ^ Z.of_nat m) = le_bytes n z.
  Proof using.
    induction n as [|n IH]; intros m z L; [reflexivity|]. destruct m as [|m]; [lia|]. cbn [le_bytes]. rewrite Nat2Z.inj_succ, Z.pow_succ_r by lia.
    assert (P : (0 < 256 ^ Z.of_nat m)%Z) by (apply Z.pow_pos_nonneg; lia). rewrite Z.rem_mul_r by lia. f_equal.
    - rewrite Z.mul_comm, Z.mod_add by lia. apply Z.mod_mod. lia.
    - rewrite Z.mul_comm, Z.div_add by lia. rewrite (Z.div_small (z mod 256)) by (apply Z.mod_pos_bound; lia). rewrite Z.add_0_l. apply IH. lia.
  Qed.
  Lemma written_1d_holds w dtype data : In dtype dtypes -> (Z.of_nat (length data) < 2 ^ 64)%Z -> holds U utf8 w (write_npy_1d w dtype data) [Z.of_nat (length data)] data.
  Proof using GU G8.
    intros D L. assert (G : good_dict (npy_header_dict_1d (Z.of_nat (length data)) dtype)) by (apply good_1d; auto; lia).
    destruct (parse_header (npy_header_dict_1d (Z.of_nat (length data)) dtype) (flat_map (le_bytes w) data) _ [Z.of_nat (length data)] G ltac:(intro; apply shape_1d; auto; lia) (le_n _)) as (fo & P).
    rewrite firstn_all in P. rewrite app_length in P. destruct (Nat.ltb_spec (length (write_npy_header (npy_header_dict_1d (Z.of_nat (length data)) dtype)) + length (flat_map (le_bytes w) data)) (length (write_npy_header (npy_header_dict_1d (Z.of_nat (length data)) dtype)))) as [Q|_]; [lia|].
    pose proof (header_small _ (proj2 G)). eexists _, fo. split; [reflexivity|]. split; [exact P|]. unfold size. lia.
  Qed.
  Lemma written_2d_holds w dtype nrows ncols data : In dtype dtypes -> (0 <= nrows < 2 ^ 64)%Z -> (0 <= ncols < 2 ^ 64)%Z -> holds U utf8 w (write_npy_2d w dtype nrows ncols data) [nrows; ncols] data.
  Proof using GU G8.
    intros D L1 L2. assert (G : good_dict (npy_header_dict_2d nrows ncols dtype)) by (apply good_2d; auto; lia).
    destruct (parse_header (npy_header_dict_2d nrows ncols dtype) (flat_map (le_bytes w) data) _ [nrows; ncols] G ltac:(intro; apply shape_2d; auto; lia) (le_n _)) as (fo & P).
    rewrite firstn_all in P. rewrite app_length in P. destruct (Nat.ltb_spec (length (write_npy_header (npy_header_dict_2d nrows ncols dtype)) + length (flat_map (le_bytes w) data)) (length (write_npy_header (npy_header_dict_2d nrows ncols dtype)))) as [Q|_]; [lia|].
    pose proof (header_small _ (proj2 G)). eexists _, fo. split; [reflexivity|]. split; [exact P|]. unfold size. lia.
  Qed.
  Lemma convert_header_same f shape off fo : parse_npy_header U utf8 f = Ok (shape, off, fo) ->
    exists h, convert_header utf8 f = Ok (h, off) /\ parse_shape_from_header U h = Ok shape.
  Proof.
    unfold parse_npy_header, header_text, header_range, convert_header. destruct (size f <? 10)%Z; [discriminate|]. destruct (text_eqb (firstn 6 f) NPY_MAGIC); [|discriminate]. cbn [negb orb].
    destruct (nth 6 f 0 =? 1)%Z.
    - cbn [bind fst snd]. destruct (size f <? _)%Z; [discriminate|]. cbn [bind fst snd]. change (Z.of_nat 10) with 10%Z. destruct (bslice f 10 _) as [b| |]; cbn [bind]; try discriminate.
      destruct (utf8 b) as [h|]; [|discriminate]. cbn [bind fst snd]. destruct (parse_shape_from_header U h) as [s| |] eqn:E; try discriminate. cbn [bind]. intro H. injection H as <- <- _. eauto.
    - destruct (nth 6 f 0 =? 2)%Z; [|discriminate]. destruct (size f <? 12)%Z; [discriminate|]. cbn [bind fst snd]. destruct (size f <? _)%Z; [discriminate|]. cbn [bind fst snd]. change (Z.of_nat 12) with 12%Z.
      destruct (bslice f 12 _) as [b| |]; cbn [bind]; try discriminate.
      destruct (utf8 b) as [h|]; [|discriminate]. cbn [bind fst snd]. destruct (parse_shape_from_header U h) as [s| |] eqn:E; try discriminate. cbn [bind]. intro H. injection H as <- <- _. eauto.
  Qed.
  Lemma bslice_all h d : bslice (h ++ d) (size h) (size h + size d) = Ok d.
  Proof. pose proof (bslice_app h d []) as P. rewrite app_nil_r in P. exact P. Qed.
  Lemma convert_i32_ok f data : holds U utf8 8 f [Z.of_nat (length data)] data -> array1_ok 8 data ->
    convert_i64_to_i32 U utf8 f = Ok (write_npy_1d 4 (txt "<i4") data).
  Proof.
    intros (h & fo & -> & P & Hh) A. unfold array1_ok in A. destruct (convert_header_same _ _ _ _ P) as (t & C & S1). unfold convert_i64_to_i32. rewrite C. cbn [bind fst snd]. rewrite S1. cbn [bind].
    assert (0 <= size h)%Z by (unfold size; lia). rewrite (wrap_small (Z.of_nat (length data) * 8)) by lia. rewrite wrap_small by lia.
    replace (Z.of_nat (length data) * 8)%Z with (size (flat_map (le_bytes 8) data)) by (unfold size; rewrite flat_length; lia). rewrite bslice_all. cbn [bind].
    unfold write_npy_1d. rewrite elements_flat by lia. do 2 f_equal. clear. induction data as [|z l IH]; cbn [map flat_map]; [reflexivity|]. rewrite IH. f_equal. apply le_bytes_mod. lia.
  Qed.
  Lemma normalize_ok f nrows ncols data : holds U utf8 1 f [nrows; ncols] data -> array2_ok 1 nrows ncols data ->
    normalize_u8 U utf8 f = Ok (write_npy_2d 1 (txt "|u1") nrows ncols data).
  Proof.
    intros (h & fo & -> & P & Hh) (R & C0 & L & B & P0). destruct (convert_header_same _ _ _ _ P) as (t & C & S1). unfold normalize_u8. rewrite C. cbn [bind fst snd]. rewrite S1. cbn [bind].
    assert (0 <= size h)%Z by (unfold size; lia). rewrite (wrap_small (nrows * ncols)) by lia. rewrite wrap_small by lia.
    replace (nrows * ncols)%Z with (size (flat_map (le_bytes 1) data)) by (unfold size; rewrite flat_length; lia). rewrite bslice_all. reflexivity.
  Qed.
  Lemma convert_f32_ok widen f nrows ncols data : holds U utf8 2 f [nrows; ncols] data -> array2_ok 2 nrows ncols data ->
    convert_f16_to_f32 U utf8 widen f = Ok (write_npy_2d 4 (txt "<f4") nrows ncols (map widen data)).
  Proof.
    intros (h & fo & -> & P & Hh) (R & C0 & L & B & P0). destruct (convert_header_same _ _ _ _ P) as (t & C & S1). unfold convert_f16_to_f32. rewrite C. cbn [bind fst snd]. rewrite S1. cbn [bind fold_left].
    assert (0 <= size h)%Z by (unfold size; lia). rewrite Z.mul_1_l. rewrite (wrap_small nrows) by lia. rewrite (wrap_small (nrows * ncols)) by lia.
    rewrite (wrap_small (nrows * ncols * 2)) by lia. rewrite wrap_small by lia.
    replace (nrows * ncols * 2)%Z with (size (flat_map (le_bytes 2) data)) by (unfold size; rewrite flat_length; lia). rewrite bslice_all. cbn [bind].
    rewrite elements_patterns by (auto; lia). reflexivity.
  Qed.
  Lemma convert_f32_1d_ok widen f data : holds U utf8 2 f [Z.of_nat (length data)] data -> array1_ok 2 data -> patterns 2 data ->
    convert_f16_to_f32 U utf8 widen f = Ok (write_npy_1d 4 (txt "<f4") (map widen data)).
  Proof.
    intros (h & fo & -> & P & Hh) A P0. unfold array1_ok in A. destruct (convert_header_same _ _ _ _ P) as (t & C & S1). unfold convert_f16_to_f32. rewrite C. cbn [bind fst snd]. rewrite S1. cbn [bind fold_left].
    assert (0 <= size h)%Z by (unfold size; lia). rewrite Z.mul_1_l. rewrite (wrap_small (Z.of_nat (length data))) by lia.
    rewrite (wrap_small (Z.of_nat (length data) * 2)) by lia. rewrite wrap_small by lia.
    replace (Z.of_nat (length data) * 2)%Z with (size (flat_map (le_bytes 2) data)) by (unfold size; rewrite flat_length; lia). rewrite bslice_all. cbn [bind].
    rewrite elements_patterns by (auto; lia). unfold write_npy_1d. rewrite map_length. reflexivity.
  Qed.
End HEADER.
