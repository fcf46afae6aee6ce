(** Proofs about the output. *)
From Verif Require Import Base Text Display DisplaySpec.
Open Scope nat_scope.

(** ** Ranges *)
Definition covered (rs : list (nat * nat)) (i : nat) : Prop := exists s e, In (s, e) rs /\ s <= i < e.
Lemma covered_cons s e rs i : covered ((s, e) :: rs) i <-> s <= i < e \/ covered rs i.
Proof.
  unfold covered. split.
  - intros (s' & e' & [K|K] & H); [injection K as <- <-; left; exact H|right; eauto].
  - intros [H|(s' & e' & K & H)]; [exists s, e; split; [left; reflexivity|exact H]|exists s', e'; split; [right; exact K|exact H]].
Qed.
(** Non-empty, in order, without overlap. *)
Inductive apart : list (nat * nat) -> Prop :=
| apart_nil : apart []
| apart_one s e : s < e -> apart [(s, e)]
| apart_more s e s' e' l : s < e -> e <= s' -> apart ((s', e') :: l) -> apart ((s, e) :: (s', e') :: l).
Inductive climbing : nat -> list (nat * nat) -> Prop :=
| climbing_nil a : climbing a []
| climbing_cons a s e l : a <= s -> s < e -> climbing s l -> climbing a ((s, e) :: l).
Lemma merge_from_spec l : forall s e, s < e -> climbing s l ->
  (exists e' rest, merge_from (s, e) l = (s, e') :: rest) /\ apart (merge_from (s, e) l) /\
  forall i, covered (merge_from (s, e) l) i <-> covered ((s, e) :: l) i.
Proof.
  induction l as [|(s1, e1) l IH]; intros s e SE CL.
  - cbn. split; [eauto|]. split; [constructor; exact SE|]. reflexivity.
  - inversion CL as [|? ? ? ? A1 A2 A3]; subst. cbn [merge_from fst snd]. destruct (s1 <=? e) eqn:L.
    + apply Nat.leb_le in L.
      assert (C' : climbing s l) by (inversion A3; subst; [constructor|constructor; [lia|assumption|assumption]]).
      destruct (IH s (Nat.max e e1) ltac:(lia) C') as (H1 & H2 & H3). split; [exact H1|]. split; [exact H2|].
      intros i. rewrite H3, !covered_cons. split; intros [K|K]; try tauto; [|left; lia|destruct K as [K|K]; [left; lia|right; exact K]].
      destruct (Nat.lt_ge_cases i e); [left; lia|right; left; lia].
    + apply Nat.leb_gt in L. destruct (IH s1 e1 A2 A3) as ((e' & rest & E) & H2 & H3). split; [eauto|]. split.
      * rewrite E in *. constructor; [assumption|lia|assumption].
      * intros i. rewrite covered_cons, H3, !covered_cons. reflexivity.
Qed.

(** ** Printing *)
Lemma firstn_skipn_nth {A} (l : list A) k : forall a i, nth_error (firstn k (skipn a l)) i = if i <? k then nth_error l (a + i) else None.
Proof.
  intros a i. revert a l i. induction k as [|k IH]; intros a l i.
  - cbn. destruct i; reflexivity.
  - destruct (skipn a l) as [|x r] eqn:S1.
    + assert (length l <= a) by (pose proof (skipn_length a l) as L; rewrite S1 in L; cbn in L; lia).
      assert (N : nth_error l (a + i) = None) by (apply nth_error_None; lia).
      replace (nth_error (firstn (S k) []) i) with (@None A) by (destruct i; reflexivity). rewrite N. destruct (i <? S k); reflexivity.
    + assert (N : nth_error l a = Some x /\ skipn (S a) l = r).
      { clear IH. revert a S1. induction l as [|y l IHl]; intros a S1; [destruct a; discriminate|]. destruct a as [|a]; cbn in S1; [injection S1 as -> ->; split; reflexivity|]. apply IHl. exact S1. }
      destruct N as (N1 & N2). destruct i as [|i]; cbn [firstn nth_error].
      * rewrite Nat.add_0_r. symmetry. exact N1.
      * rewrite <- N2, IH. replace (S a + i) with (a + S i) by lia. reflexivity.
Qed.
Lemma slice_ok ls a b : a <= b -> b <= length ls -> exists part, slice ls a b = Ok part /\ length part = b - a /\
  forall i, i < b - a -> nth_error part i = nth_error ls (a + i).
Proof.
  intros H1 H2. unfold slice. replace (b <? a) with false by lia. replace (length ls <? b) with false by lia. cbn [orb].
  eexists. split; [reflexivity|]. split.
  - rewrite firstn_length, skipn_length. lia.
  - intros i I. rewrite firstn_skipn_nth. replace (i <? b - a) with true by lia. reflexivity.
Qed.
Lemma print_lines_numbers first part : numbers (print_lines first part) = seq first (length part).
Proof.
  unfold numbers, print_lines. revert first. induction part as [|x part IH]; intros first; [reflexivity|].
  cbn [length seq combine map flat_map number_of fst]. cbn [app]. f_equal. apply IH.
Qed.
Lemma print_lines_In first part n t : In (Shown n t) (print_lines first part) <->
  exists i s, n = first + i /\ nth_error part i = Some s /\ t = cut_at 400 s.
Proof.
  unfold print_lines. revert first. induction part as [|x part IH]; intros first.
  - cbn. split; [intros []|]. intros (i & s & _ & K & _). destruct i; discriminate.
  - cbn [length seq combine map fst snd In]. rewrite IH. split.
    + intros [K|(i & s & -> & K & ->)].
      * injection K as <- <-. exists 0, x. split; [lia|]. split; reflexivity.
      * exists (S i), s. split; [lia|]. split; [exact K|reflexivity].
    + intros (i & s & -> & K & ->). destruct i as [|i]; cbn in K.
      * injection K as <-. left. rewrite Nat.add_0_r. reflexivity.
      * right. exists i, s. split; [lia|]. split; [exact K|reflexivity].
Qed.
Lemma Dots_print first part : ~ In Dots (print_lines first part).
Proof. unfold print_lines. intros K. apply in_map_iff in K. destruct K as (p & K & _). discriminate. Qed.
Lemma numbers_app a b : numbers (a ++ b) = numbers a ++ numbers b.
Proof. unfold numbers. apply flat_map_app. Qed.
Lemma numbers_In n out : In n (numbers out) <-> exists t, In (Shown n t) out.
Proof.
  unfold numbers. rewrite in_flat_map. split.
  - intros (i & K & N). destruct i as [m t|]; [|destruct N]. destruct N as [->|[]]. eauto.
  - intros (t & K). exists (Shown n t). split; [exact K|left; reflexivity].
Qed.
Lemma rising_app l m : rising l -> rising m -> (forall x y, In x l -> In y m -> x < y) -> rising (l ++ m).
Proof.
  unfold rising. induction l as [|x l IH]; cbn; intros L N D; [exact N|]. inversion L as [|? ? L1 L2]; subst. constructor.
  - apply IH; [exact L1|exact N|]. intros y z Y Z. apply D; auto.
  - apply Forall_app. split; [exact L2|]. apply Forall_forall. intros y Y. apply D; auto.
Qed.
Lemma rising_seq n : forall a, rising (seq a n).
Proof.
  unfold rising. induction n as [|n IH]; intros a; cbn; constructor; [apply IH|]. apply Forall_forall. intros x K. apply in_seq in K. lia.
Qed.
Lemma apart_inv s e l : apart ((s, e) :: l) -> s < e /\ apart l /\ forall i, covered l i -> e <= i.
Proof.
  revert s e. induction l as [|(s1, e1) l IH]; intros s e H; inversion H; subst.
  - split; [assumption|]. split; [constructor|]. intros i (a & b & [] & _).
  - split; [assumption|]. split; [assumption|]. destruct (IH s1 e1 ltac:(assumption)) as (I0 & _ & I1). intros i K.
    apply covered_cons in K. destruct K as [K|K]; [lia|]. specialize (I1 i K). inversion H; subst. lia.
Qed.
Lemma print_ranges_spec ls unit_end rs : apart rs -> (forall i, covered rs i -> i < length ls) ->
  exists out, print_ranges ls unit_end rs = Ok out /\ shows ls (fun n => 1 <= n /\ covered rs (n - 1)) out.
Proof.
  induction rs as [|(s, e) rs IH]; intros AP B.
  - exists []. split; [reflexivity|]. split; [constructor|]. intros n t. split; [intros []|]. intros ((_ & a & b & [] & _) & _).
  - destruct (apart_inv _ _ _ AP) as (SE & AP' & GAP).
    assert (EL : e <= length ls). { pose proof (B (e - 1)) as K. rewrite covered_cons in K. specialize (K ltac:(left; lia)). lia. }
    destruct IH as (more & E & R & S1); [exact AP'|intros i K; apply B; apply covered_cons; right; exact K|].
    cbn [print_ranges]. replace (Nat.min e (length ls)) with e by lia. replace (Nat.min s (length ls)) with s by lia.
    replace (length ls <=? s) with false by lia. destruct (slice_ok ls s e ltac:(lia) EL) as (part & -> & LP & NP). cbn [bind]. rewrite E. cbn [bind].
    eexists. split; [reflexivity|]. set (dots := if _ : bool then [Dots] else []).
    assert (DN : numbers dots = []) by (unfold dots; match goal with |- context [if ?b then _ else _] => destruct b end; reflexivity).
    assert (DI : forall n t, ~ In (Shown n t) dots) by (intros n t; unfold dots; match goal with |- context [if ?b then _ else _] => destruct b end; cbn; intuition discriminate).
    assert (MORE : forall x, In x (numbers more) -> 1 <= x /\ e <= x - 1).
    { intros x K. apply numbers_In in K. destruct K as (t & K). apply S1 in K. destruct K as ((K1 & K) & _). split; [exact K1|exact (GAP _ K)]. }
    split.
    + rewrite !numbers_app, DN, print_lines_numbers. cbn [app]. apply rising_app; [apply rising_seq|exact R|].
      intros x y X Y. apply in_seq in X. apply MORE in Y. lia.
    + intros n t. rewrite !in_app_iff, print_lines_In, covered_cons. split.
      * intros [(i & l & -> & K & ->)|[K|K]]; [|destruct (DI n t K)|apply S1 in K; tauto].
        assert (I : i < e - s) by (rewrite <- LP; apply nth_error_Some; rewrite K; discriminate). split; [split; [lia|left; lia]|].
        split; [lia|]. exists l. split; [|reflexivity]. rewrite <- K, NP by exact I. f_equal. lia.
      * intros ((N & [K|K]) & L); [|right; right; apply S1; tauto]. left. destruct L as (_ & l & L & ->). exists (n - 1 - s), l.
        split; [lia|]. split; [|reflexivity]. rewrite NP by lia. rewrite <- L. f_equal. lia.
Qed.

(** ** The ranges of a unit *)
Section Unit_.
  Variables (first last half : nat).
  Hypothesis first_pos : 1 <= first.
  Lemma climbing_ranges ms : forall a, StronglySorted (fun x y => (x <=? y) = true) ms -> (forall m, In m ms -> first <= m <= last) ->
    (forall m, In m ms -> a <= Nat.max (m - 1 - half) (first - 1)) -> climbing a (map (range_of half (first - 1) last) ms).
  Proof using first_pos.
    induction ms as [|m ms IH]; intros a SS IN LO; cbn [map]; [constructor|]. inversion SS as [|? ? S1 S2]; subst.
    unfold range_of at 1. pose proof (IN m (or_introl eq_refl)). constructor; [apply LO; left; reflexivity|lia|].
    apply IH; [exact S1|intros x X; apply IN; right; exact X|]. intros x X. rewrite Forall_forall in S2. specialize (S2 x X). apply Nat.leb_le in S2. lia.
  Qed.
  Lemma covered_ranges ms i : (forall m, In m ms -> first <= m <= last) ->
    (covered (map (range_of half (first - 1) last) ms) i <-> first - 1 <= i < last /\ exists m, In m ms /\ i + 1 <= m + half /\ m <= i + 1 + half).
  Proof using first_pos.
    intros IN. unfold covered. split.
    - intros (s & e & K & H). apply in_map_iff in K. destruct K as (m & E & K). unfold range_of in E. injection E as <- <-. specialize (IN m K).
      split; [lia|]. exists m. split; [exact K|]. lia.
    - intros (H & m & K & H2). specialize (IN m K). exists (Nat.max (m - 1 - half) (first - 1)), (Nat.min (m - 1 + half + 1) last). split; [apply (in_map (range_of half (first - 1) last)) in K; exact K|]. lia.
  Qed.
  Variable M : machine.
  Lemma calc_found matches max_lines : (exists m, In m matches /\ first <= m <= last) ->
    exists rs, calc_display_ranges M matches first last half max_lines true = Ok rs /\ apart rs /\
      forall n, (1 <= n /\ covered rs (n - 1)) <-> wanted_lines matches first last half n.
  Proof using first_pos.
    intros (m0 & K0 & B0). unfold calc_display_ranges. destruct matches as [|x0 xs] eqn:EM; [destruct K0|]. rewrite <- EM in *. clear x0 xs EM.
    set (ms := isort Nat.leb (filter (fun l => (first <=? l) && (l <=? last)) matches)).
    assert (IN : forall m, In m ms <-> In m matches /\ first <= m <= last).
    { intros m. unfold ms. rewrite isort_In, filter_In, andb_true_iff, !Nat.leb_le. reflexivity. }
    assert (SS : StronglySorted (fun x y => (x <=? y) = true) ms).
    { apply isort_sorted; [intros x y; destruct (Nat.leb_spec x y); [left; reflexivity|right; apply Nat.leb_le; lia]|].
      intros x y z X Y. apply Nat.leb_le in X, Y. apply Nat.leb_le. lia. }
    clearbody ms. destruct ms as [|m1 ms]; [destruct (proj2 (IN m0) (conj K0 B0))|].
    pose proof (fun m K => proj2 (proj1 (IN m) K)) as INB.
    cbn zeta. cbn [map merge_ranges]. pose proof (INB m1 (or_introl eq_refl)) as B1.
    pose proof SS as SS'. inversion SS' as [|? ? SS1 SS2]; subst.
    set (s1 := Nat.max (m1 - 1 - half) (first - 1)). set (e1 := Nat.min (m1 - 1 + half + 1) last).
    change (range_of half (first - 1) last m1) with (s1, e1).
    destruct (merge_from_spec (map (range_of half (first - 1) last) ms) s1 e1) as ((e' & rest & E) & AP & COV).
    { unfold s1, e1. lia. }
    { apply climbing_ranges; [exact SS1|intros m K; apply INB; right; exact K|]. intros m K. rewrite Forall_forall in SS2. specialize (SS2 m K).
      apply Nat.leb_le in SS2. unfold s1. lia. }
    change ((s1, e1) :: map (range_of half (first - 1) last) ms) with (map (range_of half (first - 1) last) (m1 :: ms)) in COV.
    assert (COV' : forall i, covered (merge_from (s1, e1) (map (range_of half (first - 1) last) ms)) i <->
      first - 1 <= i < last /\ exists m, In m (m1 :: ms) /\ i + 1 <= m + half /\ m <= i + 1 + half).
    { intros i. rewrite COV. apply covered_ranges. exact INB. }
    assert (ARO : forall n, 1 <= n -> (covered (merge_from (s1, e1) (map (range_of half (first - 1) last) ms)) (n - 1) <->
      first <= n <= last /\ around matches first last half n)).
    { intros n N. rewrite COV'. replace (n - 1 + 1) with n by lia. split.
      - intros (R & m & K & H). split; [lia|]. apply IN in K. exists m. tauto.
      - intros (R & m & K & H1 & H2 & H3). split; [lia|]. exists m. split; [apply IN; auto|]. lia. }
    assert (MIN : forall m, In m matches -> first <= m <= last -> m1 <= m).
    { intros m K B. destruct (proj2 (IN m) (conj K B)) as [<-|K']; [lia|]. rewrite Forall_forall in SS2. specialize (SS2 m K'). apply Nat.leb_le in SS2. exact SS2. }
    clear COV. rewrite E in *. cbn [fst]. destruct (first - 1 <? s1) eqn:LT.
    - apply Nat.ltb_lt in LT. eexists. split; [reflexivity|]. split.
      + destruct (apart_inv _ _ _ AP) as (SE & _). constructor; [lia|lia|exact AP].
      + intros n. rewrite covered_cons. unfold wanted_lines. split.
        * intros (N & [K|K]).
          { split; [unfold s1, e1 in *; lia|]. right. unfold head. destruct (Nat.eq_dec n first); [left; assumption|right]. split; [lia|].
            intros m K1 K2. specialize (MIN m K1 K2). unfold s1 in *. lia. }
          { apply (ARO n N) in K. tauto. }
        * intros (R & [K|K]).
          { split; [lia|]. right. apply ARO; [lia|]. tauto. }
          { split; [lia|]. destruct K as [->|(-> & K)]; [left; lia|]. specialize (K m1 (proj1 (proj1 (IN m1) (or_introl eq_refl))) B1).
            destruct (Nat.eq_dec s1 first) as [Es|]; [|left; unfold s1 in *; lia].
            right. apply ARO; [lia|]. split; [exact R|]. exists m1. split; [apply IN; left; reflexivity|]. split; [exact B1|]. unfold s1 in *. lia. }
    - apply Nat.ltb_ge in LT. assert (s1 = first - 1) as E1 by (unfold s1 in *; lia). eexists. split; [reflexivity|]. split; [exact AP|].
      intros n. unfold wanted_lines. split.
      + intros (N & K). apply (ARO n N) in K. tauto.
      + intros (R & [K|K]).
        * split; [lia|]. apply ARO; [lia|]. tauto.
        * split; [lia|]. apply ARO; [lia|]. split; [exact R|]. exists m1. split; [apply IN; left; reflexivity|]. split; [exact B1|].
          destruct K as [->|(-> & K)]; [unfold s1 in *; lia|]. specialize (K m1 (proj1 (proj1 (IN m1) (or_introl eq_refl))) B1). unfold s1 in *. lia.
  Qed.
  Lemma calc_none matches max_lines : (forall m, In m matches -> ~ first <= m <= last) ->
    calc_display_ranges M matches first last half max_lines true = from_the_start M first last max_lines.
  Proof using Type.
    intros N. unfold calc_display_ranges. destruct matches as [|x xs] eqn:E; [reflexivity|]. rewrite <- E in *. clear E.
    replace (filter _ matches) with (@nil nat); [reflexivity|]. symmetry. induction matches as [|y ys IH]; [reflexivity|]. cbn [filter].
    replace ((first <=? y) && (y <=? last)) with false; [|symmetry; apply not_true_iff_false; rewrite andb_true_iff, !Nat.leb_le; apply N; left; reflexivity].
    apply IH. intros m K. apply N. right. exact K.
  Qed.
End Unit_.
