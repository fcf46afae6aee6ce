(** C108: hits in tests, in code kept for compatibility and in examples rank lower. *)
From Coq Require Import QArith.
From Verif Require Import Base Text FtsText FtsRank FtsExamples MetaExamples PathRank PathRankSpec PathRankProofs PathRankMore.
From Verif Require Results ResultsExamples.
From Coq Require Import String.
Open Scope string_scope.
Open Scope nat_scope.
Open Scope list_scope.

(** C108. The penalty of a path is the product of exactly the factors of what it is. *)
Theorem C108_penalty :
  forall U A parse env strong moderate mild file, good_unicode U ->
  let of_env name default := match env (txt name) with Some s => match parse s with Some x => x | None => default end | None => default end in
  exists p, with_slashes file p /\ forall l,
    factors U (of_env "COLGREP_STRONG_PENALTY" strong) (of_env "COLGREP_MODERATE_PENALTY" moderate) (of_env "COLGREP_MILD_PENALTY" mild) barrel_name p l ->
    file_path_penalty U A parse env strong moderate mild file = fold_left (f_mul A) l (f_1 A).
Proof.
  intros U A parse env ds dm dl file G of_env. exists (normalised file). split; [apply normalised_ok|]. intros l H. destruct (penalty_ok U A parse env ds dm dl file G) as (l' & H' & E). rewrite E. f_equal. eapply factors_same; [exact H'|exact H].
Qed.
Print Assumptions C108_penalty.
(** every path has its factors: the theorem above says something of each *)
Theorem C108_every_path :
  forall U (F : Type) (strong moderate mild : F) p, good_unicode U -> exists l, factors U strong moderate mild barrel_name p l /\ forall l', factors U strong moderate mild barrel_name p l' -> l' = l.
Proof.
  intros U F s mo mi p G.
  assert (D : forall (b : bool) (P : Prop) (f : F), (b = true <-> P) -> exists l, factor P f l). { intros b P f H. exists (if b then [f] else []). apply factor_of. exact H. }
  destruct (D (to_end U test_file_re p || to_slash U test_dir_re p) (of_test U p) s) as (a & A1). { unfold of_test. rewrite orb_true_iff, (test_file_ok U p G), test_dir_ok. reflexivity. }
  destruct (D _ _ s (compat_dir_ok U p)) as (b & A2). destruct (D _ _ s (examples_dir_ok U p)) as (c & A3). destruct (D _ _ mi (ends_with_iff (txt ".d.ts") p)) as (d & A4). destruct (D _ _ mo (barrel_ok p)) as (e & A5).
  exists (a ++ b ++ c ++ d ++ e). assert (H : factors U s mo mi barrel_name p (a ++ b ++ c ++ d ++ e)) by (exists a, b, c, d, e; auto 10). split; [exact H|]. intros l' H'. eapply factors_same; eauto.
Qed.
Print Assumptions C108_every_path.
(** C108. With factors between nothing and one no score goes up, none below nothing, and the score of
    another file stays as it is. *)
Theorem C108_never_raised :
  forall U A parse env strong moderate mild file, good_unicode U -> good_products A ->
  (forall f, In f [strong_penalty A parse env strong; moderate_penalty A parse env moderate; mild_penalty A parse env mild] -> at_most A (f_0 A) f /\ at_most A f (f_1 A)) ->
  let q := file_path_penalty U A parse env strong moderate mild file in
  at_most A (f_0 A) q /\ at_most A q (f_1 A) /\ (forall s, at_most A (f_0 A) s -> finite A s -> at_most A (f_0 A) (f_mul A s q) /\ at_most A (f_mul A s q) s)
  /\ (forall p, with_slashes file p -> ~ of_test U p -> ~ goes_through compat_dirs p -> ~ goes_through example_dirs p -> (~ exists m, p = m ++ txt ".d.ts") -> ~ barrel_name p -> q = f_1 A).
Proof.
  intros U A parse env ds dm dl file G P H q. destruct (penalty_ok U A parse env ds dm dl file G) as (l & Fa & E). fold q in E.
  destruct (product_bounded A l (f_1 A) P (proj1 (gp_one A P)) (proj2 (gp_one A P))) as (B0 & B1).
  { intros f I. apply H. destruct (factors_in _ _ _ _ _ _ _ _ Fa I) as [->|[->| ->]]; cbn [In]; auto. }
  rewrite <- E in B0, B1. split; [exact B0|split; [exact B1|split]].
  - intros s S0 Sf. apply (gp_mul A P); assumption.
  - intros p W N1 N2 N3 N4 N5. assert (X : p = normalised file).
    { unfold with_slashes in W. unfold normalised. clear -W. induction W as [|c d f g W1 W IH]; [reflexivity|]. cbn [map]. rewrite IH. f_equal. destruct W1 as [(-> & ->)|(Nc & ->)]; [reflexivity|]. apply Z.eqb_neq in Nc. rewrite Nc. reflexivity. }
    subst p. rewrite E. destruct Fa as (a & b & c & d & e & -> & A1 & A2 & A3 & A4 & A5).
    assert (Z : forall Q (f : num A) x, factor Q f x -> ~ Q -> x = []). { intros Q f x [(Y & _)|(_ & Y)] NQ; [destruct (NQ Y)|exact Y]. }
    rewrite (Z _ _ _ A1 N1), (Z _ _ _ A2 N2), (Z _ _ _ A3 N3), (Z _ _ _ A4 N4), (Z _ _ _ A5 N5). reflexivity.
Qed.
Print Assumptions C108_never_raised.
(** ** Rational numbers, and the factors of the code *)
Lemma q_products : good_products qarith.
Proof.
  assert (M : forall x y, at_most qarith x y <-> xcmp x y <> Gt).
  { intros x y. unfold at_most. cbn [f_cmp qarith]. destruct (xcmp x y); split; intro H; try discriminate; auto; [destruct H; discriminate|congruence]. }
  constructor.
  - split; [left; reflexivity|reflexivity].
  - intros x _. rewrite M, xcmp_refl. discriminate.
  - intros x y z. rewrite !M. destruct x as [|a|], y as [|b|], z as [|c|]; cbn [xcmp]; try congruence. intros H1 H2. apply Qle_alt in H1, H2. apply Qle_alt. eapply Qle_trans; eauto.
  - intros x y. rewrite M. unfold finite. cbn [f_cmp f_inf qarith]. destruct x as [|a|], y as [|b|]; cbn [xcmp]; try congruence; try reflexivity.
  - intros x y. rewrite !M. unfold finite. cbn [f_mul f_0 f_1 f_cmp f_inf qarith]. destruct x as [|a|], y as [|b|]; cbn [xcmp lift]; try congruence; try (intros; split; discriminate).
    intros H1 _ H2 H3. apply Qle_alt in H1, H2, H3. split; apply Qle_alt; rewrite Qred_correct; [apply Qmult_le_0_compat; assumption|]. setoid_replace (a * b)%Q with (b * a)%Q by ring. apply Qle_trans with (1 * a)%Q; [apply Qmult_le_compat_r; assumption|]. rewrite Qmult_1_l. apply Qle_refl.
Qed.
Definition q_penalty (file : string) : xq := file_path_penalty ascii_unicode qarith (fun _ => None) (fun _ => None) (Fin (3 # 10)) (Fin (1 # 2)) (Fin (7 # 10)) (txt file).
Example C108_example :
  map q_penalty ["src/main.rs"; "src/latest.py"; "pkg/foo_test.go"; "tests\a\mod.rs"; "compat/foo_test.py"; "types/index.d.ts"; "src/__init__.py"; "docs_src/test_helpers_io.x"; "a/test_"; "ui/b.spec.tsx"; "example"]
  = map Fin [1; 1; 3 # 10; 3 # 10; 9 # 100; 7 # 10; 1 # 2; 9 # 100; 1; 3 # 10; 3 # 10]%Q
  /\ forall f, In f [strong_penalty qarith (fun _ => None) (fun _ => None) (Fin (3 # 10))] -> at_most qarith (f_0 qarith) f /\ at_most qarith f (f_1 qarith).
Proof. split; [vm_compute; reflexivity|]. intros f [<-|[]]. split; left; reflexivity. Qed.

(** ** What does not hold *)
(** Not true: that the penalty is at most one.  The environment may say two, and nothing checks it. *)
Theorem C108_bounded_refuted :
  ~ (forall U A parse env strong moderate mild file, good_unicode U -> good_products A -> (forall f, In f [strong; moderate; mild] -> at_most A (f_0 A) f /\ at_most A f (f_1 A)) ->
     at_most A (file_path_penalty U A parse env strong moderate mild file) (f_1 A)).
Proof.
  intro H. assert (X := H ascii_unicode qarith (fun _ => Some (Fin 2)) (fun _ => Some (txt "2")) (Fin 1) (Fin 1) (Fin 1) (txt "tests/a.py") ascii_good q_products).
  destruct X as [X|X].
  - intros f [<-|[<-|[<-|[]]]]; (split; [left; reflexivity|right; reflexivity]).
  - vm_compute in X. discriminate X.
  - vm_compute in X. discriminate X.
Qed.
(** Not true: that a directory of tests is known however it is written (Swift's and C#'s are called Tests). *)
Theorem C108_capitals_refuted :
  ~ (forall U dir c, good_unicode U -> ascii_text dir -> In (map to_lower1 dir) (map txt test_dirs) -> to_slash U test_dir_re (dir ++ 47%Z :: c) = true).
Proof.
  intro H. assert (X := H ascii_unicode (txt "Tests") (txt "Helper.swift") ascii_good). assert (Y : to_slash ascii_unicode test_dir_re (txt "Tests" ++ 47%Z :: txt "Helper.swift") = false) by (vm_compute; reflexivity).
  rewrite X in Y; [discriminate Y| |right; left; reflexivity]. intros c I. cbn in I. repeat (destruct I as [<-|I]; [reflexivity|]). destruct I.
Qed.
(** Not true: that only a query with one of the words test, spec and benchmark lifts the penalty: the latest
    release, and anything special. *)
Theorem C108_query_words_refuted :
  ~ (forall a w b, a = [] \/ (exists a', a = a' ++ [32%Z]) -> b = [] \/ (exists b', b = 32%Z :: b') -> ~ In 32%Z w ->
     Results.should_apply_path_penalty ResultsExamples.zarith ResultsExamples.plain_tuning (a ++ w ++ b) = false ->
     Results.should_apply_path_penalty ResultsExamples.zarith ResultsExamples.plain_tuning (a ++ b) = true -> In w (map txt ["test"; "tests"; "spec"; "specs"; "benchmark"; "benchmarks"])).
Proof.
  intro H. assert (X : In (txt "latest") (map txt ["test"; "tests"; "spec"; "specs"; "benchmark"; "benchmarks"])).
  { apply (H [] (txt "latest") (txt " release")); [left; reflexivity|right; exists (txt "release"); reflexivity| |vm_compute; reflexivity|vm_compute; reflexivity]. intro I. cbn in I. repeat (destruct I as [I|I]; [discriminate I|]). destruct I. }
  cbn [map In] in X. repeat (destruct X as [X|X]; [discriminate X|]). destruct X.
Qed.
