(** The name of a file and the product of the factors. *)
From Verif Require Import Base Text FtsText FtsRank PathRank PathRankSpec PathRankProofs.
From Verif Require Npy Walk.
From Coq Require Import String.
Open Scope string_scope.
Open Scope nat_scope.
Open Scope list_scope.
Import Npy.

(** ** The parts of a path *)
Definition slashed (l : list text) : text := List.concat (map (cons 47%Z) l).
Lemma split_cons s : exists x l, split_on 47 s = x :: l /\ s = x ++ slashed l /\ (forall y, In y (x :: l) -> ~ In 47%Z y).
Proof.
  induction s as [|c s (x & l & E & F & N)]; cbn [split_on].
  - exists [], []. split; [reflexivity|split; [reflexivity|intros y [<-|[]] []]].
  - destruct (c =? 47)%Z eqn:C.
    + apply Z.eqb_eq in C. subst c. rewrite E. exists [], (x :: l). split; [reflexivity|split; [unfold slashed; cbn [map List.concat app]; f_equal; exact F|]]. intros y [<-|I]; [intros []|apply N; exact I].
    + rewrite E. exists (c :: x), l. split; [reflexivity|split; [cbn [app]; f_equal; exact F|]]. intros y [<-|I]; [|apply N; right; exact I]. intros [K|K]; [subst c; discriminate C|]. apply (N x); [left; reflexivity|exact K].
Qed.
Lemma split_slash x y : split_on 47 (x ++ 47%Z :: y) = split_on 47 x ++ split_on 47 y.
Proof.
  induction x as [|c x IH]; cbn [app split_on]; [reflexivity|]. rewrite IH. destruct (c =? 47)%Z; [reflexivity|]. destruct (split_cons x) as (z & l & E & _). rewrite E. reflexivity.
Qed.
Lemma split_plain c : ~ In 47%Z c -> split_on 47 c = [c].
Proof.
  induction c as [|x c IH]; intro N; cbn [split_on]; [reflexivity|]. rewrite IH by (intro I; apply N; right; exact I). destruct (x =? 47)%Z eqn:E; [|reflexivity]. apply Z.eqb_eq in E. exfalso. apply N. left. exact E.
Qed.
Lemma slashed_app l l' : slashed (l ++ l') = slashed l ++ slashed l'.
Proof. unfold slashed. rewrite map_app, concat_app. reflexivity. Qed.
Lemma part_iff p c b : part_of p c b <-> exists l l', split_on 47 p = l ++ c :: l' /\ b = slashed l'.
Proof.
  split.
  - intros (a & -> & A & B & N).
    assert (X : exists l', split_on 47 (c ++ b) = c :: l' /\ b = slashed l').
    { destruct B as [->|(b' & ->)].
      - rewrite app_nil_r, (split_plain c N). exists []. split; reflexivity.
      - rewrite split_slash, (split_plain c N). exists (split_on 47 b'). split; [reflexivity|]. destruct (split_cons b') as (x & l & E & F & _). rewrite E. unfold slashed. cbn [map List.concat app]. f_equal. exact F. }
    destruct X as (l' & E & F). destruct A as [->|(a' & ->)].
    + exists [], l'. split; [exact E|exact F].
    + rewrite <- app_assoc. cbn [app]. rewrite split_slash, E. exists (split_on 47 a'), l'. split; [reflexivity|exact F].
  - intros (l & l' & E & ->). destruct (split_cons p) as (x & r & E' & F & N). rewrite E' in E. destruct l as [|y l]; cbn [app] in E; injection E as -> ->.
    + exists []. split; [exact F|split; [left; reflexivity|split; [|apply N; left; reflexivity]]]. destruct l' as [|z l']; [left; reflexivity|right; eexists; reflexivity].
    + rewrite slashed_app in F. exists ((y ++ slashed l) ++ [47%Z]). split; [rewrite F, <- !app_assoc; reflexivity|split; [right; eauto|split]].
      * destruct l' as [|z l']; [left; reflexivity|right; eexists; reflexivity].
      * apply N. right. apply in_app_iff. right. left. reflexivity.
Qed.
Lemma last_filter {A} (f : A -> bool) (l : list A) d :
  filter f l = [] \/ exists l1 c l2, l = l1 ++ c :: l2 /\ f c = true /\ filter f l2 = [] /\ last (filter f l) d = c.
Proof.
  induction l as [|x l IH]; [left; reflexivity|]. cbn [filter]. destruct IH as [E|(l1 & c & l2 & -> & F & N & L)].
  - destruct (f x) eqn:F; [|left; exact E]. right. exists [], x, l. rewrite E. repeat split; auto.
  - right. exists (x :: l1), c, l2. split; [reflexivity|split; [exact F|split; [exact N|]]]. destruct (f x); [|exact L]. cbn [last]. destruct (filter f (l1 ++ c :: l2)) eqn:E; [|exact L]. exfalso. assert (I : In c (filter f (l1 ++ c :: l2))) by (apply filter_In; split; [apply in_app_iff; right; left; reflexivity|exact F]). rewrite E in I. destruct I.
Qed.
Definition real (c : text) : bool := negb (text_eqb c []) && negb (text_eqb c (txt ".")).
Lemma real_iff c : real c = true <-> c <> [] /\ c <> txt ".".
Proof.
  unfold real. rewrite andb_true_iff, !negb_true_iff. split.
  - intros (A & B). split; intros E; subst c; [discriminate A|vm_compute in B; discriminate B].
  - intros (A & B). split; apply text_eqb_neq; assumption.
Qed.
Lemma filter_none {A} (f : A -> bool) l : filter f l = [] <-> forall x, In x l -> f x = false.
Proof.
  split.
  - intros E x I. destruct (f x) eqn:F; [|reflexivity]. assert (J : In x (filter f l)) by (apply filter_In; auto). rewrite E in J. destruct J.
  - induction l as [|x l IH]; intro H; [reflexivity|]. cbn [filter]. rewrite (H x (or_introl eq_refl)). apply IH. intros y I. apply H. right. exact I.
Qed.
Lemma not_real c : real c = false <-> c = [] \/ c = txt ".".
Proof.
  split.
  - intro E. destruct (text_eqb c []) eqn:A; [left; apply text_eqb_eq; exact A|]. destruct (text_eqb c (txt ".")) eqn:B; [right; apply text_eqb_eq; exact B|]. unfold real in E. rewrite A, B in E. discriminate E.
  - intros [->| ->]; reflexivity.
Qed.
(** The last part that is a name *)
Lemma last_part_iff p c : last_part p c <-> exists l l', split_on 47 p = l ++ c :: l' /\ real c = true /\ filter real l' = [].
Proof.
  split.
  - intros (b & P & N1 & N2 & L). apply part_iff in P. destruct P as (l & l' & E & ->). exists l, l'. split; [exact E|split; [apply real_iff; auto|]]. apply filter_none. intros x I. apply not_real. apply in_split in I. destruct I as (u & v & ->).
    apply (L x (slashed v)); [apply part_iff; exists (l ++ c :: u), v; split; [rewrite E, <- app_assoc; reflexivity|reflexivity]|].
    rewrite slashed_app. change (slashed (x :: v)) with (47%Z :: x ++ slashed v). rewrite app_length. cbn [List.length]. rewrite app_length. lia.
  - intros (l & l' & E & R & N). apply real_iff in R. exists (slashed l'). split; [apply part_iff; eauto|split; [apply R|split; [apply R|]]]. intros c' b' P Lt. apply part_iff in P. destruct P as (m & m' & E' & ->). apply not_real.
    assert (G : List.length m' < List.length l').
    { destruct (le_lt_dec (List.length l') (List.length m')) as [G|G]; [|exact G]. exfalso.
      assert (X : exists u, m' = u ++ l').
      { assert (Q : rev l' ++ c :: rev l = rev m' ++ c' :: rev m). { assert (Z := f_equal (@rev text) (eq_trans (eq_sym E) E')). rewrite !rev_app_distr in Z. cbn [rev] in Z. rewrite <- !app_assoc in Z. exact Z. }
        assert (Q' : firstn (List.length l') (rev m') = rev l').
        { assert (Z := f_equal (firstn (List.length l')) Q). rewrite !firstn_app, !rev_length, Nat.sub_diag in Z. rewrite firstn_O, app_nil_r in Z. replace (List.length l' - List.length m') with 0 in Z by lia. rewrite firstn_O, app_nil_r in Z. rewrite <- (rev_length l') in Z at 1. rewrite firstn_all in Z. symmetry. exact Z. }
        exists (rev (skipn (List.length l') (rev m'))). transitivity (rev (firstn (List.length l') (rev m') ++ skipn (List.length l') (rev m'))); [rewrite firstn_skipn, rev_involutive; reflexivity|]. rewrite rev_app_distr, Q', rev_involutive. reflexivity. }
      destruct X as (u & ->). rewrite slashed_app, app_length in Lt. lia. }
    apply filter_none with (x := c') in N; [exact N|].
    assert (Q : rev l' ++ c :: rev l = rev m' ++ c' :: rev m). { assert (Z := f_equal (@rev text) (eq_trans (eq_sym E) E')). rewrite !rev_app_distr in Z. cbn [rev] in Z. rewrite <- !app_assoc in Z. exact Z. }
    apply in_rev. assert (Z := f_equal (fun q => nth_error q (List.length m')) Q). cbn beta in Z. rewrite (nth_error_app2 (rev m')) in Z by (rewrite rev_length; lia). rewrite rev_length, Nat.sub_diag in Z. cbn [nth_error] in Z. rewrite nth_error_app1 in Z by (rewrite rev_length; lia). apply nth_error_In in Z. exact Z.
Qed.
Lemma file_name_iff p c : c <> [] -> c <> txt ".." -> (file_name p = c <-> last_part p c).
Proof.
  intros N1 N2. rewrite last_part_iff. unfold file_name. fold real. destruct (last_filter real (split_on 47 p) []) as [E|(l1 & x & l2 & E & R & F & L)].
  - change (fun c0 : text => negb (text_eqb c0 []) && negb (text_eqb c0 (txt "."))) with real. rewrite E. split; [intro H; exfalso; apply N1; symmetry; exact H|]. intros (l & l' & E' & R & _). exfalso. assert (I : In c (filter real (split_on 47 p))) by (apply filter_In; split; [rewrite E'; apply in_app_iff; right; left; reflexivity|exact R]). rewrite E in I. destruct I.
  - change (fun c0 : text => negb (text_eqb c0 []) && negb (text_eqb c0 (txt "."))) with real. rewrite L. split.
    + destruct (text_eqb x (txt "..")); [intro H; exfalso; apply N1; symmetry; exact H|]. intros <-. eauto.
    + intros (l & l' & E' & R' & F'). assert (X : x = c).
      { rewrite <- L, E', filter_app. cbn [filter]. rewrite R', F'. apply last_last. }
      rewrite X. apply text_eqb_neq in N2. rewrite N2. reflexivity.
Qed.
Lemma barrel_ok p : existsb (text_eqb (file_name p)) [txt "__init__.py"; txt "package-info.java"] = true <-> barrel_name p.
Proof.
  unfold barrel_name. cbn [existsb]. rewrite !orb_true_iff. split.
  - intros [E|[E|E]]; [| |discriminate E]; apply text_eqb_eq in E; [exists (txt "__init__.py")|exists (txt "package-info.java")]; (split; [apply file_name_iff; [discriminate|discriminate|exact E]|auto]).
  - intros (c & L & [->| ->]); (apply file_name_iff in L; [rewrite L, text_eqb_refl; auto|discriminate|discriminate]).
Qed.

(** ** The penalty *)
Lemma normalised_ok file : with_slashes file (normalised file).
Proof.
  unfold with_slashes, normalised. induction file as [|c f IH]; cbn [map]; constructor; [|exact IH]. destruct (c =? 92)%Z eqn:E; [apply Z.eqb_eq in E; auto|apply Z.eqb_neq in E; auto].
Qed.
Lemma ends_with_iff s t : Walk.ends_with s t = true <-> exists m, t = m ++ s.
Proof.
  unfold Walk.ends_with. rewrite starts_with_spec. split.
  - intros (m & E). exists (rev m). rewrite <- (rev_involutive t), E, rev_app_distr, rev_involutive. reflexivity.
  - intros (m & ->). exists (rev m). apply rev_app_distr.
Qed.
Lemma factor_of {F} (b : bool) (P : Prop) (f : F) : (b = true <-> P) -> factor P f (if b then [f] else []).
Proof. intro H. destruct b; [left; split; [apply H; reflexivity|reflexivity]|right; split; [|reflexivity]]. intro X. apply H in X. discriminate X. Qed.
Lemma penalty_ok U A parse env ds dm dl file : good_unicode U ->
  exists l, factors U (strong_penalty A parse env ds) (moderate_penalty A parse env dm) (mild_penalty A parse env dl) barrel_name (normalised file) l
    /\ file_path_penalty U A parse env ds dm dl file = fold_left (f_mul A) l (f_1 A).
Proof.
  intro G. set (n := normalised file). set (s := strong_penalty A parse env ds). set (mo := moderate_penalty A parse env dm). set (mi := mild_penalty A parse env dl).
  exists ((if to_end U test_file_re n || to_slash U test_dir_re n then [s] else []) ++ (if to_slash U compat_dir_re n then [s] else []) ++ (if to_slash U examples_dir_re n then [s] else [])
    ++ (if Walk.ends_with (txt ".d.ts") n then [mi] else []) ++ (if existsb (text_eqb (file_name n)) [txt "__init__.py"; txt "package-info.java"] then [mo] else [])).
  split.
  - do 5 eexists. split; [reflexivity|]. split; [|split; [|split; [|split]]]; apply factor_of.
    + unfold of_test. rewrite orb_true_iff, (test_file_ok U n G), test_dir_ok. reflexivity.
    + apply compat_dir_ok.
    + apply examples_dir_ok.
    + apply ends_with_iff.
    + apply barrel_ok.
  - unfold file_path_penalty. fold n s mo mi. destruct (to_end U test_file_re n || to_slash U test_dir_re n), (to_slash U compat_dir_re n), (to_slash U examples_dir_re n), (Walk.ends_with (txt ".d.ts") n), (existsb (text_eqb (file_name n)) [txt "__init__.py"; txt "package-info.java"]); reflexivity.
Qed.
(** The factors are determined by the path *)
Lemma factors_same {F} U (s mo mi : F) B p l l' : factors U s mo mi B p l -> factors U s mo mi B p l' -> l = l'.
Proof.
  assert (E : forall P (f : F) a a', factor P f a -> factor P f a' -> a = a'). { intros P f a a' [(X & ->)|(X & ->)] [(Y & ->)|(Y & ->)]; tauto. }
  intros (a & b & c & d & e & -> & A1 & A2 & A3 & A4 & A5) (a' & b' & c' & d' & e' & -> & B1 & B2 & B3 & B4 & B5).
  rewrite (E _ _ _ _ A1 B1), (E _ _ _ _ A2 B2), (E _ _ _ _ A3 B3), (E _ _ _ _ A4 B4), (E _ _ _ _ A5 B5). reflexivity.
Qed.
Lemma factors_in {F} U (s mo mi : F) B p l x : factors U s mo mi B p l -> In x l -> x = s \/ x = mo \/ x = mi.
Proof.
  intros (a & b & c & d & e & -> & A1 & A2 & A3 & A4 & A5) I. rewrite !in_app_iff in I.
  assert (E : forall P (f : F) a, factor P f a -> In x a -> x = f). { intros P f a0 [(_ & ->)|(_ & ->)] J; [destruct J as [J|[]]; auto|destruct J]. }
  destruct I as [I|[I|[I|[I|I]]]]; [apply (E _ _ _ A1) in I|apply (E _ _ _ A2) in I|apply (E _ _ _ A3) in I|apply (E _ _ _ A4) in I|apply (E _ _ _ A5) in I]; auto.
Qed.
Lemma product_bounded A l x : good_products A -> at_most A (f_0 A) x -> finite A x -> (forall f, In f l -> at_most A (f_0 A) f /\ at_most A f (f_1 A)) ->
  at_most A (f_0 A) (fold_left (f_mul A) l x) /\ at_most A (fold_left (f_mul A) l x) x.
Proof.
  intro G. revert x. induction l as [|f l IH]; intros x X Xf H; cbn [fold_left]; [split; [exact X|apply (gp_self A G); exact X]|].
  destruct (H f (or_introl eq_refl)) as (F0 & F1). destruct (gp_mul A G x f X Xf F0 F1) as (M0 & M1).
  destruct (IH (f_mul A x f)) as (I0 & I1); [exact M0|eapply (gp_finite A G); eauto|intros g J; apply H; right; exact J|].
  split; [exact I0|]. eapply (gp_trans A G); eauto.
Qed.
