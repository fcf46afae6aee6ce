(** Common definitions and list lemmas used by every model file.
    Nothing in this file models next-plaid code except where a comment cites it;
    [res], [chunks] and [isort] model Rust language/std facilities. *)
From Coq Require Export List Arith ZArith NArith Lia Bool Permutation Sorted.
From Coq Require Export ZifyBool ZifyNat ZifyN.
Export ListNotations.

(** [lia] that does not drag unused function variables of a section into the proof term. *)
Ltac clear_funs :=
  repeat match goal with
  | f : ?A -> ?B |- _ =>
      lazymatch type of (forall _ : A, B) with Prop => fail | _ => clear f end
  end.
Ltac lia := clear_funs; Lia.lia.
Ltac nia := clear_funs; Lia.nia.

Global Arguments Nat.div : simpl never.
Global Arguments Nat.modulo : simpl never.
Global Arguments Nat.pow : simpl never.
Global Arguments Nat.sub : simpl nomatch.

Ltac Zify.zify_post_hook ::= Z.div_mod_to_equations.

(** Outcome of a Rust function: [Ok], an [Err] value (error text dropped), or a panic. *)
Inductive res (A : Type) : Type :=
| Ok (a : A)
| Err
| Panic.
Arguments Ok {A} _.
Arguments Err {A}.
Arguments Panic {A}.

Definition bind {A B} (r : res A) (f : A -> res B) : res B :=
  match r with Ok a => f a | Err => Err | Panic => Panic end.

(** indexing [v[i]]: panics when out of range *)
Definition idx {A} (l : list A) (i : nat) : res A :=
  match nth_error l i with Some a => Ok a | None => Panic end.

(** [iter().map(f).collect::<Result<Vec<_>,_>>()] / a loop that stops at the first failure *)
Fixpoint mapM {A B} (f : A -> res B) (l : list A) : res (list B) :=
  match l with
  | [] => Ok []
  | x :: xs => bind (f x) (fun y => bind (mapM f xs) (fun ys => Ok (y :: ys)))
  end.

(** Replace element [i] (no change when out of range). *)
Fixpoint upd {A} (l : list A) (i : nat) (v : A) : list A :=
  match l, i with
  | [], _ => []
  | _ :: xs, O => v :: xs
  | x :: xs, S j => x :: upd xs j v
  end.

(** [slice::chunks(n)] for n >= 1, by explicit fuel (the length is always enough). *)
Fixpoint chunks_fuel {A} (fuel n : nat) (l : list A) : list (list A) :=
  match fuel with
  | O => []
  | S f => match l with
           | [] => []
           | _ => firstn n l :: chunks_fuel f n (skipn n l)
           end
  end.
Definition chunks {A} (n : nat) (l : list A) : list (list A) :=
  chunks_fuel (length l) n l.

(** Stable insertion sort.  Rust's [sort_by] is a stable sort; for a total preorder the
    stable sorted permutation is unique ([stable_sort_unique] below), so any stable sort
    has the same result. [leb x y] means "x may stay before y" (cmp <> Greater). *)
Fixpoint insert {A} (leb : A -> A -> bool) (x : A) (l : list A) : list A :=
  match l with
  | [] => [x]
  | y :: ys => if leb x y then x :: y :: ys else y :: insert leb x ys
  end.
Fixpoint isort {A} (leb : A -> A -> bool) (l : list A) : list A :=
  match l with
  | [] => []
  | x :: xs => insert leb x (isort leb xs)
  end.

(** [Vec::dedup]: drop consecutive repeated elements. *)
Fixpoint dedup {A} (eqb : A -> A -> bool) (l : list A) : list A :=
  match l with
  | [] => []
  | x :: xs => match xs with
               | [] => [x]
               | y :: _ => if eqb x y then dedup eqb xs else x :: dedup eqb xs
               end
  end.

(** ** Lemmas *)

Lemma bind_Ok {A B} (r : res A) (f : A -> res B) b :
  bind r f = Ok b <-> exists a, r = Ok a /\ f a = Ok b.
Proof.
  destruct r as [a| |]; simpl; split; intro H.
  - exists a; auto.
  - destruct H as (a' & H1 & H2); inversion H1; subst; auto.
  - discriminate.
  - destruct H as (a' & H1 & _); discriminate.
  - discriminate.
  - destruct H as (a' & H1 & _); discriminate.
Qed.

Lemma idx_Ok {A} (l : list A) i a : idx l i = Ok a <-> nth_error l i = Some a.
Proof. unfold idx; destruct (nth_error l i); split; intro H; inversion H; auto. Qed.

Lemma idx_nth {A} (l : list A) i d : i < length l -> idx l i = Ok (nth i l d).
Proof.
  intro H; unfold idx.
  rewrite (nth_error_nth' l d H); reflexivity.
Qed.

Lemma mapM_Ok_map {A B} (f : A -> res B) (g : A -> B) l :
  (forall x, In x l -> f x = Ok (g x)) -> mapM f l = Ok (map g l).
Proof.
  induction l as [|x xs IH]; simpl; intro H; [reflexivity|].
  rewrite (H x (or_introl eq_refl)); simpl.
  rewrite IH by (intros; apply H; auto); reflexivity.
Qed.

Lemma mapM_Ok_inv {A B} (f : A -> res B) l ys :
  mapM f l = Ok ys -> Forall2 (fun x y => f x = Ok y) l ys.
Proof.
  revert ys; induction l as [|x xs IH]; simpl; intros ys H.
  - inversion H; constructor.
  - apply bind_Ok in H; destruct H as (y & Hy & H).
    apply bind_Ok in H; destruct H as (zs & Hz & H).
    inversion H; subst; constructor; auto.
Qed.

Lemma mapM_length {A B} (f : A -> res B) l ys : mapM f l = Ok ys -> length ys = length l.
Proof.
  intro H; apply mapM_Ok_inv in H; induction H; simpl; auto.
Qed.

Lemma upd_length {A} (l : list A) i v : length (upd l i v) = length l.
Proof. revert i; induction l as [|x xs IH]; intros [|i]; simpl; auto. Qed.

Lemma upd_nth_same {A} (l : list A) i v : i < length l -> nth_error (upd l i v) i = Some v.
Proof.
  revert i; induction l as [|x xs IH]; intros [|i] H; simpl in *; try lia; auto.
  apply IH; lia.
Qed.

Lemma upd_nth_other {A} (l : list A) i j v : i <> j -> nth_error (upd l i v) j = nth_error l j.
Proof.
  revert i j; induction l as [|x xs IH]; intros [|i] [|j] H; simpl; auto; try lia.
Qed.

Lemma upd_app_l {A} (l1 l2 : list A) i v : i < length l1 -> upd (l1 ++ l2) i v = upd l1 i v ++ l2.
Proof.
  revert i; induction l1 as [|x xs IH]; intros [|i] H; simpl in *; try lia; auto.
  rewrite IH by lia; reflexivity.
Qed.

Lemma upd_app_r {A} (l1 l2 : list A) i v :
  length l1 <= i -> upd (l1 ++ l2) i v = l1 ++ upd l2 (i - length l1) v.
Proof.
  revert i; induction l1 as [|x xs IH]; intros i H; simpl in *.
  - rewrite Nat.sub_0_r; reflexivity.
  - destruct i as [|i]; [lia|]; simpl. rewrite IH by lia; reflexivity.
Qed.

Lemma concat_chunks_fuel {A} fuel n (l : list A) :
  1 <= n -> length l <= fuel -> concat (chunks_fuel fuel n l) = l.
Proof.
  intro Hn; revert l; induction fuel as [|f IH]; intros l Hl; simpl.
  - destruct l; simpl in *; [reflexivity|lia].
  - destruct l as [|x xs]; [reflexivity|].
    simpl concat. rewrite IH.
    + apply firstn_skipn.
    + rewrite skipn_length. cbn [length] in *; lia.
Qed.

Lemma concat_chunks {A} n (l : list A) : 1 <= n -> concat (chunks n l) = l.
Proof. intro H; apply concat_chunks_fuel; auto. Qed.

Lemma chunks_fuel_len {A} fuel n (l : list A) c :
  In c (chunks_fuel fuel n l) -> length c <= n.
Proof.
  revert l; induction fuel as [|f IH]; intros l; simpl; [tauto|].
  destruct l as [|x xs]; [simpl; tauto|].
  intros [H|H]; [subst; rewrite firstn_length; lia | eauto].
Qed.

Lemma chunks_fuel_nonempty {A} fuel n (l : list A) c :
  1 <= n -> In c (chunks_fuel fuel n l) -> c <> [].
Proof.
  intro Hn; revert l; induction fuel as [|f IH]; intros l; simpl; [tauto|].
  destruct l as [|x xs]; [simpl; tauto|].
  intros [H|H]; [subst; destruct n; [lia|discriminate] | eauto].
Qed.

Lemma chunks_len {A} n (l : list A) c : In c (chunks n l) -> length c <= n.
Proof. apply chunks_fuel_len. Qed.

Lemma map_chunks_concat {A B} (f : A -> B) n (l : list A) :
  1 <= n -> concat (map (map f) (chunks n l)) = map f l.
Proof. intro H; rewrite <- concat_map, concat_chunks by assumption; reflexivity. Qed.

(** *** Sorting *)

Section SORT.
  Context {A : Type} (leb : A -> A -> bool).

  Lemma insert_perm x l : Permutation (insert leb x l) (x :: l).
  Proof.
    induction l as [|y ys IH]; simpl; [reflexivity|].
    destruct (leb x y); [reflexivity|].
    rewrite IH; apply perm_swap.
  Qed.

  Lemma isort_perm l : Permutation (isort leb l) l.
  Proof.
    induction l as [|x xs IH]; simpl; [reflexivity|].
    rewrite insert_perm, IH; reflexivity.
  Qed.

  Lemma isort_In x l : In x (isort leb l) <-> In x l.
  Proof.
    split; apply Permutation_in; [|symmetry]; apply isort_perm.
  Qed.

  Lemma isort_length l : length (isort leb l) = length l.
  Proof. apply Permutation_length, isort_perm. Qed.

  Hypothesis total : forall x y, leb x y = true \/ leb y x = true.
  Hypothesis trans : forall x y z, leb x y = true -> leb y z = true -> leb x z = true.

  Lemma insert_sorted x l :
    StronglySorted (fun a b => leb a b = true) l ->
    StronglySorted (fun a b => leb a b = true) (insert leb x l).
  Proof.
    induction l as [|y ys IH]; simpl; intro H.
    - constructor; constructor.
    - inversion H as [|? ? Hs Hf]; subst.
      destruct (leb x y) eqn:E.
      + constructor; [assumption|]. constructor; [assumption|].
        rewrite Forall_forall in Hf |- *; intros z Hz; eapply trans; eauto.
      + constructor; [auto|].
        rewrite Forall_forall in Hf |- *; intros z Hz.
        apply (Permutation_in _ (insert_perm x ys)) in Hz.
        destruct Hz as [<-|Hz]; [|auto].
        destruct (total x y) as [T|T]; congruence.
  Qed.

  Lemma isort_sorted l : StronglySorted (fun a b => leb a b = true) (isort leb l).
  Proof. induction l; simpl; [constructor|apply insert_sorted; assumption]. Qed.

  (** Stability: sorting does not change the order of elements of one equivalence class. *)
  Definition eqv (a b : A) : bool := leb a b && leb b a.

  Lemma eqv_trans_l a b c : eqv a b = true -> leb c a = true -> leb c b = true.
  Proof. unfold eqv; intros H1 H2; apply andb_true_iff in H1; destruct H1; eauto. Qed.

  Lemma insert_filter_eqv z x l :
    StronglySorted (fun a b => leb a b = true) l ->
    filter (eqv z) (insert leb x l) = filter (eqv z) (x :: l).
  Proof.
    induction l as [|y ys IH]; simpl; intro H; [reflexivity|].
    inversion H as [|? ? Hs Hf]; subst.
    destruct (leb x y) eqn:E; [reflexivity|].
    simpl. rewrite IH by assumption. simpl.
    destruct (eqv z y) eqn:Ey; destruct (eqv z x) eqn:Ex; try reflexivity.
    exfalso. unfold eqv in Ex, Ey. apply andb_true_iff in Ex, Ey.
    destruct Ex as [Ex1 Ex2], Ey as [Ey1 Ey2].
    assert (leb x y = true) by eauto. congruence.
  Qed.

  Lemma isort_stable z l : filter (eqv z) (isort leb l) = filter (eqv z) l.
  Proof.
    induction l as [|x xs IH]; simpl; [reflexivity|].
    rewrite insert_filter_eqv by apply isort_sorted.
    simpl. rewrite IH; reflexivity.
  Qed.

  Lemma leb_refl x : leb x x = true.
  Proof. destruct (total x x); assumption. Qed.

  (** The stable sorted permutation is unique: this is why modelling Rust's merge sort by
      an insertion sort loses nothing. *)
  Lemma stable_sort_unique l l1 l2 :
    StronglySorted (fun a b => leb a b = true) l1 ->
    StronglySorted (fun a b => leb a b = true) l2 ->
    (forall z, filter (eqv z) l1 = filter (eqv z) l) ->
    (forall z, filter (eqv z) l2 = filter (eqv z) l) ->
    l1 = l2.
  Proof.
    intros S1 S2 F1 F2.
    assert (F : forall z, filter (eqv z) l1 = filter (eqv z) l2)
      by (intro z; rewrite F1, F2; reflexivity).
    clear F1 F2 l.
    revert l2 S2 F; induction S1 as [|a l1 S1 IH Ha]; intros l2 S2 F.
    - destruct l2 as [|b l2]; [reflexivity|].
      specialize (F b); simpl in F.
      assert (E : eqv b b = true) by (unfold eqv; rewrite leb_refl; reflexivity).
      rewrite E in F; discriminate.
    - destruct l2 as [|b l2].
      + specialize (F a); simpl in F.
        assert (E : eqv a a = true) by (unfold eqv; rewrite leb_refl; reflexivity).
        rewrite E in F; discriminate.
      + inversion S2 as [|? ? S2' Hb]; subst.
        assert (Ea : eqv a a = true) by (unfold eqv; rewrite leb_refl; reflexivity).
        assert (Eb : eqv b b = true) by (unfold eqv; rewrite leb_refl; reflexivity).
        (* a and b are equivalent *)
        assert (Lba : leb b a = true).
        { pose proof (F a) as Fa. simpl in Fa. rewrite Ea in Fa.
          assert (In a (filter (eqv a) (b :: l2))) as Hin.
          { simpl. rewrite <- Fa. left; reflexivity. }
          apply filter_In in Hin; destruct Hin as [Hin _].
          destruct Hin as [->|Hin]; [apply leb_refl|].
          rewrite Forall_forall in Hb; auto. }
        assert (Lab : leb a b = true).
        { pose proof (F b) as Fb. simpl in Fb. rewrite Eb in Fb.
          assert (In b (filter (eqv b) (a :: l1))) as Hin.
          { simpl. rewrite Fb. left; reflexivity. }
          apply filter_In in Hin; destruct Hin as [Hin _].
          destruct Hin as [->|Hin]; [apply leb_refl|].
          rewrite Forall_forall in Ha; auto. }
        assert (Eab : eqv a b = true) by (unfold eqv; rewrite Lab, Lba; reflexivity).
        assert (a = b).
        { pose proof (F a) as Fa. simpl in Fa. rewrite Ea, Eab in Fa. congruence. }
        subst b. f_equal. apply IH; [assumption|].
        intro z. specialize (F z). simpl in F.
        destruct (eqv z a); [congruence|assumption].
  Qed.
End SORT.

Lemma Forall2_nth_error {A B} (R : A -> B -> Prop) l l' :
  Forall2 R l l' -> forall i a, nth_error l i = Some a -> exists b, nth_error l' i = Some b /\ R a b.
Proof.
  induction 1 as [|x y xs ys Hxy H IH]; intros [|i] a Ha; simpl in *; try discriminate.
  - inversion Ha; subst; eauto.
  - eauto.
Qed.

Lemma list_eq_nth_error {A} (l l' : list A) :
  (forall i, nth_error l i = nth_error l' i) -> l = l'.
Proof.
  revert l'; induction l as [|x xs IH]; intros [|y ys] H; auto.
  - specialize (H 0); discriminate.
  - specialize (H 0); discriminate.
  - pose proof (H 0) as H0; simpl in H0; inversion H0; subst.
    f_equal; apply IH; intro i; exact (H (S i)).
Qed.

Lemma nth_error_map' {A B} (f : A -> B) l i :
  nth_error (map f l) i = option_map f (nth_error l i).
Proof. revert i; induction l; intros [|i]; simpl; auto. Qed.

Lemma nth_error_combine {A B} (l : list A) (l' : list B) i :
  nth_error (combine l l') i =
  match nth_error l i, nth_error l' i with Some a, Some b => Some (a, b) | _, _ => None end.
Proof.
  revert l' i; induction l as [|x xs IH]; intros [|y ys] [|i]; simpl; auto.
  destruct (nth_error xs i); reflexivity.
Qed.

(** A loop whose body may fail. *)
Fixpoint foldM {S X} (f : S -> X -> res S) (l : list X) (s : S) : res S :=
  match l with
  | [] => Ok s
  | x :: xs => bind (f s x) (fun s' => foldM f xs s')
  end.

Lemma foldM_app {S X} (f : S -> X -> res S) l1 l2 s :
  foldM f (l1 ++ l2) s = bind (foldM f l1 s) (foldM f l2).
Proof.
  revert s; induction l1 as [|x xs IH]; intro s; simpl; [reflexivity|].
  destruct (f s x); simpl; auto.
Qed.
