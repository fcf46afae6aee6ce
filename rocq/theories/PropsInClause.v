(** C120: a statement about a list of documents is about exactly these, however many they are. *)
From Verif Require Import Base Text Calendar CalendarProofs InClause.
From Coq Require Import String.
Open Scope string_scope.
Open Scope Z_scope.
Open Scope list_scope.

Lemma digits_inj a b : 0 <= a -> 0 <= b -> digits a = digits b -> a = b.
Proof. intros Ha Hb E. destruct (digits_ok a Ha) as (_ & A). destruct (digits_ok b Hb) as (_ & B). rewrite <- A, E. exact B. Qed.

Lemma name_inj p pid a b : 0 <= a -> 0 <= b -> fst (make_temp_table_name p pid a) = fst (make_temp_table_name p pid b) -> a = b.
Proof.
  intros Ha Hb E. cbn [fst make_temp_table_name] in E. apply digits_inj; auto.
  apply app_inv_head in E. apply app_inv_head in E. apply app_inv_head in E. apply app_inv_head in E. apply app_inv_head in E. exact E.
Qed.

Lemma table_insert name id d : forall ids, table name d = Some ids ->
  exists ids', table name (insert name id d) = Some ids' /\ forall x, In x ids' <-> x = id \/ In x ids.
Proof.
  induction d as [|[n l] r IH]; cbn; intros ids H; [discriminate|]. destruct (text_eqb name n) eqn:E.
  - injection H as <-. cbn. rewrite E. eexists. split; [reflexivity|]. intro x.
    destruct (existsb (Z.eqb id) l) eqn:X.
    + apply existsb_exists in X. destruct X as (y & Hy & Ey). apply Z.eqb_eq in Ey. subst y. intuition congruence.
    + rewrite in_app_iff. cbn. intuition congruence.
  - cbn. rewrite E. exact (IH _ H).
Qed.
Lemma table_inserts name ids : forall d l, table name d = Some l ->
  exists l', table name (fold_left (fun t id => insert name id t) ids d) = Some l' /\ forall x, In x l' <-> In x ids \/ In x l.
Proof.
  induction ids as [|i r IH]; intros d l H; cbn [fold_left]; [exists l; cbn; intuition|].
  destruct (table_insert name i d l H) as (l1 & H1 & M1). destruct (IH _ _ H1) as (l2 & H2 & M2).
  exists l2. split; [exact H2|]. intro x. rewrite M2, M1. cbn. intuition.
Qed.
Lemma insert_head name id ids d : exists ids', insert name id ((name, ids) :: d) = (name, ids') :: d.
Proof. cbn. rewrite text_eqb_refl. eauto. Qed.
Lemma inserts_head name l : forall ids d, exists ids', fold_left (fun t id => insert name id t) l ((name, ids) :: d) = (name, ids') :: d.
Proof.
  induction l as [|i r IH]; intros ids d; cbn [fold_left]; [eauto|].
  destruct (insert_head name i ids d) as (ids' & ->). apply IH.
Qed.
Lemma existsb_in x l : existsb (Z.eqb x) l = true <-> In x l.
Proof.
  rewrite existsb_exists. split; [intros (y & H & E); apply Z.eqb_eq in E; now subst|]. intro H. exists x. split; [exact H|apply Z.eqb_refl].
Qed.

(** The clause holds of exactly the documents of the list; it never has more than 900 parameters; and dropping the table, if one was made, leaves the tables as they were. *)
Theorem C120_exact : forall pid counter d ids c params made d' counter',
  build_in_clause pid counter d ids = Some (c, params, made, d', counter') ->
  (forall x, exists b, holds d' c params x = Some b /\ (b = true <-> In x ids))
  /\ (List.length params <= 900)%nat
  /\ match made with Some name => drop name d' = d | None => d' = d end.
Proof.
  intros pid counter d ids c params made d' counter' H. unfold build_in_clause in H.
  destruct (List.length ids <=? SQLITE_PARAM_LIMIT)%nat eqn:E.
  - injection H as <- <- <- <- <-. apply Nat.leb_le in E. split; [|split; [exact E|reflexivity]].
    intro x. cbn [holds]. rewrite Nat.eqb_refl. eexists. split; [reflexivity|]. apply existsb_in.
  - destruct (make_temp_table_name (txt "in") pid counter) as (name, k). unfold create in H.
    destruct (table name d) eqn:T; [discriminate|]. injection H as <- <- <- <- <-. split; [|split].
    + intro x. destruct (table_inserts name ids ((name, []) :: d) []) as (l & Hl & M); [cbn; now rewrite text_eqb_refl|].
      cbn [holds]. rewrite Hl. eexists. split; [reflexivity|]. rewrite existsb_in, M. cbn. intuition.
    + cbn. lia.
    + destruct (inserts_head name ids [] d) as (l & ->). cbn. now rewrite text_eqb_refl.
Qed.
Print Assumptions C120_exact.

(** Calls of one process, one after the other on any connections: the names they give their tables *)
Fixpoint names (pid counter : Z) (prefixes : list text) : list text :=
  match prefixes with
  | [] => []
  | p :: r => let '(n, k) := make_temp_table_name p pid counter in n :: names pid k r
  end.

(** In one process no name is given twice, for the one prefix in use, until the counter has gone round. *)
Theorem C120_names : forall p pid n, Z.of_nat n <= 2 ^ 64 -> NoDup (names pid 0 (repeat p n)).
Proof.
  intros p pid n Hn.
  assert (Q : forall n k, 0 <= k -> k + Z.of_nat n <= 2 ^ 64 ->
    NoDup (names pid k (repeat p n)) /\ forall x, In x (names pid k (repeat p n)) -> exists j, k <= j /\ x = fst (make_temp_table_name p pid j)).
  { clear. induction n as [|n IH]; intros k Hk Hb; [split; [constructor|intros x []]|].
    cbn [repeat names make_temp_table_name].
    destruct n as [|n'].
    - cbn [repeat names]. split; [constructor; [intros []|constructor]|]. intros x [<-|[]]. exists k. split; [lia|reflexivity].
    - assert (Em : (k + 1) mod 2 ^ 64 = k + 1) by (apply Z.mod_small; lia). rewrite Em.
      destruct (IH (k + 1)) as (A & B); [lia|lia|]. split.
      + constructor; [|exact A]. intro Hi. destruct (B _ Hi) as (j & Hj & Ej).
        assert (k = j) by (apply (name_inj p pid); [lia|lia|exact Ej]). lia.
      + intros x [<-|Hi]; [exists k; split; [lia|reflexivity]|]. destruct (B x Hi) as (j & Hj & Ej). exists j. split; [lia|exact Ej]. }
  apply (Q n 0); lia.
Qed.
Print Assumptions C120_names.

(** So it never fails: with only tables of earlier calls of the process on the connection, left over or not, a clause is built. *)
Theorem C120_never_fails : forall pid counter d ids, 0 <= counter ->
  (forall name l, table name d = Some l -> exists j, 0 <= j < counter /\ name = fst (make_temp_table_name (txt "in") pid j)) ->
  build_in_clause pid counter d ids <> None.
Proof.
  intros pid counter d ids Hc Hd. unfold build_in_clause. destruct (List.length ids <=? SQLITE_PARAM_LIMIT)%nat; [discriminate|].
  destruct (make_temp_table_name (txt "in") pid counter) as (name, k) eqn:E. unfold create.
  destruct (table name d) as [l|] eqn:T; [|discriminate]. exfalso. destruct (Hd name l T) as (j & Hj & Ej).
  assert (j = counter); [|lia]. apply (name_inj (txt "in") pid); [lia|lia|]. rewrite E. cbn [fst]. now rewrite <- Ej.
Qed.
Print Assumptions C120_never_fails.

Definition left_over : temps := [(fst (make_temp_table_name (txt "in") 7 0), [5])].
Example C120_example :
  (forall name l, table name left_over = Some l -> exists j, 0 <= j < 1 /\ name = fst (make_temp_table_name (txt "in") 7 j))
  /\ match build_in_clause 7 1 left_over (repeat 3 900 ++ [4]) with
     | Some (c, params, made, d', k) => c = FromTable (txt "_tmp_in_7_1") /\ params = [] /\ holds d' c params 4 = Some true /\ holds d' c params 5 = Some false /\ k = 2
     | None => False
     end
  /\ match build_in_clause 7 1 left_over [3; 4] with Some (c, params, made, d', k) => c = Marks 2 /\ params = [3; 4] /\ made = None | None => False end.
Proof.
  split; [|vm_compute; auto 10].
  intros name l H. exists 0. split; [lia|]. unfold left_over in H. cbn [table] in H.
  destruct (text_eqb name (fst (make_temp_table_name (txt "in") 7 0))) eqn:E; [|discriminate]. apply text_eqb_eq in E. exact E.
Qed.
