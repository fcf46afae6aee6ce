(** Places of a tree: what the two walks reach. *)
From Verif Require Import Base Text FtsText CallGraphSpec CallGraphProofs Analysis AnalysisSpec.
From Coq Require Import String.
Open Scope nat_scope.
Open Scope list_scope.
Notation length := List.length.

Fixpoint tree_ind2 (P : tree -> Prop) (H : forall k f b s x y cs, Forall P cs -> P (Tree k f b s x y cs)) (t : tree) : P t :=
  match t with
  | Tree k f b s x y cs => H k f b s x y cs ((fix go l := match l return Forall P l with [] => Forall_nil P | c :: r => Forall_cons c (tree_ind2 P H c) (go r) end) cs)
  end.

Fixpoint nodes (t : tree) : list tree := let 'Tree _ _ _ _ _ _ cs := t in t :: flat_map nodes cs.
Fixpoint spots (t : tree) : list (list nat) :=
  let 'Tree _ _ _ _ _ _ cs := t in
  [] :: (fix go i l := match l with [] => [] | c :: r => map (cons i) (spots c) ++ go (S i) r end) 0 cs.
Fixpoint spots_from (i : nat) (l : list tree) : list (list nat) := match l with [] => [] | c :: r => map (cons i) (spots c) ++ spots_from (S i) r end.
Lemma spots_eq t : spots t = [] :: spots_from 0 (t_children t).
Proof.
  destruct t. reflexivity.
Qed.
Lemma nodes_eq t : nodes t = t :: flat_map nodes (t_children t).
Proof. destruct t; reflexivity. Qed.

Lemma at_place_fun t p : forall n m, at_place t p n -> at_place t p m -> n = m.
Proof.
  revert t. induction p as [|i p IH]; intros t n m A B; inversion A; subst; inversion B; subst; auto.
  match goal with H1 : nth_error _ i = Some _, H2 : nth_error _ i = Some _ |- _ => rewrite H1 in H2; injection H2 as -> end. eauto.
Qed.
(** nodes and spots go together *)
Lemma spots_nodes t : Forall2 (at_place t) (spots t) (nodes t).
Proof.
  induction t as [k f b s x y cs IH] using tree_ind2. rewrite spots_eq, nodes_eq. cbn [t_children]. constructor; [constructor|].
  assert (G : forall l pre, cs = pre ++ l -> Forall2 (at_place (Tree k f b s x y cs)) (spots_from (length pre) l) (flat_map nodes l)).
  { induction l as [|c r IHl]; intros pre E; cbn [spots_from flat_map]; [constructor|].
    apply Forall2_app.
    - assert (Hc : Forall2 (at_place c) (spots c) (nodes c)). { rewrite Forall_forall in IH. apply IH. rewrite E. apply in_or_app. right. left. reflexivity. }
      clear -Hc E. induction Hc as [|p n ps ns A F I2]; cbn [map]; constructor; auto.
      econstructor; [|exact A]. cbn [t_children]. rewrite E, nth_error_app2, Nat.sub_diag by auto. reflexivity.
    - specialize (IHl (pre ++ [c])). rewrite app_length in IHl. cbn [List.length] in IHl. rewrite Nat.add_comm in IHl. apply IHl. rewrite <- app_assoc. exact E. }
  apply (G cs []). reflexivity.
Qed.
Lemma place_in t p n : at_place t p n -> In p (spots t) /\ In n (nodes t).
Proof.
  induction 1 as [t|t i c p n E A (IH1 & IH2)].
  - rewrite spots_eq, nodes_eq. split; left; reflexivity.
  - rewrite spots_eq, nodes_eq. split; right.
    + assert (G : forall l j, nth_error l i = Some c -> In ((j + i) :: p) (spots_from j l)).
      { clear -IH1. revert i. intro i. induction i as [|i II]; intros [|d r] j H; try discriminate; cbn [spots_from]; apply in_or_app.
        - injection H as ->. left. rewrite Nat.add_0_r. apply in_map. exact IH1.
        - right. replace (j + S i) with (S j + i) by lia. apply II. exact H. }
      apply (G _ 0 E).
    + apply in_flat_map. exists c. split; [eapply nth_error_In; exact E|exact IH2].
Qed.
Lemma forall2_in_l {A B} (R : A -> B -> Prop) l l' : Forall2 R l l' -> forall a, In a l -> exists b, In b l' /\ R a b.
Proof. induction 1 as [|a b l l' HR HF IH]; intros c I; [destruct I|]. destruct I as [<-|I]; [exists b; split; [left; reflexivity|exact HR]|]. destruct (IH _ I) as (d & D1 & D2). exists d. split; [right; exact D1|exact D2]. Qed.
Lemma forall2_in_r {A B} (R : A -> B -> Prop) l l' : Forall2 R l l' -> forall b, In b l' -> exists a, In a l /\ R a b.
Proof. induction 1 as [|a b l l' HR HF IH]; intros c I; [destruct I|]. destruct I as [<-|I]; [exists a; split; [left; reflexivity|exact HR]|]. destruct (IH _ I) as (d & D1 & D2). exists d. split; [right; exact D1|exact D2]. Qed.
Lemma in_nodes t n : In n (nodes t) <-> exists p, at_place t p n.
Proof.
  split.
  - intro I. destruct (forall2_in_r _ _ _ (spots_nodes t) _ I) as (p & _ & A). eauto.
  - intros (p & A). apply (place_in _ _ _ A).
Qed.
Lemma in_spots t p : In p (spots t) <-> exists n, at_place t p n.
Proof.
  split.
  - intro I. destruct (forall2_in_l _ _ _ (spots_nodes t) _ I) as (n & _ & A). eauto.
  - intros (n & A). apply (place_in _ _ _ A).
Qed.
Lemma nodup_app {A} (l l' : list A) : NoDup l -> NoDup l' -> (forall x, In x l -> ~ In x l') -> NoDup (l ++ l').
Proof. induction 1 as [|x l N H IH]; intros H' D; cbn; auto. constructor; [|apply IH; auto; intros; apply D; right; auto]. rewrite in_app_iff. intros [?|?]; [auto|]. apply (D x); [left; reflexivity|auto]. Qed.
Lemma in_spots_from i l p : In p (spots_from i l) -> exists j q, p = j :: q /\ i <= j.
Proof.
  revert i. induction l as [|c r IH]; intros i I; cbn [spots_from] in I; [destruct I|]. apply in_app_or in I. destruct I as [I|I].
  - apply in_map_iff in I. destruct I as (q & <- & _). eauto.
  - destruct (IH _ I) as (j & q & -> & L). exists j, q. split; [reflexivity|lia].
Qed.
Lemma spots_nodup t : NoDup (spots t).
Proof.
  induction t as [k f b s x y cs IH] using tree_ind2. rewrite spots_eq. cbn [t_children]. constructor.
  { intro I. destruct (in_spots_from _ _ _ I) as (j & q & E & _). discriminate E. }
  generalize 0. induction IH as [|c r Hc Hr IHr]; intro i; cbn [spots_from]; [constructor|].
  apply nodup_app; [|apply IHr|].
  - clear -Hc. induction Hc as [|p l N H I2]; cbn [map]; constructor; auto. rewrite in_map_iff. intros (q & E & Iq). injection E as ->. auto.
  - intros p I1 I2. apply in_map_iff in I1. destruct I1 as (q & <- & _). destruct (in_spots_from _ _ _ I2) as (j & q' & E & L). injection E as -> _. lia.
Qed.

(** ** The walk with a stack visits every node once. *)
Lemma size_eq t : size t = S (list_sum (map size (t_children t))).
Proof. destruct t; reflexivity. Qed.
Lemma list_sum_rev l : list_sum (rev l) = list_sum l.
Proof. induction l as [|x l IH]; cbn [rev]; [reflexivity|]. rewrite list_sum_app, IH. cbn [list_sum fold_right]. unfold list_sum. cbn [fold_right]. lia. Qed.
Lemma flat_map_perm {A B} (f : A -> list B) l l' : Permutation l l' -> Permutation (flat_map f l) (flat_map f l').
Proof.
  induction 1 as [|x l l' H IH|x y l|l l' l'' H IH H' IH']; cbn [flat_map].
  - constructor.
  - apply Permutation_app_head; exact IH.
  - rewrite !app_assoc. apply Permutation_app_tail, Permutation_app_comm.
  - etransitivity; eauto.
Qed.
Lemma walk_stack_perm fuel : forall stack, list_sum (map size stack) <= fuel -> Permutation (walk_stack fuel stack) (flat_map nodes stack).
Proof.
  induction fuel as [|f IH]; intros [|t rest] L; cbn [walk_stack flat_map]; try constructor.
  - cbn [map] in L. unfold list_sum in L. cbn [fold_right] in L. rewrite size_eq in L. lia.
  - rewrite nodes_eq. cbn [app]. constructor. rewrite IH.
    + rewrite flat_map_app. apply Permutation_app_tail, flat_map_perm. symmetry. apply Permutation_rev.
    + rewrite map_app, map_rev, list_sum_app, list_sum_rev. cbn [map] in L. unfold list_sum in L at 1. cbn [fold_right] in L. rewrite size_eq in L. unfold list_sum in *. lia.
Qed.
Lemma walk_perm t : Permutation (walk_tree t) (nodes t).
Proof. unfold walk_tree. rewrite walk_stack_perm; [cbn [flat_map]; rewrite app_nil_r; reflexivity|]. cbn [map]. unfold list_sum. cbn [fold_right]. lia. Qed.
Lemma in_walk t n : In n (walk_tree t) <-> exists p, at_place t p n.
Proof. rewrite <- in_nodes. split; apply Permutation_in; [|symmetry]; apply walk_perm. Qed.

(** ** The bounded search *)
Fixpoint down_to (d : nat) (t : tree) : list tree := t :: match d with O => [] | S d => flat_map (down_to d) (t_children t) end.
Lemma in_down_to d : forall t n, In n (down_to d t) <-> exists p, at_place t p n /\ length p <= d.
Proof.
  induction d as [|d IH]; intros t n; cbn [down_to In].
  - split.
    + intros [<-|[]]. exists []. split; [constructor|auto].
    + intros ([|i p] & A & L); [inversion A; auto|cbn in L; lia].
  - rewrite in_flat_map. split.
    + intros [<-|(c & Ic & In')]; [exists []; split; [constructor|cbn; lia]|].
      apply IH in In'. destruct In' as (p & A & L). destruct (In_nth_error _ _ Ic) as (i & E). exists (i :: p). split; [econstructor; eauto|cbn; lia].
    + intros (p & A & L). inversion A as [|? i c p' ? E A']; subst; [left; reflexivity|]. right. exists c. split; [eapply nth_error_In; eauto|]. apply IH. exists p'. split; [exact A'|cbn in L; lia].
Qed.
Lemma find_app {A} (f : A -> bool) l l' : find f (l ++ l') = match find f l with Some x => Some x | None => find f l' end.
Proof. induction l as [|x l IH]; cbn [app find]; [reflexivity|]. destruct (f x); auto. Qed.
Lemma find_stack_eq kinds m fuel : forall stack, list_sum (map (fun x => size (fst x)) stack) <= fuel -> (forall t d, In (t, d) stack -> d <= m) ->
  find_stack fuel kinds m stack = find (fun n => mem (t_kind n) kinds) (flat_map (fun x => down_to (m - snd x) (fst x)) stack).
Proof.
  induction fuel as [|f IH]; intros [|(t & d) rest] L D; cbn [find_stack flat_map fst snd]; auto.
  - cbn [map fst] in L. unfold list_sum in L. cbn [fold_right] in L. rewrite size_eq in L. lia.
  - assert (Dd : d <= m) by (apply (D t); left; reflexivity).
    assert (Ls : S (list_sum (map size (t_children t)) + list_sum (map (fun x => size (fst x)) rest)) <= S f).
    { cbn [map fst] in L. unfold list_sum in L at 1. cbn [fold_right] in L. rewrite size_eq in L. unfold list_sum in *. lia. }
    assert (Hd : down_to (m - d) t = t :: (if d <? m then flat_map (down_to (m - S d)) (t_children t) else [])).
    { destruct (Nat.ltb_spec d m) as [Lt|Ge].
      - replace (m - d) with (S (m - S d)) by lia. reflexivity.
      - replace (m - d) with 0 by lia. reflexivity. }
    rewrite Hd. cbn [app find]. destruct (mem (t_kind t) kinds); [reflexivity|].
    destruct (Nat.ltb_spec d m) as [Lt|Ge].
    + rewrite IH.
      * rewrite flat_map_app. f_equal. f_equal. clear. induction (t_children t) as [|c r I2]; cbn [map flat_map]; [reflexivity|]. rewrite I2. reflexivity.
      * rewrite map_app, map_map, list_sum_app. cbn [fst]. rewrite (map_ext _ size) by reflexivity. lia.
      * intros t' d' I. apply in_app_or in I. destruct I as [I|I]; [|apply (D t'); right; exact I]. apply in_map_iff in I. destruct I as (c & E & _). injection E as _ <-. lia.
    + cbn [app]. apply IH; [lia|]. intros t' d' I. apply (D t'). right. exact I.
Qed.
Lemma mem_in k l : mem k l = true <-> In k l.
Proof. unfold mem. rewrite existsb_exists. split; [intros (x & I & E); apply text_eqb_eq in E; subst; exact I|intro I; exists k; split; [exact I|apply text_eqb_eq; reflexivity]]. Qed.
Lemma of_kind_mem ks n : of_kind ks n <-> one_of ks (t_kind n) = true.
Proof. unfold of_kind, one_of. rewrite mem_in, in_map_iff. split; intros (k & A & B); exists k; auto. Qed.
Lemma find_first_eq ks m t : find_first_by_kinds ks m t = find (fun n => one_of ks (t_kind n)) (down_to m t).
Proof.
  unfold find_first_by_kinds. rewrite find_stack_eq; cbn [flat_map fst snd app].
  - rewrite Nat.sub_0_r, app_nil_r. reflexivity.
  - cbn [map fst]. unfold list_sum. cbn [fold_right]. lia.
  - intros t' d [E|[]]. injection E as _ <-. lia.
Qed.
(** the first of a list of trees, with the number of the tree *)
Lemma find_first_in (f : tree -> bool) d : forall t n, find f (down_to d t) = Some n ->
  exists p, at_place t p n /\ length p <= d /\ f n = true /\ forall q m, at_place t q m -> length q <= d -> f m = true -> q = p \/ read_before p q.
Proof.
  induction d as [|d IH]; intros t n H; cbn [down_to find] in H.
  - destruct (f t) eqn:F; [|discriminate]. injection H as <-. exists []. split; [constructor|split; [auto|split; [exact F|]]].
    intros [|i q] m A L _; [left; reflexivity|cbn in L; lia].
  - destruct (f t) eqn:F.
    { injection H as <-. exists []. split; [constructor|split; [cbn; lia|split; [exact F|]]]. intros [|i q] m A L _; [left; reflexivity|right; constructor]. }
    assert (G : forall l, find f (flat_map (down_to d) l) = Some n -> exists i c p, nth_error l i = Some c /\ at_place c p n /\ length p <= d /\ f n = true
      /\ forall j c' q m, nth_error l j = Some c' -> at_place c' q m -> length q <= d -> f m = true -> j = i /\ q = p \/ i < j \/ j = i /\ read_before p q).
    { induction l as [|c r IHl]; cbn [flat_map find]; [discriminate|]. rewrite find_app. destruct (find f (down_to d c)) eqn:E.
      - intro X. injection X as ->. destruct (IH _ _ E) as (p & A & L & Fn & U). exists 0, c, p. split; [reflexivity|split; [exact A|split; [exact L|split; [exact Fn|]]]].
        intros [|j] c' q m N A' L' F'; [|right; left; lia]. injection N as <-. destruct (U _ _ A' L' F') as [->|R]; auto.
      - intro X. destruct (IHl X) as (i & c0 & p & N & A & L & Fn & U). exists (S i), c0, p. split; [exact N|split; [exact A|split; [exact L|split; [exact Fn|]]]].
        intros [|j] c' q m N' A' L' F'.
        + injection N' as <-. exfalso. apply find_none with (x := m) in E; [congruence|]. apply in_down_to. eauto.
        + destruct (U j c' q m N' A' L' F') as [(-> & ->)|[Lt|(-> & R)]]; [left; auto|right; left; lia|right; right; auto]. }
    destruct (G _ H) as (i & c & p & N & A & L & Fn & U). exists (i :: p). split; [econstructor; eauto|split; [cbn; lia|split; [exact Fn|]]].
    intros q m A' L' F'. inversion A' as [|? j c' q' ? N' A'']; subst; [congruence|]. cbn in L'. destruct (U j c' q' m N' A'' ltac:(lia) F') as [(-> & ->)|[Lt|(-> & R)]]; [left; reflexivity|right; constructor; exact Lt|right; constructor; exact R].
Qed.
Lemma read_before_irrefl p q : read_before p q -> ~ read_before q p.
Proof. induction 1 as [i q|i j p q L|i p q R IH]; intro B; inversion B; subst; try lia; auto. Qed.
Lemma read_before_neq p : ~ read_before p p.
Proof. intro R. exact (read_before_irrefl _ _ R R). Qed.
Lemma find_first_iff ks d t n : find_first_by_kinds ks d t = Some n <-> first_found ks d t n.
Proof.
  rewrite find_first_eq. split.
  - intro H. apply find_first_in in H. destruct H as (p & A & L & F & Un). exists p. rewrite of_kind_mem. split; [exact A|split; [exact L|split; [exact F|]]].
    intros q m A' L' K. apply (Un q m A' L'). apply of_kind_mem. exact K.
  - intros (p & A & L & K & Un). destruct (find _ (down_to d t)) as [m|] eqn:E.
    + apply find_first_in in E. destruct E as (q & A' & L' & F' & Un'). f_equal. apply of_kind_mem in F'. destruct (Un _ _ A' L' F') as [->|R]; [eapply at_place_fun; eauto|].
      apply of_kind_mem in K. destruct (Un' _ _ A L K) as [->|R']; [destruct (read_before_neq _ R)|destruct (read_before_irrefl _ _ R R')].
    + exfalso. apply find_none with (x := n) in E; [|apply in_down_to; eauto]. apply of_kind_mem in K. congruence.
Qed.

(** ** Fields *)
Lemma txt_field f c : is_field f c = true <-> t_field c = Some (txt f).
Proof. unfold is_field. destruct (t_field c) as [g|]; [rewrite text_eqb_eq; split; congruence|split; discriminate]. Qed.
Lemma find_split {A} (f : A -> bool) l x : find f l = Some x <-> exists a b, l = a ++ x :: b /\ f x = true /\ forall y, In y a -> f y = false.
Proof.
  induction l as [|z l IH]; cbn [find].
  - split; [discriminate|]. intros (a & b & E & _). destruct a; discriminate E.
  - destruct (f z) eqn:F.
    + split.
      * intro E. injection E as ->. exists [], l. split; [reflexivity|split; [exact F|intros y []]].
      * intros ([|w a] & b & E & Fx & N); [injection E as -> _; reflexivity|]. injection E as -> _. rewrite (N w) in F by (left; reflexivity). discriminate.
    + rewrite IH. split.
      * intros (a & b & -> & Fx & N). exists (z :: a), b. split; [reflexivity|split; [exact Fx|]]. intros y [<-|Iy]; auto.
      * intros ([|w a] & b & E & Fx & N); [injection E as -> _; congruence|]. injection E as -> ->. exists a, b. split; [reflexivity|split; [exact Fx|]]. intros y Iy. apply N. right. exact Iy.
Qed.
Lemma by_field_iff f n c : by_field f n = Some c <-> in_field f n c.
Proof.
  unfold by_field, in_field. rewrite find_split. split; intros (a & b & E & F & N); exists a, b; (split; [exact E|split; [apply txt_field; exact F|]]); intros y Iy.
  - rewrite <- txt_field. rewrite (N y Iy). discriminate.
  - destruct (is_field f y) eqn:X; [|reflexivity]. apply txt_field in X. destruct (N y Iy X).
Qed.
Lemma by_field_none f n : by_field f n = None <-> no_field f n.
Proof.
  unfold by_field, no_field. split.
  - intros H x Ix X. apply txt_field in X. rewrite (find_none _ _ H x Ix) in X. discriminate.
  - intro H. destruct (find (is_field f) (t_children n)) as [c|] eqn:E; [|reflexivity]. apply find_some in E. destruct E as (I & F). apply txt_field in F. destruct (H _ I F).
Qed.
Lemma or_else_field f fs n c o : (o = Some c <-> in_fields fs n c) -> (or_else (by_field f n) o = Some c <-> in_fields (f :: fs) n c).
Proof.
  intro H. cbn [in_fields]. rewrite <- by_field_iff, <- by_field_none, <- H. destruct (by_field f n) as [x|] eqn:E; cbn [or_else].
  - split; [auto|]. intros [X|(X & _)]; [exact X|discriminate X].
  - split; [auto|]. intros [X|(_ & X)]; [discriminate X|exact X].
Qed.
Lemma child0_iff n c : child 0 n = Some c <-> in_fields [] n c.
Proof. unfold child. cbn [in_fields]. destruct (t_children n) as [|x r]; cbn [nth_error]; split; [discriminate|intros (r & E); discriminate|intro E; injection E as ->; eauto|intros (r' & E); injection E as -> _; reflexivity]. Qed.

(** ** Lists in order, each once *)
Lemma sorted_once_lists l (P : text -> Prop) : (forall s, In s l <-> P s) -> lists (sorted_once l) P.
Proof.
  intro H. unfold sorted_once. split.
  - apply dedup_before. apply isort_sorted; [apply text_leb_total|apply text_leb_trans].
  - intro s. rewrite dedup_same, isort_In. apply H.
Qed.
