(** What fusion and filtered search should return. *)
From Verif Require Import Base FtsRank.
Open Scope nat_scope.

(** Numbers (everything but NaN) are totally preordered by [partial_cmp]. *)
Definition is_number (A : arith) (x : num A) : Prop := f_cmp A x x = Some Eq.
Definition not_above (A : arith) (x y : num A) : Prop := f_cmp A x y = Some Lt \/ f_cmp A x y = Some Eq.
Record good_order (A : arith) : Prop := {
  go_total : forall x y, is_number A x -> is_number A y -> not_above A x y \/ not_above A y x;
  go_opp : forall x y, is_number A x -> is_number A y -> f_cmp A x y = Some Gt <-> f_cmp A y x = Some Lt;
  go_sym : forall x y, f_cmp A x y = Some Eq -> f_cmp A y x = Some Eq;
  go_trans : forall x y z, is_number A x -> is_number A y -> is_number A z ->
    not_above A x y -> not_above A y z -> not_above A x z }.

(** [out] is a best-first choice of [k] of the scored items [cand] (all of them if fewer). *)
Definition top_of (A : arith) (k : nat) (cand out : list (Z * num A)) : Prop :=
  exists rest, Permutation cand (out ++ rest) /\ length out = Nat.min k (length cand)
    /\ StronglySorted (fun x y => not_above A (snd y) (snd x)) out
    /\ forall x y, In x out -> In y rest -> not_above A (snd y) (snd x).

(** positions (from 0) at which [id] occurs in a result list *)
Definition ranks (id : Z) (l : list Z) : list nat :=
  map snd (filter (fun p => (fst p =? id)%Z) (combine l (seq 0 (length l)))).
Definition sum (A : arith) (l : list (num A)) : num A := fold_left (f_add A) l (f_0 A).
(** the reciprocal-rank score: alpha/(61+rank) over the semantic list, (1-alpha)/(61+rank)
    over the keyword list *)
Definition rrf_score (A : arith) (sem kw : list Z) (alpha : num A) (id : Z) : num A :=
  let term w r := f_div A w (f_add A (f_add A (f_of A 60) (f_of A r)) (f_1 A)) in
  sum A (map (term alpha) (ranks id sem) ++ map (term (f_sub A (f_1 A) alpha)) (ranks id kw)).

(** [lo] and [hi] bound the scores and are among them *)
Definition span (A : arith) (scores : list (num A)) (lo hi : num A) : Prop :=
  In lo scores /\ In hi scores /\ forall s, In s scores -> not_above A lo s /\ not_above A s hi.
Definition minmax (A : arith) (lo hi s : num A) : num A :=
  match f_cmp A (f_sub A hi lo) (f_0 A) with
  | Some Eq => f_1 A
  | _ => f_div A (f_sub A s lo) (f_sub A hi lo)
  end.
(** the scores given to [id] in a result list *)
Definition given {A : arith} (id : Z) (ids : list Z) (scores : list (num A)) : list (num A) :=
  map snd (filter (fun p => (fst p =? id)%Z) (combine ids scores)).
Definition relative_score (A : arith) (sem : list Z) (ss : list (num A)) (slo shi : num A)
    (kw : list Z) (ks : list (num A)) (klo khi : num A) (alpha : num A) (id : Z) : num A :=
  sum A (map (fun s => f_mul A alpha (minmax A slo shi s)) (given id sem ss)
           ++ map (fun s => f_mul A (f_sub A (f_1 A) alpha) (minmax A klo khi s)) (given id kw ks)).
(** minimum and maximum pick one of their arguments, the right one, and the infinities bound
    every number *)
Record good_minmax (A : arith) : Prop := {
  gm_min : forall x y, is_number A x -> is_number A y -> (f_min A x y = x /\ not_above A x y) \/ (f_min A x y = y /\ not_above A y x);
  gm_max : forall x y, is_number A x -> is_number A y -> (f_max A x y = x /\ not_above A y x) \/ (f_max A x y = y /\ not_above A x y);
  gm_inf : forall x, is_number A x -> f_min A (f_inf A) x = x;
  gm_ninf : forall x, is_number A x -> f_max A (f_ninf A) x = x }.

(** The arithmetic facts behind alpha = 1 and alpha = 0, for ranks below [n]. *)
Record rrf_arith (A : arith) (n : nat) : Prop := {
  ra_11 : f_sub A (f_1 A) (f_1 A) = f_0 A;
  ra_10 : f_sub A (f_1 A) (f_0 A) = f_1 A;
  ra_0 : forall r, r < n -> f_div A (f_0 A) (f_add A (f_add A (f_of A 60) (f_of A r)) (f_1 A)) = f_0 A;
  ra_00 : f_add A (f_0 A) (f_0 A) = f_0 A;
  ra_0x : forall r, r < n -> let x := f_div A (f_1 A) (f_add A (f_add A (f_of A 60) (f_of A r)) (f_1 A)) in
    f_add A (f_0 A) x = x /\ f_add A x (f_0 A) = x /\ f_cmp A (f_0 A) x = Some Lt /\ is_number A x;
  ra_dec : forall r r', r < r' < n ->
    f_cmp A (f_div A (f_1 A) (f_add A (f_add A (f_of A 60) (f_of A r')) (f_1 A)))
            (f_div A (f_1 A) (f_add A (f_add A (f_of A 60) (f_of A r)) (f_1 A))) = Some Lt;
  ra_num : is_number A (f_0 A) }.

(** SQLite's ORDER BY score DESC and the conversion to f32 *)
Definition good_order_by {A : arith} {G : Type} (conv : G -> num A) (order : list (Z * G) -> list (Z * G)) : Prop :=
  (forall l, Permutation (order l) l)
  /\ forall l, Forall (fun p => is_number A (conv (snd p))) l ->
       StronglySorted (fun x y => not_above A (conv (snd y)) (conv (snd x))) (order l).

(** [ids]/[scores] is a best-first choice of at most [k] distinct ids among [l]. *)
Record selects (A : arith) (k : nat) (l : list Z) (score : Z -> num A) (ids : list Z) (scores : list (num A)) : Prop := {
  se_distinct : NoDup ids;
  se_from : incl ids l;
  se_count : length ids = Nat.min k (length (nodup Z.eq_dec l));
  se_scores : scores = map score ids }.
Record best_by (A : arith) (k : nat) (l : list Z) (score : Z -> num A) (ids : list Z) (scores : list (num A)) : Prop := {
  be_selects : selects A k l score ids scores;
  be_sorted : StronglySorted (fun x y => not_above A y x) scores;
  be_best : forall i j, In i ids -> In j l -> ~ In j ids -> not_above A (score j) (score i) }.
