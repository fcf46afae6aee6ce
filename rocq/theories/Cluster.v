(** Model of next-plaid-onnx/src/hierarchy.rs (hierarchical clustering) and of the token pooling
    of next-plaid-onnx/src/lib.rs that uses it.

    f64 arithmetic is the argument [real]; f32 sums of pooling are the argument [cell].  A square
    matrix stored in one vector is a function of two indices; vectors indexed by cluster numbers
    are functions.  Cluster numbers and sizes, which the linkage matrix stores as f64, are [nat]
    (exact below 2^53). *)
From Verif Require Import Base.
Open Scope nat_scope.

(** The f64 operations of hierarchy.rs. *)
Record real := {
  num : Type;
  of_nat : nat -> num;
  add : num -> num -> num; sub : num -> num -> num;
  mul : num -> num -> num; div : num -> num -> num;
  sqrt : num -> num;
  lt : num -> num -> bool;
  infinity : num;
  fmin : num -> num -> num; fmax : num -> num -> num
}.
Definition zero (R : real) : num R := of_nat R 0.

(** hierarchy.rs 22-27 [condensed_index]. *)
Definition condensed_index (n i j : nat) : nat := n * i - (i * (i + 1)) / 2 + j - i - 1.

(** hierarchy.rs 36-47 [squareform_to_condensed], on a square matrix given row by row. *)
Definition condensed {A} (n : nat) (f : nat -> nat -> A) : list A :=
  flat_map (fun i => map (fun j => f i j) (seq (S i) (n - S i))) (seq 0 n).

(** hierarchy.rs 15-16: a row of the linkage matrix. *)
Record joint (R : real) := Joint { j_a : nat; j_b : nat; j_dist : num R; j_size : nat }.
Arguments Joint {R} _ _ _ _.
Arguments j_a {R} _. Arguments j_b {R} _. Arguments j_dist {R} _. Arguments j_size {R} _.

Definition set1 {A} (f : nat -> A) (i : nat) (v : A) : nat -> A := fun x => if x =? i then v else f x.
Definition set2 {A} (f : nat -> nat -> A) (i j : nat) (v : A) : nat -> nat -> A :=
  fun x y => if (x =? i) && (y =? j) then v else f x y.

(** hierarchy.rs 132-143 and 279-291: the working matrix, entry by entry. *)
Definition initial (R : real) (prep : num R -> num R) (distances : list (num R)) (n : nat) (i j : nat) : num R :=
  if (i <? n) && (j <? n) then
    if i =? j then zero R
    else prep (nth (condensed_index n (Nat.min i j) (Nat.max i j)) distances (infinity R))
  else infinity R.

(** hierarchy.rs 251-271 [find_nearest_neighbor]; [None] is the index [usize::MAX]. *)
Definition nearest (R : real) (dist : nat -> nat -> num R) (active : list nat) (i : nat) : option (nat * num R) :=
  fold_left (fun best j =>
    if j =? i then best
    else if lt R (dist i j) (match best with Some (_, b) => b | None => infinity R end)
         then Some (j, dist i j) else best) active None.

(** hierarchy.rs 122-248 [linkage_ward]: the state of the loops; the chain has its last element
    first. *)
Record ward_state (R : real) := {
  w_dist : nat -> nat -> num R;
  w_size : nat -> nat;
  w_active : list nat;
  w_cache : nat -> option (nat * num R);
  w_next : nat;
  w_chain : list nat;
  w_rows : list (joint R)
}.
Arguments w_dist {R} _. Arguments w_size {R} _. Arguments w_active {R} _. Arguments w_cache {R} _.
Arguments w_next {R} _. Arguments w_chain {R} _. Arguments w_rows {R} _.

(** hierarchy.rs 211-226: Ward's formula on squared distances. *)
Definition ward (R : real) (na nb nk : nat) (ak bk ab : num R) : num R :=
  div R (sub R (add R (mul R (of_nat R (na + nk)) ak) (mul R (of_nat R (nb + nk)) bk)) (mul R (of_nat R nk) ab))
        (of_nat R (na + nb + nk)).
Definition mem (i : nat) (l : list nat) : bool := existsb (Nat.eqb i) l.
(** hierarchy.rs 186-241: merging the two last clusters of the chain, [a] and [b]; [dd] is the
    squared distance found. *)
Definition fuse (R : real) (s : ward_state R) (a b : nat) (below : list nat) (dd : num R) : ward_state R :=
  let w := w_next s in
  let size := w_size s a + w_size s b in
  let active := filter (fun x => negb (x =? a) && negb (x =? b)) (w_active s) in
  let new k := ward R (w_size s a) (w_size s b) (w_size s k) (w_dist s a k) (w_dist s b k) dd in
  let dist x y := if (x =? w) && mem y active then new y else if (y =? w) && mem x active then new x else w_dist s x y in
  let cache k := if mem k active
                 then match w_cache s k with
                      | Some (nn, d) => if (nn =? a) || (nn =? b) then None else Some (nn, d)
                      | None => None
                      end
                 else w_cache s k in
  let active' := active ++ [w] in
  {| w_dist := dist; w_size := set1 (w_size s) w size; w_active := active';
     w_cache := set1 cache w (nearest R dist active' w); w_next := S w; w_chain := below;
     w_rows := w_rows s ++ [Joint (Nat.min a b) (Nat.max a b) (sqrt R dd) size] |}.
(** hierarchy.rs 171-246, the inner loop: [None] when it is still running after [fuel] rounds.
    Without a neighbour the code pushes [usize::MAX] and indexes with it in the next round. *)
Fixpoint grow (R : real) (fuel : nat) (s : ward_state R) : option (res (ward_state R)) :=
  match fuel with
  | 0 => None
  | S fuel' =>
      match w_chain s with
      | [] => Some Panic
      | current :: rest =>
          match (match w_cache s current with Some c => Some c | None => nearest R (w_dist s) (w_active s) current end) with
          | None => Some Panic
          | Some (nn, dd) =>
              let s1 := {| w_dist := w_dist s; w_size := w_size s; w_active := w_active s;
                           w_cache := set1 (w_cache s) current (Some (nn, dd)); w_next := w_next s;
                           w_chain := nn :: w_chain s; w_rows := w_rows s |} in
              match rest with
              | second :: below => if second =? nn then Some (Ok (fuse R s1 current second below dd)) else grow R fuel' s1
              | [] => grow R fuel' s1
              end
          end
      end
  end.
(** hierarchy.rs 163-169: one turn of the outer loop. *)
Definition merge_step (R : real) (fuel : nat) (s : ward_state R) : option (res (ward_state R)) :=
  match w_chain s, w_active s with
  | [], [] => Some Panic
  | [], x :: _ => grow R fuel {| w_dist := w_dist s; w_size := w_size s; w_active := w_active s; w_cache := w_cache s;
                                 w_next := w_next s; w_chain := [x]; w_rows := w_rows s |}
  | _ :: _, _ => grow R fuel s
  end.
Fixpoint merge_loop (R : real) (fuel turns : nat) (s : ward_state R) : option (res (ward_state R)) :=
  match turns with
  | 0 => Some (Ok s)
  | S turns' => match merge_step R fuel s with
                | Some (Ok s') => merge_loop R fuel turns' s'
                | other => other
                end
  end.
Definition ward_start (R : real) (distances : list (num R)) (n : nat) : ward_state R :=
  let dist := initial R (fun d => mul R d d) distances n in
  let active := seq 0 n in
  {| w_dist := dist; w_size := fun _ => 1; w_active := active;
     w_cache := fun i => if i <? n then nearest R dist active i else None;
     w_next := n; w_chain := []; w_rows := [] |}.
Definition linkage_ward (R : real) (fuel : nat) (distances : list (num R)) (n : nat) : option (res (list (joint R))) :=
  match merge_loop R fuel (n - 1) (ward_start R distances n) with
  | Some (Ok s) => Some (Ok (w_rows s))
  | Some Err => Some Err
  | Some Panic => Some Panic
  | None => None
  end.

(** hierarchy.rs 274-352 [linkage_generic]. *)
Record generic_state (R : real) := {
  g_dist : nat -> nat -> num R;
  g_size : nat -> nat;
  g_active : nat -> bool;
  g_next : nat;
  g_rows : list (joint R)
}.
Arguments g_dist {R} _. Arguments g_size {R} _. Arguments g_active {R} _. Arguments g_next {R} _. Arguments g_rows {R} _.
(** hierarchy.rs 301-322: the smallest entry above the diagonal between active clusters, 0 and 0
    when no entry is below infinity. *)
Definition closest (R : real) (s : generic_state R) : nat * nat * num R :=
  fold_left (fun best p =>
    if g_active s (fst p) && g_active s (snd p) && lt R (g_dist s (fst p) (snd p)) (snd best)
    then (p, g_dist s (fst p) (snd p)) else best)
    (flat_map (fun i => map (fun j => (i, j)) (seq (S i) (g_next s - S i))) (seq 0 (g_next s)))
    ((0, 0), infinity R).
Definition update_rule (R : real) := num R -> num R -> num R -> nat -> nat -> nat -> num R.
Definition generic_step (R : real) (update : update_rule R) (s : generic_state R) : generic_state R :=
  let '((i, j), dd) := closest R s in
  let w := g_next s in
  let ni := g_size s i in
  let nj := g_size s j in
  let size := set1 (g_size s) w (ni + nj) in
  let active := set1 (set1 (set1 (g_active s) i false) j false) w true in
  let new k := update (g_dist s i k) (g_dist s j k) dd ni nj (size k) in
  let dist x y := if (x =? w) && (y <? w) && active y then new y
                  else if (y =? w) && (x <? w) && active x then new x else g_dist s x y in
  {| g_dist := dist; g_size := size; g_active := active; g_next := S w; g_rows := g_rows s ++ [Joint i j dd (ni + nj)] |}.
Definition generic_start (R : real) (distances : list (num R)) (n : nat) : generic_state R :=
  {| g_dist := initial R (fun d => d) distances n; g_size := fun _ => 1; g_active := fun i => i <? n; g_next := n; g_rows := [] |}.
Definition linkage_generic (R : real) (update : update_rule R) (distances : list (num R)) (n : nat) : list (joint R) :=
  g_rows (Nat.iter (n - 1) (generic_step R update) (generic_start R distances n)).
(** hierarchy.rs 356-378. *)
Definition update_single (R : real) : update_rule R := fun ik jk _ _ _ _ => fmin R ik jk.
Definition update_complete (R : real) : update_rule R := fun ik jk _ _ _ _ => fmax R ik jk.
Definition update_average (R : real) : update_rule R := fun ik jk _ ni nj _ =>
  div R (add R (mul R (of_nat R ni) ik) (mul R (of_nat R nj) jk)) (add R (of_nat R ni) (of_nat R nj)).
Definition update_weighted (R : real) : update_rule R := fun ik jk _ _ _ _ => div R (add R ik jk) (of_nat R 2).

(** hierarchy.rs 90-112 [linkage]. *)
Inductive method := Ward | Single | Complete | Average | Weighted.
Definition linkage (R : real) (fuel : nat) (distances : list (num R)) (n : nat) (m : method) : option (res (list (joint R))) :=
  if n <=? 1 then Some (Ok [])
  else if negb (length distances =? n * (n - 1) / 2) then Some Panic
  else match m with
  | Ward => linkage_ward R fuel distances n
  | Single => Some (Ok (linkage_generic R (update_single R) distances n))
  | Complete => Some (Ok (linkage_generic R (update_complete R) distances n))
  | Average => Some (Ok (linkage_generic R (update_average R) distances n))
  | Weighted => Some (Ok (linkage_generic R (update_weighted R) distances n))
  end.

(** hierarchy.rs 436-443 and 531-538 [find] with path compression; [None] when the path is longer
    than [fuel] or leaves the vector (the recursion would not end, or the index panics). *)
Fixpoint find (fuel : nat) (parent : list nat) (i : nat) : option (list nat * nat) :=
  match nth_error parent i with
  | None => None
  | Some p =>
      if p =? i then Some (parent, i)
      else match fuel with
      | 0 => None
      | S fuel' => match find fuel' parent p with
                   | Some (parent', r) => Some (upd parent' i r, r)
                   | None => None
                   end
      end
  end.
(** hierarchy.rs 445-458 and 540-553 [union]. *)
Definition union (fuel : nat) (parent : list nat) (rank : list nat) (i j : nat) : option (list nat * list nat) :=
  match find fuel parent i with
  | None => None
  | Some (p1, pi) =>
      match find fuel p1 j with
      | None => None
      | Some (p2, pj) =>
          if pi =? pj then Some (p2, rank)
          else if nth pi rank 0 <? nth pj rank 0 then Some (upd p2 pi pj, rank)
          else if nth pj rank 0 <? nth pi rank 0 then Some (upd p2 pj pi, rank)
          else Some (upd p2 pj pi, upd rank pi (S (nth pi rank 0)))
      end
  end.
(** hierarchy.rs 498-509 [find_observation_in_cluster]. *)
Fixpoint observation {R} (fuel : nat) (rows : list (joint R)) (n c : nat) : option nat :=
  if c <? n then Some c
  else match fuel with
  | 0 => None
  | S fuel' => match nth_error rows (c - n) with Some r => observation fuel' rows n (j_a r) | None => None end
  end.
(** hierarchy.rs 460-478 and 555-572: the first [count] rows. *)
Fixpoint unite {R} (rows : list (joint R)) (n : nat) (todo : list (joint R)) (parent rank : list nat) : option (list nat) :=
  match todo with
  | [] => Some parent
  | r :: todo' =>
      match observation (length rows) rows n (j_a r), observation (length rows) rows n (j_b r) with
      | Some o1, Some o2 =>
          match union n parent rank o1 o2 with
          | Some (parent', rank') => unite rows n todo' parent' rank'
          | None => None
          end
      | _, _ => None
      end
  end.
(** hierarchy.rs 480-495 and 574-589: labels from 1, in order of first appearance. *)
Fixpoint position (x : nat) (l : list nat) : nat :=
  match l with [] => 0 | y :: l' => if x =? y then 0 else S (position x l') end.
Fixpoint label_loop (n : nat) (todo : list nat) (parent seen : list nat) : option (list nat) :=
  match todo with
  | [] => Some []
  | i :: todo' =>
      match find n parent i with
      | None => None
      | Some (parent', root) =>
          let seen' := if mem root seen then seen else seen ++ [root] in
          match label_loop n todo' parent' seen' with
          | Some ls => Some (S (position root seen') :: ls)
          | None => None
          end
      end
  end.
Definition flat_clusters {R} (rows : list (joint R)) (n : nat) (count : nat) : res (list nat) :=
  if length rows <? count then Panic
  else match unite rows n (firstn count rows) (seq 0 n) (repeat 0 n) with
  | Some parent => match label_loop n (seq 0 n) parent [] with Some ls => Ok ls | None => Panic end
  | None => Panic
  end.
(** hierarchy.rs 415-496 [fcluster_maxclust]. *)
Definition fcluster_maxclust {R} (rows : list (joint R)) (n max_clusters : nat) : res (list nat) :=
  if n <=? max_clusters then Ok (seq 1 n)
  else if max_clusters =? 0 then Ok (repeat 1 n)
  else flat_clusters rows n (n - max_clusters).
(** hierarchy.rs 512-590 [fcluster_distance]: as many rows as come before the first one with a
    distance above the threshold. *)
Fixpoint count_while {A} (p : A -> bool) (l : list A) : nat :=
  match l with [] => 0 | x :: l' => if p x then S (count_while p l') else 0 end.
Definition fcluster_distance {R} (le : num R -> num R -> bool) (rows : list (joint R)) (n : nat) (threshold : num R) : res (list nat) :=
  flat_clusters rows n (count_while (fun r => le (j_dist r) threshold) rows).

(** hierarchy.rs 600-656 [pdist_cosine]; a row is given in f64. *)
Definition dot (R : real) (u v : list (num R)) : num R :=
  fold_left (fun acc p => add R acc (mul R (fst p) (snd p))) (combine u v) (zero R).
Definition clamp (R : real) (x lo hi : num R) : num R := if lt R x lo then lo else if lt R hi x then hi else x.
Definition cosine_distance (R : real) (u v : list (num R)) : num R :=
  let nu := sqrt R (dot R u u) in
  let nv := sqrt R (dot R v v) in
  let cos := if lt R (zero R) nu && lt R (zero R) nv then div R (dot R u v) (mul R nu nv) else zero R in
  clamp R (sub R (of_nat R 1) cos) (zero R) (of_nat R 2).
Definition pdist (R : real) (rows : list (list (num R))) : list (num R) :=
  condensed (length rows) (fun i j => cosine_distance R (nth i rows []) (nth j rows [])).

(** The f32 operations of pooling: widening to f64, sum, division by a count. *)
Record cell (R : real) := {
  value : Type;
  widen : value -> num R;
  plus : value -> value -> value;
  over : value -> nat -> value;
  nought : value
}.
Arguments value {R} _. Arguments widen {R} _ _. Arguments plus {R} _ _ _. Arguments over {R} _ _ _. Arguments nought {R} _.

(** lib.rs 2249-2320 [pool_embeddings_hierarchical]; a matrix is the list of its rows, all of
    [width] numbers. *)
Definition add_rows {R} (K : cell R) (sum row : list (value K)) : list (value K) :=
  map (fun p => plus K (fst p) (snd p)) (combine sum row).
Definition cluster_sum {R} (K : cell R) (width : nat) (rows : list (list (value K))) : list (value K) :=
  fold_left (add_rows K) rows (repeat (nought K) width).
Definition with_label {A} (labels : list nat) (rows : list A) (c : nat) : list A :=
  map snd (filter (fun p => fst p - 1 =? c) (combine labels rows)).
Definition pool (R : real) (K : cell R) (fuel : nat) (width : nat) (rows : list (list (value K))) (pool_factor protected : nat)
  : option (res (list (list (value K)))) :=
  let n := length rows in
  if n <=? protected + 1 then Some (Ok rows)
  else
    let t := n - protected in
    if pool_factor =? 0 then Some Panic
    else
      let k := Nat.max (t / pool_factor) 1 in
      if t <=? k then Some (Ok rows)
      else
        let rest := skipn protected rows in
        match linkage R fuel (pdist R (map (map (widen K)) rest)) t Ward with
        | None => None
        | Some (Ok joints) =>
            match fcluster_maxclust joints t k with
            | Ok labels =>
                Some (Ok (firstn protected rows ++
                          map (fun c => let members := with_label labels rest c in
                                        map (fun x => over K x (Nat.max (length members) 1)) (cluster_sum K width members))
                              (seq 0 k)))
            | _ => Some Panic
            end
        | Some _ => Some Panic
        end.
(** lib.rs 1632-1643 [pool_document_embeddings]. *)
Fixpoint gather {A B} (f : A -> option (res B)) (l : list A) : option (res (list B)) :=
  match l with
  | [] => Some (Ok [])
  | x :: l' => match f x, gather f l' with
               | Some (Ok y), Some (Ok ys) => Some (Ok (y :: ys))
               | None, _ | _, None => None
               | _, _ => Some Panic
               end
  end.
Definition pool_documents (R : real) (K : cell R) (fuel width : nat) (docs : list (list (list (value K)))) (pool_factor : option nat)
  : option (res (list (list (list (value K))))) :=
  match pool_factor with
  | Some pf => if 1 <? pf then gather (fun d => pool R K fuel width d pf 1) docs else Some (Ok docs)
  | None => Some (Ok docs)
  end.
