(** What the earlier metadata layouts are compared with: the split layout holding the same
    values. *)
From Verif Require Import Base Text SqlModel Base64 MetaModel MetaQuery MetaSpec Legacy.
From Coq Require Import Permutation.
Open Scope nat_scope.

(** The values of a row that belong to the columns chosen by [p]. *)
Definition chosen (p : column -> bool) (cols : list column) (vals : list sqlv) : list sqlv :=
  map snd (filter (fun x => p (fst x)) (combine cols vals)).
Definition thin_col (c : column) : bool := is_thin_column (c_name c).
Definition fat_col (c : column) : bool := negb (is_thin_column (c_name c)).
(** Table [t] and the split database [d] hold the same documents: the columns of [t] are divided
    between the two tables of [d], and so are the values of each row. *)
Definition same_documents (t : ltab) (d : db) : Prop :=
  thin_cols d = filter thin_col (l_cols t) /\ fat_cols d = filter fat_col (l_cols t)
  /\ map t_cid (thin_rows d) = map f_cid (fat_rows d) /\ NoDup (map f_cid (fat_rows d))
  /\ Forall2 (fun r p => l_sub r = t_sub (fst p) /\ length (l_vals r) = length (l_cols t)
                         /\ t_vals (fst p) = chosen thin_col (l_cols t) (l_vals r)
                         /\ f_vals (snd p) = chosen fat_col (l_cols t) (l_vals r))
             (l_rows t) (combine (thin_rows d) (fat_rows d)).
(** A value that was stored in a column is stored there again unchanged. *)
Definition settled (E : engine) : Prop := forall t v, e_aff E t (e_aff E t v) = e_aff E t v.
(** A table of an earlier layout: distinct ids, distinct column names (case aside), every value
    as its column stores it, and nothing declared NOT NULL. *)
Record old_table (E : engine) (t : ltab) : Prop := {
  ot_ids : NoDup (map l_sub (l_rows t));
  ot_nonneg : Forall (fun r => 0 <= l_sub r)%Z (l_rows t);
  ot_cols : NoDup (map (map to_lower1) (subset_column :: content_column :: map c_name (l_cols t)));
  ot_valid : Forall (fun c => is_valid_column_name (c_name c) = true) (l_cols t);
  ot_vals : Forall (fun r => Forall2 (fun c v => e_aff E (c_type c) v = v) (l_cols t) (l_vals r)) (l_rows t);
  ot_need : l_need t = [] }.
(** Two objects have the same fields. *)
Definition same_object (a b : json) : Prop := exists o o', a = JObj o /\ b = JObj o' /\ Permutation o o'.
(** No item names the column the split layout keeps for itself. *)
Definition no_reserved_key (md : list json) : Prop :=
  forall v k x, In v md -> gives v k x -> map to_lower1 k <> content_column.
(** An operation of a history, and the ids it may use. *)
Inductive old_op := OUpdate (md : list json) (ids : list Z) | ODelete (ids : list Z).
Definition op_ok (E : engine) (s : store) (o : old_op) : Prop :=
  match o with
  | OUpdate md ids => NoDup ids /\ Forall (fun i => 0 <= i /\ row_at E s i = None)%Z ids /\ no_reserved_key md
  | ODelete _ => True
  end.
Definition trace (E : engine) (f : disk) (o : old_op) : list disk * res nat :=
  match o with OUpdate md ids => update_trace E f md ids | ODelete ids => delete_trace E f ids end.
Definition after (E : engine) (f : disk) (o : old_op) : disk := last (fst (trace E f o)) f.
(** The same operation on the split layout. *)
Definition on_split (E : engine) (s : store) (o : old_op) : store * res nat :=
  match o with OUpdate md ids => MetaModel.update E s md ids | ODelete ids => MetaModel.delete s ids end.
(** A file of an earlier layout next to a split store, after any history: operations the file
    refuses are not made on the store. *)
Inductive side_by_side (E : engine) : disk -> store -> disk -> store -> Prop :=
| sbs_start f s : side_by_side E f s f s
| sbs_done f s f1 s1 o n : side_by_side E f s f1 s1 -> op_ok E s1 o -> snd (trace E f1 o) = Ok n ->
    side_by_side E f s (after E f1 o) (fst (on_split E s1 o))
| sbs_refused f s f1 s1 o : side_by_side E f s f1 s1 -> op_ok E s1 o -> snd (trace E f1 o) = Err ->
    side_by_side E f s (after E f1 o) s1.
(** The file holds the documents of the store, in an earlier layout. *)
Definition old_file (E : engine) (f : disk) (s : store) : Prop :=
  (d_version f = 0 \/ d_version f = 1)%Z /\ (d_version f = 1%Z -> forall t, d_meta f = Some t -> l_pk t = false)
  /\ exists t d, d_meta f = Some t /\ old_table E t /\ s = Db d /\ same_documents t d.
(** Operations none of whose items has the reserved key itself, and the file after them. *)
Definition plain_op (o : old_op) : Prop :=
  match o with OUpdate md _ => forall v x, In v md -> ~ gives v content_column x | ODelete _ => True end.
Definition after_all (E : engine) (f : disk) (ops : list old_op) : disk := fold_left (after E) ops f.
