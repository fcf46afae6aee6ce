(** Specification of the metadata store: one row of named values per document id. *)
From Verif Require Import Base Text SqlModel SqlSpec MetaModel MetaQuery.
From Coq Require Import Permutation.
Open Scope nat_scope.

(** What is assumed of SQLite: a value of a column's own type is stored unchanged, NULL stays
    NULL, and a query returns every row once, in some order. *)
Record good_engine (E : engine) : Prop := {
  ge_text : forall s, e_aff E CText (SText s) = SText s;
  ge_int : forall z, e_aff E CInt (SInt z) = SInt z;
  ge_real : forall f, e_aff E CReal (SReal f) = SReal f;
  ge_blob : forall v, e_aff E CBlob v = v;
  ge_null : forall t, e_aff E t SNull = SNull;
  ge_scan : forall l, Permutation (e_scan E l) l }.

(** What [get] shows for document id [i]: the fields of its row, without the id; [None] when
    there is no row. *)
Definition row_at (E : engine) (s : store) (i : Z) : option (list (text * json)) :=
  match get_rows E s (Some [i]) with Ok [JObj (_ :: fields)] => Some fields | _ => None end.
Definition field_of (fields : list (text * json)) (k : text) : option json :=
  option_map snd (find (fun p => text_eqb (fst p) k) fields).

(** Operations on the store. *)
Inductive meta_op :=
| MCreate (md : list json) (ids : list Z)
| MUpdate (md : list json) (ids : list Z)
| MDelete (ids : list Z)
| MUpdateWhere (condition : text) (params : list json) (updates : json).
Definition meta_step (U : unicode) (E : engine) (s : store) (o : meta_op) : store * res nat :=
  match o with
  | MCreate md ids => create E s md ids
  | MUpdate md ids => update E s md ids
  | MDelete ids => delete s ids
  | MUpdateWhere c ps u => update_where U E s c ps u
  end.
(** Document ids given by the caller: distinct, not negative, and new for an update. *)
Definition ids_ok (E : engine) (s : store) (o : meta_op) : Prop :=
  match o with
  | MCreate _ ids => NoDup ids /\ Forall (fun i => 0 <= i)%Z ids
  | MUpdate _ ids => NoDup ids /\ Forall (fun i => 0 <= i /\ row_at E s i = None)%Z ids
  | _ => True
  end.
(** Every state of the store after any history of operations, successful or not. *)
Inductive store_reached (U : unicode) (E : engine) : store -> Prop :=
| sr_start : store_reached U E NoDb
| sr_step s o : store_reached U E s -> ids_ok E s o -> store_reached U E (fst (meta_step U E s o)).

(** The store as a list with one optional row per position, position [i] being id [i]. *)
Definition at_pos {A} (L : list (option A)) (i : Z) : option A :=
  if (i <? 0)%Z then None else match nth_error L (Z.to_nat i) with Some o => o | None => None end.
Definition row_list (E : engine) (s : store) (L : list (option (list (text * json)))) : Prop :=
  forall i, row_at E s i = at_pos L i.

(** Renumbering after a deletion: an id moves down by the number of deleted ids below it. *)
Definition deleted_below (ids : list Z) (v : Z) : Z :=
  Z.of_nat (length (filter (fun i => existsb (Z.eqb i) ids) (map Z.of_nat (seq 0 (Z.to_nat v))))).
Definition renumbered (ids : list Z) (v : Z) : Z := (v - deleted_below ids v)%Z.

(** Each element once, at its first position. *)
Fixpoint firsts (ids : list Z) : list Z :=
  match ids with [] => [] | x :: r => x :: filter (fun y => negb (Z.eqb y x)) (firsts r) end.

(** How a JSON value comes back: booleans as 0/1, arrays and objects as their JSON text. *)
Inductive comes_back (E : engine) : json -> json -> Prop :=
| cb_null : comes_back E JNull JNull
| cb_bool b : comes_back E (JBool b) (JInt (if b then 1 else 0))
| cb_int z : (- 2 ^ 63 <= z < 2 ^ 63)%Z -> comes_back E (JInt z) (JInt z)
| cb_float f : e_finite E f = true -> comes_back E (JFloat f) (JFloat f)
| cb_str s : comes_back E (JStr s) (JStr s)
| cb_arr l : comes_back E (JArr l) (JStr (e_json E (JArr l)))
| cb_obj o : comes_back E (JObj o) (JStr (e_json E (JObj o))).
(** The four kinds of values, and the kind a store declares for a key. *)
Definition declared (s : store) (k : text) (t : ctype) : Prop :=
  exists d, s = Db d /\ In {| c_name := k; c_type := t |} (thin_cols d ++ fat_cols d).
(** The kind of column a value calls for. *)
Definition kind (x : json) : ctype :=
  match x with
  | JBool _ | JInt _ => CInt
  | JFloat _ => CReal
  | JStr _ | JNull => CText
  | JArr _ | JObj _ => CBlob
  end.
(** Metadata item [v] gives value [x] to key [k]; objects have distinct keys. *)
Definition gives (v : json) (k : text) (x : json) : Prop := exists o, v = JObj o /\ In (k, x) o.
Definition item_ok (v : json) : Prop := match v with JObj o => NoDup (map fst o) | _ => True end.
(** The fields [f] of a row of store [s] are those of item [v]: every key of [v] is there; its
    value comes back when it has the declared kind; a key [v] does not have is null or absent. *)
Definition reflects (E : engine) (s : store) (v : json) (f : list (text * json)) : Prop :=
  (forall k x, gives v k x -> exists t, declared s k t)
  /\ (forall k x y, gives v k x -> (x = JNull \/ declared s k (kind x)) -> comes_back E x y -> field_of f k = Some y)
  /\ (forall k, (forall x, ~ gives v k x) -> field_of f k = None \/ field_of f k = Some JNull).
(** All the values of key [k] in a batch are of one kind, and the first item does not have
    null there. *)
Definition uniform (md : list json) (k : text) (t : ctype) : Prop :=
  (forall v x, In v md -> gives v k x -> x = JNull \/ kind x = t)
  /\ (forall v, hd_error md = Some v -> ~ gives v k JNull).

(** ** Meaning of a filter condition on a document *)
(** Column names are compared ignoring the case of ASCII letters. *)
Definition same_name (a b : text) : bool := text_eqb (map to_lower1 a) (map to_lower1 b).
(** The cells of the row of document [i]: column, declared kind, stored value.  [_subset_] is
    the id itself. *)
Definition cells (s : store) (i : Z) : option (list (text * (ctype * sqlv))) :=
  match s with
  | Db d =>
    match find (fun t => (t_sub t =? i)%Z) (thin_rows d) with
    | Some t =>
      match find (fun f => (f_cid f =? t_cid t)%Z) (fat_rows d) with
      | Some f => Some ((subset_column, (CInt, SInt i))
                          :: combine (map c_name (thin_cols d)) (combine (map c_type (thin_cols d)) (t_vals t))
                          ++ combine (map c_name (fat_cols d)) (combine (map c_type (fat_cols d)) (f_vals f)))
      | None => None
      end
    | None => None
    end
  | _ => None
  end.
Definition has_row (s : store) (i : Z) : Prop := cells s i <> None.
Definition value (s : store) (i : Z) (k : text) : ctype * sqlv :=
  match cells s i with
  | Some l => match find (fun p => same_name (fst p) k) l with Some p => snd p | None => (CText, SNull) end
  | None => (CText, SNull)
  end.
(** SQL's three-valued logic: false < unknown < true, AND is the least, OR the greatest. *)
Definition rank (x : option bool) : nat := match x with Some false => 0 | None => 1 | Some true => 2 end.
Definition sql_and (x y : option bool) : option bool := if rank x <=? rank y then x else y.
Definition sql_or (x y : option bool) : option bool := if rank x <=? rank y then y else x.
Definition sql_not (n : bool) (x : option bool) : option bool := if n then option_map negb x else x.
(** A text matches the pattern given for it. *)
Definition regexp_matches (E : engine) (v p : sqlv) : option bool :=
  match v, p with
  | SText s, SText p => match e_regex E p with Some re => Some (re s) | None => None end
  | _, _ => None
  end.
(** v IN (ps) *)
Definition one_of (eq : sqlv -> option bool) (ps : list sqlv) : option bool :=
  if existsb (fun p => rank (eq p) =? 2) ps then Some true
  else if existsb (fun p => rank (eq p) =? 1) ps then None else Some false.
(** Truth of a condition where the columns have the values [val], the placeholders taking the
    parameters from left to right; also the parameters left over. *)
Fixpoint truth (E : engine) (val : text -> ctype * sqlv) (a : cond) (ps : list sqlv) : option bool * list sqlv :=
  match a with
  | COr a b => let (x, ps) := truth E val a ps in let (y, ps) := truth E val b ps in (sql_or x y, ps)
  | CAnd a b => let (x, ps) := truth E val a ps in let (y, ps) := truth E val b ps in (sql_and x y, ps)
  | CNot a => let (x, ps) := truth E val a ps in (sql_not true x, ps)
  | CCmp c o => (e_cmp E o (fst (val c)) (snd (val c)) (hd SNull ps), tl ps)
  | CLike n c => (sql_not n (e_like E (snd (val c)) (hd SNull ps)), tl ps)
  | CRegexp n c => (sql_not n (regexp_matches E (snd (val c)) (hd SNull ps)), tl ps)
  | CNull n c => (sql_not n (Some (match snd (val c) with SNull => true | _ => false end)), ps)
  | CBetween n c => (sql_not n (sql_and (e_cmp E OGe (fst (val c)) (snd (val c)) (hd SNull ps))
                                        (e_cmp E OLe (fst (val c)) (snd (val c)) (hd SNull (tl ps)))), tl (tl ps))
  | CIn n c k => (sql_not n (one_of (e_cmp E OEq (fst (val c)) (snd (val c))) (firstn k ps)), skipn k ps)
  end.
(** Number of placeholders of a condition, and the patterns its REGEXPs get. *)
Fixpoint arity (a : cond) : nat :=
  match a with
  | COr a b | CAnd a b => arity a + arity b
  | CNot a => arity a
  | CCmp _ _ | CLike _ _ | CRegexp _ _ => 1
  | CNull _ _ => 0
  | CBetween _ _ => 2
  | CIn _ _ n => n
  end.
Fixpoint patterns (a : cond) (ps : list sqlv) : list sqlv :=
  match a with
  | COr a b | CAnd a b => patterns a (firstn (arity a) ps) ++ patterns b (skipn (arity a) ps)
  | CNot a => patterns a ps
  | CRegexp _ _ => firstn 1 ps
  | _ => []
  end.
Fixpoint uses_regexp (a : cond) : Prop :=
  match a with
  | COr a b | CAnd a b => uses_regexp a \/ uses_regexp b
  | CNot a => uses_regexp a
  | CRegexp _ _ => True
  | _ => False
  end.
(** The text [condition] reads as [a] in the documented grammar. *)
Definition means (U : unicode) (condition : text) (a : cond) : Prop :=
  exists ts, lexes U condition ts /\ expr (fun _ => True) ts a.
(** Document [i] satisfies condition [a] with these parameters. *)
Definition satisfies (E : engine) (s : store) (a : cond) (params : list json) (i : Z) : Prop :=
  has_row s i /\ fst (truth E (value s i) a (map (json_to_sql E) params)) = Some true.
(** The columns of a store; no two differ only by the case of letters. *)
Definition columns (s : store) : list text :=
  match s with Db d => subset_column :: map c_name (thin_cols d ++ fat_cols d) | _ => [] end.
Definition distinct_names (s : store) : Prop := NoDup (map (map to_lower1) (columns s)).
(** An update object gives column [k] the value [v] (the last one named like it counts). *)
Definition assigns (us : list (text * json)) (k : text) (v : json) : Prop :=
  exists pre k' post, us = pre ++ (k', v) :: post /\ same_name k' k = true
    /\ forall p, In p post -> same_name (fst p) k = false.
(** The condition selects document [i]: a comparison of two numbers selects every document or
    none; any other condition selects the documents satisfying it. *)
Inductive selects (U : unicode) (E : engine) (s : store) (condition : text) (params : list json) (i : Z) : Prop :=
| sel_number : numeric_equality U condition -> e_num E condition = true -> has_row s i -> selects U E s condition params i
| sel_cond a : means U condition a -> satisfies E s a params i -> selects U E s condition params i.
Definition without_regexp (U : unicode) (condition : text) : Prop := forall a, means U condition a -> ~ uses_regexp a.
(** The object shown for document [i]. *)
Definition object_at (E : engine) (s : store) (i : Z) : list json :=
  match row_at E s i with Some f => [JObj ((subset_column, JInt i) :: f)] | None => [] end.
