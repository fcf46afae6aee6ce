(** Specification of the documented filter-condition language (filtering.rs 566-580 and
    the user documentation): its words, its grammar and its meaning. *)
From Verif Require Import Base Text SqlModel.
Open Scope nat_scope.

(** ** Words *)
Section WORDS.
  Variable U : unicode.
  (** [w] is a bare word: a letter or underscore, then letters, digits and underscores. *)
  Definition bare_word (w : text) : Prop :=
    exists c r, w = c :: r /\ (u_alpha U c = true \/ c = ch "_")
      /\ forall d, In d r -> u_alnum U d = true \/ d = ch "_".
  Definition keyword (w : text) (t : token) : Prop :=
    In (u_upper U w, t)
      [(txt "AND", TAnd); (txt "OR", TOr); (txt "NOT", TNot); (txt "IS", TIs); (txt "NULL", TNull);
       (txt "LIKE", TLike); (txt "REGEXP", TRegexp); (txt "BETWEEN", TBetween); (txt "IN", TIn)].
  (** How a token may be written. *)
  Inductive spelling : text -> token -> Prop :=
  | sp_sym w t : In (w, t) [(txt "?", TPlaceholder); (txt "(", TLParen); (txt ")", TRParen); (txt ",", TComma);
                            (txt "=", TCmp OEq); (txt "!=", TCmp ONe); (txt "<>", TCmp ONe);
                            (txt "<=", TCmp OLe); (txt ">=", TCmp OGe); (txt "<", TCmp OLt); (txt ">", TCmp OGt)] ->
      spelling w t
  | sp_keyword w t : bare_word w -> keyword w t -> spelling w t
  | sp_name w : bare_word w -> (forall t, ~ keyword w t) -> spelling w (TIdent w)
  | sp_quoted w : ~ In 34%Z w -> spelling (34%Z :: w ++ [34%Z]) (TIdent w).
  (** What may not follow directly, because it would make a longer token. *)
  Definition ends (w s : text) : Prop :=
    match s with
    | [] => True
    | c :: _ =>
      (bare_word w -> u_alnum U c = false /\ c <> ch "_")
      /\ (w = txt "<" -> c <> ch "=" /\ c <> ch ">") /\ (w = txt ">" -> c <> ch "=")
    end.
  (** The text is this sequence of tokens, with white space anywhere between them. *)
  Inductive lexes : text -> list token -> Prop :=
  | lx_nil : lexes [] []
  | lx_ws c s ts : u_ws U c = true -> lexes s ts -> lexes (c :: s) ts
  | lx_tok w t s ts : spelling w t -> ends w s -> lexes s ts -> lexes (w ++ s) (t :: ts).
End WORDS.

(** ** Grammar, with the meaning of each sentence as a tree *)
Inductive cond :=
| COr (a b : cond) | CAnd (a b : cond) | CNot (a : cond)
| CCmp (col : text) (o : cmp_op)
| CLike (neg : bool) (col : text) | CRegexp (neg : bool) (col : text)
| CNull (neg : bool) (col : text)
| CBetween (neg : bool) (col : text)
| CIn (neg : bool) (col : text) (n : nat).
Definition opt_not (n : bool) : list token := if n then [TNot] else [].
(** [n >= 1] placeholders separated by commas *)
Inductive ph_list : list token -> nat -> Prop :=
| ph_one : ph_list [TPlaceholder] 1
| ph_more l n : ph_list l n -> ph_list (TPlaceholder :: TComma :: l) (S n).
Section GRAMMAR.
  (** which identifiers name a column *)
  Variable col : text -> Prop.
  Inductive expr : list token -> cond -> Prop :=
  | ex_one l a : and_expr l a -> expr l a
  | ex_or l a m b : expr l a -> and_expr m b -> expr (l ++ TOr :: m) (COr a b)
  with and_expr : list token -> cond -> Prop :=
  | an_one l a : unary l a -> and_expr l a
  | an_and l a m b : and_expr l a -> unary m b -> and_expr (l ++ TAnd :: m) (CAnd a b)
  with unary : list token -> cond -> Prop :=
  | un_pos l a : primary l a -> unary l a
  | un_neg l a : primary l a -> unary (TNot :: l) (CNot a)
  with primary : list token -> cond -> Prop :=
  | pr_cmp c o : col c -> primary [TIdent c; TCmp o; TPlaceholder] (CCmp c o)
  | pr_like n c : col c -> primary (TIdent c :: opt_not n ++ [TLike; TPlaceholder]) (CLike n c)
  | pr_regexp n c : col c -> primary (TIdent c :: opt_not n ++ [TRegexp; TPlaceholder]) (CRegexp n c)
  | pr_null n c : col c -> primary (TIdent c :: TIs :: opt_not n ++ [TNull]) (CNull n c)
  | pr_between n c : col c ->
      primary (TIdent c :: opt_not n ++ [TBetween; TPlaceholder; TAnd; TPlaceholder]) (CBetween n c)
  | pr_in n c l k : col c -> ph_list l k ->
      primary (TIdent c :: opt_not n ++ TIn :: TLParen :: l ++ [TRParen]) (CIn n c k)
  | pr_paren l a : expr l a -> primary (TLParen :: l ++ [TRParen]) a.
End GRAMMAR.
(** Column names compare case-insensitively. *)
Definition column_of (U : unicode) (columns : list text) (c : text) : Prop :=
  exists k, In k columns /\ u_lower U k = u_lower U c.

(** "1=1", "0 = 1": two numbers and an equals sign. *)
Definition numeric_equality (U : unicode) (s : text) : Prop :=
  exists w1 d1 w2 w3 d2 w4,
    s = w1 ++ d1 ++ w2 ++ [ch "="] ++ w3 ++ d2 ++ w4
    /\ d1 <> [] /\ d2 <> []
    /\ (forall c, In c d1 \/ In c d2 -> u_digit U c = true)
    /\ (forall c, In c w1 \/ In c w4 -> u_ws U c = true) /\ (forall c, In c w2 \/ In c w3 -> u_space U c = true).

(** Characters of an accepted condition, among the ASCII ones. *)
Definition harmless (c : Z) : Prop :=
  a_alnum c = true \/ c = ch "_" \/ a_ws c = true \/ In c (txt "?(),=!<>") \/ c = 34%Z.
(** A column name as SQL sees it: compared ignoring the case of ASCII letters. *)
Definition names_column (columns : list text) (c : text) : Prop :=
  exists k, In k columns /\ map to_lower1 k = map to_lower1 c.
Definition valid_name (k : text) : Prop :=
  exists c r, k = c :: r /\ (a_alpha c = true \/ c = ch "_") /\ forall d, In d r -> a_alnum d = true \/ d = ch "_".
(** [k] stands in [s] as a whole word (no letter, digit or underscore around it). *)
Definition whole_word_in (k s : text) : Prop :=
  exists p q, s = p ++ k ++ q
    /\ (forall c p', p = p' ++ [c] -> a_alnum c = false /\ c <> ch "_")
    /\ (forall c q', q = c :: q' -> a_alnum c = false /\ c <> ch "_").
Definition statement_words : list text :=
  map txt ["SELECT"; "UNION"; "INSERT"; "UPDATE"; "DELETE"; "DROP"; "CREATE"; "ALTER"; "TRUNCATE";
           "EXEC"; "EXECUTE"; "GRANT"; "REVOKE"]%string.
