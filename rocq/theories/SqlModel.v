(** Model of the filter-condition validator, next-plaid/src/filtering.rs 92-614.
    Simplification: error messages are dropped. *)
From Verif Require Import Base Text.
Open Scope nat_scope.

(** filtering.rs 117-143 [Token] *)
Inductive cmp_op := OEq | ONe | OLt | OLe | OGt | OGe.
Inductive token :=
| TIdent (name : text) | TPlaceholder | TCmp (o : cmp_op)
| TLike | TRegexp | TBetween | TIn | TAnd | TOr | TNot | TIs | TNull
| TLParen | TRParen | TComma | TEof.
Definition op_eqb (a b : cmp_op) : bool :=
  match a, b with
  | OEq, OEq | ONe, ONe | OLt, OLt | OLe, OLe | OGt, OGt | OGe, OGe => true
  | _, _ => false
  end.
(** derived [PartialEq] *)
Definition token_eqb (a b : token) : bool :=
  match a, b with
  | TIdent x, TIdent y => text_eqb x y
  | TCmp x, TCmp y => op_eqb x y
  | TPlaceholder, TPlaceholder | TLike, TLike | TRegexp, TRegexp | TBetween, TBetween | TIn, TIn
  | TAnd, TAnd | TOr, TOr | TNot, TNot | TIs, TIs | TNull, TNull
  | TLParen, TLParen | TRParen, TRParen | TComma, TComma | TEof, TEof => true
  | _, _ => false
  end.

Section VALIDATOR.
  Variable U : unicode.

  (** filtering.rs 97-105: ^[a-zA-Z_][a-zA-Z0-9_]*$ *)
  Definition is_valid_column_name (name : text) : bool :=
    match name with
    | [] => false
    | c :: r => (a_alpha c || under c) && forallb (fun c => a_alnum c || under c) r
    end.

  (** The regex \bKEYWORD\b: an occurrence with no word character next to it ([before]
      tells whether the character before [s] is a word character). *)
  Fixpoint whole_word (k : text) (before : bool) (s : text) : bool :=
    (negb before && starts_with k s
       && negb (match skipn (length k) s with [] => false | c :: _ => u_word U c end))
    || match s with [] => false | c :: r => whole_word k (u_word U c) r end.
  Definition dangerous_keywords : list text :=
    map txt ["SELECT"; "UNION"; "INSERT"; "UPDATE"; "DELETE"; "DROP"; "CREATE"; "ALTER"; "TRUNCATE";
             "EXEC"; "EXECUTE"; "GRANT"; "REVOKE"]%string.
  (** filtering.rs 146-181 [quick_safety_check] *)
  Definition quick_safety_check (condition : text) : res unit :=
    let upper := u_upper U condition in
    if contains (txt "--") condition || contains (txt "/*") condition || contains (txt "*/") condition then Err
    else if contains (txt ";") condition then Err
    else if existsb (fun k => whole_word k false upper) dangerous_keywords then Err
    else Ok tt.

  (** filtering.rs 258-271 *)
  Definition word_token (word : text) : token :=
    let upper := u_upper U word in
    if text_eqb upper (txt "AND") then TAnd
    else if text_eqb upper (txt "OR") then TOr
    else if text_eqb upper (txt "NOT") then TNot
    else if text_eqb upper (txt "IS") then TIs
    else if text_eqb upper (txt "NULL") then TNull
    else if text_eqb upper (txt "LIKE") then TLike
    else if text_eqb upper (txt "REGEXP") then TRegexp
    else if text_eqb upper (txt "BETWEEN") then TBetween
    else if text_eqb upper (txt "IN") then TIn
    else TIdent word.
  Definition word_char (c : Z) : bool := u_alnum U c || under c.
  Fixpoint span (p : Z -> bool) (s : text) : text * text :=
    match s with
    | [] => ([], [])
    | c :: r => if p c then let '(a, b) := span p r in (c :: a, b) else ([], s)
    end.
  (** filtering.rs 184-319 [tokenize]; the position in the character vector is the rest of
      the text; [fuel] is at least the number of characters left. *)
  Fixpoint tokenize_from (fuel : nat) (s : text) : res (list token) :=
    match fuel with
    | O => match s with [] => Ok [TEof] | _ => Panic end
    | S f =>
      match s with
      | [] => Ok [TEof]
      | c :: r =>
        let tok t rest := bind (tokenize_from f rest) (fun ts => Ok (t :: ts)) in
        if u_ws U c then tokenize_from f r
        else if (c =? ch "?")%Z then tok TPlaceholder r
        else if (c =? ch "(")%Z then tok TLParen r
        else if (c =? ch ")")%Z then tok TRParen r
        else if (c =? ch ",")%Z then tok TComma r
        else if (c =? ch "=")%Z then tok (TCmp OEq) r
        else if starts_with (txt "!=") s then tok (TCmp ONe) (skipn 2 s)
        else if starts_with (txt "<>") s then tok (TCmp ONe) (skipn 2 s)
        else if starts_with (txt "<=") s then tok (TCmp OLe) (skipn 2 s)
        else if starts_with (txt ">=") s then tok (TCmp OGe) (skipn 2 s)
        else if (c =? ch "<")%Z then tok (TCmp OLt) r
        else if (c =? ch ">")%Z then tok (TCmp OGt) r
        else if u_alpha U c || under c then
          let '(w, rest) := span word_char s in tok (word_token w) rest
        else if (c =? 34)%Z then
          let '(w, rest) := span (fun c => negb (c =? 34)%Z) r in
          match rest with [] => Err | _ :: rest' => tok (TIdent w) rest' end
        else Err
      end
    end.
  Definition tokenize (s : text) : res (list token) := tokenize_from (length s) s.

  Variable valid_columns : list text.
  (** filtering.rs 339-341; the parser state [pos] is the list of remaining tokens. *)
  Definition current (ts : list token) : token := hd TEof ts.
  Definition advance (ts : list token) : list token := tl ts.
  Definition expect (e : token) (ts : list token) : res (list token) :=
    if token_eqb (current ts) e then Ok (advance ts) else Err.
  (** filtering.rs 420-431: column names compare case-insensitively *)
  Definition known_column (name : text) : bool :=
    existsb (fun c => text_eqb (u_lower U c) (u_lower U name)) valid_columns.
  (** filtering.rs 524-534 [parse_in_list] *)
  Fixpoint in_tail (fuel : nat) (ts : list token) : res (list token) :=
    match fuel with
    | O => Panic
    | S f => if token_eqb (current ts) TComma
             then bind (expect TPlaceholder (advance ts)) (in_tail f)
             else expect TRParen ts
    end.
  Definition parse_in_list (ts : list token) : res (list token) :=
    bind (expect TLParen ts) (fun ts => bind (expect TPlaceholder ts) (fun ts => in_tail (S (length ts)) ts)).
  Definition between_tail (ts : list token) : res (list token) :=
    bind (expect TPlaceholder ts) (fun ts => bind (expect TAnd ts) (expect TPlaceholder)).
  (** filtering.rs 439-519: what may follow a column name *)
  Definition parse_operator (ts : list token) : res (list token) :=
    match current ts with
    | TIs => let ts := advance ts in
             expect TNull (if token_eqb (current ts) TNot then advance ts else ts)
    | TNot => let ts := advance ts in
              match current ts with
              | TBetween => between_tail (advance ts)
              | TIn => parse_in_list (advance ts)
              | TLike => expect TPlaceholder (advance ts)
              | TRegexp => expect TPlaceholder (advance ts)
              | _ => Err
              end
    | TBetween => between_tail (advance ts)
    | TIn => parse_in_list (advance ts)
    | TLike => expect TPlaceholder (advance ts)
    | TRegexp => expect TPlaceholder (advance ts)
    | TCmp _ => expect TPlaceholder (advance ts)
    | _ => Err
    end.
  (** filtering.rs 371-522; [fuel] bounds the recursion depth and the loops (Rust has no
      such bound short of the stack, which is not modelled). *)
  Fixpoint parse_expr (fuel : nat) (ts : list token) : res (list token) :=
    match fuel with O => Panic | S f => bind (parse_and f ts) (or_loop f) end
  with or_loop (fuel : nat) (ts : list token) : res (list token) :=
    match fuel with
    | O => Panic
    | S f => if token_eqb (current ts) TOr then bind (parse_and f (advance ts)) (or_loop f) else Ok ts
    end
  with parse_and (fuel : nat) (ts : list token) : res (list token) :=
    match fuel with O => Panic | S f => bind (parse_unary f ts) (and_loop f) end
  with and_loop (fuel : nat) (ts : list token) : res (list token) :=
    match fuel with
    | O => Panic
    | S f => if token_eqb (current ts) TAnd then bind (parse_unary f (advance ts)) (and_loop f) else Ok ts
    end
  with parse_unary (fuel : nat) (ts : list token) : res (list token) :=
    match fuel with
    | O => Panic
    | S f => parse_primary f (if token_eqb (current ts) TNot then advance ts else ts)
    end
  with parse_primary (fuel : nat) (ts : list token) : res (list token) :=
    match fuel with
    | O => Panic
    | S f => if token_eqb (current ts) TLParen
             then bind (parse_expr f (advance ts)) (expect TRParen)
             else match current ts with
                  | TIdent name => if known_column name then parse_operator (advance ts) else Err
                  | _ => Err
                  end
    end.
  (** filtering.rs 358-368 [validate] *)
  Definition validate (ts : list token) : res unit :=
    bind (parse_expr (5 * length ts + 5) ts) (fun rest =>
      if token_eqb (current rest) TEof then Ok tt else Err).

  (** filtering.rs 586-594: the regex ^(\d+)\s*=\s*(\d+)$ on the trimmed condition *)
  Definition is_numeric_equality (condition : text) : bool :=
    let t := trim (u_ws U) condition in
    let '(d1, r1) := span (u_digit U) t in
    let '(_, r2) := span (u_space U) r1 in
    match d1, r2 with
    | _ :: _, c :: r3 =>
      (c =? ch "=")%Z
      && (let '(_, r4) := span (u_space U) r3 in
          let '(d2, r5) := span (u_digit U) r4 in
          match d2, r5 with _ :: _, [] => true | _, _ => false end)
    | _, _ => false
    end.
  (** filtering.rs 596-614 [validate_condition] *)
  Definition validate_condition (condition : text) : res unit :=
    if is_numeric_equality condition then Ok tt else
    bind (quick_safety_check condition) (fun _ =>
    bind (tokenize condition) validate).
End VALIDATOR.
