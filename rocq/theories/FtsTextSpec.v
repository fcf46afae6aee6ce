(** What the text functions of the full-text search should do, independently of their code. *)
From Verif Require Import Base Text.
Open Scope nat_scope.

(** ** FTS5 query strings
    The part of SQLite's FTS5 query lexer that matters here (sqlite.org/fts5.html section 3; the
    query is a C string, so a NUL character ends it): double-quoted strings with doubled inner
    quotes, bare words of ASCII letters, digits, underscore or non-ASCII characters, the three
    operator words, punctuation.  [None] is a syntax error. *)
Inductive ftoken := FStr (s : text) | FBare (s : text) | FAnd | FOr | FNot | FPunct (c : Z).
(** a string body after its opening quote: content and remaining input *)
Fixpoint fts5_string (s : text) : option (text * text) :=
  match s with
  | [] => None
  | c :: r =>
    if (c =? 0)%Z then None
    else if (c =? 34)%Z then
      match r with
      | d :: r' => if (d =? 34)%Z then option_map (fun p => (34%Z :: fst p, snd p)) (fts5_string r') else Some ([], r)
      | [] => Some ([], [])
      end
    else option_map (fun p => (c :: fst p, snd p)) (fts5_string r)
  end.
Definition bareword (c : Z) : bool := a_alnum c || under c || (128 <=? c)%Z || (c =? 26)%Z.
Fixpoint bare_run (s : text) : text * text :=
  match s with
  | [] => ([], [])
  | c :: r => if bareword c then let p := bare_run r in (c :: fst p, snd p) else ([], s)
  end.
Definition bare_token (w : text) : ftoken :=
  if text_eqb w (txt "AND") then FAnd else if text_eqb w (txt "OR") then FOr
  else if text_eqb w (txt "NOT") then FNot else FBare w.
Fixpoint fts5_lex_fuel (fuel : nat) (s : text) : option (list ftoken) :=
  match fuel with
  | O => None
  | S f =>
    match s with
    | [] => Some []
    | c :: r =>
      if (c =? 0)%Z then Some []
      else if (c =? 32)%Z || (c =? 9)%Z || (c =? 10)%Z || (c =? 13)%Z then fts5_lex_fuel f r
      else if (c =? 34)%Z then
        match fts5_string r with
        | Some (t, r') => option_map (cons (FStr t)) (fts5_lex_fuel f r')
        | None => None
        end
      else if bareword c then let p := bare_run s in option_map (cons (bare_token (fst p))) (fts5_lex_fuel f (snd p))
      else if existsb (Z.eqb c) (txt "(){},+*:-^") then option_map (cons (FPunct c)) (fts5_lex_fuel f r)
      else None
    end
  end.
Definition fts5_lex (s : text) : option (list ftoken) := fts5_lex_fuel (S (length s)) s.
(** strings joined by OR *)
Fixpoint or_of (l : list text) : list ftoken :=
  match l with [] => [] | [x] => [FStr x] | x :: r => FStr x :: FOr :: or_of r end.

(** ** Words of a user query *)
Definition all (p : Z -> bool) (s : text) : Prop := forall c, In c s -> p c = true.
Definition none (p : Z -> bool) (s : text) : Prop := forall c, In c s -> p c = false.
(** [q] consists of the words [ws], separated by white space *)
Inductive splits (ws : Z -> bool) : text -> list text -> Prop :=
| sp_end gap : all ws gap -> splits ws gap []
| sp_word gap w rest l : all ws gap -> none ws w -> w <> [] ->
    (rest = [] \/ exists c r, rest = c :: r /\ ws c = true) ->
    splits ws rest l -> splits ws (gap ++ w ++ rest) (w :: l).
(** [core] is [w] without leading and trailing non-alphanumeric characters *)
Definition core_of (alnum : Z -> bool) (w core : text) : Prop :=
  exists l r, w = l ++ core ++ r /\ none alnum l /\ none alnum r
    /\ (core = [] \/ (exists c s, core = c :: s /\ alnum c = true) /\ (exists c s, core = s ++ [c] /\ alnum c = true)).
Definition fts5_operator (U : unicode) (w : text) : Prop :=
  In (u_upper U w) [txt "AND"; txt "OR"; txt "NOT"; txt "NEAR"].
(** the searched words: those with an alphanumeric character that are not operators *)
Inductive searched (U : unicode) : list text -> list text -> Prop :=
| se_nil : searched U [] []
| se_skip w ws ks : core_of (u_alnum U) w [] -> searched U ws ks -> searched U (w :: ws) ks
| se_operator w core ws ks : core_of (u_alnum U) w core -> fts5_operator U core -> searched U ws ks -> searched U (w :: ws) ks
| se_keep w core ws ks : core_of (u_alnum U) w core -> core <> [] -> ~ fts5_operator U core ->
    searched U ws ks -> searched U (w :: ws) (core :: ks).

(** ** Identifiers and their sub-words *)
Definition word_char (c : Z) : bool := a_alnum c || under c.
(** [id] is an identifier of the text: a maximal run of letters, digits and underscores with
    its leading digits removed *)
Definition identifier_in (t id : text) : Prop :=
  exists a ds b, t = a ++ ds ++ id ++ b /\ all a_digit ds /\ all word_char id
    /\ (exists c r, id = c :: r /\ a_digit c = false)
    /\ (a = [] \/ exists a' c, a = a' ++ [c] /\ word_char c = false)
    /\ (b = [] \/ exists c b', b = c :: b' /\ word_char c = false).
(** a camelCase boundary between adjacent characters [x] and [y], followed by [next]:
    between a digit and a letter, before an upper-case letter that follows a lower-case one
    (fooBar), and before the last of several upper-case letters when a lower-case letter
    follows (HTTPResponse) *)
Definition boundary (x y : Z) (next : option Z) : bool :=
  if a_digit x || a_digit y then negb (a_digit x && a_digit y)
  else if a_upper y then if a_lower x then true else match next with Some z => a_lower z | None => false end
  else false.
Definition cut_at (s : text) (p : nat) : Prop :=
  exists x y, nth_error s (p - 1) = Some x /\ nth_error s p = Some y /\ boundary x y (nth_error s (p + 1)) = true.
(** [ws] is [s] cut exactly at its boundaries *)
Definition camel_words (s : text) (ws : list text) : Prop :=
  concat ws = s /\ Forall (fun w => w <> []) ws
  /\ forall p, 0 < p < length s -> (cut_at s p <-> exists u v, ws = u ++ v /\ length (concat u) = p).
(** [ws]: the non-empty pieces between underscores *)
Inductive snake_words : text -> list text -> Prop :=
| sn_last s : none under s -> snake_words s (match s with [] => [] | _ => [s] end)
| sn_more s r ws : none under s -> snake_words r ws ->
    snake_words (s ++ 95%Z :: r) (match s with [] => ws | _ => s :: ws end).
(** the sub-words of an identifier: between underscores if it has one, else camelCase *)
Definition subwords (id : text) (ws : list text) : Prop :=
  (In 95%Z id /\ snake_words id ws) \/ (~ In 95%Z id /\ camel_words id ws).
Definition same_letters (a b : text) : Prop := map to_lower1 a = map to_lower1 b.

(** the tokens of an identifier: itself, its sub-words if it has several, and the adjacent pairs
    of them joined by an underscore, all in lower case *)
Definition identifier_token (id x : text) : Prop :=
  x = map to_lower1 id
  \/ exists ws, subwords id ws /\ 2 <= length ws
       /\ ((exists w, In w ws /\ x = map to_lower1 w)
           \/ exists u a b v, ws = u ++ a :: b :: v /\ x = map to_lower1 a ++ 95%Z :: map to_lower1 b).

(** ** What FTS5 matches
    The unicode61 tokenizer on ASCII text: maximal runs of letters and digits, lower-cased; a
    quoted string matches a document if its words occur there one after the other. *)
Fixpoint fts_words_acc (acc : text) (s : text) : list text :=
  match s with
  | [] => match acc with [] => [] | _ => [rev acc] end
  | c :: r => if a_alnum c then fts_words_acc (to_lower1 c :: acc) r
              else match acc with [] => fts_words_acc [] r | _ => rev acc :: fts_words_acc [] r end
  end.
Definition fts_words (s : text) : list text := fts_words_acc [] s.
Definition phrase_matches (phrase doc : text) : Prop :=
  fts_words phrase <> [] /\ exists a b, fts_words doc = a ++ fts_words phrase ++ b.
