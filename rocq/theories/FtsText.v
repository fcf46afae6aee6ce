(** Text handling of the full-text search: identifier splitting and query sanitising
    (text_search.rs 108-260 and 938-993).

    Texts are lists of Unicode scalar values.  The code walks over UTF-8 bytes, but only ASCII
    bytes start, continue or end a token, and the bytes of a non-ASCII character are never ASCII,
    so walking over characters gives the same tokens.  [to_lowercase] is only applied to ASCII
    tokens here and is [map to_lower1]. *)
From Verif Require Import Base Text.
Open Scope nat_scope.

Fixpoint take_while (p : Z -> bool) (s : text) : text :=
  match s with [] => [] | c :: r => if p c then c :: take_while p r else [] end.
Fixpoint drop_while (p : Z -> bool) (s : text) : text :=
  match s with [] => [] | c :: r => if p c then drop_while p r else s end.
Definition lower (s : text) : text := map to_lower1 s.
Definition starts (p : Z -> bool) (s : text) : bool := match s with [] => false | c :: _ => p c end.

(** text_search.rs 155-213 [camel_split]; [fuel]: the length of the token is enough *)
Fixpoint camel_fuel (fuel : nat) (s : text) : list text :=
  match fuel with
  | O => []
  | S f =>
    match s with
    | [] => []
    | c :: r =>
      if a_digit c then take_while a_digit s :: camel_fuel f (drop_while a_digit s)
      else if negb (a_alpha c) then camel_fuel f r
      else if a_upper c then
        let run := take_while a_upper s in
        let rest := drop_while a_upper s in
        if starts a_lower rest && (1 <? length run)
        then lower (removelast run) :: camel_fuel f (last run 0%Z :: rest)
        else lower (run ++ take_while a_lower rest) :: camel_fuel f (drop_while a_lower rest)
      else lower (take_while a_lower s) :: camel_fuel f (drop_while a_lower s)
    end
  end.
Definition camel_split (s : text) : list text := camel_fuel (length s) s.

(** [str::split('_')] *)
Fixpoint split_under (s : text) : list text :=
  match s with
  | [] => [[]]
  | c :: r => if under c then [] :: split_under r
              else match split_under r with p :: ps => (c :: p) :: ps | [] => [[c]] end
  end.
Definition nonempty (s : text) : bool := match s with [] => false | _ => true end.
(** [parts.windows(2)] joined by an underscore *)
Fixpoint bigrams (ps : list text) : list text :=
  match ps with
  | a :: ((b :: _) as r) => (a ++ 95%Z :: b) :: bigrams r
  | _ => []
  end.
(** text_search.rs 118-147 [split_identifier] *)
Definition split_identifier (token : text) : list text :=
  let parts := if existsb under token then filter nonempty (split_under (lower token)) else camel_split token in
  if 2 <=? length parts then lower token :: parts ++ bigrams parts else [lower token].

Definition id_head (c : Z) : bool := a_alpha c || under c.
Definition id_char (c : Z) : bool := a_alnum c || under c.
(** text_search.rs 220-247 [tokenize_identifiers] *)
Fixpoint tokenize_fuel (fuel : nat) (s : text) : list text :=
  match fuel with
  | O => []
  | S f =>
    match s with
    | [] => []
    | c :: r => if id_head c then split_identifier (c :: take_while id_char r) ++ tokenize_fuel f (drop_while id_char r)
                else tokenize_fuel f r
    end
  end.
Definition tokenize_identifiers (s : text) : list text := tokenize_fuel (length s) s.

(** [slice::join] *)
Fixpoint join (sep : text) (l : list text) : text :=
  match l with
  | [] => []
  | [x] => x
  | x :: r => x ++ sep ++ join sep r
  end.
(** text_search.rs 52-73 *)
Inductive fts_tokenizer := Unicode61 | Trigram | IdentifierAware.
(** text_search.rs 253-258 [prepare_document_text] *)
Definition prepare_document_text (t : text) (k : fts_tokenizer) : text :=
  match k with IdentifierAware => join [32%Z] (tokenize_identifiers t) | _ => t end.

(** [str::split_whitespace] *)
Fixpoint split_ws_fuel (ws : Z -> bool) (fuel : nat) (s : text) : list text :=
  match fuel with
  | O => []
  | S f =>
    match drop_while ws s with
    | [] => []
    | s' => take_while (fun c => negb (ws c)) s' :: split_ws_fuel ws f (drop_while (fun c => negb (ws c)) s')
    end
  end.
Definition split_whitespace (ws : Z -> bool) (s : text) : list text := split_ws_fuel ws (S (length s)) s.
Definition quote : Z := 34%Z.
(** [format!] of a word in double quotes, inner quotes doubled *)
Definition quoted (w : text) : text := quote :: flat_map (fun c => if (c =? quote)%Z then [quote; quote] else [c]) w ++ [quote].
Definition operators : list text := [txt "AND"; txt "OR"; txt "NOT"; txt "NEAR"].
(** text_search.rs 951-967: one word *)
Definition sanitize_word (U : unicode) (word : text) : list text :=
  let trimmed := trim (fun c => negb (u_alnum U c)) word in
  if negb (nonempty trimmed) then []
  else if existsb (text_eqb (u_upper U trimmed)) operators then []
  else [quoted trimmed].
(** text_search.rs 949-969 [sanitize_fts5_query] *)
Definition sanitize_fts5_query (U : unicode) (q : text) : text :=
  join [32%Z] (flat_map (sanitize_word U) (split_whitespace (u_ws U) q)).
(** text_search.rs 982-993 [sanitize_fts5_query_or] *)
Fixpoint first_seen (seen : list text) (l : list text) : list text :=
  match l with
  | [] => []
  | t :: r => if negb (nonempty t) || existsb (text_eqb t) seen then first_seen seen r else t :: first_seen (t :: seen) r
  end.
Definition sanitize_fts5_query_or (q : text) : text :=
  join (txt " OR ") (map quoted (first_seen [] (tokenize_identifiers q))).
