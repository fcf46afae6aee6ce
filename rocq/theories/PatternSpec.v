(** What the patterns of option -e mean, said without the code. *)
From Verif Require Import Base Text.
Open Scope nat_scope.

(** Equal texts, letter case aside unless [case_sensitive]. *)
Definition alike (case_sensitive : bool) (fold : Z -> Z) (a b : text) : Prop :=
  if case_sensitive then a = b else map fold a = map fold b.

(** A piece of a pattern: a text without special characters, perhaps tied to the beginning or the
    end of a line. *)
Record piece := { at_start : bool; body : text; at_end : bool }.
Definition line_start (pre : text) : Prop := pre = [] \/ exists a, pre = a ++ [10%Z].
Definition line_end (post : text) : Prop := post = [] \/ exists b, post = 10%Z :: b.
Definition occurs (cs : bool) (fold : Z -> Z) (p : piece) (code : text) : Prop :=
  exists pre mid post, code = pre ++ mid ++ post /\ alike cs fold (body p) mid /\
    (at_start p = true -> line_start pre) /\ (at_end p = true -> line_end post).
Definition literally (p code : text) : Prop := exists pre post, code = pre ++ p ++ post.

(** How it is typed: pieces separated by bars, with or without a backslash. *)
Definition write_piece (p : piece) : text :=
  (if at_start p then txt "^" else []) ++ body p ++ (if at_end p then txt "$" else []).
Fixpoint write_pattern (p : piece) (l : list (bool * piece)) : text :=
  match l with
  | [] => write_piece p
  | (backslash, p') :: l' => write_piece p ++ (if backslash then txt "\|" else txt "|") ++ write_pattern p' l'
  end.
(** No special character in the text of a piece; braces are allowed... *)
Definition plain (s : text) : Prop := forall c, In c s -> ~ In c (txt "\.+*?()|[]^$").
(** ... if they do not make a repetition. *)
Definition number (s : text) : Prop := forall c, In c s -> (48 <= c <= 57)%Z.
Definition repetition (s : text) : Prop :=
  (s <> [] /\ number s) \/ exists m n, s = m ++ txt "," ++ n /\ number m /\ number n /\ (m <> [] \/ n <> []).
Definition no_repetition (s : text) : Prop := forall a b c, s = a ++ txt "{" ++ b ++ txt "}" ++ c -> ~ repetition b.

(** Option -w: a word boundary before and behind. *)
Definition last_is (P : Z -> bool) (s : text) : bool := match rev s with c :: _ => P c | [] => false end.
Definition first_is (P : Z -> bool) (s : text) : bool := match s with c :: _ => P c | [] => false end.
Definition edge (word : Z -> bool) (before after : text) : Prop := last_is word before <> first_is word after.
Definition whole_word (cs : bool) (fold : Z -> Z) (word : Z -> bool) (p code : text) : Prop :=
  exists pre mid post, code = pre ++ mid ++ post /\ alike cs fold p mid /\ edge word pre (mid ++ post) /\ edge word (pre ++ mid) post.

(** * Lines *)
(** A part of a text made of whole lines. *)
Definition whole_lines (part whole : text) : Prop :=
  exists before behind, whole = before ++ part ++ behind /\ line_start before /\ line_end behind.
Definition one_line_of (line whole : text) : Prop := ~ In 10%Z line /\ whole_lines line whole.
Definition no_cr (s : text) : Prop := ~ In 13%Z s.
(** Lines put together, each but the last followed by a line feed. *)
Fixpoint unlines (l : list text) : text :=
  match l with [] => [] | [x] => x | x :: l' => x ++ 10%Z :: unlines l' end.
(** A character that is not a line feed, letter case aside. *)
Definition on_one_line (cs : bool) (fold : Z -> Z) (s : text) : Prop := forall c, In c s -> ~ alike cs fold [c] [10%Z].

(** * Patterns in the older notation, where backslashes make the operators *)
Inductive old :=
| ONil
| OChar (c : Z) (r : old)              (* a character, not a backslash *)
| OEsc (d : Z) (r : old)               (* backslash and a character that makes no operator *)
| OBar (r : old)                       (* backslash, bar *)
| OGroup (a : old) (r : old)           (* \( ... \) *)
| OBrace (a : old) (r : old).          (* \{ ... \} *)
Fixpoint ok_old (p : old) : Prop :=
  match p with
  | ONil => True
  | OChar c r => c <> ch "\" /\ ok_old r
  | OEsc d r => ~ In d (txt "|(){}") /\ ok_old r
  | OBar r => ok_old r
  | OGroup a r | OBrace a r => ok_old a /\ ok_old r
  end.
(** As typed, and in the newer notation. *)
Fixpoint write_old (p : old) : text :=
  match p with
  | ONil => []
  | OChar c r => c :: write_old r
  | OEsc d r => ch "\" :: d :: write_old r
  | OBar r => txt "\|" ++ write_old r
  | OGroup a r => txt "\(" ++ write_old a ++ txt "\)" ++ write_old r
  | OBrace a r => txt "\{" ++ write_old a ++ txt "\}" ++ write_old r
  end.
Fixpoint write_new (p : old) : text :=
  match p with
  | ONil => []
  | OChar c r => c :: write_new r
  | OEsc d r => ch "\" :: d :: write_new r
  | OBar r => txt "|" ++ write_new r
  | OGroup a r => txt "(" ++ write_new a ++ txt ")" ++ write_new r
  | OBrace a r => txt "{" ++ write_new a ++ txt "}" ++ write_new r
  end.
Definition begins_with_brace (p : old) : Prop := match p with OBrace _ _ => True | _ => False end.

(** Patterns whose braces are all repetitions or escaped operators; and one with literal braces. *)
Inductive part := PText (s : text) | PEsc (d : Z) | PRep (b : text) | POpen | PClose.
Definition ok_part (x : part) : Prop :=
  match x with
  | PText s => forall c, In c s -> ~ In c (txt "\[]{}")
  | PEsc d => ~ In d (txt "{}")
  | PRep b => repetition b
  | POpen | PClose => True
  end.
(** As typed; what the regex engine gets: repetitions stay, a brace that is escaped is a literal one. *)
Definition typed_part (x : part) : text :=
  match x with PText s => s | PEsc d => [ch "\"; d] | PRep b => txt "{" ++ b ++ txt "}" | POpen => txt "\{" | PClose => txt "\}" end.
Definition engine_part (x : part) : text :=
  match x with PText s => s | PEsc d => [ch "\"; d] | PRep b => txt "{" ++ b ++ txt "}" | POpen => txt "[{]" | PClose => txt "[}]" end.
