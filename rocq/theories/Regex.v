(** The part of the regular-expression language of the [regex] and [fancy_regex] crates that
    colgrep's own patterns use: how a pattern is read, and which texts it is found in.

    The engines themselves are dependencies, not code of the repository.  A theorem that speaks
    of matching quantifies over every [engine] that is [faithful]: on the patterns of this
    fragment the engine accepts the pattern and finds it exactly where [found] says.  Nothing is
    assumed about patterns outside the fragment.  [RegexProofs.v] gives such an engine. *)
From Verif Require Import Base Text.
Open Scope nat_scope.

(** * Syntax *)
Inductive re :=
| Eps                              (* nothing *)
| Lit (c : Z)                      (* a character *)
| Any                              (* . *)
| Class (negated : bool) (c : Z)   (* [c] and [^c] *)
| Bol | Eol                        (* ^ and $ *)
| WordB                            (* \b *)
| Cat (r s : re) | Alt (r s : re) | Star (r : re).
Record flags := { multi_line : bool; any_case : bool }.

(** * Meaning *)
Section Meaning.
  Variable fold : Z -> Z.          (* simple case folding of the engine *)
  Variable word : Z -> bool.       (* the class behind \b *)
  Variable fl : flags.
  Definition same (c d : Z) : Prop := if any_case fl then fold c = fold d else c = d.
  Definition word_before (pre : text) : bool := match rev pre with [] => false | c :: _ => word c end.
  Definition word_after (post : text) : bool := match post with [] => false | c :: _ => word c end.
  (** [matches r pre mid post]: in the text [pre ++ mid ++ post], [r] matches the part [mid]. *)
  Inductive matches : re -> text -> text -> text -> Prop :=
  | m_eps pre post : matches Eps pre [] post
  | m_lit c d pre post : same c d -> matches (Lit c) pre [d] post
  | m_any d pre post : d <> 10%Z -> matches Any pre [d] post
  | m_in c d pre post : same c d -> matches (Class false c) pre [d] post
  | m_out c d pre post : ~ same c d -> matches (Class true c) pre [d] post
  | m_bol pre post : pre = [] \/ (multi_line fl = true /\ exists p, pre = p ++ [10%Z]) -> matches Bol pre [] post
  | m_eol pre post : post = [] \/ (multi_line fl = true /\ exists p, post = 10%Z :: p) -> matches Eol pre [] post
  | m_word pre post : word_before pre <> word_after post -> matches WordB pre [] post
  | m_cat r s pre a b post : matches r pre a (b ++ post) -> matches s (pre ++ a) b post -> matches (Cat r s) pre (a ++ b) post
  | m_left r s pre a post : matches r pre a post -> matches (Alt r s) pre a post
  | m_right r s pre a post : matches s pre a post -> matches (Alt r s) pre a post
  | m_done r pre post : matches (Star r) pre [] post
  | m_more r pre a b post : matches r pre a (b ++ post) -> matches (Star r) (pre ++ a) b post -> matches (Star r) pre (a ++ b) post.
  (** [Regex::is_match] *)
  Definition found (r : re) (s : text) : Prop := exists pre mid post, s = pre ++ mid ++ post /\ matches r pre mid post.
End Meaning.

(** * Reading a pattern *)
Definition sequence (q : list re) : re := fold_left (fun acc r => Cat r acc) q Eps.
Definition alternatives (alts q : list re) : re := fold_left (fun acc r => Alt r acc) alts (sequence q).
(** Characters whose escaped form is the character itself. *)
Definition punctuation : text := txt "\.+*?()|[]{}^$#&-~".
Definition zmem (c : Z) (l : text) : bool := existsb (Z.eqb c) l.
(** Characters that may stand alone in brackets. *)
Definition plain_class (c : Z) : bool := negb (zmem c (txt "[]^-\&~")).
Definition anchor (r : re) : bool := match r with Bol | Eol | WordB => true | _ => false end.
(** What a repetition mark makes.  A second mark has another meaning (lazy, possessive) and is
    outside the fragment. *)
Definition quantified (r : re) : bool := match r with Star _ | Cat _ (Star _) | Alt _ Eps => true | _ => false end.
Definition repeated (f : re -> re) (q : list re) : option (list re) :=
  match q with r :: q' => if anchor r || quantified r then None else Some (f r :: q') | [] => None end.
(** [alts] and [q]: the finished alternatives and the current sequence, latest first; [st]: the
    groups around them.  [None] says nothing: the pattern may be invalid or outside the fragment. *)
Fixpoint read (s : text) (st : list (list re * list re)) (alts q : list re) {struct s} : option re :=
  match s with
  | [] => match st with [] => Some (alternatives alts q) | _ => None end
  | c :: s' =>
      if (c =? ch "(")%Z then
        match s' with d :: _ => if (d =? ch "?")%Z then None else read s' ((alts, q) :: st) [] [] | [] => None end
      else if (c =? ch ")")%Z then
        match st with [] => None | (alts', q') :: st' => read s' st' alts' (alternatives alts q :: q') end
      else if (c =? ch "|")%Z then read s' st (sequence q :: alts) []
      else if (c =? ch "*")%Z then match repeated Star q with Some q' => read s' st alts q' | None => None end
      else if (c =? ch "+")%Z then match repeated (fun r => Cat r (Star r)) q with Some q' => read s' st alts q' | None => None end
      else if (c =? ch "?")%Z then match repeated (fun r => Alt r Eps) q with Some q' => read s' st alts q' | None => None end
      else if (c =? ch ".")%Z then read s' st alts (Any :: q)
      else if (c =? ch "^")%Z then read s' st alts (Bol :: q)
      else if (c =? ch "$")%Z then read s' st alts (Eol :: q)
      else if (c =? ch "\")%Z then
        match s' with
        | d :: s'' => if zmem d punctuation then read s'' st alts (Lit d :: q)
                      else if (d =? ch "b")%Z then read s'' st alts (WordB :: q) else None
        | [] => None
        end
      else if (c =? ch "[")%Z then
        match s' with
        | d :: e :: s'' =>
            if (e =? ch "]")%Z && plain_class d then read s'' st alts (Class false d :: q)
            else match s'' with
                 | f :: s3 => if (d =? ch "^")%Z && (f =? ch "]")%Z && plain_class e then read s3 st alts (Class true e :: q) else None
                 | [] => None
                 end
        | _ => None
        end
      else if zmem c (txt "]{}") then None
      else read s' st alts (Lit c :: q)
  end.
(** Inline flags at the beginning: [(?m)], [(?i)] and [(?mi)]. *)
Definition parse (p : text) : option (flags * re) :=
  let with_flags fl body := match read body [] [] [] with Some r => Some (fl, r) | None => None end in
  if starts_with (txt "(?mi)") p then with_flags {| multi_line := true; any_case := true |} (skipn 5 p)
  else if starts_with (txt "(?m)") p then with_flags {| multi_line := true; any_case := false |} (skipn 4 p)
  else if starts_with (txt "(?i)") p then with_flags {| multi_line := false; any_case := true |} (skipn 4 p)
  else with_flags {| multi_line := false; any_case := false |} p.

(** * Engines *)
(** [compile] is [Regex::new]; the function it gives is [is_match], a failure at run time (the
    limit on backtracking) being read as "no match", as every caller does.  The limits of the
    engine on the size and the nesting of a pattern are left out. *)
Record engine := { e_fold : Z -> Z; e_word : Z -> bool; compile : text -> option (text -> bool) }.
Definition faithful (E : engine) : Prop :=
  forall p fl r, parse p = Some (fl, r) ->
    exists f, compile E p = Some f /\ forall s, f s = true <-> found (e_fold E) (e_word E) fl r s.
