(** The text patterns of colgrep's option -e: from the pattern typed to the regular expression,
    the selection of units, and the lines shown. *)
From Verif Require Import Base Text Regex Glob.
Open Scope nat_scope.

(** ** bre_to_ere
    colgrep/src/index/mod.rs 3143-3262.  [mark_pairs] gives the positions of the backslashes of
    paired delimiters (the entries of [convert] it sets). *)
Fixpoint mark_pairs (opening closing : Z) (s : text) (i : nat) (stack : list nat) : list nat :=
  match s with
  | [] => []
  | c :: s1 =>
      if (c =? ch "\")%Z then
        match s1 with
        | d :: s2 =>
            if (d =? ch "\")%Z then mark_pairs opening closing s2 (i + 2) stack
            else if (d =? opening)%Z then mark_pairs opening closing s2 (i + 2) (i :: stack)
            else if (d =? closing)%Z then
              match stack with
              | o :: stack' => o :: i :: mark_pairs opening closing s2 (i + 2) stack'
              | [] => mark_pairs opening closing s2 (i + 2) []
              end
            else mark_pairs opening closing s2 (i + 2) stack
        | [] => []
        end
      else mark_pairs opening closing s1 (S i) stack
  end.
(** The forward pass; [empty]: nothing has been written yet; [skip] is [skip_close_brace]. *)
Fixpoint forward (convert : nat -> bool) (s : text) (i : nat) (empty : bool) (skip : nat) : text :=
  match s with
  | [] => []
  | c :: s1 =>
      if negb (c =? ch "\")%Z then c :: forward convert s1 (S i) false skip
      else match s1 with
           | [] => [c]
           | d :: s2 =>
               if (d =? ch "\")%Z then ch "\" :: ch "\" :: forward convert s2 (i + 2) false skip
               else if (d =? ch "|")%Z then ch "|" :: forward convert s2 (i + 2) false skip
               else if zmem d (txt "+?") then ch "\" :: d :: forward convert s2 (i + 2) false skip
               else if zmem d (txt "()") && convert i then d :: forward convert s2 (i + 2) false skip
               else if (d =? ch "{")%Z && convert i then
                 if empty then ch "\" :: ch "{" :: forward convert s2 (i + 2) false (S skip)
                 else ch "{" :: forward convert s2 (i + 2) false skip
               else if (d =? ch "}")%Z && convert i then
                 match skip with
                 | S skip' => ch "\" :: ch "}" :: forward convert s2 (i + 2) false skip'
                 | 0 => ch "}" :: forward convert s2 (i + 2) false skip
                 end
               else ch "\" :: d :: forward convert s2 (i + 2) false skip
           end
  end.
Definition bre_to_ere (p : text) : text :=
  let marked := mark_pairs (ch "(") (ch ")") p 0 [] ++ mark_pairs (ch "{") (ch "}") p 0 [] in
  forward (fun i => existsb (Nat.eqb i) marked) p 0 true 0.

(** ** find_matching_brace, is_valid_quantifier, escape_literal_braces
    mod.rs 3264-3410.  [closing]: what stands between the brace just read and its closing brace. *)
Fixpoint closing (s : text) : option text :=
  match s with
  | [] => None
  | c :: s' => if (c =? ch "}")%Z then Some [] else if (c =? ch "{")%Z then None
               else match closing s' with Some b => Some (c :: b) | None => None end
  end.
(** A third part holds a comma in the second one, which then is not made of digits. *)
Definition is_valid_quantifier (b : text) : bool :=
  match find_char (ch ",") b with
  | None => negb (text_eqb b []) && forallb a_digit b
  | Some (x, y) => forallb a_digit x && forallb a_digit y && (negb (text_eqb x []) || negb (text_eqb y []))
  end.
(** [prev]: the character before; [copy]: how many characters of a quantifier are still to be
    copied. *)
Fixpoint escape_braces (prev : Z) (s : text) (in_class : bool) (copy : nat) : text :=
  match s with
  | [] => []
  | c :: s1 =>
      match copy with
      | S copy' => c :: escape_braces c s1 in_class copy'
      | 0 =>
          if (c =? ch "[")%Z && negb (prev =? ch "\")%Z then c :: escape_braces c s1 true 0
          else if (c =? ch "]")%Z && in_class && negb (prev =? ch "\")%Z then c :: escape_braces c s1 false 0
          else if in_class then c :: escape_braces c s1 in_class 0
          else if (c =? ch "\")%Z then
            match s1 with
            | d :: s2 => if zmem d (txt "{}") then ch "[" :: d :: ch "]" :: escape_braces d s2 in_class 0
                         else ch "\" :: d :: escape_braces d s2 in_class 0
            | [] => [c]
            end
          else if (c =? ch "{")%Z then
            match closing s1 with
            | Some b => if is_valid_quantifier b then c :: escape_braces c s1 in_class (S (length b))
                        else txt "[{]" ++ escape_braces c s1 in_class 0
            | None => txt "[{]" ++ escape_braces c s1 in_class 0
            end
          else if (c =? ch "}")%Z then txt "[}]" ++ escape_braces c s1 in_class 0
          else c :: escape_braces c s1 in_class 0
      end
  end.
(** Before the first character there is none, in particular no backslash. *)
Definition escape_literal_braces (p : text) : text := escape_braces 0%Z p false 0.

(** ** filter_by_text_pattern_with_options
    mod.rs 3893-3985.  A row is a document id and its [code]. *)
Section Select.
  Variable E : engine.
  (** The order in which a HashSet gives back its elements. *)
  Variable hash_order : list Z -> list Z.
  Definition regexp (rows : list row) (p : text) : option (list Z) :=
    match compile E p with Some f => Some (map fst (filter (fun r => f (snd r)) rows)) | None => None end.
  Definition filter_by_text_pattern (rows : list row) (p : text) (extended fixed word case_sensitive : bool) : res (list Z) :=
    match p with
    | [] => Ok []
    | _ =>
        let fixed_pattern := if word then txt "\b" ++ escape p ++ txt "\b" else escape p in
        if fixed then match regexp rows fixed_pattern with Some l => Ok l | None => Err end
        else
          let fl := if case_sensitive then txt "(?m)" else txt "(?mi)" in
          let regex_pattern :=
            if word then fl ++ txt "\b" ++ escape_literal_braces (bre_to_ere p) ++ txt "\b"
            else if extended then fl ++ escape_literal_braces (bre_to_ere p)
            else fl ++ escape p in
          if text_eqb regex_pattern fixed_pattern then match regexp rows regex_pattern with Some l => Ok l | None => Err end
          else
            let fixed_results := match regexp rows fixed_pattern with Some l => l | None => [] end in
            match regexp rows regex_pattern with
            | Some l => Ok (hash_order (nodup Z.eq_dec (l ++ fixed_results)))
            | None => Ok fixed_results
            end
    end.
End Select.

(** ** str::lines
    The standard library: pieces ended by a line feed, each without its line feed and a carriage
    return before it; a last piece without a line feed counts if it is not empty. *)
Definition strip_cr (l : text) : text := match rev l with c :: r => if (c =? 13)%Z then rev r else l | [] => l end.
Fixpoint lines_from (cur : text) (s : text) : list text :=
  match s with
  | [] => match cur with [] => [] | _ => [cur] end
  | c :: s' => if (c =? 10)%Z then strip_cr cur :: lines_from [] s' else lines_from (cur ++ [c]) s'
  end.
Definition lines (s : text) : list text := lines_from [] s.

(** ** PatternMatcher
    colgrep/src/commands/search.rs 26-227.  [find_matches] is find_matches_in_unit and
    find_matches_in_file, which differ in where the text and the number of its first line come
    from. *)
Section Show.
  Variable E : engine.
  Variable lower : text -> text.   (* str::to_lowercase *)
  Inductive matcher := ByRegex (source : text) (is_match : text -> bool) | ByLiteral (needle : text).
  Definition new_matcher (p : text) (extended fixed word case_sensitive : bool) : matcher :=
    let case_prefix := if case_sensitive then [] else txt "(?i)" in
    let literal := ByLiteral (if case_sensitive then p else lower p) in
    let compiled r := match compile E r with Some f => ByRegex r f | None => literal end in
    if extended && negb fixed then
      let ere := escape_literal_braces (bre_to_ere p) in
      compiled (case_prefix ++ (if word then txt "\b" ++ ere ++ txt "\b" else ere))
    else if word then compiled (case_prefix ++ txt "\b" ++ escape p ++ txt "\b")
    else literal.
  Definition holds (case_sensitive : bool) (needle line : text) : bool :=
    if case_sensitive then contains needle line else contains needle (lower line).
  Definition line_matches (m : matcher) (case_sensitive : bool) (line : text) : bool :=
    match m with ByRegex _ f => f line | ByLiteral needle => holds case_sensitive needle line end.
  Definition numbered (first : nat) (s : text) : list (nat * text) := combine (seq first (length (lines s))) (lines s).
  Definition find_matches (m : matcher) (case_sensitive : bool) (first : nat) (s : text) : list (nat * text) :=
    match filter (fun l => line_matches m case_sensitive (snd l)) (numbered first s) with
    | [] => match m with
            | ByRegex source _ =>
                filter (fun l => holds case_sensitive (if case_sensitive then source else lower source) (snd l)) (numbered first s)
            | ByLiteral _ => []
            end
    | l => l
    end.
End Show.
