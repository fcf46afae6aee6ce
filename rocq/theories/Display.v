(** What colgrep prints of the results: the lines of a unit around its matches, results by file, and
    the compact listing.  Plain output (no colours); line numbers are not padded. *)
From Verif Require Import Base Text FtsRank Regex Pattern Results.
Open Scope nat_scope.

(** usize arithmetic: [word] is the number of values of usize; a sum that is too large wraps around
    in a release build and panics in a debug build ([checked]). *)
Record machine := { word : nat; checked : bool }.
Definition usize_max (M : machine) : nat := word M - 1.
Definition add (M : machine) (a b : nat) : res nat :=
  if a + b <? word M then Ok (a + b) else if checked M then Panic else Ok (a + b - word M).
(** [&lines[a..b]] *)
Definition slice (ls : list text) (a b : nat) : res (list text) :=
  if (b <? a) || (length ls <? b) then Panic else Ok (firstn (b - a) (skipn a ls)).

(** ** calc_display_ranges
    colgrep/src/display.rs 366-438.  The third sum (line 409) cannot be too large: the context is at
    most half of usize::MAX and the line is in the file. *)
Section Ranges.
  Variable M : machine.
  Definition range_of (half min_start unit_end m : nat) : nat * nat :=
    (Nat.max (m - 1 - half) min_start, Nat.min (m - 1 + half + 1) unit_end).
  (** 414-426: the range that is being extended is the last of [merged] *)
  Fixpoint merge_from (cur : nat * nat) (l : list (nat * nat)) : list (nat * nat) :=
    match l with
    | [] => [cur]
    | (s, e) :: l' => if s <=? snd cur then merge_from (fst cur, Nat.max (snd cur) e) l' else cur :: merge_from (s, e) l'
    end.
  Definition merge_ranges (l : list (nat * nat)) : list (nat * nat) :=
    match l with [] => [] | r :: l' => merge_from r l' end.
  Definition from_the_start (unit_start unit_end max_lines : nat) : res (list (nat * nat)) :=
    bind (add M (unit_start - 1) max_lines) (fun e => Ok [(unit_start - 1, Nat.min unit_end e)]).
  Definition calc_display_ranges (matches : list nat) (unit_start unit_end half max_lines : nat) (include_signature : bool) : res (list (nat * nat)) :=
    match matches with
    | [] => from_the_start unit_start unit_end max_lines
    | _ =>
        match isort Nat.leb (filter (fun l => (unit_start <=? l) && (l <=? unit_end)) matches) with
        | [] => from_the_start unit_start unit_end max_lines
        | ms =>
            let signature := unit_start - 1 in
            let merged := merge_ranges (map (range_of half (if include_signature then signature else 0) unit_end) ms) in
            Ok (if include_signature then
                  match merged with
                  | first :: _ => if signature <? fst first then (signature, Nat.min (signature + 2) (fst first)) :: merged else merged
                  | [] => merged
                  end
                else merged)
        end
    end.
End Ranges.

(** ** print_plain_ranges, print_highlighted_content (without colours)
    display.rs 470-508, 576-600; MAX_LINE_WIDTH: line 13 *)
Inductive item := Shown (number : nat) (line : text) | Dots.
Definition max_line_width := 400.
Definition cut_at (width : nat) (s : text) : text := if length s <=? width then s else firstn width s ++ txt "...".
Definition print_lines (first : nat) (ls : list text) : list item :=
  map (fun p => Shown (fst p) (cut_at max_line_width (snd p))) (combine (seq first (length ls)) ls).
Fixpoint print_ranges (ls : list text) (unit_end : nat) (ranges : list (nat * nat)) : res (list item) :=
  match ranges with
  | [] => Ok []
  | (s, e) :: rest =>
      let display_end := Nat.min e (length ls) in
      let display_start := Nat.min s (length ls) in
      if length ls <=? display_start then print_ranges ls unit_end rest
      else
        bind (slice ls display_start display_end) (fun part =>
        bind (print_ranges ls unit_end rest) (fun more =>
          Ok (print_lines (display_start + 1) part
              ++ (if match rest with [] => false | _ => true end || (display_end <? unit_end) then [Dots] else []) ++ more)))
  end.
Definition print_content (M : machine) (ls : list text) (start max_lines unit_end : nat) : res (list item) :=
  let display_end := Nat.min unit_end (Nat.min (start + max_lines) (usize_max M)) in
  bind (slice ls start display_end) (fun part => Ok (print_lines (start + 1) part ++ (if display_end <? unit_end then [Dots] else []))).

(** ** One result in verbose mode
    colgrep/src/commands/search.rs 768-858 (code) and 868-950 (text), which differ in the limit.
    [representative] is find_representative_lines (display.rs 294-360) of this unit and query. *)
Section Result.
  Variable M : machine.
  Variable lower : text -> text.
  Variable pattern : option matcher.
  Variable query : matcher.
  Variable case_sensitive : bool.
  Variable representative : cunit -> list nat.
  Variables (show_content : bool) (context_lines : nat).
  Definition matches_in_unit (m : matcher) (u : cunit) : list nat := map fst (find_matches lower m case_sensitive (u_line u) (u_code u)).
  Definition show_result (ls : list text) (u : cunit) : res (list item) :=
    let unit_end := Nat.min (u_end u) (length ls) in
    let max_lines := if show_content then (if u_text_format u then 250 else usize_max M) else context_lines in
    let show ms := bind (calc_display_ranges M ms (u_line u) unit_end (context_lines / 2) max_lines true) (print_ranges ls unit_end) in
    match pattern with
    | Some m => show (matches_in_unit m u)
    | None =>
        match matches_in_unit query u with
        | (_ :: _) as ms => show ms
        | [] => match representative u with
                | (_ :: _) as ms => show ms
                | [] => if u_line u - 1 <? length ls then print_content M ls (u_line u - 1) max_lines unit_end else Ok []
                end
        end
    end.
End Result.

(** ** group_results_by_file
    display.rs 646-672; the hash map is only looked up and taken from, so its order plays no role *)
Section Groups.
  Variable A : arith.
  Fixpoint files_of (seen : list text) (l : list (hit A)) : list text :=
    match l with
    | [] => []
    | h :: l' => let f := u_file (h_unit A h) in if existsb (text_eqb f) seen then files_of seen l' else f :: files_of (f :: seen) l'
    end.
  Definition group_results_by_file (l : list (hit A)) : list (text * list (hit A)) :=
    map (fun f => (f, isort (fun a b => u_line (h_unit A a) <=? u_line (h_unit A b)) (filter (fun h => text_eqb (u_file (h_unit A h)) f) l))) (files_of [] l).
  (** search.rs 750-755: code first *)
  Definition code_then_text (l : list (hit A)) : list (text * list (hit A)) :=
    group_results_by_file (filter (fun h => negb (u_text_format (h_unit A h))) l)
    ++ group_results_by_file (filter (fun h => u_text_format (h_unit A h)) l).

  (** ** The compact listing with -e
      search.rs 664-711, 178-229 [find_matches_in_file]; [disk] gives the content of a file that can
      be read; a printed line is file, number, text *)
  Variable lower : text -> text.
  Variable disk : text -> option text.
  Variable ws : Z -> bool.
  Definition compact (m : matcher) (case_sensitive : bool) (l : list (hit A)) : list (text * nat * text) :=
    flat_map (fun f => match disk f with
        | Some s => map (fun p => (f, fst p, cut_at 120 (trim ws (snd p)))) (find_matches lower m case_sensitive 1 s)
        | None => []
        end) (files_of [] l).
End Groups.
