(** C93: what the command prints of its results. *)
From Verif Require Import Base Text FtsRank Regex RegexProofs Glob GlobProofs Pattern PropsPattern Results ResultsExamples.
From Verif Require Import Display DisplaySpec DisplayProofs DisplayGroups.
Open Scope nat_scope.

(** The lines the display looks at: the matches of -e, else those of the query, else the
    representative lines. *)
Definition lines_sought (lower : text -> text) pattern query cs (rep : cunit -> list nat) (u : cunit) : list nat :=
  match pattern with
  | Some m => map fst (find_matches lower m cs (u_line u) (u_code u))
  | None => match map fst (find_matches lower query cs (u_line u) (u_code u)) with [] => rep u | ms => ms end
  end.
Definition line_limit (M : machine) (show_content : bool) (context_lines : nat) (u : cunit) : nat :=
  if show_content then (if u_text_format u then 250 else word M - 1) else context_lines.

(** If one of them lies in the unit, the output is exactly the lines of the unit around them and its
    head, each once and in order, as they stand in the file. *)
Theorem C93_around_the_matches : forall M lower pattern query cs rep show_content context ls u,
  1 <= u_line u ->
  let last := Nat.min (u_end u) (length ls) in
  let sought := lines_sought lower pattern query cs rep u in
  (exists m, In m sought /\ u_line u <= m <= last) ->
  exists out, show_result M lower pattern query cs rep show_content context ls u = Ok out /\
    shows ls (wanted_lines sought (u_line u) last (context / 2)) out.
Proof.
  intros M lower pattern query cs rep show_content context ls u F last sought H.
  set (mx := line_limit M show_content context u).
  destruct (calc_found (u_line u) last (context / 2) F M sought mx H) as (rs & E & AP & W).
  assert (B : forall i, covered rs i -> i < length ls).
  { intros i K. assert (K' : 1 <= i + 1 /\ covered rs (i + 1 - 1)) by (split; [lia|replace (i + 1 - 1) with i by lia; exact K]).
    apply W in K'. destruct K' as (K' & _). unfold last in K'. lia. }
  destruct (print_ranges_spec ls last rs AP B) as (out & EP & R & S1). exists out. split.
  - assert (G : bind (calc_display_ranges M sought (u_line u) last (context / 2) mx true) (print_ranges ls last) = Ok out) by (rewrite E; exact EP).
    unfold show_result. fold last. change (usize_max M) with (word M - 1). fold (line_limit M show_content context u). fold mx. unfold sought, lines_sought in G, H. unfold matches_in_unit.
    destruct pattern as [m|]; [exact G|]. destruct (map fst (find_matches lower query cs (u_line u) (u_code u))) as [|a l]; [|exact G].
    destruct (rep u) as [|a l]; [destruct H as (m & [] & _)|exact G].
  - split; [exact R|]. intros n t. rewrite S1, W. reflexivity.
Qed.
Print Assumptions C93_around_the_matches.

(** So every match in the unit is shown, with the first line of the unit. *)
Theorem C93_matches_shown : forall M lower pattern query cs rep show_content context ls u m,
  1 <= u_line u -> In m (lines_sought lower pattern query cs rep u) -> u_line u <= m <= u_end u -> m <= length ls ->
  exists out, show_result M lower pattern query cs rep show_content context ls u = Ok out /\
    (exists s, nth_error ls (m - 1) = Some s /\ In (Shown m (cut_at 400 s)) out) /\
    (exists s, nth_error ls (u_line u - 1) = Some s /\ In (Shown (u_line u) (cut_at 400 s)) out).
Proof.
  intros M lower pattern query cs rep show_content context ls u m F K B L.
  destruct (C93_around_the_matches M lower pattern query cs rep show_content context ls u F) as (out & E & _ & S1); [exists m; split; [exact K|lia]|].
  exists out. split; [exact E|].
  assert (G : forall n, 1 <= n <= length ls -> wanted_lines (lines_sought lower pattern query cs rep u) (u_line u) (Nat.min (u_end u) (length ls)) (context / 2) n ->
    exists s, nth_error ls (n - 1) = Some s /\ In (Shown n (cut_at 400 s)) out).
  { intros n N Wn. destruct (nth_error ls (n - 1)) as [s|] eqn:Q; [|apply nth_error_None in Q; lia]. exists s. split; [reflexivity|].
    apply S1. split; [exact Wn|]. split; [lia|]. exists s. auto. }
  split; apply G; try lia; (split; [lia|]).
  - left. exists m. split; [exact K|]. lia.
  - right. left. reflexivity.
Qed.
Print Assumptions C93_matches_shown.

(** If none does, the output is the beginning of the unit up to the limit, provided the sum of line
    and limit is a usize. *)
Theorem C93_from_the_start : forall M lower pattern query cs rep show_content context ls u,
  1 <= u_line u -> u_line u <= u_end u -> length ls < word M ->
  let last := Nat.min (u_end u) (length ls) in
  let limit := line_limit M show_content context u in
  (forall m, In m (lines_sought lower pattern query cs rep u) -> ~ u_line u <= m <= last) ->
  u_line u - 1 + limit < word M ->
  exists out, show_result M lower pattern query cs rep show_content context ls u = Ok out /\
    shows ls (fun n => u_line u <= n <= last /\ n < u_line u + limit) out.
Proof.
  intros M lower pattern query cs rep show_content context ls u F FE LW last limit N SUM.
  assert (EMPTY : length ls <= u_line u - 1 -> shows ls (fun n => u_line u <= n <= last /\ n < u_line u + limit) []).
  { intros L. split; [constructor|]. intros n t. split; [intros []|]. intros (K & _). unfold last in K. lia. }
  assert (PART : u_line u - 1 < length ls -> forall d, d = Nat.min last (u_line u - 1 + limit) -> exists part, slice ls (u_line u - 1) d = Ok part /\
    forall b : bool, shows ls (fun n => u_line u <= n <= last /\ n < u_line u + limit) (print_lines (u_line u - 1 + 1) part ++ (if b then [Dots] else []))).
  { intros L d ->. destruct (slice_ok ls (u_line u - 1) (Nat.min last (u_line u - 1 + limit))) as (part & E & LP & NP); [unfold last; lia|unfold last; lia|].
    exists part. split; [exact E|]. intros b. split.
    - rewrite numbers_app, print_lines_numbers. replace (numbers (if b then [Dots] else [])) with (@nil nat) by (destruct b; reflexivity). rewrite app_nil_r. apply rising_seq.
    - intros n t. rewrite in_app_iff, print_lines_In. split.
      + intros [(i & s & -> & K & ->)|K]; [|destruct b; cbn in K; intuition discriminate].
        assert (I : i < length part) by (apply nth_error_Some; rewrite K; discriminate). split; [lia|]. split; [lia|]. exists s. split; [|reflexivity].
        rewrite <- K, NP by lia. f_equal. lia.
      + intros (K & _ & s & Q & ->). left. exists (n - u_line u), s. split; [lia|]. split; [|reflexivity]. rewrite NP by lia. rewrite <- Q. f_equal. lia. }
  assert (G : forall ms, (forall m, In m ms -> ~ u_line u <= m <= last) ->
    exists out, bind (calc_display_ranges M ms (u_line u) last (context / 2) limit true) (print_ranges ls last) = Ok out /\
      shows ls (fun n => u_line u <= n <= last /\ n < u_line u + limit) out).
  { intros ms NM. rewrite (calc_none (u_line u) last (context / 2) M ms limit NM). unfold from_the_start, add.
    replace (u_line u - 1 + limit <? word M) with true by lia. cbn [bind print_ranges].
    destruct (Nat.leb_spec (length ls) (u_line u - 1)) as [L|L].
    - replace (Nat.min (u_line u - 1) (length ls)) with (length ls) by lia. rewrite Nat.leb_refl. exists []. split; [reflexivity|]. apply EMPTY. exact L.
    - replace (Nat.min (u_line u - 1) (length ls)) with (u_line u - 1) by lia. replace (length ls <=? u_line u - 1) with false by lia.
      destruct (PART L _ eq_refl) as (part & E & SH). replace (Nat.min (Nat.min last (u_line u - 1 + limit)) (length ls)) with (Nat.min last (u_line u - 1 + limit)) by (unfold last; lia).
      rewrite E. cbn [bind orb app]. eexists. split; [reflexivity|]. rewrite app_nil_r. apply SH. }
  unfold show_result. fold last. change (usize_max M) with (word M - 1). fold (line_limit M show_content context u). fold limit. unfold lines_sought in N. unfold matches_in_unit.
  destruct pattern as [m|]; [apply G; exact N|]. destruct (map fst (find_matches lower query cs (u_line u) (u_code u))) as [|a l]; [|apply G; exact N].
  destruct (rep u) as [|a l]; [|apply G; exact N]. destruct (u_line u - 1 <? length ls) eqn:L; [|exists []; split; [reflexivity|apply EMPTY; lia]].
  apply Nat.ltb_lt in L. destruct (PART L _ eq_refl) as (part & E & SH). unfold print_content. change (usize_max M) with (word M - 1).
  replace (Nat.min last (Nat.min (u_line u - 1 + limit) (word M - 1))) with (Nat.min last (u_line u - 1 + limit)) by (unfold last; lia).
  rewrite E. cbn [bind]. eexists. split; [reflexivity|]. apply SH.
Qed.
Print Assumptions C93_from_the_start.

(** Results by file: every result is shown once, under its file; the files in the order of their
    best results, the results of a file by line; code before text. *)
Theorem C93_results_by_file : forall A (l : list (hit A)),
  let groups := group_results_by_file A l in
  NoDup (map fst groups) /\ by_first (map fst groups) l /\ Permutation (flat_map snd groups) l /\
  Permutation (flat_map snd (code_then_text A l)) l /\
  forall f hs, In (f, hs) groups ->
    (forall h, In h hs <-> In h l /\ file_of h = f) /\ hs <> [] /\ StronglySorted (fun a b => u_line (h_unit A a) <= u_line (h_unit A b)) hs.
Proof.
  intros A l groups. assert (MF : map fst groups = files_of A [] l) by (unfold groups, group_results_by_file; rewrite map_map; apply map_id).
  split; [rewrite MF; apply files_once|]. split; [rewrite MF; apply files_order|]. split; [apply groups_perm|]. split.
  - unfold code_then_text. rewrite flat_map_app. transitivity (filter (fun h => negb (u_text_format (h_unit A h))) l ++ filter (fun h => u_text_format (h_unit A h)) l).
    + apply Permutation_app; apply groups_perm.
    + rewrite (filter_split A (fun h => u_text_format (h_unit A h)) l) at 3. apply Permutation_app_comm.
  - intros f hs K. unfold groups, group_results_by_file in K. apply in_map_iff in K. destruct K as (g & E & K). injection E as -> <-.
    assert (MEM : forall h, In h (isort (fun a b => u_line (h_unit A a) <=? u_line (h_unit A b)) (filter (fun h => text_eqb (u_file (h_unit A h)) f) l)) <-> In h l /\ file_of h = f).
    { intros h. rewrite isort_In, filter_In, text_eqb_eq. reflexivity. }
    split; [exact MEM|]. split.
    + apply files_In in K. destruct K as ((h & K & F) & _). intros Q. pose proof (proj2 (MEM h) (conj K F)) as X. rewrite Q in X. destruct X.
    + pose proof (isort_sorted (fun a b => u_line (h_unit A a) <=? u_line (h_unit A b))) as SS.
      specialize (SS ltac:(intros a b; destruct (Nat.leb_spec (u_line (h_unit A a)) (u_line (h_unit A b))); [left|right]; apply Nat.leb_le; lia)).
      specialize (SS ltac:(intros a b c X Y; apply Nat.leb_le in X, Y; apply Nat.leb_le; lia) (filter (fun h => text_eqb (u_file (h_unit A h)) f) l)).
      clear - SS. induction SS as [|a m S1 IH F]; constructor; [exact IH|]. eapply Forall_impl; [|exact F]. intros b X. apply Nat.leb_le. exact X.
Qed.
Print Assumptions C93_results_by_file.

(** The compact listing of -e: of each file with a result that can be read all matching lines, by
    number; the files in the order of their best results. *)
Definition listed_file (x : text * nat * text) : text := fst (fst x).
Theorem C93_compact : forall A lower disk ws m cs (l : list (hit A)), let out := compact A lower disk ws m cs l in
  (forall f, (exists h, In h l /\ file_of h = f) ->
    filter (fun x => text_eqb (listed_file x) f) out =
    map (fun p => (f, fst p, cut_at 120 (trim ws (snd p)))) (match disk f with Some s => find_matches lower m cs 1 s | None => [] end)) /\
  (forall x, In x out -> exists h, In h l /\ file_of h = listed_file x) /\
  (forall x y, before x y out -> listed_file x <> listed_file y ->
    exists a h b, l = a ++ h :: b /\ file_of h = listed_file x /\ forall k, In k a -> file_of k <> listed_file x /\ file_of k <> listed_file y).
Proof.
  intros A lower disk ws m cs l out.
  set (part := fun f => map (fun p => (f, fst p, cut_at 120 (trim ws (snd p)))) (match disk f with Some s => find_matches lower m cs 1 s | None => [] end)).
  assert (EO : out = flat_map part (files_of A [] l)).
  { unfold out, compact. apply flat_map_ext. intros f. unfold part. destruct (disk f); reflexivity. }
  assert (PF : forall f x, In x (part f) -> listed_file x = f).
  { intros f x K. unfold part in K. apply in_map_iff in K. destruct K as (p & <- & _). reflexivity. }
  assert (P1 : forall f, filter (fun x => text_eqb (listed_file x) f) (part f) = part f).
  { intros f. pose proof (PF f) as Q. induction (part f) as [|x xs IH]; [reflexivity|]. cbn [filter]. rewrite (Q x (or_introl eq_refl)), (proj2 (text_eqb_eq f f) eq_refl).
    f_equal. apply IH. intros y Y. apply Q. right. exact Y. }
  assert (P2 : forall f g, g <> f -> filter (fun x => text_eqb (listed_file x) f) (part g) = []).
  { intros f g N. pose proof (PF g) as Q. induction (part g) as [|x xs IH]; [reflexivity|]. cbn [filter]. rewrite (Q x (or_introl eq_refl)).
    destruct (text_eqb g f) eqn:E; [apply text_eqb_eq in E; contradiction|]. apply IH. intros y Y. apply Q. right. exact Y. }
  assert (P3 : forall f fs, ~ In f fs -> filter (fun x => text_eqb (listed_file x) f) (flat_map part fs) = []).
  { intros f fs N. induction fs as [|g fs IH]; [reflexivity|]. cbn [flat_map]. rewrite filter_app, IH by (intros K; apply N; right; exact K).
    rewrite P2 by (intros ->; apply N; left; reflexivity). reflexivity. }
  split; [|split].
  - intros f H. assert (K : In f (files_of A [] l)) by (apply files_In; split; [exact H|intros []]). pose proof (files_once A l []) as N. rewrite EO. clear EO.
    induction (files_of A [] l) as [|g fs IH]; [destruct K|]. inversion N as [|? ? N1 N2]; subst. cbn [flat_map]. rewrite filter_app.
    destruct (text_dec g f) as [->|Q]; [rewrite P1, P3 by exact N1; apply app_nil_r|]. rewrite (P2 f g Q). cbn [app]. apply IH; [destruct K as [K|K]; [contradiction|exact K]|exact N2].
  - intros x K. rewrite EO in K. apply in_flat_map in K. destruct K as (f & K & X). apply PF in X. rewrite X. apply files_In in K. apply K.
  - intros x y B NE. rewrite EO in B. apply (files_order A l []). clear - B NE PF.
    induction (files_of A [] l) as [|f fs IH]; [destruct B as (a & b & c & E); destruct a; discriminate|]. cbn [flat_map] in B.
    destruct B as (a & b & c & E). assert (CASE : In x (part f) \/ before x y (flat_map part fs)).
    { clear IH PF NE. revert a E. induction (part f) as [|z zs IHz]; intros a E; [right; exists a, b, c; exact E|]. destruct a as [|w a]; cbn in E; injection E as -> E.
      - left. left. reflexivity.
      - destruct (IHz a E) as [K|K]; [left; right; exact K|right; exact K]. }
    assert (XY : In y (part f ++ flat_map part fs)) by (rewrite E; apply in_or_app; right; right; apply in_or_app; right; left; reflexivity).
    destruct CASE as [K|K].
    + apply in_app_or in XY. apply PF in K. destruct XY as [Y|Y]; [apply PF in Y; congruence|]. apply in_flat_map in Y. destruct Y as (g & G & Y). apply PF in Y.
      apply in_split in G. destruct G as (p & q & ->). exists [], p, q. rewrite K, Y. reflexivity.
    + destruct (IH K) as (p & q & r & ->). exists (f :: p), q, r. reflexivity.
Qed.
Print Assumptions C93_compact.

(** ** Refuted *)
(** With -c the limit is usize::MAX: if no line of the unit matches and it does not begin at the top of
    the file, the sum wraps around and the slice panics (in a debug build the sum does). *)
Theorem C93_content_panics_refuted :
  (forall M lower m query cs rep context ls u, 1 < u_line u -> u_line u <= u_end u -> u_line u <= length ls -> length ls < word M -> u_text_format u = false ->
    (forall n, In n (lines_sought lower (Some m) query cs rep u) -> ~ u_line u <= n <= Nat.min (u_end u) (length ls)) ->
    show_result M lower (Some m) query cs rep true context ls u = Panic) /\
  let p := txt "x[0]" in let code := txt "y = x[0]" in
  let u := {| u_file := txt "a.py"; u_line := 2; u_end := 2; u_name := txt "y"; u_definition := true; u_text_format := false; u_code := code |} in
  (exists ids, filter_by_text_pattern fragment_engine (fun l => l) [(1%Z, code)] p true false false false = Ok ids /\ In 1%Z ids) /\
  forall M, 10 < word M -> forall query rep context,
    show_result M (map to_lower1) (Some (new_matcher fragment_engine (map to_lower1) p true false false false)) query false rep true context [txt "import z"; code] u = Panic.
Proof.
  assert (G : forall M lower m query cs rep context ls u, 1 < u_line u -> u_line u <= u_end u -> u_line u <= length ls -> length ls < word M -> u_text_format u = false ->
    (forall n, In n (lines_sought lower (Some m) query cs rep u) -> ~ u_line u <= n <= Nat.min (u_end u) (length ls)) ->
    show_result M lower (Some m) query cs rep true context ls u = Panic).
  { intros M lower m query cs rep context ls u F FE FL LW TF N. unfold show_result. rewrite TF. unfold matches_in_unit. cbn [lines_sought] in N.
    rewrite (calc_none _ _ _ M _ (usize_max M) N). unfold from_the_start, add, usize_max. replace (u_line u - 1 + (word M - 1) <? word M) with false by lia.
    destruct (checked M); [reflexivity|]. cbn [bind print_ranges]. replace (Nat.min (u_line u - 1) (length ls)) with (u_line u - 1) by lia.
    replace (length ls <=? u_line u - 1) with false by lia. unfold slice at 1.
    match goal with |- context [if (?a <? ?b) || _ then _ else _] => replace (a <? b) with true by lia end. reflexivity. }
  split; [exact G|]. cbv zeta. split; [exists [1%Z]; split; [vm_compute; reflexivity|left; reflexivity]|].
  intros M W query rep context. apply G; cbn [u_line u_end length u_text_format]; try lia; try reflexivity. intros n K. vm_compute in K. destruct K.
Qed.
Print Assumptions C93_content_panics_refuted.

(** -c is documented to show the full content; where a line matches, it shows the lines around the
    matches only. *)
Definition long_unit : cunit :=
  {| u_file := txt "a.py"; u_line := 1; u_end := 5; u_name := txt "f"; u_definition := true; u_text_format := false;
     u_code := txt "def f():" ++ [10%Z] ++ txt " a()" ++ [10%Z] ++ txt " b()" ++ [10%Z] ++ txt " c()" ++ [10%Z] ++ txt " d()" |}.
Theorem C93_full_content_refuted : ~ (forall M lower query rep context ls u out, 1 <= u_line u -> u_end u <= length ls -> length ls < word M ->
  show_result M lower None query false rep true context ls u = Ok out ->
  forall n, u_line u <= n <= u_end u -> exists t, In (Shown n t) out).
Proof.
  intros H. pose (M := {| word := 1000; checked := false |}).
  destruct (H M (map to_lower1) (ByLiteral (txt "c()")) (fun _ => []) 0 (lines (u_code long_unit)) long_unit
    [Shown 1 (txt "def f():"); Shown 2 (txt " a()"); Dots; Shown 4 (txt " c()"); Dots]) with (n := 3) as (t & K).
  - vm_compute. auto.
  - vm_compute. auto.
  - vm_compute. repeat constructor.
  - vm_compute. reflexivity.
  - cbn. lia.
  - cbn in K. repeat (destruct K as [K|K]; [discriminate|]). destruct K.
Qed.
Print Assumptions C93_full_content_refuted.

(** A result stands for all units of its file that were found, with the first line of all and the code
    of the best: the lines that match in this code are counted from the wrong line, and lines that do
    not match are shown in their place. *)
Definition one_liner (n : nat) (code : text) (score : Z) : hit zarith :=
  Build_hit zarith {| u_file := txt "a.py"; u_line := n; u_end := n; u_name := txt "f"; u_definition := true; u_text_format := false; u_code := code |} (ZFin score).
Theorem C93_merged_unit_refuted : exists (A : arith) (best other r : hit A) ls query out,
  collapse_by_file A [best; other] 1 = [r] /\
  (forall h, h = best \/ h = other -> file_of h = file_of r /\ u_end (h_unit A h) = u_line (h_unit A h) /\ nth_error ls (u_line (h_unit A h) - 1) = Some (u_code (h_unit A h))) /\
  (forall n s, nth_error ls n = Some s -> (contains query s = true <-> n = 2)) /\
  show_result {| word := 1000; checked := false |} (fun t => t) None (ByLiteral query) true (fun _ => []) false 1 ls (h_unit A r) = Ok out /\
  (exists t, In (Shown 1 t) out) /\ ~ (exists t, In (Shown 3 t) out).
Proof.
  exists zarith, (one_liner 3 (txt "x = open()") 2), (one_liner 1 (txt "import os") 1), (with_lines zarith (one_liner 3 (txt "x = open()") 2) 1 3).
  exists [txt "import os"; txt "y = 0"; txt "x = open()"], (txt "open"), [Shown 1 (txt "import os"); Dots].
  split; [vm_compute; reflexivity|]. split.
  { intros h [-> | ->]; vm_compute; auto. }
  split.
  { intros n s K. destruct n as [|[|[|n]]]; cbn in K; try (injection K as <-).
    - vm_compute. split; discriminate.
    - vm_compute. split; discriminate.
    - vm_compute. split; reflexivity.
    - destruct n; discriminate. }
  split; [vm_compute; reflexivity|]. split; [exists (txt "import os"); left; reflexivity|]. intros (t & [K|[K|[]]]); discriminate.
Qed.
Print Assumptions C93_merged_unit_refuted.

(** ** Beside the theorems: a unit of five lines with a match on the fourth, two files *)
Example C93_example :
  let M := {| word := 1000; checked := true |} in
  let ls := lines (u_code long_unit) in
  let show q context := show_result M (map to_lower1) None (ByLiteral q) false (fun _ => []) false context ls long_unit in
  lines_sought (map to_lower1) None (ByLiteral (txt "c()")) false (fun _ => []) long_unit = [4] /\
  show (txt "c()") 0 = Ok [Shown 1 (txt "def f():"); Shown 2 (txt " a()"); Dots; Shown 4 (txt " c()"); Dots] /\
  show (txt "c()") 2 = Ok [Shown 1 (txt "def f():"); Shown 2 (txt " a()"); Dots; Shown 3 (txt " b()"); Shown 4 (txt " c()"); Shown 5 (txt " d()")] /\
  show (txt "absent") 2 = Ok [Shown 1 (txt "def f():"); Shown 2 (txt " a()"); Dots] /\
  line_limit M false 2 long_unit = 2 /\
  map fst (group_results_by_file zarith [one_liner 3 (txt "b") 3; one_liner 1 (txt "a") 2]) = [txt "a.py"] /\
  flat_map snd (code_then_text zarith [one_liner 3 (txt "b") 3; one_liner 1 (txt "a") 2]) = [one_liner 1 (txt "a") 2; one_liner 3 (txt "b") 3] /\
  compact zarith (map to_lower1) (fun f => if text_eqb f (txt "a.py") then Some (u_code long_unit) else None) (fun c => (c =? 32)%Z) (ByLiteral (txt "()")) false
    [one_liner 3 (txt "b") 3; one_liner 1 (txt "a") 2]
  = map (fun p => (txt "a.py", fst p, snd p)) [(1, txt "def f():"); (2, txt "a()"); (3, txt "b()"); (4, txt "c()"); (5, txt "d()")].
Proof. vm_compute. repeat split. Qed.
