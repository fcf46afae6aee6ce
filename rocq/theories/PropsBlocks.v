(** The units of text, HTML, Vue and Svelte files. *)
From Verif Require Import Base Text Calendar FtsText Units Parse ParseSpec ParseProofs ParseGaps ParseUnits Blocks BlocksSpec BlocksProofs BlocksPage BlocksUnits PropsParse.
From Verif Require Pattern.
Open Scope nat_scope.

(** C90.  A text file with a line that says something is one unit with all its lines; another file
    gives none. *)
Theorem C90_text_file_whole U path stem lang source :
  ((exists k, says_something U (file_lines source) k) ->
    exists u, extract_text_units U path stem lang source = [u] /\ cu_code u = join_lines (file_lines source)
      /\ cu_line u = 1 /\ cu_end_line u = length (file_lines source) /\ cu_name u = stem /\ cu_file u = path /\ cu_language u = lang /\ covers U (file_lines source) [u])
  /\ (~ (exists k, says_something U (file_lines source) k) -> extract_text_units U path stem lang source = []).
Proof.
  unfold extract_text_units. destruct (forallb (is_blank U) (file_lines source)) eqn:E.
  - split; [|reflexivity]. intros (k & _ & l & N & c & Hc & W). exfalso. rewrite forallb_forall in E. specialize (E l (nth_error_In _ _ N)). apply blank_iff with (c := c) in E; [congruence|exact Hc].
  - split.
    + intros _. eexists. split; [reflexivity|]. repeat split. intros k (K1 & l & N & _). eexists. split; [left; reflexivity|]. unfold has_line. cbn.
      assert (k - 1 < length (file_lines source)) by (apply nth_error_Some; congruence). lia.
    + intro H. exfalso. apply H. assert (Q : exists l, In l (file_lines source) /\ is_blank U l = false).
      { clear H. induction (file_lines source) as [|l r IH]; [discriminate|]. cbn [forallb] in E. destruct (is_blank U l) eqn:B; [|exists l; split; [left; reflexivity|exact B]].
        cbn [andb] in E. destruct (IH E) as (x & Hx & Bx). exists x. split; [right; exact Hx|exact Bx]. }
      destruct Q as (l & Hl & B). apply In_nth_error in Hl. destruct Hl as (i & Hi). exists (i + 1). split; [lia|]. exists l. split; [replace (i + 1 - 1) with i by lia; exact Hi|]. apply not_blank_iff. exact B.
Qed.
Print Assumptions C90_text_file_whole.

Lemma source_plain source : ~ In 13%Z source -> Forall plain_line (file_lines source).
Proof. intro H. apply lines_plain; [intros []|exact H]. Qed.
Lemma rest_named U path name lang o : Forall (fun u => cu_name u = name /\ cu_unit_type u = txt "rawcode") (match o with Some b => [rest_unit U path name lang b] | None => [] end).
Proof. destruct o; repeat constructor. Qed.
Lemma with_rest_place U path js max_depth ls lang name rest bs : good_parser js -> Forall (fun b => stands U (txt "script") ls b /\ Forall plain_line (fst b)) bs ->
  exists units, with_rest U path name lang rest (all_scripts U path js max_depth lang bs []) = Ok units /\ in_place U ls lang name units
    /\ (Forall (shallow js max_depth) bs -> exists us, units = us ++ match rest with Some b => [rest_unit U path name lang b] | None => [] end
         /\ Forall (shows_pieces U (txt "script") ls) us /\ forall b, In b bs -> script_units_in js b us).
Proof.
  intros JS F. destruct (scripts_ok U path js max_depth JS ls lang bs F [] ltac:(constructor) ltac:(constructor)) as (o & -> & K). unfold with_rest. cbn [bind]. destruct o as [us|].
  - destruct K as (_ & K1 & K2 & K3). eexists. split; [reflexivity|]. split.
    + exists us, (match rest with Some b => [rest_unit U path name lang b] | None => [] end). split; [reflexivity|]. split; [exact K1|]. split.
      * apply Forall_app. split; [exact K2|]. destruct rest; repeat constructor.
      * split; [destruct rest; cbn; lia|apply rest_named].
    + intros _. exists us. auto.
  - exists []. split; [reflexivity|]. split; [exists [], []; repeat split; try constructor; cbn; lia|]. intro Sh. destruct K as (b & Hb & N). rewrite Forall_forall in Sh. destruct (N (Sh b Hb)).
Qed.
Lemma html_blocks_stand U skip ls : Forall plain_line ls -> Forall (fun b => stands U (txt "script") ls b /\ Forall plain_line (fst b)) (script_blocks U skip 0 ls None).
Proof. intro P. eapply Forall_impl; [|apply scripts_stand with (cur := None); auto]. intros b (S & _). split; [exact S|]. exact (stands_plain U _ ls b S P). Qed.
Lemma vue_stands U tag ls b : ~ In (ch ">") tag -> vue_block U tag ls = Some b -> stands U tag ls b.
Proof.
  intros NT E. unfold vue_block in E. pose proof (first_stands U tag ls NT ls 0 None (fun j => eq_refl) I) as K. destruct (first_block U tag 0 ls None) as (c, st). destruct c; [discriminate|]. injection E as <-. exact K.
Qed.

(** In every HTML, Vue and Svelte file the functions, classes and constants of scripts show the lines
    of the file they name, piece by piece, whatever else is in the file; nothing panics. *)
Theorem C90_scripts_in_place U path js max_depth source : good_parser js -> ~ In 13%Z source ->
  (exists units, extract_html_units U path js max_depth source = Ok units /\ in_place U (file_lines source) (txt "html") (txt "html_structure") units)
  /\ (exists units, extract_vue_units U path js max_depth source = Ok units /\ in_place U (file_lines source) (txt "vue") (txt "template") units)
  /\ (exists units, extract_svelte_units U path js max_depth source = Ok units /\ in_place U (file_lines source) (txt "svelte") (txt "template") units).
Proof.
  intros JS NC. pose proof (source_plain source NC) as P. split; [|split].
  - edestruct (with_rest_place U path js max_depth (file_lines source)) as (units & E & K & _); [exact JS|apply html_blocks_stand; exact P|exists units; split; [exact E|exact K]].
  - edestruct (with_rest_place U path js max_depth (file_lines source)) with (bs := match vue_block U (txt "script") (file_lines source) with Some b => [b] | None => [] end) as (units & E & K & _); [exact JS| |exists units; split; [exact E|exact K]].
    destruct (vue_block U (txt "script") (file_lines source)) as [b|] eqn:Ev; [|constructor]. constructor; [|constructor].
    pose proof (vue_stands U (txt "script") _ b script_tag Ev) as S. split; [exact S|]. exact (stands_plain U _ _ b S P).
  - edestruct (with_rest_place U path js max_depth (file_lines source)) as (units & E & K & _); [exact JS|apply html_blocks_stand; exact P|exists units; split; [exact E|exact K]].
Qed.
Print Assumptions C90_scripts_in_place.

Lemma page_shallow js max_depth scripts : Forall (shallow js max_depth) scripts -> Forall (shallow js max_depth) (filter some_lines scripts).
Proof. intro F. apply Forall_forall. intros b Hb. apply filter_In in Hb. rewrite Forall_forall in F. apply F. apply Hb. Qed.
Lemma some_lines_in (scripts : list (list text * nat)) b : In b scripts -> fst b <> [] -> In b (filter some_lines scripts).
Proof. intros H N. apply filter_In. split; [exact H|]. unfold some_lines. destruct (fst b); [congruence|reflexivity]. Qed.

(** In an HTML page whose script tags stand alone on their lines, every line that is not blank is
    shown by the unit of the page or is in a script, and each function, class and constant of each
    script is a unit. *)
Theorem C90_html_page U path js max_depth source outer scripts : good_parser js -> ~ In 13%Z source ->
  page U true 0 (file_lines source) outer scripts -> Forall (shallow js max_depth) scripts ->
  exists us rest, extract_html_units U path js max_depth source = Ok (us ++ rest)
    /\ Forall (shows_pieces U (txt "script") (file_lines source)) us
    /\ (forall s, In s scripts -> fst s <> [] -> script_units_in js s us)
    /\ (outer = [] /\ rest = [] \/ exists r, rest = [r] /\ cu_code r = join_lines outer)
    /\ (forall k l, nth_error (file_lines source) k = Some l -> ~ blank U l ->
         In l outer \/ exists inner start, In (inner, start) scripts /\ start <= k /\ nth_error inner (k - start) = Some l).
Proof.
  intros JS NC P Sh. pose proof (source_plain source NC) as PL. unfold extract_html_units.
  pose proof (html_blocks_stand U true (file_lines source) PL) as St. pose proof (page_scripts U true 0 _ outer scripts P) as Es. rewrite Es in *.
  destruct (with_rest_place U path js max_depth (file_lines source) (txt "html") (txt "html_structure") (kept (html_structure U 0 (file_lines source) false)) (filter some_lines scripts) JS St) as (units & E & _ & K).
  destruct (K (page_shallow js max_depth scripts Sh)) as (us & -> & K1 & K2). eexists us, _. split; [exact E|]. split; [exact K1|]. split; [intros s H1 H2; apply K2; apply some_lines_in; assumption|]. split.
  - pose proof (page_html U 0 _ outer scripts P) as Eo. unfold kept. destruct (html_structure U 0 (file_lines source) false) as [|(i, x) r] eqn:Eh.
    + left. split; [symmetry; exact Eo|reflexivity].
    + right. eexists. split; [reflexivity|]. cbn [rest_unit plain_unit cu_code fst]. rewrite Eo. reflexivity.
  - intros k l N NB. exact (page_all U 0 _ outer scripts P k l N NB).
Qed.
Print Assumptions C90_html_page.

(** The same for Svelte, where the unit of the page has the lines outside scripts and styles. *)
Theorem C90_svelte_page U path js max_depth source outer scripts : good_parser js -> ~ In 13%Z source ->
  page U false 0 (file_lines source) outer scripts -> Forall (shallow js max_depth) scripts ->
  exists us rest, extract_svelte_units U path js max_depth source = Ok (us ++ rest)
    /\ Forall (shows_pieces U (txt "script") (file_lines source)) us
    /\ (forall s, In s scripts -> fst s <> [] -> script_units_in js s us)
    /\ (outer = [] /\ rest = [] \/ exists r, rest = [r] /\ cu_code r = join_lines outer).
Proof.
  intros JS NC P Sh. pose proof (source_plain source NC) as PL. unfold extract_svelte_units.
  pose proof (html_blocks_stand U false (file_lines source) PL) as St. pose proof (page_scripts U false 0 _ outer scripts P) as Es. rewrite Es in *.
  destruct (with_rest_place U path js max_depth (file_lines source) (txt "svelte") (txt "template") (kept (svelte_template U 0 (file_lines source) false false)) (filter some_lines scripts) JS St) as (units & E & _ & K).
  destruct (K (page_shallow js max_depth scripts Sh)) as (us & -> & K1 & K2). eexists us, _. split; [exact E|]. split; [exact K1|]. split; [intros s H1 H2; apply K2; apply some_lines_in; assumption|].
  pose proof (page_svelte U 0 _ outer scripts P) as Eo. unfold kept. destruct (svelte_template U 0 (file_lines source) false false) as [|(i, x) r] eqn:Eh.
  - left. split; [symmetry; exact Eo|reflexivity].
  - right. eexists. split; [reflexivity|]. cbn [rest_unit plain_unit cu_code fst]. rewrite Eo. reflexivity.
Qed.
Print Assumptions C90_svelte_page.

(** In a Vue file the functions, classes and constants of the script are units, and the lines of the
    template are one, with the numbers they have in the file. *)
Lemma template_tag : ~ In (ch ">") (txt "template").
Proof. vm_compute. intuition discriminate. Qed.
Lemma vue_part_block U tag ls inner start : ~ In (ch ">") tag -> vue_part U tag ls inner start -> vue_block U tag ls = Some (inner, start).
Proof. intros NT (NE & b & o & c & a & -> & -> & H1 & H2 & H3 & H4 & H5 & H6). apply vue_shape; assumption. Qed.
Theorem C90_vue_file U path js max_depth source : good_parser js -> ~ In 13%Z source ->
  exists units, extract_vue_units U path js max_depth source = Ok units
  /\ (forall inner start, vue_part U (txt "script") (file_lines source) inner start -> shallow js max_depth (inner, start) -> script_units_in js (inner, start) units)
  /\ (forall inner start, vue_part U (txt "template") (file_lines source) inner start -> no_part U (txt "script") (file_lines source) \/ (exists si ss, vue_part U (txt "script") (file_lines source) si ss /\ shallow js max_depth (si, ss)) ->
       last inner [] <> [] ->
       exists u, In u units /\ cu_name u = txt "template" /\ cu_line u = start + 1 /\ cu_end_line u = start + length inner /\ cu_code u = join_lines inner /\ shows_its_lines (file_lines source) u).
Proof.
  intros JS NC. pose proof (source_plain source NC) as PL. unfold extract_vue_units. set (ls := file_lines source) in *.
  set (bs := match vue_block U (txt "script") ls with Some b => [b] | None => [] end).
  assert (St : Forall (fun b => stands U (txt "script") ls b /\ Forall plain_line (fst b)) bs).
  { unfold bs. destruct (vue_block U (txt "script") ls) as [b|] eqn:Ev; [|constructor]. constructor; [|constructor].
    pose proof (vue_stands U (txt "script") _ b script_tag Ev) as S. split; [exact S|]. exact (stands_plain U _ _ b S PL). }
  destruct (with_rest_place U path js max_depth ls (txt "vue") (txt "template") (vue_block U (txt "template") ls) bs JS St) as (units & E & _ & K). exists units. split; [exact E|]. split.
  - intros inner start V Sh. apply vue_part_block in V; [|apply script_tag]. unfold bs in K. rewrite V in K. destruct (K ltac:(constructor; [exact Sh|constructor])) as (us & -> & _ & K2).
    specialize (K2 _ (or_introl eq_refl)). unfold script_units_in in *. destruct (js (join_lines (fst (inner, start)))) as (G, root). intros n o L I. destruct (K2 n o L I) as (u & Hu & Q). exists u. split; [apply in_or_app; left; exact Hu|exact Q].
  - intros inner start V HS LE.
    assert (Sh : Forall (shallow js max_depth) bs).
    { destruct HS as [NP|(si & ss & V' & Sh)].
      - assert (Q : forall r i, Forall (fun l => ~ tag_at_start U (txt "script") l) r -> first_block U (txt "script") i r None = ([], 0)).
        { clear. induction r as [|l r IH]; intros i F; [reflexivity|]. inversion F; subst. cbn [first_block]. rewrite (not_open_any U _ _ _ script_tag) by assumption. apply IH. assumption. }
        unfold bs, vue_block. rewrite Q by exact NP. constructor.
      - apply vue_part_block in V'; [|apply script_tag]. unfold bs. rewrite V'. constructor; [exact Sh|constructor]. }
    destruct (K Sh) as (us & -> & _ & _). pose proof V as (NE & b & o & c & a & Els & Est & _). apply vue_part_block in V; [|apply template_tag]. rewrite V.
    pose proof (vue_stands U (txt "template") ls (inner, start) template_tag V) as S. pose proof (stands_plain U _ _ _ S PL) as PI. cbn [fst] in PI.
    assert (LJ : file_lines (join_lines inner) = inner). { destruct (lines_join inner PI) as [->|(c' & Ec & _)]; [reflexivity|]. exfalso. apply LE. rewrite Ec, last_last. reflexivity. }
    eexists. split; [apply in_or_app; right; left; reflexivity|]. unfold rest_unit. cbn [plain_unit cu_name cu_line cu_end_line cu_code fst snd]. rewrite LJ.
    assert (LN : 1 <= length inner) by (destruct inner; [congruence|cbn; lia]). split; [reflexivity|]. split; [reflexivity|]. split; [lia|]. split; [reflexivity|]. split; cbn [plain_unit cu_line cu_end_line cu_code]; [lia|].
    f_equal. unfold lines_of. rewrite Els, Est. replace (length b + 1 + 1 + (length inner - 1) - (length b + 1 + 1 - 1)) with (length inner) by lia. replace (length b + 1 + 1 - 1) with (length b + 1) by lia.
    replace (b ++ o :: inner ++ c :: a) with ((b ++ [o]) ++ inner ++ c :: a) by (rewrite <- app_assoc; reflexivity). replace (length b + 1) with (length (b ++ [o])) by (rewrite app_length; reflexivity).
    rewrite skipn_app, skipn_all, Nat.sub_diag. cbn [skipn app]. rewrite firstn_app, firstn_all, Nat.sub_diag, firstn_O, app_nil_r. reflexivity.
Qed.
Print Assumptions C90_vue_file.

(** ** Concrete files *)
Definition file_of (l : list Coq.Strings.String.string) : text := flat_map (fun s => txt s ++ [10%Z]) l.
Definition ex_js (code : text) : grammar * node :=
  (py_grammar, Node (txt "module") 0 0 (if 2 <=? length (file_lines code) then [Node (txt "def") 0 1 []] else [])).
Lemma ex_js_good : good_parser ex_js.
Proof.
  intro code. split; [exact py_bodies|]. cbn [ex_js snd]. destruct (2 <=? length (file_lines code)) eqn:E.
  - apply Nat.leb_le in E. apply rows_node; [lia|]. apply Forall_cons; [|apply Forall_nil]. apply rows_node; [lia|apply Forall_nil].
  - apply rows_node; [lia|apply Forall_nil].
Qed.
Definition ex_html : text := file_of ["<html>"; "<script>"; "function f() {"; "}"; "</script>"; ""; "<p>hi</p>"]%string.
Lemma at_start_dec U tag l : ~ In (ch ">") tag -> opens U tag false l = false -> ~ tag_at_start U tag l.
Proof. intros NT E H. assert (Q : opens U tag false l = true) by (apply opens_iff; [exact NT|split; [exact H|intros (K & _); discriminate]]). congruence. Qed.
Lemma at_start_is U tag l : ~ In (ch ">") tag -> opens U tag false l = true -> tag_at_start U tag l.
Proof. intros NT E. apply opens_iff in E; [apply E|exact NT]. Qed.
Lemma script_dec U html l : opens U (txt "script") html l = false -> ~ opens_script U html l.
Proof. intros E H. apply open_script in H. congruence. Qed.
Lemma script_is U html l : opens U (txt "script") html l = true -> opens_script U html l.
Proof. intro E. apply opens_iff in E; [exact E|apply script_tag]. Qed.
Lemma style_html U l : ~ opens_style U true l.
Proof. intros (H & _). discriminate. Qed.
Lemma ends_dec U tag l : closes U tag l = false -> ~ end_tag_on U tag l.
Proof. intros E H. apply close in H. congruence. Qed.
Lemma ends_is U tag l : closes U tag l = true -> end_tag_on U tag l.
Proof. apply closes_iff. Qed.
Lemma blank_dec U l : is_blank U l = false -> ~ blank U l.
Proof. intros E H. apply blank_t in H. congruence. Qed.
Lemma ex_html_page : page pu_unicode true 0 (file_lines ex_html)
  [txt "<html>"; txt "<script>"; txt "</script>"; txt "<p>hi</p>"] [([txt "function f() {"; txt "}"], 2)].
Proof.
  change (file_lines ex_html) with [txt "<html>"; txt "<script>"; txt "function f() {"; txt "}"; txt "</script>"; []; txt "<p>hi</p>"].
  apply page_line; [apply script_dec; reflexivity|apply style_html|apply blank_dec; reflexivity|].
  apply (page_script pu_unicode true 1 (txt "<script>") [txt "function f() {"; txt "}"] (txt "</script>") [[]; txt "<p>hi</p>"] [txt "<p>hi</p>"] []).
  - apply script_is. reflexivity.
  - exists (txt "<script"). split; [reflexivity|]. vm_compute. intuition discriminate.
  - repeat (apply Forall_cons; [split; [apply at_start_dec; [apply script_tag|reflexivity]|split; [apply style_html|apply ends_dec; reflexivity]]|]). apply Forall_nil.
  - apply script_dec. reflexivity.
  - apply ends_is. reflexivity.
  - exists [], (txt ">"). split; [reflexivity|intros c []].
  - apply page_blank; [apply script_dec; reflexivity|apply style_html|intros c []|]. apply page_line; [apply script_dec; reflexivity|apply style_html|apply blank_dec; reflexivity|]. apply page_end.
Qed.
Example C90_html_example : good_parser ex_js /\ ~ In 13%Z ex_html
  /\ page pu_unicode true 0 (file_lines ex_html) [txt "<html>"; txt "<script>"; txt "</script>"; txt "<p>hi</p>"] [([txt "function f() {"; txt "}"], 2)]
  /\ Forall (shallow ex_js 3) [([txt "function f() {"; txt "}"], 2)]
  /\ bind (extract_html_units pu_unicode (txt "a.html") ex_js 3 ex_html) (fun us => Ok (map (fun u => (cu_name u, cu_line u, cu_end_line u, cu_code u)) us))
     = Ok [(txt "d0", 3, 4, join_lines [txt "function f() {"; txt "}"]); (txt "html_structure", 1, 4, join_lines [txt "<html>"; txt "<script>"; txt "</script>"; txt "<p>hi</p>"])].
Proof.
  split; [exact ex_js_good|]. split; [vm_compute; intuition discriminate|]. split; [exact ex_html_page|]. split; [|vm_compute; reflexivity]. apply Forall_cons; [|apply Forall_nil]. unfold shallow. vm_compute. repeat constructor.
Qed.
Definition ex_svelte : text := file_of ["<script>"; "function f() {"; "}"; "</script>"; "<p>hi</p>"; "<style>"; "p { }"; "</style>"]%string.
Example C90_svelte_example : ~ In 13%Z ex_svelte
  /\ page pu_unicode false 0 (file_lines ex_svelte) [txt "<p>hi</p>"] [([txt "function f() {"; txt "}"], 1)]
  /\ bind (extract_svelte_units pu_unicode (txt "a.svelte") ex_js 3 ex_svelte) (fun us => Ok (map (fun u => (cu_name u, cu_line u, cu_end_line u, cu_code u)) us))
     = Ok [(txt "d0", 2, 3, join_lines [txt "function f() {"; txt "}"]); (txt "template", 5, 5, txt "<p>hi</p>")].
Proof.
  split; [vm_compute; intuition discriminate|]. split; [|vm_compute; reflexivity].
  change (file_lines ex_svelte) with [txt "<script>"; txt "function f() {"; txt "}"; txt "</script>"; txt "<p>hi</p>"; txt "<style>"; txt "p { }"; txt "</style>"].
  assert (NS : forall l, opens pu_unicode (txt "style") false l = false -> ~ opens_style pu_unicode false l) by (intros l E (_ & H); revert H; apply at_start_dec; [apply style_tag|exact E]).
  apply (page_script pu_unicode false 0 (txt "<script>") [txt "function f() {"; txt "}"] (txt "</script>") [txt "<p>hi</p>"; txt "<style>"; txt "p { }"; txt "</style>"] [txt "<p>hi</p>"] []).
  - apply script_is. reflexivity.
  - exists (txt "<script"). split; [reflexivity|]. vm_compute. intuition discriminate.
  - repeat (apply Forall_cons; [split; [apply at_start_dec; [apply script_tag|reflexivity]|split; [apply NS; reflexivity|apply ends_dec; reflexivity]]|]). apply Forall_nil.
  - apply script_dec. reflexivity.
  - apply ends_is. reflexivity.
  - exists [], (txt ">"). split; [reflexivity|intros c []].
  - apply page_line; [apply script_dec; reflexivity|apply NS; reflexivity|apply blank_dec; reflexivity|].
    apply (page_style pu_unicode false 5 (txt "<style>") [txt "p { }"] (txt "</style>") [] [] []).
    + split; [reflexivity|]. apply at_start_is; [apply style_tag|reflexivity].
    + apply script_dec. reflexivity.
    + apply Forall_cons; [split; [apply script_dec; reflexivity|apply ends_dec; reflexivity]|apply Forall_nil].
    + apply script_dec. reflexivity.
    + apply NS. reflexivity.
    + apply ends_is. reflexivity.
    + apply page_end.
Qed.
Definition ex_vue : text := file_of ["<template>"; "  <p>hi</p>"; "</template>"; ""; "<script setup>"; "function f() {"; "}"; "</script>"]%string.
Example C90_vue_example : ~ In 13%Z ex_vue
  /\ vue_part pu_unicode (txt "script") (file_lines ex_vue) [txt "function f() {"; txt "}"] 5 /\ shallow ex_js 3 ([txt "function f() {"; txt "}"], 5)
  /\ vue_part pu_unicode (txt "template") (file_lines ex_vue) [txt "  <p>hi</p>"] 1
  /\ bind (extract_vue_units pu_unicode (txt "a.vue") ex_js 3 ex_vue) (fun us => Ok (map (fun u => (cu_name u, cu_line u, cu_end_line u, cu_code u)) us))
     = Ok [(txt "d0", 6, 7, join_lines [txt "function f() {"; txt "}"]); (txt "template", 2, 2, txt "  <p>hi</p>")].
Proof.
  split; [vm_compute; intuition discriminate|].
  assert (E : file_lines ex_vue = [txt "<template>"; txt "  <p>hi</p>"; txt "</template>"; []; txt "<script setup>"; txt "function f() {"; txt "}"; txt "</script>"]) by reflexivity. rewrite E.
  split; [|split; [unfold shallow; vm_compute; repeat constructor|split; [|vm_compute; reflexivity]]].
  - split; [discriminate|]. exists [txt "<template>"; txt "  <p>hi</p>"; txt "</template>"; []], (txt "<script setup>"), (txt "</script>"), []. split; [reflexivity|]. split; [reflexivity|].
    split; [repeat (apply Forall_cons; [apply at_start_dec; [apply script_tag|reflexivity]|]); apply Forall_nil|]. split; [apply at_start_is; [apply script_tag|reflexivity]|].
    split; [exists (txt "<script setup"); split; [reflexivity|]; vm_compute; intuition discriminate|]. split; [repeat (apply Forall_cons; [apply ends_dec; reflexivity|]); apply Forall_nil|].
    split; [apply ends_is; reflexivity|]. exists [], (txt ">"). split; [reflexivity|intros c []].
  - split; [discriminate|]. exists [], (txt "<template>"), (txt "</template>"), [[]; txt "<script setup>"; txt "function f() {"; txt "}"; txt "</script>"]. split; [reflexivity|]. split; [reflexivity|].
    split; [apply Forall_nil|]. split; [apply at_start_is; [apply template_tag|reflexivity]|].
    split; [exists (txt "<template"); split; [reflexivity|]; vm_compute; intuition discriminate|]. split; [repeat (apply Forall_cons; [apply ends_dec; reflexivity|]); apply Forall_nil|].
    split; [apply ends_is; reflexivity|]. exists [], (txt ">"). split; [reflexivity|intros c []].
Qed.

(** ** What is lost *)
Definition nowhere (word : text) (r : res (list code_unit)) : Prop := exists units, r = Ok units /\ forall u, In u units -> contains word (cu_code u) = false.
(** A script that ends on the line it begins on is never seen to end: the rest of the page is in no
    unit. *)
Theorem C90_one_line_script_refuted : exists source, (exists k, nth_error (file_lines source) k = Some (txt "<p>lost</p>")) /\
  forall path js max_depth, nowhere (txt "lost") (extract_html_units pu_unicode path js max_depth source).
Proof.
  exists (file_of ["<html>"; "<script>f()</script>"; "<p>lost</p>"]%string). split; [exists 2; reflexivity|]. intros path js max_depth. eexists. split; [vm_compute; reflexivity|].
  intros u [<-|[]]. vm_compute. reflexivity.
Qed.
Print Assumptions C90_one_line_script_refuted.
(** The template of a Vue file ends for colgrep where the first template inside it ends. *)
Theorem C90_nested_template_refuted : exists source, (exists k, nth_error (file_lines source) k = Some (txt "  <p>lost</p>")) /\
  forall path js max_depth, nowhere (txt "lost") (extract_vue_units pu_unicode path js max_depth source).
Proof.
  exists (file_of ["<template>"; "  <template v-if=x>"; "    a"; "  </template>"; "  <p>lost</p>"; "</template>"]%string). split; [exists 4; reflexivity|]. intros path js max_depth. eexists.
  split; [vm_compute; reflexivity|]. intros u [<-|[]]. vm_compute. reflexivity.
Qed.
Print Assumptions C90_nested_template_refuted.
(** A Vue file may have two scripts; the second is not read: files that differ in it give the same
    units, for any parser. *)
Theorem C90_second_script_refuted : exists source1 source2, source1 <> source2 /\
  forall path js max_depth, extract_vue_units pu_unicode path js max_depth source1 = extract_vue_units pu_unicode path js max_depth source2.
Proof.
  exists (file_of ["<script>"; "a"; "</script>"; "<script setup>"; "function f() {"; "}"; "</script>"]%string), (file_of ["<script>"; "a"; "</script>"; "<script setup>"; "g()"; "</script>"]%string).
  split; [vm_compute; discriminate|]. intros path js max_depth.
  assert (E : forall s, vue_block pu_unicode (txt "script") (file_lines s) = Some ([txt "a"], 1) -> vue_block pu_unicode (txt "template") (file_lines s) = None ->
    extract_vue_units pu_unicode path js max_depth s = with_rest pu_unicode path (txt "template") (txt "vue") None (all_scripts pu_unicode path js max_depth (txt "vue") [([txt "a"], 1)] [])).
  { intros s E1 E2. unfold extract_vue_units. rewrite E1, E2. reflexivity. }
  rewrite !E; reflexivity.
Qed.
Print Assumptions C90_second_script_refuted.
(** A statement of a script that is not in a function, class or constant is in no unit, though the
    parser is good and nothing is deep. *)
Theorem C90_statement_refuted : exists source js, good_parser js /\ (exists k, nth_error (file_lines source) k = Some (txt "lost();")) /\
  forall path, nowhere (txt "lost") (extract_html_units pu_unicode path js 5 source).
Proof.
  exists (file_of ["<html>"; "<script>"; "lost();"; "</script>"]%string), ex_js. split; [exact ex_js_good|]. split; [exists 2; reflexivity|]. intro path. eexists. split; [vm_compute; reflexivity|].
  intros u [<-|[]]. vm_compute. reflexivity.
Qed.
Print Assumptions C90_statement_refuted.
(** The lines the unit of a page names are not the lines it shows: blank lines and scripts are left
    out of the text but not of the numbers. *)
Theorem C90_page_lines_refuted : exists source u, (forall path js max_depth, exists v, extract_html_units pu_unicode path js max_depth source = Ok [v] /\ cu_line v = cu_line u /\ cu_end_line v = cu_end_line u /\ cu_code v = cu_code u)
  /\ contains (txt "<p>end</p>") (cu_code u) = true /\ forall k, has_line u k -> nth_error (file_lines source) (k - 1) <> Some (txt "<p>end</p>").
Proof.
  exists (file_of ["<p>a</p>"; ""; "<p>end</p>"]%string). eexists (rest_unit pu_unicode [] (txt "html_structure") (txt "html") ([txt "<p>a</p>"; txt "<p>end</p>"], 0)). split.
  - intros path js max_depth. eexists. split; [vm_compute; reflexivity|]. split; [vm_compute; reflexivity|]. split; vm_compute; reflexivity.
  - split; [vm_compute; reflexivity|]. intros k (H1 & H2). assert (L : cu_line (rest_unit pu_unicode [] (txt "html_structure") (txt "html") ([txt "<p>a</p>"; txt "<p>end</p>"], 0)) = 1) by (vm_compute; reflexivity).
    assert (L2 : cu_end_line (rest_unit pu_unicode [] (txt "html_structure") (txt "html") ([txt "<p>a</p>"; txt "<p>end</p>"], 0)) = 2) by (vm_compute; reflexivity). rewrite L in H1. rewrite L2 in H2.
    assert (k = 1 \/ k = 2) as [-> | ->] by lia; vm_compute; discriminate.
Qed.
Print Assumptions C90_page_lines_refuted.
Example C90_text_example : map (fun u => (cu_name u, cu_line u, cu_end_line u, cu_docstring u)) (extract_text_units pu_unicode (txt "a.md") (txt "a") (txt "markdown") (file_of ["# Title"; "intro"; ""; "text"]%string))
  = [(txt "a", 1, 4, Some (txt "# Title intro"))].
Proof. vm_compute. reflexivity. Qed.
