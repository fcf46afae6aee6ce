(** The units of a source file. *)
From Verif Require Import Base Text Calendar FtsText Units Parse ParseSpec ParseProofs ParseGaps ParseUnits.
From Coq Require Import Sorting.Sorted.
Open Scope nat_scope.

(** What a source file is cut into: the units found in the syntax tree, then the pieces between them. *)
Definition cut_up (U : unicode) (G : grammar) (ls : list text) (root : node) (units : list code_unit) : Prop :=
  exists found raw, units = found ++ raw
    /\ Forall (shows_its_lines ls) units
    /\ covers U ls units
    /\ Forall (in_between U ls found) raw /\ StronglySorted (apart found) raw
    /\ (forall n o, looked_at G false root None n o -> is_unit G n o -> exists u, In u found /\ unit_of_node U G ls n (g_analysis G n (if g_function G (n_kind n) then o else None)) u)
    /\ (forall u, In u found -> exists n o, looked_at G false root None n o /\ is_unit G n o /\ unit_of_node U G ls n (g_analysis G n (if g_function G (n_kind n) then o else None)) u).

Lemma looked_inside G : bodies_ok G -> forall n o m q, looked_at G false n o m q -> inside n m.
Proof.
  intros BO n o m q L. induction L as [n o|n o c m q H1 H2 Hc L IH|n o name b c m q H1 H2 H3 H4 Hc L IH]; [constructor|eapply in_child; eassumption|].
  eapply in_child; [apply BO; exact H3|]. eapply in_child; eassumption.
Qed.
Lemma inside_rows total n m : rows_ok total n -> inside n m -> rows_ok total m.
Proof. intros R I. induction I as [|n c m Hc I IH]; [exact R|]. apply IH. intros x Hx. apply R. eapply in_child; eassumption. Qed.

Lemma cut_up_ok U path G ls lang imports max_depth root : rows_ok (length ls) root -> bodies_ok G ->
  exists units, extract_source_units U path G ls false lang imports max_depth root = Ok units
    /\ (cut_up U G ls root units \/ (units = [] /\ max_depth < height root)).
Proof.
  intros R B. unfold extract_source_units.
  destruct (walk_ok U path G ls B false (S max_depth) root R None ([], false)) as (st' & E & (new & En & Sn) & _ & W). rewrite E. cbn [bind].
  destruct (snd st') eqn:F.
  - exists []. split; [reflexivity|]. right. split; [reflexivity|]. destruct (Nat.le_gt_cases (height root) max_depth) as [Le|Gt]; [|exact Gt].
    specialize (W ltac:(lia) eq_refl). congruence.
  - cbn [fst app] in En. rewrite En. destruct (fill_ok U path ls lang imports new Sn) as (raw & Ef & S1 & S2 & S3 & S4). exists (new ++ raw). split; [exact Ef|]. left.
    destruct (found U path G ls false (S max_depth) root None ([], false) st' E F) as (new' & En' & K). cbn [fst app] in En'. rewrite En in En'. subst new'.
    exists new, raw. split; [reflexivity|]. split; [apply Forall_app; split; assumption|]. split; [exact S4|]. split; [exact S2|]. split; [exact S3|]. split.
    + intros n o L I. destruct (placed_ok U path G ls n (analysis_of G n o)) as (u & Eu & _).
      * pose proof (looked_inside G B _ _ _ _ L) as In1. destruct (R n In1) as (H1 & H2). exact H1.
      * pose proof (looked_inside G B _ _ _ _ L) as In1. destruct (R n In1) as (H1 & H2). exact H2.
      * exists u. split; [apply K; exists n, o; split; [exact L|split; assumption]|]. apply placed_spec in Eu. exact Eu.
    + intros u Hu. apply K in Hu. destruct Hu as (n & o & L & I & P). exists n, o. split; [exact L|]. split; [exact I|]. apply placed_spec in P. exact P.
Qed.

(** C89.  A source file whose syntax tree is not nested deeper than the limit is cut up: every named
    function and class, and every constant outside classes, that the search looks at is a unit with
    its lines; every line that is not blank is in some unit; the code of each unit is the text of the
    lines it names; the other pieces lie between the units and touch none of them. *)
Theorem C89_every_line_in_a_unit U path G ls lang imports max_depth root :
  rows_ok (length ls) root -> bodies_ok G -> height root <= max_depth ->
  exists units, extract_source_units U path G ls false lang imports max_depth root = Ok units /\ cut_up U G ls root units.
Proof.
  intros R B H. destruct (cut_up_ok U path G ls lang imports max_depth root R B) as (units & E & [K|(_ & K)]); [exists units; auto|lia].
Qed.
Print Assumptions C89_every_line_in_a_unit.

(** At any depth the file is cut up or gives no unit at all, and never a panic. *)
Theorem C89_all_or_nothing U path G ls lang imports max_depth root :
  rows_ok (length ls) root -> bodies_ok G ->
  exists units, extract_source_units U path G ls false lang imports max_depth root = Ok units
    /\ (cut_up U G ls root units \/ (units = [] /\ max_depth < height root)).
Proof. apply cut_up_ok. Qed.
Print Assumptions C89_all_or_nothing.

(** ** A concrete file *)
Definition pu_unicode : unicode := {|
  u_ws := fun c => (c =? 32)%Z || (c =? 9)%Z; u_alpha := fun _ => true; u_alnum := fun _ => true; u_digit := fun _ => false; u_space := fun c => (c =? 32)%Z;
  u_word := fun _ => true; u_upper := fun t => t; u_lower := fun t => t |}.
Definition py_lines : list text :=
  [txt "import os"; txt ""; txt "@cached"; txt "def f(x):"; txt "    return g(x)"; txt ""; txt "class C:"; txt "    def m(self):"; txt "        pass"; txt ""; txt "f(1)"; txt "f(2)"].
Definition py_name (n : node) : option text :=
  match n with
  | Node k a _ _ => if text_eqb k (txt "def") then Some (txt "d" ++ digits (Z.of_nat a)) else if text_eqb k (txt "class") then Some (txt "C") else None
  end.
Definition py_body (n : node) : option node := match n_children n with b :: _ => if text_eqb (n_kind b) (txt "block") then Some b else None | [] => None end.
Definition py_grammar : grammar := {|
  g_function := text_eqb (txt "def"); g_class := text_eqb (txt "class"); g_constant := text_eqb (txt "const"); g_abstract := text_eqb (txt "protocol");
  g_name := py_name; g_body := py_body; g_constant_name := fun _ => None;
  g_analysis := fun n owner => plain_unit (txt "m.py") (match py_name n with Some t => t | None => [] end) (txt "q") 0 0 (txt "python") (match owner with Some _ => txt "method" | None => n_kind n end) [] [] [];
  g_attribute := fun l => match l with c :: _ => (c =? ch "@")%Z | [] => false end |}.
Definition py_tree : node :=
  Node (txt "module") 0 12 [Node (txt "import") 0 0 []; Node (txt "def") 3 4 [Node (txt "block") 4 4 []];
    Node (txt "class") 6 8 [Node (txt "block") 7 8 [Node (txt "def") 7 8 [Node (txt "block") 8 8 []]]]; Node (txt "call") 10 10 []; Node (txt "call") 11 11 []].
Lemma py_bodies : bodies_ok py_grammar.
Proof.
  intros n b. cbn [py_grammar g_body]. unfold py_body. destruct (n_children n) as [|c r] eqn:E; [discriminate|]. destruct (text_eqb _ _); [|discriminate]. intro H. injection H as ->. left. reflexivity.
Qed.
Lemma rows_node total k a b cs : a <= b /\ a <= total -> Forall (rows_ok total) cs -> rows_ok total (Node k a b cs).
Proof. intros H F m I. inversion I as [|n c m' Hc I' E1 E2]; subst; [exact H|]. cbn [n_children] in Hc. rewrite Forall_forall in F. exact (F c Hc m I'). Qed.
Ltac rows := apply rows_node; [cbn; lia|]; repeat (apply Forall_cons; [rows|]); apply Forall_nil.
Lemma py_rows : rows_ok (length py_lines) py_tree.
Proof. unfold py_tree. rows. Qed.
Example C89_example :
  rows_ok (length py_lines) py_tree /\ bodies_ok py_grammar /\ height py_tree <= 5
  /\ bind (extract_source_units pu_unicode (txt "m.py") py_grammar py_lines false (txt "python") [txt "os"] 5 py_tree)
       (fun us => Ok (map (fun u => (cu_name u, cu_unit_type u, cu_line u, cu_end_line u)) us))
     = Ok [(txt "d3", txt "def", 3, 5); (txt "C", txt "class", 7, 9); (txt "d7", txt "method", 8, 9); (txt "raw_code_1", txt "rawcode", 1, 1); (txt "raw_code_11", txt "rawcode", 11, 12)].
Proof. split; [exact py_rows|]. split; [exact py_bodies|]. split; vm_compute; [repeat constructor|reflexivity]. Qed.

(** The documentation of [extract_units] promises units that cover the entire file.  A file nested
    deeper than the limit gives none: no search finds it. *)
Theorem C89_deep_file_refuted : exists root,
  rows_ok (length py_lines) root /\ says_something pu_unicode py_lines 4
  /\ extract_source_units pu_unicode (txt "m.py") py_grammar py_lines false (txt "python") [] 3 root = Ok []
  /\ extract_source_units pu_unicode (txt "m.py") py_grammar py_lines false (txt "python") [] 4 root <> Ok [].
Proof.
  exists (Node (txt "module") 0 11 [Node (txt "def") 3 4 [Node (txt "a") 4 4 [Node (txt "b") 4 4 [Node (txt "c") 4 4 []]]]]). split.
  { rows. }
  split.
  { split; [lia|]. eexists. split; [reflexivity|]. exists (ch "d"). split; [left; reflexivity|reflexivity]. }
  split; [vm_compute; reflexivity|]. vm_compute. discriminate.
Qed.
Print Assumptions C89_deep_file_refuted.
