(** Proofs about declarations. *)
From Verif Require Import Base Text FtsText FtsTextSpec FtsTextProofs CallGraphSpec CallGraphProofs Analysis AnalysisSpec AnalysisTree AnalysisProofs AnalysisText AnalysisMore Qml QmlSpec QmlText Decls DeclsSpec.
From Coq Require Import String.
Open Scope string_scope.
Open Scope nat_scope.
Open Scope list_scope.
Notation length := List.length.

(** ** Going down *)
Lemma first_some_iff {A} (f : tree -> option A) l m : first_some f l = Some m <->
  exists a c b, l = a ++ c :: b /\ f c = Some m /\ forall x, In x a -> f x = None.
Proof.
  induction l as [|c r IH]; cbn [first_some].
  - split; [discriminate|]. intros ([|x a] & c & b & E & _); discriminate.
  - destruct (f c) as [x|] eqn:F.
    + split.
      * intros [= ->]. exists [], c, r. split; [reflexivity|split; [exact F|intros x []]].
      * intros ([|y a] & c' & b & E & F' & N); injection E as -> ->; [congruence|]. rewrite (N y) in F by (left; reflexivity). discriminate.
    + rewrite IH. split.
      * intros (a & c' & b & -> & F' & N). exists (c :: a), c', b. split; [reflexivity|split; [exact F'|]]. intros x [<-|I]; auto.
      * intros ([|y a] & c' & b & E & F' & N); injection E as -> ->; [congruence|]. exists a, c', b. split; [reflexivity|split; [exact F'|]]. intros x I. apply N. right. exact I.
Qed.
Lemma none_iff {A} (o : option A) : o = None <-> forall x, o <> Some x.
Proof. destruct o as [a|]; split; intro H; [discriminate|destruct (H a eq_refl)|discriminate|reflexivity]. Qed.
Lemma among_iff ks f R n m : (forall c m, f c = Some m <-> R c m) -> (among ks f n = Some m <-> through ks R n m).
Proof.
  intro H. unfold among, through, first_child. rewrite first_some_iff. split.
  - intros (a & c & b & E & F & N). destruct (one_of ks (t_kind c)) eqn:K; [|discriminate]. exists c. split; [|apply H; exact F].
    exists a, b. split; [exact E|split; [split; [apply of_kind_mem; exact K|exists m; apply H; exact F]|]]. intros x I (Kx & y & Y). specialize (N x I). apply of_kind_mem in Kx. rewrite Kx in N. apply H in Y. congruence.
  - intros (c & (a & b & E & (K & _) & N) & F). exists a, c, b. split; [exact E|]. apply of_kind_mem in K. rewrite K. split; [apply H; exact F|].
    intros x I. destruct (one_of ks (t_kind x)) eqn:Kx; [|reflexivity]. apply none_iff. intros y Y. apply (N x I). split; [apply of_kind_mem; exact Kx|exists y; apply H; exact Y].
Qed.
Lemma find_child (f : tree -> bool) (P : tree -> Prop) n c : (forall x, f x = true <-> P x) -> (find f (t_children n) = Some c <-> first_child P n c).
Proof.
  intro H. rewrite find_split. unfold first_child. split; intros (a & b & E & F & N); exists a, b; split; [exact E| |exact E|]; (split; [apply H; exact F|]); intros x I.
  - intro X. apply H in X. rewrite (N x I) in X. discriminate.
  - destruct (f x) eqn:X; [|reflexivity]. apply H in X. destruct (N x I X).
Qed.
Lemma by_kind_iff k n c : by_kind k n = Some c <-> child_of [k] n c.
Proof. apply find_child. intro x. apply eqb_kind. Qed.
Lemma among_some ks n c : among ks Some n = Some c <-> child_of ks n c.
Proof.
  unfold child_of. rewrite <- (find_child (fun x => one_of ks (t_kind x))) by (intro x; symmetry; apply of_kind_mem). unfold among.
  induction (t_children n) as [|x l IH]; cbn [first_some find]; [reflexivity|]. destruct (one_of ks (t_kind x)); [reflexivity|exact IH].
Qed.
Lemma or_else_iff (f g : tree -> option tree) R S n m : (forall m, f n = Some m <-> R n m) -> (forall m, g n = Some m <-> S n m) -> (or_else (f n) (g n) = Some m <-> otherwise R S n m).
Proof.
  intros HR HS. unfold otherwise. destruct (f n) as [x|] eqn:F; cbn [or_else].
  - rewrite <- HR. split; [left; assumption|]. intros [H|(N & _)]; [exact H|]. destruct (N x). apply HR. reflexivity.
  - rewrite <- HS. split; [intro H; right; split; [|exact H]; intros y Y; apply HR in Y; discriminate|]. intros [H|(_ & H)]; [apply HR in H; discriminate|exact H].
Qed.
Lemma keep_kind_iff k t c : keep_kind k t = Some c <-> c = t /\ of_kind [k] t.
Proof.
  unfold keep_kind. destruct (text_eqb (t_kind t) (txt k)) eqn:E.
  - apply eqb_kind in E. split; [intros [= <-]; auto|intros (-> & _); reflexivity].
  - split; [discriminate|]. intros (_ & K). apply eqb_kind in K. congruence.
Qed.
Lemma and_then_iff {A B} (o : option A) (f : A -> option B) y : and_then o f = Some y <-> exists x, o = Some x /\ f x = Some y.
Proof. destruct o as [x|]; cbn [and_then]; split; [eauto|intros (z & [= <-] & H); exact H|discriminate|intros (z & H & _); discriminate]. Qed.
Lemma assigned_iff f n m : and_then (child 0 n) (fun a => and_then (keep_kind "assignment" a) (by_field f)) = Some m <-> assigned f n m.
Proof.
  rewrite and_then_iff. unfold assigned, child. split.
  - intros (a & E & H). apply and_then_iff in H. destruct H as (b & K & F). apply keep_kind_iff in K. destruct K as (-> & K). apply by_field_iff in F.
    destruct (t_children n) as [|x r]; [discriminate|]. injection E as ->. exists a, r. auto.
  - intros (a & r & E & K & F). exists a. rewrite E. split; [reflexivity|]. apply and_then_iff. exists a. split; [apply keep_kind_iff; auto|apply by_field_iff; exact F].
Qed.

(** ** Tables of languages *)
Fixpoint lookup (lang : text) (table : list (list string * (tree -> option tree))) (n : tree) : option tree :=
  match table with
  | [] => None
  | (ls, f) :: r => if is lang ls then f n else lookup lang r n
  end.
Lemma is_spoken lang ls : is lang ls = true <-> spoken lang ls.
Proof. unfold is, one_of, spoken. rewrite mem_in, in_map_iff. split; intros (l & A & B); exists l; auto. Qed.
Fixpoint no_dup (l : list text) : bool := match l with [] => true | x :: r => negb (mem x r) && no_dup r end.
Lemma no_dup_app a b x : no_dup (a ++ b) = true -> In x a -> In x b -> False.
Proof.
  induction a as [|y a IH]; cbn [app no_dup]; [intros _ []|]. intro H. apply andb_true_iff in H. destruct H as (M & N). intros [<-|I] J; [|exact (IH N I J)].
  apply negb_true_iff in M. assert (mem y (a ++ b) = true) by (apply mem_in, in_or_app; auto). congruence.
Qed.
Lemma no_dup_tail a b : no_dup (a ++ b) = true -> no_dup b = true.
Proof. induction a as [|y a IH]; cbn [app no_dup]; [auto|]. intro H. apply andb_true_iff in H. destruct H as (_ & N). exact (IH N). Qed.
Lemma lookup_iff lang fs rs n m :
  Forall2 (fun f r => fst f = fst r /\ forall n m, snd f n = Some m <-> snd r n m) fs rs -> no_dup (map txt (List.concat (map fst fs))) = true ->
  (lookup lang fs n = Some m <-> written lang rs n m).
Proof.
  intros F. induction F as [|(ls & f) (ls' & R) fs rs (E & H) F IH]; cbn [lookup map List.concat fst snd] in *; intro D.
  - split; [discriminate|]. intros (ls & R & I & _). destruct I.
  - subst ls'. rewrite map_app in D. specialize (IH (no_dup_tail _ _ D)). destruct (is lang ls) eqn:L.
    + split.
      * intro X. exists ls, R. split; [left; reflexivity|split; [apply is_spoken; exact L|apply H; exact X]].
      * intros (l & R' & I & Sp & X). destruct I as [E|I]; [injection E as <- <-; apply H; exact X|exfalso].
        assert (exists f', In (l, f') fs) as (f' & I').
        { clear -F I. induction F as [|(a & b) (c & d) fs rs (E & H) F IH]; [destruct I|]. cbn [fst] in E. subst c. destruct I as [E|I]; [injection E as -> ->; exists b; left; reflexivity|]. destruct (IH I) as (f' & J). exists f'. right. exact J. }
        apply is_spoken in L. destruct L as (u & Iu & ->). destruct Sp as (v & Iv & Ev). apply (no_dup_app _ _ (txt u) D); [apply in_map; exact Iu|]. rewrite Ev. apply in_map. apply in_concat. exists l. split; [apply (in_map fst _ _ I')|exact Iv].
    + rewrite IH. split.
      * intros (l & R' & I & Sp & X). exists l, R'. split; [right; exact I|auto].
      * intros (l & R' & I & Sp & X). destruct I as [E|I]; [injection E as -> ->; apply is_spoken in Sp; congruence|]. exists l, R'. auto.
Qed.
Definition name_table : list (list string * (tree -> option tree)) :=
  [ (["rust"], by_field "name");
    (["javascript"; "typescript"; "vue"; "svelte"], among ["variable_declarator"] (by_field "name"));
    (["go"], among ["const_spec"; "var_spec"] (fun c => or_else (by_field "name" c) (by_kind "identifier" c)));
    (["python"], fun n => and_then (child 0 n) (fun a => and_then (keep_kind "assignment" a) (by_field "left")));
    (["c"; "cpp"], fun n => or_else (among ["init_declarator"; "declarator"] (by_field "declarator") n) (by_kind "identifier" n));
    (["kotlin"], fun n => or_else (by_field "name" n) (among ["variable_declaration"] (by_kind "simple_identifier") n));
    (["swift"], among ["pattern_initializer"] (among ["identifier_pattern"; "simple_identifier"] Some));
    (["scala"], by_field "pattern");
    (["php"], among ["const_element"] (by_field "name"));
    (["elixir"], among ["call"] (by_field "target"));
    (["haskell"; "ocaml"], fun n => or_else (by_field "name" n) (by_field "pattern" n)) ].
Lemma constant_node_iff lang n m : constant_node lang n = Some m <-> written lang name_places n m.
Proof.
  change (constant_node lang n) with (lookup lang name_table n). apply lookup_iff; [|vm_compute; reflexivity].
  unfold name_table, name_places. repeat (constructor; [split; [reflexivity|intros x y; cbn [snd]]|]); [..|constructor];
    try (apply by_field_iff); try (apply assigned_iff); try (apply among_iff; intros a b; apply by_field_iff).
  - apply among_iff. intros a b. apply (or_else_iff (by_field "name") (by_kind "identifier")); intro c; [apply by_field_iff|apply by_kind_iff].
  - apply (or_else_iff (among ["init_declarator"; "declarator"] (by_field "declarator")) (by_kind "identifier")); intro c; [apply among_iff; intros a b; apply by_field_iff|apply by_kind_iff].
  - apply (or_else_iff (by_field "name") (among ["variable_declaration"] (by_kind "simple_identifier"))); intro c; [apply by_field_iff|apply among_iff; intros a b; apply by_kind_iff].
  - apply among_iff. intros a b. apply among_some.
  - apply (or_else_iff (by_field "name") (by_field "pattern")); intro c; apply by_field_iff.
Qed.
Definition type_table : list (list string * (tree -> option tree)) :=
  [ (["rust"], by_field "type");
    (["typescript"; "vue"; "svelte"], among ["variable_declarator"] (by_field "type"));
    (["go"], among ["const_spec"; "var_spec"] (by_field "type"));
    (["python"], fun n => and_then (child 0 n) (fun a => and_then (keep_kind "assignment" a) (by_field "type"))) ].
Lemma type_node_iff lang n m : type_node lang n = Some m <-> written lang type_places n m.
Proof.
  change (type_node lang n) with (lookup lang type_table n). apply lookup_iff; [|vm_compute; reflexivity].
  unfold type_table, type_places. repeat (constructor; [split; [reflexivity|intros x y; cbn [snd]]|]); [..|constructor];
    try (apply by_field_iff); try (apply assigned_iff); try (apply among_iff; intros a b; apply by_field_iff).
Qed.
Lemma is_one lang l : is lang [l] = true <-> lang = txt l.
Proof. rewrite is_spoken. unfold spoken. split; [intros (x & [<-|[]] & E); exact E|intro E; exists l; split; [left; reflexivity|exact E]]. Qed.
Lemma css_unwritten n m : ~ written (txt "css") name_places n m.
Proof. rewrite <- constant_node_iff. discriminate. Qed.
Lemma constant_name_iff css lang n s : get_constant_name lang css n = Some s <-> constant_name css lang n s.
Proof.
  unfold get_constant_name, constant_name. destruct (is lang ["css"]) eqn:C.
  - apply is_one in C. subst lang. split; [auto|]. intros [(_ & H)|[(E & _)|(_ & m & W & _)]]; [exact H|discriminate|destruct (css_unwritten _ _ W)].
  - assert (N : lang <> txt "css") by (intro X; apply is_one in X; congruence). rewrite and_then_iff. destruct (is lang ["elixir"]) eqn:E.
    + apply is_one in E. split.
      * intros (m & H & [= <-]). right. left. split; [exact E|]. exists m. split; [apply constant_node_iff; exact H|reflexivity].
      * intros [(X & _)|[(_ & m & W & ->)|(X & _)]]; [congruence| |congruence]. exists m. split; [apply constant_node_iff; exact W|reflexivity].
    + assert (N' : lang <> txt "elixir") by (intro X; apply is_one in X; congruence). split.
      * intros (m & H & [= <-]). right. right. split; [exact N'|]. exists m. split; [apply constant_node_iff; exact H|reflexivity].
      * intros [(X & _)|[(X & _)|(_ & m & W & ->)]]; [congruence|congruence|]. exists m. split; [apply constant_node_iff; exact W|reflexivity].
Qed.
Lemma all_caps_iff s : is_python_constant_name s = true <-> all_caps s.
Proof.
  unfold is_python_constant_name, all_caps, capital, upper, lower, digit. rewrite andb_true_iff, existsb_exists, forallb_forall. split.
  - intros ((c & I & H) & A). split.
    + exists c. split; [exact I|]. specialize (A c I). rewrite !orb_true_iff, !andb_true_iff, !Z.leb_le, ?Z.eqb_eq in *. lia.
    + intros x J. specialize (A x J). rewrite !orb_true_iff, !andb_true_iff, !Z.leb_le, Z.eqb_eq in A. lia.
  - intros ((c & I & H) & A). split.
    + exists c. split; [exact I|]. rewrite !orb_true_iff, !andb_true_iff, !Z.leb_le. lia.
    + intros x J. specialize (A x J). rewrite !orb_true_iff, !andb_true_iff, !Z.leb_le, Z.eqb_eq. lia.
Qed.

(** ** Arrow functions *)
Lemma find_arrow_eq t : find_arrow t = find (fun n => one_of ["arrow_function"] (t_kind n)) (nodes t).
Proof.
  induction t as [k f b s x y cs IH] using tree_ind2. cbn [find_arrow nodes find t_kind]. destruct (one_of ["arrow_function"] k); [reflexivity|].
  induction IH as [|c r H F IH]; cbn [flat_map]; [reflexivity|]. rewrite find_app, H. destruct (find _ (nodes c)); [reflexivity|exact IH].
Qed.
Lemma sum_zero l : list_sum (map size l) = 0 -> l = [].
Proof. destruct l as [|c r]; [reflexivity|]. cbn [map]. unfold list_sum. cbn [fold_right]. rewrite size_eq. lia. Qed.
Lemma sum_member c l : In c l -> size c <= list_sum (map size l).
Proof. induction l as [|d l IH]; [intros []|]. cbn [map]. unfold list_sum in *. cbn [fold_right]. intros [<-|I]; [lia|]. specialize (IH I). lia. Qed.
Lemma down_nodes d : forall t, size t <= S d -> down_to d t = nodes t.
Proof.
  induction d as [|d IH]; intros t L; rewrite nodes_eq; cbn [down_to].
  - rewrite (sum_zero (t_children t)); [reflexivity|]. rewrite size_eq in L. lia.
  - f_equal. rewrite size_eq in L. assert (B : forall c, In c (t_children t) -> size c <= S d) by (intros c I; apply sum_member in I; lia). clear L.
    induction (t_children t) as [|c r IHr]; cbn [flat_map]; [reflexivity|]. rewrite IH by (apply B; left; reflexivity). rewrite IHr; [reflexivity|]. intros x I. apply B. right. exact I.
Qed.
Lemma place_short t p n : at_place t p n -> length p < size t.
Proof.
  induction 1 as [t|t i c p n E A IH]; rewrite size_eq; cbn [List.length]; [lia|]. apply nth_error_In, sum_member in E. lia.
Qed.
Lemma find_arrow_iff t n : find_arrow t = Some n <-> first_anywhere ["arrow_function"] t n.
Proof.
  rewrite find_arrow_eq, <- (down_nodes (size t)) by lia. rewrite <- (find_first_eq ["arrow_function"]), find_first_iff. unfold first_found, first_anywhere. split.
  - intros (p & A & L & K & Un). exists p. split; [exact A|split; [exact K|]]. intros q m A' K'. apply (Un q m A'); [|exact K']. apply place_short in A'. lia.
  - intros (p & A & K & Un). exists p. split; [exact A|split; [apply place_short in A; lia|split; [exact K|]]]. intros q m A' _ K'. exact (Un q m A' K').
Qed.
Lemma find_arrow_none t : find_arrow t = None <-> forall p m, at_place t p m -> ~ of_kind ["arrow_function"] m.
Proof.
  rewrite find_arrow_eq. split.
  - intros N p m A K. apply find_none with (x := m) in N; [|apply in_nodes; eauto]. apply of_kind_mem in K. congruence.
  - intro N. destruct (find _ (nodes t)) as [m|] eqn:F; [|reflexivity]. apply find_some in F. destruct F as (I & K). apply in_nodes in I. destruct I as (p & A). destruct (N p m A). apply of_kind_mem. exact K.
Qed.
Lemma recorded_iff css lang n d : extract_constant lang css n = Some d <-> recorded css lang n d.
Proof.
  unfold extract_constant. destruct (get_constant_name lang css n) as [s|] eqn:G.
  2: { split; [discriminate|]. destruct d as [s ty|s a]; cbn [recorded]; intros (C & _); apply constant_name_iff in C; congruence. }
  assert (Un : forall s', constant_name css lang n s' <-> s' = s) by (intro s'; rewrite <- constant_name_iff, G; split; congruence).
  assert (Js : is lang js = true <-> spoken lang scripts) by apply is_spoken.
  destruct (is lang ["python"] && negb (is_python_constant_name s)) eqn:P.
  - apply andb_true_iff in P. destruct P as (P & C). apply is_one in P. split; [discriminate|]. destruct d as [s' ty|s' a]; cbn [recorded]; rewrite Un.
    + intros (-> & A & _). specialize (A P). apply all_caps_iff in A. rewrite A in C. discriminate.
    + intros (_ & Sp & _). apply Js in Sp. subst lang. discriminate Sp.
  - assert (Caps : lang = txt "python" -> all_caps s).
    { intro E. apply is_one in E. rewrite E in P. apply negb_false_iff in P. apply all_caps_iff. exact P. }
    destruct (if is lang js then find_arrow n else None) as [a|] eqn:A.
    + destruct (is lang js) eqn:J; [|discriminate]. split.
      * intros [= <-]. cbn [recorded]. rewrite Un. split; [reflexivity|split; [apply Js; reflexivity|apply find_arrow_iff; exact A]].
      * destruct d as [s' ty|s' a']; cbn [recorded]; rewrite Un.
        -- intros (-> & _ & N & _). exfalso. rewrite (proj2 (find_arrow_none n) (N (proj1 Js eq_refl))) in A. discriminate.
        -- intros (-> & _ & F). apply find_arrow_iff in F. congruence.
    + split.
      * intros [= <-]. cbn [recorded]. rewrite Un. split; [reflexivity|split; [exact Caps|split]].
        -- intro Sp. apply Js in Sp. rewrite Sp in A. apply find_arrow_none. exact A.
        -- destruct (type_node lang n) as [m|] eqn:T; cbn [option_map].
           ++ exists m. split; [apply type_node_iff; exact T|reflexivity].
           ++ intros m W. apply type_node_iff in W. congruence.
      * destruct d as [s' ty|s' a']; cbn [recorded]; rewrite Un.
        -- intros (-> & _ & _ & T). f_equal. f_equal. destruct ty as [w|].
           ++ destruct T as (m & W & ->). apply type_node_iff in W. rewrite W. reflexivity.
           ++ destruct (type_node lang n) as [m|] eqn:E; [|reflexivity]. destruct (T m). apply type_node_iff. exact E.
        -- intros (-> & Sp & F). apply Js in Sp. rewrite Sp in A. apply find_arrow_iff in F. congruence.
Qed.
