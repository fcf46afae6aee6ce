(** C107, continued: Lua and Elixir comments, declared names in C, return types, lengths in bytes. *)
From Verif Require Import Base Text FtsText CallGraphSpec CallGraphProofs Analysis AnalysisSpec AnalysisTree AnalysisProofs AnalysisText AnalysisMore PropsAnalysis.
From Coq Require Import String.
Open Scope string_scope.
Open Scope nat_scope.
Open Scope list_scope.
Notation length := List.length.

(** ** Lua: a run of comment lines above the code counts if one of them begins with three dashes *)
Inductive lua_says (U : unicode) : list text -> list text -> Prop :=
| lua_none : lua_says U [] []
| lua_three l ls s ss : marked U "---" l -> says U "---" l s -> lua_says U ls ss -> lua_says U (l :: ls) (s :: ss)
| lua_two l ls s ss : ~ marked U "---" l -> marked U "--" l -> says U "--" l s -> lua_says U ls ss -> lua_says U (l :: ls) (s :: ss)
| lua_other l ls ss : ~ marked U "--" l -> lua_says U ls ss -> lua_says U (l :: ls) ss.
Lemma three_two U l : marked U "---" l -> marked U "--" l.
Proof. intros (t & r & B & ->). exists (txt "---" ++ r), (txt "-" ++ r). split; [exact B|reflexivity]. Qed.
Lemma lua_stop U l : lua_comment U (neat U l) = Stop <-> ~ marked U "--" l /\ ~ between U [] l.
Proof.
  unfold lua_comment. destruct (starts_with (txt "---") (neat U l)) eqn:T; [|apply line_comment_stop].
  apply marked_iff, three_two in T. split; [discriminate|tauto].
Qed.
Lemma lua_takes U block : lua_says U block (takes U (lua_comment U) block).
Proof.
  induction block as [|l block IH]; [constructor|]. unfold takes. cbn [flat_map]. unfold lua_comment at 1. destruct (starts_with (txt "---") (neat U l)) eqn:T.
  - apply marked_iff in T. cbn [app]. apply lua_three; [exact T|apply says_uncomment; [discriminate|exact T]|exact IH].
  - assert (N : ~ marked U "---" l) by (rewrite marked_iff; congruence). unfold line_comment. destruct (starts_with (txt "--") (neat U l)) eqn:T2.
    + apply marked_iff in T2. cbn [app]. apply lua_two; [exact N|exact T2|apply says_uncomment; [discriminate|exact T2]|exact IH].
    + assert (N2 : ~ marked U "--" l) by (rewrite marked_iff; congruence). destruct (existsb _ [] || negb _); cbn [app]; (apply lua_other; [exact N2|exact IH]).
Qed.
Lemma lua_marked_run U before block : run_above U "--" [] before block ->
  lua_marked U (rev (before ++ block)) = existsb (fun l => starts_with (txt "---") (neat U l)) block.
Proof.
  intros (Hb & Hs). rewrite rev_app_distr. assert (Z : lua_marked U (rev before) = false).
  { destruct Hs as [->|(b & l & -> & N)]; [reflexivity|]. rewrite rev_app_distr. cbn [rev app lua_marked]. apply lua_stop in N. rewrite N. reflexivity. }
  revert Hb. induction block as [|l block IH] using rev_ind; intro Hb; [exact Z|]. rewrite rev_app_distr. cbn [rev app lua_marked].
  assert (Hl : lua_comment U (neat U l) <> Stop). { intro E. apply lua_stop in E. destruct (Hb l); [apply in_or_app; right; left; reflexivity|..]; tauto. }
  rewrite existsb_app. cbn [existsb]. rewrite orb_false_r, orb_comm. rewrite <- IH by (intros x I; apply Hb, in_or_app; left; exact I). destruct (lua_comment U (neat U l)); [reflexivity|reflexivity|congruence].
Qed.
Theorem C107_lua U before block after t : run_above U "--" [] before block -> t_first t = length (before ++ block) ->
  exists ss, lua_says U block ss
  /\ ((exists l, In l block /\ marked U "---" l) -> extract_docstring U (txt "lua") (before ++ block ++ after) t = Ok (Some (join [32%Z] ss)))
  /\ ((forall l, In l block -> ~ marked U "---" l) -> extract_docstring U (txt "lua") (before ++ block ++ after) t = Ok None).
Proof.
  intros R F. exists (takes U (lua_comment U) block). split; [apply lua_takes|].
  unfold extract_docstring, comment_doc. rewrite F, app_assoc, firstn_whole.
  assert (L : (length ((before ++ block) ++ after) <? length (before ++ block)) = false) by (apply Nat.ltb_ge; rewrite (app_length (before ++ block)); lia). rewrite L.
  langs. rewrite (lua_marked_run U before block R).
  assert (T : go_up U (fun _ => lua_comment U) (rev (before ++ block)) [] = takes U (lua_comment U) block).
  { destruct R as (Hb & Hs). rewrite rev_app_distr, go_up_run.
    - rewrite app_nil_r. destruct Hs as [->|(b & l & -> & N)]; [reflexivity|]. rewrite rev_app_distr. cbn [rev app go_up]. apply lua_stop in N. rewrite N. reflexivity.
    - intros l I E. apply lua_stop in E. destruct (Hb l I); tauto. }
  rewrite T. split.
  - intros (l & I & M). assert (X : existsb (fun l => starts_with (txt "---") (neat U l)) block = true) by (apply existsb_exists; exists l; split; [exact I|apply marked_iff; exact M]). rewrite X.
    assert (NE : takes U (lua_comment U) block <> []).
    { intro E. assert (J : In (uncomment U "---" (neat U l)) (takes U (lua_comment U) block)) by (apply in_flat_map; exists l; split; [exact I|]; unfold lua_comment; apply marked_iff in M; rewrite M; left; reflexivity). rewrite E in J. destruct J. }
    unfold spoken. destruct (takes U (lua_comment U) block); [congruence|reflexivity].
  - intro N. destruct (existsb (fun l => starts_with (txt "---") (neat U l)) block) eqn:X; [|reflexivity]. apply existsb_exists in X. destruct X as (l & I & M). exfalso. apply (N l I). apply marked_iff. exact M.
Qed.
Print Assumptions C107_lua.
Example C107_lua_example :
  extract_docstring ascii_unicode (txt "lua") (map txt ["local x = 1"; "--- Adds."; "-- Two numbers."; ""; "function add(a, b)"]) (on_rows 4 4 (leaf "function_declaration" "")) = Ok (Some (txt "Adds. Two numbers."))
  /\ extract_docstring ascii_unicode (txt "lua") (map txt ["--- Other."; "local x = 1"; "-- Adds."; "function add(a, b)"]) (on_rows 3 3 (leaf "function_declaration" "")) = Ok None.
Proof. split; vm_compute; reflexivity. Qed.

(** ** Elixir: the nearest @doc or @moduledoc above with a quote, past blank lines, comments and attributes *)
Definition doc_line (U : unicode) (l : text) : Prop := marked U "@doc" l \/ marked U "@moduledoc" l.
Definition quoted_doc (U : unicode) (l : text) : Prop := doc_line U l /\ exists t, bared U l t /\ In 34%Z t.
Definition passed (U : unicode) (l : text) : Prop := ~ quoted_doc U l /\ (blank_line U l \/ marked U "#" l \/ marked U "@" l).
(** [core] is the text [s] from its first quote on, without quotes around it *)
Definition in_quotes (s core : text) : Prop :=
  exists before rest a b, s = before ++ rest /\ ~ In 34%Z before /\ (exists r, rest = 34%Z :: r) /\ rest = a ++ core ++ b /\ (forall c, In c (a ++ b) -> c = 34%Z)
    /\ (forall c r, core = c :: r -> c <> 34%Z) /\ (forall c r, core = r ++ [c] -> c <> 34%Z).
Definition unq (c : Z) : bool := negb (c =? 34)%Z.
Lemma drop_quote s : exists before, s = before ++ drop_while unq s /\ ~ In 34%Z before /\ (In 34%Z s -> exists r, drop_while unq s = 34%Z :: r).
Proof.
  induction s as [|x s (b & E & N & Q)]; [exists []; split; [reflexivity|split; [intros []|intros []]]|]. cbn [drop_while]. destruct (unq x) eqn:D; unfold unq in D.
  - apply negb_true_iff, Z.eqb_neq in D. exists (x :: b). split; [cbn [app]; f_equal; exact E|split; [intros [H|H]; [congruence|exact (N H)]|]]. intros [H|H]; [congruence|]. apply Q. exact H.
  - apply negb_false_iff, Z.eqb_eq in D. subst x. exists []. split; [reflexivity|split; [intros []|intros _; exists s; reflexivity]].
Qed.
Lemma no_quote s : ~ In 34%Z s -> drop_while unq s = [].
Proof.
  intro N. destruct (drop_while unq s) as [|x r] eqn:E; [reflexivity|]. exfalso. revert x r E. induction s as [|y s IH]; intros x r E; [discriminate|]. cbn [drop_while] in E. destruct (unq y) eqn:D.
  - eapply IH; [|exact E]. intro H. apply N. right. exact H.
  - apply negb_false_iff, Z.eqb_eq in D. apply N. left. exact D.
Qed.
Lemma doc_iff U l : doc_line U l <-> starts_with (txt "@doc") (neat U l) || starts_with (txt "@moduledoc") (neat U l) = true.
Proof. unfold doc_line. rewrite !marked_iff, orb_true_iff. tauto. Qed.
Lemma doc_at U l : doc_line U l -> marked U "@" l.
Proof. intros [(t & r & B & ->)|(t & r & B & ->)]; [exists (txt "@doc" ++ r), (txt "doc" ++ r)|exists (txt "@moduledoc" ++ r), (txt "moduledoc" ++ r)]; (split; [exact B|reflexivity]). Qed.
Lemma quoted_iff U l : quoted_doc U l <-> doc_line U l /\ In 34%Z (neat U l).
Proof. unfold quoted_doc. split; intros (D & Q); (split; [exact D|]); [destruct Q as (t & B & I); rewrite (bared_neat _ _ _ B); exact I|exists (neat U l); split; [apply neat_bared|exact Q]]. Qed.
Lemma elixir_pass U l r : passed U l -> elixir_doc U (l :: r) = elixir_doc U r.
Proof.
  intros (NQ & K). cbn [elixir_doc]. rewrite quoted_iff, doc_iff in NQ. destruct (starts_with (txt "@doc") (neat U l) || starts_with (txt "@moduledoc") (neat U l)).
  - change (fun c => negb (c =? 34)%Z) with unq. rewrite no_quote by tauto. reflexivity.
  - rewrite blank_iff, !marked_iff in K. destruct K as [K|[K|K]]; rewrite K; cbn [andb negb]; [|rewrite andb_false_r; cbn [andb]|rewrite andb_false_r]; reflexivity.
Qed.
Lemma elixir_passes U block rest : Forall (passed U) block -> elixir_doc U (rev block ++ rest) = elixir_doc U rest.
Proof. intro F. induction block as [|l block IH] using rev_ind; [reflexivity|]. apply Forall_app in F. destruct F as (F1 & F2). inversion F2; subst. rewrite rev_app_distr. cbn [rev app]. rewrite elixir_pass by assumption. apply IH. exact F1. Qed.
Lemma doc_above U before ls start : t_first start = length before -> extract_docstring U (txt "elixir") (before ++ ls) start = Ok (elixir_doc U (rev before)).
Proof.
  intro F. unfold extract_docstring, comment_doc. rewrite F, firstn_whole. assert (L : (length (before ++ ls) <? length before) = false) by (apply Nat.ltb_ge; rewrite app_length; lia). rewrite L. langs. reflexivity.
Qed.
Theorem C107_elixir U before d block after t : Forall (passed U) block ->
  (t_first t = length (before ++ d :: block) -> quoted_doc U d ->
     exists s core, bared U d s /\ in_quotes s core /\ extract_docstring U (txt "elixir") ((before ++ d :: block) ++ after) t = Ok (Some core))
  /\ (t_first t = length (before ++ d :: block) -> ~ quoted_doc U d -> ~ passed U d -> extract_docstring U (txt "elixir") ((before ++ d :: block) ++ after) t = Ok None)
  /\ (t_first t = length block -> extract_docstring U (txt "elixir") (block ++ after) t = Ok None).
Proof.
  intro P. split; [|split].
  - intros F Q. rewrite (doc_above _ _ _ _ F). replace (rev (before ++ d :: block)) with (rev block ++ d :: rev before) by (rewrite rev_app_distr; cbn [rev]; rewrite <- app_assoc; reflexivity). rewrite (elixir_passes _ _ _ P). cbn [elixir_doc].
    apply quoted_iff in Q. destruct Q as (D & Q). apply doc_iff in D. rewrite D. destruct (drop_quote (neat U d)) as (b & E & N & H). destruct (H Q) as (r & Er). change (fun c => negb (c =? 34)%Z) with unq. rewrite Er.
    destruct (trim_cut (fun c => (c =? 34)%Z) (34%Z :: r)) as (a & z & E2 & A & B1 & B2).
    exists (neat U d), (trim (fun c => (c =? 34)%Z) (34%Z :: r)). split; [apply neat_bared|]. split; [|reflexivity].
    exists b, (34%Z :: r), a, z. rewrite Er in E. split; [exact E|split; [exact N|split; [exists r; reflexivity|split; [exact E2|split; [|split]]]]].
    + intros c I. specialize (A c I). apply Z.eqb_eq. exact A.
    + intros c x Ex. specialize (B1 c x Ex). apply Z.eqb_neq. exact B1.
    + intros c x Ex. specialize (B2 c x Ex). apply Z.eqb_neq. exact B2.
  - intros F NQ NP. rewrite (doc_above _ _ _ _ F). replace (rev (before ++ d :: block)) with (rev block ++ d :: rev before) by (rewrite rev_app_distr; cbn [rev]; rewrite <- app_assoc; reflexivity). rewrite (elixir_passes _ _ _ P). cbn [elixir_doc].
    assert (ND : ~ doc_line U d) by (intro D; apply NP; split; [exact NQ|right; right; apply doc_at; exact D]). rewrite doc_iff in ND. apply not_true_is_false in ND. rewrite ND.
    assert (X : non_empty (neat U d) = true /\ starts_with (txt "#") (neat U d) = false /\ starts_with (txt "@") (neat U d) = false).
    { split; [|split].
      - destruct (non_empty (neat U d)) eqn:X; [reflexivity|]. exfalso. apply NP. split; [exact NQ|left]. apply blank_iff. exact X.
      - destruct (starts_with (txt "#") (neat U d)) eqn:X; [|reflexivity]. exfalso. apply NP. split; [exact NQ|right; left]. apply marked_iff. exact X.
      - destruct (starts_with (txt "@") (neat U d)) eqn:X; [|reflexivity]. exfalso. apply NP. split; [exact NQ|right; right]. apply marked_iff. exact X. }
    destruct X as (X1 & X2 & X3). rewrite X1, X2, X3. reflexivity.
  - intro F. rewrite (doc_above _ _ _ _ F). rewrite <- (app_nil_r (rev block)), (elixir_passes _ _ _ P). reflexivity.
Qed.
Print Assumptions C107_elixir.
Example C107_elixir_example :
  passed ascii_unicode (txt "  @spec add(integer, integer) :: integer") /\ quoted_doc ascii_unicode (txt "@doc " ++ [34%Z] ++ txt "Adds." ++ [34%Z])
  /\ extract_docstring ascii_unicode (txt "elixir") [txt "x = 1"; txt "@doc " ++ [34%Z] ++ txt "Adds." ++ [34%Z]; txt "# note"; txt "@doc false"; txt "  @spec add(integer, integer) :: integer"; txt "def add(a, b)"]
       (on_rows 5 5 (leaf "call" "")) = Ok (Some (txt "Adds."))
  /\ extract_docstring ascii_unicode (txt "elixir") [txt "@doc " ++ [34%Z] ++ txt "Other." ++ [34%Z]; txt "x = 1"; txt "def add(a, b)"] (on_rows 2 2 (leaf "call" "")) = Ok None.
Proof.
  split; [|split; [|split; vm_compute; reflexivity]].
  - split; [rewrite quoted_iff; intros (_ & I); vm_compute in I; intuition discriminate|right; right; apply marked_iff; vm_compute; reflexivity].
  - apply quoted_iff. split; [left; apply marked_iff; vm_compute; reflexivity|vm_compute; tauto].
Qed.

(** ** Declared names in C: the identifier inside pointers, arrays, functions and parentheses *)
Definition declarator_kinds : list string := ["pointer_declarator"; "array_declarator"; "function_declarator"; "parenthesized_declarator"; "reference_declarator"].
Inductive declares : nat -> tree -> tree -> Prop :=
| declares_itself n t : of_kind ["identifier"] t -> declares n t t
| declares_below n t d i : of_kind declarator_kinds t -> in_field "declarator" t d -> declares n d i -> declares (S n) t i
| declares_in_child n t l c r i : of_kind declarator_kinds t -> no_field "declarator" t -> t_children t = l ++ c :: r ->
    (forall x, In x l -> ~ of_kind ("identifier" :: declarator_kinds) x) -> declares n c i -> declares (S n) t i.
Lemma kind_not ks t : ~ of_kind ks t <-> one_of ks (t_kind t) = false.
Proof. rewrite of_kind_mem. unfold one_of. destruct (mem (t_kind t) (map txt ks)); split; congruence. Qed.
Lemma not_identifier t : of_kind declarator_kinds t -> one_of ["identifier"] (t_kind t) = false.
Proof. intros (k & I & E). rewrite E. cbn in I. destruct I as [<-|[<-|[<-|[<-|[<-|[]]]]]]; reflexivity. Qed.
Lemma no_declared f x : ~ of_kind ("identifier" :: declarator_kinds) x -> identifier_in f x = None.
Proof.
  intro N. destruct f; [reflexivity|]. cbn [identifier_in]. assert (N1 : ~ of_kind ["identifier"] x) by (intros (k & [<-|[]] & E); apply N; exists "identifier"; split; [left; reflexivity|exact E]).
  assert (N2 : ~ of_kind declarator_kinds x) by (intros (k & I & E); apply N; exists k; split; [right; exact I|exact E]).
  apply kind_not in N1. apply kind_not in N2. rewrite N1. change declarators with declarator_kinds. rewrite N2. reflexivity.
Qed.
Lemma fold_some {A B} (f : A -> option B) l b : fold_left (fun a c => or_else a (f c)) l (Some b) = Some b.
Proof. induction l as [|x l IH]; [reflexivity|]. exact IH. Qed.
Lemma declares_found n t i : declares n t i -> forall m, n <= m -> identifier_in (S m) t = Some i.
Proof.
  induction 1 as [n t K|n t d i K F D IH|n t l c r i K F E N D IH]; intros m L.
  - cbn [identifier_in]. apply of_kind_mem in K. rewrite K. reflexivity.
  - destruct m as [|m]; [lia|]. remember (S m) as k. cbn [identifier_in]. rewrite (not_identifier _ K). apply of_kind_mem in K. change declarators with declarator_kinds. rewrite K.
    apply by_field_iff in F. rewrite F. subst k. apply IH. lia.
  - destruct m as [|m]; [lia|]. remember (S m) as k. cbn [identifier_in]. rewrite (not_identifier _ K). apply of_kind_mem in K. change declarators with declarator_kinds. rewrite K.
    assert (Z : by_field "declarator" t = None). { destruct (by_field "declarator" t) as [x|] eqn:X; [|reflexivity]. apply by_field_iff in X. destruct X as (a & b & Ec & Ef & _). exfalso. apply (F x); [rewrite Ec; apply in_or_app; right; left; reflexivity|exact Ef]. }
    rewrite Z, E, fold_left_app. replace (fold_left (fun a x => or_else a (identifier_in k x)) l None) with (@None tree).
    + cbn [fold_left or_else]. subst k. rewrite (IH m) by lia. apply fold_some.
    + clear - N. induction l as [|x l IH]; [reflexivity|]. cbn [fold_left]. cbn [or_else]. rewrite no_declared by (apply N; left; reflexivity). apply IH. intros y I. apply N. right. exact I.
Qed.
Lemma found_place f : forall t i, identifier_in f t = Some i -> of_kind ["identifier"] i /\ exists p, at_place t p i /\ length p < f.
Proof.
  induction f as [|f IH]; intros t i H; [discriminate|]. cbn [identifier_in] in H. destruct (one_of ["identifier"] (t_kind t)) eqn:K.
  - injection H as <-. split; [apply of_kind_mem; exact K|]. exists []. split; [constructor|cbn; lia].
  - destruct (one_of declarators (t_kind t)); [|discriminate].
    assert (C : exists c, In c (t_children t) /\ identifier_in f c = Some i).
    { destruct (by_field "declarator" t) as [d|] eqn:D.
      - apply by_field_iff in D. destruct D as (a & b & E & _). exists d. split; [rewrite E; apply in_or_app; right; left; reflexivity|exact H].
      - revert H. generalize (t_children t). induction l as [|x l IHl]; [discriminate|]. cbn [fold_left or_else]. destruct (identifier_in f x) as [y|] eqn:Y.
        + rewrite fold_some. intro H. injection H as <-. exists x. split; [left; reflexivity|exact Y].
        + intro H. destruct (IHl H) as (c & I & Q). exists c. split; [right; exact I|exact Q]. }
    destruct C as (c & I & Q). destruct (IH c i Q) as (K' & p & A & L). split; [exact K'|]. apply In_nth_error in I. destruct I as (k & I). exists (k :: p). split; [econstructor; eassumption|cbn [length]; lia].
Qed.
Theorem C107_declarators max_depth t d : in_field "declarator" t d ->
  (forall n i, declares n d i -> n <= max_depth -> declared max_depth t = Some i)
  /\ (forall i, declared max_depth t = Some i -> of_kind ["identifier"] i /\ exists p, at_place d p i /\ length p <= max_depth).
Proof.
  intro F. apply by_field_iff in F. unfold declared. rewrite F. cbn [and_then]. split.
  - intros n i D L. apply (declares_found n d i D max_depth L).
  - intros i H. destruct (found_place _ _ _ H) as (K & p & A & L). split; [exact K|]. exists p. split; [exact A|lia].
Qed.
Print Assumptions C107_declarators.
(** [char *( *handlers[4])(int)] is not far from it *)
Definition c_declarator : tree := branch "array_declarator" "" [at_field "declarator" (branch "parenthesized_declarator" "" [token "("; branch "pointer_declarator" "" [token "*"; at_field "declarator" (leaf "identifier" "handlers")]; token ")"])].
Example C107_declarators_example : declares 3 c_declarator (at_field "declarator" (leaf "identifier" "handlers"))
  /\ extract_variables ascii_unicode 10 (txt "c") (branch "declaration" "" [leaf "primitive_type" "char"; at_field "declarator" c_declarator]) = [txt "handlers"].
Proof.
  split; [|vm_compute; reflexivity]. eapply declares_below; [apply of_kind_mem; reflexivity|apply by_field_iff; reflexivity|].
  eapply declares_in_child with (l := [token "("]) (r := [token ")"]); [apply of_kind_mem; reflexivity|intros x [<-|[<-|[<-|[]]]]; discriminate|reflexivity|intros x [<-|[]]; apply kind_not; reflexivity|].
  eapply declares_below; [apply of_kind_mem; reflexivity|apply by_field_iff; reflexivity|]. apply declares_itself. apply of_kind_mem. reflexivity.
Qed.

(** ** Return types: the text of the field of the language *)
Definition return_fields : list (string * string) :=
  [("python", "return_type"); ("rust", "return_type"); ("typescript", "return_type"); ("vue", "return_type"); ("svelte", "return_type"); ("go", "result");
   ("java", "type"); ("csharp", "type"); ("c", "type"); ("cpp", "type")].
Theorem C107_return_types lang f t s : In (lang, f) return_fields -> (extract_return_type (txt lang) t = Some s <-> exists c, in_field f t c /\ t_text c = s).
Proof.
  intro I. assert (E : extract_return_type (txt lang) t = option_map t_text (by_field f t)).
  { repeat (destruct I as [E|I]; [injection E as <- <-; unfold extract_return_type; langs; reflexivity|]). destruct I. }
  rewrite E. split.
  - destruct (by_field f t) as [c|] eqn:B; [|discriminate]. intro H. injection H as <-. exists c. split; [apply by_field_iff; exact B|reflexivity].
  - intros (c & F & <-). apply by_field_iff in F. rewrite F. reflexivity.
Qed.
Print Assumptions C107_return_types.
Example C107_return_types_example : extract_return_type (txt "go") (branch "function_declaration" "" [at_field "name" (leaf "identifier" "f"); at_field "result" (leaf "type_identifier" "error")]) = Some (txt "error").
Proof. reflexivity. Qed.

(** ** Names of variables are measured in bytes of UTF-8 *)
Definition utf8 (c : Z) : list Z :=
  (if c <? 128 then [c] else if c <? 2048 then [192 + c / 64; 128 + c mod 64]
   else if c <? 65536 then [224 + c / 4096; 128 + c / 64 mod 64; 128 + c mod 64]
   else [240 + c / 262144; 128 + c / 4096 mod 64; 128 + c / 64 mod 64; 128 + c mod 64])%Z.
Theorem C107_length_in_bytes s : byte_len s = length (flat_map utf8 s).
Proof.
  induction s as [|c s IH]; [reflexivity|]. unfold byte_len in *. cbn [map list_sum fold_right flat_map]. rewrite app_length, <- IH. change (fold_right Nat.add 0 (map width s)) with (list_sum (map width s)). f_equal.
  unfold width, utf8. destruct (c <? 128)%Z; [reflexivity|]. destruct (c <? 2048)%Z; [reflexivity|]. destruct (c <? 65536)%Z; reflexivity.
Qed.
Print Assumptions C107_length_in_bytes.
Example C107_length_in_bytes_example : byte_len [97; 233; 8364; 128512]%Z = 10.
Proof. reflexivity. Qed.
