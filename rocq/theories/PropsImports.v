(** C107, continued: imports written as calls or with a path in quotes (Ruby, Lua, Go, OCaml), and the modules
    used, in every language. *)
From Verif Require Import Base Text FtsText CallGraphSpec CallGraphProofs Analysis AnalysisSpec AnalysisTree AnalysisProofs AnalysisText AnalysisMore PropsAnalysis.
From Coq Require Import String.
Open Scope string_scope.
Open Scope nat_scope.
Open Scope list_scope.
Notation length := List.length.

(** ** What should be found *)
(** a node with a property, at most [d] levels down, with none of the nodes above it stopping the search *)
Definition exposed (stop : tree -> Prop) (d : nat) (t : tree) (P : tree -> Prop) : Prop :=
  exists p n, at_place t p n /\ length p <= d /\ P n /\ forall q r m, p = q ++ r -> r <> [] -> at_place t q m -> ~ stop m.
(** the last part of a path, cut at slashes *)
Definition after_slashes (path s : text) : Prop := exists b, path = b ++ s /\ (b = [] \/ exists b', b = b' ++ [47%Z]) /\ ~ In 47%Z s.
(** the first child of some kinds *)
Definition first_child_of (ks : list string) (n c : tree) : Prop := exists l r, t_children n = l ++ c :: r /\ of_kind ks c /\ forall x, In x l -> ~ of_kind ks x.
(** A call in Ruby: [require] or [require_relative] of a string; in Lua: [require] of a string, or a call of
    something that is not a plain name. *)
Definition ruby_require (n : tree) (s : text) : Prop :=
  of_kind ["call"] n /\ (no_field "method" n \/ exists m, in_field "method" n m /\ (t_text m = txt "require" \/ t_text m = txt "require_relative"))
  /\ exists a x core, in_field "arguments" n a /\ first_child_of ["string"; "string_content"] a x /\ unquoted (t_text x) core /\ after_slashes core s.
Definition lua_other (n : tree) : Prop := exists c, in_fields [] n c /\ t_kind c = txt "identifier" /\ t_text c <> txt "require".
Definition lua_require (d : nat) (n : tree) (s : text) : Prop :=
  of_kind ["function_call"] n /\ ~ lua_other n /\ exists a x, in_field "arguments" n a /\ first_found ["string_content"] d a x /\ s = t_text x.
Definition go_import (d : nat) (n : tree) (s : text) : Prop := of_kind ["import_spec"] n /\ exists x, first_found ["interpreted_string_literal_content"] d n x /\ after_slashes (t_text x) s.
Definition ocaml_open (d : nat) (n : tree) (s : text) : Prop := of_kind ["open_module"] n /\ exists x, first_found ["module_name"] d n x /\ s = t_text x.

(** ** Proofs *)
Lemma fold_or_else {A B} (f : A -> option B) l : forall a, fold_left (fun a c => or_else a (f c)) l a = match a with Some x => Some x | None => fold_left (fun a c => or_else a (f c)) l None end.
Proof.
  induction l as [|c l IH]; intro a; cbn [fold_left]; [destruct a; reflexivity|]. rewrite IH. destruct a as [x|]; cbn [or_else]; [reflexivity|]. symmetry. apply IH.
Qed.
Lemma find_app' {A} (f : A -> bool) a b : find f (a ++ b) = match find f a with Some x => Some x | None => find f b end.
Proof. induction a as [|x a IH]; cbn; [reflexivity|]. destruct (f x); [reflexivity|exact IH]. Qed.
Lemma first_of_kind_eq ks d : forall t, first_of_kind (S d) ks t = find (fun n => one_of ks (t_kind n)) (down_to d t).
Proof.
  induction d as [|d IH]; intro t.
  - cbn [first_of_kind down_to find]. destruct (one_of ks (t_kind t)); [reflexivity|]. induction (t_children t) as [|c l IHl]; cbn [fold_left or_else]; auto.
  - remember (S d) as sd. cbn [first_of_kind]. subst sd. cbn [down_to find]. destruct (one_of ks (t_kind t)); [reflexivity|].
    induction (t_children t) as [|c l IHl]; [reflexivity|]. cbn [fold_left flat_map or_else]. rewrite find_app', fold_or_else, IHl, IH. reflexivity.
Qed.
Lemma first_of_kind_iff ks d t n : first_of_kind (S d) ks t = Some n <-> first_found ks d t n.
Proof. rewrite first_of_kind_eq, <- find_first_eq. apply find_first_iff. Qed.
Lemma exposed_zero stop t P : exposed stop 0 t P <-> P t.
Proof.
  split.
  - intros ([|i p] & n & A & L & H & _); [inversion A; subst; exact H|cbn in L; lia].
  - intro H. exists [], t. split; [constructor|split; [auto|split; [exact H|]]]. intros q r m E N. destruct q; [cbn in E; congruence|discriminate E].
Qed.
Lemma exposed_succ (stop : tree -> Prop) d t P : exposed stop (S d) t P <-> P t \/ ~ stop t /\ exists c, In c (t_children t) /\ exposed stop d c P.
Proof.
  split.
  - intros (p & n & A & L & H & N). inversion A as [|? i c p' ? E A']; subst; [left; exact H|]. right. split; [apply (N [] (i :: p') t); [reflexivity|discriminate|constructor]|].
    exists c. split; [eapply nth_error_In; eauto|]. exists p', n. split; [exact A'|split; [cbn in L; lia|split; [exact H|]]]. intros q r m E' Nr Aq. apply (N (i :: q) r m); [cbn; congruence|exact Nr|econstructor; eauto].
  - intros [H|(Ns & c & I & p & n & A & L & H & N)].
    + exists [], t. split; [constructor|split; [cbn; lia|split; [exact H|]]]. intros q r m E Nr. destruct q; [cbn in E; congruence|discriminate E].
    + destruct (In_nth_error _ _ I) as (i & E). exists (i :: p), n. split; [econstructor; eauto|split; [cbn; lia|split; [exact H|]]].
      intros [|j q] r m Eq Nr Aq.
      * inversion Aq; subst. exact Ns.
      * cbn in Eq. injection Eq as <- Eq. inversion Aq as [|? ? c' ? ? E' A']; subst. rewrite E in E'. injection E' as <-. apply (N q r m); auto.
Qed.
Lemma visit_iff U md lang s (stop : tree -> Prop) (P : tree -> Prop) :
  (forall t, In s (fst (if one_of (import_kinds (txt lang)) (t_kind t) then import_here U md (txt lang) t else ([], true))) <-> P t) ->
  (forall t, snd (if one_of (import_kinds (txt lang)) (t_kind t) then import_here U md (txt lang) t else ([], true)) = true <-> ~ stop t) ->
  forall d t, In s (import_visit U md (txt lang) (S d) t) <-> exposed stop d t P.
Proof.
  intros Here On. induction d as [|d IH]; intro t.
  - rewrite exposed_zero, <- Here. cbn [import_visit]. destruct (if one_of _ _ then _ else _) as (found & on). cbn [fst]. rewrite in_app_iff.
    split; [|auto]. intros [X|X]; [exact X|]. destruct on; [|destruct X]. apply in_flat_map in X. destruct X as (c & _ & []).
  - rewrite exposed_succ, <- Here, <- On. remember (S d) as sd. cbn [import_visit]. destruct (if one_of _ _ then _ else _) as (found & on). cbn [fst snd]. rewrite in_app_iff. subst sd. destruct on.
    + rewrite in_flat_map. split.
      * intros [X|(c & Ic & X)]; [left; exact X|right]. split; [reflexivity|exists c; split; [exact Ic|apply IH; exact X]].
      * intros [X|(_ & c & Ic & X)]; [left; exact X|right]. exists c; split; [exact Ic|apply IH; exact X].
    + split; [intros [X|[]]; left; exact X|intros [X|(X & _)]; [left; exact X|discriminate X]].
Qed.
Lemma last_slash path : after_slashes path (last_part "/" path).
Proof. destruct (last_part_spec "/" path) as (b & E & H & C); [discriminate|]. exists b. split; [exact E|split; [exact H|apply one_char; exact C]]. Qed.
Lemma slash_unique path s s' : after_slashes path s -> after_slashes path s' -> s = s'.
Proof.
  intros (b & E & H & N) (b' & E' & H' & N'). assert (L : length b = length b').
  { assert (G : forall x y (s s' : text), x ++ s = y ++ s' -> (y = [] \/ exists b, y = b ++ [47%Z]) -> ~ In 47%Z s -> length y <= length x).
    { intros x y u v Eq Hy Nu. destruct (le_lt_dec (length y) (length x)) as [Le|Lt]; [exact Le|exfalso]. destruct Hy as [->|(z & ->)]; [cbn in Lt; lia|].
      rewrite app_length in Lt. cbn in Lt. apply Nu. assert (K : u = skipn (length x) (z ++ [47%Z]) ++ v). { apply (f_equal (skipn (length x))) in Eq. rewrite skipn_app, skipn_all, Nat.sub_diag in Eq. cbn in Eq. rewrite skipn_app in Eq. rewrite Eq. f_equal.
        replace (length x - length (z ++ [47%Z])) with 0 by (rewrite app_length; cbn; lia). reflexivity. }
      rewrite K. apply in_or_app. left. rewrite skipn_app. apply in_or_app. right. replace (length x - length z) with 0 by lia. left. reflexivity. }
    rewrite E in E'. apply Nat.le_antisymm; [apply (G b' b s' s); auto|apply (G b b' s s'); auto]. }
  rewrite E in E'. apply (f_equal (skipn (length b))) in E'. rewrite skipn_app, skipn_all, Nat.sub_diag in E'. rewrite L, skipn_app, skipn_all, Nat.sub_diag in E'. exact E'.
Qed.
Lemma slash_iff path s : after_slashes path s <-> s = last_part "/" path.
Proof. split; [intro H; apply (slash_unique path); [exact H|apply last_slash]|intros ->; apply last_slash]. Qed.
Lemma unquoted_iff s core : unquoted s core <-> core = trim is_quote s.
Proof.
  assert (Q : forall c, is_quote c = true <-> c = 34%Z \/ c = 39%Z) by (intro c; unfold is_quote; rewrite orb_true_iff, !Z.eqb_eq; tauto).
  assert (Q' : forall c, is_quote c = false <-> c <> 34%Z /\ c <> 39%Z) by (intro c; unfold is_quote; rewrite orb_false_iff, !Z.eqb_neq; tauto).
  split.
  - intros (a & b & -> & H & F & L). symmetry. apply trim_unique; [intros c I; apply Q, H, I|intros c r E; apply Q', (F c r E)|intros c r E; apply Q', (L c r E)].
  - intros ->. destruct (trim_cut is_quote s) as (a & b & E & H & N1 & N2). exists a, b. split; [exact E|split; [intros c I; apply Q, H, I|split; intros c r X; apply Q'; [eapply N1|eapply N2]; exact X]].
Qed.
Lemma first_child_iff ks n c : find (fun c => one_of ks (t_kind c)) (t_children n) = Some c <-> first_child_of ks n c.
Proof.
  unfold first_child_of. rewrite find_split. split; intros (a & b & E & F & N); exists a, b; (split; [exact E|split; [apply of_kind_mem; exact F|]]); intros y Iy.
  - rewrite of_kind_mem, (N y Iy). discriminate.
  - specialize (N y Iy). rewrite of_kind_mem in N. destruct (one_of ks (t_kind y)); congruence.
Qed.
Lemma in_named s x : In x (named_text s) <-> x = s /\ x <> [].
Proof. rewrite in_named_text. split; intros (-> & H); auto. Qed.

(** Ruby: the calls inside a call are not looked at *)
Theorem C107_ruby_imports U max_depth t :
  lists (extract_file_imports U max_depth (txt "ruby") t) (fun s => s <> [] /\ exposed (of_kind ["call"]) max_depth t (fun n => ruby_require n s)).
Proof.
  apply sorted_once_lists. intro s. rewrite (visit_iff U max_depth "ruby" s (of_kind ["call"]) (fun n => s <> [] /\ ruby_require n s)).
  - split; [intros (p & n & A & L & (N & R) & X); split; [exact N|exists p, n; auto]|intros (N & p & n & A & L & R & X); exists p, n; auto].
  - intro n. change (import_kinds (txt "ruby")) with ["call"]. unfold ruby_require. rewrite of_kind_mem. destruct (one_of ["call"] (t_kind n)); cbn [fst]; [|split; [intros []|intros (_ & X & _); discriminate X]].
    unfold import_here. langs. cbn [fst].
    assert (Q : (match by_field "method" n with Some m => one_of ["require"; "require_relative"] (t_text m) | None => true end) = true
      <-> (no_field "method" n \/ exists m, in_field "method" n m /\ (t_text m = txt "require" \/ t_text m = txt "require_relative"))).
    { rewrite <- by_field_none. destruct (by_field "method" n) as [m|] eqn:F.
      - assert (O : one_of ["require"; "require_relative"] (t_text m) = true <-> t_text m = txt "require" \/ t_text m = txt "require_relative").
        { unfold one_of. rewrite mem_in. cbn [map In]. intuition congruence. }
        rewrite O. split; [intro X; right; exists m; split; [apply by_field_iff; exact F|exact X]|]. intros [X|(m' & F' & X)]; [discriminate X|]. apply by_field_iff in F'. rewrite F in F'. injection F' as <-. exact X.
      - split; auto. }
    destruct (match by_field "method" n with Some m => one_of ["require"; "require_relative"] (t_text m) | None => true end).
    + destruct (by_field "arguments" n) as [a|] eqn:Fa; cbn [and_then].
      * destruct (find (fun c => one_of ["string"; "string_content"] (t_kind c)) (t_children a)) as [x|] eqn:Fx.
        -- rewrite in_named. unfold ruby_module. split.
           ++ intros (E & N). split; [exact N|split; [reflexivity|split; [apply Q; reflexivity|]]]. exists a, x, (trim is_quote (t_text x)). split; [apply by_field_iff; exact Fa|split; [apply first_child_iff; exact Fx|split; [apply unquoted_iff; reflexivity|apply slash_iff; exact E]]].
           ++ intros (N & _ & _ & a' & x' & core & Fa' & Fx' & Hc & Hs). apply by_field_iff in Fa'. rewrite Fa in Fa'. injection Fa' as <-. apply first_child_iff in Fx'. rewrite Fx in Fx'. injection Fx' as <-.
              apply unquoted_iff in Hc. subst core. apply slash_iff in Hs. auto.
        -- split; [intros []|]. intros (_ & _ & _ & a' & x' & core & Fa' & Fx' & _). apply by_field_iff in Fa'. rewrite Fa in Fa'. injection Fa' as <-. apply first_child_iff in Fx'. congruence.
      * split; [intros []|]. intros (_ & _ & _ & a' & x' & core & Fa' & _). apply by_field_iff in Fa'. congruence.
    + split; [intros []|]. intros (_ & _ & X & _). apply Q in X. discriminate X.
  - intro n. change (import_kinds (txt "ruby")) with ["call"]. rewrite of_kind_mem. destruct (one_of ["call"] (t_kind n)); cbn [snd]; [unfold import_here; langs; cbn [snd]|]; split; try congruence; try discriminate; intro X; exfalso; apply X; reflexivity.
Qed.
Print Assumptions C107_ruby_imports.
Definition ruby_call (m s : string) : tree := branch "call" "" [at_field "method" (leaf "identifier" m); at_field "arguments" (branch "argument_list" "" [leaf "string" s])].
Example C107_ruby_imports_example :
  extract_file_imports ascii_unicode 10 (txt "ruby") (branch "program" "" [ruby_call "require" "'net/http'"; ruby_call "puts" "'net/ftp'"; branch "if" "" [ruby_call "require_relative" "'json'"]]) = map txt ["http"; "json"].
Proof. reflexivity. Qed.

(** Lua: inside a call of a plain name other than [require] the search goes on *)
Theorem C107_lua_imports U max_depth t :
  lists (extract_file_imports U max_depth (txt "lua") t)
    (fun s => s <> [] /\ exposed (fun n => of_kind ["function_call"] n /\ ~ lua_other n) max_depth t (fun n => lua_require max_depth n s)).
Proof.
  assert (O : forall n, (exists c, and_then (child 0 n) (fun c => if one_of ["identifier"] (t_kind c) && negb (one_of ["require"] (t_text c)) then Some c else None) = Some c) <-> lua_other n).
  { intro n. unfold lua_other. split.
    - intros (c & E). destruct (child 0 n) as [x|] eqn:Ch; [|discriminate E]. cbn [and_then] in E. destruct (one_of ["identifier"] (t_kind x)) eqn:K; [|discriminate E]. destruct (one_of ["require"] (t_text x)) eqn:R; [discriminate E|].
      exists x. split; [apply child0_iff; exact Ch|split].
      + unfold one_of in K. apply mem_in in K. cbn [map In] in K. destruct K as [K|[]]. auto.
      + intro X. unfold one_of in R. assert (mem (t_text x) (map txt ["require"]) = true) by (apply mem_in; left; congruence). congruence.
    - intros (c & Ch & K & N). apply child0_iff in Ch. exists c. rewrite Ch. cbn [and_then]. rewrite K. change (one_of ["identifier"] (txt "identifier")) with true. cbn [andb].
      destruct (one_of ["require"] (t_text c)) eqn:R; [|reflexivity]. unfold one_of in R. apply mem_in in R. destruct R as [R|[]]. congruence. }
  apply sorted_once_lists. intro s. rewrite (visit_iff U max_depth "lua" s (fun n => of_kind ["function_call"] n /\ ~ lua_other n) (fun n => s <> [] /\ lua_require max_depth n s)).
  - split; [intros (p & n & A & L & (N & R) & X); split; [exact N|exists p, n; auto]|intros (N & p & n & A & L & R & X); exists p, n; auto].
  - intro n. change (import_kinds (txt "lua")) with ["function_call"]. unfold lua_require. rewrite of_kind_mem. destruct (one_of ["function_call"] (t_kind n)); cbn [fst]; [|split; [intros []|intros (_ & X & _); discriminate X]].
    unfold import_here. langs. specialize (O n). destruct (and_then (child 0 n) _) as [c|].
    + cbn [fst]. split; [intros []|]. intros (_ & _ & X & _). exfalso. apply X, O. eauto.
    + cbn [fst]. assert (NO : ~ lua_other n) by (rewrite <- O; intros (c & X); discriminate X). clear O. destruct (by_field "arguments" n) as [a|] eqn:Fa; cbn [and_then].
      * destruct (first_of_kind (S max_depth) ["string_content"] a) as [x|] eqn:Fx.
        -- rewrite in_named. split.
           ++ intros (E & N). split; [exact N|split; [reflexivity|split; [exact NO|]]]. exists a, x. split; [apply by_field_iff; exact Fa|split; [apply first_of_kind_iff; exact Fx|exact E]].
           ++ intros (N & _ & _ & a' & x' & Fa' & Fx' & E). apply by_field_iff in Fa'. rewrite Fa in Fa'. injection Fa' as <-. apply first_of_kind_iff in Fx'. rewrite Fx in Fx'. injection Fx' as <-. auto.
        -- split; [intros []|]. intros (_ & _ & _ & a' & x' & Fa' & Fx' & _). apply by_field_iff in Fa'. rewrite Fa in Fa'. injection Fa' as <-. apply first_of_kind_iff in Fx'. congruence.
      * split; [intros []|]. intros (_ & _ & _ & a' & x' & Fa' & _). apply by_field_iff in Fa'. congruence.
  - intro n. change (import_kinds (txt "lua")) with ["function_call"]. rewrite of_kind_mem. destruct (one_of ["function_call"] (t_kind n)); cbn [snd]; [|split; [intros _ (X & _); discriminate X|reflexivity]].
    unfold import_here. langs. specialize (O n). destruct (and_then (child 0 n) _) as [c|]; cbn [snd].
    + split; [intros _ (_ & X); apply X, O; eauto|reflexivity].
    + split; [discriminate|]. intro X. exfalso. apply X. split; [reflexivity|]. rewrite <- O. intros (c & Y). discriminate Y.
Qed.
Print Assumptions C107_lua_imports.
Definition lua_call (f s : string) (inner : list tree) : tree := branch "function_call" "" (leaf "identifier" f :: at_field "arguments" (branch "arguments" "" [branch "string" s [leaf "string_content" s]]) :: inner).
Example C107_lua_imports_example :
  extract_file_imports ascii_unicode 10 (txt "lua") (branch "chunk" "" [lua_call "require" "socket" []; lua_call "pcall" "text" [lua_call "require" "cjson" []]]) = map txt ["cjson"; "socket"].
Proof. reflexivity. Qed.

(** Go and OCaml *)
Theorem C107_go_ocaml_imports U max_depth t :
  lists (extract_file_imports U max_depth (txt "go") t) (fun s => s <> [] /\ exposed (of_kind ["import_spec"]) max_depth t (fun n => go_import max_depth n s))
  /\ lists (extract_file_imports U max_depth (txt "ocaml") t) (fun s => s <> [] /\ exposed (of_kind ["open_module"]) max_depth t (fun n => ocaml_open max_depth n s)).
Proof.
  split; apply sorted_once_lists; intro s.
  - rewrite (visit_iff U max_depth "go" s (of_kind ["import_spec"]) (fun n => s <> [] /\ go_import max_depth n s)).
    + split; [intros (p & n & A & L & (N & R) & X); split; [exact N|exists p, n; auto]|intros (N & p & n & A & L & R & X); exists p, n; auto].
    + intro n. change (import_kinds (txt "go")) with ["import_spec"]. unfold go_import. rewrite of_kind_mem. destruct (one_of ["import_spec"] (t_kind n)); cbn [fst]; [|split; [intros []|intros (_ & X & _); discriminate X]].
      unfold import_here. langs. cbn [fst]. destruct (first_of_kind (S max_depth) ["interpreted_string_literal_content"] n) as [x|] eqn:Fx.
      * rewrite in_named. split.
        -- intros (E & N). split; [exact N|split; [reflexivity|]]. exists x. split; [apply first_of_kind_iff; exact Fx|apply slash_iff; exact E].
        -- intros (N & _ & x' & Fx' & E). apply first_of_kind_iff in Fx'. rewrite Fx in Fx'. injection Fx' as <-. apply slash_iff in E. auto.
      * split; [intros []|]. intros (_ & _ & x' & Fx' & _). apply first_of_kind_iff in Fx'. congruence.
    + intro n. change (import_kinds (txt "go")) with ["import_spec"]. rewrite of_kind_mem. destruct (one_of ["import_spec"] (t_kind n)); cbn [snd]; [unfold import_here; langs; cbn [snd]|]; split; try congruence; try discriminate; intro X; exfalso; apply X; reflexivity.
  - rewrite (visit_iff U max_depth "ocaml" s (of_kind ["open_module"]) (fun n => s <> [] /\ ocaml_open max_depth n s)).
    + split; [intros (p & n & A & L & (N & R) & X); split; [exact N|exists p, n; auto]|intros (N & p & n & A & L & R & X); exists p, n; auto].
    + intro n. change (import_kinds (txt "ocaml")) with ["open_module"]. unfold ocaml_open. rewrite of_kind_mem. destruct (one_of ["open_module"] (t_kind n)); cbn [fst]; [|split; [intros []|intros (_ & X & _); discriminate X]].
      unfold import_here. langs. cbn [fst]. destruct (first_of_kind (S max_depth) ["module_name"] n) as [x|] eqn:Fx.
      * rewrite in_named. split.
        -- intros (E & N). split; [exact N|split; [reflexivity|]]. exists x. split; [apply first_of_kind_iff; exact Fx|exact E].
        -- intros (N & _ & x' & Fx' & E). apply first_of_kind_iff in Fx'. rewrite Fx in Fx'. injection Fx' as <-. auto.
      * split; [intros []|]. intros (_ & _ & x' & Fx' & _). apply first_of_kind_iff in Fx'. congruence.
    + intro n. change (import_kinds (txt "ocaml")) with ["open_module"]. rewrite of_kind_mem. destruct (one_of ["open_module"] (t_kind n)); cbn [snd]; [unfold import_here; langs; cbn [snd]|]; split; try congruence; try discriminate; intro X; exfalso; apply X; reflexivity.
Qed.
Print Assumptions C107_go_ocaml_imports.
Example C107_go_ocaml_imports_example :
  extract_file_imports ascii_unicode 10 (txt "go") (branch "source_file" "" [branch "import_declaration" "" [branch "import_spec" "" [leaf "package_identifier" "h"; branch "interpreted_string_literal" "" [leaf "interpreted_string_literal_content" "net/http"]]]]) = [txt "http"]
  /\ extract_file_imports ascii_unicode 10 (txt "ocaml") (branch "compilation_unit" "" [branch "open_module" "" [branch "module_path" "" [leaf "module_name" "Core"; leaf "module_name" "Std"]]]) = [txt "Core"].
Proof. split; reflexivity. Qed.

(** ** Modules used: where the object of an access is *)
Inductive where_object := fields (fs : list string) | first_child | first_named_child | first_module.
Fixpoint first_field (fs : list string) (n o : tree) : Prop := match fs with [] => False | f :: fs => in_field f n o \/ no_field f n /\ first_field fs n o end.
Definition object_at (d : nat) (w : where_object) (n o : tree) : Prop :=
  match w with
  | fields fs => first_field fs n o
  | first_child => exists r, t_children n = o :: r
  | first_named_child => exists l r, t_children n = l ++ o :: r /\ t_named o = true /\ forall x, In x l -> t_named x = false
  | first_module => first_found ["module_name"] d n o
  end.
(** the accesses of a language, whether creating an object counts, where the object is *)
Definition uses : list (string * (list string * bool * where_object)) :=
  [("python", (["attribute"], false, fields ["object"])); ("javascript", (["member_expression"], false, fields ["object"])); ("rust", (["field_expression"; "scoped_identifier"], false, fields ["value"]));
   ("go", (["selector_expression"], false, fields ["operand"])); ("java", (["field_access"; "member_access_expression"], true, fields ["object"; "expression"]));
   ("csharp", (["field_access"; "member_access_expression"], true, fields ["object"; "expression"])); ("scala", (["field_expression"], false, fields ["value"])); ("c", (["field_expression"], false, first_child));
   ("cpp", (["field_expression"], false, first_child)); ("kotlin", (["navigation_expression"], false, first_named_child)); ("swift", (["navigation_expression"], false, first_child));
   ("ruby", (["call"], false, fields ["receiver"])); ("php", (["member_access_expression"; "scoped_call_expression"], true, first_child));
   ("lua", (["dot_index_expression"; "method_index_expression"], false, first_child)); ("ocaml", (["field_get_expression"; "value_path"], false, first_module))].
Definition created : string := "object_creation_expression".
Definition module_used (U : unicode) (d : nat) (ks : list string) (creates : bool) (w : where_object) (n : tree) (s : text) : Prop :=
  (of_kind ks n /\ exists o, object_at d w n o /\ of_kind ["identifier"; "constant"; "simple_identifier"; "module_name"] o /\ bared U (t_text o) s /\ initial U s /\ ~ In s (map txt ["self"; "this"; "super"]))
  \/ (creates = true /\ t_kind n = txt created /\ exists o, first_found ["type_identifier"; "identifier"; "name"] d n o /\ bared U (t_text o) s /\ s <> []).
Lemma first_field1 f n o : by_field f n = Some o <-> first_field [f] n o.
Proof. cbn [first_field]. rewrite by_field_iff. tauto. Qed.
Lemma object_iff d lang ks cr w n o : In (lang, (ks, cr, w)) uses -> (object_node d (txt lang) n = Some o <-> object_at d w n o).
Proof.
  intro J. cbn [In uses] in J.
  repeat (destruct J as [E|J]; [injection E as <- <- <- <-; unfold object_node; langs; cbn [object_at];
    first [apply first_field1 | apply first_of_kind_iff | apply child0_iff
          | cbn [first_field]; rewrite <- !by_field_iff, <- by_field_none; destruct (by_field "object" n); cbn [or_else]; intuition congruence
          | unfold named_child; rewrite find_split; reflexivity]|]). destruct J.
Qed.
Lemma attribute_iff lang ks cr w n : In (lang, (ks, cr, w)) uses -> (of_kind (attribute_kinds (txt lang)) n <-> of_kind ks n \/ cr = true /\ t_kind n = txt created)
  /\ (of_kind ks n -> t_kind n <> txt created).
Proof.
  intro J. assert (E : attribute_kinds (txt lang) = ks ++ (if cr then [created] else []) /\ forallb (fun k => negb (text_eqb (txt k) (txt created))) ks = true).
  { cbn [In uses] in J. repeat (destruct J as [E|J]; [injection E as <- <- <- <-; split; vm_compute; reflexivity|]). destruct J. }
  destruct E as (E & D). split.
  - rewrite E. unfold of_kind. split.
    + intros (k & I & K). apply in_app_or in I. destruct I as [I|I]; [left; eauto|right]. destruct cr; [destruct I as [<-|[]]; auto|destruct I].
    + intros [(k & I & K)|(-> & K)]; [exists k; split; [apply in_or_app; left; exact I|exact K]|exists created; split; [apply in_or_app; right; left; reflexivity|exact K]].
  - intros (k & I & K) X. rewrite forallb_forall in D. specialize (D k I). rewrite K in X. rewrite X in D. replace (text_eqb (txt created) (txt created)) with true in D by reflexivity. discriminate D.
Qed.
Theorem C107_modules_used U max_depth lang ks creates w t : In (lang, (ks, creates, w)) uses ->
  lists (extract_used_modules U max_depth (txt lang) t) (fun s => within max_depth t (fun n => module_used U max_depth ks creates w n s)).
Proof.
  intro J. apply sorted_once_lists. intro s. rewrite module_visit_iff.
  assert (G : forall n, of_kind (attribute_kinds (txt lang)) n /\ In s (module_here U max_depth (txt lang) n) <-> module_used U max_depth ks creates w n s); [|split; apply within_mono; intros n H; apply G; exact H].
  intro n. destruct (attribute_iff lang ks creates w n J) as (K & D). rewrite K. unfold module_used, module_here.
  assert (C : one_of ["object_creation_expression"] (t_kind n) = true <-> t_kind n = txt created).
  { unfold one_of. rewrite mem_in. cbn [map In]. split; [intros [X|[]]; auto|auto]. }
  destruct (one_of ["object_creation_expression"] (t_kind n)).
  - assert (X : t_kind n = txt created) by (apply C; reflexivity). destruct (first_of_kind (S max_depth) ["type_identifier"; "identifier"; "name"] n) as [o|] eqn:F.
    + rewrite in_named. split.
      * intros ([Y|Y] & E & N); [destruct (D Y X)|]. right. split; [apply Y|split; [exact X|]]. exists o. split; [apply first_of_kind_iff; exact F|split; [rewrite E; apply neat_bared|exact N]].
      * intros [(Y & _)|(Cr & _ & o' & F' & B & N)]; [destruct (D Y X)|]. apply first_of_kind_iff in F'. rewrite F in F'. injection F' as <-. split; [auto|]. rewrite (bared_neat _ _ _ B). auto.
    + split; [intros (_ & [])|]. intros [(Y & _)|(Cr & _ & o' & F' & B & N)]; [destruct (D Y X)|]. apply first_of_kind_iff in F'. congruence.
  - assert (X : t_kind n <> txt created) by (rewrite <- C; discriminate).
    assert (O := fun o => object_iff max_depth lang ks creates w n o J).
    destruct (object_node max_depth (txt lang) n) as [o|].
    + assert (Ob : object_at max_depth w n o) by (apply O; reflexivity).
      assert (Un : forall o', object_at max_depth w n o' -> o' = o) by (intros o' H; apply O in H; congruence).
      destruct (one_of ["identifier"; "constant"; "simple_identifier"; "module_name"] (t_kind o)) eqn:Ko.
      * destruct (one_of ["self"; "this"; "super"] (neat U (t_text o))) eqn:Sf; cbn [negb andb].
        { split; [intros (_ & [])|]. intros [(_ & o' & H & _ & B & _ & N)|(_ & Y & _)]; [|congruence]. exfalso. apply Un in H. subst o'. rewrite (bared_neat _ _ _ B) in Sf. apply N, mem_in. exact Sf. }
        destruct (begins (u_alpha U) (neat U (t_text o))) eqn:Bg.
        -- split.
           ++ intros ([Y|(_ & Y)] & [<-|[]]); [|congruence]. left. split; [exact Y|]. exists o. split; [exact Ob|split; [apply of_kind_mem; exact Ko|split; [apply neat_bared|split; [apply begins_iff; exact Bg|]]]]. rewrite <- mem_in. unfold one_of in Sf. congruence.
           ++ intros [(Y & o' & H & _ & B & _)|(_ & Y & _)]; [|congruence]. apply Un in H. subst o'. split; [auto|]. rewrite (bared_neat _ _ _ B). left. reflexivity.
        -- split; [intros (_ & [])|]. intros [(_ & o' & H & _ & B & Ini & _)|(_ & Y & _)]; [|congruence]. exfalso. apply Un in H. subst o'. rewrite (bared_neat _ _ _ B) in Bg. apply begins_iff in Ini. congruence.
      * split; [intros (_ & [])|]. intros [(_ & o' & H & Ko' & _)|(_ & Y & _)]; [|congruence]. exfalso. apply Un in H. subst o'. apply of_kind_mem in Ko'. congruence.
    + split; [intros (_ & [])|]. intros [(_ & o' & H & _)|(_ & Y & _)]; [|congruence]. apply O in H. discriminate H.
Qed.
Print Assumptions C107_modules_used.
Example C107_modules_used_example :
  extract_used_modules ascii_unicode 10 (txt "ruby") (branch "program" "" [branch "call" "" [at_field "receiver" (leaf "constant" "JSON"); at_field "method" (leaf "identifier" "parse")]; ruby_call "puts" "'x'"]) = [txt "JSON"]
  /\ extract_used_modules ascii_unicode 10 (txt "java") (branch "block" "" [branch "object_creation_expression" "" [token "new"; leaf "type_identifier" "Scanner"]; branch "field_access" "" [at_field "object" (leaf "identifier" "System")]]) = map txt ["Scanner"; "System"].
Proof. split; reflexivity. Qed.
