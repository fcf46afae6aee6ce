(** C101: which index a colgrep command uses. *)
From Coq Require Import Permutation.
From Verif Require Import Base Text Regex Glob GlobMore Which WhichSpec WhichProofs.
Open Scope nat_scope.

(** The project is determined: the order in which the data directory is read does not matter. *)
Theorem C101_one_project : forall name s s' p m cwd root root', Permutation s s' ->
  project_of name s p m cwd root -> project_of name s' p m cwd root' -> root = root'.
Proof.
  intros name s s' p m cwd root root' P A B.
  assert (HI : has_index name s' p m <-> has_index name s p m).
  { split; intros (e & c & I & E); exists e, c; (split; [|exact E]); [apply (Permutation_in _ (Permutation_sym P))|apply (Permutation_in _ P)]; exact I. }
  assert (HR : forall q, recorded s' q m <-> recorded s q m).
  { intros q. split; intros (d & e & I & E); exists d, e; (split; [|exact E]); [apply (Permutation_in _ (Permutation_sym P))|apply (Permutation_in _ P)]; exact I. }
  unfold project_of in *. rewrite HI in B. setoid_rewrite HR in B.
  destruct A as [(A & ->)|[(A & A2 & ->)|[(A & A2 & R & I & M)|(A & A2 & -> & M)]]]; destruct B as [(B & ->)|[(B & B2 & ->)|[(B & B2 & R' & I' & M')|(B & B2 & -> & M')]]];
    try reflexivity; try contradiction.
  - assert (L : length root = length root') by (specialize (M _ R' I'); specialize (M' _ R I); lia).
    destruct I as (n & r & E). destruct I' as (n' & r' & E'). rewrite E in E'. destruct (app_same _ _ _ _ L E'); assumption.
  - exfalso. exact (M' _ R I).
  - exfalso. exact (M _ R' I').
Qed.
Print Assumptions C101_one_project.

(** After any history of edits, searches, builds that end in any way, and clears: a search uses the
    index of the directory itself if it has one, else of the nearest directory above that was indexed
    with the same model, else a new one of its own; it changes no other index; and what it shows was at
    some time a file of that project. *)
Theorem C101_right_index : forall name wanted included disk evs q o, distinct_names name ->
  let w := history name wanted included disk evs in
  let r := search name wanted included w q o in
  exists root, project_of name (w_store w) (q_path q) (q_model q) (q_cwd q) root /\ below root (q_path q) /\
    (q_no_update q = true -> fst r = w) /\
    (forall d, d <> name root (q_model q) -> lookup (w_store (fst r)) d = lookup (w_store w) d) /\
    (forall l f t, snd r = Shown l -> In (f, t) l -> below root f /\ exists old, In old (disks disk evs) /\ In (f, t) old).
Proof.
  intros name wanted included disk evs q o Inj w r. assert (S : sound name (disks disk evs) w) by apply history_sound. clearbody w.
  set (c := choose name (w_store w) (q_path q) (q_model q) (q_cwd q)). exists (root_of (q_path q) c). split; [apply (choose_spec name _ _ _ _ _ Inj S)|].
  split; [apply (root_below name _ _ _ _ _ S)|]. assert (S1 : sound name (disks disk evs) (fst r)).
  { unfold r. rewrite search_world. destruct (q_no_update q); [exact S|]. apply run_sound. exact S. }
  split; [intros N; unfold r; rewrite search_world, N; reflexivity|]. split.
  - intros d N. unfold r. rewrite search_world. destruct (q_no_update q); [reflexivity|]. unfold run_index. cbv zeta. cbn [w_store]. apply lookup_put_other. exact N.
  - intros l f t E I. destruct (search_answer name wanted included _ _ _ _ _ S E) as (e & files & L & X & ->). apply in_shown in I. destruct I as (rel & -> & I & _).
    split; [exists rel; reflexivity|]. destruct S1 as (_ & _ & F & _). destruct (F _ _ _ _ _ (lookup_in _ _ _ L) X I) as (root' & m' & old & D & A & B).
    apply Inj in D. destruct D as (<- & _). exists old. auto.
Qed.
Print Assumptions C101_right_index.

(** A search that could update the index considers every file on disk that belongs to the project, lies
    below the directory and passes the filters, with its present text; and no other, if no sibling
    looks like the directory. *)
Theorem C101_current : forall name wanted included disk evs q rebuilt, distinct_names name ->
  let w := history name wanted included disk evs in
  q_no_update q = false ->
  exists root, project_of name (w_store w) (q_path q) (q_model q) (q_cwd q) root /\
    match snd (search name wanted included w q (Finished rebuilt)) with
    | Shown l => (forall f t, considered wanted included (w_disk w) root q f t -> In (f, t) l) /\
                 (no_lookalike (w_disk w) root (q_path q) -> forall f t, In (f, t) l -> considered wanted included (w_disk w) root q f t)
    | NoIndex => forall f t, ~ considered wanted included (w_disk w) root q f t
    | Failed => False
    end.
Proof.
  intros name wanted included disk evs q rebuilt Inj w NU. assert (S : sound name (disks disk evs) w) by apply history_sound. clearbody w.
  set (c := choose name (w_store w) (q_path q) (q_model q) (q_cwd q)). exists (root_of (q_path q) c). split; [apply (choose_spec name _ _ _ _ _ Inj S)|].
  set (root := root_of (q_path q) c). set (m := q_model q).
  assert (Now : exists e, lookup (w_store (run_index name wanted w root m (Finished rebuilt))) (name root m) = Some e /\
    (e_index e = Some (files_of wanted (w_disk w) root) \/ (e_index e = None /\ files_of wanted (w_disk w) root = []))).
  { unfold run_index. cbv zeta. cbn [w_store]. rewrite lookup_put_same. eexists. split; [reflexivity|]. cbn [e_index].
    destruct (e_index _); [left; reflexivity|]. destruct (files_of wanted (w_disk w) root); [right; auto|left; reflexivity]. }
  assert (Wo : fst (search name wanted included w q (Finished rebuilt)) = run_index name wanted w root m (Finished rebuilt)) by (rewrite search_world, NU; reflexivity).
  destruct Now as (e & L & X). destruct (snd (search name wanted included w q (Finished rebuilt))) as [l| |] eqn:E.
  - destruct (search_answer name wanted included _ _ _ _ _ S E) as (e' & files & L' & X' & ->). fold c in L' |- *. fold root m in L' |- *. rewrite Wo in L'.
    assert (e' = e) by congruence. subst e'. destruct X as [X|(X & _)]; [|congruence]. assert (files = files_of wanted (w_disk w) root) by congruence. subst files.
    assert (Hsub : forall s, sub_of (w_disk w) q c = Some s -> q_path q = root ++ s /\ root <> q_path q /\ ~ names_absent (w_disk w) (q_include q) (q_path q)).
    { unfold sub_of, root. destruct c as [i|] eqn:Ec; [|discriminate]. intros s. destruct (chosen_dir name _ _ _ _ _ _ S Ec) as (_ & P & N & _). rewrite <- P.
      destruct (should_search_from_root (w_disk w) (q_include q) (q_path q)) eqn:Es; [discriminate|]. intros H. injection H as <-. split; [exact P|]. split; [exact N|].
      intros A. apply widen_spec in A. congruence. }
    assert (Hnone : sub_of (w_disk w) q c = None -> root = q_path q \/ (root <> q_path q /\ names_absent (w_disk w) (q_include q) (q_path q))).
    { unfold sub_of, root. destruct c as [i|] eqn:Ec; [|left; reflexivity]. destruct (chosen_dir name _ _ _ _ _ _ S Ec) as (_ & P & N & _). rewrite <- P.
      destruct (should_search_from_root (w_disk w) (q_include q) (q_path q)) eqn:Es; [|discriminate]. intros _. right. split; [exact N|apply widen_spec; exact Es]. }
    split.
    + intros f t (I & (rel & -> & Wd & Inc) & Be & Fi). apply in_shown. exists rel. split; [reflexivity|]. split; [apply in_files; auto|]. split; [|split; [exact Inc|]].
      * intros s Es. destruct (Hsub s Es) as (P & _ & NA). destruct Be as [(rest & B)|(_ & B)]; [|contradiction]. rewrite P, <- app_assoc in B. apply app_inv_head in B. subst rel.
        destruct (shown_path_app s rest) as (r & ->). apply like_prefix_all.
      * intros n En. symmetry. apply Fi. exact En.
    + intros NL f t I. apply in_shown in I. destruct I as (rel & -> & I & Li & Inc & Fi). apply in_files in I. destruct I as (I & Wd).
      split; [exact I|]. split; [exists rel; auto|]. split; [|intros n En; symmetry; apply Fi; exact En].
      destruct (sub_of (w_disk w) q c) as [s|] eqn:Es.
      * destruct (Hsub s eq_refl) as (P & _ & _). left. destruct (NL s rel t P I (Li s eq_refl)) as (r & ->). exists r. rewrite P, app_assoc. reflexivity.
      * destruct (Hnone eq_refl) as [R|R]; [|right; exact R]. left. exists rel. rewrite R. reflexivity.
  - intros f t (I & (rel & -> & Wd & _) & _). destruct X as [X|(_ & X)].
    + exfalso. clear - E X L NU S. unfold search in E. cbv zeta in E. rewrite NU in E. fold c m in E. fold root in E. rewrite L in E. cbn [option_map] in E. rewrite X in E.
      destruct (option_map e_index _) as [[?|]|]; discriminate.
    + assert (J : In (rel, t) (files_of wanted (w_disk w) root)) by (apply in_files; auto). rewrite X in J. exact J.
  - unfold search in E. cbv zeta in E. rewrite NU in E. fold c m in E. fold root in E. rewrite L in E. cbn [option_map] in E.
    assert (D : (match c with Some i => p_dir i | None => name root m end) = name root m).
    { unfold root. destruct c as [i|] eqn:Ec; [|reflexivity]. destruct (chosen_dir name _ _ _ _ _ _ S Ec) as (D & _). exact D. }
    rewrite D, L in E. cbn [option_map] in E. destruct (e_index e); discriminate.
Qed.
Print Assumptions C101_current.

(** Asked again without update, the search shows the same and changes nothing. *)
Theorem C101_again : forall name wanted included disk evs q q' rebuilt l, distinct_names name ->
  let w := history name wanted included disk evs in
  let w1 := fst (search name wanted included w q (Finished rebuilt)) in
  q_no_update q = false -> snd (search name wanted included w q (Finished rebuilt)) = Shown l ->
  q' = {| q_path := q_path q; q_model := q_model q; q_cwd := q_cwd q; q_no_update := true; q_include := q_include q; q_file := q_file q |} ->
  search name wanted included w1 q' Busy = (w1, Shown l).
Proof.
  intros name wanted included disk evs q q' rebuilt l Inj w w1 NU E Eq. assert (S : sound name (disks disk evs) w) by apply history_sound. clearbody w.
  assert (S1 : sound name (disks disk evs) w1). { unfold w1. rewrite search_world, NU. apply run_sound. exact S. }
  destruct (search_answer name wanted included _ _ _ _ _ S E) as (e & files & L & X & ->).
  set (c := choose name (w_store w) (q_path q) (q_model q) (q_cwd q)) in *. set (root := root_of (q_path q) c) in *. fold w1 in L.
  assert (Ew : w1 = run_index name wanted w root (q_model q) (Finished rebuilt)) by (unfold w1; rewrite search_world, NU; reflexivity).
  assert (Dk : w_disk w1 = w_disk w) by (rewrite Ew; reflexivity).
  assert (Other : forall d, d <> name root (q_model q) -> lookup (w_store w1) d = lookup (w_store w) d).
  { intros d N. rewrite Ew. unfold run_index. cbv zeta. cbn [w_store]. apply lookup_put_other. exact N. }
  assert (Cc : choose name (w_store w1) (q_path q) (q_model q) (q_cwd q) = c).
  { assert (A := choose_spec name _ _ (q_path q) (q_model q) (q_cwd q) Inj S). assert (B := choose_spec name _ _ (q_path q) (q_model q) (q_cwd q) Inj S1).
    fold c in A. fold root in A. destruct c as [i|] eqn:Ec.
    - change (choose name (w_store w) (q_path q) (q_model q) (q_cwd q) = Some i) in Ec. destruct (chosen_dir name _ _ _ _ _ _ S Ec) as (D & P & Nr & Ins). cbn [root_of] in root.
      assert (NoOwn : ~ has_index name (w_store w1) (q_path q) (q_model q)).
      { intros (e' & c' & I' & X'). assert (L' := in_lookup _ _ _ (proj1 S1) I'). rewrite Other in L' by (intros Q; apply Inj in Q; destruct Q as (Q & _); unfold root in Q; congruence).
        unfold choose in Ec. assert (Y : index_exists name (w_store w) (q_path q) (q_model q) = true).
        { apply (exists_spec name _ _ _ _ Inj S). exists e', c'. split; [apply lookup_in; exact L'|exact X']. }
        rewrite Y in Ec. discriminate. }
      assert (NoOut : is_external (q_path q) (q_cwd q) = false).
      { unfold choose in Ec. destruct (index_exists name (w_store w) (q_path q) (q_model q)); [discriminate|]. destruct (is_external (q_path q) (q_cwd q)); [discriminate|reflexivity]. }
      assert (Fp : find_parent_index (w_store w) (q_path q) (q_model q) = Some i).
      { unfold choose in Ec. destruct (index_exists name (w_store w) (q_path q) (q_model q)); [discriminate|]. rewrite NoOut in Ec. exact Ec. }
      destruct (find_parent_some _ _ _ _ Fp) as ((e0 & I0 & M0) & _ & _ & Far).
      assert (Rec : forall x, recorded (w_store w1) x (q_model q) -> recorded (w_store w) x (q_model q)).
      { intros x (d & e' & I' & M'). assert (L' := in_lookup _ _ _ (proj1 S1) I'). destruct (text_eqb d (name root (q_model q))) eqn:Q.
        - apply text_eqb_eq in Q. subst d. destruct S1 as (_ & Na & _). destruct (Na _ _ _ I' M') as (m' & Y & Z). cbn [m_model m_path] in Y, Z. injection Y as <-. apply Inj in Z. destruct Z as (<- & _).
          exists (p_dir i), e0. auto.
        - apply text_eqb_neq in Q. rewrite Other in L' by exact Q. exists d, e'. split; [apply lookup_in; exact L'|exact M']. }
      assert (Root : recorded (w_store w1) root (q_model q)).
      { exists (name root (q_model q)). rewrite Ew. unfold run_index. cbv zeta. cbn [w_store]. eexists. split; [apply lookup_in; apply lookup_put_same|]. cbn [e_meta].
        assert (L0 := in_lookup _ _ _ (proj1 S) I0). rewrite D in L0. unfold root. rewrite L0. destruct (e_index e0); [|reflexivity]. destruct (rebuilt || e_building e0); [reflexivity|exact M0]. }
      unfold choose. destruct (index_exists name (w_store w1) (q_path q) (q_model q)) eqn:Y; [apply (exists_spec name _ _ _ _ Inj S1) in Y; contradiction|]. rewrite NoOut.
      destruct (find_parent_index (w_store w1) (q_path q) (q_model q)) as [j|] eqn:Fj; [|exfalso; exact (find_parent_none _ _ _ Fj root Root Ins)].
      assert (Cj : choose name (w_store w1) (q_path q) (q_model q) (q_cwd q) = Some j) by (unfold choose; rewrite Y, NoOut; exact Fj).
      destruct (chosen_dir name _ _ _ _ _ _ S1 Cj) as (Dj & Pj & _ & Insj). destruct (find_parent_some _ _ _ _ Fj) as ((ej & Ij & Mj) & _ & _ & Farj).
      assert (Len : length (p_root j) = length (p_root i)).
      { assert (U := Farj root Root Ins). assert (V : recorded (w_store w) (p_root j) (q_model q)) by (apply Rec; exists (p_dir j), ej; auto). specialize (Far _ V Insj). unfold root in U. lia. }
      assert (R2 : p_root j = p_root i /\ p_sub j = p_sub i). { apply app_same; [exact Len|]. congruence. }
      destruct R2 as (R2 & R3). destruct i as [di ri si]. destruct j as [dj rj sj]. cbn [p_dir p_root p_sub] in *. subst. reflexivity.
    - assert (Y : index_exists name (w_store w1) (q_path q) (q_model q) = true).
      { apply (exists_spec name _ _ _ _ Inj S1). exists e, files. split; [apply lookup_in; exact L|exact X]. }
      unfold choose. rewrite Y. reflexivity. }
  assert (Ds : (match c with Some i => p_dir i | None => name root (q_model q) end) = name root (q_model q)).
  { unfold root. destruct c as [i|] eqn:Ec; [|reflexivity]. destruct (chosen_dir name _ _ _ _ _ _ S Ec) as (D & _). exact D. }
  subst q'. unfold search. cbn [q_path q_model q_cwd q_no_update q_include q_file]. cbv zeta. rewrite Cc. fold root. rewrite Ds, L. cbn [option_map]. rewrite X. f_equal.
  unfold shown_from, sub_of. cbv zeta. rewrite Dk. unfold root. destruct c; reflexivity.
Qed.
Print Assumptions C101_again.

(** Status names the project that a search (of a directory within the working directory) uses, and
    says that there is none only if a search would make a new one. *)
Theorem C101_status : forall name wanted included disk evs p m, distinct_names name ->
  let s := w_store (history name wanted included disk evs) in
  match status name s p m with
  | Some root => project_of name s p m None root
  | None => project_of name s p m None p /\ ~ has_index name s p m
  end.
Proof.
  intros name wanted included disk evs p m Inj. assert (S : sound name (disks disk evs) (history name wanted included disk evs)) by apply history_sound.
  set (w := history name wanted included disk evs) in *. clearbody w. cbv zeta. assert (A := choose_spec name _ _ p m None Inj S). unfold status. unfold choose in A.
  destruct (index_exists name (w_store w) p m) eqn:E; [exact A|]. cbn [is_external] in A. destruct (find_parent_index (w_store w) p m) as [i|]; cbn [option_map]; [exact A|]. split; [exact A|].
  intros H. apply (exists_spec name _ _ _ _ Inj S) in H. congruence.
Qed.
Print Assumptions C101_status.

(** Clear removes at most one directory: that of [p] if there is one, else that of the nearest
    directory above that was indexed with the model; every other index, in particular of every other
    model, stays. *)
Theorem C101_clear : forall name wanted included disk evs p m, distinct_names name ->
  let w := history name wanted included disk evs in
  let w' := clear name w p m in
  w_disk w' = w_disk w /\
  ((lookup (w_store w) (name p m) <> None /\ lookup (w_store w') (name p m) = None /\ (forall d, d <> name p m -> lookup (w_store w') d = lookup (w_store w) d)) \/
   (lookup (w_store w) (name p m) = None /\ exists root, recorded (w_store w) root m /\ inside root p /\ (forall x, recorded (w_store w) x m -> inside x p -> length x <= length root) /\
      lookup (w_store w') (name root m) = None /\ (forall d, d <> name root m -> lookup (w_store w') d = lookup (w_store w) d)) \/
   (lookup (w_store w) (name p m) = None /\ (forall x, recorded (w_store w) x m -> ~ inside x p) /\ w' = w)) /\
  (forall p' m', m' <> m -> lookup (w_store w') (name p' m') = lookup (w_store w) (name p' m')).
Proof.
  intros name wanted included disk evs p m Inj w w'. assert (S : sound name (disks disk evs) w) by apply history_sound. unfold w'. clear w'. clearbody w.
  unfold clear. destruct (lookup (w_store w) (name p m)) as [e|] eqn:L; cbn [w_disk w_store].
  - split; [reflexivity|]. split.
    + left. split; [discriminate|]. split; [apply lookup_remove_same|]. intros d N. apply lookup_remove_other. exact N.
    + intros p' m' N. apply lookup_remove_other. intros Q. apply Inj in Q. tauto.
  - destruct (find_parent_index (w_store w) p m) as [i|] eqn:F; cbn [w_disk w_store].
    + destruct (find_parent_some _ _ _ _ F) as ((e & I & M) & Ins & P & Far). destruct S as (_ & Na & _). destruct (Na _ _ _ I M) as (m' & Y & Z). cbn [m_model m_path] in Y, Z. injection Y as <-.
      split; [reflexivity|]. rewrite Z. split.
      * right. left. split; [reflexivity|]. exists (p_root i). split; [exists (p_dir i), e; auto|]. split; [exact Ins|]. split; [exact Far|]. split; [apply lookup_remove_same|].
        intros d N. apply lookup_remove_other. exact N.
      * intros p' m' N. apply lookup_remove_other. intros Q. apply Inj in Q. tauto.
    + split; [reflexivity|]. split; [|reflexivity]. right. right. split; [reflexivity|]. split; [exact (find_parent_none _ _ _ F)|reflexivity].
Qed.
Print Assumptions C101_clear.

(** ** A naming without collisions, for the examples *)
Definition plain_name (p : path) (m : text) : text := flat_map (fun c => Z.of_nat (length c) :: c) p ++ (-1)%Z :: m.
Lemma plain_distinct : distinct_names plain_name.
Proof.
  unfold distinct_names, plain_name. induction p as [|a p IH]; intros m [|b p'] m' E; cbn [flat_map app] in E.
  - injection E as ->. auto.
  - injection E as E _. exfalso. lia.
  - injection E as E _. exfalso. lia.
  - injection E as L E. rewrite <- !app_assoc in E. apply app_same in E; [|lia]. destruct E as (-> & E). destruct (IH m p' m' E) as (-> & ->). auto.
Qed.
Definition all_files (_ _ : path) : bool := true.
Definition not_vendor (_ rel : path) : bool := match rel with a :: _ => negb (text_eqb a (txt "vendor")) | [] => true end.
(** files whose name is that of a pattern [**/name] *)
Definition by_name (pats : list text) (rel : path) : bool := existsb (fun pat => text_eqb (skipn 3 pat) (List.last rel [])) pats.
Definition m0 : text := txt "model".
Definition dir_a : path := [txt "a"].
Definition dir_ab : path := [txt "a"; txt "b"].
Definition ask (p : path) (no_update : bool) (pats : list text) : request :=
  {| q_path := p; q_model := m0; q_cwd := Some p; q_no_update := no_update; q_include := pats; q_file := None |}.
Definition disk1 : content := [(dir_a ++ [txt "x"], txt "one"); (dir_ab ++ [txt "y"], txt "two")].
Definition disk2 : content := [(dir_a ++ [txt "x"], txt "one"); (dir_ab ++ [txt "y"], txt "new")].

(** A search above, an edit, a search below: the index above is used and brought up to date. *)
Example C101_example :
  let evs := [Search (ask dir_a false []) (Finished false); Edit disk2] in
  let w := history plain_name all_files by_name disk1 evs in
  distinct_names plain_name /\
  project_of plain_name (w_store w) dir_ab m0 (Some dir_ab) dir_a /\
  no_lookalike (w_disk w) dir_a dir_ab /\
  snd (search plain_name all_files by_name w (ask dir_ab false []) (Finished false)) = Shown [(dir_ab ++ [txt "y"], txt "new")] /\
  snd (search plain_name all_files by_name w (ask dir_ab true []) Busy) = Shown [(dir_ab ++ [txt "y"], txt "two")] /\
  status plain_name (w_store w) dir_ab m0 = Some dir_a.
Proof.
  split; [exact plain_distinct|]. split; [|split; [|split; [vm_compute; reflexivity|split; vm_compute; reflexivity]]].
  - right. right. left. cbv zeta. split; [|split; [|split; [|split]]].
    + intros (e & c & I & E). vm_compute in I. destruct I as [I|[]]. discriminate.
    + intros (c & E & N). injection E as <-. apply N. exists []. reflexivity.
    + eexists. eexists. split; [left; reflexivity|]. reflexivity.
    + exists (txt "b"), []. reflexivity.
    + intros q (d & e & I & E) _. vm_compute in I. destruct I as [I|[]]. injection I as <- <-. injection E as <-. cbn. lia.
  - intros sub rel t P I L. assert (X : sub = [txt "b"]) by (apply (app_inv_head dir_a); rewrite <- P; reflexivity). subst sub.
    destruct I as [I|[I|[]]]; injection I as R _; subst rel.
    + vm_compute in L. discriminate.
    + exists [txt "y"]. reflexivity.
Qed.

(** Init does not update the index that a search uses: below an indexed directory it updates the index
    above, while the search prefers the directory's own index, and shows the old text. *)
Theorem C101_init_refuted : exists disk evs p m o, distinct_names plain_name /\
  let w := history plain_name all_files by_name disk evs in
  o = Finished false /\ snd (search plain_name all_files by_name (init plain_name all_files w p m o) (ask p true []) Busy) = Shown [(dir_ab ++ [txt "y"], txt "two")] /\
  In (dir_ab ++ [txt "y"], txt "new") (w_disk w) /\ ~ In (dir_ab ++ [txt "y"], txt "two") (w_disk w).
Proof.
  exists disk1, [Search (ask dir_ab false []) (Finished false); Search (ask dir_a false []) (Finished false); Edit disk2], dir_ab, m0, (Finished false).
  split; [exact plain_distinct|]. split; [reflexivity|]. split; [vm_compute; reflexivity|]. split; [right; left; reflexivity|].
  intros [H|[H|[]]]; discriminate.
Qed.
Print Assumptions C101_init_refuted.

(** What a search shows depends on whether a directory above was indexed before: rules that leave a
    directory out of the project above leave all of its files out. *)
Theorem C101_history_refuted : exists disk evs p, distinct_names plain_name /\
  snd (search plain_name not_vendor by_name (history plain_name not_vendor by_name disk []) (ask p false []) (Finished false)) = Shown disk /\ disk <> [] /\
  w_disk (history plain_name not_vendor by_name disk evs) = disk /\
  snd (search plain_name not_vendor by_name (history plain_name not_vendor by_name disk evs) (ask p false []) (Finished false)) = Shown [].
Proof.
  exists [(dir_a ++ [txt "vendor"; txt "y"], txt "two")], [Edit [(dir_a ++ [txt "x"], txt "one")]; Search (ask dir_a false []) (Finished false); Edit [(dir_a ++ [txt "vendor"; txt "y"], txt "two")]],
    (dir_a ++ [txt "vendor"]).
  split; [exact plain_distinct|]. split; [vm_compute; reflexivity|]. split; [discriminate|]. split; [reflexivity|]. vm_compute. reflexivity.
Qed.
Print Assumptions C101_history_refuted.

(** --include can show more: a pattern that names a file which is not directly in the directory turns
    the search into one of the whole project above. *)
Theorem C101_include_refuted : exists disk evs p pats f t, distinct_names plain_name /\
  let w := history plain_name all_files by_name disk evs in
  snd (search plain_name all_files by_name w (ask p false []) (Finished false)) = Shown [(dir_ab ++ [txt "y"], txt "two")] /\
  snd (search plain_name all_files by_name w (ask p false pats) (Finished false)) = Shown [(f, t)] /\ ~ below p f.
Proof.
  exists disk1, [Search (ask dir_a false []) (Finished false)], dir_ab, [txt "**/x"], (dir_a ++ [txt "x"]), (txt "one").
  split; [exact plain_distinct|]. split; [vm_compute; reflexivity|]. split; [vm_compute; reflexivity|]. intros (r & E). discriminate.
Qed.
Print Assumptions C101_include_refuted.

(** Clear need not remove the index that status names: the directory of a first build that was stopped
    is removed instead. *)
Theorem C101_clear_refuted : exists disk evs p root, distinct_names plain_name /\
  let w := history plain_name all_files by_name disk evs in
  status plain_name (w_store w) p m0 = Some root /\ root <> p /\
  lookup (w_store (clear plain_name w p m0)) (plain_name root m0) = lookup (w_store w) (plain_name root m0) /\
  status plain_name (w_store (clear plain_name w p m0)) p m0 = Some root.
Proof.
  exists disk1, [Search (ask dir_ab false []) (Stopped (fun _ => false) (fun _ => false) false false true); Search (ask dir_a false []) (Finished false)], dir_ab, dir_a.
  split; [exact plain_distinct|]. split; [vm_compute; reflexivity|]. split; [discriminate|]. split; vm_compute; reflexivity.
Qed.
Print Assumptions C101_clear_refuted.

(** An index that was put in place by a copy from another worktree, and killed before project.json, is
    never recorded: searches below do not use it, however often it is brought up to date. *)
Theorem C101_unrecorded_refuted : exists disk before, distinct_names plain_name /\
  forall n, let w := history plain_name all_files by_name disk (before ++ repeat (Search (ask dir_a false []) (Finished false)) n) in
  has_index plain_name (w_store w) dir_a m0 /\ status plain_name (w_store w) dir_ab m0 = None.
Proof.
  exists disk1, [Search (ask dir_a false []) (Stopped (fun _ => true) (fun _ => true) true false false)]. split; [exact plain_distinct|].
  intros n. cbv zeta. unfold history. rewrite fold_left_app.
  set (w0 := fold_left (step plain_name all_files by_name) [Search (ask dir_a false []) (Stopped (fun _ => true) (fun _ => true) true false false)] {| w_disk := disk1; w_store := [] |}).
  assert (F : step plain_name all_files by_name w0 (Search (ask dir_a false []) (Finished false)) = w0) by (vm_compute; reflexivity).
  assert (R : fold_left (step plain_name all_files by_name) (repeat (Search (ask dir_a false []) (Finished false)) n) w0 = w0).
  { induction n as [|n IH]; [reflexivity|]. cbn [repeat fold_left]. rewrite F. exact IH. }
  rewrite R. split; [|vm_compute; reflexivity]. eexists. eexists. split; [left; reflexivity|]. reflexivity.
Qed.
Print Assumptions C101_unrecorded_refuted.

(** When two directories get the same name (32 bits of a hash and the name of the directory), a search
    without update shows the files of the other project as its own. *)
Theorem C101_collision_refuted : exists name disk evs p f t, ~ distinct_names name /\
  snd (search name all_files by_name (history name all_files by_name disk evs) (ask p true []) Busy) = Shown [(f, t)] /\
  forall old, In old (disks disk evs) -> ~ In (f, t) old.
Proof.
  exists (fun p m => List.last p [] ++ m), [([txt "c"; txt "b"; txt "y"], txt "two")], [Search (ask [txt "c"; txt "b"] false []) (Finished false)], dir_ab, (dir_ab ++ [txt "y"]), (txt "two").
  split; [intros D; destruct (D dir_ab m0 [txt "c"; txt "b"] m0 eq_refl) as (E & _); discriminate|]. split; [vm_compute; reflexivity|].
  intros old O I. cbn [disks In] in O. destruct O as [<-|[<-|[]]]; destruct I as [I|[]]; discriminate.
Qed.
Print Assumptions C101_collision_refuted.
