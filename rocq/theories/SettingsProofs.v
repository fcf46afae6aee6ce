(** Proofs about the saved settings. *)
From Verif Require Import Base F32 Text Settings SettingsSpec.
Open Scope nat_scope.

(** ** The file *)
Lemma filter_member {A} k k' (j : A -> jv) o : filter (fun p => text_eqb (fst p) k) (member k' j o) = if text_eqb k' k then member k' j o else [].
Proof. destruct o; cbn [member filter fst]; [|destruct (text_eqb k' k); reflexivity]. destruct (text_eqb k' k); reflexivity. Qed.
Lemma filter_list k k' l : filter (fun p => text_eqb (fst p) k) (j_list k' l) = if text_eqb k' k then j_list k' l else [].
Proof. destruct l; cbn [j_list filter fst]; destruct (text_eqb k' k); reflexivity. Qed.
Definition plain_alpha (c : config) : Prop := match g_alpha c with Some a => is_finite a = true | None => True end.
Ltac members :=
  rewrite !filter_app, !filter_member, !filter_list;
  repeat match goal with |- context [text_eqb (txt ?a) (txt ?b)] => let v := eval vm_compute in (text_eqb (txt a) (txt b)) in change (text_eqb (txt a) (txt b)) with v end;
  cbv iota; cbn [app]; rewrite ?app_nil_r.
Ltac one_field := unfold field, list_field, found, to_json; members; destruct_one
with destruct_one := match goal with |- context [member _ _ ?o] => destruct o; reflexivity | |- context [j_list _ ?l] => destruct l; reflexivity end.
Lemma round_trip rounded c : plain_alpha c -> from_json rounded (to_json c) = Some c.
Proof.
  intros P. unfold from_json.
  assert (E1 : field (txt "default_model") r_text (to_json c) = Some (g_model c)) by one_field.
  assert (E2 : field (txt "default_k") r_num (to_json c) = Some (g_k c)) by one_field.
  assert (E3 : field (txt "default_n") r_num (to_json c) = Some (g_n c)) by one_field.
  assert (E4 : field (txt "fp32") r_bool (to_json c) = Some (g_fp32 c)) by one_field.
  assert (E5 : field (txt "coreml_cache_dir") r_text (to_json c) = Some (g_cache c)) by one_field.
  assert (E6 : field (txt "pool_factor") r_num (to_json c) = Some (g_pool c)) by one_field.
  assert (E7 : field (txt "parallel_sessions") r_num (to_json c) = Some (g_sessions c)) by one_field.
  assert (E8 : field (txt "batch_size") r_num (to_json c) = Some (g_batch c)) by one_field.
  assert (E9 : field (txt "verbose") r_bool (to_json c) = Some (g_verbose c)) by one_field.
  assert (E10 : field (txt "max_recursion_depth") r_num (to_json c) = Some (g_depth c)) by one_field.
  assert (E11 : field (txt "relative_paths") r_bool (to_json c) = Some (g_relative c)) by one_field.
  assert (E12 : field (txt "hybrid_search") r_bool (to_json c) = Some (g_hybrid c)) by one_field.
  assert (E13 : field (txt "hybrid_alpha") (r_float rounded) (to_json c) = Some (g_alpha c)).
  { unfold field, found, to_json. members. unfold plain_alpha in P. destruct (g_alpha c) as [a|]; [|reflexivity]. cbn [member]. unfold j_float. rewrite P. reflexivity. }
  assert (E14 : list_field (txt "extra_ignore") (to_json c) = Some (g_ignore c)) by one_field.
  assert (E15 : list_field (txt "force_include") (to_json c) = Some (g_include c)) by one_field.
  rewrite E1, E2, E3, E4, E5, E6, E7, E8, E9, E10, E11, E12, E13, E14, E15. destruct c; reflexivity.
Qed.

(** ** One command *)
Definition num (least : nat) (o old : option nat) : option nat := match o with None => old | Some n => if n =? 0 then None else Some (Nat.max n least) end.
Definition new_patterns (clear : bool) (add remove old : list text) : list text := fold_left remove_pattern remove (fold_left add_pattern add (if clear then [] else old)).
Lemma changed_eq o c :
  changed o c = mk_config (g_model c) (num 0 (o_k o) (g_k c)) (num 0 (o_n o) (g_n c))
    (if o_fp32 o then Some true else if o_int8 o then Some false else if o_default_precision o then None else g_fp32 c)
    (match o_cache o with Some d => Some d | None => if o_clear_cache o then None else g_cache c end)
    (num 1 (o_pool o) (g_pool c)) (num 1 (o_sessions o) (g_sessions c)) (num 1 (o_batch o) (g_batch c))
    (if o_verbose o then Some true else if o_no_verbose o then None else g_verbose c) (num 1 (o_depth o) (g_depth c))
    (if o_relative o then Some true else if o_no_relative o then None else g_relative c)
    (if o_hybrid o then None else if o_no_hybrid o then Some false else g_hybrid c)
    (match o_alpha o with Some a => if f_eq a f_zero then None else Some (clamp01 a) | None => g_alpha c end)
    (new_patterns (o_clear_ignore o) (o_add_ignore o) (o_remove_ignore o) (g_ignore c))
    (new_patterns (o_clear_include o) (o_add_include o) (o_remove_include o) (g_include c)).
Proof.
  assert (N : forall (set : option nat -> config -> config) (g : config -> option nat) l v x, (set (g x) x = x) -> number set l v x = set (num l v (g x)) x).
  { intros set g l v x E. unfold number, num. destruct v as [n|]; [destruct (n =? 0); reflexivity|symmetry; exact E]. }
  unfold changed. cbv zeta.
  rewrite (N set_k g_k) by (destruct c; reflexivity).
  rewrite (N set_n g_n) by reflexivity.
  set (c2 := set_n _ _).
  replace (if o_fp32 o then set_fp32 (Some true) c2 else if o_int8 o then set_fp32 (Some false) c2 else if o_default_precision o then set_fp32 None c2 else c2)
    with (set_fp32 (if o_fp32 o then Some true else if o_int8 o then Some false else if o_default_precision o then None else g_fp32 c) c2)
    by (destruct (o_fp32 o), (o_int8 o), (o_default_precision o); reflexivity).
  set (c3 := set_fp32 _ c2).
  replace (match o_cache o with Some d => set_cache (Some d) c3 | None => if o_clear_cache o then set_cache None c3 else c3 end)
    with (set_cache (match o_cache o with Some d => Some d | None => if o_clear_cache o then None else g_cache c end) c3)
    by (destruct (o_cache o), (o_clear_cache o); reflexivity).
  set (c4 := set_cache _ c3).
  rewrite (N set_pool g_pool) by reflexivity.
  rewrite (N set_sessions g_sessions) by reflexivity. rewrite (N set_batch g_batch) by reflexivity. rewrite (N set_depth g_depth) by reflexivity.
  set (c5 := set_depth _ _).
  replace (if o_verbose o then set_verbose (Some true) c5 else if o_no_verbose o then set_verbose None c5 else c5)
    with (set_verbose (if o_verbose o then Some true else if o_no_verbose o then None else g_verbose c) c5) by (destruct (o_verbose o), (o_no_verbose o); reflexivity).
  set (c6 := set_verbose _ c5).
  replace (if o_relative o then set_relative (Some true) c6 else if o_no_relative o then set_relative None c6 else c6)
    with (set_relative (if o_relative o then Some true else if o_no_relative o then None else g_relative c) c6) by (destruct (o_relative o), (o_no_relative o); reflexivity).
  set (c7 := set_relative _ c6).
  replace (if o_hybrid o then set_hybrid None c7 else if o_no_hybrid o then set_hybrid (Some false) c7 else c7)
    with (set_hybrid (if o_hybrid o then None else if o_no_hybrid o then Some false else g_hybrid c) c7) by (destruct (o_hybrid o), (o_no_hybrid o); reflexivity).
  set (c8 := set_hybrid _ c7).
  replace (match o_alpha o with Some a => if f_eq a f_zero then set_alpha None c8 else set_alpha (Some (clamp01 a)) c8 | None => c8 end)
    with (set_alpha (match o_alpha o with Some a => if f_eq a f_zero then None else Some (clamp01 a) | None => g_alpha c end) c8)
    by (destruct (o_alpha o) as [a|]; [destruct (f_eq a f_zero)|]; reflexivity).
  set (c9 := set_alpha _ c8). unfold new_patterns. destruct (o_clear_ignore o), (o_clear_include o); reflexivity.
Qed.
Lemma shows_changed o c : shows o = true -> changed o c = c.
Proof.
  unfold shows. rewrite !andb_true_iff, !negb_true_iff. intros H. repeat match goal with H : _ /\ _ |- _ => destruct H end.
  repeat match goal with H : is_none ?x = true |- _ => destruct x eqn:?; [discriminate H|]; clear H | H : is_nil ?x = true |- _ => destruct x eqn:?; [|discriminate H]; clear H end.
  rewrite changed_eq. unfold num, new_patterns.
  repeat match goal with E : _ = false |- _ => rewrite E; clear E | E : _ = None |- _ => rewrite E; clear E | E : _ = [] |- _ => rewrite E; clear E end. destruct c; reflexivity.
Qed.

(** ** Histories *)
Definition step (x : command) (c : config) : config :=
  match x with
  | Settings o => changed o c
  | Set_model m works => if works then set_model (Some m) c else c
  end.
Lemma clamp_into x : clamp01 x = into_unit x.
Proof.
  unfold clamp01, into_unit, f_gt, f_lt. destruct (is_nan x) eqn:N; cbn [negb andb]; [reflexivity|].
  change (is_nan f_zero) with false. change (is_nan f_one) with false. cbn [negb andb].
  change (fval f_zero) with 0%Z. change (fval f_one) with 1065353216%Z. destruct (fval x <? 0)%Z eqn:A, (1065353216 <? fval x)%Z eqn:B; try reflexivity. lia.
Qed.
Lemma into_finite x : is_nan x = false -> is_finite (into_unit x) = true.
Proof.
  intros N. unfold into_unit, f_gt, f_lt. rewrite N. change (is_nan f_zero) with false. change (is_nan f_one) with false. cbn [negb andb].
  change (fval f_zero) with 0%Z. change (fval f_one) with 1065353216%Z.
  destruct (1065353216 <? fval x)%Z eqn:A; [reflexivity|]. destruct (fval x <? 0)%Z eqn:B; [reflexivity|]. unfold fval in A, B. unfold is_finite.
  pose proof (Z.mod_pos_bound x 2147483648 ltac:(reflexivity)) as M. fold (fabs x) in M. destruct (is_neg x); lia.
Qed.
Lemma step_plain x c : sensible x -> plain_alpha c -> plain_alpha (step x c).
Proof.
  destruct x as [o|m [|]]; cbn [step]; try (intros _ P; exact P). intros S P. rewrite changed_eq. unfold plain_alpha in *. cbn [g_alpha]. cbn [sensible] in S.
  destruct (o_alpha o) as [a|]; [|exact P]. destruct (f_eq a f_zero); [exact Logic.I|]. rewrite clamp_into. apply into_finite. exact S.
Qed.
Lemma run_step rounded x d c : sensible x -> plain_alpha c -> load rounded d = Some c -> load rounded (run_command rounded x d) = Some (step x c).
Proof.
  intros S P L. pose proof (step_plain x c S P) as P'. unfold run_command, outcome_of. rewrite L. destruct x as [o|m works]; cbn [step] in *.
  - destruct (shows o) eqn:H; [rewrite shows_changed by exact H; exact L|]. apply round_trip. exact P'.
  - destruct (g_model c) as [m'|] eqn:M.
    + destruct (text_eqb m' m) eqn:E.
      * apply text_eqb_eq in E. subst m'. destruct works; [|exact L]. rewrite L. f_equal. unfold set_model. destruct c; cbn in M; subst; reflexivity.
      * destruct works; [apply round_trip; exact P'|exact L].
    + destruct works; [apply round_trip; exact P'|exact L].
Qed.
Definition steps (h : list command) (c : config) : config := fold_left (fun c x => step x c) h c.
Lemma after_steps rounded h d c : Forall sensible h -> plain_alpha c -> load rounded d = Some c ->
  load rounded (after rounded h d) = Some (steps h c) /\ plain_alpha (steps h c).
Proof.
  revert d c. induction h as [|x h IH]; intros d c F P L; [split; assumption|]. inversion F as [|? ? S F']; subst. cbn [after steps fold_left].
  apply IH; [exact F'|apply step_plain; assumption|apply run_step; assumption].
Qed.
Lemma steps_app h h' c : steps (h ++ h') c = steps h' (steps h c).
Proof. unfold steps. apply fold_left_app. Qed.

Lemma num_asked (f : option nat -> value) l o old d : l <= 1 -> (forall n, n <> 0 -> f (Some (Nat.max n l)) = Number n) -> f None = d ->
  f (num l o old) = match number_or_reset o with Nothing => f old | Reset => d | Set_to v => v end.
Proof.
  intros Hl F D. unfold num, number_or_reset. destruct o as [[|n]|]; [exact D| |reflexivity]. cbn [Nat.eqb]. apply F. discriminate.
Qed.
Lemma step_in_use cuda x c s : s <> Relative ->
  in_use cuda (step x c) s = match asks x s with Nothing => in_use cuda c s | Reset => built_in cuda s | Set_to v => v end.
Proof.
  intros R. destruct x as [o|m works].
  - cbn [step]. rewrite changed_eq. destruct s; try congruence; cbn [in_use asks built_in g_model g_k g_n g_fp32 g_cache g_pool g_sessions g_batch g_verbose g_depth g_relative g_hybrid g_alpha];
      unfold use_fp32, get_pool, get_sessions, get_batch, is_verbose, use_relative, get_depth, use_hybrid, get_alpha;
      cbn [g_model g_k g_n g_fp32 g_cache g_pool g_sessions g_batch g_verbose g_depth g_relative g_hybrid g_alpha].
    + reflexivity.
    + apply (num_asked (maybe Number) 0); [lia| |reflexivity]. intros n _. cbn [maybe]. rewrite Nat.max_0_r. reflexivity.
    + apply (num_asked (fun v => Number (or_else v 20)) 0); [lia| |reflexivity]. intros n _. cbn [or_else]. rewrite Nat.max_0_r. reflexivity.
    + cbn [one_of fold_right fst snd]. destruct (o_fp32 o); [reflexivity|]. destruct (o_int8 o); [reflexivity|]. destruct (o_default_precision o); reflexivity.
    + destruct (o_cache o); [reflexivity|]. destruct (o_clear_cache o); reflexivity.
    + apply (num_asked (fun v => Number (or_else v default_pool)) 1); [lia| |reflexivity]. intros n Hn. cbn [or_else]. f_equal. lia.
    + apply (num_asked (fun v => maybe Number (option_map (fun n => Nat.max n 1) v)) 1); [lia| |reflexivity]. intros n Hn. cbn [option_map maybe]. f_equal. lia.
    + apply (num_asked (fun v => maybe Number (option_map (fun n => Nat.max n 1) v)) 1); [lia| |reflexivity]. intros n Hn. cbn [option_map maybe]. f_equal. lia.
    + apply (num_asked (fun v => Number (or_else v default_depth)) 1); [lia| |reflexivity]. intros n Hn. cbn [or_else]. f_equal. lia.
    + cbn [one_of fold_right fst snd]. destruct (o_verbose o); [reflexivity|]. destruct (o_no_verbose o); reflexivity.
    + cbn [one_of fold_right fst snd]. destruct (o_hybrid o); [reflexivity|]. destruct (o_no_hybrid o); reflexivity.
    + destruct (o_alpha o) as [a|]; [|reflexivity]. destruct (f_eq a f_zero); [reflexivity|]. cbn [or_else]. rewrite clamp_into. reflexivity.
  - cbn [step asks]. destruct works, s; reflexivity.
Qed.
Lemma quiet_in_use cuda h s : s <> Relative -> forall c, (forall x, In x h -> asks x s = Nothing) -> in_use cuda (steps h c) s = in_use cuda c s.
Proof.
  intros R. induction h as [|x h IH]; intros c Q; [reflexivity|]. cbn [steps fold_left]. fold (steps h (step x c)).
  rewrite IH by (intros y Y; apply Q; right; exact Y). rewrite step_in_use by exact R. rewrite Q by (left; reflexivity). reflexivity.
Qed.
Lemma default_in_use cuda s : in_use cuda default_config s = built_in cuda s.
Proof. destruct s; reflexivity. Qed.
Lemma steps_in_use cuda h s r : s <> Relative -> last_asked s h r -> in_use cuda (steps h default_config) s = standing cuda s r.
Proof.
  intros R L. destruct L as [h Q|h1 x h2 A Q].
  - rewrite quiet_in_use by assumption. apply default_in_use.
  - rewrite steps_app. cbn [steps fold_left]. fold (steps h2 (step x (steps h1 default_config))).
    rewrite quiet_in_use by assumption. rewrite step_in_use by exact R. destruct (asks x s); [congruence|reflexivity|reflexivity].
Qed.
Lemma last_asked_total s h : exists r, last_asked s h r.
Proof.
  induction h as [|x h (r & L)] using rev_ind; [exists Nothing; apply never; intros x []|].
  destruct (asks x s) eqn:E.
  - exists r. destruct L as [h Q|h1 y h2 A Q].
    + apply never. intros y Y. apply in_app_or in Y. destruct Y as [Y|[<-|[]]]; [apply Q; exact Y|exact E].
    + rewrite <- app_assoc. cbn [app]. apply at_last; [exact A|]. intros z Z. apply in_app_or in Z. destruct Z as [Z|[<-|[]]]; [apply Q; exact Z|exact E].
  - exists (asks x s). apply at_last; [congruence|intros y []].
  - exists (asks x s). apply at_last; [congruence|intros y []].
Qed.

(** ** Patterns *)
Lemma add_In l p q : In q (add_pattern l p) <-> In q l \/ q = p.
Proof.
  unfold add_pattern. destruct (existsb (text_eqb p) l) eqn:E.
  - split; [auto|]. intros [H| ->]; [exact H|]. apply existsb_exists in E. destruct E as (y & Y & T). apply text_eqb_eq in T. subst. exact Y.
  - rewrite in_app_iff. cbn. split; [intros [H|[H|[]]]; auto|intros [H| ->]; auto].
Qed.
Lemma adds_In ps : forall l q, In q (fold_left add_pattern ps l) <-> In q l \/ In q ps.
Proof. induction ps as [|p ps IH]; intros l q; cbn [fold_left In]; [tauto|]. rewrite IH, add_In. split; [intros [[H| ->]|H]; auto|intros [H|[->|H]]; auto]. Qed.
Lemma removes_In ps : forall l q, In q (fold_left remove_pattern ps l) <-> In q l /\ ~ In q ps.
Proof.
  induction ps as [|p ps IH]; intros l q; cbn [fold_left In]; [tauto|]. rewrite IH. unfold remove_pattern. rewrite filter_In, negb_true_iff.
  destruct (text_eqb q p) eqn:E.
  - apply text_eqb_eq in E. subst. split; [intros [[_ X] _]; discriminate X|intros [_ N]; exfalso; apply N; auto].
  - assert (N : p <> q) by (intros ->; rewrite text_eqb_refl in E; discriminate E). split; [intros [[H _] N']; split; [exact H|intros [X|X]; auto]|intros [H N']; split; [auto|tauto]].
Qed.
Lemma new_In clear add remove old q : In q (new_patterns clear add remove old) <-> (In q add \/ (clear = false /\ In q old)) /\ ~ In q remove.
Proof. unfold new_patterns. rewrite removes_In, adds_In. destruct clear; cbn [In]; intuition discriminate. Qed.
Lemma add_NoDup l p : NoDup l -> NoDup (add_pattern l p).
Proof.
  intros N. unfold add_pattern. destruct (existsb (text_eqb p) l) eqn:E; [exact N|]. (
  apply (Permutation_NoDup (l := p :: l)); [apply Permutation_cons_append|]). constructor; [|exact N].
  intros H. assert (X : existsb (text_eqb p) l = true) by (apply existsb_exists; exists p; split; [exact H|apply text_eqb_refl]). congruence.
Qed.
Lemma new_NoDup clear add remove old : NoDup old -> NoDup (new_patterns clear add remove old).
Proof.
  intros N. unfold new_patterns. assert (A : NoDup (fold_left add_pattern add (if clear then [] else old))).
  { assert (N' : NoDup (if clear then [] else old)) by (destruct clear; [constructor|exact N]). revert N'. generalize (if clear then [] else old).
    induction add as [|p ps IH]; intros l N'; cbn [fold_left]; [exact N'|]. apply IH, add_NoDup, N'. }
  revert A. generalize (fold_left add_pattern add (if clear then [] else old)). induction remove as [|p ps IH]; intros l A; cbn [fold_left]; [exact A|].
  apply IH. unfold remove_pattern. apply NoDup_filter. exact A.
Qed.

Section PATTERNS.
  Variables (clears : options -> bool) (adds removes : options -> list text) (get : config -> list text).
  Hypothesis get_settings : forall o c, get (changed o c) = new_patterns (clears o) (adds o) (removes o) (get c).
  Hypothesis get_model : forall v c, get (set_model v c) = get c.
  Hypothesis get_default : get default_config = [].
  Lemma text_In (p : text) l : In p l \/ ~ In p l.
  Proof.
    destruct (existsb (text_eqb p) l) eqn:E; [left|right].
    - apply existsb_exists in E. destruct E as (y & Y & T). apply text_eqb_eq in T. subst. exact Y.
    - intros H. assert (X : existsb (text_eqb p) l = true) by (apply existsb_exists; exists p; split; [exact H|apply text_eqb_refl]). congruence.
  Qed.
  Lemma steps_listed h p : In p (get (steps h default_config)) <-> listed clears adds removes h p.
  Proof.
    induction h as [|x h IH] using rev_ind.
    - cbn [steps fold_left]. rewrite get_default. split; [intros []|]. intros (h1 & x & h2 & E & _). destruct h1; discriminate E.
    - rewrite steps_app. cbn [steps fold_left]. destruct x as [o|m works].
      + cbn [step]. rewrite get_settings, new_In, IH. split.
        * intros [[A|[C (h1 & x & h2 & E & I1 & Q)]] R].
          -- exists h, (Settings o), []. split; [reflexivity|]. split; [split; assumption|intros y []].
          -- exists h1, x, (h2 ++ [Settings o]). split; [rewrite E, <- app_assoc; reflexivity|]. split; [exact I1|].
             intros y Y. apply in_app_or in Y. destruct Y as [Y|[<-|[]]]; [apply Q; exact Y|]. cbn [takes_out]. intros [X|[X _]]; [exact (R X)|congruence].
        * intros (h1 & x & h2 & E & I1 & Q). destruct h2 as [|z h2 _] using rev_ind.
          -- apply app_inj_tail in E. destruct E as (-> & <-). destruct I1 as (A & R). split; [left; exact A|exact R].
          -- assert (T : ~ takes_out clears adds removes z p) by (apply Q; apply in_or_app; right; left; reflexivity).
             replace (h1 ++ x :: h2 ++ [z]) with ((h1 ++ x :: h2) ++ [z]) in E by (rewrite <- app_assoc; reflexivity).
             apply app_inj_tail in E. destruct E as (-> & <-). cbn [takes_out] in T.
             split; [|intros X; apply T; left; exact X]. destruct (text_In p (adds o)) as [A|A]; [left; exact A|right]. split.
             ++ destruct (clears o); [exfalso; apply T; right; split; [reflexivity|exact A]|reflexivity].
             ++ exists h1, x, h2. split; [reflexivity|]. split; [exact I1|]. intros y Y. apply Q. apply in_or_app. left. exact Y.
      + assert (G : get (step (Set_model m works) (steps h default_config)) = get (steps h default_config)) by (cbn [step]; destruct works; [apply get_model|reflexivity]).
        rewrite G, IH. split.
        * intros (h1 & x & h2 & E & I1 & Q). exists h1, x, (h2 ++ [Set_model m works]). split; [rewrite E, <- app_assoc; reflexivity|]. split; [exact I1|].
          intros y Y. apply in_app_or in Y. destruct Y as [Y|[<-|[]]]; [apply Q; exact Y|cbn; tauto].
        * intros (h1 & x & h2 & E & I1 & Q). destruct h2 as [|z h2 _] using rev_ind.
          -- apply app_inj_tail in E. destruct E as (-> & <-). destruct I1.
          -- replace (h1 ++ x :: h2 ++ [z]) with ((h1 ++ x :: h2) ++ [z]) in E by (rewrite <- app_assoc; reflexivity).
             apply app_inj_tail in E. destruct E as (-> & <-). exists h1, x, h2. split; [reflexivity|]. split; [exact I1|]. intros y Y. apply Q. apply in_or_app. left. exact Y.
  Qed.
  Lemma steps_NoDup h : NoDup (get (steps h default_config)).
  Proof.
    induction h as [|x h IH] using rev_ind; [cbn [steps fold_left]; rewrite get_default; constructor|]. rewrite steps_app. cbn [steps fold_left].
    destruct x as [o|m works]; cbn [step]; [rewrite get_settings; apply new_NoDup; exact IH|]. destruct works; [rewrite get_model|]; exact IH.
  Qed.
End PATTERNS.
Lemma relative_stuck h : use_relative (steps h default_config) = true.
Proof.
  assert (G : forall c, use_relative c = true -> use_relative (steps h c) = true).
  { induction h as [|x h IH]; intros c U; [exact U|]. cbn [steps fold_left]. apply IH. destruct x as [o|m [|]]; cbn [step]; try exact U.
    rewrite changed_eq. unfold use_relative in *. cbn [g_relative]. destruct (o_relative o); [reflexivity|]. destruct (o_no_relative o); [reflexivity|exact U]. }
  apply G. reflexivity.
Qed.
