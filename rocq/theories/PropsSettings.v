(** Property C104: the saved settings. *)
From Verif Require Import Base F32 Text Settings SettingsSpec SettingsProofs.
Open Scope nat_scope.

(** C104. After any commands that ran to their end, the settings can be read, and each has the value of
    the last command that asked for one, or the built-in one.  (Except whether paths are relative.) *)
Theorem C104_last_said_holds :
  forall rounded cuda h s r, Forall sensible h -> s <> Relative -> last_asked s h r ->
    exists c, load rounded (after rounded h Missing) = Some c /\ in_use cuda c s = standing cuda s r.
Proof.
  intros rounded cuda h s r F R L. destruct (after_steps rounded h Missing default_config F Logic.I eq_refl) as (A & _).
  exists (steps h default_config). split; [exact A|apply steps_in_use; assumption].
Qed.
Print Assumptions C104_last_said_holds.
(** There is always such a command or none. *)
Theorem C104_something_stands : forall s h, exists r, last_asked s h r.
Proof. exact last_asked_total. Qed.
Print Assumptions C104_something_stands.
(** C104. A pattern is ignored, or included, exactly if a command put it there and none after it took
    it out; none is there twice. *)
Theorem C104_patterns :
  forall rounded h, Forall sensible h ->
    exists c, load rounded (after rounded h Missing) = Some c
      /\ (forall p, In p (g_ignore c) <-> listed o_clear_ignore o_add_ignore o_remove_ignore h p) /\ NoDup (g_ignore c)
      /\ (forall p, In p (g_include c) <-> listed o_clear_include o_add_include o_remove_include h p) /\ NoDup (g_include c).
Proof.
  intros rounded h F. destruct (after_steps rounded h Missing default_config F Logic.I eq_refl) as (A & _). exists (steps h default_config). split; [exact A|].
  assert (I1 : forall o c, g_ignore (changed o c) = new_patterns (o_clear_ignore o) (o_add_ignore o) (o_remove_ignore o) (g_ignore c)) by (intros; rewrite changed_eq; reflexivity).
  assert (I2 : forall o c, g_include (changed o c) = new_patterns (o_clear_include o) (o_add_include o) (o_remove_include o) (g_include c)) by (intros; rewrite changed_eq; reflexivity).
  split; [intros p; apply steps_listed; auto|]. split; [eapply steps_NoDup; [exact I1|reflexivity|reflexivity]|].
  split; [intros p; apply steps_listed; auto|]. eapply steps_NoDup; [exact I2|reflexivity|reflexivity].
Qed.
Print Assumptions C104_patterns.
(** C104. What a search uses: the command line, then (for alpha) the environment, then the saved
    settings, then the built-in values; with a pattern and no -k, all results. *)
Theorem C104_search_uses :
  forall rounded cuda env h s rk rn rm rp ra rh rv, Forall sensible h ->
    last_asked K h rk -> last_asked N h rn -> last_asked Model h rm -> last_asked Pool h rp -> last_asked Alpha h ra -> last_asked Hybrid h rh -> last_asked Verbose h rv ->
    let v := search_with cuda env (load_or_default rounded (after rounded h Missing)) s in
    v_k v = match s_k s with
            | Some k => Some k
            | None => if s_pattern s then None else Some (match rk with Set_to (Number k) => k | _ => match s_n s with Some _ => 10 | None => 15 end end)
            end
    /\ v_n v = match s_n s, rn with Some n, _ => n | None, Set_to (Number n) => n | None, _ => 20 end
    /\ v_model v = match s_model s, rm with Some m, _ => Some m | None, Set_to (Word m) => Some m | None, _ => None end
    /\ v_pool v = (if s_no_pool s then 1 else match s_pool s, rp with Some p, _ => Nat.max p 1 | None, Set_to (Number p) => p | None, _ => 2 end)
    /\ 1 <= v_pool v
    /\ v_alpha v = match s_alpha s, env, ra with Some a, _, _ => a | None, Some e, _ => into_unit e | None, None, Set_to (Real a) => a | None, None, _ => default_alpha end
    /\ v_hybrid v = negb (s_semantic_only s) && match rh with Set_to (Flag b) => b | _ => true end
    /\ v_verbose v = (s_content s || match s_n s with Some n => negb (n =? 0) | None => false end || match rv with Set_to (Flag b) => b | _ => false end).
Proof.
  intros rounded cuda env h s rk rn rm rp ra rh rv F LK LN LM LP LA LH LV v.
  destruct (after_steps rounded h Missing default_config F Logic.I eq_refl) as (A & _). unfold v, load_or_default. rewrite A. clear A v. set (c := steps h default_config).
  assert (VK : in_use cuda c K = standing cuda K rk) by (apply steps_in_use; [discriminate|exact LK]).
  assert (VN : in_use cuda c N = standing cuda N rn) by (apply steps_in_use; [discriminate|exact LN]).
  assert (VM : in_use cuda c Model = standing cuda Model rm) by (apply steps_in_use; [discriminate|exact LM]).
  assert (VP : in_use cuda c Pool = standing cuda Pool rp) by (apply steps_in_use; [discriminate|exact LP]).
  assert (VA : in_use cuda c Alpha = standing cuda Alpha ra) by (apply steps_in_use; [discriminate|exact LA]).
  assert (VH : in_use cuda c Hybrid = standing cuda Hybrid rh) by (apply steps_in_use; [discriminate|exact LH]).
  assert (VV : in_use cuda c Verbose = standing cuda Verbose rv) by (apply steps_in_use; [discriminate|exact LV]).
  cbn [in_use standing built_in] in *. cbn [search_with v_k v_n v_model v_pool v_alpha v_hybrid v_verbose].
  assert (P1 : rp = Nothing \/ rp = Reset \/ exists n, 1 <= n /\ rp = Set_to (Number n)).
  { destruct LP as [h0 Q|h1 x h2 N0 Q]; [left; reflexivity|]. destruct x as [o|m w]; [|exfalso; apply N0; destruct w; reflexivity]. cbn [asks]. unfold number_or_reset.
    destruct (o_pool o) as [[|n]|]; [right; left; reflexivity|right; right; exists (Datatypes.S n); split; [lia|reflexivity]|left; reflexivity]. }
  repeat match goal with |- _ /\ _ => split end.
  - destruct (s_k s) as [k|]; cbn [is_none]; [rewrite andb_false_r; reflexivity|]. rewrite andb_true_r. destruct (s_pattern s); [reflexivity|]. f_equal.
    destruct (g_k c) as [k|]; cbn [maybe] in VK; cbn [or_else]; destruct rk as [| |[]]; try discriminate VK; try (injection VK as <-; reflexivity); destruct (s_n s); reflexivity.
  - destruct (s_n s) as [n|]; [reflexivity|]. destruct (g_n c) as [n|]; cbn [or_else] in VN |- *; destruct rn as [| |[]]; simpl in *; congruence.
  - destruct (s_model s) as [m|]; [reflexivity|]. destruct (g_model c) as [m|]; cbn [maybe] in VM; destruct rm as [| |[]]; simpl in *; congruence.
  - destruct (s_no_pool s); [reflexivity|]. destruct (s_pool s); [reflexivity|]. destruct rp as [| |[]]; try discriminate VP; injection VP as ->; reflexivity.
  - destruct (s_no_pool s); [lia|]. destruct (s_pool s); [lia|]. destruct P1 as [->|[->|(n & Hn & ->)]]; injection VP as ->; lia.
  - destruct (s_alpha s); [reflexivity|]. cbn [or_else]. unfold get_alpha in *. destruct env; [apply clamp_into|]. destruct ra as [| |[]]; try discriminate VA; injection VA as ->; reflexivity.
  - f_equal. destruct rh as [| |[]]; try discriminate VH; injection VH as ->; reflexivity.
  - assert (E : is_verbose c = match rv with Set_to (Flag b) => b | _ => false end) by (destruct rv as [| |[]]; try discriminate VV; injection VV as ->; reflexivity).
    rewrite E. destruct (s_content s); [reflexivity|]. cbn [orb]. destruct (s_n s) as [[|n]|]; reflexivity.
Qed.
Print Assumptions C104_search_uses.
(** C104. Showing the settings, and a model that cannot be used, change nothing. *)
Definition no_options : options :=
  mk_options None None false false false None false None None None None false false false false false false None [] [] [] [] false false.
Theorem C104_nothing_asked : forall rounded d m, run_command rounded (Settings no_options) d = d /\ run_command rounded (Set_model m false) d = d.
Proof.
  intros rounded d m. unfold run_command, outcome_of. destruct (load rounded d) as [c|]; [|auto]. split; [reflexivity|].
  destruct (match g_model c with Some m' => text_eqb m' m | None => false end); reflexivity.
Qed.
Print Assumptions C104_nothing_asked.
(** C104. Saving and loading gives every configuration back whose alpha is a number. *)
Theorem C104_round_trip : forall rounded c, (forall a, g_alpha c = Some a -> is_finite a = true) -> load rounded (save c) = Some c.
Proof. intros rounded c A. apply round_trip. unfold plain_alpha. destruct (g_alpha c); [apply A; reflexivity|exact Logic.I]. Qed.
Print Assumptions C104_round_trip.

Definition ex_set (k : option nat) (alpha : option f32) (add remove : list text) : options :=
  mk_options k None false true false None false None (Some 3) None None true false false true false true alpha add remove [] [] false false.
Definition ex_history : list command :=
  [Settings (ex_set (Some 7) (Some f_one) [txt "gen"; txt "out"] []); Set_model (txt "other") true; Set_model (txt "bad") false; Settings no_options;
   Settings (ex_set (Some 0) None [txt "gen"] [txt "out"]); Settings (ex_set (Some 9) (Some 1056964608%Z) [] [])].
Definition ex_search : search_options := mk_search_options None None None false false false None None false.
Example C104_example :
  Forall sensible ex_history /\ last_asked K ex_history (Set_to (Number 9)) /\ last_asked Model ex_history (Set_to (Word (txt "other"))) /\ last_asked Pool ex_history Nothing
  /\ g_ignore (load_or_default (fun _ => 0%Z) (after (fun _ => 0%Z) ex_history Missing)) = [txt "gen"]
  /\ v_k (search_with false None (load_or_default (fun _ => 0%Z) (after (fun _ => 0%Z) ex_history Missing)) ex_search) = Some 9
  /\ v_alpha (search_with false None (load_or_default (fun _ => 0%Z) (after (fun _ => 0%Z) ex_history Missing)) ex_search) = 1056964608%Z.
Proof.
  split; [repeat constructor|]. split; [|split; [|split; [|vm_compute; auto]]].
  - apply (at_last K (firstn 5 ex_history) (Settings (ex_set (Some 9) (Some 1056964608%Z) [] [])) []); [discriminate|intros y []].
  - apply (at_last Model (firstn 1 ex_history) (Set_model (txt "other") true) (skipn 2 ex_history)); [discriminate|].
    intros y Y. cbn in Y. repeat (destruct Y as [<-|Y]; [reflexivity|]). destruct Y.
  - apply never. intros y Y. cbn in Y. repeat (destruct Y as [<-|Y]; [reflexivity|]). destruct Y.
Qed.

(** Not so for paths: whatever is asked, they stay relative; --no-relative-paths has no effect. *)
Theorem C104_absolute_paths_refuted :
  forall rounded cuda env h s, Forall sensible h -> v_relative (search_with cuda env (load_or_default rounded (after rounded h Missing)) s) = true.
Proof.
  intros rounded cuda env h s F. destruct (after_steps rounded h Missing default_config F Logic.I eq_refl) as (A & _). unfold load_or_default. rewrite A. apply relative_stuck.
Qed.
Print Assumptions C104_absolute_paths_refuted.
(** Not so: the defaults that are shown are those in use. *)
Theorem C104_shown_defaults_refuted :
  shown_k default_config = 25 /\ v_k (search_with false None default_config ex_search) = Some 15
  /\ shown_n default_config = 6 /\ v_n (search_with false None default_config ex_search) = 20.
Proof. vm_compute. auto. Qed.
Print Assumptions C104_shown_defaults_refuted.
(** Not so: alpha 0 (keywords only) can be saved; and not so: alpha on the command line is between 0 and 1. *)
Theorem C104_alpha_refuted :
  (forall rounded d c, load rounded d = Some c -> g_alpha (changed (mk_options None None false false false None false None None None None false false false false false false (Some f_zero) [] [] [] [] false false) c) = None)
  /\ get_alpha default_config None = default_alpha
  /\ v_alpha (search_with false None default_config (mk_search_options None None None false false false (Some 1073741824%Z) None false)) = 1073741824%Z /\ f_gt 1073741824%Z f_one = true.
Proof. split; [intros; rewrite changed_eq; reflexivity|]. vm_compute. auto. Qed.
Print Assumptions C104_alpha_refuted.
(** Not so for "not a number": it is accepted, in use until the command ends, and saved as null. *)
Theorem C104_nan_refuted :
  exists o c, c = changed o default_config /\ g_alpha c = Some f_quiet_nan /\ forall rounded, exists c', load rounded (run_command rounded (Settings o) Missing) = Some c' /\ g_alpha c' = None.
Proof.
  exists (mk_options None None false false false None false None None None None false false false false false false (Some f_quiet_nan) [] [] [] [] false false). eexists. split; [reflexivity|].
  split; [vm_compute; reflexivity|]. intros rounded. eexists. split; [vm_compute; reflexivity|reflexivity].
Qed.
Print Assumptions C104_nan_refuted.
(** Not so if the process is killed: the file is cut in place.  All settings are lost for searches and
    for indexing, and every later command on settings fails until the file is removed. *)
Theorem C104_killed_refuted :
  forall rounded, let before := after rounded ex_history Missing in let d := killed_writing rounded (Settings (ex_set (Some 5) None [] [])) before in
    d <> before /\ g_ignore (load_or_default rounded before) = [txt "gen"] /\ g_ignore (load_or_default rounded d) = []
    /\ forall h, after rounded h d = d /\ forall x, outcome_of rounded x (after rounded h d) = Fails.
Proof.
  intros rounded before d.
  assert (D : d = Cut) by (vm_compute; reflexivity). rewrite D. split; [vm_compute; discriminate|]. split; [vm_compute; reflexivity|]. split; [reflexivity|].
  intros h. assert (S : after rounded h Cut = Cut) by (induction h as [|x h IH]; [reflexivity|exact IH]). rewrite S. split; [reflexivity|]. intros x. reflexivity.
Qed.
Print Assumptions C104_killed_refuted.
(** Not so for two commands at the same time: both load, both save, and the first change is lost. *)
Theorem C104_two_commands_refuted :
  forall rounded, exists o1 o2 c1 c2, load rounded Missing = Some c1 /\ c2 = changed o2 c1
    /\ g_k (changed o1 c1) = Some 7 /\ o_k o2 = None /\ forall c, load rounded (save c2) = Some c -> g_k c = None.
Proof.
  intros rounded. exists (ex_set (Some 7) None [] []), (ex_set None None [] []), default_config. eexists. split; [reflexivity|]. split; [reflexivity|].
  split; [vm_compute; reflexivity|]. split; [reflexivity|]. intros c L. vm_compute in L. injection L as <-. reflexivity.
Qed.
Print Assumptions C104_two_commands_refuted.
(** Not so: what else is in the file stays.  Members of other names are dropped. *)
Theorem C104_other_members_refuted :
  forall rounded, let d := Saved [(txt "theme", JText (txt "dark"))] in
    load rounded d = Some default_config /\ exists o, run_command rounded (Settings (ex_set (Some 7) None [] [])) d = Saved o /\ ~ In (txt "theme") (map fst o).
Proof. intros rounded d. split; [vm_compute; reflexivity|]. eexists. split; [vm_compute; reflexivity|]. vm_compute. intuition discriminate. Qed.
Print Assumptions C104_other_members_refuted.
(** Not so for large runs: with more than 10000 units the factor is 2, whatever was asked. *)
Theorem C104_no_pool_refuted :
  forall cuda env c s units, s_no_pool s = true -> 10 * 1000 < units -> v_pool (search_with cuda env c s) = 1 /\ pool_of_run (v_pool (search_with cuda env c s)) units = 2.
Proof.
  intros cuda env c s units N L. cbn [search_with v_pool]. rewrite N. split; [reflexivity|]. unfold pool_of_run, large_batch. apply Nat.ltb_lt in L. rewrite L. reflexivity.
Qed.
Print Assumptions C104_no_pool_refuted.
