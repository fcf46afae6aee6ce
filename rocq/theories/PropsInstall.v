(** C98: what installing and uninstalling do to the user's own files. *)
From Coq Require Import String.
From Verif Require Import Base IndexModel Text MetaModel Install InstallSpec InstallProofs InstallToml.
Open Scope nat_scope.
Open Scope list_scope.

(** C98. AGENTS.md.  Whatever installs and uninstalls happened, uninstalling leaves the user's own
    text: all of it but its blank ends, without a file if there was none. *)
Theorem C98_round_trip : forall title skill ws f l, good_texts title skill ws -> unmarked_file f -> In Install l ->
  history title skill ws f (l ++ [Uninstall]) = user_part title ws f.
Proof.
  intros title skill ws f l G U I. rewrite history_app. cbn [apply].
  destruct (states title skill ws G f l U) as [(N & _)|(_ & [E|J])]; [contradiction| |apply (uninstall_ok title skill ws G); exact J].
  cbv zeta in E. rewrite E. apply remove_plain. apply part_unmarked. exact U.
Qed.
Print Assumptions C98_round_trip.
(** A file that colgrep never wrote to is left as it is by uninstalling. *)
Theorem C98_uninstall_only : forall title skill ws f l, unmarked_file f -> ~ In Install l -> history title skill ws f l = f.
Proof.
  intros title skill ws f l U. induction l as [|c l IH] using rev_ind; intro N; [reflexivity|]. rewrite history_app, IH by (intro I; apply N, in_or_app; left; exact I).
  destruct c; [exfalso; apply N, in_or_app; right; left; reflexivity|]. cbn [apply]. apply remove_plain. exact U.
Qed.
Print Assumptions C98_uninstall_only.
(** Installing puts the section last, after the text as it was, ... *)
Theorem C98_install : forall title skill s, unmarked s -> add_to_agents_md title skill (Some s) = Some (s ++ section skill).
Proof. exact add_plain. Qed.
Print Assumptions C98_install.
(** ... and an older section, of any release, is replaced: the texts before and after it are kept
    in their order, as they were. *)
Theorem C98_upgrade : forall title skill pre body post, unmarked pre -> contains marker_end body = false ->
  add_to_agents_md title skill (Some (pre ++ marker_start ++ body ++ marker_end ++ post)) = Some (pre ++ post ++ section skill).
Proof. exact add_over. Qed.
Print Assumptions C98_upgrade.
(** After any history that ends with an install there is exactly one section. *)
Theorem C98_one_section : forall title skill ws f l, good_texts title skill ws -> unmarked_file f ->
  exists b, history title skill ws f (l ++ [Install]) = Some (b ++ section skill) /\ unmarked b /\ user_part title ws (Some b) = user_part title ws f.
Proof.
  intros title skill ws f l G U. destruct (states title skill ws G f (l ++ [Install]) U) as [(N & _)|(_ & [E|(b & B & E & P)])].
  - exfalso. apply N, in_or_app. right. left. reflexivity.
  - exfalso. rewrite history_app in E. cbn [apply] in E. pose proof (part_unmarked title ws f U) as PU. cbv zeta in E. rewrite <- E in PU.
    unfold add_to_agents_md in PU. destruct PU as (PU & _). cbv zeta in PU. apply contains_app_r in PU. unfold section in PU. apply contains_app_l in PU. discriminate.
  - exists b. cbv zeta in E. auto.
Qed.
Print Assumptions C98_one_section.

(** config.toml.  Adding the directory adds one entry at the end of the list, or changes nothing
    when it is there; a second time it changes nothing. *)
Theorem C98_add : forall p f g b, add_root p f = (g, Ok b) ->
  In (IStr p) (entries g) /\ (b = false -> g = f) /\ (b = true -> entries g = entries f ++ [IStr p] /\ ~ In (IStr p) (entries f)) /\ add_root p g = (g, Ok false).
Proof.
  intros p f g b H. destruct (add_root_entries p f g b H) as (A & B & C). split; [exact A|]. split; [exact B|]. split; [exact C|]. exact (add_root_twice p f g b H).
Qed.
Print Assumptions C98_add.
(** Every other key keeps its value. *)
Theorem C98_add_others : forall p f g b k, add_root p f = (g, Ok b) -> (k <> sandbox -> others g k = others f k) /\ (k <> roots -> in_sandbox g k = in_sandbox f k).
Proof. exact add_root_others. Qed.
Print Assumptions C98_add_others.
(** A refused addition leaves the file alone. *)
Theorem C98_add_refused : forall p f g, add_root p f = (g, Err) -> g = f.
Proof.
  intros p f g. unfold add_root. destruct (match get sandbox _ with None => _ | _ => _ end) as [t|]; [|congruence]. destruct (match get roots t with None => _ | _ => _ end) as [a|]; [|congruence]. destruct (existsb _ a); discriminate.
Qed.
Print Assumptions C98_add_refused.
(** Uninstalling takes the entry out again: the other entries and keys are as before, and the file
    is the very file from before unless its list, its table or the whole of it was empty. *)
Theorem C98_add_remove : forall p f g, add_root p f = (g, Ok true) -> good_toml f ->
  exists f', remove_root p g = (f', Ok true) /\ (nothing_empty f -> f' = f) /\ entries f' = entries f /\
  forall k, (k <> sandbox -> others f' k = others f k) /\ (k <> roots -> in_sandbox f' k = in_sandbox f k).
Proof. exact remove_added. Qed.
Print Assumptions C98_add_remove.

(** settings.json.  Afterwards no matcher runs colgrep, every other matcher is kept in its order,
    a second removal changes nothing, and so do settings that never mention colgrep. *)
Theorem C98_hooks : forall s k, good_settings s ->
  match matchers (fst (remove_hooks s)) k with
  | Some l => forall m, In m l -> ~ runs_colgrep m
  | None => forall l, matchers s k = Some l -> forall m, In m l -> runs_colgrep m
  end.
Proof.
  intros s k G. destruct s as [| | | | | |top]; try (cbn; discriminate). destruct (G top eq_refl) as (OT & OE). unfold matchers. cbn [field].
  destruct (get hooks_key top) as [h|] eqn:H.
  2:{ unfold remove_hooks. rewrite H. cbn [fst field]. rewrite H. discriminate. }
  destruct h as [| | | | | |events]; try (unfold remove_hooks; rewrite H; cbn [fst field]; rewrite H; cbn [field]; discriminate).
  specialize (OE events eq_refl). rewrite (remove_hooks_shape top events H). cbn [field]. pose proof (left_events_get events k OE) as LG.
  assert (ALL : get k (left_events events) = None -> forall l, match get k events with Some (JArr l) => Some l | _ => None end = Some l -> forall m, In m l -> runs_colgrep m).
  { intros Z l Q m I. destruct (get k events) as [[]|]; try discriminate. injection Q as ->. rewrite Z in LG. destruct (is_nil (filter keep_matcher l)) eqn:E; [|discriminate].
    apply keep_runs. destruct (keep_matcher m) eqn:Km; [|reflexivity]. exfalso. assert (J : In m (filter keep_matcher l)) by (apply filter_In; auto). destruct (filter keep_matcher l); [destruct J|discriminate]. }
  destruct (is_nil (left_events events)) eqn:E; cbn [fst field].
  - rewrite get_drop_same. apply ALL. destruct (left_events events); [reflexivity|discriminate].
  - rewrite get_set_same. cbn [field]. destruct (get k (left_events events)) as [v|] eqn:V; [|apply ALL; reflexivity].
    destruct v as [| | | | |l|]; try (intros l0 Q; destruct (get k events) as [[]|]; try discriminate; destruct (is_nil _) in LG; discriminate).
    intros m I. rewrite <- keep_runs. destruct (get k events) as [[]|]; try discriminate. destruct (is_nil _) in LG; [discriminate|]. injection LG as ->. apply filter_In in I. destruct I as (_ & ->). discriminate.
Qed.
Print Assumptions C98_hooks.
Theorem C98_hooks_kept : forall s k l, good_settings s -> matchers s k = Some l ->
  exists kept, (matchers (fst (remove_hooks s)) k = Some kept \/ kept = [] /\ matchers (fst (remove_hooks s)) k = None) /\
    exists keep, (forall m, keep m = true <-> ~ runs_colgrep m) /\ kept = filter keep l.
Proof.
  intros s k l G M. exists (filter keep_matcher l). split.
  2:{ exists keep_matcher. split; [|reflexivity]. intro m. rewrite <- keep_runs. destruct (keep_matcher m); split; congruence. }
  destruct s as [| | | | | |top]; try discriminate. destruct (G top eq_refl) as (OT & OE). unfold matchers in M |- *. cbn [field] in M.
  destruct (get hooks_key top) as [[| | | | | |events]|] eqn:H; try discriminate. specialize (OE events eq_refl). cbn [field] in M. rewrite (remove_hooks_shape top events H). pose proof (left_events_get events k OE) as LG.
  destruct (get k events) as [[]|]; try discriminate. injection M as ->. destruct (is_nil (filter keep_matcher l)) eqn:E.
  - right. split; [destruct (filter keep_matcher l); [reflexivity|discriminate]|]. destruct (is_nil (left_events events)); cbn [fst field]; [rewrite get_drop_same; reflexivity|]. rewrite get_set_same. cbn [field]. rewrite LG. reflexivity.
  - left. destruct (is_nil (left_events events)) eqn:N; [destruct (left_events events); [discriminate LG|discriminate N]|]. cbn [fst field]. rewrite get_set_same. cbn [field]. rewrite LG. reflexivity.
Qed.
Print Assumptions C98_hooks_kept.
(** No other part of the settings changes, ... *)
Theorem C98_hooks_others : forall s k, k <> hooks_key -> field k (fst (remove_hooks s)) = field k s.
Proof.
  intros s k N. destruct s as [| | | | | |top]; try reflexivity. destruct (get hooks_key top) as [h|] eqn:H.
  2:{ unfold remove_hooks. rewrite H. reflexivity. }
  destruct h as [| | | | | |events]; try (unfold remove_hooks; rewrite H; reflexivity). rewrite (remove_hooks_shape top events H). cbn [field]. destruct (is_nil _); cbn [fst field]; [apply get_drop_other|apply get_set_other]; exact N.
Qed.
Print Assumptions C98_hooks_others.
(** ... and nothing more happens the second time. *)
Theorem C98_hooks_twice : forall s, good_settings s -> remove_hooks (fst (remove_hooks s)) = (fst (remove_hooks s), false).
Proof.
  intros s G. destruct s as [| | | | | |top]; try reflexivity. destruct (G top eq_refl) as (OT & OE).
  destruct (get hooks_key top) as [h|] eqn:H.
  2:{ unfold remove_hooks. rewrite H. cbn [fst]. rewrite H. reflexivity. }
  destruct h as [| | | | | |events]; try (unfold remove_hooks; rewrite H; cbn [fst]; rewrite H; reflexivity). rewrite (remove_hooks_shape top events H). destruct (is_nil (left_events events)) eqn:E; cbn [fst].
  - unfold remove_hooks. rewrite get_drop_same. reflexivity.
  - rewrite (remove_hooks_shape _ (left_events events)) by apply get_set_same. destruct (left_again (left_events events) (left_events_clean events)) as (A & B & C). rewrite B, E, C. f_equal. f_equal. apply set_same; [apply once_set; exact OT|apply get_set_same].
Qed.
Print Assumptions C98_hooks_twice.

(** *** What does not hold *)
Definition blank (c : Z) : bool := ((c =? 10) || (c =? 32) || (c =? 9) || (c =? 13))%Z.
Definition codex_title : text := txt "# Codex Agent Tools".
Definition a_skill : text := txt "Use colgrep.".
Definition lines (l : list string) : text := flat_map (fun s => txt s ++ newline) l.
Example C98_texts : good_texts codex_title a_skill blank.
Proof. repeat split. Qed.

(** Installing again is not the same as installing once: each time adds a blank line before the
    section. *)
Theorem C98_reinstall_refuted : ~ (forall title skill ws f, good_texts title skill ws -> unmarked_file f ->
  history title skill ws f [Install; Install] = history title skill ws f [Install]).
Proof. intro H. specialize (H codex_title a_skill blank None C98_texts I). discriminate. Qed.
Print Assumptions C98_reinstall_refuted.
(** A user's text that itself quotes the first marker, after which colgrep is installed and
    uninstalled, loses everything from there on. *)
Theorem C98_quoted_marker_refuted : ~ (forall title skill ws s, good_texts title skill ws -> contains marker_end s = false ->
  history title skill ws (Some s) [Install; Uninstall] = user_part title ws (Some s)).
Proof.
  intro H. specialize (H codex_title a_skill blank (lines ["Notes"; "the section starts at <!-- COLGREP_START -->"; "my own rules"]%string) C98_texts eq_refl). discriminate.
Qed.
Print Assumptions C98_quoted_marker_refuted.
(** When only the last marker is quoted before a section, uninstalling copies text instead of
    removing the section. *)
Theorem C98_quoted_end_refuted : exists s, contains marker_start s = false /\
  match history codex_title a_skill blank (Some s) [Install; Uninstall] with
  | Some t => contains marker_start t = true /\ length s + length (section a_skill) < length t
  | None => False
  end.
Proof.
  exists (lines ["until <!-- COLGREP_END -->"; "my own rules"]%string). split; [reflexivity|]. split; [reflexivity|]. apply Nat.ltb_lt. vm_compute. reflexivity.
Qed.
Print Assumptions C98_quoted_end_refuted.

(** A list that was empty, and a file with only comments, are gone after uninstalling; so is an
    entry the user had made. *)
Definition only_comments : option toml := Some {| m_items := []; m_rest := txt "# model = o3" |}.
Definition empty_list : option toml := Some {| m_items := [(sandbox, ITable [(roots, IArray [])])]; m_rest := [] |}.
Definition own_entry : option toml := Some {| m_items := [(sandbox, ITable [(roots, IArray [IStr (txt "/data")])])]; m_rest := [] |}.
Theorem C98_config_back_refuted :
  fst (remove_root (txt "/data") (fst (add_root (txt "/data") only_comments))) = None /\
  fst (remove_root (txt "/data") (fst (add_root (txt "/data") empty_list))) = None /\
  snd (add_root (txt "/data") own_entry) = Ok false /\ fst (remove_root (txt "/data") (fst (add_root (txt "/data") own_entry))) = None.
Proof. repeat split. Qed.
Print Assumptions C98_config_back_refuted.

(** A matcher goes with all its hooks when one of them mentions colgrep. *)
Definition hook (s : string) : json := JObj [(txt "command", JStr (txt s))].
Definition matcher (l : list json) : json := JObj [(hooks_key, JArr l)].
Definition settings (l : list json) : json := JObj [(txt "model", JStr (txt "x")); (hooks_key, JObj [(txt "Start", JArr l)])].
Theorem C98_other_hooks_refuted : exists s m h, good_settings s /\ matchers s (txt "Start") = Some [m] /\ (exists l, field hooks_key m = Some (JArr l) /\ In h l) /\
  about_colgrep h = false /\ field hooks_key (fst (remove_hooks s)) = None.
Proof.
  exists (settings [matcher [hook "make fmt"; hook "colgrep --session-hook"]]), (matcher [hook "make fmt"; hook "colgrep --session-hook"]), (hook "make fmt").
  split. { intros top E. injection E as <-. split; [repeat constructor; cbn; intuition discriminate|]. intros events Q. injection Q as <-. repeat constructor. intros []. }
  split; [reflexivity|]. split; [eexists; split; [reflexivity|left; reflexivity]|]. split; reflexivity.
Qed.
Print Assumptions C98_other_hooks_refuted.

(** *** Cases *)
Example C98_example_text : let s := lines ["# Rules"; "be brief"]%string in
  unmarked s /\ history codex_title a_skill blank (Some s) [Install; Install; Uninstall] = Some s
  /\ history codex_title a_skill blank None [Install] = Some (codex_title ++ newline ++ newline ++ section a_skill)
  /\ history codex_title a_skill blank None [Install; Uninstall] = None.
Proof. repeat split. Qed.
Definition a_config : option toml :=
  Some {| m_items := [(txt "model", IOther (txt "o3")); (sandbox, ITable [(txt "network_access", IOther (txt "true")); (roots, IArray [IStr (txt "/tmp")])]); (txt "last", IStr [])];
          m_rest := txt "# end" |}.
Example C98_example_config : good_toml a_config /\ nothing_empty a_config /\ snd (add_root (txt "/data") a_config) = Ok true
  /\ entries (fst (add_root (txt "/data") a_config)) = [IStr (txt "/tmp"); IStr (txt "/data")]
  /\ remove_root (txt "/data") (fst (add_root (txt "/data") a_config)) = (a_config, Ok true)
  /\ add_root (txt "/data") (Some {| m_items := [(sandbox, IOther [])]; m_rest := [] |}) = (Some {| m_items := [(sandbox, IOther [])]; m_rest := [] |}, Err).
Proof.
  split. { split; [repeat constructor; cbn; intuition discriminate|]. intros t E. injection E as <-. repeat constructor; cbn; intuition discriminate. }
  split; [discriminate|]. repeat split.
Qed.
Example C98_example_hooks : let m := matcher [hook "make fmt"] in let c := matcher [hook "colgrep --session-hook"] in
  good_settings (settings [c; m; c]) /\ remove_hooks (settings [c; m; c]) = (settings [m], true)
  /\ matchers (settings [c; m; c]) (txt "Start") = Some [c; m; c] /\ remove_hooks (settings [m]) = (settings [m], false).
Proof.
  cbv zeta. split. { intros top E. injection E as <-. split; [repeat constructor; cbn; intuition discriminate|]. intros events Q. injection Q as <-. repeat constructor. intros []. }
  repeat split.
Qed.
