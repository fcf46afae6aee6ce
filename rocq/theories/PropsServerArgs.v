(** C116: the command line of the server and the limits in its environment. *)
From Verif Require Import Base Text FtsText FtsTextSpec ServerArgs ServerArgsSpec ServerArgsProofs.
From Verif Require Import PropsAnalysis.
From Coq Require Import String.
Open Scope string_scope.
Open Scope nat_scope.
Open Scope list_scope.

Lemma reads_run args items : reads args items ->
  forall rest s, parse_args (args ++ rest) s = parse_args rest (fold_left (fun s i => apply_item i s) items s).
Proof. intros (gs & -> & F) rest s. apply step_all; exact F. Qed.

(** The server runs exactly if its command line is a row of options, and then with what they ask for, the last of each kind. *)
Theorem C116_runs args :
  (forall s, parse_args args defaults = Run s -> exists items, reads args items /\ asks_for items s)
  /\ (forall items, reads args items -> exists s, parse_args args defaults = Run s /\ asks_for items s).
Proof.
  split.
  - intros s H. pose proof (parse_cases _ args defaults (le_n _)) as P. rewrite H in P. destruct P as (items & R & ->).
    exists items; split; [exact R|apply asked_fold].
  - intros items R. exists (fold_left (fun s i => apply_item i s) items defaults). split; [|apply asked_fold].
    rewrite <- (app_nil_r args), (reads_run _ _ R). reflexivity.
Qed.
Print Assumptions C116_runs.
Example C116_runs_example :
  let args := [txt "-p"; txt "3000"; txt "--cuda"; txt "--port"; txt "+81"; txt "--threads"; txt "4"; txt "-h"; txt "--help"] in
  reads args [Port 3000; Cuda; Port 81; Count Threads 4; Host (txt "--help")]
  /\ match parse_args args defaults with
     | Run s => s_port s = 81%Z /\ s_cuda s = true /\ s_int8 s = false /\ s_count s Threads = Some 4%Z /\ s_count s Parallel = None
                /\ s_host s = txt "--help" /\ s_index_dir s = txt "./indices"
     | _ => False
     end.
Proof.
  split; [|vm_compute; repeat split].
  exists [[txt "-p"; txt "3000"]; [txt "--cuda"]; [txt "--port"; txt "+81"]; [txt "--threads"; txt "4"]; [txt "-h"; txt "--help"]].
  split; [reflexivity|].
  repeat (apply Forall2_cons || apply Forall2_nil).
  - apply one_port; [right; reflexivity|apply number_iff; reflexivity].
  - apply one_cuda.
  - apply one_port; [left; reflexivity|apply number_iff; reflexivity].
  - apply (one_count Threads); apply number_iff; reflexivity.
  - apply one_host; right; reflexivity.
Qed.

(** It shows the help and ends well exactly if that is asked for after a row of options, and fails exactly if neither. *)
Theorem C116_ends args :
  (parse_args args defaults = Exit 0 <-> exists pre rest items, args = pre ++ txt "--help" :: rest /\ reads pre items)
  /\ (parse_args args defaults = Exit 1 <->
        (forall items, ~ reads args items) /\ forall pre rest items, args = pre ++ txt "--help" :: rest -> ~ reads pre items)
  /\ (forall c, parse_args args defaults = Exit c -> c = 0 \/ c = 1).
Proof.
  pose proof (parse_cases _ args defaults (le_n _)) as P.
  assert (H0 : forall pre rest items, args = pre ++ txt "--help" :: rest -> reads pre items -> parse_args args defaults = Exit 0).
  { intros pre rest items -> R. rewrite (reads_run _ _ R). reflexivity. }
  assert (H1 : forall items, reads args items -> exists s, parse_args args defaults = Run s).
  { intros items R. destruct (proj2 (C116_runs args) items R) as (s & E & _); exists s; exact E. }
  repeat match goal with |- _ /\ _ => split end.
  - split; [intro E; rewrite E in P; exact P|intros (pre & rest & items & E & R); exact (H0 _ _ _ E R)].
  - split.
    + intro E; split; [intros items R; destruct (H1 items R); congruence|intros pre rest items Q R; rewrite (H0 _ _ _ Q R) in E; discriminate].
    + intros [A B]. destruct (parse_args args defaults) as [s|[|[|c]]].
      * destruct P as (items & R & _); destruct (A items R).
      * destruct P as (pre & rest & items & Q & R); destruct (B _ _ _ Q R).
      * reflexivity.
      * destruct P.
  - intros c E; rewrite E in P. destruct c as [|[|c]]; [auto|auto|destruct P].
Qed.
Print Assumptions C116_ends.
Example C116_ends_example :
  parse_args [txt "--int8"; txt "--help"; txt "junk"] defaults = Exit 0
  /\ parse_args [txt "junk"; txt "--help"] defaults = Exit 1
  /\ parse_args [txt "-p"; txt "65536"] defaults = Exit 1
  /\ parse_args [txt "-p"; txt "-1"] defaults = Exit 1
  /\ parse_args [txt "--model"] defaults = Exit 1
  /\ parse_args [txt "--port=80"] defaults = Exit 1.
Proof. vm_compute; repeat split. Qed.

(** Not so: -h asks for help. *)
Theorem C116_help_refuted : parse_args [txt "-h"] defaults = Exit 1 /\ exists s, parse_args [txt "-h"; txt "--help"] defaults = Run s.
Proof. split; [reflexivity|eexists; reflexivity]. Qed.
Print Assumptions C116_help_refuted.

(** A limit is the number its variable holds, or the default if it is not set or holds no number of its size. *)
Theorem C116_limits max default v :
  (forall t n, v = Some t -> number max t n -> env_limit max default v = n)
  /\ ((forall t n, v = Some t -> ~ number max t n) -> env_limit max default v = default).
Proof.
  unfold env_limit; split.
  - intros t n -> H; apply number_iff in H; rewrite H; reflexivity.
  - intro H. destruct v as [t|]; [|reflexivity]. destruct (parse_below max t) as [n|] eqn:P; [|reflexivity].
    apply number_iff in P. destruct (H t n eq_refl P).
Qed.
Print Assumptions C116_limits.
Example C116_limits_example :
  env_limit u64_max 300 (Some (txt "1000")) = 1000%Z /\ env_limit u64_max 300 (Some (txt " 7")) = 300%Z
  /\ env_limit u32_max 100 (Some (txt "4294967296")) = 100%Z /\ env_limit u64_max 10 (Some (txt "1_000")) = 10%Z /\ env_limit u64_max 10 None = 10%Z.
Proof. vm_compute; repeat split. Qed.

(** Requests are limited only if that is switched on, and then the quota is that of the two variables. *)
Theorem C116_rate U enabled per_second burst :
  (rate_limit U enabled per_second burst = Ok None
     <-> forall v, enabled = Some v -> ~ In (u_lower U v) [txt "true"; txt "1"; txt "yes"])
  /\ (forall q, rate_limit U enabled per_second burst = Ok (Some q) ->
        q_period q = env_limit (2 ^ 64) 50 per_second /\ q_burst q = env_limit (2 ^ 32) 100 burst /\ q_period q <> 0%Z /\ q_burst q <> 0%Z)
  /\ (rate_limit U enabled per_second burst = Panic
        <-> (exists v, enabled = Some v /\ In (u_lower U v) [txt "true"; txt "1"; txt "yes"])
            /\ (env_limit (2 ^ 64) 50 per_second = 0%Z \/ env_limit (2 ^ 32) 100 burst = 0%Z)).
Proof.
  unfold rate_limit; cbv zeta. change u64_max with (2 ^ 64)%Z. change u32_max with (2 ^ 32)%Z.
  set (p := env_limit (2 ^ 64) 50 per_second). set (b := env_limit (2 ^ 32) 100 burst).
  assert (ON : match enabled with None => false | Some v => text_eqb (u_lower U v) (txt "true") || text_eqb (u_lower U v) (txt "1") || text_eqb (u_lower U v) (txt "yes") end = true
            <-> exists v, enabled = Some v /\ In (u_lower U v) [txt "true"; txt "1"; txt "yes"]).
  { destruct enabled as [v|]; [|split; [discriminate|intros (v & H & _); discriminate]].
    rewrite !orb_true_iff, !text_eqb_eq. split.
    - intro H; exists v; split; [reflexivity|]. cbn [In]. intuition auto.
    - intros (w & E & H). injection E as ->. cbn [In] in H. intuition auto. }
  match goal with |- context [if ?c then _ else Ok None] => destruct c end.
  - destruct (proj1 ON eq_refl) as (v & V & I).
    assert (NO : ~ (forall w, enabled = Some w -> ~ In (u_lower U w) [txt "true"; txt "1"; txt "yes"])) by (intro H; exact (H v V I)).
    destruct ((p =? 0)%Z || (b =? 0)%Z) eqn:Z.
    + apply orb_prop in Z as Z'. rewrite !Z.eqb_eq in Z'.
      repeat match goal with |- _ /\ _ => split end; [split; [discriminate|tauto]|discriminate|split; [intros _; split; [exists v; auto|exact Z']|reflexivity]].
    + apply orb_false_elim in Z as [Z1 Z2]. apply Z.eqb_neq in Z1, Z2.
      repeat match goal with |- _ /\ _ => split end; [split; [discriminate|tauto]| |split; [discriminate|tauto]].
      intros q Q; injection Q as <-; auto.
  - repeat match goal with |- _ /\ _ => split end; [split; [|reflexivity]|discriminate|split; [discriminate|]].
    + intros _ v V I. assert (false = true) by (apply ON; exists v; auto). discriminate.
    + intros [H _]. apply ON in H; discriminate.
Qed.
Print Assumptions C116_rate.
Example C116_rate_example :
  rate_limit ascii_unicode (Some (txt "Yes")) None (Some (txt "5")) = Ok (Some {| q_period := 50; q_burst := 5 |})
  /\ rate_limit ascii_unicode (Some (txt "on")) None None = Ok None
  /\ rate_limit ascii_unicode (Some (txt "1")) (Some (txt "0")) None = Panic.
Proof. vm_compute; repeat split. Qed.

(** Not so: RATE_LIMIT_PER_SECOND is the number of requests a second in the long run; it is the number of seconds to wait for each. *)
Theorem C116_per_second_refuted :
  exists q, rate_limit ascii_unicode (Some (txt "true")) None None = Ok (Some q)
    /\ (100 / q_period q)%Z = 2%Z /\ (100 * 50)%Z <> (100 / q_period q)%Z.
Proof. eexists; split; [vm_compute; reflexivity|split; vm_compute; [reflexivity|discriminate]]. Qed.
Print Assumptions C116_per_second_refuted.

(** Not so: any number is taken for the room of a queue. *)
Theorem C116_channel_refuted :
  (exists t, number (2 ^ 64) t 0 /\ batch_channel (Some t) = Panic)
  /\ (forall v, (forall t, v = Some t -> ~ number (2 ^ 64) t 0) -> exists n, batch_channel v = Ok n /\ n <> 0%Z).
Proof.
  split; [exists (txt "0"); split; [apply number_iff; reflexivity|reflexivity]|].
  intros v H. unfold batch_channel; cbv zeta. destruct (env_limit u64_max 100 v =? 0)%Z eqn:E.
  - apply Z.eqb_eq in E. unfold env_limit in E. destruct v as [t|]; [|discriminate].
    destruct (parse_below u64_max t) as [n|] eqn:P; [|discriminate]. subst n. apply number_iff in P. destruct (H t eq_refl P).
  - apply Z.eqb_neq in E. eexists; split; [reflexivity|exact E].
Qed.
Print Assumptions C116_channel_refuted.
