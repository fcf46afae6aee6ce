(** C114: the processor and the colour a run is asked for. *)
From Verif Require Import Base EnvModes EnvModesSpec EnvModesProofs.
From Coq Require Import String Ascii.
Open Scope string_scope.
Open Scope nat_scope.
Open Scope list_scope.

Definition empty : environ := fun _ => None.
Definition not_blank (s : string) : bool := String.eqb s "".

(** The processor read from the environment is the one asked for, an error exactly when both are. *)
Theorem C114_mode e :
  (forall m, env_acceleration_mode e = Some m <-> asked e m)
  /\ (env_acceleration_mode e = None <-> asks_cpu e /\ asks_gpu e)
  /\ (forall m, env_acceleration_mode_lossy e = m <-> asked e m \/ (m = Auto /\ asks_cpu e /\ asks_gpu e)).
Proof.
  split; [intro; apply mode_iff|split; [apply none_iff|]].
  intro m; unfold env_acceleration_mode_lossy.
  destruct (env_acceleration_mode e) as [k|] eqn:K.
  - split.
    + intros ->; left; apply mode_iff; exact K.
    + intros [A|(_ & B)]; [apply mode_iff in A|apply none_iff in B]; congruence.
  - split.
    + intros <-; right; split; [reflexivity|apply none_iff; exact K].
    + intros [A|(-> & _)]; [apply mode_iff in A; congruence|reflexivity].
Qed.
Print Assumptions C114_mode.
Example C114_mode_example :
  env_acceleration_mode (set_var "COLGREP_FORCE_GPU" "TrUe" empty) = Some ForceGpu
  /\ env_acceleration_mode (set_var "FORCE_CPU" "yes" (set_var "FORCE_GPU" "1" empty)) = Some ForceGpu
  /\ env_acceleration_mode (set_var "FORCE_CPU" "1" (set_var "NEXT_PLAID_FORCE_GPU" "true" empty)) = None
  /\ env_acceleration_mode (set_var "FORCE_CPU" "0" empty) = Some Auto
  /\ env_acceleration_mode (set_var "FORCE_CPU" "true " empty) = Some Auto.
Proof. vm_compute; repeat split. Qed.

(** A mode that has been applied is read back, by every crate, whatever the environment was, and no other variable has changed. *)
Theorem C114_applied m e :
  env_acceleration_mode (apply_acceleration_mode m e) = Some m
  /\ (is_force_cpu (apply_acceleration_mode m e) = true <-> m = ForceCpu)
  /\ (is_force_gpu (apply_acceleration_mode m e) = true <-> m = ForceGpu)
  /\ (forall n, ~ cpu_name n -> ~ gpu_name n -> apply_acceleration_mode m e n = e n)
  /\ (forall k n, apply_acceleration_mode m (apply_acceleration_mode k e) n = apply_acceleration_mode m e n).
Proof.
  repeat match goal with |- _ /\ _ => split end.
  - apply apply_read.
  - unfold is_force_cpu, is_force_gpu, var; rewrite !apply_get; destruct m; vm_compute; split; congruence.
  - unfold is_force_gpu, var; rewrite apply_get; destruct m; vm_compute; split; congruence.
  - apply apply_frame.
  - intros k n; rewrite !apply_get. destruct (existsb _ force_cpu_env_vars); [reflexivity|]. destruct (existsb _ force_gpu_env_vars); reflexivity.
Qed.
Print Assumptions C114_applied.
Example C114_applied_example :
  let e := set_var "HOME" "/root" (set_var "FORCE_GPU" "1" (set_var "FORCE_CPU" "1" empty)) in
  env_acceleration_mode e = None
  /\ env_acceleration_mode (apply_acceleration_mode ForceCpu e) = Some ForceCpu
  /\ apply_acceleration_mode ForceCpu e "FORCE_GPU" = None
  /\ apply_acceleration_mode ForceCpu e "HOME" = Some (Plain "/root").
Proof. vm_compute; repeat split. Qed.

(** A run that starts uses the processor its flag asks for, or else that of the environment, and all crates agree; only the six variables and the cache directory change, the latter only if it was not set. *)
Theorem C114_start blank fc fg config e f : start blank fc fg config e = Some f ->
  exists m, wanted fc fg e m
    /\ env_acceleration_mode f = Some m
    /\ (is_force_cpu f = true <-> m = ForceCpu)
    /\ (is_force_gpu f = true <-> m = ForceGpu)
    /\ (forall n, ~ cpu_name n -> ~ gpu_name n -> n <> "NEXT_PLAID_COREML_CACHE_DIR" -> f n = e n)
    /\ (forall v, f "NEXT_PLAID_COREML_CACHE_DIR" = Some v <->
          e "NEXT_PLAID_COREML_CACHE_DIR" = Some v
          \/ (e "NEXT_PLAID_COREML_CACHE_DIR" = None /\ exists d, config = Some d /\ blank d = false /\ v = Plain d)).
Proof.
  intro H; apply start_iff in H as (m & W & ->). exists m.
  assert (D : apply_acceleration_mode m e "NEXT_PLAID_COREML_CACHE_DIR" = e "NEXT_PLAID_COREML_CACHE_DIR").
  { rewrite apply_get; reflexivity. }
  destruct (C114_applied m e) as (R & C & G & F & _).
  repeat match goal with |- _ /\ _ => split end.
  - exact W.
  - rewrite coreml_mode; exact R.
  - revert C; unfold is_force_cpu, is_force_gpu, var; rewrite !coreml_get by discriminate; tauto.
  - revert G; unfold is_force_gpu, var; rewrite !coreml_get by discriminate; tauto.
  - intros n A B N; rewrite coreml_get by exact N; apply F; assumption.
  - intro v; unfold apply_coreml_cache_dir; rewrite D.
    destruct (e "NEXT_PLAID_COREML_CACHE_DIR") as [w|] eqn:E.
    + rewrite D. split; [auto|intros [H|(H & _)]; [exact H|discriminate]].
    + destruct config as [d|].
      * destruct (blank d) eqn:B.
        -- rewrite D; split; [discriminate|intros [H|(_ & x & Q & P & _)]; congruence].
        -- unfold set_var; rewrite String.eqb_refl. split.
           ++ intro H; injection H as <-; right; split; [reflexivity|exists d; auto].
           ++ intros [H|(_ & x & Q & _ & ->)]; congruence.
      * rewrite D; split; [discriminate|intros [H|(_ & x & Q & _)]; congruence].
Qed.
Print Assumptions C114_start.
Example C114_start_example :
  exists f, start not_blank true false (Some "/cache") (set_var "FORCE_GPU" "1" empty) = Some f
    /\ env_acceleration_mode f = Some ForceCpu /\ is_force_cpu f = true
    /\ f "NEXT_PLAID_COREML_CACHE_DIR" = Some (Plain "/cache").
Proof. eexists; split; [reflexivity|vm_compute; repeat split]. Qed.

(** A run starts exactly if the environment does not ask for both processors. *)
Theorem C114_starts blank fc fg config e : start blank fc fg config e = None <-> asks_cpu e /\ asks_gpu e.
Proof.
  rewrite <- none_iff; unfold start. destruct (env_acceleration_mode e); split; congruence.
Qed.
Print Assumptions C114_starts.
Example C114_starts_example :
  start not_blank false false None (set_var "FORCE_GPU" "1" (set_var "COLGREP_FORCE_CPU" "true" empty)) = None.
Proof. reflexivity. Qed.

(** Not so: a flag settles which processor is used whatever the environment says. *)
Theorem C114_flag_refuted :
  ~ (forall blank config e, exists f, start blank true false config e = Some f /\ env_acceleration_mode f = Some ForceCpu).
Proof.
  intro H. destruct (H not_blank None (set_var "FORCE_GPU" "1" (set_var "FORCE_CPU" "1" empty))) as (f & E & _). discriminate.
Qed.
Print Assumptions C114_flag_refuted.

(** The libraries on their own read one variable for each processor, and the GPU goes first. *)
Theorem C114_library e :
  (is_force_gpu e = true <-> exists s, e "NEXT_PLAID_FORCE_GPU" = Some (Plain s) /\ yes s)
  /\ (is_force_cpu e = true <->
        (exists s, e "NEXT_PLAID_FORCE_CPU" = Some (Plain s) /\ yes s)
        /\ ~ (exists s, e "NEXT_PLAID_FORCE_GPU" = Some (Plain s) /\ yes s)).
Proof.
  pose proof (truthy_iff e "NEXT_PLAID_FORCE_GPU") as G; pose proof (truthy_iff e "NEXT_PLAID_FORCE_CPU") as C.
  split; [exact G|].
  change (is_force_cpu e) with (negb (env_var_is_truthy e "NEXT_PLAID_FORCE_GPU") && env_var_is_truthy e "NEXT_PLAID_FORCE_CPU").
  rewrite <- G, <- C, andb_true_iff, negb_true_iff, not_true_iff_false. tauto.
Qed.
Print Assumptions C114_library.
Example C114_library_example :
  let both := set_var "NEXT_PLAID_FORCE_CPU" "1" (set_var "NEXT_PLAID_FORCE_GPU" "True" empty) in
  is_force_gpu both = true /\ is_force_cpu both = false /\ is_force_cpu (remove_var "NEXT_PLAID_FORCE_GPU" both) = true.
Proof. repeat split; reflexivity. Qed.

(** Not so: the library on its own heeds the variables the tool heeds, or refuses to be asked for both. *)
Theorem C114_library_refuted :
  (exists e, env_acceleration_mode e = Some ForceCpu /\ is_force_cpu e = false)
  /\ (exists e, env_acceleration_mode e = None /\ is_force_gpu e = true).
Proof.
  split.
  - exists (set_var "FORCE_CPU" "1" empty); split; reflexivity.
  - exists (set_var "NEXT_PLAID_FORCE_CPU" "1" (set_var "NEXT_PLAID_FORCE_GPU" "1" empty)); split; reflexivity.
Qed.
Print Assumptions C114_library_refuted.

(** Batches and sessions after a start: those of the processor in use, at most sixteen sessions and at least one if there is a core. *)
Theorem C114_sizes blank fc fg config e f m cuda cudnn cpus :
  start blank fc fg config e = Some f -> wanted fc fg e m ->
  get_default_batch_size cuda cudnn f
    = (if cuda && match m with ForceCpu => false | ForceGpu => true | Auto => cudnn end then 64 else 1)
  /\ get_default_parallel_sessions cuda cudnn cpus f
    = (if cuda && match m with ForceCpu => false | ForceGpu => true | Auto => cudnn end then 1
       else match cpus with Some n => if n <? 16 then n else 16 | None => 16 end)
  /\ get_default_parallel_sessions cuda cudnn cpus f <= 16
  /\ (cpus <> Some 0 -> 1 <= get_default_parallel_sessions cuda cudnn cpus f).
Proof.
  intros H W. destruct (C114_start _ _ _ _ _ _ H) as (k & W' & R & _).
  assert (k = m) as -> by (eapply wanted_one; eassumption).
  unfold get_default_batch_size, get_default_parallel_sessions, get_default_cpu_parallel_sessions, env_acceleration_mode_lossy; rewrite R.
  assert (Q : Nat.min (match cpus with Some n => n | None => 16 end) 16 = match cpus with Some n => if n <? 16 then n else 16 | None => 16 end).
  { destruct cpus as [n|]; [|reflexivity]. destruct (n <? 16) eqn:L; [apply Nat.ltb_lt in L|apply Nat.ltb_ge in L]; lia. }
  assert (P : cpus <> Some 0 -> 1 <= Nat.min (match cpus with Some n => n | None => 16 end) 16).
  { intro N; destruct cpus as [[|n]|]; [congruence|lia|cbn; lia]. }
  repeat match goal with |- _ /\ _ => split end; destruct cuda, cudnn, m; cbn [andb]; try reflexivity; try exact Q; try exact P; try lia.
Qed.
Print Assumptions C114_sizes.
Example C114_sizes_example :
  let e := set_var "FORCE_CPU" "1" empty in
  wanted false false e ForceCpu
  /\ exists f, start not_blank false false None e = Some f
    /\ get_default_batch_size true true f = 1 /\ get_default_parallel_sessions true true (Some 40) f = 16.
Proof.
  split; [right; right; repeat match goal with |- _ /\ _ => split end; try reflexivity; apply mode_iff; reflexivity|].
  eexists; split; [reflexivity|split; reflexivity].
Qed.

(** Colour is written exactly when the option or the first rule of the environment says so, and both writers agree. *)
Theorem C114_colour choice terminal e :
  (fst (init choice terminal e) = true <-> coloured choice terminal e)
  /\ snd (init choice terminal e) = fst (init choice terminal e).
Proof. split; [apply coloured_iff|reflexivity]. Qed.
Print Assumptions C114_colour.
Example C114_colour_example :
  let no := set_var "NO_COLOR" "1" empty in
  fst (init CAuto true empty) = true
  /\ fst (init CAuto true no) = false
  /\ fst (init CAlways false no) = true
  /\ fst (init CAuto false (set_var "CLICOLOR_FORCE" "1" no)) = true
  /\ fst (init CAuto true (set_var "CLICOLOR" "0" empty)) = false
  /\ fst (init CAuto true (set_var "NO_COLOR" "" empty)) = true
  /\ fst (init CNever true (set_var "CLICOLOR_FORCE" "1" empty)) = false.
Proof. vm_compute; repeat split. Qed.
