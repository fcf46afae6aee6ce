(** Lemmas for C114. *)
From Verif Require Import Base EnvModes EnvModesSpec.
From Coq Require Import String Ascii.
Open Scope string_scope.
Open Scope nat_scope.
Open Scope list_scope.

Lemma lower1_is c x y : lower1 c = x -> nat_of_ascii x = nat_of_ascii y + 32 -> 65 <= nat_of_ascii y <= 90 -> c = x \/ c = y.
Proof.
  unfold lower1; intros H E R.
  destruct ((65 <=? nat_of_ascii c) && (nat_of_ascii c <=? 90)) eqn:B; [|left; exact H].
  apply andb_prop in B as [B1 B2]; apply Nat.leb_le in B1, B2.
  right. assert (nat_of_ascii x = nat_of_ascii c + 32) as X.
  { rewrite <- H; apply nat_ascii_embedding; lia. }
  rewrite <- (ascii_nat_embedding c), <- (ascii_nat_embedding y); f_equal; lia.
Qed.

Lemma letter_iff small big c : nat_of_ascii small = nat_of_ascii big + 32 -> 65 <= nat_of_ascii big <= 90 -> lower1 small = small ->
  Ascii.eqb (lower1 c) (lower1 small) = true <-> letter small big c.
Proof.
  intros E R L; rewrite Ascii.eqb_eq, L; split.
  - intro H; destruct (lower1_is _ _ big H E R) as [->| ->]; constructor.
  - intros [|]; [exact L|]. unfold lower1.
    replace ((65 <=? nat_of_ascii big) && (nat_of_ascii big <=? 90)) with true.
    + rewrite <- E; apply ascii_nat_embedding.
    + symmetry; apply andb_true_intro; split; apply Nat.leb_le; lia.
Qed.

Lemma true_iff s : eq_nocase s "true" = true <->
  exists t r u e, letter "t" "T" t /\ letter "r" "R" r /\ letter "u" "U" u /\ letter "e" "E" e
    /\ s = String t (String r (String u (String e EmptyString))).
Proof.
  assert (Lt : forall c, Ascii.eqb (lower1 c) (lower1 "t") = true <-> letter "t" "T" c) by (intro; apply letter_iff; vm_compute; try reflexivity; lia).
  assert (Lr : forall c, Ascii.eqb (lower1 c) (lower1 "r") = true <-> letter "r" "R" c) by (intro; apply letter_iff; vm_compute; try reflexivity; lia).
  assert (Lu : forall c, Ascii.eqb (lower1 c) (lower1 "u") = true <-> letter "u" "U" c) by (intro; apply letter_iff; vm_compute; try reflexivity; lia).
  assert (Le : forall c, Ascii.eqb (lower1 c) (lower1 "e") = true <-> letter "e" "E" c) by (intro; apply letter_iff; vm_compute; try reflexivity; lia).
  split.
  - destruct s as [|t [|r [|u [|e [|x s]]]]]; cbn [eq_nocase]; rewrite ?andb_true_iff; intro H; try (exfalso; intuition discriminate).
    destruct H as (Ht & Hr & Hu & He & _).
    exists t, r, u, e. rewrite <- Lt, <- Lr, <- Lu, <- Le. auto.
  - intros (t & r & u & e & Ht & Hr & Hu & He & ->). cbn [eq_nocase].
    apply Lt in Ht; apply Lr in Hr; apply Lu in Hu; apply Le in He.
    rewrite Ht, Hr, Hu, He; reflexivity.
Qed.

Lemma yes_iff s : String.eqb s "1" || eq_nocase s "true" = true <-> yes s.
Proof.
  rewrite orb_true_iff, String.eqb_eq, true_iff; split.
  - intros [->|(t & r & u & e & A & B & C & D & ->)]; constructor; assumption.
  - intros [|t r u e A B C D]; [left; reflexivity|right]. exists t, r, u, e; auto.
Qed.

Lemma truthy_iff e n : env_var_is_truthy e n = true <-> exists s, e n = Some (Plain s) /\ yes s.
Proof.
  unfold env_var_is_truthy, var; destruct (e n) as [[s|]|].
  - rewrite yes_iff; split; [intro; exists s; auto|intros (x & E & Y); congruence].
  - split; [discriminate|intros (x & E & _); discriminate].
  - split; [discriminate|intros (x & E & _); discriminate].
Qed.

Lemma cpu_iff e : existsb (env_var_is_truthy e) force_cpu_env_vars = true <-> asks_cpu e.
Proof.
  rewrite existsb_exists; split.
  - intros (n & H & T); apply truthy_iff in T as (s & E & Y). exists n, s; split; [|auto].
    unfold cpu_name; cbn [In force_cpu_env_vars] in H; intuition auto.
  - intros (n & s & H & E & Y); exists n; split; [|apply truthy_iff; exists s; auto].
    unfold cpu_name in H; cbn [In force_cpu_env_vars]; intuition auto.
Qed.

Lemma gpu_iff e : existsb (env_var_is_truthy e) force_gpu_env_vars = true <-> asks_gpu e.
Proof.
  rewrite existsb_exists; split.
  - intros (n & H & T); apply truthy_iff in T as (s & E & Y). exists n, s; split; [|auto].
    unfold gpu_name; cbn [In force_gpu_env_vars] in H; intuition auto.
  - intros (n & s & H & E & Y); exists n; split; [|apply truthy_iff; exists s; auto].
    unfold gpu_name in H; cbn [In force_gpu_env_vars]; intuition auto.
Qed.

Lemma mode_iff e m : env_acceleration_mode e = Some m <-> asked e m.
Proof.
  unfold env_acceleration_mode, asked.
  pose proof (cpu_iff e) as C; pose proof (gpu_iff e) as G.
  destruct (existsb _ force_cpu_env_vars), (existsb _ force_gpu_env_vars); cbn [andb];
    destruct m; split; intro H; try discriminate; try reflexivity; intuition discriminate.
Qed.

Lemma none_iff e : env_acceleration_mode e = None <-> asks_cpu e /\ asks_gpu e.
Proof.
  unfold env_acceleration_mode.
  pose proof (cpu_iff e) as C; pose proof (gpu_iff e) as G.
  destruct (existsb _ force_cpu_env_vars), (existsb _ force_gpu_env_vars); cbn [andb];
    split; intro H; try discriminate; try reflexivity; intuition discriminate.
Qed.

Lemma remove_all_get names e n : remove_all names e n = if existsb (String.eqb n) names then None else e n.
Proof.
  unfold remove_all; revert e; induction names as [|x l IH]; intro e; cbn [fold_left existsb]; [reflexivity|].
  rewrite IH; unfold remove_var. destruct (String.eqb n x), (existsb (String.eqb n) l); reflexivity.
Qed.

Lemma set_all_get names e n : set_all names e n = if existsb (String.eqb n) names then Some (Plain "1") else e n.
Proof.
  unfold set_all; revert e; induction names as [|x l IH]; intro e; cbn [fold_left existsb]; [reflexivity|].
  rewrite IH; unfold set_var. destruct (String.eqb n x), (existsb (String.eqb n) l); reflexivity.
Qed.

Lemma cpu_named n : existsb (String.eqb n) force_cpu_env_vars = true <-> cpu_name n.
Proof.
  unfold cpu_name, force_cpu_env_vars; cbn [existsb]. rewrite !orb_true_iff, !String.eqb_eq; intuition discriminate.
Qed.

Lemma gpu_named n : existsb (String.eqb n) force_gpu_env_vars = true <-> gpu_name n.
Proof.
  unfold gpu_name, force_gpu_env_vars; cbn [existsb]. rewrite !orb_true_iff, !String.eqb_eq; intuition discriminate.
Qed.

Lemma not_both n : cpu_name n -> gpu_name n -> False.
Proof. unfold cpu_name, gpu_name; intros [->|[->| ->]] [H|[H|H]]; discriminate. Qed.

(** What a name holds after a mode is applied. *)
Lemma apply_get m e n : apply_acceleration_mode m e n =
  if existsb (String.eqb n) force_cpu_env_vars then match m with ForceCpu => Some (Plain "1") | _ => None end
  else if existsb (String.eqb n) force_gpu_env_vars then match m with ForceGpu => Some (Plain "1") | _ => None end
  else e n.
Proof.
  pose proof (cpu_named n) as C; pose proof (gpu_named n) as G; pose proof (not_both n) as N.
  destruct m; unfold apply_acceleration_mode; rewrite ?set_all_get, ?remove_all_get, ?existsb_app;
    destruct (existsb (String.eqb n) force_cpu_env_vars), (existsb (String.eqb n) force_gpu_env_vars); cbn [orb]; try reflexivity;
    exfalso; apply N; intuition auto.
Qed.

Lemma apply_frame m e n : ~ cpu_name n -> ~ gpu_name n -> apply_acceleration_mode m e n = e n.
Proof.
  intros C G; rewrite apply_get.
  destruct (existsb _ force_cpu_env_vars) eqn:A; [apply cpu_named in A; tauto|].
  destruct (existsb _ force_gpu_env_vars) eqn:B; [apply gpu_named in B; tauto|reflexivity].
Qed.

Lemma apply_read m e : env_acceleration_mode (apply_acceleration_mode m e) = Some m.
Proof.
  apply mode_iff.
  assert (Y : yes "1") by constructor.
  assert (C : forall k, asks_cpu (apply_acceleration_mode k e) <-> k = ForceCpu).
  { intro k; split.
    - intros (n & s & H & E & _). rewrite apply_get in E. rewrite (proj2 (cpu_named n) H) in E. destruct k; congruence.
    - intros ->; exists "FORCE_CPU", "1"; split; [left; reflexivity|split; [reflexivity|exact Y]]. }
  assert (G : forall k, asks_gpu (apply_acceleration_mode k e) <-> k = ForceGpu).
  { intro k; split.
    - intros (n & s & H & E & _). rewrite apply_get in E. rewrite (proj2 (gpu_named n) H) in E.
      destruct (existsb (String.eqb n) force_cpu_env_vars) eqn:A; [apply cpu_named in A; destruct (not_both n A H)|destruct k; congruence].
    - intros ->; exists "FORCE_GPU", "1"; split; [left; reflexivity|split; [reflexivity|exact Y]]. }
  unfold asked; destruct m; rewrite ?C, ?G; intuition discriminate.
Qed.

Lemma coreml_get blank config e n : n <> "NEXT_PLAID_COREML_CACHE_DIR" -> apply_coreml_cache_dir blank config e n = e n.
Proof.
  intro H; unfold apply_coreml_cache_dir.
  destruct (e "NEXT_PLAID_COREML_CACHE_DIR"); [reflexivity|].
  destruct config as [d|]; [|reflexivity]. destruct (blank d); [reflexivity|].
  unfold set_var. apply String.eqb_neq in H; rewrite H; reflexivity.
Qed.

(** The mode depends on the six variables alone. *)
Lemma mode_ext e f : (forall n, cpu_name n \/ gpu_name n -> e n = f n) -> env_acceleration_mode e = env_acceleration_mode f.
Proof.
  intro H.
  assert (T : forall n, cpu_name n \/ gpu_name n -> env_var_is_truthy e n = env_var_is_truthy f n).
  { intros n N; unfold env_var_is_truthy, var; rewrite (H n N); reflexivity. }
  unfold env_acceleration_mode, force_cpu_env_vars, force_gpu_env_vars; cbn [existsb].
  rewrite !T by (unfold cpu_name, gpu_name; tauto). reflexivity.
Qed.

Lemma coreml_mode blank config e : env_acceleration_mode (apply_coreml_cache_dir blank config e) = env_acceleration_mode e.
Proof.
  apply mode_ext; intros n N; apply coreml_get; intros ->.
  destruct N as [[H|[H|H]]|[H|[H|H]]]; discriminate.
Qed.

Lemma start_iff blank fc fg config e f : start blank fc fg config e = Some f ->
  exists m, wanted fc fg e m /\ f = apply_coreml_cache_dir blank config (apply_acceleration_mode m e).
Proof.
  unfold start. destruct (env_acceleration_mode e) as [k|] eqn:K; [|discriminate]. intro H; injection H as <-.
  apply mode_iff in K. unfold wanted.
  destruct fc; [exists ForceCpu; auto|]. destruct fg; [exists ForceGpu; auto 6|exists k; auto 7].
Qed.

Lemma wanted_one fc fg e m k : wanted fc fg e m -> wanted fc fg e k -> m = k.
Proof.
  unfold wanted; intros [(A & B)|[(A & B & C)|(A & B & C)]] [(A' & B')|[(A' & B' & C')|(A' & B' & C')]]; try congruence.
  apply mode_iff in C, C'; congruence.
Qed.

Lemma coloured_iff choice terminal e : fst (init choice terminal e) = true <-> coloured choice terminal e.
Proof.
  unfold init, coloured; cbn [fst]; destruct choice; [|tauto|intuition discriminate].
  assert (F : env_truthy e "CLICOLOR_FORCE" = true <-> forced_on e).
  { unfold env_truthy, forced_on, var; destruct (e "CLICOLOR_FORCE") as [[s|]|].
    - rewrite andb_true_iff, !negb_true_iff, !String.eqb_neq. split; [intro; exists s; tauto|intros (x & E & N); injection E as ->; exact N].
    - split; [discriminate|intros (x & E & _); discriminate].
    - split; [discriminate|intros (x & E & _); discriminate]. }
  assert (R : match e "NO_COLOR" with Some (Plain v) => negb (String.eqb v "") | Some Garbled => true | None => false end = true <-> refused e).
  { unfold refused; destruct (e "NO_COLOR") as [[s|]|].
    - rewrite negb_true_iff, String.eqb_neq; split; [intro; exists (Plain s); split; congruence|intros (v & E & N); congruence].
    - split; [intro; exists Garbled; split; congruence|reflexivity].
    - split; [discriminate|intros (v & E & _); discriminate]. }
  assert (W : match var e "CLICOLOR" with Some v => String.eqb v "0" | None => false end = true <-> switched_off e).
  { unfold switched_off, var; destruct (e "CLICOLOR") as [[s|]|]; rewrite ?String.eqb_eq; split; congruence. }
  unfold auto_detect.
  destruct (env_truthy e "CLICOLOR_FORCE"); [tauto|].
  match goal with |- context [if ?b then false else _] => destruct b end; [intuition discriminate|].
  match goal with |- context [if ?b then false else _] => destruct b end; [intuition discriminate|].
  intuition discriminate.
Qed.
