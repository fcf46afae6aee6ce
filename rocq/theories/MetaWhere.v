(** Proofs about [where_condition], [get] with a condition and [update_where]. *)
From Verif Require Import Base IndexSpec IndexLemmas Text SqlModel SqlSpec SqlProofs SqlValid MetaModel MetaQuery MetaAst MetaSpec MetaProofs MetaCreate MetaContent MetaFilter.
From Coq Require Import Permutation.
Open Scope nat_scope.
Set Default Proof Using "Type".

Lemma means_unique U s a b : good_unicode U -> means U s a -> means U s b -> a = b.
Proof.
  intros HU (t1 & L1 & X1) (t2 & L2 & X2). apply (tokenize_iff U HU) in L1, L2.
  assert (t1 = t2) as -> by (rewrite L1 in L2; injection L2 as L2; apply app_inj_tail in L2; tauto).
  eapply expr_unique; eauto.
Qed.
Lemma expr_weaken (P : text -> Prop) :
  (forall l a, expr P l a -> expr (fun _ => True) l a) /\ (forall l a, and_expr P l a -> and_expr (fun _ => True) l a)
  /\ (forall l a, unary P l a -> unary (fun _ => True) l a) /\ (forall l a, primary P l a -> primary (fun _ => True) l a).
Proof. apply grammar_ind; intros; try (constructor; auto; fail). Qed.
(** an accepted condition is a number comparison or has a meaning *)
Lemma accepted_reads U d condition : good_unicode U -> wf_db d -> ascii_text condition ->
  validate_condition U (schema_columns d) condition = Ok tt ->
  is_numeric_equality U condition = true /\ numeric_equality U condition /\ (forall a, ~ means U condition a)
  \/ is_numeric_equality U condition = false /\ ~ numeric_equality U condition /\ exists a, means U condition a.
Proof.
  intros HU W A V. pose proof (validate_sound_full U _ _ HU (schema_valid d W) V) as S0. destruct S0 as [N|((ts & a & L & X) & _)].
  - pose proof (numeric_complete U _ HU A N) as N'. left. split; auto. split; auto. intros a M.
    rewrite (not_numeric U HU condition A a M) in N'. discriminate.
  - assert (M : means U condition a) by (exists ts; split; auto; apply (proj1 (expr_weaken _) _ _ X)).
    pose proof (not_numeric U HU condition A a M) as N'. right. split; auto. split; [|eauto].
    intro N. rewrite (numeric_complete U _ HU A N) in N'. discriminate.
Qed.
Definition regs_ok (U : unicode) (E : engine) (condition : text) (reg : option (text -> bool)) (ps : list sqlv) : Prop :=
  forall a, means U condition a -> forall p, In p (patterns a ps) -> exists t re, p = SText t /\ reg = Some re /\ e_regex E t = Some re.
Lemma select_sel U E d condition params : good_unicode U -> wf_db d -> ascii_text condition ->
  validate_condition U (schema_columns d) condition = Ok tt ->
  exists f : Z -> bool, (forall i, selects U E (Db d) condition params i <-> has_row (Db d) i /\ f i = true)
    /\ forall reg join rs, regs_ok U E condition reg (map (json_to_sql E) params) ->
         run_where U E reg d join condition (map (json_to_sql E) params) (plain d join) = Ok rs ->
         rs = filter (fun r => f (sub_of r)) (plain d join).
Proof.
  intros HU W A V. destruct (accepted_reads U d condition HU W A V) as [(N1 & N2 & N3)|(N1 & N2 & a & M)].
  - exists (fun _ => e_num E condition). split.
    + intro i. split; [intros [H1 H2 H3|a Ha]; [auto|destruct (N3 a Ha)]|]. intros (H1 & H2). apply sel_number; auto.
    + intros reg join rs _ H. unfold run_where in H. rewrite N1 in H. destruct (map _ params); [|discriminate].
      injection H as <-. destruct (e_num E condition).
      * symmetry. generalize (plain d join). induction l; cbn; congruence.
      * rewrite filter_none; auto.
  - exists (selected E (Db d) a (map (json_to_sql E) params)). split.
    + intro i. rewrite selected_iff. split.
      * intros [H1 H2 H3|b Hb (H1 & H2)]; [contradiction|]. rewrite (means_unique U condition a b HU M Hb). auto.
      * intros (H1 & H2). eapply sel_cond; [exact M|split; auto].
    + intros reg join rs R H. eapply run_where_ok; eauto.
Qed.
Lemma no_regexp_regs U E condition reg ps : without_regexp U condition -> regs_ok U E condition reg ps.
Proof. intros N a M p Hp. rewrite no_patterns in Hp by (apply N; auto). destruct Hp. Qed.
Lemma select_ids_sel U E reg d condition params ids : good_unicode U -> good_engine E -> wf_db d -> ascii_text condition ->
  validate_condition U (schema_columns d) condition = Ok tt -> regs_ok U E condition reg (map (json_to_sql E) params) ->
  select_ids U E reg d condition (map (json_to_sql E) params) = Ok ids ->
  NoDup ids /\ forall i, In i ids <-> selects U E (Db d) condition params i.
Proof.
  intros HU G W A V R H. destruct (select_sel U E d condition params HU W A V) as (f & F1 & F2).
  unfold select_ids in H. fold (plain d (references_fat U d condition)) in H.
  apply bind_Ok in H. destruct H as (rs & H & E0). injection E0 as <-. apply F2 in H; auto. subst rs.
  set (join := references_fat U d condition) in *. clearbody join.
  assert (P : Permutation (map (fun r => t_sub (fst r)) (e_scan E (filter (fun r => f (sub_of r)) (plain d join)))) (filter f (map sub_of (rows d)))).
  { rewrite <- (plain_subs d W join), <- (filter_subs sub_of). apply Permutation_map, (ge_scan _ G). }
  destruct (wf_parts d W) as (_ & RO). split.
  - eapply Permutation_NoDup; [symmetry; exact P|]. apply NoDup_filter, RO.
  - intro i. rewrite F1, has_row_iff by auto. rewrite <- filter_In. split; apply Permutation_in; [|symmetry]; exact P.
Qed.
(** C58 *)
Lemma where_condition_ok U E reg s condition params ids : good_unicode U -> good_engine E -> wf s -> ascii_text condition ->
  without_regexp U condition -> where_condition U E reg s condition params = Ok ids ->
  NoDup ids /\ forall i, In i ids <-> selects U E s condition params i.
Proof.
  intros HU G W A N H. destruct s as [| |d]; try discriminate. cbn in H, W. apply bind_Ok in H. destruct H as ([] & V & H).
  eapply select_ids_sel; eauto. apply no_regexp_regs; auto.
Qed.
Lemma select_ids_total U E reg d condition params a : good_unicode U -> good_engine E -> wf_db d -> ascii_text condition ->
  validate_condition U (schema_columns d) condition = Ok tt -> means U condition a -> ~ uses_regexp a ->
  distinct_names (Db d) -> length params = arity a -> exists ids, select_ids U E reg d condition (map (json_to_sql E) params) = Ok ids.
Proof.
  intros HU G W A V M N D L. unfold select_ids. fold (plain d (references_fat U d condition)).
  destruct (run_where_total U HU E d condition A a M reg (references_fat U d condition) (map (json_to_sql E) params)) as (rs & ->); auto.
  - rewrite map_length, <- arity_placeholders. auto.
  - intros c Hc. apply (resolves_ok U HU d W condition A a M D V); auto. destruct (references_fat U d condition); auto.
  - cbn. eauto.
Qed.
Lemma validate_nil U condition a : good_unicode U -> ascii_text condition -> means U condition a -> validate_condition U [] condition <> Ok tt.
Proof.
  intros HU A M V. pose proof (not_numeric U HU condition A a M) as NN. destruct M as (ts & Lx & X).
  unfold validate_condition in V. rewrite NN in V. apply bind_Ok in V. destruct V as (q & _ & V).
  rewrite (proj2 (tokenize_iff U HU condition ts) Lx) in V. cbn [bind] in V.
  apply validate_iff in V; [|apply (lexes_no_eof U condition); auto].
  destruct V as (b & V). pose proof (proj1 (expr_idents U []) _ _ V) as ID.
  destruct (mentioned b) as [|c m] eqn:Mb.
  - assert (K : mentioned b <> []); [|congruence]. clear. induction b; cbn; try discriminate; auto; intro H; apply app_eq_nil in H; tauto.
  - destruct (ID c) as (k & [] & _). apply (proj1 (expr_mentioned _) _ _ V). rewrite Mb. left; auto.
Qed.
Lemma where_condition_total U E reg s condition params a : good_unicode U -> good_engine E -> wf s -> ascii_text condition ->
  validate_condition U (columns s) condition = Ok tt -> means U condition a -> ~ uses_regexp a ->
  distinct_names s -> length params = arity a -> exists ids, where_condition U E reg s condition params = Ok ids.
Proof.
  intros HU G W A V M N D L. destruct s as [| |d].
  - exfalso. apply (validate_nil U condition a HU A M V).
  - exfalso. apply (validate_nil U condition a HU A M V).
  - cbn [columns where_condition wf] in *. rewrite map_app in V. fold (schema_columns d) in V. rewrite V. cbn [bind].
    eapply select_ids_total; eauto.
Qed.
(** C29 *)
Lemma where_regexp_ok U E reg s condition params reg' ids : good_unicode U -> good_engine E -> wf s -> ascii_text condition ->
  (forall a p, means U condition a -> In p (patterns a (map (json_to_sql E) params)) -> exists t, p = SText t /\ hd_error params = Some (JStr t)) ->
  where_condition_regexp U E reg s condition params = (reg', Ok ids) ->
  NoDup ids /\ forall i, In i ids <-> selects U E s condition params i.
Proof.
  intros HU G W A P H. unfold where_condition_regexp in H. destruct s as [| |d]; [discriminate| |].
  { destruct params as [|[] ?]; try discriminate. destruct (e_regex E s); discriminate. }
  destruct params as [|[] ps]; try discriminate. destruct (e_regex E s) as [re|] eqn:Re; [|discriminate].
  destruct (validate_condition U (schema_columns d) condition) as [[]| |] eqn:V; try discriminate.
  injection H as _ H. eapply select_ids_sel; eauto. intros a M p Hp. destruct (P a p M Hp) as (t & -> & Et). cbn in Et.
  injection Et as <-. eauto.
Qed.

(** ** [get] with a condition: rows in id order *)
Lemma object_lookup E d i : good_engine E -> wf_db d ->
  object_at E (Db d) i = match lookup (rows d) i with Some r => [row_object E d r] | None => [] end.
Proof.
  intros G W. unfold object_at. rewrite row_at_lookup by auto. destruct (lookup (rows d) i) as [r|] eqn:L; auto.
  cbn [option_map]. rewrite row_object_fields. destruct (wf_parts d W) as (_ & R). apply lookup_spec in L; [|apply R]. destruct L as (_ & <-). auto.
Qed.
Lemma sorted_subs l : NoDup (map sub_of l) -> sinc (map sub_of (isort by_subset l)).
Proof.
  intro ND. assert (S0 : StronglySorted (fun a b => by_subset a b = true) (isort by_subset l)).
  { apply isort_sorted; unfold by_subset; intros; lia. }
  assert (ND' : NoDup (map sub_of (isort by_subset l))).
  { eapply Permutation_NoDup; [apply Permutation_map; symmetry; apply isort_perm|auto]. }
  revert S0 ND'. generalize (isort by_subset l). clear. induction l as [|x l IH]; intros S0 ND; [constructor|].
  inversion S0 as [|? ? S1 S2]; subst. cbn in ND. inversion ND as [|? ? N1 N2]; subst. cbn. constructor; [apply IH; auto|].
  apply Forall_forall. intros y Hy. apply in_map_iff in Hy. destruct Hy as (r & <- & Hr).
  rewrite Forall_forall in S2. specialize (S2 r Hr). unfold by_subset in S2. fold (sub_of x) (sub_of r) in S2.
  assert (sub_of x <> sub_of r) by (intro E0; apply N1; rewrite E0; apply in_map; auto). lia.
Qed.
Lemma get_where_ok U E reg s condition params rs : good_unicode U -> good_engine E -> wf s -> ascii_text condition ->
  without_regexp U condition -> get U E reg s (Some condition) params None = Ok rs ->
  s = NoDb /\ rs = [] \/
  exists ids, sinc ids /\ (forall i, In i ids <-> selects U E s condition params i) /\ rs = flat_map (object_at E s) ids.
Proof.
  intros HU G W A N H. cbn in H. destruct s as [| |d]; [injection H as <-; auto|discriminate|]. right.
  apply bind_Ok in H. destruct H as ([] & V & H). apply bind_Ok in H. destruct H as (q & H & E0). injection E0 as <-.
  destruct (select_sel U E d condition params HU W A V) as (f & F1 & F2).
  apply (F2 reg true) in H; [|apply no_regexp_regs; auto]. subst q. cbn [plain] in *.
  rewrite joined_combine in * by auto. fold (rows d). destruct (wf_parts d W) as (_ & RO).
  set (L := isort by_subset (e_scan E (filter (fun r => f (sub_of r)) (rows d)))).
  assert (P : Permutation L (filter (fun r => f (sub_of r)) (rows d))) by (unfold L; rewrite isort_perm; apply (ge_scan _ G)).
  exists (map sub_of L). split; [|split].
  - apply sorted_subs. eapply Permutation_NoDup; [apply Permutation_map; symmetry; apply (ge_scan _ G)|].
    rewrite (filter_subs sub_of). apply NoDup_filter, RO.
  - intro i. rewrite F1, has_row_iff by auto. rewrite <- filter_In, <- (filter_subs sub_of).
    split; apply Permutation_in; [|symmetry]; apply Permutation_map; exact P.
  - assert (I : forall r, In r L -> In r (rows d)).
    { intros r Hr. apply (Permutation_in _ P) in Hr. apply filter_In in Hr. tauto. }
    clear P. revert I. generalize L. clear L. induction L as [|r L IH]; intros I; cbn; auto. rewrite <- IH by (intros; apply I; right; auto).
    rewrite object_lookup by auto. rewrite (proj2 (lookup_spec (rows d) (sub_of r) r (proj1 RO))); [reflexivity|].
    split; auto. apply I. left; auto.
Qed.
Lemma get_both U E reg s c params ids : get U E reg s (Some c) params (Some ids) = Err.
Proof. reflexivity. Qed.
Lemma get_all_ok E s rs : good_engine E -> wf s -> get_rows E s None = Ok rs ->
  exists ids, sinc ids /\ (forall i, In i ids <-> row_at E s i <> None) /\ rs = flat_map (object_at E s) ids.
Proof.
  intros G W H. destruct s as [| |d]; [injection H as <-|discriminate|].
  - exists []. split; [constructor|]. split; auto. intro i. cbn. split; [tauto|]. intro C. apply C. reflexivity.
  - injection H as <-. unfold get_all_v2, query. rewrite joined_combine by auto. fold (rows d). destruct (wf_parts d W) as (_ & RO).
    assert (Ft : filter (fun _ : thin_row * fat_row => true) (rows d) = rows d) by (generalize (rows d); induction l; cbn; congruence).
    rewrite Ft. set (L := isort by_subset (e_scan E (rows d))).
    assert (P : Permutation L (rows d)) by (unfold L; rewrite isort_perm; apply (ge_scan _ G)).
    exists (map sub_of L). split; [|split].
    + apply sorted_subs. eapply Permutation_NoDup; [apply Permutation_map; symmetry; apply (ge_scan _ G)|]. apply RO.
    + intro i. rewrite row_at_lookup by auto.
      assert (Q : In i (map sub_of L) <-> In i (map sub_of (rows d))) by (split; apply Permutation_in; [|symmetry]; apply Permutation_map; exact P).
      rewrite Q. destruct (lookup (rows d) i) eqn:Lk; cbn.
      * split; [discriminate|]. intros _. apply lookup_spec in Lk; [|apply RO]. destruct Lk as (Hr & <-). apply in_map; auto.
      * apply lookup_none in Lk. tauto.
    + assert (I : forall r, In r L -> In r (rows d)) by (intros r Hr; apply (Permutation_in _ P) in Hr; auto).
      clear P. revert I. generalize L. clear L. induction L as [|r L IH]; intros I; cbn; auto. rewrite <- IH by (intros; apply I; right; auto).
      rewrite object_lookup by auto. rewrite (proj2 (lookup_spec (rows d) (sub_of r) r (proj1 RO))); [reflexivity|].
      split; auto. apply I. left; auto.
Qed.

(** ** [update_where] *)
Definition put_thin (E : engine) (tc : list column) us (r : thin_row * fat_row) : thin_row * fat_row :=
  ({| t_sub := t_sub (fst r); t_cid := t_cid (fst r); t_vals := set_vals E tc (t_vals (fst r)) us |}, snd r).
Definition put_fat (E : engine) (fc : list column) us (r : thin_row * fat_row) : thin_row * fat_row :=
  (fst r, {| f_cid := f_cid (snd r); f_vals := set_vals E fc (f_vals (snd r)) us |}).
Definition on (ch : list Z) (g : thin_row * fat_row -> thin_row * fat_row) (r : thin_row * fat_row) :=
  if zmem (sub_of r) ch then g r else r.
Lemma update_thin_db E tc fc l us ch : update_thin E (db_of tc fc l) us ch = db_of tc fc (map (on ch (put_thin E tc us)) l).
Proof.
  unfold update_thin, db_of. cbn [thin_cols fat_cols thin_rows fat_rows]. rewrite !map_map. f_equal.
  - apply map_ext. intros r. unfold on, put_thin, sub_of. destruct (zmem _ _); reflexivity.
  - apply map_ext. intros r. unfold on, put_thin. destruct (zmem _ _); reflexivity.
Qed.
Lemma update_fat_db E tc fc nt nf l us ch : rows_ok nt nf l -> update_fat E (db_of tc fc l) us ch = db_of tc fc (map (on ch (put_fat E fc us)) l).
Proof.
  intros (R1 & R2 & R3). rewrite Forall_forall in R3. unfold update_fat, db_of. cbn [thin_cols fat_cols thin_rows fat_rows]. rewrite !map_map. f_equal.
  - apply map_ext. intros r. unfold on, put_fat. destruct (zmem _ _); reflexivity.
  - apply map_ext_in. intros r Hr.
    assert (Q : zmem (f_cid (snd r)) (map t_cid (filter (fun r0 => zmem (t_sub r0) ch) (map fst l))) = zmem (sub_of r) ch).
    { apply eq_true_iff_eq. rewrite !zmem_In. rewrite in_map_iff. split.
      - intros (t & Et & Ht). apply filter_In in Ht. destruct Ht as (Ht & Hz). apply zmem_In in Hz.
        apply in_map_iff in Ht. destruct Ht as (q & <- & Hq). destruct (R3 q Hq) as (_ & Cq & _).
        rewrite Cq in Et. assert (q = r) as ->; auto.
        clear - R2 Hr Hq Et. induction l as [|x l IH]; [contradiction|]. cbn in R2. inversion R2 as [|? ? N1 N2]; subst.
        destruct Hr as [->|Hr], Hq as [->|Hq]; auto; exfalso; apply N1; [rewrite <- Et|rewrite Et];
          apply (in_map (fun r => f_cid (snd r))); auto.
      - intro Hz. exists (fst r). destruct (R3 r Hr) as (_ & -> & _). split; auto. apply filter_In. split; [apply in_map; auto|].
        apply zmem_In. auto. }
    unfold on, put_fat. rewrite <- Q. match goal with |- (if ?x then _ else _) = _ => destruct x; reflexivity end.
Qed.
Lemma set_vals_length E cols us : forall vals, length vals = length cols -> length (set_vals E cols vals us) = length cols.
Proof.
  unfold set_vals. induction us as [|u us IH]; intros vals L; cbn [fold_left]; auto. apply IH.
  unfold set_one. rewrite map_length, combine_length. lia.
Qed.
Lemma rows_ok_map nt nf (g : thin_row * fat_row -> thin_row * fat_row) l :
  (forall r, sub_of (g r) = sub_of r /\ t_cid (fst (g r)) = t_cid (fst r) /\ f_cid (snd (g r)) = f_cid (snd r)) ->
  (forall r, length (t_vals (fst r)) = nt -> length (f_vals (snd r)) = nf -> length (t_vals (fst (g r))) = nt /\ length (f_vals (snd (g r))) = nf) ->
  rows_ok nt nf l -> rows_ok nt nf (map g l).
Proof.
  intros H1 H2 (R1 & R2 & R3). split; [|split].
  - rewrite map_map. rewrite (map_ext _ sub_of); auto. intro r. apply H1.
  - rewrite map_map. rewrite (map_ext _ (fun r => f_cid (snd r))); auto. intro r. apply H1.
  - rewrite Forall_forall in *. intros r Hr. apply in_map_iff in Hr. destruct Hr as (q & <- & Hq).
    destruct (R3 q Hq) as (A & B & C0 & D). destruct (H1 q) as (-> & -> & ->). destruct (H2 q C0 D). auto.
Qed.
Lemma rows_ok_thin E (tc fc : list column) us ch l : rows_ok (length tc) (length fc) l -> rows_ok (length tc) (length fc) (map (on ch (put_thin E tc us)) l).
Proof.
  apply rows_ok_map; intro r; unfold on; destruct (zmem _ _); cbn; auto. intros. split; auto. apply set_vals_length; auto.
Qed.
Lemma rows_ok_fat E (tc fc : list column) us ch l : rows_ok (length tc) (length fc) l -> rows_ok (length tc) (length fc) (map (on ch (put_fat E fc us)) l).
Proof.
  apply rows_ok_map; intro r; unfold on; destruct (zmem _ _); cbn; auto. intros. split; auto. apply set_vals_length; auto.
Qed.
Lemma on_on ch rest g r : (forall q, sub_of (g q) = sub_of q) -> (forall x, In x ch -> ~ In x rest) ->
  on rest g (on ch g r) = on (ch ++ rest) g r.
Proof.
  intros Hg D. unfold on. assert (Z1 : zmem (sub_of r) (ch ++ rest) = zmem (sub_of r) ch || zmem (sub_of r) rest) by apply existsb_app.
  rewrite Z1. destruct (zmem (sub_of r) ch) eqn:Zc; cbn [orb]; auto. rewrite Hg.
  apply zmem_In in Zc. rewrite (proj2 (zmem_not _ _) (D _ Zc)). auto.
Qed.
Lemma fold_update (P : list (thin_row * fat_row) -> Prop) (upd : db -> list Z -> db) g tc fc :
  (forall q, sub_of (g q) = sub_of q) -> (forall l ch, P l -> P (map (on ch g) l)) ->
  (forall l ch, P l -> upd (db_of tc fc l) ch = db_of tc fc (map (on ch g) l)) ->
  forall chs l, P l -> NoDup (concat chs) -> fold_left upd chs (db_of tc fc l) = db_of tc fc (map (on (concat chs) g) l).
Proof.
  intros Hg HP HU chs. induction chs as [|ch chs IH]; intros l Pl ND; cbn [fold_left concat].
  - f_equal. symmetry. apply map_id.
  - rewrite HU by auto. cbn [concat] in ND. rewrite IH; [|auto|].
    + rewrite map_map. f_equal. apply map_ext. intro r. apply on_on; auto.
      intros x Hx Hy. clear - ND Hx Hy. induction ch as [|z ch IHc]; [contradiction|]. cbn in ND. inversion ND as [|? ? N1 N2]; subst.
      destruct Hx as [->|Hx]; auto. apply N1, in_or_app; auto.
    + clear - ND. induction ch; auto. cbn in ND. inversion ND; auto.
Qed.

Definition thin_part (us : list (text * json)) := filter (fun u => is_thin_column (fst u)) us.
Definition fat_part (us : list (text * json)) := filter (fun u => negb (is_thin_column (fst u))) us.
Definition put (E : engine) (tc fc : list column) (us : list (text * json)) (r : thin_row * fat_row) : thin_row * fat_row :=
  put_fat E fc (fat_part us) (put_thin E tc (thin_part us) r).
Lemma set_vals_nil E cols vals : set_vals E cols vals [] = vals. Proof. reflexivity. Qed.
Lemma update_where_v2_db E d us ids d' : wf_db d -> NoDup ids -> update_where_v2 E d us ids = Ok d' ->
  settable (thin_cols d) (thin_part us) = true /\ settable (fat_cols d) (fat_part us) = true
  /\ d' = db_of (thin_cols d) (fat_cols d) (map (on ids (put E (thin_cols d) (fat_cols d) us)) (rows d)).
Proof.
  intros W ND H. unfold update_where_v2 in H. fold (thin_part us) (fat_part us) in H.
  destruct (settable _ _) eqn:S1; [|discriminate]. destruct (settable (fat_cols d) _) eqn:S2; [|discriminate]. cbn [andb] in H.
  split; auto. split; auto. injection H as <-. destruct (wf_parts d W) as (CO & RO).
  set (tc := thin_cols d) in *. set (fc := fat_cols d) in *. set (ok := rows_ok (length tc) (length fc)).
  assert (NC : NoDup (concat (chunks param_limit ids))) by (rewrite concat_chunks; auto; unfold param_limit; lia).
  assert (CC : concat (chunks param_limit ids) = ids) by (apply concat_chunks; unfold param_limit; lia).
  set (dt := match thin_part us with [] => d | _ => fold_left (fun d ch => update_thin E d (thin_part us) ch) (chunks param_limit ids) d end).
  assert (D1 : dt = db_of tc fc (map (on ids (put_thin E tc (thin_part us))) (rows d))).
  { unfold dt. destruct (thin_part us) as [|u l] eqn:Et.
    - rewrite (db_of_rows d W) at 1. fold tc fc. f_equal. symmetry. rewrite (map_ext _ (fun r => r)); [apply map_id|].
      intros ([a b c], f). unfold on, put_thin. cbn. destruct (zmem _ _); reflexivity.
    - rewrite <- Et. rewrite (db_of_rows d W) at 1. fold tc fc. rewrite <- CC at 2.
      apply (fold_update ok (fun d ch => update_thin E d (thin_part us) ch) (put_thin E tc (thin_part us))); auto.
      + intros l0 ch. apply rows_ok_thin.
      + intros l0 ch _. apply update_thin_db. }
  fold dt. rewrite D1. set (l1 := map (on ids (put_thin E tc (thin_part us))) (rows d)).
  assert (RO1 : ok l1) by (apply rows_ok_thin; exact RO).
  transitivity (db_of tc fc (map (on ids (put_fat E fc (fat_part us))) l1)).
  { destruct (fat_part us) as [|u l] eqn:Et.
    - f_equal. symmetry. rewrite (map_ext _ (fun r => r)); [apply map_id|].
      intros (t, [a b]). unfold on, put_fat. cbn. destruct (zmem _ _); reflexivity.
    - rewrite <- Et. rewrite <- CC at 2.
      apply (fold_update ok (fun d ch => update_fat E d (fat_part us) ch) (put_fat E fc (fat_part us))); auto.
      + intros l0 ch. apply rows_ok_fat.
      + intros l0 ch Hl. eapply update_fat_db; exact Hl. }
  f_equal. unfold l1. rewrite map_map. apply map_ext. intro r. unfold on, put.
  destruct (zmem (sub_of r) ids) eqn:Z1; [|rewrite Z1; auto]. change (sub_of (put_thin E tc (thin_part us) r)) with (sub_of r). rewrite Z1. auto.
Qed.
Lemma wf_update_where_v2 E d us ids d' : wf_db d -> NoDup ids -> update_where_v2 E d us ids = Ok d' -> wf_db d'.
Proof.
  intros W ND H. destruct (update_where_v2_db _ _ _ _ _ W ND H) as (_ & _ & ->). destruct (wf_parts d W) as (CO & RO).
  apply wf_db_of; auto. revert RO. apply rows_ok_map; intro r; unfold on; destruct (zmem _ _); cbn; auto.
  intros H1 H2. split; apply set_vals_length; auto.
Qed.

(** the value of one column after the assignments *)
Definition assign_val (E : engine) (c : column) (v : sqlv) (us : list (text * json)) : sqlv :=
  fold_left (fun v u => if text_eqb (ci (c_name c)) (ci (fst u)) then e_aff E (c_type c) (json_to_sql E (snd u)) else v) us v.
Lemma set_vals_combine E cols us : forall vals, length vals = length cols ->
  combine cols (set_vals E cols vals us) = map (fun cv => (fst cv, assign_val E (fst cv) (snd cv) us)) (combine cols vals).
Proof.
  unfold set_vals. induction us as [|u us IH]; intros vals L; cbn [fold_left].
  - rewrite (map_ext _ (fun cv => cv)); [symmetry; apply map_id|]. intros (c, v); reflexivity.
  - rewrite IH by (unfold set_one; rewrite map_length, combine_length; lia).
    assert (Q : combine cols (set_one E cols vals u)
      = map (fun cv => (fst cv, if text_eqb (ci (c_name (fst cv))) (ci (fst u)) then e_aff E (c_type (fst cv)) (json_to_sql E (snd u)) else snd cv)) (combine cols vals)).
    { unfold set_one. clear IH. revert vals L. induction cols as [|c cols IHc]; intros [|v vals] L; try discriminate; auto.
      cbn [combine map]. f_equal. apply IHc. cbn in L. lia. }
    rewrite Q, map_map. apply map_ext. intros (c, v). reflexivity.
Qed.
Lemma assign_val_last E c v us x : (forall k, text_eqb (ci (c_name c)) (ci k) = same_name k (c_name c)) ->
  assigns us (c_name c) x -> assign_val E c v us = e_aff E (c_type c) (json_to_sql E x).
Proof.
  intros Q (pre & k' & post & -> & Hk & Hp). unfold assign_val. rewrite fold_left_app. cbn [fold_left fst snd]. rewrite Q, Hk.
  generalize (e_aff E (c_type c) (json_to_sql E x)). induction post as [|u post IH]; intro w; cbn [fold_left]; auto.
  rewrite Q, (Hp u) by (left; auto). apply IH. intros; apply Hp; right; auto.
Qed.
Lemma assign_val_none E c v us : (forall k, text_eqb (ci (c_name c)) (ci k) = same_name k (c_name c)) ->
  (forall u, In u us -> same_name (fst u) (c_name c) = false) -> assign_val E c v us = v.
Proof.
  intros Q. unfold assign_val. revert v. induction us as [|u us IH]; intros v H; cbn [fold_left]; auto.
  rewrite Q, (H u) by (left; auto). apply IH. intros; apply H; right; auto.
Qed.
Lemma same_name_sym a b : text_eqb (ci a) (ci b) = same_name b a.
Proof.
  unfold same_name, ci. destruct (text_eqb (map to_lower1 a) (map to_lower1 b)) eqn:E.
  - apply text_eqb_eq in E. rewrite E. symmetry. apply text_eqb_refl.
  - symmetry. apply text_eqb_neq. apply text_eqb_neq in E. congruence.
Qed.
Lemma assigns_dec us k : (exists v, assigns us k v) \/ (forall u, In u us -> same_name (fst u) k = false).
Proof.
  induction us as [|(k', v) us IH]; [right; intros ? []|]. destruct IH as [(x & pre & k1 & post & -> & H)|IH].
  - left. exists x, ((k', v) :: pre), k1, post. auto.
  - destruct (same_name k' k) eqn:E.
    + left. exists v, [], k', us. auto.
    + right. intros u [<-|Hu]; auto.
Qed.
Lemma assigns_filter (p : text * json -> bool) us k v : (forall u, In u us -> same_name (fst u) k = true -> p u = true) ->
  assigns us k v -> assigns (filter p us) k v.
Proof.
  intros H (pre & k' & post & -> & Hk & Hp). exists (filter p pre), k', (filter p post). split; [|split; auto].
  - rewrite filter_app. cbn [filter]. rewrite H; auto. apply in_or_app. right; left; auto.
  - intros u Hu. apply filter_In in Hu. apply Hp. tauto.
Qed.
(** all the columns of a row with their values *)
Definition table (d : db) (r : thin_row * fat_row) : list (column * sqlv) :=
  combine (thin_cols d) (t_vals (fst r)) ++ combine (fat_cols d) (f_vals (snd r)).
Lemma fields_table E d r : length (t_vals (fst r)) = length (thin_cols d) -> length (f_vals (snd r)) = length (fat_cols d) ->
  fields E d r = map (fun cv => (c_name (fst cv), row_to_json_value E (snd cv))) (table d r).
Proof.
  intros L1 L2. unfold fields, table. rewrite map_app.
  assert (Q : forall cols vals, combine (map c_name cols) (map (row_to_json_value E) vals) = map (fun cv => (c_name (fst cv), row_to_json_value E (snd cv))) (combine cols vals)).
  { induction cols as [|c cols IH]; intros [|v vals]; cbn; auto. f_equal. apply IH. }
  rewrite !Q. reflexivity.
Qed.
Lemma table_put E d us r : length (t_vals (fst r)) = length (thin_cols d) -> length (f_vals (snd r)) = length (fat_cols d) ->
  table d (put E (thin_cols d) (fat_cols d) us r)
  = map (fun cv => (fst cv, assign_val E (fst cv) (snd cv) (thin_part us))) (combine (thin_cols d) (t_vals (fst r)))
    ++ map (fun cv => (fst cv, assign_val E (fst cv) (snd cv) (fat_part us))) (combine (fat_cols d) (f_vals (snd r))).
Proof. intros L1 L2. unfold table, put. cbn. rewrite !set_vals_combine by auto. reflexivity. Qed.
Definition json_of (E : engine) (cv : column * sqlv) : text * json := (c_name (fst cv), row_to_json_value E (snd cv)).
Lemma field_of_find E (t : list (column * sqlv)) k :
  field_of (map (json_of E) t) k = option_map (fun cv => row_to_json_value E (snd cv)) (find (fun cv => text_eqb (c_name (fst cv)) k) t).
Proof.
  unfold field_of. induction t as [|cv t IH]; cbn [map find]; auto. cbn [json_of fst]. destruct (text_eqb _ _); auto.
Qed.
Lemma find_map_fst {A B} (g : A * B -> B) (p : A -> bool) l :
  find (fun x => p (fst x)) (map (fun x => (fst x, g x)) l) = option_map (fun x => (fst x, g x)) (find (fun x => p (fst x)) l).
Proof. induction l as [|x l IH]; cbn; auto. destruct (p (fst x)); auto. Qed.

Lemma ci_In k l : In (ci k) (map ci l) -> exists x, In x l /\ ci x = ci k.
Proof. intro H. apply in_map_iff in H. destruct H as (x & H1 & H2). eauto. Qed.
Lemma NoDup_apart {A} (x : A) l m : NoDup (l ++ m) -> In x l -> In x m -> False.
Proof.
  induction l as [|z l IH]; [contradiction|]. cbn. intros D Hx Hy. inversion D as [|? ? N1 N2]; subst.
  destruct Hx as [->|Hx]; auto. apply N1, in_or_app; auto.
Qed.
Lemma update_fields E d us r : wf_db d -> distinct_names (Db d) -> In r (rows d) ->
  settable (thin_cols d) (thin_part us) = true -> settable (fat_cols d) (fat_part us) = true -> good_engine E ->
  let f := fields E d r in let f' := fields E d (put E (thin_cols d) (fat_cols d) us r) in
  map fst f' = map fst f
  /\ (forall k t v y, declared (Db d) k t -> assigns us k v -> (v = JNull \/ kind v = t) -> comes_back E v y -> field_of f' k = Some y)
  /\ (forall k, (forall v, ~ assigns us k v) -> field_of f' k = field_of f k).
Proof.
  intros W D Hr S1 S2 G. destruct (wf_parts d W) as (CO & RO). destruct RO as (_ & _ & RO). rewrite Forall_forall in RO.
  destruct (RO r Hr) as (_ & _ & L1 & L2). set (tc := thin_cols d) in *. set (fc := fat_cols d) in *.
  assert (F : fields E d r = map (json_of E) (table d r)) by (apply fields_table; auto).
  assert (F' : fields E d (put E tc fc us r) = map (json_of E) (table d (put E tc fc us r))).
  { apply fields_table; cbn; apply set_vals_length; auto. }
  assert (T : table d (put E tc fc us r)
     = map (fun cv => (fst cv, assign_val E (fst cv) (snd cv) (thin_part us))) (combine tc (t_vals (fst r)))
    ++ map (fun cv => (fst cv, assign_val E (fst cv) (snd cv) (fat_part us))) (combine fc (f_vals (snd r)))) by (apply table_put; auto).
  (* an update named like a thin column is in the thin part *)
  unfold distinct_names, columns in D. fold tc fc in D. cbn [map] in D. inversion D as [|? ? D1 D2]; subst. change (map to_lower1) with ci in D2.
  rewrite !map_app in D2.
  assert (DJ : forall x y, In x tc -> In y fc -> ci (c_name x) <> ci (c_name y)).
  { intros x y Hx Hy E0. apply (in_map c_name), (in_map ci) in Hx, Hy. rewrite E0 in Hx. exact (NoDup_apart _ _ _ D2 Hx Hy). }
  assert (ST : forall cols part u, settable cols part = true -> In u part -> exists c, In c cols /\ ci (c_name c) = ci (fst u)).
  { intros cols part u S0 Hu. unfold settable in S0. rewrite forallb_forall in S0. specialize (S0 u Hu). apply mem_In in S0.
    apply in_map_iff in S0. destruct S0 as (c & H1 & H2). eauto. }
  assert (PT : forall c u, In c tc -> In u us -> same_name (fst u) (c_name c) = true -> is_thin_column (fst u) = true).
  { intros c u Hc Hu E0. destruct (is_thin_column (fst u)) eqn:I; auto. exfalso.
    destruct (ST fc (fat_part us) u S2) as (y & Hy & Ey); [apply filter_In; rewrite I; auto|].
    apply text_eqb_eq in E0. apply (DJ c y Hc Hy). rewrite Ey. symmetry. exact E0. }
  assert (PF : forall c u, In c fc -> In u us -> same_name (fst u) (c_name c) = true -> negb (is_thin_column (fst u)) = true).
  { intros c u Hc Hu E0. destruct (is_thin_column (fst u)) eqn:I; auto. exfalso.
    destruct (ST tc (thin_part us) u S1) as (y & Hy & Ey); [apply filter_In; rewrite I; auto|].
    apply text_eqb_eq in E0. apply (DJ y c Hy Hc). rewrite Ey. exact E0. }
  assert (VAL : forall part c v x, (forall u, In u us -> same_name (fst u) (c_name c) = true -> part u = true) ->
            assigns us (c_name c) x -> assign_val E c v (filter part us) = e_aff E (c_type c) (json_to_sql E x)).
  { intros part c v x P Ax. apply assign_val_last; [intro; apply same_name_sym|]. apply assigns_filter; auto. }
  assert (KEEP : forall part c v, (forall x, ~ assigns us (c_name c) x) -> assign_val E c v (filter part us) = v).
  { intros part c v N. apply assign_val_none; [intro; apply same_name_sym|]. intros u Hu. apply filter_In in Hu.
    destruct (assigns_dec us (c_name c)) as [(x & Ax)|Q]; [destruct (N x Ax)|apply Q; tauto]. }
  cbv zeta. rewrite F, F', T. split; [|split].
  - unfold table. fold tc fc. rewrite !map_app, !map_map. reflexivity.
  - intros k t v y (d0 & Ed & Hd) Ax Kv Cb. injection Ed as <-. fold tc fc in Hd.
    rewrite field_of_find, find_app.
    rewrite (find_map_fst (fun cv => assign_val E (fst cv) (snd cv) (thin_part us)) (fun c => text_eqb (c_name c) k)).
    rewrite (find_map_fst (fun cv => assign_val E (fst cv) (snd cv) (fat_part us)) (fun c => text_eqb (c_name c) k)).
    pose proof (names_NoDup _ _ CO) as NN. fold tc fc in NN.
    assert (ONE : forall c, In c (tc ++ fc) -> c_name c = k -> c = {| c_name := k; c_type := t |}).
    { intros c Hc Ec. clear - NN Hd Hc Ec. revert NN Hd Hc. generalize (tc ++ fc). intro l. induction l as [|x l IH]; intros NN Hd Hc; [contradiction|].
      cbn in NN. inversion NN as [|? ? N1 N2]; subst. destruct Hd as [->|Hd], Hc as [->|Hc]; auto.
      - exfalso. apply N1. cbn. apply in_map. auto.
      - exfalso. apply N1. apply (in_map c_name) in Hd. exact Hd. }
    destruct (find (fun x => text_eqb (c_name (fst x)) k) (combine tc (t_vals (fst r)))) as [(c, w)|] eqn:F1.
    + apply find_some in F1. destruct F1 as (I1 & E1). cbn in E1. apply text_eqb_eq in E1.
      assert (Hc : In c tc) by (eapply in_combine_l; eauto). cbn [option_map fst snd].
      unfold thin_part; rewrite (VAL _ c w v); [|intros; eapply PT; eauto|rewrite E1; auto].
      f_equal. apply cell_back; auto. rewrite (ONE c) by (auto; apply in_or_app; auto). cbn. destruct Kv; auto.
    + destruct (find (fun x => text_eqb (c_name (fst x)) k) (combine fc (f_vals (snd r)))) as [(c, w)|] eqn:F2.
      * apply find_some in F2. destruct F2 as (I1 & E1). cbn in E1. apply text_eqb_eq in E1.
        assert (Hc : In c fc) by (eapply in_combine_l; eauto). cbn [option_map fst snd].
        unfold fat_part; rewrite (VAL _ c w v); [|intros; eapply PF; eauto|rewrite E1; auto].
        f_equal. apply cell_back; auto. rewrite (ONE c) by (auto; apply in_or_app; auto). cbn. destruct Kv; auto.
      * exfalso. assert (NF : forall cols vals, length vals = length cols -> find (fun x : column * sqlv => text_eqb (c_name (fst x)) k) (combine cols vals) = None ->
            ~ In {| c_name := k; c_type := t |} cols).
        { clear. induction cols as [|c cols IH]; intros [|v vals] L H; try discriminate; auto. cbn in H.
          destruct (text_eqb (c_name c) k) eqn:Q; [discriminate|]. intros [->|Hc]; [cbn in Q; rewrite text_eqb_refl in Q; discriminate|].
          eapply IH; eauto. }
        apply in_app_or in Hd. destruct Hd as [Hd|Hd]; [eapply (NF tc)|eapply (NF fc)]; eauto.
  - intros k N. unfold table. fold tc fc. rewrite !field_of_find, !find_app.
    rewrite (find_map_fst (fun cv => assign_val E (fst cv) (snd cv) (thin_part us)) (fun c => text_eqb (c_name c) k)).
    rewrite (find_map_fst (fun cv => assign_val E (fst cv) (snd cv) (fat_part us)) (fun c => text_eqb (c_name c) k)).
    destruct (find (fun x => text_eqb (c_name (fst x)) k) (combine tc (t_vals (fst r)))) as [(c, w)|] eqn:F1.
    + apply find_some in F1. destruct F1 as (I1 & E1). cbn in E1. apply text_eqb_eq in E1. cbn [option_map fst snd].
      unfold thin_part. rewrite KEEP; auto. rewrite E1. auto.
    + cbn [option_map]. destruct (find (fun x => text_eqb (c_name (fst x)) k) (combine fc (f_vals (snd r)))) as [(c, w)|] eqn:F2; auto.
      apply find_some in F2. destruct F2 as (I1 & E1). cbn in E1. apply text_eqb_eq in E1. cbn [option_map fst snd].
      unfold fat_part. rewrite KEEP; auto. rewrite E1. auto.
Qed.

Lemma select_none_regexp U E d condition ps ids : good_unicode U -> wf_db d -> ascii_text condition ->
  select_ids U E None d condition ps = Ok ids -> without_regexp U condition.
Proof.
  intros HU W A H a M R. unfold select_ids in H. apply bind_Ok in H. destruct H as (rs & H & _).
  unfold run_where in H. rewrite (not_numeric U HU condition A a M), (read_condition U HU condition a M) in H. cbn [bind] in H.
  destruct (has_regexp a) eqn:Q; [|apply no_regexp in Q; auto]. cbn [negb orb] in H. rewrite andb_false_r in H. discriminate.
Qed.
(** C28 *)
Lemma update_where_ok U E s condition params us s' n : good_unicode U -> good_engine E -> wf s -> ascii_text condition ->
  distinct_names s -> us <> [] -> update_where U E s condition params (JObj us) = (s', Ok n) ->
  exists ids, n = length ids /\ NoDup ids /\ (forall i, In i ids <-> selects U E s condition params i)
    /\ (forall i, ~ In i ids -> row_at E s' i = row_at E s i)
    /\ (forall i, In i ids -> exists f f', row_at E s i = Some f /\ row_at E s' i = Some f' /\ map fst f' = map fst f
          /\ (forall k t v y, declared s k t -> assigns us k v -> (v = JNull \/ kind v = t) -> comes_back E v y -> field_of f' k = Some y)
          /\ (forall k, (forall v, ~ assigns us k v) -> field_of f' k = field_of f k)).
Proof.
  intros HU G W A D Nu H. destruct s as [| |d]; [discriminate|destruct us; [congruence|discriminate]|]. cbn in W.
  unfold update_where in H. destruct us as [|u0 us0] eqn:Eus; [congruence|]. rewrite <- Eus in *.
  destruct (bind (validate_condition U (schema_columns d) condition) _) as [ids| |] eqn:B; try discriminate.
  apply bind_Ok in B. destruct B as ([] & V & B). destruct (forallb _ us) eqn:FU; [|discriminate].
  pose proof (select_none_regexp _ _ _ _ _ _ HU W A B) as NR.
  destruct (select_ids_sel U E None d condition params ids HU G W A V (no_regexp_regs _ _ _ _ _ NR) B) as (ND & Sel).
  exists ids. destruct (wf_parts d W) as (CO & RO).
  assert (M : s' = Db d /\ n = 0 /\ ids = [] \/ exists d', s' = Db d' /\ n = length ids /\ update_where_v2 E d us ids = Ok d').
  { destruct ids as [|i0 ids0]; [injection H as <- <-; auto|]. right.
    destruct (update_where_v2 E d us (i0 :: ids0)) as [d'| |]; try discriminate. injection H as <- <-. eauto. }
  destruct M as [(-> & -> & ->)|(d' & -> & -> & Ud)].
  - split; auto. split; auto. split; auto. split; auto. intros i [].
  - split; auto. split; auto. split; auto. pose proof (wf_update_where_v2 _ _ _ _ _ W ND Ud) as W'.
    destruct (update_where_v2_db _ _ _ _ _ W ND Ud) as (S1 & S2 & Ed').
    assert (LK : forall i, lookup (rows d') i = option_map (on ids (put E (thin_cols d) (fat_cols d) us)) (lookup (rows d) i)).
    { intro i. rewrite Ed', rows_db_of. unfold lookup. generalize (rows d). induction l as [|r l IH]; auto. cbn [map find].
      assert (sub_of (on ids (put E (thin_cols d) (fat_cols d) us) r) = sub_of r) as -> by (unfold on; destruct (zmem _ _); reflexivity).
      destruct (sub_of r =? i)%Z; auto. }
    assert (FD : forall r, fields E d' r = fields E d r) by (intro r; rewrite Ed'; reflexivity).
    split.
    + intros i Hi. rewrite !row_at_lookup by auto. rewrite LK. destruct (lookup (rows d) i) as [r|] eqn:L; auto.
      cbn [option_map]. rewrite FD. apply lookup_spec in L; [|apply RO]. destruct L as (_ & <-). unfold on. rewrite (proj2 (zmem_not _ _) Hi). auto.
    + intros i Hi. assert (Hs : has_row (Db d) i) by (apply Sel in Hi; destruct Hi as [? ? Hr|? ? (Hr & _)]; auto).
      apply has_row_iff in Hs; auto. destruct (lookup (rows d) i) as [r|] eqn:L; [|apply lookup_none in L; contradiction].
      rewrite !row_at_lookup by auto. rewrite LK, L. cbn [option_map].
      eexists _, _. split; [reflexivity|]. split; [reflexivity|]. rewrite FD. apply lookup_spec in L; [|apply RO]. destruct L as (Hr & Sr).
      unfold on. rewrite Sr, (proj2 (zmem_In _ _) Hi). apply (update_fields E d us r W D Hr S1 S2 G).
Qed.
Lemma update_where_err U E s condition params u s' r : update_where U E s condition params u = (s', r) -> (forall n, r <> Ok n) -> s' = s.
Proof.
  intros H N. unfold update_where in H. destruct s as [| |d]; [congruence|..]; (destruct u as [| | | | | |o]; try congruence; destruct o as [|p o]; try congruence).
  destruct (bind _ _) as [[|i ids]| |]; try congruence. destruct (update_where_v2 _ _ _ _); congruence.
Qed.
Lemma wf_update_where U E s condition params u : good_engine E -> wf s -> wf (fst (update_where U E s condition params u)).
Proof.
  intros G W. unfold update_where. destruct s as [| |d]; auto; (destruct u as [| | | | | |o]; auto; destruct o as [|p o]; auto).
  destruct (bind _ _) as [ids| |] eqn:B; auto. destruct ids as [|i ids]; auto.
  destruct (update_where_v2 E d (p :: o) (i :: ids)) as [d'| |] eqn:Ud; auto. change (wf_db d) in W. change (wf_db d').
  eapply wf_update_where_v2; eauto. apply bind_Ok in B. destruct B as (q & _ & B). destruct (forallb _ _); [|discriminate].
  unfold select_ids in B. apply bind_Ok in B. destruct B as (rs & B & E0). injection E0 as <-.
  destruct (wf_parts d W) as (_ & RO). eapply Permutation_NoDup; [symmetry; apply Permutation_map, (ge_scan _ G)|].
  change (fun r => t_sub (fst r)) with sub_of.
  assert (PL : NoDup (map sub_of (plain d (references_fat U d condition)))) by (rewrite plain_subs by auto; apply RO).
  unfold run_where in B. fold (plain d (references_fat U d condition)) in B.
  destruct (is_numeric_equality U condition).
  - destruct (map _ params); [|discriminate]. injection B as <-. destruct (e_num E condition); [exact PL|constructor].
  - apply bind_Ok in B. destruct B as (a & _ & B). destruct (_ && _ && _); [|discriminate].
    apply filterM_ok in B. destruct B as (-> & _). apply NoDup_map_filter. exact PL.
Qed.
Lemma store_reached_wf U E s : good_engine E -> store_reached U E s -> wf s.
Proof.
  intros G. induction 1 as [|s o H IH I]; [exact Logic.I|]. destruct o as [md ids|md ids|ids|c ps u]; cbn [meta_step ids_ok] in *.
  - apply wf_create; tauto.
  - apply wf_update; tauto.
  - unfold delete. destruct ids as [|i ids]; auto. destruct s as [| |d]; auto. pose proof (wf_delete d (i :: ids) IH) as H0.
    destruct (delete_v2 d (i :: ids)). exact H0.
  - apply wf_update_where; auto.
Qed.
