(** Deletion, pipeline and repair on an index whose rows follow its documents. *)
From Verif Require Import Base Text Colgrep ColgrepSpec ColgrepLists.
Open Scope nat_scope.

(** ** Computations with their crash points *)
Definition clean_cut (rest : list effect) : Prop := forall ids r, rest <> DbDel ids :: r.
Definition cut (d : store) (es : list effect) (d' : store) : Prop :=
  exists e1 e2, es = e1 ++ e2 /\ d' = apply_all d e1 /\ clean_cut e2.
Definition triple {A} (m : act A) (d : store) (I : store -> Prop) (Q : A -> store -> Prop) : Prop :=
  exists es a, m d = (es, Ok a) /\ Q a (apply_all d es) /\ forall d', cut d es d' -> I d'.

Lemma cut_app d a b d' : cut d (a ++ b) d' -> cut d a d' \/ cut (apply_all d a) b d'.
Proof.
  intros (e1 & e2 & E & -> & Hc).
  destruct (le_lt_dec (length a) (length e1)) as [L|L].
  - right. exists (skipn (length a) e1), e2.
    assert (H : a ++ b = e1 ++ e2) by exact E.
    assert (Ha : firstn (length a) e1 = a).
    { apply (f_equal (firstn (length a))) in H. rewrite firstn_app, Nat.sub_diag, firstn_all in H.
      rewrite firstn_app in H. cbn in H. replace (length a - length e1) with 0 in H by lia. cbn in H.
      rewrite !app_nil_r in H. congruence. }
    assert (He : e1 = a ++ skipn (length a) e1) by (rewrite <- Ha at 1; symmetry; apply firstn_skipn).
    split; [|split; [|exact Hc]].
    + rewrite He, <- app_assoc in H. now apply app_inv_head in H.
    + rewrite <- apply_all_app. now rewrite <- He.
  - left. exists e1, (skipn (length e1) a). split; [|split; [reflexivity|]].
    + assert (Ha : firstn (length e1) a = e1).
      { apply (f_equal (firstn (length e1))) in E. rewrite firstn_app in E. replace (length e1 - length a) with 0 in E by lia.
        cbn in E. rewrite app_nil_r in E. rewrite firstn_app, Nat.sub_diag, firstn_all in E. cbn in E. rewrite app_nil_r in E. exact E. }
      rewrite <- Ha at 1. symmetry. apply firstn_skipn.
    + intros ids r F. apply (f_equal (skipn (length e1))) in E.
      rewrite !skipn_app, skipn_all, Nat.sub_diag in E. cbn in E.
      rewrite F in E. cbn in E. apply (Hc ids (r ++ skipn (length e1 - length a) b)). now rewrite <- E.
Qed.

Lemma triple_bind {A B} (m : act A) (f : A -> act B) d I Q R :
  triple m d I Q -> (forall a d', Q a d' -> triple (f a) d' I R) -> triple (andthen m f) d I R.
Proof.
  intros (es & a & Em & HQ & HI) H. destruct (H a _ HQ) as (es' & b & Ef & HR & HI').
  exists (es ++ es'), b. unfold andthen. rewrite Em, Ef. split; [reflexivity|]. split; [now rewrite apply_all_app|].
  intros d' Hd. apply cut_app in Hd. destruct Hd; auto.
Qed.
Lemma triple_ret {A} (a : A) d (I : store -> Prop) (Q : A -> store -> Prop) : I d -> Q a d -> triple (ret a) d I Q.
Proof.
  intros HI HQ. exists [], a. split; [reflexivity|]. split; [exact HQ|].
  intros d' (e1 & e2 & E & -> & _). destruct e1; [exact HI|discriminate].
Qed.
Lemma triple_ask d (I : store -> Prop) (Q : store -> store -> Prop) : I d -> Q d d -> triple ask d I Q.
Proof.
  intros HI HQ. exists [], d. split; [reflexivity|]. split; [exact HQ|].
  intros d' (e1 & e2 & E & -> & _). destruct e1; [exact HI|discriminate].
Qed.
Lemma triple_emit e d (I : store -> Prop) (Q : unit -> store -> Prop) :
  I d -> I (apply d e) -> Q tt (apply d e) -> triple (emit e) d I Q.
Proof.
  intros H1 H2 H3. exists [e], tt. split; [reflexivity|]. split; [exact H3|].
  intros d' (e1 & e2 & E & -> & _). destruct e1 as [|x [|y e1]]; [exact H1| |destruct e1; discriminate].
  injection E as <- _. exact H2.
Qed.
Lemma triple_conseq {A} (m : act A) d I (Q Q' : A -> store -> Prop) :
  triple m d I Q -> (forall a d', Q a d' -> Q' a d') -> triple m d I Q'.
Proof. intros (es & a & E & HQ & HI) H. exists es, a. auto. Qed.
Lemma triple_inv {A} (m : act A) d (I I' : store -> Prop) (Q : A -> store -> Prop) :
  triple m d I Q -> (forall d', I d' -> I' d') -> triple m d I' Q.
Proof. intros (es & a & E & HQ & HI) H. exists es, a. auto. Qed.
Lemma triple_start {A} (m : act A) d I Q :
  triple m d I Q -> (forall es ids r, fst (m d) = es -> es <> DbDel ids :: r) -> I d.
Proof.
  intros (es & a & E & HQ & HI) H. apply HI. exists [], es. split; [reflexivity|]. split; [reflexivity|].
  intros ids r F. apply (H es ids r); [now rewrite E|exact F].
Qed.

(** Every state along a list of effects. *)
Fixpoint along (P : store -> Prop) (d : store) (es : list effect) : Prop :=
  P d /\ match es with [] => True | e :: es' => along P (apply d e) es' end.
Lemma along_cut P d es d' : along P d es -> cut d es d' -> P d'.
Proof.
  intros H (e1 & e2 & -> & -> & _). revert d H. induction e1 as [|e e1 IH]; intros d H.
  - destruct e2; cbn in H; tauto.
  - cbn in H |- *. destruct H as (_ & H). now apply IH.
Qed.
Lemma along_impl (P Q : store -> Prop) d es : (forall x, P x -> Q x) -> along P d es -> along Q d es.
Proof.
  intros H. revert d. induction es as [|e es IH]; cbn; intros d (H1 & H2); split; auto.
Qed.

(** The directory with other documents and rows. *)
Definition setvd (d : store) (v : list row) (db : list row) : store :=
  {| d_vec := Some v; d_db := Some (number 0 db); d_state := d_state d; d_building := d_building d |}.
Definition aligned (d : store) (rows : list row) : Prop :=
  d_vec d = Some rows /\ d_db d = Some (number 0 rows).
Lemma aligned_setvd d rows : aligned d rows -> d = setvd d rows rows.
Proof. intros (H1 & H2). destruct d as [v db s b]; cbn in *. unfold setvd; cbn. congruence. Qed.

(** ** Deletion of files *)
Lemma ids_of_In db p i : In i (ids_of db p) <-> exists r, In (i, r) db /\ r_file r = p.
Proof.
  unfold ids_of. rewrite in_map_iff. split.
  - intros ((j, r) & <- & H). apply filter_In in H. destruct H as (H1 & H2). apply text_eqb_eq in H2. exists r. auto.
  - intros (r & H & <-). exists (i, r). split; auto. apply filter_In. split; auto. apply text_eqb_refl.
Qed.
Lemma ids_of_files_aligned d rows files i r :
  d_db d = Some (number 0 rows) -> nth_error rows i = Some r ->
  mem_nat i (ids_of_files d files) = mem (r_file r) files.
Proof.
  intros Hd Hn. unfold ids_of_files. rewrite Hd.
  assert (E : In i (nodup Nat.eq_dec (flat_map (ids_of (number 0 rows)) files)) <-> In (r_file r) files).
  { rewrite nodup_In, in_flat_map. split.
    - intros (p & Hp & Hi). apply ids_of_In in Hi. destruct Hi as (r' & Hr & <-). apply number_In in Hr.
      rewrite Nat.sub_0_r in Hr. destruct Hr as (_ & Hr). rewrite Hn in Hr. injection Hr as <-. exact Hp.
    - intros H. exists (r_file r). split; auto. apply ids_of_In. exists r. split; auto. apply number_In.
      rewrite Nat.sub_0_r. split; [lia|auto]. }
  destruct (mem (r_file r) files) eqn:F.
  - apply mem_nat_In, E. now apply mem_In.
  - apply mem_nat_false. rewrite E. now apply mem_false.
Qed.
Lemma delete_aligned files d rows (I : store -> Prop) (Q : nat -> store -> Prop) :
  aligned d rows ->
  I d -> I (setvd d (keep files rows) (keep files rows)) ->
  (forall n, (n = 0 -> keep files rows = rows) -> Q n (setvd d (keep files rows) (keep files rows))) ->
  triple (delete_files files) d I Q.
Proof.
  intros (Hv & Hd) I0 I1 HQ. unfold triple, delete_files.
  assert (K : drop_docs (ids_of_files d files) rows = keep files rows /\
              drop_rows (ids_of_files d files) (number 0 rows) = number 0 (keep files rows)).
  { apply (drop_both (fun r => negb (mem (r_file r) files))). intros i r Hi. rewrite negb_involutive.
    now apply (ids_of_files_aligned d rows). }
  destruct (ids_of_files d files) as [|i ids] eqn:E.
  - assert (K0 : keep files rows = rows).
    { destruct K as (K & _). rewrite <- K. unfold drop_docs. cbn.
      assert (G : forall (l : list (nat * row)), filter (fun e => negb (mem_nat (fst e) [])) l = l)
        by (induction l as [|? ? IH]; cbn in *; congruence).
      rewrite G. apply number_snd. }
    exists [], 0. split; [reflexivity|]. rewrite K0 in *.
    rewrite <- (aligned_setvd d rows) in * by now split.
    split; [now apply HQ|]. intros d' (e1 & e2 & Ee & -> & _). destruct e1; [exact I0|discriminate].
  - rewrite Hv. exists [VecDel (i :: ids); DbDel (i :: ids)], (length (i :: ids)). split; [reflexivity|].
    assert (F : apply_all d [VecDel (i :: ids); DbDel (i :: ids)] = setvd d (keep files rows) (keep files rows)).
    { cbn [apply_all fold_left apply d_vec d_db]. rewrite Hv, Hd. cbn [option_map]. destruct K as (-> & ->). reflexivity. }
    rewrite F. split; [apply HQ; discriminate|].
    intros d' (e1 & e2 & Ee & -> & Hc). destruct e1 as [|x [|y [|z e1]]].
    + exact I0.
    + cbn in Ee. injection Ee as <- Ee. destruct (Hc (i :: ids) []). now rewrite <- Ee.
    + cbn in Ee. injection Ee as <- <- _. rewrite F. exact I1.
    + cbn in Ee. injection Ee as _ _ Ee. discriminate.
Qed.

(** ** The pipeline on an existing index *)
Lemma skipn_firstn_S {A} (l : list A) i b rest : skipn i l = b :: rest ->
  firstn (S i) l = firstn i l ++ [b] /\ skipn (S i) l = rest.
Proof.
  revert l. induction i as [|i IH]; intros l H; destruct l as [|a l]; cbn in H |- *; try discriminate.
  - injection H as -> ->. auto.
  - apply IH in H. destruct H as (H1 & H2). split; [f_equal; exact H1|exact H2].
Qed.
Definition snap (d : store) (v : list row) (bs : list (list row)) (i j : nat) : store :=
  setvd d (v ++ concat (firstn i bs)) (v ++ concat (firstn j bs)).
Definition snaps (d : store) (v : list row) (bs : list (list row)) (x : store) : Prop :=
  exists i j, j <= i /\ i <= length bs /\ x = snap d v bs i j.
Lemma snap_vec d v bs i j b rest : skipn i bs = b :: rest ->
  apply (snap d v bs i j) (VecAdd b) = snap d v bs (S i) j.
Proof.
  intros H. apply skipn_firstn_S in H. destruct H as (H & _).
  unfold snap, setvd, apply. cbn [d_vec d_db d_state d_building option_map]. rewrite H, concat_app. cbn [concat].
  now rewrite app_nil_r, app_assoc.
Qed.
Lemma snap_db d v bs i j b rest : skipn j bs = b :: rest ->
  apply (snap d v bs i j) (DbAdd (number (length v + length (concat (firstn j bs))) b)) = snap d v bs i (S j)
  /\ length v + length (concat (firstn j bs)) + length b = length v + length (concat (firstn (S j) bs)).
Proof.
  intros H. apply skipn_firstn_S in H. destruct H as (H & _). rewrite H, concat_app. cbn [concat]. rewrite app_nil_r, app_length.
  split; [|lia]. unfold snap, setvd, apply. cbn [d_vec d_db d_state d_building]. rewrite H, concat_app. cbn [concat].
  rewrite app_nil_r, app_assoc, (number_app 0 (v ++ _) b). cbn [Nat.add]. now rewrite app_length.
Qed.
Lemma skipn_length_lt {A} (l : list A) i b rest : skipn i l = b :: rest -> i < length l.
Proof.
  intros H. apply (f_equal (@length A)) in H. rewrite skipn_length in H. cbn in H. lia.
Qed.
Lemma db_only d v bs n j :
  j <= n -> n = length bs ->
  along (snaps d v bs) (snap d v bs n j) (db_adds (length v + length (concat (firstn j bs))) (skipn j bs))
  /\ apply_all (snap d v bs n j) (db_adds (length v + length (concat (firstn j bs))) (skipn j bs)) = snap d v bs n n.
Proof.
  intros Hj Hn. remember (skipn j bs) as rest eqn:E. revert j Hj E. induction rest as [|b rest IH]; intros j Hj E.
  - cbn. assert (j = n). { apply (f_equal (@length _)) in E. rewrite skipn_length in E. cbn in E. lia. }
    subst j. split; [|reflexivity]. split; [|auto]. exists n, n. repeat split; lia.
  - symmetry in E. assert (L := skipn_length_lt _ _ _ _ E). destruct (snap_db d v bs n j b rest E) as (S1 & S2).
    cbn [db_adds along apply_all fold_left]. rewrite S1, S2. destruct (skipn_firstn_S _ _ _ _ E) as (_ & E').
    destruct (IH (S j)) as (H1 & H2); [lia|now symmetry|]. split; [|exact H2].
    split; [exists n, j; repeat split; lia|exact H1].
Qed.
Lemma vec_only d v bs n i j :
  j <= i -> i <= n -> n = length bs ->
  along (snaps d v bs) (snap d v bs i j) (map VecAdd (skipn i bs))
  /\ apply_all (snap d v bs i j) (map VecAdd (skipn i bs)) = snap d v bs n j.
Proof.
  intros Hj Hi Hn. remember (skipn i bs) as rest eqn:E. revert i Hj Hi E. induction rest as [|b rest IH]; intros i Hj Hi E.
  - cbn. assert (i = n). { apply (f_equal (@length _)) in E. rewrite skipn_length in E. cbn in E. lia. }
    subst i. split; [|reflexivity]. split; [|auto]. exists n, j. repeat split; lia.
  - symmetry in E. assert (L := skipn_length_lt _ _ _ _ E).
    cbn [map along apply_all fold_left]. rewrite (snap_vec d v bs i j b rest E). destruct (skipn_firstn_S _ _ _ _ E) as (_ & E').
    destruct (IH (S i)) as (H1 & H2); [lia|lia|now symmetry|]. split; [|exact H2].
    split; [exists i, j; repeat split; lia|exact H1].
Qed.
Lemma along_app P d a b : along P d a -> along P (apply_all d a) b -> along P d (a ++ b).
Proof.
  revert d. induction a as [|e a IH]; intros d Ha Hb; [exact Hb|].
  cbn in Ha |- *. destruct Ha as (H1 & H2). split; [exact H1|]. now apply IH.
Qed.
Lemma merge_after_snaps d v bs sch i j :
  j <= i -> i <= length bs ->
  let es := merge_after sch (i - j) (map VecAdd (skipn i bs)) (db_adds (length v + length (concat (firstn j bs))) (skipn j bs)) in
  along (snaps d v bs) (snap d v bs i j) es /\ apply_all (snap d v bs i j) es = snap d v bs (length bs) (length bs).
Proof.
  revert i j. induction sch as [|b sch IH]; intros i j Hj Hi es; subst es; cbn [merge_after].
  - destruct (vec_only d v bs (length bs) i j Hj Hi eq_refl) as (A1 & A2).
    destruct (db_only d v bs (length bs) j) as (B1 & B2); [lia|auto|].
    split; [apply along_app; [exact A1|rewrite A2; exact B1]|rewrite apply_all_app, A2; exact B2].
  - destruct (b || (i - j =? 0)) eqn:Eb.
    + destruct (skipn i bs) as [|c rest] eqn:E; cbn [map].
      * assert (i = length bs). { apply (f_equal (@length _)) in E. rewrite skipn_length in E. cbn in E. lia. }
        subst i. apply db_only; auto.
      * assert (L := skipn_length_lt _ _ _ _ E). destruct (skipn_firstn_S _ _ _ _ E) as (_ & E').
        cbn [along apply_all fold_left]. rewrite (snap_vec d v bs i j c rest E).
        destruct (IH (S i) j) as (H1 & H2); [lia|lia|]. rewrite E' in H1, H2.
        replace (S i - j) with (S (i - j)) in H1, H2 by lia.
        split; [split; [exists i, j; repeat split; lia|exact H1]|exact H2].
    + apply orb_false_iff in Eb. destruct Eb as (_ & Eb). apply Nat.eqb_neq in Eb.
      destruct (skipn j bs) as [|c rest] eqn:E; cbn [db_adds].
      * exfalso. apply (f_equal (@length _)) in E. rewrite skipn_length in E. cbn in E. lia.
      * assert (L := skipn_length_lt _ _ _ _ E). destruct (skipn_firstn_S _ _ _ _ E) as (_ & E').
        destruct (snap_db d v bs i j c rest E) as (S1 & S2). cbn [along apply_all fold_left]. rewrite S1, S2.
        destruct (IH i (S j)) as (H1 & H2); [lia|lia|]. rewrite E' in H1, H2.
        replace (i - S j) with (i - j - 1) in H1, H2 by lia.
        split; [split; [exists i, j; repeat split; lia|exact H1]|exact H2].
Qed.

Lemma no_conflict v rows : conflict (Some (number 0 v)) (number (length v) rows) = false.
Proof.
  unfold conflict. apply not_true_iff_false. rewrite existsb_exists. intros ((i, r) & Hi & Hm).
  apply number_In in Hi. apply mem_nat_In in Hm. cbn in Hm. rewrite number_fst in Hm. apply in_seq in Hm. lia.
Qed.
Lemma concat_firstn_prefix {A} (bs : list (list A)) i j : j <= i ->
  exists z, concat (firstn i bs) = concat (firstn j bs) ++ z.
Proof.
  intros H. exists (concat (skipn j (firstn i bs))). rewrite <- concat_app. f_equal.
  rewrite <- (firstn_skipn j (firstn i bs)) at 1. f_equal. rewrite firstn_firstn. f_equal. lia.
Qed.
Lemma pipeline_update T sch rows d v (I : store -> Prop) (Q : unit -> store -> Prop) :
  good_tool T -> aligned d v ->
  (forall y z w, rows = y ++ z ++ w -> I (setvd d (v ++ y ++ z) (v ++ y))) ->
  Q tt (setvd d (v ++ rows) (v ++ rows)) ->
  triple (pipeline T sch rows) d I Q.
Proof.
  intros GT AL HI HQ. destruct rows as [|r0 rows0] eqn:ER.
  - assert (E := aligned_setvd d v AL). rewrite !app_nil_r in HQ. rewrite <- E in HQ.
    apply (triple_ret tt); [|exact HQ]. rewrite E. specialize (HI [] [] [] eq_refl). cbn in HI. now rewrite !app_nil_r in HI.
  - assert (NE : rows <> []) by (rewrite ER; discriminate). rewrite <- ER in *. clear ER r0 rows0. destruct AL as (Hv & Hd).
    set (bs := group (t_flush T) [] (chunks (t_chunk T) rows)).
    assert (CB : concat bs = rows).
    { unfold bs. rewrite group_concat. cbn. apply concat_chunks. exact GT. }
    destruct (merge_after_snaps d v bs (sch rows) 0 0) as (H1 & H2); [lia|lia|].
    rewrite Nat.sub_0_r in H1, H2. cbn [skipn firstn concat length] in H1, H2. rewrite Nat.add_0_r in H1, H2.
    assert (S0 : snap d v bs 0 0 = d).
    { unfold snap. cbn [firstn concat]. rewrite app_nil_r. symmetry. apply aligned_setvd. now split. }
    rewrite S0 in H1, H2.
    exists (merge_after (sch rows) 0 (map VecAdd bs) (db_adds (length v) bs)), tt.
    split; [|split].
    + unfold bs. clear - NE Hv Hd. unfold pipeline. destruct rows; [congruence|]. rewrite Hv, Hd, no_conflict. reflexivity.
    + rewrite H2. unfold snap. now rewrite firstn_all, CB.
    + intros d' Hc. apply (along_cut _ _ _ _ H1) in Hc. destruct Hc as (i & j & Hj & Hi & ->).
      unfold snap. destruct (concat_firstn_prefix bs i j Hj) as (z & Ez). rewrite Ez.
      apply (HI _ _ (concat (skipn i bs))). rewrite app_assoc, <- Ez, <- concat_app, firstn_skipn. now symmetry.
Qed.

(** ** The pipeline of a first build *)
Definition fresh (d : store) (v : option (list row)) (db : option (list row)) : store :=
  {| d_vec := v; d_db := option_map (number 0) db; d_state := d_state d; d_building := d_building d |}.
Definition dbpart (cs : list (list row)) (j : nat) : option (list row) :=
  match j with 0 => None | _ => Some (concat (firstn j cs)) end.
Definition news (d : store) (rows : list row) (cs : list (list row)) (x : store) : Prop :=
  exists v j, (v = None \/ v = Some rows) /\ j <= length cs /\ x = fresh d v (dbpart cs j).
Lemma fresh_db d v cs j b rest : skipn j cs = b :: rest ->
  apply (fresh d v (dbpart cs j)) (DbAdd (number (length (concat (firstn j cs))) b)) = fresh d v (dbpart cs (S j))
  /\ length (concat (firstn j cs)) + length b = length (concat (firstn (S j) cs)).
Proof.
  intros H. apply skipn_firstn_S in H. destruct H as (H & _). rewrite H, concat_app. cbn [concat]. rewrite app_nil_r, app_length.
  split; [|lia]. unfold fresh, apply, dbpart. cbn [d_vec d_db d_state d_building]. f_equal. rewrite H, concat_app. cbn [concat].
  rewrite app_nil_r. destruct j as [|j]; cbn [option_map].
  - reflexivity.
  - now rewrite number_app.
Qed.
Lemma fresh_db_only d rows v cs j :
  (v = None \/ v = Some rows) -> j <= length cs ->
  along (news d rows cs) (fresh d v (dbpart cs j)) (db_adds (length (concat (firstn j cs))) (skipn j cs))
  /\ apply_all (fresh d v (dbpart cs j)) (db_adds (length (concat (firstn j cs))) (skipn j cs)) = fresh d v (dbpart cs (length cs)).
Proof.
  intros Hv Hj. remember (skipn j cs) as rest eqn:E. revert j Hj E. induction rest as [|b rest IH]; intros j Hj E.
  - cbn. assert (j = length cs). { apply (f_equal (@length _)) in E. rewrite skipn_length in E. cbn in E. lia. }
    subst j. split; [|reflexivity]. split; [|auto]. exists v, (length cs). auto.
  - symmetry in E. assert (L := skipn_length_lt _ _ _ _ E). destruct (fresh_db d v cs j b rest E) as (S1 & S2).
    cbn [db_adds along apply_all fold_left]. rewrite S1, S2. destruct (skipn_firstn_S _ _ _ _ E) as (_ & E').
    destruct (IH (S j)) as (H1 & H2); [lia|now symmetry|]. split; [|exact H2].
    split; [exists v, j; auto|exact H1].
Qed.
Lemma merge_news d rows cs sch j : j <= length cs ->
  let es := merge sch [VecNew rows] (db_adds (length (concat (firstn j cs))) (skipn j cs)) in
  along (news d rows cs) (fresh d None (dbpart cs j)) es
  /\ apply_all (fresh d None (dbpart cs j)) es = fresh d (Some rows) (dbpart cs (length cs)).
Proof.
  revert j. induction sch as [|b sch IH]; intros j Hj es; subst es; cbn [merge].
  - cbn [app along apply_all fold_left]. change (apply (fresh d None (dbpart cs j)) (VecNew rows)) with (fresh d (Some rows) (dbpart cs j)).
    destruct (fresh_db_only d rows (Some rows) cs j) as (H1 & H2); auto.
    split; [split; [exists None, j; auto|exact H1]|exact H2].
  - destruct b.
    + cbn [along apply_all fold_left]. change (apply (fresh d None (dbpart cs j)) (VecNew rows)) with (fresh d (Some rows) (dbpart cs j)).
      assert (M' : forall s r, merge s [] r = r).
      { intros s; induction s as [|[|] s IHs]; intros r; cbn; auto. destruct r; cbn; auto. now rewrite IHs. }
      rewrite M'. destruct (fresh_db_only d rows (Some rows) cs j) as (H1 & H2); auto.
      split; [split; [exists None, j; auto|exact H1]|exact H2].
    + destruct (skipn j cs) as [|c rest] eqn:E; cbn [db_adds].
      * assert (j = length cs). { apply (f_equal (@length _)) in E. rewrite skipn_length in E. cbn in E. lia. }
        subst j. cbn [along apply_all fold_left]. split; [|reflexivity].
        split; [exists None, (length cs); auto|]. split; [|auto].
        change (apply (fresh d None (dbpart cs (length cs))) (VecNew rows)) with (fresh d (Some rows) (dbpart cs (length cs))).
        exists (Some rows), (length cs); auto.
      * assert (L := skipn_length_lt _ _ _ _ E). destruct (skipn_firstn_S _ _ _ _ E) as (_ & E').
        destruct (fresh_db d None cs j c rest E) as (S1 & S2). cbn [along apply_all fold_left]. rewrite S1, S2.
        destruct (IH (S j)) as (H1 & H2); [lia|]. rewrite E' in H1, H2.
        split; [split; [exists None, j; auto|exact H1]|exact H2].
Qed.
Lemma pipeline_create T sch rows d (I : store -> Prop) (Q : unit -> store -> Prop) :
  good_tool T -> rows <> [] -> d_vec d = None -> d_db d = None ->
  I d -> I (fresh d (Some rows) None) ->
  (forall x y, x ++ y = rows -> x <> [] -> I (fresh d None (Some x)) /\ I (fresh d (Some rows) (Some x))) ->
  Q tt (setvd d rows rows) ->
  triple (pipeline T sch rows) d I Q.
Proof.
  intros GT NE Hv Hd I0 I1 HI HQ. set (cs := chunks (t_chunk T) rows).
  assert (CC : concat cs = rows) by (apply concat_chunks; exact GT).
  assert (NC : forall c, In c cs -> c <> []).
  { intros c Hc. unfold cs, chunks in Hc. apply chunks_fuel_nonempty in Hc; auto. }
  destruct (merge_news d rows cs (sch rows) 0) as (H1 & H2); [lia|]. cbn [skipn firstn concat length] in H1, H2.
  assert (F0 : fresh d None (dbpart cs 0) = d) by (clear - Hv Hd; destruct d; cbn in *; subst; reflexivity).
  rewrite F0 in H1, H2.
  exists (merge (sch rows) [VecNew rows] (db_adds 0 cs)), tt. split; [|split].
  - subst cs. clear - NE Hv Hd. unfold pipeline. destruct rows; [congruence|]. rewrite Hv, Hd. cbn [conflict]. reflexivity.
  - rewrite H2. unfold dbpart. destruct (length cs) as [|n] eqn:E.
    + apply length_zero_iff_nil in E. rewrite E in CC. cbn in CC. congruence.
    + rewrite <- E, firstn_all, CC. exact HQ.
  - intros d' Hc. apply (along_cut _ _ _ _ H1) in Hc. destruct Hc as (v & j & Hvj & Hj & ->).
    destruct j as [|j].
    + cbn [dbpart]. destruct Hvj as [-> | ->]; [|exact I1]. change (I (fresh d None (dbpart cs 0))). now rewrite F0.
    + cbn [dbpart]. assert (X := HI (concat (firstn (S j) cs)) (concat (skipn (S j) cs))).
      rewrite <- concat_app, firstn_skipn, CC in X. specialize (X eq_refl).
      assert (N : concat (firstn (S j) cs) <> []).
      { clear - CC NC NE. clearbody cs. destruct cs as [|c cs']; [cbn in CC; congruence|]. cbn [firstn concat]. specialize (NC c (or_introl eq_refl)).
        destruct c; [congruence|discriminate]. }
      specialize (X N). destruct Hvj as [-> | ->]; tauto.
Qed.

(** ** Repair *)
Lemma repair_trims d rows extra (I : store -> Prop) (Q : bool -> store -> Prop) :
  d_vec d = Some (rows ++ extra) -> d_db d = Some (number 0 rows) ->
  I d -> I (setvd d rows rows) -> Q true (setvd d rows rows) ->
  triple repair d I Q.
Proof.
  intros Hv Hd I0 I1 HQ. unfold triple, repair. rewrite Hv, Hd, number_length, app_length.
  destruct extra as [|x extra].
  - cbn [length]. rewrite Nat.add_0_r, Nat.eqb_refl. rewrite app_nil_r in Hv.
    rewrite <- (aligned_setvd d rows) in HQ, I1 by now split.
    exists [], true. split; [reflexivity|]. split; [exact HQ|].
    intros d' (e1 & e2 & Ee & -> & _). destruct e1; [exact I0|discriminate].
  - cbn [length]. replace (length rows + S (length extra) =? length rows) with false by (symmetry; apply Nat.eqb_neq; lia).
    replace (length rows + S (length extra) <? length rows) with false by (symmetry; apply Nat.ltb_ge; lia).
    replace (length rows + S (length extra) - length rows) with (length (x :: extra)) by (cbn; lia).
    assert (F : apply_all d [VecDel (seq (length rows) (length (x :: extra)))] = setvd d rows rows).
    { cbn [apply_all fold_left apply d_vec d_db]. rewrite Hv, Hd. cbn [option_map]. now rewrite drop_docs_tail. }
    rewrite F. cbn [d_vec d_db setvd]. rewrite number_length, Nat.eqb_refl.
    exists [VecDel (seq (length rows) (length (x :: extra)))], true. split; [reflexivity|]. rewrite F. split; [exact HQ|].
    intros d' (e1 & e2 & Ee & -> & _). destruct e1 as [|y [|z e1]]; [exact I0| |].
    + replace (apply_all d [y]) with (setvd d rows rows); [exact I1|]. injection Ee as <- _. symmetry. exact F.
    + injection Ee as _ Ee. discriminate.
Qed.
