(** Proofs about Shared.v: the files a loaded index maps are never written again. *)
From Verif Require Import Base Shared SharedSpec.
Open Scope nat_scope.

(** What an inode is used for. *)
Inductive cls := KCen | KMer (a : arr) | KTmp (a : arr) | KLock (a : arr) | KOther.
Definition class_of (f : file) : cls :=
  match f with Centroids => KCen | Merged a => KMer a | Temp a => KTmp a | Lock a => KLock a | Manifest _ | Other _ => KOther end.
Definition shown (c : cls) : Prop := match c with KCen | KMer _ => True | _ => False end.
Definition removable (f : file) : Prop := match f with Merged _ | Temp _ | Manifest _ => True | _ => False end.

Definition has_lock (w : world) (p : nat) (a : arr) (l : nat) : Prop := dir w (Lock a) = Some l /\ held w l = Some p.
Definition cen (w : world) (k : nat -> cls) (c : nat) : Prop := k c = KCen /\ c < fresh w.
Definition stage_ok (w : world) (k : nat -> cls) (p : nat) (s : stage) : Prop :=
  match s with
  | Idle | Clear0 | Load0 => True
  | Write todo _ => Forall by_library todo
  | Filling i _ todo _ => k i = KOther /\ i < fresh w /\ Forall by_library todo
  | Clear1 l => dir w (Lock Codes) = Some l
  | Clear2 l => has_lock w p Codes l
  | Clear3 l l' => has_lock w p Codes l /\ dir w (Lock Residuals) = Some l'
  | Clearing l l' todo => has_lock w p Codes l /\ has_lock w p Residuals l' /\ Forall removable todo
  | Convert _ => False
  | Merge0 c _ | Map1 c => cen w k c
  | Merge1 c a l => cen w k c /\ dir w (Lock a) = Some l
  | Merge2 c a l | Merge4 c a l | Merge5 c a l => cen w k c /\ has_lock w p a l
  | Merge3 c a l i pieces => cen w k c /\ has_lock w p a l /\ i < fresh w /\ dir w (Temp a) = Some i /\ data w i ++ concat pieces = meant w i
  | Map2 c m => cen w k c /\ k m = KMer Codes /\ m < fresh w
  end.
Record inv (w : world) (k : nat -> cls) : Prop := {
  i_dir : forall f i, dir w f = Some i -> i < fresh w /\ k i = class_of f;
  i_held : forall l p, held w l = Some p -> l < fresh w;
  i_stage : forall p, stage_ok w k p (at_ w p);
  i_loaded : Forall (fun m => cen w k (m_centroids m) /\ (k (m_codes m) = KMer Codes /\ m_codes m < fresh w) /\ k (m_residuals m) = KMer Residuals /\ m_residuals m < fresh w) (loaded w);
  i_whole : forall i, i < fresh w -> shown (k i) -> data w i = meant w i }.

Record frame (w w' : world) (k k' : nat -> cls) (q : nat) : Prop := {
  fr_fresh : fresh w <= fresh w';
  fr_lock : forall a l, dir w (Lock a) = Some l -> dir w' (Lock a) = Some l;
  fr_held : forall l, held w l = Some q -> held w' l = Some q;
  fr_k : forall i, i < fresh w -> shown (k i) \/ k i = KOther -> k' i = k i;
  fr_temp : forall a l i, has_lock w q a l -> i < fresh w -> dir w (Temp a) = Some i ->
    dir w' (Temp a) = Some i /\ data w' i = data w i /\ meant w' i = meant w i }.

Lemma frame_lock w w' k k' q a l : frame w w' k k' q -> has_lock w q a l -> has_lock w' q a l.
Proof. intros F (A & B). split; [exact (fr_lock _ _ _ _ _ F _ _ A)|exact (fr_held _ _ _ _ _ F _ B)]. Qed.
Lemma frame_cen w w' k k' q c : frame w w' k k' q -> cen w k c -> cen w' k' c.
Proof.
  intros F (A & B). split; [|pose proof (fr_fresh _ _ _ _ _ F); lia].
  rewrite (fr_k _ _ _ _ _ F _ B); [exact A|]. left. rewrite A. exact I.
Qed.
Lemma frame_stage w w' k k' q s : frame w w' k k' q -> stage_ok w k q s -> stage_ok w' k' q s.
Proof.
  intros F. pose proof (fr_fresh _ _ _ _ _ F) as G. pose proof (fr_lock _ _ _ _ _ F) as L.
  assert (HL : forall a l, has_lock w q a l -> has_lock w' q a l) by (intros; eapply frame_lock; eassumption).
  assert (HC : forall c, cen w k c -> cen w' k' c) by (intros; eapply frame_cen; eassumption).
  destruct s; cbn [stage_ok]; intros X; repeat match goal with X : _ /\ _ |- _ => destruct X end; repeat match goal with |- _ /\ _ => split end; auto; try lia.
  - rewrite (fr_k _ _ _ _ _ F); auto.
  - edestruct (fr_temp _ _ _ _ _ F) as (A & _); eauto.
  - edestruct (fr_temp _ _ _ _ _ F) as (_ & A & B); eauto. congruence.
  - rewrite (fr_k _ _ _ _ _ F); auto. left. match goal with X : k _ = KMer _ |- _ => rewrite X end. exact I.
Qed.

Lemma file_eqb_eq f g : file_eqb f g = true <-> f = g.
Proof.
  destruct f, g; cbn; try (split; [discriminate|intros X; discriminate X]); try tauto; try (destruct a, a0; cbn; split; congruence).
  rewrite Nat.eqb_eq. split; congruence.
Qed.
Lemma name_same d f o : name d f o f = o.
Proof. unfold name. rewrite (proj2 (file_eqb_eq f f) eq_refl). reflexivity. Qed.
Lemma name_other d f o g : g <> f -> name d f o g = d g.
Proof. intros N. unfold name. destruct (file_eqb g f) eqn:E; [|reflexivity]. apply file_eqb_eq in E. contradiction. Qed.
Lemma upd_same {A} f i (a : A) : upd f i a i = a.
Proof. unfold upd. rewrite Nat.eqb_refl. reflexivity. Qed.
Lemma upd_other {A} f i (a : A) j : j <> i -> upd f i a j = f j.
Proof. intros N. unfold upd. apply Nat.eqb_neq in N. rewrite N. reflexivity. Qed.

(** A step of [p] that keeps the rest. *)
Definition still (w w' : world) (k k' : nat -> cls) : Prop :=
  fresh w <= fresh w' /\ (forall i, i < fresh w -> shown (k i) -> data w' i = data w i /\ k' i = k i).
Lemma inv_step_of w w' k k' p s : inv w k -> at_ w' = upd (at_ w) p s -> loaded w' = loaded w -> still w w' k k' ->
  (forall q, q <> p -> frame w w' k k' q) -> stage_ok w' k' p s ->
  (forall f i, dir w' f = Some i -> i < fresh w' /\ k' i = class_of f) -> (forall l q, held w' l = Some q -> l < fresh w') ->
  (forall i, i < fresh w' -> shown (k' i) -> data w' i = meant w' i) -> inv w' k'.
Proof.
  intros I A L (G & S) F P D H W. split; auto.
  - intros q. rewrite A. unfold upd. destruct (Nat.eqb_spec q p) as [->|N]; [exact P|].
    eapply frame_stage; [apply F; exact N|apply (i_stage _ _ I)].
  - rewrite L. eapply Forall_impl; [|apply (i_loaded _ _ I)]. intros m (C & (M1 & M2) & R1 & R2). destruct C as (C1 & C2).
    assert (X : forall i c, i < fresh w -> k i = c -> shown c -> k' i = c). { intros i c Hi Hk Hs. rewrite <- Hk in *. apply (S i Hi Hs). }
    repeat split; try lia; apply X; auto; exact Logic.I.
Qed.

(** Moves that leave the files alone. *)
Lemma still_refl w w' k : fresh w' = fresh w -> data w' = data w -> still w w' k k.
Proof. intros A B. split; [lia|]. intros i Hi _. rewrite B. auto. Qed.
Lemma frame_same w w' k q : fresh w' = fresh w -> dir w' = dir w -> data w' = data w -> meant w' = meant w ->
  (forall l, held w l = Some q -> held w' l = Some q) -> frame w w' k k q.
Proof.
  intros A B C D E. split; auto.
  - lia.
  - intros a l X. rewrite B. exact X.
  - intros a l i _ _ T. rewrite B, C, D. auto.
Qed.
Lemma inv_quiet w w' k p s : inv w k -> at_ w' = upd (at_ w) p s -> loaded w' = loaded w -> fresh w' = fresh w -> dir w' = dir w -> data w' = data w -> meant w' = meant w ->
  (forall l q, q <> p -> held w l = Some q -> held w' l = Some q) -> (forall l q, held w' l = Some q -> l < fresh w) -> stage_ok w' k p s -> inv w' k.
Proof.
  intros I A L F D C M H HF S. eapply inv_step_of with (p := p) (s := s); eauto.
  - apply still_refl; auto.
  - intros q N. apply frame_same; auto.
  - rewrite D, F. apply (i_dir _ _ I).
  - rewrite F. exact HF.
  - rewrite F, C, M. apply (i_whole _ _ I).
Qed.

(** The files. *)
Definition same_rest (w w' : world) : Prop := held w' = held w /\ at_ w' = at_ w /\ loaded w' = loaded w.
(** A new inode [fresh w] of class [c] under the name [f]; the old one loses the name. *)
Lemma inv_new w k p s f b m : inv w k -> (shown (class_of f) -> b = m) ->
  (forall a, f = Lock a -> dir w f = None) ->
  (forall a l q, q <> p -> has_lock w q a l -> f = Temp a -> False) ->
  let w1 := set_files w (name (dir w) f (Some (fresh w))) (upd (data w) (fresh w) b) (upd (meant w) (fresh w) m) (S (fresh w)) in
  stage_ok (go w1 p s) (upd k (fresh w) (class_of f)) p s ->
  inv (go w1 p s) (upd k (fresh w) (class_of f)) /\ still w (go w1 p s) k (upd k (fresh w) (class_of f)).
Proof.
  intros I B NL NT w1 S.
  assert (ST : still w (go w1 p s) k (upd k (fresh w) (class_of f))).
  { split; [cbn; lia|]. intros i Hi _. cbn. rewrite !upd_other by lia. auto. }
  split; [|exact ST]. eapply inv_step_of with (p := p) (s := s); try exact I; try reflexivity; try exact ST; try exact S.
  - intros q N. split; cbn; try lia.
    + intros a l E. destruct (file_eqb (Lock a) f) eqn:X; [apply file_eqb_eq in X; subst f; rewrite (NL a eq_refl) in E; discriminate|].
      unfold name. rewrite X. exact E.
    + auto.
    + intros i Hi _. rewrite upd_other by lia. reflexivity.
    + intros a l i HL Hi E. rewrite !upd_other by lia. split; [|auto].
      destruct (file_eqb (Temp a) f) eqn:X; [apply file_eqb_eq in X; subst f; exfalso; exact (NT a l q N HL eq_refl)|].
      unfold name. rewrite X. exact E.
  - cbn. intros g i E. destruct (file_eqb g f) eqn:X.
    + apply file_eqb_eq in X. subst g. rewrite name_same in E. injection E as <-. rewrite upd_same. split; [lia|reflexivity].
    + unfold name in E. rewrite X in E. destruct (i_dir _ _ I _ _ E) as (X1 & X2). rewrite upd_other by lia. split; [lia|exact X2].
  - cbn. intros l q E. pose proof (i_held _ _ I _ _ E). lia.
  - cbn. intros i Hi Hs. destruct (Nat.eq_dec i (fresh w)) as [->|N].
    + rewrite !upd_same in *. auto.
    + rewrite !upd_other in * by lia. apply (i_whole _ _ I); [lia|exact Hs].
Qed.
(** The content of an inode that is not shown is changed. *)
Lemma inv_content w k p s i b m : inv w k -> (forall j, j <> i -> m j = meant w j) -> i < fresh w -> ~ shown (k i) ->
  (forall a l q, q <> p -> has_lock w q a l -> dir w (Temp a) = Some i -> False) ->
  let w1 := set_files w (dir w) (upd (data w) i b) m (fresh w) in
  stage_ok (go w1 p s) k p s -> inv (go w1 p s) k /\ still w (go w1 p s) k k.
Proof.
  intros I HM Hi NS NT w1 S.
  assert (ST : still w (go w1 p s) k k).
  { split; [cbn; lia|]. intros j Hj Hs. cbn. split; [|reflexivity]. apply upd_other. intros ->. contradiction. }
  split; [|exact ST]. eapply inv_step_of with (p := p) (s := s); try exact I; try reflexivity; try exact ST; try exact S.
  - intros q N. split; cbn; auto. intros a l j HL Hj E. split; [exact E|]. assert (j <> i) by (intros ->; exact (NT a l q N HL E)). rewrite upd_other, HM by assumption. auto.
  - exact (i_dir _ _ I).
  - exact (i_held _ _ I).
  - cbn. intros j Hj Hs. assert (j <> i) by (intros ->; contradiction). rewrite upd_other, HM by assumption. apply (i_whole _ _ I); assumption.
Qed.
(** A name is removed. *)
Lemma inv_remove w k p s f : inv w k -> (forall a, f <> Lock a) ->
  (forall a l q, q <> p -> has_lock w q a l -> f = Temp a -> False) ->
  stage_ok (go (remove w f) p s) k p s -> inv (go (remove w f) p s) k /\ still w (go (remove w f) p s) k k.
Proof.
  intros I NL NT S.
  assert (ST : still w (go (remove w f) p s) k k) by (apply still_refl; reflexivity).
  split; [|exact ST]. eapply inv_step_of with (p := p) (s := s); try exact I; try reflexivity; try exact ST; try exact S.
  - intros q N. split; cbn; auto.
    + intros a l E. rewrite name_other by (intro X; exact (NL a (eq_sym X))). exact E.
    + intros a l i HL Hi E. split; [|auto]. rewrite name_other; [exact E|]. intros X. exact (NT a l q N HL (eq_sym X)).
  - cbn. intros g i E. destruct (file_eqb g f) eqn:X; unfold name in E; rewrite X in E; [discriminate|]. exact (i_dir _ _ I _ _ E).
  - exact (i_held _ _ I).
  - exact (i_whole _ _ I).
Qed.
Lemma lock_one w p q a l l' : has_lock w p a l -> has_lock w q a l' -> q = p.
Proof. intros (A & B) (C & D). congruence. Qed.
(** The temporary file of a merge gets its name. *)
Lemma inv_rename w k p s a l i : inv w k -> has_lock w p a l -> dir w (Temp a) = Some i -> i < fresh w -> data w i = meant w i ->
  let k' := upd k i (KMer a) in let w' := go (rename w (Temp a) (Merged a)) p s in
  stage_ok w' k' p s -> inv w' k' /\ still w w' k k'.
Proof.
  intros I HL E Hi W k' w' S. destruct (i_dir _ _ I _ _ E) as (_ & Ki). cbn [class_of] in Ki.
  assert (X : forall j, shown (k j) \/ k j = KOther -> j <> i). { intros j [Y|Y] ->; rewrite Ki in Y; [exact Y|discriminate]. }
  assert (ST : still w w' k k').
  { split; [cbn; lia|]. intros j Hj Hs. cbn. split; [reflexivity|]. apply upd_other. auto. }
  split; [|exact ST]. eapply inv_step_of with (p := p) (s := s); try exact I; try reflexivity; try exact ST; try exact S.
  - intros q N. split; cbn [go rename set_files dir data meant fresh held]; auto.
    + intros j Hj Hs. apply upd_other. auto.
    + intros b l' j HL' Hj Ej. split; [|auto]. unfold w'. cbn [go rename set_files dir]. assert (b <> a) by (intros ->; apply N; exact (lock_one _ _ _ _ _ _ HL HL')).
      rewrite !name_other by congruence. exact Ej.
  - unfold w'. cbn [go rename set_files dir fresh]. intros g j Ej. destruct (file_eqb g (Temp a)) eqn:G1; unfold name in Ej; rewrite G1 in Ej; [discriminate|].
    destruct (file_eqb g (Merged a)) eqn:G2.
    + apply file_eqb_eq in G2. subst g. rewrite E in Ej. injection Ej as <-. split; [exact Hi|]. apply upd_same.
    + destruct (i_dir _ _ I _ _ Ej) as (A & B). split; [exact A|]. unfold k'. rewrite upd_other; [exact B|].
      intros ->. rewrite Ki in B. destruct g; cbn [class_of] in B; try discriminate B. injection B as <-.
      rewrite (proj2 (file_eqb_eq (Temp a) (Temp a)) eq_refl) in G1. discriminate G1.
  - exact (i_held _ _ I).
  - cbn. intros j Hj Hs. destruct (Nat.eq_dec j i) as [->|N]; [exact W|]. apply (i_whole _ _ I); [exact Hj|]. unfold k' in Hs. rewrite upd_other in Hs by exact N. exact Hs.
Qed.
(** Opening a lock file. *)
Lemma inv_touch w k p a s : inv w k ->
  (forall w' k', still w w' k k' -> fresh w' = fresh (touch w (Lock a)) -> dir w' (Lock a) = Some (opened w (Lock a)) ->
     (forall l, held w' l = held w l) -> (forall b l, dir w (Lock b) = Some l -> dir w' (Lock b) = Some l) -> stage_ok w' k' p s) ->
  exists k', inv (go (touch w (Lock a)) p s) k' /\ still w (go (touch w (Lock a)) p s) k k'.
Proof.
  intros I P. unfold touch, replace. unfold touch, replace, opened in P. destruct (dir w (Lock a)) as [l|] eqn:E.
  - exists k. assert (still w (go w p s) k k) by (apply still_refl; reflexivity). split; [|assumption].
    eapply inv_quiet; try exact I; try reflexivity; auto. exact (i_held _ _ I).
  - eexists. eapply inv_new.
    + exact I.
    + reflexivity.
    + intros b X. injection X as <-. exact E.
    + discriminate.
    + apply P; try reflexivity.
      * split; [cbn; lia|]. intros i Hi _. cbn. rewrite !upd_other by lia. auto.
      * cbn. apply name_same.
      * intros b l' X. cbn. rewrite name_other; [exact X|]. intros Y. rewrite Y, E in X. discriminate X.
Qed.
Lemma cen_still w w' k k' c : still w w' k k' -> cen w k c -> cen w' k' c.
Proof. intros (G & S) (A & B). destruct (S c B) as (_ & X); [rewrite A; exact I|]. split; [congruence|lia]. Qed.
Lemma dir_mem w k f i : inv w k -> dir w f = Some i -> i < fresh w.
Proof. intros I E. exact (proj1 (i_dir _ _ I _ _ E)). Qed.
Lemma inv_lock w k p l s : inv w k -> held w l = None -> l < fresh w -> stage_ok (go (set_held w l (Some p)) p s) k p s ->
  inv (go (set_held w l (Some p)) p s) k /\ still w (go (set_held w l (Some p)) p s) k k.
Proof.
  intros I E Hl S. split; [|apply still_refl; reflexivity]. eapply inv_quiet; try exact I; try reflexivity; auto; cbn.
  - intros l' q N H. rewrite upd_other; [exact H|]. intros ->. congruence.
  - intros l' q H. unfold upd in H. destruct (Nat.eqb_spec l' l) as [->|N]; [exact Hl|exact (i_held _ _ I _ _ H)].
Qed.
Lemma inv_unlock w k p l s : inv w k -> held w l = Some p -> stage_ok (go (set_held w l None) p s) k p s ->
  inv (go (set_held w l None) p s) k /\ still w (go (set_held w l None) p s) k k.
Proof.
  intros I E S. split; [|apply still_refl; reflexivity]. eapply inv_quiet; try exact I; try reflexivity; auto; cbn.
  - intros l' q N H. rewrite upd_other; [exact H|]. intros ->. congruence.
  - intros l' q H. unfold upd in H. destruct (Nat.eqb_spec l' l) as [->|N]; [discriminate|exact (i_held _ _ I _ _ H)].
Qed.
Lemma inv_go w k p s : inv w k -> stage_ok w k p s -> inv (go w p s) k /\ still w (go w p s) k k.
Proof.
  intros I S. split; [|apply still_refl; reflexivity]. eapply inv_quiet; try exact I; try reflexivity; auto.
  exact (i_held _ _ I).
Qed.

Definition fine (pc : nat * choice) : Prop := match snd pc with BeginWrite todo _ => Forall by_library todo | ConvertIt _ => False | _ => True end.
Lemma inv_step w p ch w' k : inv w k -> fine (p, ch) -> step w p ch = Some w' -> exists k', inv w' k' /\ still w w' k k'.
Proof.
  intros I F E. pose proof (i_stage _ _ I p) as S. unfold step in E. unfold fine in F. cbn [snd] in F.
  destruct ch as [|todo0 clear0| |a0 pieces0| | |b0].
  - destruct (at_ w p) as [|todo clear|i pieces todo clear| |l|l|l l'|l l' todo| |b|c a|c a l|c a l|c a l i pieces|c a l|c a l|c|c m] eqn:A; try discriminate E; cbn [stage_ok] in S.
    + (* Write *) destruct todo as [|[f b|f pieces|f] todo]; injection E as <-.
      * exists k. apply inv_go; [exact I|]. destruct clear; exact Logic.I.
      * inversion_clear S. eexists. apply inv_new; auto; destruct f; cbn [by_library] in *; try contradiction; try discriminate; assumption.
      * inversion_clear S. destruct f; cbn [by_library] in *; try contradiction. unfold cut, opened. destruct (dir w (Other n)) as [i|] eqn:D.
        -- exists k. destruct (i_dir _ _ I _ _ D) as (X & Y). apply inv_content; auto.
           ++ intros j Hj. apply upd_other. exact Hj.
           ++ rewrite Y. exact (fun x => x).
           ++ intros a l q _ _ T. destruct (i_dir _ _ I _ _ T) as (_ & Z). cbn in Y, Z. congruence.
           ++ cbn. auto.
        -- eexists. apply inv_new; auto; try discriminate; try contradiction. cbn. rewrite upd_same. repeat split; auto.
      * inversion_clear S. exists k. apply inv_remove; auto; destruct f; cbn [by_library] in *; try contradiction; try discriminate; assumption.
    + (* Filling *) destruct S as (S1 & S2 & S3). destruct pieces as [|b pieces]; injection E as <-.
      * exists k. apply inv_go; [exact I|]. exact S3.
      * exists k. unfold append. apply inv_content; auto.
        -- rewrite S1. exact (fun x => x).
        -- intros a l q _ _ T. destruct (i_dir _ _ I _ _ T) as (_ & Z). cbn in Z. congruence.
        -- cbn. auto.
    + (* Clear0 *) injection E as <-. apply inv_touch; [exact I|]. intros w' k' _ _ D _ _. exact D.
    + destruct (held w l) eqn:H; [discriminate E|]. injection E as <-. exists k. apply inv_lock; auto; [exact (dir_mem _ _ _ _ I S)|].
      cbn. split; [exact S|]. apply upd_same.
    + injection E as <-. apply inv_touch; [exact I|]. intros w' k' _ _ D H L. cbn. split; [|exact D]. destruct S as (S1 & S2).
      split; [apply L; exact S1|]. rewrite H. exact S2.
    + destruct S as ((S1 & S2) & S3). destruct (held w l') eqn:H; [discriminate E|]. injection E as <-. exists k. apply inv_lock; auto; [exact (dir_mem _ _ _ _ I S3)|].
      cbn. split; [split; [exact S1|]|split; [split; [exact S3|apply upd_same]|]].
      * cbn. rewrite upd_other; [exact S2|]. intros ->. congruence.
      * repeat constructor.
    + destruct S as (S1 & S2 & S3). destruct todo as [|f todo]; injection E as <-.
      * exists k. destruct S1 as (S1 & S1'), S2 as (S2 & S2'). split; [|apply still_refl; reflexivity].
        eapply inv_quiet; try exact I; try reflexivity; cbn.
        -- intros x q N H. rewrite !upd_other; [exact H| |]; intros ->; congruence.
        -- intros x q H. unfold upd in H. destruct (x =? l); [discriminate|]. destruct (x =? l'); [discriminate|]. exact (i_held _ _ I _ _ H).
      * exists k. inversion_clear S3. apply inv_remove; auto.
        -- intros a ->. assumption.
        -- intros a x q N HL ->. apply N. destruct a; [exact (lock_one _ _ _ _ _ _ S1 HL)|exact (lock_one _ _ _ _ _ _ S2 HL)].
        -- destruct f; try contradiction; (cbn; split; [exact S1|split; [exact S2|assumption]]).
    + (* Load0 *) destruct (dir w Centroids) as [c|] eqn:D; injection E as <-; exists k; apply inv_go; try exact I; try exact Logic.I.
      destruct (i_dir _ _ I _ _ D). split; assumption.
    + contradiction.
    + (* Merge0 *) injection E as <-. apply inv_touch; [exact I|]. intros w' k' ST _ D _ _. cbn. split; [eapply cen_still; eassumption|exact D].
    + destruct S as (S1 & S2). destruct (held w l) eqn:H; [discriminate E|]. injection E as <-. exists k. apply inv_lock; auto; [exact (dir_mem _ _ _ _ I S2)|].
      cbn. split; [exact S1|]. split; [exact S2|]. apply upd_same.
    + (* Merge3 *) destruct S as (S1 & S2 & S3 & S4 & S5). destruct (i_dir _ _ I _ _ S4) as (_ & Ki). destruct pieces as [|b pieces].
      * rewrite S4 in E. injection E as <-. exists (upd k i (KMer a)). apply inv_rename with (l := l); auto.
        -- cbn [concat] in S5. rewrite app_nil_r in S5. exact S5.
        -- cbn. destruct S1 as (S1 & S1'). split; [split; [|exact S1']|].
           ++ rewrite upd_other; [exact S1|]. intros ->. cbn in Ki. congruence.
           ++ destruct S2 as (S2 & S2'). split; [|exact S2']. cbn. unfold name. cbn. exact S2.
      * injection E as <-. exists k. unfold append. apply inv_content; auto.
        -- rewrite Ki. exact (fun x => x).
        -- intros b' l' q N HL T. destruct (i_dir _ _ I _ _ T) as (_ & Kj). rewrite Ki in Kj. injection Kj as <-. apply N. exact (lock_one _ _ _ _ _ _ S2 HL).
        -- cbn. rewrite upd_same. repeat match goal with |- _ /\ _ => split end; auto. cbn [concat] in S5. rewrite <- app_assoc. exact S5.
    + (* Merge4 *) destruct S as (S1 & S2). injection E as <-. eexists. apply inv_new; auto; try discriminate; try contradiction.
      cbn. split; [|split; [|exact (proj2 S2)]].
      * destruct S1 as (S1 & S1'). split; [|cbn; lia]. cbn. rewrite upd_other by lia. exact S1.
      * cbn. unfold name. cbn. exact (proj1 S2).
    + destruct S as (S1 & S2). injection E as <-. exists k. apply inv_unlock; auto; [exact (proj2 S2)|]. destruct a; exact S1.
    + (* Map1 *) destruct (dir w (Merged Codes)) as [m|] eqn:D; injection E as <-; exists k; apply inv_go; try exact I; try exact Logic.I.
      destruct (i_dir _ _ I _ _ D). cbn. auto.
    + (* Map2 *) destruct S as (S1 & S2 & S3). destruct (dir w (Merged Residuals)) as [r|] eqn:D; injection E as <-; exists k.
      * destruct (i_dir _ _ I _ _ D) as (D1 & D2). destruct (inv_go w k p Idle I Logic.I) as (J & ST). split; [|exact ST].
        destruct J as [J1 J2 J3 J4 J5]. split; auto. cbn. apply Forall_app. split; [exact J4|]. constructor; [|constructor]. cbn. auto.
      * apply inv_go; [exact I|exact Logic.I].
  - destruct (at_ w p) eqn:A; try discriminate E. injection E as <-. exists k. apply inv_go; auto.
  - destruct (at_ w p) eqn:A; try discriminate E. injection E as <-. exists k. apply inv_go; auto; exact Logic.I.
  - (* Rebuild *) destruct (at_ w p) eqn:A; try discriminate E. destruct (arr_eqb a0 a); [|discriminate E]. injection E as <-. cbn [stage_ok] in S. destruct S as (S1 & S2).
    unfold cut, opened. destruct (dir w (Temp a)) as [i|] eqn:D.
    + exists k. destruct (i_dir _ _ I _ _ D) as (X & Y). apply inv_content; auto.
      * intros j Hj. apply upd_other. exact Hj.
      * rewrite Y. exact (fun x => x).
      * intros b l' q N HL T. destruct (i_dir _ _ I _ _ T) as (_ & Z). rewrite Y in Z. injection Z as <-. apply N. exact (lock_one _ _ _ _ _ _ S2 HL).
      * cbn. rewrite !upd_same. repeat match goal with |- _ /\ _ => split end; auto.
    + eexists. apply inv_new; auto; try discriminate; try contradiction.
      * intros b l' q N HL X. injection X as <-. apply N. exact (lock_one _ _ _ _ _ _ S2 HL).
      * cbn. rewrite !upd_same. destruct S1 as (S1 & S1'), S2 as (S2 & S2'). repeat match goal with |- _ /\ _ => split end; auto.
        -- split; [|cbn; lia]. cbn. rewrite upd_other by lia. exact S1.
        -- split; [|exact S2']. cbn. unfold name. cbn. exact S2.
        -- unfold name. cbn. destruct a; reflexivity.
  - (* Keep *) destruct (at_ w p) eqn:A; try discriminate E; injection E as <-; exists k; apply inv_go; auto; cbn [stage_ok] in S.
    destruct a; exact S.
  - (* Killed *) injection E as <-. exists k. split; [|apply still_refl; reflexivity].
    eapply inv_quiet with (p := p) (s := Idle); try exact I; try reflexivity; cbn.
    + intros l q N H. rewrite H. destruct (Nat.eqb_spec q p); [contradiction|reflexivity].
    + intros l q H. destruct (held w l) as [q'|] eqn:X; [|discriminate]. exact (i_held _ _ I _ _ X).
  - contradiction.
Qed.

Lemma still_trans w w1 w2 k k1 k2 : still w w1 k k1 -> still w1 w2 k1 k2 -> still w w2 k k2.
Proof.
  intros (A & B) (C & D). split; [lia|]. intros i Hi Hs. destruct (B i Hi Hs) as (B1 & B2). destruct (D i) as (D1 & D2); [lia|rewrite B2; exact Hs|]. split; congruence.
Qed.
Lemma inv_run l : forall w w' k, inv w k -> ordinary l -> run w l = Some w' -> exists k', inv w' k' /\ still w w' k k'.
Proof.
  induction l as [|(p, ch) l IH]; intros w w' k I F E; cbn in E.
  - injection E as <-. exists k. split; [exact I|]. apply still_refl; reflexivity.
  - inversion_clear F as [|? ? F1 F2]. destruct (step w p ch) as [w1|] eqn:E1; [|discriminate E].
    destruct (inv_step _ _ _ _ _ I F1 E1) as (k1 & I1 & S1). destruct (IH _ _ _ I1 F2 E) as (k2 & I2 & S2).
    exists k2. split; [exact I2|]. eapply still_trans; eassumption.
Qed.
Lemma inv_nothing : inv nothing (fun _ => KOther).
Proof. split; cbn; try discriminate; auto; try constructor. Qed.

Lemma loaded_step w p ch w' : step w p ch = Some w' -> exists ms, loaded w' = loaded w ++ ms.
Proof.
  unfold step. intros E.
  assert (X : forall v, loaded v = loaded w -> exists ms, loaded v = loaded w ++ ms) by (intros v ->; exists []; rewrite app_nil_r; reflexivity).
  destruct ch, (at_ w p); try discriminate E; repeat match goal with E : match ?x with _ => _ end = Some _ |- _ => destruct x; try discriminate E end; injection E as <-;
    try (apply X; cbn; unfold touch, cut; repeat match goal with |- context [match ?x with _ => _ end] => destruct x end; reflexivity).
  cbn. eexists. reflexivity.
Qed.
Lemma loaded_run l : forall w w', run w l = Some w' -> exists ms, loaded w' = loaded w ++ ms.
Proof.
  induction l as [|(p, ch) l IH]; intros w w' E; cbn in E.
  - injection E as <-. exists []. rewrite app_nil_r. reflexivity.
  - destruct (step w p ch) as [w1|] eqn:E1; [|discriminate E]. destruct (loaded_step _ _ _ _ E1) as (m1 & M1). destruct (IH _ _ E) as (m2 & M2).
    exists (m1 ++ m2). rewrite M2, M1, app_assoc. reflexivity.
Qed.
Lemma run_app l1 : forall w l2, run w (l1 ++ l2) = match run w l1 with Some w' => run w' l2 | None => None end.
Proof. induction l1 as [|(p, ch) l1 IH]; intros w l2; cbn; [reflexivity|]. destruct (step w p ch); [apply IH|reflexivity]. Qed.

Lemma maps_stay l l' w w' m : ordinary l -> ordinary l' -> run nothing l = Some w -> In m (loaded w) -> run w l' = Some w' ->
  In m (loaded w') /\ seen w' m = seen w m.
Proof.
  intros O O' E Hm E'. destruct (inv_run _ _ _ _ inv_nothing O E) as (k & I & _). destruct (inv_run _ _ _ _ I O' E') as (k' & _ & _ & S). split.
  - destruct (loaded_run _ _ _ E') as (ms & ->). apply in_or_app. auto.
  - pose proof (i_loaded _ _ I) as L. rewrite Forall_forall in L. destruct (L m Hm) as ((C1 & C2) & (M1 & M2) & R1 & R2). unfold seen.
    rewrite (proj1 (S (m_centroids m) C2 ltac:(rewrite C1; exact Logic.I))), (proj1 (S (m_codes m) M2 ltac:(rewrite M1; exact Logic.I))), (proj1 (S (m_residuals m) R2 ltac:(rewrite R1; exact Logic.I))).
    reflexivity.
Qed.

(** ** What the maps show was written by someone, whole *)
Definition wrote (l : list (nat * choice)) (todo : list wop) : Prop := forall b, In (Replace Centroids b) todo -> a_centroids_file l b.
Definition stage_from (l : list (nat * choice)) (w : world) (s : stage) : Prop :=
  match s with
  | Write todo _ | Filling _ _ todo _ => wrote l todo
  | Merge0 c _ | Merge1 c _ _ | Merge2 c _ _ | Merge3 c _ _ _ _ | Merge4 c _ _ | Merge5 c _ _ | Map1 c => a_centroids_file l (data w c)
  | Map2 c m => a_centroids_file l (data w c) /\ a_merged_file l Codes (data w m)
  | _ => True
  end.
Record orig (l : list (nat * choice)) (w : world) : Prop := {
  o_cen : forall i, dir w Centroids = Some i -> a_centroids_file l (data w i);
  o_mer : forall a i, dir w (Merged a) = Some i -> a_merged_file l a (data w i);
  o_tmp : forall a i, dir w (Temp a) = Some i -> a_merged_file l a (meant w i);
  o_stage : forall p, stage_from l w (at_ w p);
  o_loaded : Forall (fun m => a_centroids_file l (data w (m_centroids m)) /\ a_merged_file l Codes (data w (m_codes m)) /\ a_merged_file l Residuals (data w (m_residuals m))) (loaded w) }.

Lemma cen_more l x b : a_centroids_file l b -> a_centroids_file (l ++ [x]) b.
Proof. intros (p & t & c & A & B). exists p, t, c. split; [apply in_or_app; auto|exact B]. Qed.
Lemma mer_more l x a b : a_merged_file l a b -> a_merged_file (l ++ [x]) a b.
Proof. intros (p & t & A & B). exists p, t. split; [apply in_or_app; auto|exact B]. Qed.

(** [w'] differs from [w] in nothing shown, except for names given to [new]. *)
Lemma orig_of l x w w' k k' p s : inv w k -> inv w' k' -> still w w' k k' -> orig l w ->
  at_ w' = upd (at_ w) p s -> loaded w' = loaded w -> stage_from (l ++ [x]) w' s ->
  (forall i, dir w' Centroids = Some i -> dir w Centroids = Some i \/ a_centroids_file (l ++ [x]) (data w' i)) ->
  (forall a i, dir w' (Merged a) = Some i -> dir w (Merged a) = Some i \/ a_merged_file (l ++ [x]) a (data w' i)) ->
  (forall a i, dir w' (Temp a) = Some i -> (dir w (Temp a) = Some i /\ meant w' i = meant w i) \/ a_merged_file (l ++ [x]) a (meant w' i)) ->
  orig (l ++ [x]) w'.
Proof.
  intros I I' (G & S) O A L P DC DM DT.
  assert (X : forall i, i < fresh w -> shown (k i) -> data w' i = data w i) by (intros i Hi Hs; apply (S i Hi Hs)).
  split.
  - intros i E. destruct (DC i E) as [E'|Y]; [|exact Y]. destruct (i_dir _ _ I _ _ E') as (Hi & Hk). rewrite X; [|exact Hi|rewrite Hk; exact Logic.I].
    apply cen_more. exact (o_cen _ _ O _ E').
  - intros a i E. destruct (DM a i E) as [E'|Y]; [|exact Y]. destruct (i_dir _ _ I _ _ E') as (Hi & Hk). rewrite X; [|exact Hi|rewrite Hk; exact Logic.I].
    apply mer_more. exact (o_mer _ _ O _ _ E').
  - intros a i E. destruct (DT a i E) as [(E' & ->)|Y]; [|exact Y]. apply mer_more. exact (o_tmp _ _ O _ _ E').
  - intros q. rewrite A. unfold upd. destruct (Nat.eqb_spec q p) as [->|N]; [exact P|].
    pose proof (o_stage _ _ O q) as Q. pose proof (i_stage _ _ I q) as K. unfold stage_from in *.
    assert (C : forall c, cen w k c -> a_centroids_file l (data w c) -> a_centroids_file (l ++ [x]) (data w' c)).
    { intros c (C1 & C2) C3. rewrite X; [apply cen_more; exact C3|exact C2|rewrite C1; exact Logic.I]. }
    destruct (at_ w q); cbn [stage_ok] in K; try exact Logic.I; try (intros b B; apply cen_more; exact (Q b B)); try (apply C; [apply K|exact Q]).
    destruct K as (K1 & K2 & K3), Q as (Q1 & Q2). split; [apply C; assumption|]. rewrite X; [apply mer_more; exact Q2|exact K3|rewrite K2; exact Logic.I].
  - rewrite L. apply Forall_forall. intros m Hm. pose proof (i_loaded _ _ I) as J. pose proof (o_loaded _ _ O) as Q. rewrite Forall_forall in J, Q.
    destruct (J m Hm) as ((C1 & C2) & (M1 & M2) & R1 & R2). destruct (Q m Hm) as (Q1 & Q2 & Q3).
    rewrite !X by (assumption || (rewrite C1; exact Logic.I) || (rewrite M1; exact Logic.I) || (rewrite R1; exact Logic.I)).
    split; [apply cen_more; exact Q1|split; apply mer_more; assumption].
Qed.
Lemma orig_step l w p ch w' k : inv w k -> orig l w -> fine (p, ch) -> step w p ch = Some w' -> orig (l ++ [(p, ch)]) w'.
Proof.
  intros I O F E. destruct (inv_step _ _ _ _ _ I F E) as (k' & I' & ST).
  pose proof (i_stage _ _ I p) as S. pose proof (o_stage _ _ O p) as Q. unfold step in E. unfold fine in F. cbn [snd] in F.
  assert (D : forall s v, at_ v = upd (at_ w) p s -> loaded v = loaded w -> dir v = dir w -> meant v = meant w -> inv v k' -> still w v k k' -> stage_from (l ++ [(p, ch)]) v s -> orig (l ++ [(p, ch)]) v).
  { intros s v V1 V2 V3 V4 V5 V6 V7. eapply orig_of with (p := p) (s := s) (w := w) (k := k) (k' := k'); try assumption; rewrite ?V3, ?V4; auto. }
  assert (TL : forall todo o, wrote l (o :: todo) -> wrote (l ++ [(p, ch)]) todo) by (intros todo o W b B; apply cen_more; apply W; right; exact B).
  assert (TW : forall todo, wrote l todo -> wrote (l ++ [(p, ch)]) todo) by (intros todo W b B; apply cen_more; apply W; exact B).
  assert (C : forall c, cen w k c -> a_centroids_file l (data w c) -> a_centroids_file (l ++ [(p, ch)]) (data w' c)).
  { intros c (C1 & C2) C3. rewrite (proj1 (proj2 ST c C2 ltac:(rewrite C1; exact Logic.I))). apply cen_more. exact C3. }
  assert (N : forall f b m s, w' = go (set_files w (name (dir w) f (Some (fresh w))) (upd (data w) (fresh w) b) (upd (meant w) (fresh w) m) (Datatypes.S (fresh w))) p s ->
     (f = Centroids -> a_centroids_file (l ++ [(p, ch)]) b) -> (forall a, f = Merged a -> False) -> (forall a, f = Temp a -> a_merged_file (l ++ [(p, ch)]) a m) ->
     stage_from (l ++ [(p, ch)]) w' s -> orig (l ++ [(p, ch)]) w').
  { intros f b m s -> N1 N2 N3 N4. eapply orig_of with (p := p) (s := s) (w := w) (k := k) (k' := k'); try assumption; try reflexivity; cbn [go set_files dir data meant]; unfold name.
    - intros i. destruct (file_eqb Centroids f) eqn:X; [|auto]. apply file_eqb_eq in X. intros Y. injection Y as <-. right. rewrite upd_same. auto.
    - intros a i. destruct (file_eqb (Merged a) f) eqn:X; [|auto]. apply file_eqb_eq in X. exfalso. exact (N2 a (eq_sym X)).
    - intros a i. destruct (file_eqb (Temp a) f) eqn:X.
      + apply file_eqb_eq in X. intros Y. injection Y as <-. right. rewrite upd_same. exact (N3 a (eq_sym X)).
      + intros Y. left. split; [exact Y|]. rewrite upd_other; [reflexivity|]. pose proof (dir_mem _ _ _ _ I Y). lia. }
  assert (R : forall f s, w' = go (remove w f) p s -> stage_from (l ++ [(p, ch)]) w' s -> orig (l ++ [(p, ch)]) w').
  { intros f s -> R2. eapply orig_of with (p := p) (s := s) (w := w) (k := k) (k' := k'); try assumption; try reflexivity; cbn [go remove set_files dir data meant]; unfold name.
    - intros i. destruct (file_eqb Centroids f); [discriminate|auto].
    - intros a i. destruct (file_eqb (Merged a) f); [discriminate|auto].
    - intros a i. destruct (file_eqb (Temp a) f); [discriminate|auto]. }
  assert (T : forall f s, (forall a, f <> Merged a) -> (forall a, f <> Temp a) -> f <> Centroids -> w' = go (touch w f) p s -> stage_from (l ++ [(p, ch)]) w' s -> orig (l ++ [(p, ch)]) w').
  { intros f s T1 T2 T3 T4 T5. unfold touch in T4. destruct (dir w f) eqn:X.
    - eapply D with (s := s); try (rewrite T4; reflexivity); eauto.
    - unfold replace in T4. eapply N; [exact T4|intros Y; contradiction (T3 Y)|intros a Y; exact (T1 a Y)|intros a Y; contradiction (T2 a Y)|exact T5]. }
  destruct ch as [|todo0 clear0| |a0 pieces0| | |b0].
  - destruct (at_ w p) as [|todo clear|i pieces todo clear| |x|x|x x'|x x' todo| |b|c a|c a x|c a x|c a x i pieces|c a x|c a x|c|c m] eqn:A; try discriminate E; cbn [stage_ok] in S; cbn [stage_from] in Q.
    + destruct todo as [|[f b|f pieces|f] todo]; injection E as <-.
      * eapply D; try assumption; try reflexivity. destruct clear; exact Logic.I.
      * inversion_clear S as [|? ? S1 S2]. eapply N; [reflexivity| | | |exact (TL _ _ Q)].
        -- intros ->. apply cen_more. apply Q. left. reflexivity.
        -- intros a ->. exact S1.
        -- intros a ->. contradiction S1.
      * inversion_clear S as [|? ? S1 S2]. destruct f; try contradiction S1. unfold cut, opened in *. destruct (dir w (Other n)) as [i|] eqn:X.
        -- destruct (i_dir _ _ I _ _ X) as (X1 & X2). eapply orig_of with (p := p) (w := w) (k := k) (k' := k'); try assumption; try reflexivity; try (cbn; intros; left; assumption).
           ++ exact (TL _ _ Q).
           ++ cbn. intros a j Y. left. split; [exact Y|]. destruct (i_dir _ _ I _ _ Y) as (_ & Y2). apply upd_other. intros ->. cbn in X2, Y2. congruence.
        -- eapply N; [reflexivity|intros; discriminate|intros; discriminate|intros; discriminate|exact (TL _ _ Q)].
      * eapply R; [reflexivity|exact (TL _ _ Q)].
    + destruct pieces as [|b pieces]; injection E as <-; (eapply D; [reflexivity|reflexivity|reflexivity|reflexivity|exact I'|exact ST|exact (TW _ Q)]).
    + injection E as <-. eapply (T (Lock Codes)); [intros; discriminate|intros; discriminate|intros; discriminate|reflexivity|exact Logic.I].
    + destruct (held w x); [discriminate E|]. injection E as <-. eapply D; try assumption; try reflexivity; exact Logic.I.
    + injection E as <-. eapply (T (Lock Residuals)); [intros; discriminate|intros; discriminate|intros; discriminate|reflexivity|exact Logic.I].
    + destruct (held w x'); [discriminate E|]. injection E as <-. eapply D; try assumption; try reflexivity; exact Logic.I.
    + destruct todo; injection E as <-; [eapply D; try assumption; try reflexivity; exact Logic.I|]. eapply R; [reflexivity|exact Logic.I].
    + destruct (dir w Centroids) as [c|] eqn:X; injection E as <-; eapply D; try assumption; try reflexivity; try exact Logic.I.
      destruct (i_dir _ _ I _ _ X). apply C; [split; assumption|]. exact (o_cen _ _ O _ X).
    + contradiction S.
    + injection E as <-. eapply (T (Lock a)); [intros; discriminate|intros; discriminate|intros; discriminate|reflexivity|]. apply C; assumption.
    + destruct (held w x); [discriminate E|]. injection E as <-. eapply D; try assumption; try reflexivity. apply C; [apply S|exact Q].
    + destruct S as (S1 & S2 & S3 & S4 & S5). destruct pieces as [|b pieces].
      * rewrite S4 in E. injection E as <-. eapply orig_of with (p := p) (w := w) (k := k) (k' := k'); try assumption; try reflexivity; cbn [go rename set_files dir data meant]; unfold name.
        -- apply C; assumption.
        -- cbn. auto.
        -- intros b i'. destruct (file_eqb (Merged b) (Temp a)); [discriminate|]. destruct (file_eqb (Merged b) (Merged a)) eqn:BA; [|auto]. apply file_eqb_eq in BA. injection BA as ->.
           intros Y. rewrite S4 in Y. injection Y as <-. right. cbn [concat] in S5. rewrite app_nil_r in S5. rewrite S5. apply mer_more. exact (o_tmp _ _ O _ _ S4).
        -- intros b i'. destruct (file_eqb (Temp b) (Temp a)); [discriminate|]. destruct (file_eqb (Temp b) (Merged a)) eqn:Z; [apply file_eqb_eq in Z; discriminate Z|auto].
      * injection E as <-. eapply D; try assumption; try reflexivity. apply C; assumption.
    + injection E as <-. eapply N; [reflexivity|intros; discriminate|intros; discriminate|intros; discriminate|]. apply C; [apply S|exact Q].
    + injection E as <-. eapply D; try assumption; try reflexivity. destruct a; apply C; (apply S || exact Q).
    + destruct (dir w (Merged Codes)) as [m|] eqn:X; injection E as <-; eapply D; try assumption; try reflexivity; try exact Logic.I.
      split; [apply C; assumption|]. apply mer_more. exact (o_mer _ _ O _ _ X).
    + destruct S as (S1 & S2 & S3), Q as (Q1 & Q2). destruct (dir w (Merged Residuals)) as [r|] eqn:X; injection E as <-.
      * assert (O1 : orig (l ++ [(p, Go)]) (go w p Idle)).
        { destruct (inv_go w k p Idle I Logic.I) as (J1 & J2). eapply orig_of with (p := p) (s := Idle); try reflexivity; eauto; exact Logic.I. }
        destruct O1 as [O1 O2 O3 O4 O5]. split; auto. cbn. apply Forall_app. split; [exact O5|]. constructor; [|constructor]. cbn.
        split; [apply cen_more; exact Q1|split; apply mer_more; [exact Q2|exact (o_mer _ _ O _ _ X)]].
      * eapply D; try assumption; try reflexivity; exact Logic.I.
  - destruct (at_ w p) eqn:A; try discriminate E. injection E as <-. eapply D; try assumption; try reflexivity.
    intros b B. exists p, todo0, clear0. split; [apply in_or_app; right; left; reflexivity|exact B].
  - destruct (at_ w p) eqn:A; try discriminate E. injection E as <-. eapply D; try assumption; try reflexivity; exact Logic.I.
  - destruct (at_ w p) eqn:A; try discriminate E. destruct (arr_eqb a0 a) eqn:AE; [|discriminate E]. assert (a0 = a) by (destruct a0, a; (reflexivity || discriminate AE)). subst a0.
    injection E as <-. cbn [stage_ok] in S. cbn [stage_from] in Q. destruct S as (S1 & S2).
    assert (M : a_merged_file (l ++ [(p, Rebuild a pieces0)]) a (concat pieces0)).
    { exists p, pieces0. split; [apply in_or_app; right; left; reflexivity|reflexivity]. }
    unfold cut, opened in *. destruct (dir w (Temp a)) as [i|] eqn:X.
    + eapply orig_of with (p := p) (w := w) (k := k) (k' := k'); try assumption; try reflexivity; try (cbn; intros; left; assumption).
      * apply C; assumption.
      * cbn. intros b j Y. destruct (Nat.eq_dec j i) as [->|NE]; [right; rewrite upd_same; destruct (i_dir _ _ I _ _ X) as (_ & X2), (i_dir _ _ I _ _ Y) as (_ & Y2); cbn in X2, Y2; replace b with a by congruence; exact M|left]. split; [exact Y|]. apply upd_other. exact NE.
    + eapply N; [reflexivity|intros; discriminate|intros; discriminate|intros b B; injection B as <-; exact M|]. apply C; assumption.
  - destruct (at_ w p) eqn:A; try discriminate E; injection E as <-; cbn [stage_ok] in S; cbn [stage_from] in Q.
    + eapply D; try assumption; try reflexivity. destruct a; apply C; assumption.
    + eapply D; try assumption; try reflexivity. apply C; [apply S|exact Q].
  - injection E as <-. eapply D with (s := Idle); try reflexivity; eauto; exact Logic.I.
  - contradiction F.
Qed.
Lemma orig_run l : forall w, ordinary l -> run nothing l = Some w -> orig l w.
Proof.
  induction l as [|(p, ch) l IH] using rev_ind; intros w O E.
  - injection E as <-. split; cbn; try discriminate; auto.
  - rewrite run_app in E. apply Forall_app in O. destruct O as (O1 & O2). destruct (run nothing l) as [w1|] eqn:E1; [|discriminate E].
    cbn in E. destruct (step w1 p ch) as [w2|] eqn:E2; [|discriminate E]. injection E as <-. inversion_clear O2.
    destruct (inv_run _ _ _ _ inv_nothing O1 E1) as (k & I & _). eapply orig_step; eauto.
Qed.
