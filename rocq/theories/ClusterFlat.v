(** Flat clusters are those of the tree. *)
From Verif Require Import Base Cluster ClusterSpec ClusterUF.
Open Scope nat_scope.

Record blocks_ok (n w : nat) (B : list block) : Prop := {
  bo_ids : NoDup (map fst B);
  bo_low : forall c ms, In (c, ms) B -> c < w;
  bo_all : Permutation (flat_map snd B) (seq 0 n);
  bo_some : forall c ms, In (c, ms) B -> ms <> []
}.
Lemma fst_unique (B : list block) c ms ms' : NoDup (map fst B) -> In (c, ms) B -> In (c, ms') B -> ms = ms'.
Proof.
  induction B as [|(d & l) B IH]; [intros _ []|]. intros N. inversion N as [|? ? NI N']; subst.
  intros [H|H] [H'|H']; try congruence; auto.
  - injection H as -> ->. exfalso. apply NI. apply (in_map fst) in H'. exact H'.
  - injection H' as -> ->. exfalso. apply NI. apply (in_map fst) in H. exact H.
Qed.
Lemma without_split (B : list block) a b ma mb : NoDup (map fst B) -> In (a, ma) B -> In (b, mb) B -> a <> b ->
  Permutation B ((a, ma) :: (b, mb) :: without a b B).
Proof.
  intros N HA HB NE.
  assert (NB : NoDup B) by (apply NoDup_map_inv in N; exact N).
  apply NoDup_Permutation; auto.
  - constructor; [|constructor].
    + intros [H|H]; [congruence|]. apply filter_In in H. cbn in H. lia.
    + intros H. apply filter_In in H. cbn in H. lia.
    + now apply NoDup_filter.
  - intros (c & ms). split.
    + intros H. destruct (Nat.eq_dec c a) as [->|N1]; [left; f_equal; eapply fst_unique; eauto|].
      destruct (Nat.eq_dec c b) as [->|N2]; [right; left; f_equal; eapply fst_unique; eauto|].
      right. right. apply filter_In. split; auto. cbn. lia.
    + intros [H|[H|H]]; [rewrite <- H; exact HA|rewrite <- H; exact HB|]. now apply filter_In in H.
Qed.
Lemma without_in (B : list block) a b c ms : In (c, ms) (without a b B) <-> In (c, ms) B /\ c <> a /\ c <> b.
Proof. unfold without. rewrite filter_In. cbn. split; intros (H & Q); split; auto; lia. Qed.
Lemma step_ok n w B a b ma mb : blocks_ok n w B -> In (a, ma) B -> In (b, mb) B -> a < b ->
  blocks_ok n (S w) ((w, ma ++ mb) :: without a b B) /\ S (length ((w, ma ++ mb) :: without a b B)) = length B.
Proof.
  intros [N L P M] HA HB NE.
  assert (SP : Permutation B ((a, ma) :: (b, mb) :: without a b B)) by (apply without_split; auto; lia).
  split; [|apply Permutation_length in SP; rewrite SP; reflexivity]. constructor.
  - cbn [map fst]. constructor.
    + intros H. apply in_map_iff in H. destruct H as ((c & ms) & E & H). cbn in E. subst c. apply without_in in H. destruct H as (H & _). apply L in H. lia.
    + apply (Permutation_map fst) in SP. cbn in SP. apply (Permutation_NoDup SP) in N. inversion N as [|? ? _ N']; inversion N'; auto.
  - intros c ms [H|H]; [injection H as <- _; lia|]. apply without_in in H. destruct H as (H & _). apply L in H. lia.
  - cbn [flat_map snd]. rewrite <- P. apply (Permutation_flat_map snd) in SP. cbn in SP. rewrite SP, app_assoc. reflexivity.
  - intros c ms [H|H]; [injection H as <- <-; intros E; apply app_eq_nil in E; destruct E as (E & _); now apply (M a ma)|].
    apply without_in in H. destruct H as (H & _). eauto.
Qed.
Lemma joined_ok {R} n B w (rows : list (joint R)) B' : joined B w rows B' -> blocks_ok n w B ->
  blocks_ok n (w + length rows) B' /\ length B' + length rows = length B.
Proof.
  induction 1 as [B w|B w a b ma mb d rows B' HA HB HN J IH]; intros O.
  - cbn. rewrite Nat.add_0_r. auto.
  - destruct (step_ok n w B a b ma mb O HA HB HN) as (O' & E).
    destruct (IH O') as (O'' & E'). cbn [length]. replace (w + S (length rows)) with (S w + length rows) by lia. split; auto.
    transitivity (S (length B' + length rows)); [lia|]. etransitivity; [exact (f_equal S E')|exact E].
Qed.
Lemma singletons_ok n : blocks_ok n n (singletons n).
Proof.
  unfold singletons. constructor.
  - rewrite map_map. cbn. rewrite map_id. apply seq_NoDup.
  - intros c ms H. apply in_map_iff in H. destruct H as (i & E & H). injection E as <- _. apply in_seq in H. lia.
  - rewrite flat_map_concat_map, map_map. cbn [snd].
    replace (concat (map (fun x => [x]) (seq 0 n))) with (seq 0 n); auto.
    generalize (seq 0 n). induction l; cbn; congruence.
  - intros c ms H. apply in_map_iff in H. destruct H as (i & E & H). injection E as _ <-. discriminate.
Qed.

Lemma unique_block n w B c ms c' ms' x : blocks_ok n w B -> In (c, ms) B -> In (c', ms') B -> In x ms -> In x ms' -> (c, ms) = (c', ms').
Proof.
  intros [_ _ P _] H H' X X'.
  assert (N : NoDup (flat_map snd B)) by (eapply Permutation_NoDup; [symmetry; exact P|apply seq_NoDup]).
  clear P. induction B as [|(d & l) B IH]; [destruct H|]. cbn [flat_map snd] in N.
  assert (NB : NoDup (flat_map snd B)).
  { clear - N. induction l as [|y l IHl]; auto. inversion N; auto. }
  assert (D : forall y, In y l -> ~ In y (flat_map snd B)).
  { clear - N. induction l as [|y l IHl]; [intros ? []|]. cbn in N. inversion N as [|? ? NI N']; subst.
    intros z [<-|Hz]; [intros Q; apply NI, in_app_iff; auto|now apply IHl]. }
  destruct H as [H|H], H' as [H'|H'].
  - congruence.
  - injection H as -> ->. exfalso. apply (D x X). apply in_flat_map. exists (c', ms'). auto.
  - injection H' as -> ->. exfalso. apply (D x X'). apply in_flat_map. exists (c, ms). auto.
  - auto.
Qed.
Lemma member_range n w B c ms x : blocks_ok n w B -> In (c, ms) B -> In x ms -> x < n.
Proof.
  intros [_ _ P _] H X. assert (I : In x (flat_map snd B)) by (apply in_flat_map; exists (c, ms); auto).
  apply (Permutation_in _ P) in I. apply in_seq in I. lia.
Qed.
Lemma together_in n w B a ma o x : blocks_ok n w B -> In (a, ma) B -> In o ma -> (together B x o <-> In x ma).
Proof.
  intros O H HO. split.
  - intros (c & ms & H' & X & Y). pose proof (unique_block _ _ _ _ _ _ _ _ O H H' HO Y) as E. congruence.
  - intros X. exists a, ma. auto.
Qed.

Lemma unite_spec {R} n (all extra : list (joint R)) : length all <= n - 1 -> forall B w todo B', joined B w todo B' ->
  forall done_ p rank, all = done_ ++ todo ++ extra -> w = n + length done_ -> blocks_ok n w B -> wf n (length done_) p rank ->
  (forall c ms, In (c, ms) B -> forall f, c + 1 - n <= f -> observation f all n c = Some (hd 0 ms)) ->
  (forall x y, x < n -> y < n -> (same p x y <-> together B x y)) ->
  exists p' rank', unite all n todo p rank = Some p' /\ wf n (length done_ + length todo) p' rank' /\
    forall x y, x < n -> y < n -> (same p' x y <-> together B' x y).
Proof.
  intros LA B w todo B' J. induction J as [B w|B w a b ma mb d rows B' HA HB HN J IH]; intros done_ p rank E Ew O W OB S.
  - exists p, rank. cbn. rewrite Nat.add_0_r. auto.
  - cbn [unite j_a j_b].
    assert (LEN : length all = length done_ + Datatypes.S (length rows) + length extra) by (rewrite E, !app_length; cbn [length]; lia).
    pose proof (bo_low _ _ _ O a ma HA) as LWa. pose proof (bo_low _ _ _ O b mb HB) as LWb.
    rewrite (OB a ma HA) by lia. rewrite (OB b mb HB) by lia.
    pose proof (bo_some _ _ _ O a ma HA) as Na. pose proof (bo_some _ _ _ O b mb HB) as Nb.
    assert (Ia : In (hd 0 ma) ma) by (destruct ma; [contradiction|left; reflexivity]).
    assert (Ib : In (hd 0 mb) mb) by (destruct mb; [contradiction|left; reflexivity]).
    pose proof (member_range _ _ _ _ _ _ O HA Ia) as Ra. pose proof (member_range _ _ _ _ _ _ O HB Ib) as Rb.
    destruct (union_spec n (length done_) p rank (hd 0 ma) (hd 0 mb) W) as (p1 & rank1 & E1 & W1 & S1); auto; [lia|]. rewrite E1.
    destruct (step_ok n w B a b ma mb O HA HB HN) as (O' & _).
    destruct (IH (done_ ++ [Joint a b d (length ma + length mb)]) p1 rank1) as (p' & rank' & E' & W' & S').
    + rewrite <- app_assoc. exact E.
    + rewrite app_length. cbn. lia.
    + exact O'.
    + rewrite app_length. cbn. rewrite Nat.add_1_r. exact W1.
    + intros c ms [H|H] f F.
      * injection H as <- <-. destruct f as [|f]; [lia|]. cbn [observation]. replace (w <? n) with false by lia.
        replace (w - n) with (length done_) by lia. rewrite E, nth_error_app2, Nat.sub_diag by lia. cbn [app nth_error j_a].
        change (done_ ++ Joint a b d (length ma + length mb) :: rows ++ extra) with (done_ ++ (Joint a b d (length ma + length mb) :: rows) ++ extra).
        rewrite <- E. rewrite (OB a ma HA) by lia. destruct ma; [contradiction|reflexivity].
      * apply without_in in H. destruct H as (H & _). now apply OB.
    + intros x y Hx Hy. rewrite S1 by assumption. rewrite S by assumption.
      rewrite !(S _ (hd 0 ma)), !(S _ (hd 0 mb)) by assumption.
      rewrite !(together_in n w B a ma (hd 0 ma)), !(together_in n w B b mb (hd 0 mb)) by assumption.
      split.
      * intros [(c & ms & H & X & Y)|[(X & Y)|(X & Y)]].
        -- destruct (Nat.eq_dec c a) as [->|NA].
           { exists w, (ma ++ mb). split; [now left|]. rewrite (fst_unique B a ms ma (bo_ids _ _ _ O) H HA) in X, Y.
             split; apply in_app_iff; auto. }
           destruct (Nat.eq_dec c b) as [->|NB].
           { exists w, (ma ++ mb). split; [now left|]. rewrite (fst_unique B b ms mb (bo_ids _ _ _ O) H HB) in X, Y.
             split; apply in_app_iff; auto. }
           exists c, ms. split; auto. right. apply without_in. auto.
        -- exists w, (ma ++ mb). split; [now left|]. split; apply in_app_iff; auto.
        -- exists w, (ma ++ mb). split; [now left|]. split; apply in_app_iff; auto.
      * intros (c & ms & [H|H] & X & Y).
        -- injection H as <- <-. apply in_app_iff in X, Y. destruct X as [X|X], Y as [Y|Y]; auto.
           ++ left. exists a, ma. auto.
           ++ left. exists b, mb. auto.
        -- apply without_in in H. left. exists c, ms. tauto.
    + exists p', rank'. split; [exact E'|]. split; [|exact S']. rewrite app_length in W'. cbn [length] in *.
      replace (length done_ + Datatypes.S (length rows)) with (length done_ + 1 + length rows) by lia. exact W'.
Qed.

(** Labels. *)
Lemma mem_in x l : mem x l = true <-> In x l.
Proof. unfold mem. rewrite existsb_exists. split; [intros (y & H & E); apply Nat.eqb_eq in E; now subst|intros H; exists x; split; auto; apply Nat.eqb_refl]. Qed.
Lemma position_app x l l' : In x l -> position x (l ++ l') = position x l.
Proof.
  induction l as [|y l IH]; [intros []|]. cbn. destruct (x =? y) eqn:E; auto. intros [H|H]; [subst; rewrite Nat.eqb_refl in E; discriminate|]. now rewrite IH.
Qed.
Lemma position_nth x l : In x l -> nth_error l (position x l) = Some x.
Proof.
  induction l as [|y l IH]; [intros []|]. cbn. destruct (x =? y) eqn:E; [apply Nat.eqb_eq in E; now subst|].
  intros [H|H]; [subst; rewrite Nat.eqb_refl in E; discriminate|]. now apply IH.
Qed.
Lemma position_of_nth x l i : NoDup l -> nth_error l i = Some x -> position x l = i.
Proof.
  intros N H. assert (I : In x l) by (eapply nth_error_In; eauto).
  apply (proj1 (NoDup_nth_error l) N).
  - apply nth_error_Some. rewrite position_nth by assumption. discriminate.
  - rewrite position_nth by assumption. auto.
Qed.
Lemma label_spec n m rank p0 : wf n m p0 rank -> m < n -> forall todo p seen, (forall i, In i todo -> i < n) ->
  wf n m p rank -> equiv p0 p -> NoDup seen ->
  exists ls new, label_loop n todo p seen = Some ls /\ NoDup (seen ++ new) /\
    Forall2 (fun i l => exists r, leads p0 i r /\ In r (seen ++ new) /\ l = S (position r (seen ++ new))) todo ls /\
    (forall r, In r new -> exists i, In i todo /\ leads p0 i r).
Proof.
  intros W0 M. induction todo as [|i todo IH]; intros p seen Hn W Q N.
  - exists [], []. rewrite app_nil_r. cbn. repeat split; auto. intros r [].
  - cbn [label_loop]. destruct (find_spec n m p rank n i W) as (p' & r & E & L & W' & Q'); [apply Hn; now left|lia|]. rewrite E.
    assert (L0 : leads p0 i r) by now apply Q.
    assert (QQ : equiv p0 p'). { intros a b. rewrite (Q a b). apply Q'. }
    destruct (mem r seen) eqn:MR.
    + apply mem_in in MR.
      destruct (IH p' seen) as (ls & new & E1 & N1 & F & I); auto; [intros; apply Hn; now right|]. rewrite E1.
      exists (S (position r seen) :: ls), new. split; [reflexivity|]. split; [auto|]. split.
      * constructor; auto. exists r. split; auto. split; [apply in_app_iff; auto|]. now rewrite position_app.
      * intros r' Hr. destruct (I r' Hr) as (x & A & Bx). exists x. split; auto. now right.
    + assert (NR : ~ In r seen) by (intros H; apply mem_in in H; congruence).
      destruct (IH p' (seen ++ [r])) as (ls & new & E1 & N1 & F & I); auto; [intros; apply Hn; now right| |].
      { apply (Permutation_NoDup (Permutation_cons_append seen r)). now constructor. }
      rewrite E1. exists (S (position r (seen ++ [r])) :: ls), (r :: new).
      rewrite <- app_assoc in N1, F. cbn [app] in N1, F. split; [reflexivity|]. split; [exact N1|]. split.
      * constructor; auto. exists r. split; auto. split; [apply in_app_iff; right; now left|].
        f_equal. change (r :: new) with ([r] ++ new). rewrite app_assoc. symmetry. apply position_app. apply in_app_iff. right. now left.
      * intros r' [<-|Hr]; [exists i; split; auto; now left|]. destruct (I r' Hr) as (x & A & Bx). exists x. split; auto. now right.
Qed.

Lemma Forall2_nth {A B} (P : A -> B -> Prop) l l' : Forall2 P l l' -> forall i x, nth_error l i = Some x -> exists y, nth_error l' i = Some y /\ P x y.
Proof.
  induction 1 as [|a b l l' H F IH]; intros i x E; [destruct i; discriminate|].
  destruct i; cbn in *; [injection E as <-; eauto|eauto].
Qed.
Lemma Forall2_len {A B} (P : A -> B -> Prop) l l' : Forall2 P l l' -> length l = length l'.
Proof. induction 1; cbn; auto. Qed.
Lemma seq_nth_error n i : i < n -> nth_error (seq 0 n) i = Some i.
Proof. intros H. rewrite (nth_error_nth' _ 0) by now rewrite seq_length. now rewrite seq_nth. Qed.

Lemma repeat_nth n x : nth x (repeat 0 n) 0 = 0.
Proof. revert x. induction n; intros [|x]; cbn; auto. Qed.
Lemma start_wf n : wf n 0 (seq 0 n) (repeat 0 n).
Proof.
  assert (E : forall x y, nth_error (seq 0 n) x = Some y -> x = y /\ x < n).
  { intros x y H. assert (L : x < n) by (rewrite <- (seq_length n 0); apply nth_error_Some; congruence).
    rewrite seq_nth_error in H by assumption. injection H as <-. auto. }
  constructor.
  - apply seq_length.
  - apply repeat_length.
  - intros x y H. apply E in H. lia.
  - intros x y H. apply E in H. lia.
  - intros x. rewrite repeat_nth. lia.
Qed.
Lemma start_same n x y : x < n -> y < n -> (same (seq 0 n) x y <-> together (singletons n) x y).
Proof.
  intros Hx Hy. assert (R : forall z, z < n -> leads (seq 0 n) z z) by (intros z Hz; constructor; now apply seq_nth_error).
  split.
  - intros (r & A & B). rewrite <- (leads_fun _ _ _ (R x Hx) _ A) in B. rewrite <- (leads_fun _ _ _ (R y Hy) _ B).
    exists y, [y]. split; [apply in_map_iff; exists y; split; auto; apply in_seq; lia|cbn; auto].
  - intros (c & ms & H & X & Y). apply in_map_iff in H. destruct H as (i & E & H). injection E as <- <-.
    destruct X as [<-|[]], Y as [<-|[]]. exists i. auto.
Qed.

Lemma flat_spec {R} n (rows : list (joint R)) count B : 1 <= n -> length rows <= n - 1 -> count <= length rows ->
  joined (singletons n) n (firstn count rows) B ->
  length B = n - count /\ exists ls, flat_clusters rows n count = Ok ls /\ labels n (n - count) B ls.
Proof.
  intros N1 LR LC J.
  assert (LF : length (firstn count rows) = count) by (rewrite firstn_length; lia).
  destruct (joined_ok n _ _ _ _ J (singletons_ok n)) as (O & LB).
  unfold singletons in LB at 1. rewrite map_length, seq_length, LF in LB.
  split; [lia|]. unfold flat_clusters. replace (length rows <? count) with false by lia.
  destruct (unite_spec n rows (skipn count rows) LR _ _ _ _ J [] (seq 0 n) (repeat 0 n)) as (p & rank & E & W & S0).
  - cbn. symmetry. apply firstn_skipn.
  - cbn. lia.
  - apply singletons_ok.
  - apply start_wf.
  - intros c ms H f F. apply in_map_iff in H. destruct H as (i & Ei & H). injection Ei as <- <-. apply in_seq in H.
    destruct f; cbn [observation]; replace (i <? n) with true by lia; reflexivity.
  - intros x y Hx Hy. now apply start_same.
  - rewrite E. cbn [length] in W. rewrite LF in W. cbn [Nat.add] in W.
    destruct (label_spec n count rank p W ltac:(lia) (seq 0 n) p []) as (ls & S1 & EL & ND & F & I); auto; [intros i Hi; apply in_seq in Hi; lia|split; auto|constructor|].
    rewrite EL. cbn [app] in ND, F. exists ls. split; [reflexivity|].
    pose proof (Forall2_len _ _ _ F) as LL. rewrite seq_length in LL.
    assert (NT : forall x, x < n -> exists r, leads p x r /\ In r S1 /\ nth x ls 0 = S (position r S1)).
    { intros x Hx. destruct (Forall2_nth _ _ _ F x x (seq_nth_error n x Hx)) as (l & El & r & L & Hr & ->).
      exists r. repeat split; auto. now apply nth_error_nth. }
    assert (LS : length S1 = n - count).
    { (* roots and clusters correspond *)
      assert (RB : forall c ms, In (c, ms) B -> exists r, leads p (hd 0 ms) r).
      { intros c ms H. apply (wf_total _ _ _ _ W). eapply member_range; [exact O|exact H|].
        pose proof (bo_some _ _ _ O c ms H). destruct ms; [contradiction|now left]. }
      assert (G : exists rs, Forall2 (fun e r => leads p (hd 0 (snd e)) r) B rs).
      { clear - RB. induction B as [|(c & ms) B IH]; [exists []; constructor|].
        destruct IH as (rs & H); [intros c' ms' H'; apply (RB c' ms'); now right|].
        destruct (RB c ms (or_introl eq_refl)) as (r & L). exists (r :: rs). constructor; auto. }
      destruct G as (rs & G). pose proof (Forall2_len _ _ _ G) as LG.
      assert (HD : forall c ms, In (c, ms) B -> In (hd 0 ms) ms).
      { intros c ms H. pose proof (bo_some _ _ _ O c ms H). destruct ms; [contradiction|now left]. }
      assert (NR : NoDup rs).
      { apply NoDup_nth_error. intros i j Hi Ej.
        destruct (nth_error rs i) as [r|] eqn:Er; [|apply nth_error_None in Er; lia].
        destruct (nth_error B i) as [(ci & mi)|] eqn:Bi; [|apply nth_error_None in Bi; lia].
        assert (Hj : j < length B) by (rewrite LG; apply nth_error_Some; congruence).
        destruct (nth_error B j) as [(cj & mj)|] eqn:Bj; [|apply nth_error_None in Bj; lia].
        destruct (Forall2_nth _ _ _ G _ _ Bi) as (r1 & A1 & L1). destruct (Forall2_nth _ _ _ G _ _ Bj) as (r2 & A2 & L2).
        cbn [snd] in L1, L2. apply nth_error_In in Bi as Ii. apply nth_error_In in Bj as Ij.
        assert (T : together B (hd 0 mi) (hd 0 mj)).
        { apply S0; [eapply member_range; [exact O|exact Ii|eauto]|eapply member_range; [exact O|exact Ij|eauto]|].
          exists r. split; congruence. }
        destruct T as (c & ms & Hc & X & Y).
        pose proof (unique_block _ _ _ _ _ _ _ _ O Ii Hc (HD _ _ Ii) X) as E1.
        pose proof (unique_block _ _ _ _ _ _ _ _ O Ij Hc (HD _ _ Ij) Y) as E2.
        assert (NB : NoDup (map fst B)) by apply O.
        apply (proj1 (NoDup_nth_error (map fst B)) NB); [rewrite map_length; lia|].
        rewrite !nth_error_map, Bi, Bj. cbn. congruence. }
      assert (P : Permutation rs S1).
      { apply NoDup_Permutation; auto. intros r. split.
        - intros Hr. apply In_nth_error in Hr. destruct Hr as (i & Hr).
          assert (Hi : i < length B) by (rewrite LG; apply nth_error_Some; congruence).
          destruct (nth_error B i) as [(c & ms)|] eqn:Bi; [|apply nth_error_None in Bi; lia].
          destruct (Forall2_nth _ _ _ G _ _ Bi) as (r1 & A1 & L1). apply nth_error_In in Bi as Ii.
          destruct (NT (hd 0 ms)) as (r2 & L2 & I2 & _); [eapply member_range; [exact O|exact Ii|eauto]|].
          cbn in L1. replace r with r2; auto. rewrite (leads_fun _ _ _ L2 _ L1). congruence.
        - intros Hr. destruct (I r Hr) as (x & Hx & Lx). apply in_seq in Hx.
          assert (Hin : In x (flat_map snd B)) by (apply (Permutation_in _ (Permutation_sym (bo_all _ _ _ O))), in_seq; lia).
          apply in_flat_map in Hin. destruct Hin as ((c & ms) & Hc & X). cbn in X.
          apply In_nth_error in Hc as Hi. destruct Hi as (i & Bi).
          destruct (Forall2_nth _ _ _ G _ _ Bi) as (r1 & A1 & L1). cbn in L1.
          assert (SM : same p (hd 0 ms) x).
          { apply S0; [eapply member_range; [exact O|exact Hc|eauto]|lia|]. exists c, ms. eauto. }
          destruct SM as (r2 & X1 & X2). replace r with r1; [eapply nth_error_In; eauto|].
          rewrite (leads_fun _ _ _ L1 _ X1). apply (leads_fun _ _ _ X2 _ Lx). }
      apply Permutation_length in P. lia. }
    split; [lia|]. split.
    + intros x y Hx Hy. destruct (NT x Hx) as (r & Lx & Ix & ->). destruct (NT y Hy) as (r' & Ly & Iy & ->).
      rewrite <- S0 by assumption. split.
      * intros [= Q]. assert (r = r').
        { pose proof (position_nth r S1 Ix) as A. pose proof (position_nth r' S1 Iy) as A'. rewrite Q in A. congruence. }
        subst r'. exists r. auto.
      * intros (s & A & A'). rewrite (leads_fun _ _ _ Lx _ A), (leads_fun _ _ _ Ly _ A'). reflexivity.
    + intros l. split.
      * intros H. apply In_nth with (d := 0) in H. destruct H as (x & Hx & <-). rewrite <- LL in Hx.
        destruct (NT x Hx) as (r & _ & Ir & ->). pose proof (position_nth r S1 Ir) as A.
        assert (position r S1 < length S1) by (apply nth_error_Some; congruence). lia.
      * intros Hl. destruct (nth_error S1 (l - 1)) as [r|] eqn:Er; [|apply nth_error_None in Er; lia].
        destruct (I r (nth_error_In _ _ Er)) as (x & Hx & Lx). apply in_seq in Hx.
        destruct (NT x ltac:(lia)) as (r' & Lx' & Ir & Ex).
        replace l with (nth x ls 0); [apply nth_In; lia|]. rewrite Ex.
        rewrite (leads_fun _ _ _ Lx' _ Lx). rewrite (position_of_nth r S1 (l - 1)); auto. lia.
Qed.
Lemma joined_prefix {R} (rows : list (joint R)) : forall B w B' count, joined B w rows B' -> exists B1, joined B w (firstn count rows) B1.
Proof.
  induction rows as [|r rows IH]; intros B w B' count J.
  - rewrite firstn_nil. exists B. constructor.
  - destruct count as [|count]; [exists B; constructor|]. inversion J; subst. cbn [firstn].
    match goal with H : joined _ _ rows _ |- _ => destruct (IH _ _ _ count H) as (B1 & J1) end.
    exists B1. econstructor; eauto.
Qed.
