(** The pieces between the units of a source file. *)
From Verif Require Import Base Text Calendar FtsText Units Parse ParseSpec ParseProofs.
From Coq Require Import Sorted.
Open Scope nat_scope.

Lemma fill_range_ok a b v : a <= S b -> S b <= length v ->
  exists v', fill_range a b v = Ok v' /\ length v' = length v /\ forall k, nth k v' false = (((a <=? k) && (k <=? b)) || nth k v false).
Proof.
  intros H1 H2. unfold fill_range. replace ((a <=? S b) && (S b <=? length v)) with true by (symmetry; apply andb_true_iff; split; apply Nat.leb_le; lia).
  eexists. split; [reflexivity|]. split; [rewrite !app_length, firstn_length, repeat_length, skipn_length; lia|]. intro k.
  assert (L1 : length (firstn a v) = a) by (rewrite firstn_length; lia).
  destruct (Nat.ltb k a) eqn:Ka; [apply Nat.ltb_lt in Ka|apply Nat.ltb_ge in Ka].
  - rewrite app_nth1 by lia. replace (a <=? k) with false by (symmetry; apply Nat.leb_gt; lia). cbn [andb orb].
    rewrite <- (firstn_skipn a v) at 2. rewrite app_nth1 by lia. reflexivity.
  - rewrite app_nth2 by lia. rewrite L1. replace (a <=? k) with true by (symmetry; apply Nat.leb_le; lia). cbn [andb].
    destruct (Nat.leb k b) eqn:Kb; [apply Nat.leb_le in Kb|apply Nat.leb_gt in Kb].
    + rewrite app_nth1 by (rewrite repeat_length; lia). cbn [orb]. apply nth_error_nth. rewrite nth_error_repeat by lia. reflexivity.
    + rewrite app_nth2 by (rewrite repeat_length; lia). rewrite repeat_length. cbn [orb].
      rewrite <- (firstn_skipn (S b) v) at 2. rewrite app_nth2 by (rewrite firstn_length; lia). rewrite firstn_length. f_equal. lia.
Qed.
Lemma marks_ok total units : Forall (fun u => 1 <= cu_line u <= cu_end_line u) units -> forall v, length v = total + 1 ->
  exists v', foldM (mark total) units v = Ok v' /\ length v' = total + 1
    /\ forall k, k <= total -> (nth k v' false = true <-> nth k v false = true \/ exists u, In u units /\ has_line u k).
Proof.
  induction 1 as [|u units (Hu1 & Hu2) _ IH]; intros v Lv; cbn [foldM].
  - exists v. split; [reflexivity|]. split; [exact Lv|]. intros k _. split; [auto|]. intros [H|(u & [] & _)]; exact H.
  - unfold mark at 1. destruct (cu_line u <=? total) eqn:Lt; [apply Nat.leb_le in Lt|apply Nat.leb_gt in Lt].
    + destruct (fill_range_ok (cu_line u) (Nat.min (cu_end_line u) total) v) as (v1 & -> & L1 & N1); [lia|lia|]. cbn [bind].
      destruct (IH v1) as (v2 & -> & L2 & N2); [lia|]. exists v2. split; [reflexivity|]. split; [exact L2|]. intros k Hk. rewrite (N2 k Hk), N1. unfold has_line. split.
      * intros [H|(x & Hx & Hl)]; [|right; exists x; split; [right; exact Hx|exact Hl]]. apply orb_prop in H. destruct H as [H|H]; [|left; exact H].
        apply andb_prop in H. destruct H as (Ha & Hb). apply Nat.leb_le in Ha, Hb. right. exists u. split; [left; reflexivity|lia].
      * intros [H|(x & [<-|Hx] & Hl)]; [left; rewrite H; apply Bool.orb_true_r| |right; exists x; split; assumption].
        left. apply orb_true_iff. left. apply andb_true_iff. split; apply Nat.leb_le; lia.
    + cbn [bind]. destruct (IH v Lv) as (v2 & -> & L2 & N2). exists v2. split; [reflexivity|]. split; [exact L2|]. intros k Hk. rewrite (N2 k Hk). unfold has_line. split.
      * intros [H|(x & Hx & Hl)]; [left; exact H|right; exists x; split; [right; exact Hx|exact Hl]].
      * intros [H|(x & [<-|Hx] & Hl)]; [left; exact H|lia|right; exists x; split; assumption].
Qed.

Section GAPS.
  Variable U : unicode.
  Variable path : text.
  Variable ls : list text.
  Variable lang : text.
  Variable imports : list text.
  Variable cov : list bool.
  Notation total := (length ls).
  Definition nb (k : nat) : Prop := 1 <= k <= total /\ is_blank U (nth (k - 1) ls []) = false.
  Definition cv (k : nat) : bool := nth k cov false.
  Definition raw_unit (ab : nat * nat) : code_unit :=
    let '(a, b) := ab in
    let name := txt "raw_code_" ++ digits (Z.of_nat a) in
    plain_unit path name (path ++ txt "::" ++ name) a b lang (txt "rawcode") (first_signature U (lines_of a b ls)) (join_lines (lines_of a b ls)) imports.
  Definition good (ab : nat * nat) : Prop :=
    nb (fst ab) /\ nb (snd ab) /\ fst ab <= snd ab /\ forall k, fst ab <= k <= snd ab -> cv k = false.
  Lemma nth_lines_of a b k : a <= k <= b -> 1 <= a -> k <= total -> nth (k - a) (lines_of a b ls) [] = nth (k - 1) ls [] /\ k - a < length (lines_of a b ls).
  Proof using.
    intros H H1 H2. unfold lines_of. assert (L : k - a < length (firstn (b - (a - 1)) (skipn (a - 1) ls))) by (rewrite firstn_length, skipn_length; lia). split; [|exact L].
    rewrite <- (firstn_skipn (a - 1) ls) at 2. rewrite app_nth2 by (rewrite firstn_length; lia). rewrite firstn_length.
    rewrite <- (firstn_skipn (b - (a - 1)) (skipn (a - 1) ls)) at 2. rewrite app_nth1 by (rewrite firstn_length, skipn_length; lia). f_equal. lia.
  Qed.
  Lemma raw_some ab : good ab -> create_raw_code_unit U path ls lang imports (fst ab) (snd ab) = Some (raw_unit ab).
  Proof using.
    destruct ab as (a, b). intros (((A1 & A2) & A3) & ((B1 & B2) & _) & AB & _). cbn [fst snd] in *. unfold create_raw_code_unit.
    replace ((a - 1 <=? b) && (b <=? total)) with true by (symmetry; apply andb_true_iff; split; apply Nat.leb_le; lia).
    change (firstn (b - (a - 1)) (skipn (a - 1) ls)) with (lines_of a b ls).
    replace (forallb (is_blank U) (lines_of a b ls)) with false; [reflexivity|]. symmetry.
    destruct (forallb (is_blank U) (lines_of a b ls)) eqn:F; [|reflexivity]. rewrite forallb_forall in F.
    destruct (nth_lines_of a b a) as (N1 & N2); [lia|lia|lia|]. rewrite <- N1 in A3. rewrite F in A3; [discriminate|]. apply nth_In. exact N2.
  Qed.
  Definition follows (i j : nat * nat) : Prop := exists k, snd i < k < fst j /\ cv k = true.
  Definition inv (m : nat) (st : list code_unit * (option nat * option nat)) : Prop :=
    exists l, fst st = map raw_unit l /\ Forall good l /\ StronglySorted follows l
      /\ Forall (fun i => snd i <= m /\ exists k, snd i < k <= m /\ cv k = true) l
      /\ ((snd st = (None, None) /\ forall k, 1 <= k <= m -> nb k -> cv k = true \/ exists i, In i l /\ fst i <= k <= snd i)
          \/ exists a b, snd st = (Some a, Some b) /\ good (a, b) /\ b <= m /\ (forall k, a <= k <= m -> cv k = false)
               /\ forall k, 1 <= k <= m -> nb k -> cv k = true \/ a <= k <= b \/ exists i, In i l /\ fst i <= k <= snd i).
  Definition item (m : nat) : nat * (text * bool) := (S m, (nth m ls [], cv (S m))).
  Lemma sorted_snoc {A} (R : A -> A -> Prop) l x : StronglySorted R l -> Forall (fun y => R y x) l -> StronglySorted R (l ++ [x]).
  Proof using.
    clear. induction 1 as [|y l S IH F]; intro H; cbn; [constructor; constructor|]. inversion H; subst. constructor; [apply IH; assumption|]. apply Forall_app. split; [exact F|constructor; [assumption|constructor]].
  Qed.
  Lemma steps m : m <= total -> inv m (fold_left (gap_step U path ls lang imports) (map item (seq 0 m)) ([], (None, None))).
  Proof using.
    induction m as [|m IH]; intro Hm.
    - exists []. cbn. split; [reflexivity|]. split; [constructor|]. split; [constructor|]. split; [constructor|]. left. split; [reflexivity|]. intros k Hk. lia.
    - rewrite seq_S, map_app, fold_left_app. cbn [map fold_left plus]. specialize (IH ltac:(lia)).
      destruct (fold_left (gap_step U path ls lang imports) (map item (seq 0 m)) ([], (None, None))) as (raw, (s, e)).
      destruct IH as (l & R & GL & SL & BL & C). cbn [fst snd] in *. unfold gap_step, item.
      assert (BL' : Forall (fun i => snd i <= S m /\ exists k, snd i < k <= S m /\ cv k = true) l).
      { eapply Forall_impl; [|exact BL]. intros i (H1 & k & H2 & H3). split; [lia|]. exists k. split; [lia|exact H3]. }
      destruct (cv (S m)) eqn:Cv.
      + destruct C as [(Q & Cov)|(a & b & Q & Gd & Hb & Un & Cov)]; injection Q as -> ->; cbn [close_gap].
        * exists l. cbn [fst snd]. rewrite app_nil_r. repeat split; auto. left. split; [reflexivity|]. intros k Hk Nk. destruct (Nat.eq_dec k (S m)) as [->|Ne]; [left; exact Cv|]. apply Cov; [lia|exact Nk].
        * pose proof (raw_some (a, b) Gd) as RS; cbn [fst snd] in RS; rewrite RS; clear RS. exists (l ++ [(a, b)]). cbn [fst snd]. split; [rewrite R, map_app; reflexivity|].
          split; [apply Forall_app; split; [exact GL|constructor; [exact Gd|constructor]]|]. split; [|split].
          -- apply sorted_snoc; [exact SL|]. eapply Forall_impl; [|exact BL]. intros i (H1 & k & H2 & H3). exists k. cbn [fst]. split; [|exact H3]. split; [lia|].
             destruct (Nat.lt_ge_cases k a) as [Lt|Ge]; [exact Lt|]. rewrite (Un k) in H3 by lia. discriminate.
          -- apply Forall_app. split; [exact BL'|]. constructor; [|constructor]. cbn [snd]. split; [lia|]. exists (S m). split; [lia|exact Cv].
          -- left. split; [reflexivity|]. intros k Hk Nk. destruct (Nat.eq_dec k (S m)) as [->|Ne]; [left; exact Cv|]. destruct (Cov k) as [H|[H|(i & Hi & H)]]; [lia|exact Nk|left; exact H| |].
             ++ right. exists (a, b). split; [apply in_or_app; right; left; reflexivity|exact H].
             ++ right. exists i. split; [apply in_or_app; left; exact Hi|exact H].
      + destruct (is_blank U (nth m ls [])) eqn:Bl; cbn [negb].
        * exists l. cbn [fst snd]. repeat split; auto. destruct C as [(Q & Cov)|(a & b & Q & Gd & Hb & Un & Cov)].
          -- left. split; [exact Q|]. intros k Hk Nk. destruct (Nat.eq_dec k (S m)) as [->|Ne]; [|apply Cov; [lia|exact Nk]]. destruct Nk as (_ & Nk). replace (S m - 1) with m in Nk by lia. congruence.
          -- right. exists a, b. split; [exact Q|]. split; [exact Gd|]. split; [lia|]. split.
             ++ intros k Hk. destruct (Nat.eq_dec k (S m)) as [->|Ne]; [exact Cv|]. apply Un. lia.
             ++ intros k Hk Nk. destruct (Nat.eq_dec k (S m)) as [->|Ne]; [|apply Cov; [lia|exact Nk]]. destruct Nk as (_ & Nk). replace (S m - 1) with m in Nk by lia. congruence.
        * assert (Nm : nb (S m)) by (split; [lia|replace (S m - 1) with m by lia; exact Bl]).
          exists l. cbn [fst snd]. repeat split; auto. right. destruct C as [(Q & Cov)|(a & b & Q & Gd & Hb & Un & Cov)]; injection Q as -> ->.
          -- exists (S m), (S m). split; [reflexivity|]. split; [|split; [lia|split]].
             ++ split; [exact Nm|]. split; [exact Nm|]. cbn [fst snd]. split; [lia|]. intros k Hk. replace k with (S m) by lia. exact Cv.
             ++ intros k Hk. replace k with (S m) by lia. exact Cv.
             ++ intros k Hk Nk. destruct (Nat.eq_dec k (S m)) as [->|Ne]; [right; left; lia|]. destruct (Cov k) as [H|H]; [lia|exact Nk|left; exact H|right; right; exact H].
          -- exists a, (S m). split; [reflexivity|]. destruct Gd as (G1 & G2 & G3 & G4). cbn [fst snd] in *. split; [|split; [lia|split]].
             ++ split; [exact G1|]. split; [exact Nm|]. cbn [fst snd]. split; [lia|]. intros k Hk. destruct (Nat.eq_dec k (S m)) as [->|Ne]; [exact Cv|]. apply Un. lia.
             ++ intros k Hk. destruct (Nat.eq_dec k (S m)) as [->|Ne]; [exact Cv|]. apply Un. lia.
             ++ intros k Hk Nk. destruct (Nat.eq_dec k (S m)) as [->|Ne]; [right; left; lia|]. destruct (Cov k) as [H|[H|H]]; [lia|exact Nk|left; exact H|right; left; lia|right; right; exact H].
  Qed.
  Hypothesis LC : length cov = total + 1.
  Lemma items_eq : combine (seq 1 total) (combine ls (tl cov)) = map item (seq 0 total).
  Proof using LC.
    assert (LT : length (tl cov) = length cov - 1) by (clear; destruct cov as [|c0 r0]; [reflexivity|cbn [tl length]; lia]). rewrite LC in LT.
    apply nth_ext with (d := (0, ([], false))) (d' := (0, ([], false))); [rewrite !combine_length, map_length, !seq_length; lia|]. intros n Hn.
    rewrite combine_length, seq_length, combine_length in Hn.
    rewrite combine_nth by (rewrite seq_length, combine_length; lia). rewrite combine_nth by (rewrite LT, Nat.add_sub; reflexivity). rewrite seq_nth by lia.
    rewrite (nth_indep _ _ (item 0)) by (rewrite map_length, seq_length; lia). rewrite map_nth, seq_nth by lia. unfold item, cv. cbn [plus]. do 2 f_equal.
    clear. destruct cov as [|c r]; [destruct n; reflexivity|]. reflexivity.
  Qed.
  Lemma all_gaps : exists l, (let '(raw, gap) := fold_left (gap_step U path ls lang imports) (combine (seq 1 total) (combine ls (tl cov))) ([], (None, None)) in
      raw ++ close_gap U path ls lang imports gap) = map raw_unit l
    /\ Forall good l /\ StronglySorted follows l /\ forall k, nb k -> cv k = true \/ exists i, In i l /\ fst i <= k <= snd i.
  Proof using LC.
    rewrite items_eq. pose proof (steps total (le_n _)) as I. destruct (fold_left _ _ _) as (raw, (s, e)). destruct I as (l & R & GL & SL & BL & C). cbn [fst snd] in *.
    destruct C as [(Q & Cov)|(a & b & Q & Gd & Hb & Un & Cov)]; injection Q as -> ->; cbn [close_gap].
    - exists l. rewrite app_nil_r. repeat split; auto. intros k Nk. apply Cov; [apply Nk|exact Nk].
    - pose proof (raw_some (a, b) Gd) as RS; cbn [fst snd] in RS; rewrite RS; clear RS. exists (l ++ [(a, b)]). split; [rewrite R, map_app; reflexivity|]. split; [apply Forall_app; split; [exact GL|constructor; [exact Gd|constructor]]|]. split.
      + apply sorted_snoc; [exact SL|]. eapply Forall_impl; [|exact BL]. intros i (H1 & k & H2 & H3). exists k. cbn [fst]. split; [|exact H3]. split; [lia|].
        destruct (Nat.lt_ge_cases k a) as [Lt|Ge]; [exact Lt|]. rewrite (Un k) in H3 by lia. discriminate.
      + intros k Nk. destruct (Cov k) as [H|[H|(i & Hi & H)]]; [apply Nk|exact Nk|left; exact H| |].
        * right. exists (a, b). split; [apply in_or_app; right; left; reflexivity|exact H].
        * right. exists i. split; [apply in_or_app; left; exact Hi|exact H].
  Qed.
End GAPS.

Lemma nb_iff U ls k : nb U ls k <-> says_something U ls k.
Proof.
  unfold nb, says_something. split.
  - intros ((H1 & H2) & B). split; [exact H1|]. exists (nth (k - 1) ls []). split; [apply nth_error_nth'; lia|]. apply not_blank_iff. exact B.
  - intros (H1 & l & N & C). assert (k - 1 < length ls) by (apply nth_error_Some; congruence). split; [lia|]. replace (nth (k - 1) ls []) with l by (symmetry; apply nth_error_nth; exact N). apply not_blank_iff. exact C.
Qed.
Lemma fill_ok U path ls lang imports units : Forall (shows_its_lines ls) units ->
  exists raw, fill_raw_code_gaps U path ls lang imports units = Ok (units ++ raw)
    /\ Forall (shows_its_lines ls) raw /\ Forall (in_between U ls units) raw /\ StronglySorted (apart units) raw /\ covers U ls (units ++ raw).
Proof.
  intro S. unfold fill_raw_code_gaps. destruct ls as [|l0 ls0] eqn:El.
  - exists []. rewrite app_nil_r. repeat split; try constructor. intros k (H & l & N & _). destruct (k - 1); discriminate.
  - rewrite <- El in *. clear El l0 ls0.
    destruct (marks_ok (length ls) units) with (v := repeat false (length ls + 1)) as (cov & -> & LC & Hc).
    + eapply Forall_impl; [|exact S]. intros u (H & _). exact H.
    + apply repeat_length.
    + cbn [bind]. destruct (all_gaps U path ls lang imports cov LC) as (l & Q & GL & SL & Cov).
      assert (CV : forall k, k <= length ls -> cv cov k = true <-> exists u, In u units /\ has_line u k).
      { intros k Hk. unfold cv. rewrite (Hc k Hk). split; [|auto]. intros [H|H]; [|exact H]. exfalso.
        rewrite (nth_error_nth (repeat false (length ls + 1)) k (x := false) false) in H; [discriminate|]. apply nth_error_repeat. lia. }
      destruct (fold_left _ _ _) as (raw, gap). exists (map (raw_unit U path ls lang imports) l). split; [rewrite Q; reflexivity|].
      rewrite Forall_forall in GL. split; [|split; [|split]].
      * apply Forall_forall. intros u Hu. apply in_map_iff in Hu. destruct Hu as ((a, b) & <- & Hab). destruct (GL _ Hab) as ((A1 & _) & _ & AB & _). cbn [fst snd] in *.
        split; [cbn; lia|reflexivity].
      * apply Forall_forall. intros u Hu. apply in_map_iff in Hu. destruct Hu as ((a, b) & <- & Hab). destruct (GL _ Hab) as (A & B & AB & N). cbn [fst snd] in *.
        split; [reflexivity|]. split; [apply nb_iff; exact A|]. split; [apply nb_iff; exact B|]. intros u k Hu Hk (K1 & K2). cbn in K1, K2.
        destruct B as ((_ & B) & _). assert (cv cov k = true) by (apply CV; [lia|eauto]). rewrite N in H by lia. discriminate.
      * assert (GL' : Forall (good U ls cov) l) by (apply Forall_forall; exact GL). clear - SL CV GL'. induction SL as [|i l SL IH F]; cbn; [constructor|]. inversion GL' as [|? ? Gi Gl]; subst. constructor; [apply IH; exact Gl|].
        rewrite Forall_forall in *. intros u Hu. apply in_map_iff in Hu. destruct Hu as (j & <- & Hj). destruct (F j Hj) as (k & Hk & Ck). destruct i as (a, b), j as (a', b'). cbn [fst snd] in *.
        destruct (Gl _ Hj) as (((_ & A') & _) & _). cbn [fst] in A'. apply CV in Ck; [|lia]. destruct Ck as (u & Hu & Hl). exists u, k. split; [exact Hu|]. split; [exact Hl|exact Hk].
      * intros k Hk. apply nb_iff in Hk. destruct (Cov k Hk) as [H|((a, b) & Hi & H)].
        -- apply CV in H; [|apply Hk]. destruct H as (u & Hu & Hl). exists u. split; [apply in_or_app; left; exact Hu|exact Hl].
        -- exists (raw_unit U path ls lang imports (a, b)). split; [apply in_or_app; right; apply in_map; exact Hi|exact H].
Qed.
