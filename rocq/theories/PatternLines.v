(** Matching a text in multi-line mode and matching its lines. *)
From Verif Require Import Base Text Regex RegexProofs Glob GlobSpec GlobProofs GlobMore Pattern PatternSpec PatternProofs PatternMore.
Open Scope nat_scope.

(** * The lines of a text *)
Lemma strip_none l : no_cr l -> strip_cr l = l.
Proof.
  intros N. unfold strip_cr. destruct (rev l) as [|c r] eqn:E; [reflexivity|]. destruct (Z.eqb_spec c 13) as [->|]; [|reflexivity].
  exfalso. apply N. apply in_rev. rewrite E. left. reflexivity.
Qed.
Lemma line_start_in a : line_start a -> ~ In 10%Z a -> a = [].
Proof. intros [->|(x & ->)] N; [reflexivity|]. exfalso. apply N. apply in_or_app. right. left. reflexivity. Qed.
Lemma line_end_in a : line_end a -> ~ In 10%Z a -> a = [].
Proof. intros [->|(x & ->)] N; [reflexivity|]. exfalso. apply N. left. reflexivity. Qed.
Lemma lines_sound : forall s cur l, no_cr (cur ++ s) -> ~ In 10%Z cur -> In l (lines_from cur s) -> one_line_of l (cur ++ s).
Proof.
  induction s as [|c s IH]; intros cur l NC NL I; cbn [lines_from] in I.
  - destruct cur as [|d cur]; [destruct I|]. destruct I as [<-|[]]. split; [exact NL|]. exists [], []. rewrite app_nil_r. split; [reflexivity|]. split; left; reflexivity.
  - destruct (Z.eqb_spec c 10) as [->|NE].
    + assert (NC1 : no_cr cur) by (intros J; apply NC; apply in_or_app; auto). destruct I as [<-|I].
      * rewrite strip_none by exact NC1. split; [exact NL|]. exists [], (10%Z :: s). split; [reflexivity|]. split; [left; reflexivity|right; eauto].
      * destruct (IH [] l) as (NL2 & a & b & E & A & B); auto.
        { intros J. apply NC. apply in_or_app. right. right. exact J. }
        cbn [app] in E. split; [exact NL2|]. exists (cur ++ 10%Z :: a), b. split; [rewrite E, <- app_assoc; reflexivity|]. split; [|exact B].
        right. destruct A as [->|(x & ->)]; [exists cur; reflexivity|]. exists (cur ++ 10%Z :: x). rewrite <- app_assoc. reflexivity.
    + specialize (IH (cur ++ [c]) l). rewrite <- app_assoc in IH. apply IH; auto. intros J. apply in_app_or in J. destruct J as [J|[J|[]]]; auto.
Qed.
Lemma lines_complete : forall s cur l, no_cr (cur ++ s) -> ~ In 10%Z cur -> l <> [] -> one_line_of l (cur ++ s) -> In l (lines_from cur s).
Proof.
  induction s as [|c s IH]; intros cur l NC NL NE (NL2 & a & b & E & A & B); cbn [lines_from].
  - rewrite app_nil_r in E. assert (N : forall x, In x (a ++ l ++ b) -> x <> 10%Z) by (intros x I ->; apply NL; rewrite E; exact I).
    apply line_start_in in A; [|intros I; apply (N 10%Z); [apply in_or_app; left; exact I|reflexivity]].
    apply line_end_in in B; [|intros I; apply (N 10%Z); [apply in_or_app; right; apply in_or_app; right; exact I|reflexivity]].
    subst a b. cbn [app] in E. rewrite app_nil_r in E. subst cur. destruct l; [congruence|left; reflexivity].
  - destruct (Z.eqb_spec c 10) as [->|NC10].
    + assert (NC1 : no_cr cur) by (intros J; apply NC; apply in_or_app; auto). rewrite strip_none by exact NC1.
      replace (cur ++ 10%Z :: s) with ((cur ++ [10%Z]) ++ s) in E by (rewrite <- app_assoc; reflexivity).
      apply app_eq_app in E. destruct E as (x & [(E1 & E2)|(E1 & E2)]).
      * destruct x as [|y x].
        -- right. apply IH; auto; [intros J; apply NC; apply in_or_app; right; right; exact J|]. cbn [app] in E2 |- *. split; [exact NL2|]. exists [], b.
           split; [symmetry; exact E2|]. split; [left; reflexivity|exact B].
        -- (* a is shorter than cur and its line feed: it is empty *)
           assert (AE : a = []).
           { apply line_start_in; [exact A|]. intros J. assert (K : cur ++ [10%Z] = (a ++ removelast (y :: x)) ++ [last (y :: x) 0%Z]).
             { rewrite <- app_assoc, <- app_removelast_last by discriminate. exact E1. }
             apply app_inj_tail in K. destruct K as (K & _). apply NL. rewrite K. apply in_or_app. left. exact J. }
           subst a. cbn [app] in E1. left.
           assert (E3 : l ++ b = cur ++ 10%Z :: s) by (rewrite E2, <- E1, <- app_assoc; reflexivity). clear -E3 NL NL2 B.
           revert l E3 NL2. induction cur as [|d cur IHc]; intros l E3 NL2.
           ++ destruct l as [|e l]; [reflexivity|]. injection E3 as -> _. exfalso. apply NL2. left. reflexivity.
           ++ destruct l as [|e l].
              ** exfalso. cbn [app] in E3. destruct B as [->|(x & ->)]; [discriminate|]. injection E3 as E3 _. apply NL. left. auto.
              ** injection E3 as -> E3. f_equal. apply IHc; auto; [intros J; apply NL; right; exact J|intros J; apply NL2; right; exact J].
      * right. apply IH; auto; [intros J; apply NC; apply in_or_app; right; right; exact J|]. split; [exact NL2|]. cbn [app]. exists x, b. split; [exact E2|]. split; [|exact B].
        destruct x as [|y x] using rev_ind; [left; reflexivity|]. right. destruct A as [->|(z & A)]; [destruct cur; discriminate|].
        rewrite E1, app_assoc in A. apply app_inj_tail in A. destruct A as (_ & ->). eauto.
    + specialize (IH (cur ++ [c]) l). rewrite <- app_assoc in IH. apply IH; auto.
      * intros J. apply in_app_or in J. destruct J as [J|[J|[]]]; auto.
      * split; [exact NL2|]. exists a, b. auto.
Qed.
Lemma lines_spec s l : no_cr s -> l <> [] -> In l (lines s) <-> one_line_of l s.
Proof. intros NC NE. split; [apply (lines_sound s []); auto|apply (lines_complete s []); auto]. Qed.

(** * Matches that stay in a line *)
Definition last_line (s : text) : text := rev ((fix go r := match r with [] => [] | c :: r' => if (c =? 10)%Z then [] else c :: go r' end) (rev s)).
Fixpoint first_line (s : text) : text := match s with [] => [] | c :: s' => if (c =? 10)%Z then [] else c :: first_line s' end.
Lemma last_line_first s : last_line s = rev (first_line (rev s)).
Proof. unfold last_line. f_equal. Qed.
Lemma first_line_app a b : ~ In 10%Z a -> first_line (a ++ b) = a ++ first_line b.
Proof.
  induction a as [|c a IH]; intros N; [reflexivity|]. cbn [app first_line]. rewrite (proj2 (Z.eqb_neq c 10)) by (intros ->; apply N; left; auto).
  rewrite IH by (intros I; apply N; right; auto). reflexivity.
Qed.
Lemma last_line_app a b : ~ In 10%Z b -> last_line (a ++ b) = last_line a ++ b.
Proof. intros N. rewrite !last_line_first, rev_app_distr, first_line_app by (rewrite <- in_rev; exact N). rewrite rev_app_distr, rev_involutive. reflexivity. Qed.
Lemma first_line_split s : ~ In 10%Z (first_line s) /\ exists r, s = first_line s ++ r /\ line_end r.
Proof.
  induction s as [|c s (N & r & E & H)]; [split; [intros []|exists []; split; [reflexivity|left; reflexivity]]|].
  cbn [first_line]. destruct (Z.eqb_spec c 10) as [->|NE].
  - split; [intros []|]. exists (10%Z :: s). split; [reflexivity|right; eauto].
  - split; [intros [I|I]; auto|]. exists r. split; [cbn; rewrite <- E; reflexivity|exact H].
Qed.
Lemma last_line_split s : ~ In 10%Z (last_line s) /\ exists r, s = r ++ last_line s /\ line_start r.
Proof.
  rewrite last_line_first. destruct (first_line_split (rev s)) as (N & r & E & H). split; [rewrite <- in_rev; exact N|].
  exists (rev r). split; [rewrite <- rev_app_distr, <- E, rev_involutive; reflexivity|].
  destruct H as [->|(b & ->)]; [left; reflexivity|right; exists (rev b); reflexivity].
Qed.
Lemma first_line_none s : ~ In 10%Z s -> first_line s = s.
Proof. intros N. rewrite <- (app_nil_r s) at 1. rewrite first_line_app by exact N. cbn. apply app_nil_r. Qed.
Lemma first_line_end s : line_end s <-> first_line s = [].
Proof.
  split; [intros [->|(b & ->)]; reflexivity|]. destruct s as [|c s]; [left; reflexivity|]. cbn [first_line].
  destruct (Z.eqb_spec c 10) as [->|]; [right; eauto|discriminate].
Qed.
Lemma last_line_start s : line_start s <-> last_line s = [].
Proof.
  split.
  - intros [->|(a & ->)]; [reflexivity|]. rewrite last_line_first, rev_app_distr. reflexivity.
  - intros H. destruct (last_line_split s) as (_ & r & E & K). rewrite H, app_nil_r in E. subst r. exact K.
Qed.
Section Within.
  Variable fold : Z -> Z. Variable word : Z -> bool. Variable any : bool.
  Hypothesis W : word 10%Z = false.
  Notation multi := {| multi_line := true; any_case := any |}.
  Notation single := {| multi_line := false; any_case := any |}.
  Lemma word_before_line pre : word_before word (last_line pre) = word_before word pre.
  Proof.
    unfold word_before. rewrite last_line_first, rev_involutive. destruct (rev pre) as [|c r]; [reflexivity|]. cbn [first_line].
    destruct (Z.eqb_spec c 10) as [->|]; [symmetry; exact W|reflexivity].
  Qed.
  Lemma word_after_line post : word_after word (first_line post) = word_after word post.
  Proof. destruct post as [|c r]; [reflexivity|]. cbn [first_line word_after]. destruct (Z.eqb_spec c 10) as [->|]; [symmetry; exact W|reflexivity]. Qed.
  Lemma to_line r pre mid post : matches fold word multi r pre mid post -> ~ In 10%Z mid ->
    matches fold word single r (last_line pre) mid (first_line post).
  Proof.
    induction 1; intros N.
    - constructor.
    - constructor. assumption.
    - constructor. assumption.
    - constructor. assumption.
    - constructor. assumption.
    - constructor. left. apply last_line_start. unfold line_start. cbn in *. tauto.
    - constructor. left. apply first_line_end. unfold line_end. cbn in *. tauto.
    - constructor. rewrite word_before_line, word_after_line. assumption.
    - apply m_cat.
      + rewrite <- first_line_app by (intros I; apply N; apply in_or_app; auto). apply IHmatches1. intros I; apply N; apply in_or_app; auto.
      + rewrite <- last_line_app by (intros I; apply N; apply in_or_app; auto). apply IHmatches2. intros I; apply N; apply in_or_app; auto.
    - apply m_left. auto.
    - apply m_right. auto.
    - apply m_done.
    - apply m_more.
      + rewrite <- first_line_app by (intros I; apply N; apply in_or_app; auto). apply IHmatches1. intros I; apply N; apply in_or_app; auto.
      + rewrite <- last_line_app by (intros I; apply N; apply in_or_app; auto). apply IHmatches2. intros I; apply N; apply in_or_app; auto.
  Qed.
  Lemma from_line r p1 mid q1 : matches fold word single r p1 mid q1 -> ~ In 10%Z mid -> forall pre post, last_line pre = p1 -> first_line post = q1 ->
    matches fold word multi r pre mid post.
  Proof.
    induction 1 as [pre0 post0|c d pre0 post0 H|d pre0 post0 H|c d pre0 post0 H|c d pre0 post0 H|pre0 post0 H|pre0 post0 H|pre0 post0 H
      |r s pre0 a b post0 H1 IH1 H2 IH2|r s pre0 a post0 H IH|r s pre0 a post0 H IH|r pre0 post0|r pre0 a b post0 H1 IH1 H2 IH2]; intros N pre post EP EQ.
    - constructor.
    - constructor. assumption.
    - constructor. assumption.
    - constructor. assumption.
    - constructor. assumption.
    - constructor. cbn in *. destruct H as [H|(H & _)]; [|discriminate]. rewrite H in EP. apply last_line_start in EP. unfold line_start in EP. tauto.
    - constructor. cbn in *. destruct H as [H|(H & _)]; [|discriminate]. rewrite H in EQ. apply first_line_end in EQ. unfold line_end in EQ. tauto.
    - constructor. subst. rewrite word_before_line, word_after_line in H. exact H.
    - assert (NA : ~ In 10%Z a) by (intros I; apply N; apply in_or_app; auto). assert (NB : ~ In 10%Z b) by (intros I; apply N; apply in_or_app; auto).
      apply m_cat; [apply IH1; auto; rewrite first_line_app by exact NB; congruence|apply IH2; auto; rewrite last_line_app by exact NA; congruence].
    - apply m_left. auto.
    - apply m_right. auto.
    - apply m_done.
    - assert (NA : ~ In 10%Z a) by (intros I; apply N; apply in_or_app; auto). assert (NB : ~ In 10%Z b) by (intros I; apply N; apply in_or_app; auto).
      apply m_more; [apply IH1; auto; rewrite first_line_app by exact NB; congruence|apply IH2; auto; rewrite last_line_app by exact NA; congruence].
  Qed.
  (** Patterns that match no line feed, and at least one character. *)
  Fixpoint inside (r : re) : bool :=
    match r with
    | Lit c | Class false c => if any then negb (fold c =? fold 10)%Z else negb (c =? 10)%Z
    | Class true _ => false
    | Cat r s | Alt r s => inside r && inside s
    | Star r => inside r
    | _ => true
    end.
  Fixpoint solid (r : re) : bool :=
    match r with
    | Lit _ | Any | Class _ _ => true
    | Cat r s => solid r || solid s
    | Alt r s => solid r && solid s
    | _ => false
    end.
  Lemma inside_spec fl r pre mid post : any_case fl = any -> matches fold word fl r pre mid post -> inside r = true -> ~ In 10%Z mid.
  Proof.
    intros EA. induction 1; cbn [inside]; intros I J.
    - destruct J.
    - destruct J as [->|[]]. unfold same in *. rewrite EA in *. destruct any; apply negb_true_iff, Z.eqb_neq in I; auto.
    - destruct J as [->|[]]. auto.
    - destruct J as [->|[]]. unfold same in *. rewrite EA in *. destruct any; apply negb_true_iff, Z.eqb_neq in I; auto.
    - discriminate.
    - destruct J.
    - destruct J.
    - destruct J.
    - apply andb_prop in I. apply in_app_or in J. destruct J; [apply IHmatches1|apply IHmatches2]; tauto.
    - apply andb_prop in I. apply IHmatches; tauto.
    - apply andb_prop in I. apply IHmatches; tauto.
    - destruct J.
    - apply in_app_or in J. destruct J; [apply IHmatches1|apply IHmatches2]; auto.
  Qed.
  Lemma solid_spec fl r pre mid post : matches fold word fl r pre mid post -> solid r = true -> mid <> [].
  Proof.
    induction 1; cbn [solid]; intros I; try discriminate.
    - apply orb_prop in I. intros J. apply app_eq_nil in J. destruct J as (-> & ->). destruct I as [I|I]; [apply IHmatches1|apply IHmatches2]; auto.
    - apply andb_prop in I. apply IHmatches. tauto.
    - apply andb_prop in I. apply IHmatches. tauto.
  Qed.
  Lemma found_in_lines r s : inside r = true -> solid r = true -> no_cr s ->
    found fold word multi r s <-> exists l, In l (lines s) /\ found fold word single r l.
  Proof.
    intros HI HS NC. split.
    - intros (pre & mid & post & -> & H). pose proof (inside_spec multi _ _ _ _ eq_refl H HI) as N. pose proof (solid_spec _ _ _ _ _ H HS) as NE.
      exists (last_line pre ++ mid ++ first_line post). destruct (last_line_split pre) as (N1 & a & E1 & A). destruct (first_line_split post) as (N2 & b & E2 & B).
      split.
      + apply lines_spec; [exact NC|intros K; apply app_eq_nil in K; destruct K as (_ & K); apply app_eq_nil in K; tauto|]. split.
        * intros I. apply in_app_or in I. destruct I as [I|I]; auto. apply in_app_or in I. tauto.
        * exists a, b. split; [|auto]. rewrite E1 at 1. rewrite E2 at 1. rewrite <- !app_assoc. reflexivity.
      + exists (last_line pre), mid, (first_line post). split; [reflexivity|]. apply to_line; auto.
    - intros (l & I & pre & mid & post & -> & H). pose proof (inside_spec single _ _ _ _ eq_refl H HI) as N. pose proof (solid_spec _ _ _ _ _ H HS) as NE.
      apply lines_spec in I; [|exact NC|intros K; apply app_eq_nil in K; destruct K as (_ & K); apply app_eq_nil in K; tauto].
      destruct I as (NL & a & b & -> & A & B).
      assert (NP : ~ In 10%Z pre) by (intros J; apply NL; apply in_or_app; auto).
      assert (NQ : ~ In 10%Z post) by (intros J; apply NL; apply in_or_app; right; apply in_or_app; auto).
      exists (a ++ pre), mid, (post ++ b). split; [rewrite <- !app_assoc; reflexivity|]. eapply from_line; eauto.
      + rewrite last_line_app by exact NP. apply last_line_start in A. rewrite A. reflexivity.
      + rewrite first_line_app by exact NQ. apply first_line_end in B. rewrite B, app_nil_r. reflexivity.
  Qed.
  Lemma found_whole_lines r part whole : inside r = true -> whole_lines part whole -> found fold word multi r part -> found fold word multi r whole.
  Proof.
    intros HI (a & b & -> & A & B) (pre & mid & post & -> & H). pose proof (inside_spec multi _ _ _ _ eq_refl H HI) as N.
    exists (a ++ pre), mid, (post ++ b). split; [rewrite <- !app_assoc; reflexivity|]. apply to_line in H; [|exact N]. eapply from_line; eauto.
    - destruct (last_line_split pre) as (NP & c & E & K). rewrite E at 1. rewrite app_assoc, last_line_app by exact NP.
      assert (L : last_line (a ++ c) = []); [|rewrite L; reflexivity]. apply last_line_start. destruct K as [->|(x & ->)]; [rewrite app_nil_r; exact A|].
      right. exists (a ++ x). apply app_assoc.
    - destruct (first_line_split post) as (NP & c & E & K). rewrite E at 1. rewrite <- app_assoc, first_line_app by exact NP.
      assert (L : first_line (c ++ b) = []); [|rewrite L, app_nil_r; reflexivity]. apply first_line_end. destruct K as [->|(x & ->)]; [exact B|].
      right. exists (x ++ b). reflexivity.
  Qed.
End Within.

(** * The text and its lines *)
Lemma unlines_cons x l : l <> [] -> unlines (x :: l) = x ++ 10%Z :: unlines l.
Proof. destruct l; [congruence|reflexivity]. Qed.
Lemma lines_text_from : forall s cur, no_cr (cur ++ s) -> cur ++ s = unlines (lines_from cur s) \/ cur ++ s = unlines (lines_from cur s) ++ [10%Z].
Proof.
  induction s as [|c s IH]; intros cur NC; cbn [lines_from].
  - left. rewrite app_nil_r. destruct cur; reflexivity.
  - destruct (Z.eqb_spec c 10) as [->|NE].
    + rewrite strip_none by (intros J; apply NC; apply in_or_app; auto).
      destruct (lines_from [] s) as [|y l] eqn:EL.
      * right. cbn [unlines]. assert (s = []) as ->; [|reflexivity]. destruct s as [|d s]; [reflexivity|]. exfalso. cbn [lines_from] in EL.
        destruct (d =? 10)%Z; [discriminate|]. assert (K : forall s cur, cur <> [] -> lines_from cur s <> []); [|exact (K s ([] ++ [d]) ltac:(discriminate) EL)].
        clear. induction s as [|e s IH]; intros cur N; cbn [lines_from]; [destruct cur; [congruence|discriminate]|].
        destruct (e =? 10)%Z; [discriminate|]. apply IH. destruct cur; discriminate.
      * rewrite unlines_cons by discriminate. destruct (IH []) as [K|K]; [intros J; apply NC; apply in_or_app; right; right; exact J|left|right];
          cbn [app] in K; rewrite EL in K; rewrite K at 1; [reflexivity|rewrite <- app_assoc; reflexivity].
    + specialize (IH (cur ++ [c])). rewrite <- app_assoc in IH. apply IH. exact NC.
Qed.
Lemma lines_text s : no_cr s -> s = unlines (lines s) \/ s = unlines (lines s) ++ [10%Z].
Proof. apply (lines_text_from s []). Qed.

(** * Numbers *)
Lemma in_numbered first s n l : In (n, l) (numbered first s) <-> first <= n /\ nth_error (lines s) (n - first) = Some l.
Proof.
  unfold numbered. generalize (lines s). intros ls. revert first. induction ls as [|x ls IH]; intros first; cbn [length seq combine].
  - split; [intros []|]. intros (_ & H). destruct (n - first); discriminate.
  - split.
    + intros [H|H]; [injection H as -> ->; rewrite Nat.sub_diag; auto|]. apply IH in H. destruct H as (H1 & H2). split; [lia|].
      replace (n - first) with (S (n - S first)) by lia. exact H2.
    + intros (H1 & H2). destruct (Nat.eq_dec n first) as [->|N]; [rewrite Nat.sub_diag in H2; injection H2 as ->; left; reflexivity|].
      right. apply IH. split; [lia|]. replace (n - first) with (S (n - S first)) in H2 by lia. exact H2.
Qed.
Lemma shown_filter lower m cs first s : exists f, find_matches lower m cs first s = filter f (numbered first s).
Proof.
  unfold find_matches. destruct (filter _ _) as [|x l] eqn:EF.
  - destruct m; [eexists; reflexivity|]. exists (fun _ => false). clear EF. generalize (numbered first s). intros q. induction q as [|y q IH]; [reflexivity|exact IH].
  - eexists. symmetry. exact EF.
Qed.
Lemma shown_numbers lower m cs first s n l : In (n, l) (find_matches lower m cs first s) -> first <= n /\ nth_error (lines s) (n - first) = Some l.
Proof. destruct (shown_filter lower m cs first s) as (f & ->). intros I. apply filter_In in I. apply in_numbered. apply I. Qed.
Lemma shown_sorted lower m cs first s : StronglySorted lt (map fst (find_matches lower m cs first s)).
Proof.
  destruct (shown_filter lower m cs first s) as (f & ->). unfold numbered. generalize (lines s). intros ls. revert first.
  induction ls as [|x ls IH]; intros first; cbn [length seq combine filter]; [constructor|]. destruct (f (first, x)); [|apply IH].
  cbn [map fst]. constructor; [apply IH|]. apply Forall_forall. intros n I. apply in_map_iff in I. destruct I as ((n' & l) & <- & I).
  apply filter_In in I. destruct I as (I & _). apply in_combine_l in I. apply in_seq in I. cbn [fst]. lia.
Qed.
Lemma numbered_line first s l : In l (lines s) -> exists n, In (n, l) (numbered first s).
Proof.
  intros I. apply In_nth_error in I. destruct I as (i & H). exists (first + i). apply in_numbered. split; [lia|].
  replace (first + i - first) with i by lia. exact H.
Qed.
Lemma numbered_in first s n l : In (n, l) (numbered first s) -> In l (lines s).
Proof. intros I. apply in_numbered in I. destruct I as (_ & I). eapply nth_error_In. exact I. Qed.
Lemma shown_regex lower source f cs first s : (exists l, In l (lines s) /\ f l = true) ->
  find_matches lower (ByRegex source f) cs first s <> [] /\
  forall n l, In (n, l) (find_matches lower (ByRegex source f) cs first s) <-> In (n, l) (numbered first s) /\ f l = true.
Proof.
  intros (l & I & H). destruct (numbered_line first s l I) as (n & J).
  assert (K : In (n, l) (filter (fun l => line_matches lower (ByRegex source f) cs (snd l)) (numbered first s))) by (apply filter_In; split; [exact J|exact H]).
  unfold find_matches. destruct (filter _ _) as [|x rest] eqn:EF; [destruct K|]. split; [discriminate|]. intros n' l'. rewrite <- EF, filter_In. reflexivity.
Qed.

(** * Selected parts are shown *)
Section Shown.
  Variable E : engine. Variable lower : text -> text.
  Hypothesis HE : faithful E. Hypothesis HW : e_word E 10%Z = false.
  Notation fold := (e_fold E). Notation word := (e_word E).
  Lemma new_matcher_read p r cs : read (escape_literal_braces (bre_to_ere p)) [] [] [] = Some r -> exists source f,
    new_matcher E lower p true false false cs = ByRegex source f /\ forall l, f l = true <-> found fold word {| multi_line := false; any_case := negb cs |} r l.
  Proof.
    intros R. set (b := escape_literal_braces (bre_to_ere p)) in *.
    assert (P : parse ((if cs then [] else txt "(?i)") ++ b) = Some ({| multi_line := false; any_case := negb cs |}, r)).
    { destruct cs.
      - cbn [app negb]. apply no_flags; auto. destruct b as [|c b']; [reflexivity|]. cbn [starts_with]. destruct (Z.eqb_spec (ch "(") c) as [<-|]; [|].
        + cbn [read] in R. rewrite Z.eqb_refl in R. destruct b' as [|d b'']; [reflexivity|]. change (starts_with (txt "(?") (ch "(" :: d :: b'')) with ((ch "?" =? d)%Z && true).
          rewrite Z.eqb_sym. destruct (d =? ch "?")%Z; [discriminate|reflexivity].
        + change (starts_with (txt "(?") (c :: b')) with ((ch "(" =? c)%Z && starts_with (txt "?") b'). rewrite (proj2 (Z.eqb_neq _ _)) by assumption. reflexivity.
      - change (parse (txt "(?i)" ++ b)) with (match read b [] [] [] with Some r => Some ({| multi_line := false; any_case := true |}, r) | None => None end).
        rewrite R. reflexivity. }
    destruct (HE _ _ _ P) as (f & EC & HF). unfold new_matcher. cbn [andb negb]. fold b. rewrite EC. eauto.
  Qed.
  Lemma shown_spec p r cs first part s : read (escape_literal_braces (bre_to_ere p)) [] [] [] = Some r ->
    inside fold (negb cs) r = true -> solid r = true -> no_cr s -> whole_lines part s ->
    found fold word {| multi_line := true; any_case := negb cs |} r part ->
    let shown := find_matches lower (new_matcher E lower p true false false cs) cs first s in
    shown <> [] /\ forall n l, In (n, l) shown <-> In (n, l) (numbered first s) /\ found fold word {| multi_line := false; any_case := negb cs |} r l.
  Proof.
    intros R HI HS NC WL F. destruct (new_matcher_read p r cs R) as (source & f & -> & HF). cbv zeta.
    apply (found_whole_lines fold word (negb cs) HW r part s HI WL) in F. apply (found_in_lines fold word (negb cs) HW r s HI HS NC) in F.
    destruct (shown_regex lower source f cs first s) as (K1 & K2).
    - destruct F as (l & I & F). exists l. rewrite HF. auto.
    - split; [exact K1|]. intros n l. rewrite K2, HF. reflexivity.
  Qed.
  Lemma piece_inside cs x : on_one_line cs fold (body x) -> inside fold (negb cs) (chain (piece_re x) Eps) = true.
  Proof.
    intros OL.
    assert (K : forall a b, inside fold (negb cs) (chain (a ++ b) Eps) = inside fold (negb cs) (chain a Eps) && inside fold (negb cs) (chain b Eps)).
    { induction a as [|y a IH]; intros b; cbn [app chain inside]; [reflexivity|]. rewrite IH. apply andb_assoc. }
    unfold piece_re. rewrite !K. apply andb_true_intro. split; [destruct (at_start x); reflexivity|]. apply andb_true_intro. split; [|destruct (at_end x); reflexivity].
    revert OL. generalize (body x). intros b. induction b as [|c b IH]; intros OL; cbn [map chain inside]; [reflexivity|].
    apply andb_true_intro. split; [|apply IH; intros d I; apply OL; right; exact I]. specialize (OL c (or_introl eq_refl)). unfold alike in OL.
    unfold atom. destruct (zmem c (txt "{}")); cbn [inside]; destruct cs; cbn [negb]; apply negb_true_iff, Z.eqb_neq; intros Q; apply OL; cbn [map]; congruence.
  Qed.
  Lemma piece_solid x : body x <> [] -> solid (chain (piece_re x) Eps) = true.
  Proof.
    intros N. assert (K : forall a b, solid (chain (a ++ b) Eps) = solid (chain a Eps) || solid (chain b Eps)).
    { induction a as [|y a IH]; intros b; cbn [app chain solid]; [reflexivity|]. rewrite IH. apply orb_assoc. }
    unfold piece_re. rewrite !K. apply orb_true_intro. right. apply orb_true_intro. left. destruct (body x) as [|c b]; [congruence|]. cbn [map chain solid].
    unfold atom. destruct (zmem c (txt "{}")); reflexivity.
  Qed.
  Lemma single_line_found (l : text) : ~ In 10%Z l -> (forall pre mid post, l = pre ++ mid ++ post -> last_line pre = pre /\ first_line post = post).
  Proof.
    intros N pre mid post ->. split.
    - rewrite <- (app_nil_l pre) at 1. rewrite last_line_app; [reflexivity|]. intros I. apply N. apply in_or_app. auto.
    - apply first_line_none. intros I. apply N. apply in_or_app. right. apply in_or_app. auto.
  Qed.
  Lemma single_multi any r l : ~ In 10%Z l -> found fold word {| multi_line := false; any_case := any |} r l <-> found fold word {| multi_line := true; any_case := any |} r l.
  Proof.
    intros N. split; intros (pre & mid & post & EQ & H); exists pre, mid, post; (split; [exact EQ|]); destruct (single_line_found l N pre mid post EQ) as (E1 & E2).
    - eapply (from_line fold word any HW); [exact H| |exact E1|exact E2]. intros I. apply N. rewrite EQ. apply in_or_app. right. apply in_or_app. auto.
    - rewrite <- E1, <- E2. apply (to_line fold word any HW); [exact H|]. intros I. apply N. rewrite EQ. apply in_or_app. right. apply in_or_app. auto.
  Qed.
  Lemma shown_pieces p l cs first part s :
    Forall (fun x => (plain (body x) /\ no_repetition (body x)) /\ body x <> [] /\ on_one_line cs fold (body x)) (p :: map snd l) ->
    no_cr s -> whole_lines part s -> (exists x, In x (p :: map snd l) /\ occurs cs fold x part) ->
    let shown := find_matches lower (new_matcher E lower (write_pattern p l) true false false cs) cs first s in
    shown <> [] /\ forall n line, In (n, line) shown <-> In (n, line) (numbered first s) /\ exists x, In x (p :: map snd l) /\ occurs cs fold x line.
  Proof.
    intros F NC WL (x & IX & OX).
    assert (F1 : Forall (fun x => plain (body x)) (p :: map snd l)) by (eapply Forall_impl; [|exact F]; cbn; tauto).
    destruct (read_bars l p [] F1) as (r & R & HR).
    assert (R2 : read (escape_literal_braces (bre_to_ere (write_pattern p l))) [] [] [] = Some r).
    { rewrite ere_bars; [exact R|]. eapply Forall_impl; [|exact F]; cbn; tauto. }
    destruct (new_matcher_read _ r cs R2) as (source & f & -> & HF). cbv zeta.
    assert (HL : forall line, In line (lines s) -> f line = true <-> exists x, In x (p :: map snd l) /\ occurs cs fold x line).
    { intros line I. apply (lines_sound s [] line NC) in I; [|intros []]. destruct I as (NL & _). rewrite HF, HR. split.
      - intros [(a & [] & _)|(b & J & H)]. exists b. split; [exact J|]. apply single_multi in H; [|exact NL]. apply found_piece in H. exact H.
      - intros (b & J & H). right. exists b. split; [exact J|]. apply single_multi; [exact NL|]. apply found_piece. exact H. }
    destruct (shown_regex lower source f cs first s) as (K1 & K2).
    - rewrite Forall_forall in F. destruct (F x IX) as (_ & NE & OL). apply (found_piece fold word cs) in OX.
      apply (found_whole_lines fold word (negb cs) HW _ part s (piece_inside cs x OL) WL) in OX.
      apply (found_in_lines fold word (negb cs) HW _ s (piece_inside cs x OL) (piece_solid x NE) NC) in OX. destruct OX as (line & I & H).
      exists line. split; [exact I|]. apply HL; [exact I|]. exists x. split; [exact IX|].
      apply (lines_sound s [] line NC) in I; [|intros []]. apply single_multi in H; [|apply I]. apply found_piece in H. exact H.
    - split; [exact K1|]. intros n line. rewrite K2. split; intros (I & H); (split; [exact I|]); apply HL; auto; eapply numbered_in; exact I.
  Qed.
End Shown.
Lemma shown_fixed E lower p cs first extended part s : p <> [] -> ~ In 10%Z p -> no_cr s -> whole_lines part s ->
  (forall a b, lower (a ++ b) = lower a ++ lower b) -> literally p part ->
  find_matches lower (new_matcher E lower p extended true false cs) cs first s <> [].
Proof.
  intros N NL NC (a & b & -> & A & B) LH (pre & post & ->).
  assert (EM : new_matcher E lower p extended true false cs = ByLiteral (if cs then p else lower p)) by (unfold new_matcher; destruct extended; reflexivity).
  rewrite EM. destruct (last_line_split (a ++ pre)) as (N1 & u & E1 & U). destruct (first_line_split (post ++ b)) as (N2 & v & E2 & V).
  assert (I : In (last_line (a ++ pre) ++ p ++ first_line (post ++ b)) (lines (a ++ (pre ++ p ++ post) ++ b))).
  { apply lines_spec; [exact NC|intros K; apply app_eq_nil in K; destruct K as (_ & K); apply app_eq_nil in K; tauto|]. split.
    - intros I. apply in_app_or in I. destruct I as [I|I]; auto. apply in_app_or in I. tauto.
    - exists u, v. split; [|auto]. transitivity ((a ++ pre) ++ p ++ post ++ b); [rewrite <- !app_assoc; reflexivity|].
      rewrite E1 at 1. rewrite E2 at 1. rewrite <- !app_assoc. reflexivity. }
  destruct (numbered_line first _ _ I) as (n & J).
  assert (K : In (n, last_line (a ++ pre) ++ p ++ first_line (post ++ b))
    (filter (fun l => line_matches lower (ByLiteral (if cs then p else lower p)) cs (snd l)) (numbered first (a ++ (pre ++ p ++ post) ++ b)))).
  { apply filter_In. split; [exact J|]. cbn [line_matches snd]. unfold holds. destruct cs; apply contains_spec; [eauto|]. rewrite !LH. eauto. }
  unfold find_matches. destruct (filter _ _) as [|x l]; [destruct K|discriminate].
Qed.
