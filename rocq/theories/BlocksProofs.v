(** Scripts and the rest of a page. *)
From Verif Require Import Base Text FtsText Units Parse ParseSpec ParseProofs Blocks BlocksSpec.
From Verif Require Pattern.
Open Scope nat_scope.

Lemma find_text_spec p : forall s a b, find_text p s = Some (a, b) -> s = a ++ b /\ starts_with p b = true.
Proof.
  induction s as [|c s IH]; intros a b; cbn [find_text].
  - destruct (starts_with p []) eqn:E; [|discriminate]. intro H. injection H as <- <-. auto.
  - destruct (starts_with p (c :: s)) eqn:E; [intro H; injection H as <- <-; auto|]. destruct (find_text p s) as [(a', b')|] eqn:F; [|discriminate].
    intro H. injection H as <- <-. destruct (IH a' b' eq_refl) as (-> & K). auto.
Qed.
Lemma find_text_before p : forall w b, starts_with p b = true -> exists a b', find_text p (w ++ b) = Some (a, b') /\ exists w', w = a ++ w'.
Proof.
  induction w as [|c w IH]; intros b H; cbn [app].
  - exists [], b. split; [|exists []; reflexivity]. destruct b; cbn [find_text]; rewrite H; reflexivity.
  - cbn [find_text]. destruct (starts_with p (c :: w ++ b)) eqn:E; [exists [], (c :: w ++ b); split; [reflexivity|exists (c :: w); reflexivity]|].
    destruct (IH b H) as (a & b' & F & w' & ->). rewrite F. exists (c :: a), b'. split; [reflexivity|]. exists w'. reflexivity.
Qed.
Lemma find_char c : forall s a b, find_text [c] s = Some (a, b) -> ~ In c a.
Proof.
  induction s as [|d s IH]; intros a b; cbn [find_text starts_with].
  - discriminate.
  - rewrite andb_true_r. destruct (c =? d)%Z eqn:E; [intro H; injection H as <- <-; intros []|].
    destruct (find_text [c] s) as [(a', b')|] eqn:F; [|discriminate]. intro H. injection H as <- <-. apply Z.eqb_neq in E. intros [K|K]; [congruence|]. exact (IH a' b' eq_refl K).
Qed.
Lemma find_char_first c a b : ~ In c a -> find_text [c] (a ++ c :: b) = Some (a, c :: b).
Proof.
  intro H. induction a as [|d a IH]; cbn [app find_text starts_with].
  - rewrite Z.eqb_refl. reflexivity.
  - destruct (c =? d)%Z eqn:E; [apply Z.eqb_eq in E; subst d; destruct H; left; reflexivity|]. cbn [andb]. rewrite IH; [reflexivity|]. intro K. apply H. right. exact K.
Qed.
Lemma contains_char c s : contains [c] s = true <-> In c s.
Proof.
  rewrite contains_spec. split; [intros (a & b & ->); apply in_or_app; right; left; reflexivity|]. intro H. apply in_split in H. destruct H as (a & b & ->). exists a, b. reflexivity.
Qed.

Section B1.
  Variable U : unicode.
  Lemma opens_iff tag skip l : ~ In (ch ">") tag -> opens U tag skip l = true <-> tag_at_start U tag l /\ ~ (skip = true /\ mentions_src U l).
  Proof using.
    intro NT. unfold opens, tag_at_start, mentions_src, bare, clean. set (t := trim (u_ws U) l). rewrite !andb_true_iff, starts_with_spec, contains_char, Bool.negb_true_iff. split.
    - intros (((rest & E) & NS) & Ig). split.
      + exists rest. split; [exact E|]. rewrite E in Ig. cbn [app] in Ig. destruct Ig as [Ig|Ig]; [discriminate|]. apply in_app_or in Ig. tauto.
      + intros (-> & H). cbn [andb] in NS. assert (Q : contains (txt "src=") t = true) by (apply contains_spec; exact H). congruence.
    - intros ((rest & E & Ig) & NS). split; [split|].
      + exists rest. exact E.
      + destruct skip; cbn [andb]; [|reflexivity]. apply Bool.not_true_iff_false. rewrite contains_spec. intro H. apply NS. auto.
      + rewrite E. right. apply in_or_app. right. exact Ig.
  Qed.
  Lemma closes_iff tag l : closes U tag l = true <-> end_tag_on U tag l.
  Proof using.
    unfold closes, end_tag_on, bare, clean. rewrite orb_true_iff, starts_with_spec, contains_spec. split.
    - intros [(b & H)|(a & b & H)]; [left; exists b; rewrite H, <- app_assoc; reflexivity|right; exists a, b; rewrite H, <- !app_assoc; reflexivity].
    - intros [(b & H)|(a & b & H)]; [left; exists b; rewrite H, <- app_assoc; reflexivity|right; exists a, b; rewrite H, <- !app_assoc; reflexivity].
  Qed.
  Lemma blank_is l : is_blank U l = true <-> blank U l.
  Proof using. apply blank_iff. Qed.
  Lemma after_alone tag l : tag_alone U l -> after_tag U tag l = [].
  Proof using. intros (a & E & N). unfold after_tag. unfold bare in E. unfold clean. rewrite E, find_char_first by exact N. reflexivity. Qed.
  Lemma before_first tag l : end_tag_first U tag l -> before_tag U tag l = [].
  Proof using.
    intros (w & b & -> & B). unfold before_tag.
    destruct (find_text_before (txt "</" ++ tag) w (txt "</" ++ tag ++ b)) as (a & b' & -> & w' & ->).
    { apply starts_with_spec. exists b. rewrite <- app_assoc. reflexivity. }
    replace (is_blank U a) with true; [reflexivity|]. symmetry. apply blank_is. intros c Hc. apply B. apply in_or_app. left. exact Hc.
  Qed.
  Lemma after_piece tag l p : tag_at_start U tag l -> In p (after_tag U tag l) -> piece_of U tag p l.
  Proof using.
    intros T. unfold after_tag. destruct (find_text [ch ">"] (clean U l)) as [(a, b)|] eqn:F; [|intros []]. destruct b as [|g b]; [intros []|].
    destruct (_ && _); [|intros []]. intros [<-|[]]. right. left. split; [exact T|]. exists a. destruct (find_text_spec _ _ _ _ F) as (E & K).
    cbn [starts_with] in K. rewrite andb_true_r in K. apply Z.eqb_eq in K. subst g. split; [exact E|]. exact (find_char _ _ _ _ F).
  Qed.
  Lemma before_piece tag l p : end_tag_on U tag l -> In p (before_tag U tag l) -> piece_of U tag p l.
  Proof using.
    intros T. unfold before_tag. destruct (find_text (txt "</" ++ tag) l) as [(a, b)|] eqn:F; [|intros []]. destruct (is_blank U a); [intros []|]. intros [<-|[]].
    right. right. split; [exact T|]. destruct (find_text_spec _ _ _ _ F) as (-> & K). apply starts_with_spec in K. destruct K as (b' & ->). exists b'. rewrite <- app_assoc. reflexivity.
  Qed.
  Lemma after_length tag l : length (after_tag U tag l) <= 1.
  Proof using. unfold after_tag. destruct (find_text _ _) as [(a, [|g b])|]; cbn [length]; try lia. destruct (_ && _); cbn [length]; lia. Qed.
  Lemma before_length tag l : length (before_tag U tag l) <= 1.
  Proof using. unfold before_tag. destruct (find_text _ _) as [(a, b)|]; cbn [length]; try lia. destruct (is_blank U a); cbn [length]; lia. Qed.

  (** every line of a block stands for the line of the file it is numbered as *)
  Definition stands (tag : text) (ls : list text) (b : block) : Prop :=
    forall j p, nth_error (fst b) j = Some p -> exists l, nth_error ls (snd b + j) = Some l /\ piece_of U tag p l.
  Lemma stands_more tag ls c start l p : stands tag ls (c, start) -> nth_error ls (start + length c) = Some l -> piece_of U tag p l -> stands tag ls (c ++ [p], start).
  Proof using.
    intros S N P j q H. cbn [fst snd] in *. destruct (Nat.lt_ge_cases j (length c)) as [L|G].
    - rewrite nth_error_app1 in H by exact L. exact (S j q H).
    - rewrite nth_error_app2 in H by exact G. destruct (j - length c) as [|x] eqn:E; [|destruct x; discriminate]. injection H as <-. exists l. replace (start + j) with (start + length c) by lia. auto.
  Qed.
  Lemma begun_stands tag ls i l : tag_at_start U tag l -> nth_error ls i = Some l -> stands tag ls (begun U tag i l) /\ snd (begun U tag i l) + length (fst (begun U tag i l)) = i + 1.
  Proof using.
    intros T N. unfold begun. pose proof (after_length tag l) as L. pose proof (fun p => after_piece tag l p T) as P. destruct (after_tag U tag l) as [|p [|q r]]; cbn [length] in L; try lia.
    - split; [|cbn; lia]. intros j p H. destruct j; discriminate.
    - split; [|cbn; lia]. intros j x H. destruct j as [|j]; [|destruct j; discriminate]. injection H as <-. exists l. rewrite Nat.add_0_r. split; [exact N|]. apply P. left. reflexivity.
  Qed.
  Lemma closed_stands tag ls c start l : end_tag_on U tag l -> stands tag ls (c, start) -> nth_error ls (start + length c) = Some l -> stands tag ls (c ++ before_tag U tag l, start).
  Proof using.
    intros T S N. pose proof (before_length tag l) as L. pose proof (fun p => before_piece tag l p T) as P. destruct (before_tag U tag l) as [|p [|q r]]; cbn [length] in L; try lia.
    - rewrite app_nil_r. exact S.
    - apply (stands_more tag ls c start l p S N). apply P. left. reflexivity.
  Qed.
  Lemma scripts_stand skip ls : forall r i cur, (forall j, nth_error r j = nth_error ls (i + j)) ->
    match cur with Some b => stands (txt "script") ls b /\ snd b + length (fst b) = i | None => True end ->
    Forall (fun b => stands (txt "script") ls b /\ fst b <> []) (script_blocks U skip i r cur).
  Proof using.
    induction r as [|l r IH]; intros i cur N C; cbn [script_blocks]; [constructor|].
    assert (N' : forall j, nth_error r j = nth_error ls (S i + j)). { intro j. replace (S i + j) with (i + S j) by lia. rewrite <- N. reflexivity. }
    assert (N0 : nth_error ls i = Some l). { rewrite <- (Nat.add_0_r i), <- N. reflexivity. }
    destruct cur as [(c, start)|].
    - cbn [fst snd] in C. destruct C as (S & E). destruct (closes U (txt "script") l) eqn:Cl.
      + apply closes_iff in Cl. pose proof (closed_stands (txt "script") ls c start l Cl S ltac:(rewrite E; exact N0)) as S'.
        destruct (c ++ before_tag U (txt "script") l) as [|x y] eqn:Ec; [apply IH; [exact N'|exact I]|].
        constructor; [split; [exact S'|discriminate]|]. apply IH; [exact N'|exact I].
      + apply IH; [exact N'|]. split; [apply (stands_more (txt "script") ls c start l l S); [rewrite E; exact N0|left; reflexivity]|]. cbn [fst snd]. rewrite app_length. cbn [length]. lia.
    - destruct (opens U (txt "script") skip l) eqn:Op; [|apply IH; [exact N'|exact I]]. apply opens_iff in Op; [|vm_compute; intuition discriminate]. destruct Op as (T & _).
      apply IH; [exact N'|]. destruct (begun_stands (txt "script") ls i l T N0) as (S & E). split; [exact S|]. lia.
  Qed.
  Lemma first_stands tag ls : ~ In (ch ">") tag -> forall r i cur, (forall j, nth_error r j = nth_error ls (i + j)) ->
    match cur with Some b => stands tag ls b /\ snd b + length (fst b) = i | None => True end -> stands tag ls (first_block U tag i r cur).
  Proof using.
    intro NT. induction r as [|l r IH]; intros i cur N C; cbn [first_block].
    { destruct cur as [b|]; [apply C|]. intros j p H. destruct j; discriminate. }
    assert (N' : forall j, nth_error r j = nth_error ls (S i + j)). { intro j. replace (S i + j) with (i + S j) by lia. rewrite <- N. reflexivity. }
    assert (N0 : nth_error ls i = Some l). { rewrite <- (Nat.add_0_r i), <- N. reflexivity. }
    destruct cur as [(c, start)|].
    - cbn [fst snd] in C. destruct C as (S & E). destruct (closes U tag l) eqn:Cl.
      + apply closes_iff in Cl. apply (closed_stands tag ls c start l Cl S). rewrite E. exact N0.
      + apply IH; [exact N'|]. split; [apply (stands_more tag ls c start l l S); [rewrite E; exact N0|left; reflexivity]|]. cbn [fst snd]. rewrite app_length. cbn [length]. lia.
    - destruct (opens U tag false l) eqn:Op; [|apply IH; [exact N'|exact I]]. apply opens_iff in Op; [|exact NT]. destruct Op as (T & _).
      apply IH; [exact N'|]. destruct (begun_stands tag ls i l T N0) as (S & E). split; [exact S|]. lia.
  Qed.

  (** ** lines of joined lines *)
  Definition plain_line (l : text) : Prop := ~ In 10%Z l /\ ~ In 13%Z l.
  Lemma strip_plain l : ~ In 13%Z l -> Pattern.strip_cr l = l.
  Proof using.
    intro H. unfold Pattern.strip_cr. destruct (rev l) as [|c r] eqn:E; [reflexivity|]. destruct (c =? 13)%Z eqn:Ec; [|reflexivity]. apply Z.eqb_eq in Ec. subst c. exfalso. apply H.
    apply in_rev. rewrite E. left. reflexivity.
  Qed.
  Lemma lines_piece l : forall cur s, ~ In 10%Z l -> Pattern.lines_from cur (l ++ 10%Z :: s) = Pattern.strip_cr (cur ++ l) :: Pattern.lines_from [] s.
  Proof using.
    induction l as [|c l IH]; intros cur s H; cbn [app Pattern.lines_from].
    - rewrite Z.eqb_refl, app_nil_r. reflexivity.
    - destruct (c =? 10)%Z eqn:E; [apply Z.eqb_eq in E; subst c; destruct H; left; reflexivity|]. rewrite IH, <- app_assoc by (intro K; apply H; right; exact K). reflexivity.
  Qed.
  Lemma lines_last l : forall cur, ~ In 10%Z l -> Pattern.lines_from cur l = match cur ++ l with [] => [] | x => [x] end.
  Proof using.
    induction l as [|c l IH]; intros cur H; cbn [Pattern.lines_from].
    - rewrite app_nil_r. destruct cur; reflexivity.
    - destruct (c =? 10)%Z eqn:E; [apply Z.eqb_eq in E; subst c; destruct H; left; reflexivity|]. rewrite IH, <- app_assoc by (intro K; apply H; right; exact K). reflexivity.
  Qed.
  (** all but a last empty line come back *)
  Lemma lines_join : forall c, Forall plain_line c -> file_lines (join_lines c) = c \/ exists c', c = c' ++ [[]] /\ file_lines (join_lines c) = c'.
  Proof using.
    unfold file_lines, join_lines, Pattern.lines. induction c as [|l c IH]; intro F; [left; reflexivity|]. inversion F as [|? ? (N1 & N2) F']; subst. destruct c as [|m c].
    - cbn [join]. rewrite lines_last by exact N1. cbn [app]. destruct l; [right; exists []; auto|left; reflexivity].
    - change (join [10%Z] (l :: m :: c)) with (l ++ [10%Z] ++ join [10%Z] (m :: c)). cbn [app]. rewrite lines_piece by exact N1. cbn [app]. rewrite strip_plain by exact N2.
      destruct (IH F') as [->|(c' & E & ->)]; [left; reflexivity|]. right. exists (l :: c'). rewrite E. split; reflexivity.
  Qed.
  Lemma lines_plain : forall s cur, ~ In 10%Z cur -> ~ In 13%Z (cur ++ s) -> Forall plain_line (Pattern.lines_from cur s).
  Proof using.
    induction s as [|c s IH]; intros cur H1 H2; cbn [Pattern.lines_from].
    - rewrite app_nil_r in H2. destruct cur; constructor; [split; assumption|constructor].
    - destruct (c =? 10)%Z eqn:E.
      + constructor; [rewrite strip_plain|]; [split; [exact H1|]| |].
        1,2: intro K; apply H2; apply in_or_app; left; exact K.
        apply IH; [intros []|]. intro K. apply H2. apply in_or_app. right. right. exact K.
      + apply Z.eqb_neq in E. apply IH; [intro K; apply in_app_or in K; destruct K as [K|[K|[]]]; [auto|congruence]|]. rewrite <- app_assoc. exact H2.
  Qed.
End B1.
