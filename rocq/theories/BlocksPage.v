(** Pages are cut as they read. *)
From Verif Require Import Base Text FtsText Units Parse ParseSpec ParseProofs ParseUnits Blocks BlocksSpec BlocksProofs.
Open Scope nat_scope.

Definition some_lines (b : list text * nat) : bool := match fst b with [] => false | _ => true end.
Section B2.
  Variable U : unicode.
  Lemma not_open_any tag l skip : ~ In (ch ">") tag -> ~ tag_at_start U tag l -> opens U tag skip l = false.
  Proof using. intros NT H. apply Bool.not_true_iff_false. rewrite opens_iff by exact NT. tauto. Qed.
  Lemma script_tag : ~ In (ch ">") (txt "script").
  Proof using. vm_compute. intuition discriminate. Qed.
  Lemma style_tag : ~ In (ch ">") (txt "style").
  Proof using. vm_compute. intuition discriminate. Qed.
  Lemma open_script html l : opens_script U html l -> opens U (txt "script") html l = true.
  Proof using. intro H. apply opens_iff; [apply script_tag|exact H]. Qed.
  Lemma not_open_script html l : ~ opens_script U html l -> opens U (txt "script") html l = false.
  Proof using. intro H. apply Bool.not_true_iff_false. rewrite opens_iff by apply script_tag. exact H. Qed.
  Lemma open_style l : opens_style U false l -> opens U (txt "style") false l = true.
  Proof using. intros (_ & H). apply opens_iff; [apply style_tag|]. split; [exact H|]. intros (Q & _). discriminate. Qed.
  Lemma not_open_style l : ~ opens_style U false l -> opens U (txt "style") false l = false.
  Proof using. intro H. apply not_open_any; [apply style_tag|]. intro K. apply H. split; [reflexivity|exact K]. Qed.
  Lemma not_close tag l : ~ end_tag_on U tag l -> closes U tag l = false.
  Proof using. intro H. apply Bool.not_true_iff_false. rewrite closes_iff. exact H. Qed.
  Lemma close tag l : end_tag_on U tag l -> closes U tag l = true.
  Proof using. apply closes_iff. Qed.
  Lemma blank_t l : blank U l -> is_blank U l = true.
  Proof using. apply blank_is. Qed.
  Lemma blank_f l : ~ blank U l -> is_blank U l = false.
  Proof using. intro H. apply Bool.not_true_iff_false. rewrite blank_is. exact H. Qed.

  Lemma scripts_inner skip inner : forall i rest c st, Forall (fun l => ~ end_tag_on U (txt "script") l) inner ->
    script_blocks U skip i (inner ++ rest) (Some (c, st)) = script_blocks U skip (i + length inner) rest (Some (c ++ inner, st)).
  Proof using.
    induction inner as [|l inner IH]; intros i rest c st F; cbn [app length].
    - rewrite Nat.add_0_r, app_nil_r. reflexivity.
    - inversion F; subst. cbn [script_blocks]. rewrite not_close by assumption. rewrite IH by assumption. rewrite <- app_assoc. replace (S i + length inner) with (i + S (length inner)) by lia. reflexivity.
  Qed.
  Lemma html_inner inner : forall i rest, Forall (fun l => ~ tag_at_start U (txt "script") l /\ ~ end_tag_on U (txt "script") l) inner ->
    html_structure U i (inner ++ rest) true = html_structure U (i + length inner) rest true.
  Proof using.
    induction inner as [|l inner IH]; intros i rest F; cbn [app length].
    - rewrite Nat.add_0_r. reflexivity.
    - inversion F as [|? ? (H1 & H2) F']; subst. cbn [html_structure]. rewrite (not_open_any _ _ _ script_tag H1), not_close by assumption. cbn [andb negb]. rewrite IH by assumption.
      replace (S i + length inner) with (i + S (length inner)) by lia. reflexivity.
  Qed.
  Lemma svelte_inner inner : forall i rest, Forall (fun l => ~ tag_at_start U (txt "script") l /\ ~ opens_style U false l /\ ~ end_tag_on U (txt "script") l) inner ->
    svelte_template U i (inner ++ rest) true false = svelte_template U (i + length inner) rest true false.
  Proof using.
    induction inner as [|l inner IH]; intros i rest F; cbn [app length].
    - rewrite Nat.add_0_r. reflexivity.
    - inversion F as [|? ? (H1 & H2 & H3) F']; subst. cbn [svelte_template]. rewrite (not_open_any _ _ _ script_tag H1), not_open_style, not_close by assumption. cbn [andb negb]. rewrite IH by assumption.
      replace (S i + length inner) with (i + S (length inner)) by lia. reflexivity.
  Qed.
  Lemma style_inner inner : forall i rest, Forall (fun l => ~ opens_script U false l /\ ~ end_tag_on U (txt "style") l) inner ->
    svelte_template U i (inner ++ rest) false true = svelte_template U (i + length inner) rest false true
    /\ script_blocks U false i (inner ++ rest) None = script_blocks U false (i + length inner) rest None.
  Proof using.
    induction inner as [|l inner IH]; intros i rest F; cbn [app length].
    - rewrite Nat.add_0_r. auto.
    - inversion F as [|? ? (H1 & H2) F']; subst. cbn [svelte_template script_blocks]. rewrite (not_open_script false l H1), (not_close (txt "style") l H2). cbn [andb negb].
      destruct (IH (S i) rest F') as (E1 & E2). rewrite E1, E2. replace (S i + length inner) with (i + S (length inner)) by lia. destruct (opens U (txt "style") false l); auto.
  Qed.
  Lemma page_scripts html k ls outer scripts : page U html k ls outer scripts -> script_blocks U html k ls None = filter some_lines scripts.
  Proof using.
    intro P. induction P as [k|k l r outer scripts H1 H2 B P IH|k l r outer scripts H1 H2 B P IH|k o inner c r outer scripts O A F NC E EF P IH|k o inner c r outer scripts O NO F NC NS E P IH].
    - reflexivity.
    - cbn [script_blocks]. rewrite (not_open_script html l H1). exact IH.
    - cbn [script_blocks]. rewrite (not_open_script html l H1). exact IH.
    - cbn [script_blocks]. rewrite (open_script html o O). unfold begun. rewrite (after_alone U (txt "script") o A).
      rewrite scripts_inner by (eapply Forall_impl; [|exact F]; intros l (_ & _ & H); exact H). cbn [script_blocks]. rewrite (close (txt "script") c E), (before_first U (txt "script") c EF). rewrite app_nil_r.
      replace (S (S k + length inner)) with (k + S (S (length inner))) by lia. rewrite IH. cbn [app filter]. unfold some_lines at 2. cbn [fst]. replace (k + 1) with (S k) by lia. destruct inner; reflexivity.
    - assert (html = false) as -> by apply O. cbn [script_blocks]. rewrite (not_open_script false o NO). destruct (style_inner inner (S k) (c :: r) F) as (_ & ->). cbn [script_blocks].
      rewrite (not_open_script false c NC). replace (S (S k + length inner)) with (k + S (S (length inner))) by lia. exact IH.
  Qed.
  Lemma page_html k ls outer scripts : page U true k ls outer scripts -> map snd (html_structure U k ls false) = outer.
  Proof using.
    intro P.
    induction P as [k|k l r outer scripts H1 H2 B P IH|k l r outer scripts H1 H2 B P IH|k o inner c r outer scripts O A F NC E EF P IH|k o inner c r outer scripts O NO F NC NS E P IH].
    - reflexivity.
    - cbn [html_structure]. rewrite (not_open_script true l H1), (blank_t l B). cbn [andb negb]. exact IH.
    - cbn [html_structure]. rewrite (not_open_script true l H1), (blank_f l B). cbn [andb negb map snd]. f_equal. exact IH.
    - cbn [html_structure]. rewrite (open_script true o O). rewrite html_inner by (eapply Forall_impl; [|exact F]; intros l (H1 & _ & H2); auto). cbn [html_structure].
      rewrite (not_open_script true c NC), (close (txt "script") c E). cbn [andb map snd tags app]. do 2 f_equal. replace (S (S k + length inner)) with (k + S (S (length inner))) by lia. exact IH.
    - destruct O as (Q & _). discriminate.
  Qed.
  Lemma page_svelte k ls outer scripts : page U false k ls outer scripts -> map snd (svelte_template U k ls false false) = outer.
  Proof using.
    intro P.
    induction P as [k|k l r outer scripts H1 H2 B P IH|k l r outer scripts H1 H2 B P IH|k o inner c r outer scripts O A F NC E EF P IH|k o inner c r outer scripts O NO F NC NS E P IH].
    - reflexivity.
    - cbn [svelte_template]. rewrite (not_open_script false l H1), (not_open_style l H2), (blank_t l B). cbn [andb negb]. exact IH.
    - cbn [svelte_template]. rewrite (not_open_script false l H1), (not_open_style l H2), (blank_f l B). cbn [andb negb map snd]. f_equal. exact IH.
    - cbn [svelte_template]. rewrite (open_script false o O). rewrite svelte_inner by exact F. cbn [svelte_template].
      rewrite (not_open_script false c NC), (close (txt "script") c E). cbn [andb tags app]. replace (S (S k + length inner)) with (k + S (S (length inner))) by lia. exact IH.
    - cbn [svelte_template]. rewrite (not_open_script false o NO), (open_style o O). cbn [andb]. destruct (style_inner inner (S k) (c :: r) F) as (-> & _). cbn [svelte_template].
      rewrite (not_open_script false c NC), (not_open_style c NS), (close (txt "style") c E). cbn [andb]. replace (S (S k + length inner)) with (k + S (S (length inner))) by lia. exact IH.
  Qed.
  (** every line of an HTML page that says something is outside or in a script *)
  Lemma page_all k ls outer scripts : page U true k ls outer scripts -> forall j l, nth_error ls j = Some l -> ~ blank U l ->
    In l outer \/ exists inner start, In (inner, start) scripts /\ start <= k + j /\ nth_error inner (k + j - start) = Some l.
  Proof using.
    intro P.
    induction P as [k|k x r outer scripts H1 H2 B P IH|k x r outer scripts H1 H2 B P IH|k o inner c r outer scripts O A F NC E EF P IH|k o inner c r outer scripts O NO F NC NS E P IH]; intros j l N NB.
    - destruct j; discriminate.
    - destruct j as [|j]; [injection N as ->; contradiction|]. replace (k + S j) with (S k + j) by lia. exact (IH j l N NB).
    - destruct j as [|j]; [injection N as ->; left; left; reflexivity|]. replace (k + S j) with (S k + j) by lia. destruct (IH j l N NB) as [K|K]; [left; right; exact K|right; exact K].
    - cbn [tags app In]. destruct j as [|j]; [injection N as ->; auto|]. cbn [nth_error] in N. destruct (Nat.lt_ge_cases j (length inner)) as [L|G].
      + rewrite nth_error_app1 in N by exact L. right. exists inner, (S k). split; [left; reflexivity|]. split; [lia|]. replace (k + S j - S k) with j by lia. exact N.
      + rewrite nth_error_app2 in N by exact G. destruct (j - length inner) as [|j'] eqn:Ej; [injection N as ->; auto|]. cbn [nth_error] in N.
        destruct (IH j' l N NB) as [K|(inn & st & K1 & K2 & K3)]; [auto|]. right. exists inn, st. split; [right; exact K1|].
        replace (k + S j) with (k + S (S (length inner)) + j') by lia. auto.
    - destruct O as (Q & _). discriminate.
  Qed.
  (** a block of a Vue file *)
  Lemma vue_shape tag before o inner c after : ~ In (ch ">") tag -> Forall (fun l => ~ tag_at_start U tag l) before -> tag_at_start U tag o -> tag_alone U o ->
    Forall (fun l => ~ end_tag_on U tag l) inner -> end_tag_on U tag c -> end_tag_first U tag c -> inner <> [] ->
    vue_block U tag (before ++ o :: inner ++ c :: after) = Some (inner, length before + 1).
  Proof using.
    intros NT FB T A FI E EF NE. unfold vue_block.
    assert (K1 : forall before i, Forall (fun l => ~ tag_at_start U tag l) before -> first_block U tag i (before ++ o :: inner ++ c :: after) None = first_block U tag (i + length before) (o :: inner ++ c :: after) None).
    { clear - NT. induction before as [|l before IH]; intros i F; cbn [app length]; [rewrite Nat.add_0_r; reflexivity|]. inversion F; subst. cbn [first_block]. rewrite not_open_any by assumption.
      rewrite IH by assumption. replace (S i + length before) with (i + S (length before)) by lia. reflexivity. }
    assert (K2 : forall inner i cc st, Forall (fun l => ~ end_tag_on U tag l) inner -> first_block U tag i (inner ++ c :: after) (Some (cc, st)) = first_block U tag (i + length inner) (c :: after) (Some (cc ++ inner, st))).
    { clear. induction inner as [|l inner IH]; intros i cc st F; cbn [app length]; [rewrite Nat.add_0_r, app_nil_r; reflexivity|]. inversion F; subst. cbn [first_block]. rewrite not_close by assumption.
      rewrite IH, <- app_assoc by assumption. replace (S i + length inner) with (i + S (length inner)) by lia. reflexivity. }
    rewrite K1 by exact FB. cbn [first_block]. replace (opens U tag false o) with true; [|symmetry; apply opens_iff; [exact NT|split; [exact T|intros (Q & _); discriminate]]].
    unfold begun. rewrite after_alone by exact A. rewrite K2 by exact FI. cbn [first_block]. rewrite close, before_first by assumption. rewrite app_nil_r. cbn [app]. destruct inner; [congruence|reflexivity].
  Qed.
End B2.
