(** From the pattern typed to the texts selected. *)
From Verif Require Import Base Text Regex RegexProofs Glob GlobSpec GlobProofs GlobMore Pattern PatternSpec.
Open Scope nat_scope.

(** * bre_to_ere *)
Lemma forward_plain convert : forall a s i empty skip, ~ In (ch "\") a ->
  forward convert (a ++ s) i empty skip = a ++ forward convert s (i + length a) (match a with [] => empty | _ => false end) skip.
Proof.
  induction a as [|c a IH]; intros s i empty skip N; [cbn; rewrite Nat.add_0_r; reflexivity|].
  change ((c :: a) ++ s) with (c :: (a ++ s)). cbn [forward]. rewrite (proj2 (Z.eqb_neq c (ch "\"))) by (intros ->; apply N; left; auto).
  cbn [negb]. rewrite IH by (intros I; apply N; right; auto). replace (S i + length a) with (i + length (c :: a)) by (cbn [length]; lia).
  destruct a; reflexivity.
Qed.
Lemma forward_bar convert s i empty skip : forward convert (txt "\|" ++ s) i empty skip = txt "|" ++ forward convert s (i + 2) false skip.
Proof. reflexivity. Qed.
Lemma forward_none convert a i empty skip : ~ In (ch "\") a -> forward convert a i empty skip = a.
Proof. intros N. rewrite <- (app_nil_r a) at 1. rewrite forward_plain by auto. cbn [forward]. apply app_nil_r. Qed.
Lemma bre_none p : ~ In (ch "\") p -> bre_to_ere p = p.
Proof. intros N. apply forward_none. exact N. Qed.

(** * escape_literal_braces *)
Definition brace (c : Z) : text := if zmem c (txt "{}") then [ch "["; c; ch "]"] else [c].
Lemma closing_some : forall s b, closing s = Some b -> exists c, s = b ++ txt "}" ++ c.
Proof.
  induction s as [|d s IH]; intros b H; cbn [closing] in H; [discriminate|].
  destruct (Z.eqb_spec d (ch "}")) as [->|N]; [injection H as <-; exists s; reflexivity|]. destruct (d =? _)%Z; [discriminate|].
  destruct (closing s) as [b'|]; [|discriminate]. injection H as <-. destruct (IH b' eq_refl) as (c & ->). exists c. reflexivity.
Qed.
Lemma digits_number s : forallb a_digit s = true <-> number s.
Proof.
  rewrite forallb_forall. unfold number, a_digit. split; intros H c I; specialize (H c I).
  - apply andb_prop in H. rewrite !Z.leb_le in H. lia.
  - apply andb_true_intro. rewrite !Z.leb_le. lia.
Qed.
Lemma nonempty_spec (s : text) : negb (text_eqb s []) = true <-> s <> [].
Proof. rewrite negb_true_iff. split; [intros H ->; discriminate|]. intros N. destruct (text_eqb s []) eqn:E; auto. apply text_eqb_eq in E. contradiction. Qed.
Lemma valid_repetition b : is_valid_quantifier b = true -> repetition b.
Proof.
  unfold is_valid_quantifier, repetition. destruct (find_char (ch ",") b) as [(x, y)|] eqn:E; intros H.
  - right. apply find_char_spec in E. destruct E as (-> & _). apply andb_prop in H. destruct H as (H & K). apply andb_prop in H.
    rewrite !digits_number in H. apply orb_prop in K. rewrite !nonempty_spec in K. exists x, y. split; [reflexivity|]. tauto.
  - left. apply andb_prop in H. rewrite digits_number, nonempty_spec in H. exact H.
Qed.
Lemma escape_braces_plain : forall s prev, ~ In (ch "\") s -> ~ In (ch "[") s -> no_repetition s ->
  escape_braces prev s false 0 = flat_map brace s.
Proof.
  induction s as [|c s IH]; intros prev N1 N2 NR; [reflexivity|].
  assert (IH' : forall pr, escape_braces pr s false 0 = flat_map brace s).
  { intros pr. apply IH; [intros I; apply N1; right; auto|intros I; apply N2; right; auto|]. intros a b d ->. apply (NR (c :: a) b d). reflexivity. }
  cbn [escape_braces flat_map].
  rewrite (proj2 (Z.eqb_neq c (ch "["))) by (intros ->; apply N2; left; auto). cbn [andb]. rewrite andb_false_r. cbn [andb].
  rewrite (proj2 (Z.eqb_neq c (ch "\"))) by (intros ->; apply N1; left; auto). rewrite !IH'.
  unfold brace. destruct (Z.eqb_spec c (ch "{")) as [->|B1].
  - change (zmem (ch "{") (txt "{}")) with true. destruct (closing s) as [b|] eqn:EC; [|reflexivity].
    destruct (is_valid_quantifier b) eqn:EV; [|reflexivity]. exfalso. apply closing_some in EC. destruct EC as (d & ->).
    apply (NR [] b d); [reflexivity|apply valid_repetition; auto].
  - destruct (Z.eqb_spec c (ch "}")) as [->|B2]; [reflexivity|].
    replace (zmem c (txt "{}")) with false; [reflexivity|]. symmetry. destruct (zmem c (txt "{}")) eqn:Z0; auto. apply zmem_in in Z0.
    cbn in Z0. destruct Z0 as [Z0|[Z0|[]]]; exfalso; [apply B1|apply B2]; auto.
Qed.

(** * Reading *)
Definition atom (c : Z) : re := if zmem c (txt "{}") then Class false c else Lit c.
Lemma read_class c s st alts q : plain_class c = true -> read (ch "[" :: c :: ch "]" :: s) st alts q = read s st alts (Class false c :: q).
Proof. intros H. cbn -[plain_class]. rewrite H. reflexivity. Qed.
Lemma read_atoms : forall p s st alts q, plain p -> read (flat_map brace p ++ s) st alts q = read s st alts (rev (map atom p) ++ q).
Proof.
  induction p as [|c p IH]; intros s st alts q P; [reflexivity|]. cbn [flat_map map rev]. rewrite <- (app_assoc (rev (map atom p))), <- (app_assoc (brace c)).
  cbn [app]. rewrite <- IH by (intros d I; apply P; right; auto). unfold brace, atom. destruct (zmem c (txt "{}")) eqn:B.
  - apply zmem_in in B. cbn [app]. apply read_class. cbn in B. destruct B as [<-|[<-|[]]]; reflexivity.
  - cbn [app]. apply read_plain. destruct (zmem c (txt "()|*+?.^$\[]{}")) eqn:M; [|reflexivity]. exfalso. apply zmem_in in M.
    assert (NB : c <> 123%Z /\ c <> 125%Z) by (split; intros ->; discriminate). apply (P c); [left; auto|]. cbn in M |- *.
    repeat (destruct M as [M|M]; [rewrite <- M in *; auto 20; exfalso; destruct NB; auto|]). destruct M.
Qed.
Definition piece_re (p : piece) : list re := (if at_start p then [Bol] else []) ++ map atom (body p) ++ (if at_end p then [Eol] else []).
Lemma read_piece p s st alts : plain (body p) -> read (flat_map brace (write_piece p) ++ s) st alts [] = read s st alts (rev (piece_re p)).
Proof.
  intros P. unfold write_piece, piece_re. rewrite !flat_map_app, !rev_app_distr, <- !app_assoc.
  assert (K : forall s q, read (flat_map brace (if at_end p then txt "$" else []) ++ s) st alts q = read s st alts ((if at_end p then [Eol] else []) ++ q)).
  { intros. destruct (at_end p); reflexivity. }
  destruct (at_start p).
  - change (flat_map brace (txt "^") ++ flat_map brace (body p) ++ flat_map brace (if at_end p then txt "$" else []) ++ s)
      with (ch "^" :: flat_map brace (body p) ++ flat_map brace (if at_end p then txt "$" else []) ++ s).
    change (read (ch "^" :: flat_map brace (body p) ++ flat_map brace (if at_end p then txt "$" else []) ++ s) st alts [])
      with (read (flat_map brace (body p) ++ flat_map brace (if at_end p then txt "$" else []) ++ s) st alts [Bol]).
    rewrite read_atoms, K by exact P. f_equal. destruct (at_end p); reflexivity.
  - cbn [flat_map app]. rewrite read_atoms, K by exact P. f_equal. destruct (at_end p); reflexivity.
Qed.
(** A pattern with plain bars. *)
Fixpoint bars (p : piece) (l : list (bool * piece)) : text :=
  match l with [] => write_piece p | (_, p') :: l' => write_piece p ++ txt "|" ++ bars p' l' end.
Lemma read_bars : forall l p alts, Forall (fun x => plain (body x)) (p :: map snd l) ->
  exists r, read (flat_map brace (bars p l)) [] alts [] = Some r /\
    forall fold word fl x, found fold word fl r x <->
      (exists a, In a alts /\ found fold word fl a x) \/ exists b, In b (p :: map snd l) /\ found fold word fl (chain (piece_re b) Eps) x.
Proof.
  induction l as [|(bs, p') l IH]; intros p alts F; inversion F as [|x y P F']; subst.
  - exists (alternatives alts (rev (piece_re p))). split.
    + cbn [bars]. rewrite <- (app_nil_r (flat_map brace (write_piece p))), read_piece by exact P. reflexivity.
    + intros fold word fl x. rewrite found_alternatives, sequence_chain, rev_involutive. cbn [map In]. split.
      * intros [H|H]; [left; auto|right; eauto].
      * intros [H|(b & [->|[]] & H)]; auto.
  - destruct (IH p' (sequence (rev (piece_re p)) :: alts) F') as (r & ER & H). exists r. split.
    + cbn [bars]. rewrite flat_map_app, read_piece by exact P. rewrite <- ER. reflexivity.
    + intros fold word fl x. rewrite H. cbn [map snd In]. split.
      * intros [(a & [<-|I] & K)|(b & I & K)].
        -- right. exists p. split; [left; auto|]. rewrite sequence_chain, rev_involutive in K. exact K.
        -- left. exists a. auto.
        -- right. exists b. split; [right; exact I|exact K].
      * intros [(a & I & K)|(b & [<-|I] & K)].
        -- left. exists a. split; [right; exact I|exact K].
        -- left. exists (sequence (rev (piece_re p))). split; [left; auto|]. rewrite sequence_chain, rev_involutive. exact K.
        -- right. eauto.
Qed.

(** * What is found *)
Section Meaning.
  Variable fold : Z -> Z. Variable word : Z -> bool. Variable cs : bool.
  Notation fl := {| multi_line := true; any_case := negb cs |}.
  Lemma same_alike c d : same fold fl c d <-> alike cs fold [c] [d].
  Proof. unfold same, alike. destruct cs; cbn; split; intros H; try congruence; injection H; auto. Qed.
  Lemma alike_cons c p d m : alike cs fold (c :: p) (d :: m) <-> alike cs fold [c] [d] /\ alike cs fold p m.
  Proof.
    unfold alike. destruct cs; cbn [map]; split.
    - intros H. injection H as -> ->. auto.
    - intros (H & ->). injection H as ->. reflexivity.
    - intros H. injection H as H1 H2. rewrite H1. auto.
    - intros (H & H2). injection H as H. congruence.
  Qed.
  Lemma alike_length p m : alike cs fold p m -> length m = length p.
  Proof. unfold alike. destruct cs; [congruence|]. intros H. apply (f_equal (@length Z)) in H. rewrite !map_length in H. auto. Qed.
  Lemma atom_inv c pre mid post : matches fold word fl (atom c) pre mid post <-> exists d, mid = [d] /\ alike cs fold [c] [d].
  Proof.
    unfold atom. split.
    - intros H. destruct (zmem c (txt "{}")); inversion H; subst; exists d; (split; [reflexivity|]); apply same_alike; auto.
    - intros (d & -> & H). apply same_alike in H. destruct (zmem c (txt "{}")); constructor; exact H.
  Qed.
  Lemma atoms_inv : forall p pre mid post, matches fold word fl (chain (map atom p) Eps) pre mid post <-> alike cs fold p mid.
  Proof.
    induction p as [|c p IH]; intros pre mid post; cbn [map chain].
    - rewrite eps_inv. unfold alike. destruct cs; cbn [map]; split; intros H; try congruence; [subst; reflexivity|destruct mid; [auto|discriminate]].
    - rewrite cat_inv. split.
      + intros (a & b & -> & H1 & H2). apply atom_inv in H1. destruct H1 as (d & -> & H1). apply IH in H2. apply alike_cons. auto.
      + intros H. destruct mid as [|d m]; [apply alike_length in H; discriminate|]. apply alike_cons in H. exists [d], m. split; [reflexivity|].
        split; [apply atom_inv; exists d; tauto|apply IH; tauto].
  Qed.
  Lemma bol_line pre post : matches fold word fl Bol pre [] post <-> line_start pre.
  Proof. split; [intros H; inversion H; subst; cbn in *; unfold line_start; intuition|]. intros H. constructor. unfold line_start in H. cbn. tauto. Qed.
  Lemma eol_line pre post : matches fold word fl Eol pre [] post <-> line_end post.
  Proof. split; [intros H; inversion H; subst; cbn in *; unfold line_end; intuition|]. intros H. constructor. unfold line_end in H. cbn. tauto. Qed.
  Lemma found_piece p code : found fold word fl (chain (piece_re p) Eps) code <-> occurs cs fold p code.
  Proof.
    unfold found, occurs. split.
    - intros (pre & mid & post & -> & H). exists pre, mid, post. split; [reflexivity|]. unfold piece_re in H.
      rewrite chain_app in H. apply matches_chain in H. destruct H as (a & b & -> & H1 & H2).
      rewrite chain_app in H2. apply matches_chain in H2. destruct H2 as (b1 & b2 & -> & H2 & H3). apply atoms_inv in H2.
      assert (A : a = [] /\ (at_start p = true -> line_start pre)).
      { destruct (at_start p); cbn [chain] in H1.
        - apply cat_inv in H1. destruct H1 as (a1 & a2 & -> & H1 & H4). apply eps_inv in H4. subst a2.
          assert (E : a1 = []) by (inversion H1; auto). subst a1. split; [reflexivity|]. intros _. eapply bol_line; exact H1.
        - apply eps_inv in H1. split; [exact H1|discriminate]. }
      destruct A as (-> & A).
      assert (B : b2 = [] /\ (at_end p = true -> line_end post)).
      { destruct (at_end p); cbn [chain] in H3.
        - apply cat_inv in H3. destruct H3 as (a1 & a2 & -> & H3 & H4). apply eps_inv in H4. subst a2.
          assert (E : a1 = []) by (inversion H3; auto). subst a1. split; [reflexivity|]. intros _. eapply eol_line; exact H3.
        - apply eps_inv in H3. split; [exact H3|discriminate]. }
      destruct B as (-> & B). cbn [app]. rewrite app_nil_r. auto.
    - intros (pre & mid & post & -> & H & A & B). exists pre, mid, post. split; [reflexivity|]. unfold piece_re.
      rewrite chain_app. apply matches_chain. exists [], mid. split; [reflexivity|]. split.
      + destruct (at_start p); cbn [chain]; [|constructor]. change (@nil Z) with (@nil Z ++ []). apply cat_inv. exists [], []. split; [reflexivity|].
        split; [apply bol_line; auto|constructor].
      + rewrite app_nil_r, chain_app. apply matches_chain. exists mid, []. rewrite app_nil_r. split; [reflexivity|]. split; [apply atoms_inv; exact H|].
        destruct (at_end p); cbn [chain]; [|constructor]. apply cat_inv. exists [], []. split; [reflexivity|]. split; [apply eol_line; auto|constructor].
  Qed.
  Lemma found_word p code : found fold word fl (chain (WordB :: map atom p ++ [WordB]) Eps) code <-> whole_word cs fold word p code.
  Proof.
    unfold found, whole_word. cbn [chain]. split.
    - intros (pre & mid & post & -> & H). exists pre, mid, post. split; [reflexivity|].
      apply cat_inv in H. destruct H as (a & b & -> & H1 & H2). rewrite chain_app in H2. apply matches_chain in H2.
      destruct H2 as (b1 & b2 & -> & H2 & H3). apply atoms_inv in H2. cbn [chain] in H3. apply cat_inv in H3. destruct H3 as (c1 & c2 & -> & H3 & H4).
      apply eps_inv in H4. subst c2. inversion H1; subst. inversion H3; subst. rewrite !app_nil_r in *. cbn [app] in *. auto.
    - intros (pre & mid & post & -> & H & E1 & E2). exists pre, mid, post. split; [reflexivity|]. apply cat_inv. exists [], mid. split; [reflexivity|].
      split; [constructor; exact E1|]. rewrite app_nil_r, chain_app. apply matches_chain. exists mid, []. rewrite app_nil_r. split; [reflexivity|].
      split; [apply atoms_inv; exact H|]. cbn [chain]. apply cat_inv. exists [], []. split; [reflexivity|]. split; [constructor; exact E2|constructor].
  Qed.
End Meaning.
Lemma found_lits fold word p code : found fold word plain_flags (chain (map Lit p) Eps) code <-> literally p code.
Proof.
  unfold found, literally. split.
  - intros (pre & mid & post & -> & H). apply lits_spec in H. subst mid. eauto.
  - intros (pre & post & ->). exists pre, p, post. split; [reflexivity|]. apply lits_spec. reflexivity.
Qed.
