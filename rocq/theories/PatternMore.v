(** Whole patterns: what reaches the engine, and what it selects. *)
From Verif Require Import Base Text Regex RegexProofs Glob GlobSpec GlobProofs GlobMore Pattern PatternSpec PatternProofs.
From Coq Require Import Permutation.
Open Scope nat_scope.

(** * Bars *)
Lemma plain_no s c : plain s -> In c (txt "\.+*?()|[]^$") -> ~ In c s.
Proof. intros P I J. exact (P c J I). Qed.
Lemma piece_no p c : plain (body p) -> In c (txt "\.+*?()|[]") -> ~ In c (write_piece p).
Proof.
  intros P I J. unfold write_piece in J. apply in_app_or in J.
  assert (K : c <> ch "^" /\ c <> ch "$") by (cbn in I; split; intros ->; repeat (destruct I as [I|I]; [discriminate|]); destruct I).
  destruct J as [J|J]; [destruct (at_start p); [destruct J as [J|[]]; destruct K; auto|destruct J]|].
  apply in_app_or in J. destruct J as [J|J]; [|destruct (at_end p); [destruct J as [J|[]]; destruct K; auto|destruct J]].
  apply (P c J). cbn in I |- *. repeat (destruct I as [<-|I]; [auto 20|]). destruct I.
Qed.
Lemma bre_bars : forall l p convert i empty skip, Forall (fun x => plain (body x)) (p :: map snd l) ->
  forward convert (write_pattern p l) i empty skip = bars p l.
Proof.
  induction l as [|(bs, p') l IH]; intros p convert i empty skip F; inversion F as [|x y P F']; subst; cbn [write_pattern bars].
  - apply forward_none. apply piece_no; [exact P|]. left. reflexivity.
  - rewrite forward_plain by (apply piece_no; [exact P|left; reflexivity]). f_equal. destruct bs.
    + rewrite forward_bar, IH by exact F'. reflexivity.
    + rewrite forward_plain, IH by first [exact F'|vm_compute; intuition discriminate]. reflexivity.
Qed.
Lemma bars_no l : forall p c, Forall (fun x => plain (body x)) (p :: map snd l) -> In c (txt "\.+*?()[]") -> ~ In c (bars p l).
Proof.
  induction l as [|(bs, p') l IH]; intros p c F I; inversion F as [|x y P F']; subst; cbn [bars].
  - apply piece_no; [exact P|]. cbn in I |- *. repeat (destruct I as [<-|I]; [auto 20|]). destruct I.
  - intros J. apply in_app_or in J. destruct J as [J|J].
    + revert J. apply piece_no; [exact P|]. cbn in I |- *. repeat (destruct I as [<-|I]; [auto 20|]). destruct I.
    + apply in_app_or in J. destruct J as [[J|[]]|J]; [|revert J; apply IH; auto]. subst c. cbn in I. repeat (destruct I as [I|I]; [discriminate|]). destruct I.
Qed.
(** No repetition can straddle a character that is not part of one. *)
Lemma repetition_chars b c : repetition b -> In c b -> (48 <= c <= 57)%Z \/ c = ch ",".
Proof.
  intros [(_ & N)|(m & n & -> & N1 & N2 & _)] I; [left; auto|]. apply in_app_or in I. destruct I as [I|I]; [left; auto|].
  apply in_app_or in I. destruct I as [[I|[]]|I]; [right; auto|left; auto].
Qed.
Lemma no_repetition_sep u x v : zmem x (txt "0123456789,{}") = false -> no_repetition u -> no_repetition v -> no_repetition (u ++ x :: v).
Proof.
  intros X NU NV a b c E R.
  assert (XB : ~ In x (txt "{" ++ b ++ txt "}")).
  { intros I. assert (K : In x (txt "0123456789,{}")); [|apply zmem_in in K; congruence].
    apply in_app_or in I. destruct I as [[<-|[]]|I]; [cbn; auto 20|]. apply in_app_or in I. destruct I as [I|[<-|[]]]; [|cbn; auto 20].
    destruct (repetition_chars b x R I) as [K| ->]; [|cbn; auto 20]. cbn.
    assert (D : (x = 48 \/ x = 49 \/ x = 50 \/ x = 51 \/ x = 52 \/ x = 53 \/ x = 54 \/ x = 55 \/ x = 56 \/ x = 57)%Z) by lia.
    repeat (destruct D as [->|D]; [auto 20|]). subst x. auto 20. }
  replace (a ++ txt "{" ++ b ++ txt "}" ++ c) with (a ++ (txt "{" ++ b ++ txt "}") ++ c) in E by (rewrite <- !app_assoc; reflexivity).
  apply app_eq_app in E. destruct E as (l & [(-> & E)|(-> & E)]).
  - apply app_eq_app in E. destruct E as (l2 & [(E & E2)|(-> & E2)]).
    + destruct l2 as [|y l2].
      * rewrite app_nil_r in E. subst l. apply (NU a b []); [reflexivity|exact R].
      * injection E2 as -> _. apply XB. rewrite E. apply in_or_app. right. left. reflexivity.
    + apply (NU a b l2); [rewrite <- !app_assoc; reflexivity|exact R].
  - destruct l as [|y l].
    + injection E as -> _. apply XB. left. reflexivity.
    + injection E as -> ->. apply (NV l b c); [rewrite <- !app_assoc; reflexivity|exact R].
Qed.
Lemma no_repetition_nil : no_repetition [].
Proof. intros a b c E. destruct a; discriminate. Qed.
Lemma piece_no_repetition p : no_repetition (body p) -> no_repetition (write_piece p).
Proof.
  intros N. unfold write_piece.
  assert (K : no_repetition (body p ++ (if at_end p then txt "$" else []))).
  { destruct (at_end p); [|rewrite app_nil_r; exact N]. apply (no_repetition_sep (body p) (ch "$") []); [reflexivity|exact N|apply no_repetition_nil]. }
  destruct (at_start p); [|exact K]. apply (no_repetition_sep [] (ch "^")); [reflexivity|apply no_repetition_nil|exact K].
Qed.
Lemma bars_no_repetition : forall l p, Forall (fun x => no_repetition (body x)) (p :: map snd l) -> no_repetition (bars p l).
Proof.
  induction l as [|(bs, p') l IH]; intros p F; inversion F as [|x y P F']; subst; cbn [bars].
  - apply piece_no_repetition. exact P.
  - apply (no_repetition_sep (write_piece p) (ch "|")); [reflexivity|apply piece_no_repetition; exact P|apply IH; exact F'].
Qed.
Lemma ere_bars p l : Forall (fun x => plain (body x) /\ no_repetition (body x)) (p :: map snd l) ->
  escape_literal_braces (bre_to_ere (write_pattern p l)) = flat_map brace (bars p l).
Proof.
  intros F.
  assert (F1 : Forall (fun x => plain (body x)) (p :: map snd l)) by (eapply Forall_impl; [|exact F]; cbn; tauto).
  assert (F2 : Forall (fun x => no_repetition (body x)) (p :: map snd l)) by (eapply Forall_impl; [|exact F]; cbn; tauto).
  unfold bre_to_ere. rewrite bre_bars by exact F1. unfold escape_literal_braces. apply escape_braces_plain.
  - apply bars_no; [exact F1|left; reflexivity].
  - apply bars_no; [exact F1|cbn; auto 20].
  - apply bars_no_repetition. exact F2.
Qed.

(** * Parsing *)
Definition inline (cs : bool) : text := if cs then txt "(?m)" else txt "(?mi)".
Lemma parse_inline cs b r : read b [] [] [] = Some r -> parse (inline cs ++ b) = Some ({| multi_line := true; any_case := negb cs |}, r).
Proof. intros H. destruct cs; unfold parse; cbn -[read]; rewrite H; reflexivity. Qed.
Lemma escape_begins p s : p <> [] -> starts_with (txt "(?") (escape p ++ s) = false.
Proof.
  intros N. destruct p as [|c p]; [congruence|]. cbn [escape]. destruct (zmem c punctuation) eqn:M; [reflexivity|].
  change ((c :: escape p) ++ s) with (c :: escape p ++ s). cbn [starts_with txt]. destruct (Z.eqb_spec (ch "(") c) as [<-|]; [discriminate|].
  destruct ((Z.of_nat _ =? c)%Z) eqn:E; [|reflexivity]. exfalso. apply Z.eqb_eq in E. auto.
Qed.
Lemma parse_escape p : p <> [] -> exists r, parse (escape p) = Some (plain_flags, r) /\ forall fold word x, found fold word plain_flags r x <-> literally p x.
Proof.
  intros N. exists (alternatives [] (rev (map Lit p))). split.
  - apply no_flags; auto.
    + rewrite <- (app_nil_r (escape p)). apply escape_begins. exact N.
    + rewrite <- (app_nil_r (escape p)), read_escape, app_nil_r. reflexivity.
  - intros fold word x. unfold alternatives. cbn [fold_left]. rewrite sequence_chain, rev_involutive. apply found_lits.
Qed.
Lemma parse_word_escape p : exists r, parse (txt "\b" ++ escape p ++ txt "\b") = Some (plain_flags, r) /\
  forall fold word x, found fold word plain_flags r x <-> whole_word true fold word p x.
Proof.
  exists (alternatives [] (WordB :: rev (map Lit p) ++ [WordB])). split.
  - apply no_flags; auto. change (read (txt "\b" ++ escape p ++ txt "\b") [] [] []) with (read (escape p ++ txt "\b") [] [] [WordB]).
    rewrite read_escape. reflexivity.
  - intros fold word x. unfold alternatives. cbn [fold_left]. rewrite sequence_chain. cbn [rev]. rewrite rev_app_distr, rev_involutive. cbn [rev app].
    unfold found, whole_word. split.
    + intros (pre & mid & post & -> & H). exists pre, mid, post. split; [reflexivity|]. cbn [chain] in H.
      apply cat_inv in H. destruct H as (a & b & -> & H1 & H2). rewrite chain_app in H2. apply matches_chain in H2.
      destruct H2 as (b1 & b2 & -> & H2 & H3). apply lits_spec in H2. cbn [chain] in H3. apply cat_inv in H3. destruct H3 as (c1 & c2 & -> & H3 & H4).
      apply eps_inv in H4. subst c2. inversion H1; subst. inversion H3; subst. rewrite !app_nil_r in *. cbn [app alike] in *. auto.
    + intros (pre & mid & post & -> & H & E1 & E2). exists pre, mid, post. split; [reflexivity|]. cbn [chain]. apply cat_inv. exists [], mid. split; [reflexivity|].
      split; [constructor; exact E1|]. rewrite app_nil_r, chain_app. apply matches_chain. exists mid, []. rewrite app_nil_r. split; [reflexivity|].
      split; [apply lits_spec; symmetry; exact H|]. cbn [chain]. apply cat_inv. exists [], []. split; [reflexivity|]. split; [constructor; exact E2|constructor].
Qed.

(** * Selection *)
Section Select.
  Variable E : engine. Variable hash_order : list Z -> list Z.
  Hypothesis HE : faithful E.
  Hypothesis HH : forall l, Permutation (hash_order l) l.
  Notation select := (filter_by_text_pattern E hash_order).

  Lemma regexp_spec p fl r rows : parse p = Some (fl, r) -> exists l, regexp E rows p = Some l /\
    (forall id, In id l <-> exists code, In (id, code) rows /\ found (e_fold E) (e_word E) fl r code) /\
    exists keep, l = map fst (filter (fun x => keep (snd x)) rows) /\ forall code, keep code = true <-> found (e_fold E) (e_word E) fl r code.
  Proof.
    intros H. destruct (HE p fl r H) as (f & EC & HF). unfold regexp. rewrite EC. eexists. split; [reflexivity|]. split.
    - intros id. rewrite in_map_iff. split.
      + intros ((i & code) & <- & I). apply filter_In in I. exists code. rewrite <- HF. exact I.
      + intros (code & I & K). exists (id, code). split; [reflexivity|]. apply filter_In. rewrite HF. auto.
    - exists f. split; [reflexivity|exact HF].
  Qed.
  Definition literal_pattern (p : text) (word : bool) : text := if word then txt "\b" ++ escape p ++ txt "\b" else escape p.
  Definition literal_hit (p : text) (word : bool) (code : text) : Prop :=
    if word then whole_word true (e_fold E) (e_word E) p code else literally p code.
  Lemma literal_parse p word : p <> [] -> exists r, parse (literal_pattern p word) = Some (plain_flags, r) /\
    forall x, found (e_fold E) (e_word E) plain_flags r x <-> literal_hit p word x.
  Proof.
    intros N. destruct word; [destruct (parse_word_escape p) as (r & P & H)|destruct (parse_escape p N) as (r & P & H)]; exists r; split; auto; intros x; apply H.
  Qed.
  Definition typed (p : text) (extended word cs : bool) : text :=
    if word then inline cs ++ txt "\b" ++ escape_literal_braces (bre_to_ere p) ++ txt "\b"
    else if extended then inline cs ++ escape_literal_braces (bre_to_ere p) else inline cs ++ escape p.
  Lemma typed_differs p extended word cs : p <> [] -> text_eqb (typed p extended word cs) (literal_pattern p word) = false.
  Proof.
    intros N. destruct (text_eqb _ _) eqn:EQ; auto. apply text_eqb_eq in EQ. exfalso.
    assert (K : starts_with (txt "(?") (typed p extended word cs) = true) by (unfold typed, inline; destruct word, extended, cs; reflexivity).
    rewrite EQ in K. unfold literal_pattern in K. destruct word; [discriminate|]. rewrite <- (app_nil_r (escape p)), escape_begins in K by exact N. discriminate.
  Qed.
  Lemma select_unfold rows p extended word cs : p <> [] -> select rows p extended false word cs =
    if text_eqb (typed p extended word cs) (literal_pattern p word)
    then match regexp E rows (typed p extended word cs) with Some l => Ok l | None => Err end
    else match regexp E rows (typed p extended word cs) with
         | Some l => Ok (hash_order (nodup Z.eq_dec (l ++ match regexp E rows (literal_pattern p word) with Some l => l | None => [] end)))
         | None => Ok match regexp E rows (literal_pattern p word) with Some l => l | None => [] end
         end.
  Proof. destruct p; [congruence|reflexivity]. Qed.
  (** The answer: what the regular expression finds, if the engine takes it, and what is there
      literally. *)
  Lemma select_spec rows p extended word cs : p <> [] -> exists l, select rows p extended false word cs = Ok l /\
    (NoDup (map fst rows) -> NoDup l) /\
    forall id, In id l <-> exists code, In (id, code) rows /\
      (literal_hit p word code \/ exists f, compile E (typed p extended word cs) = Some f /\ f code = true).
  Proof.
    intros N. rewrite select_unfold, typed_differs by exact N.
    destruct (literal_parse p word N) as (r & P & HR). destruct (regexp_spec _ _ _ rows P) as (lf & EF & HF & keep & EK & HK). rewrite EF.
    unfold regexp. destruct (compile E (typed p extended word cs)) as [f|] eqn:EC.
    - eexists. split; [reflexivity|]. split.
      + intros _. eapply Permutation_NoDup; [symmetry; apply HH|apply NoDup_nodup].
      + intros id. transitivity (In id (nodup Z.eq_dec (map fst (filter (fun x => f (snd x)) rows) ++ lf))).
        { split; apply Permutation_in; [apply HH|symmetry; apply HH]. }
        rewrite nodup_In, in_app_iff, HF, in_map_iff. split.
        * intros [((i & code) & <- & I)|(code & I & K)].
          -- apply filter_In in I. exists code. split; [apply I|]. right. exists f. split; [reflexivity|apply I].
          -- exists code. split; auto. left. apply HR. exact K.
        * intros (code & I & [K|(g & EG & K)]).
          -- right. exists code. split; auto. apply HR. exact K.
          -- left. injection EG as <-. exists (id, code). split; [reflexivity|]. apply filter_In. auto.
    - exists lf. split; [reflexivity|]. split.
      + intros ND. subst lf. clear -ND. induction rows as [|x rows IH]; cbn [filter map]; [constructor|]. inversion ND; subst.
        destruct (keep (snd x)); cbn [map]; [|auto]. constructor; [|auto]. intros I. match goal with K : ~ In _ _ |- _ => apply K end.
        apply in_map_iff in I. destruct I as (y & <- & I). apply in_map. apply filter_In in I. apply I.
      + intros id. rewrite HF. split.
        * intros (code & I & K). exists code. split; auto. left. apply HR. exact K.
        * intros (code & I & [K|(g & EG & _)]); [|discriminate]. exists code. split; auto. apply HR. exact K.
  Qed.
  Lemma typed_found p extended word cs fl r : parse (typed p extended word cs) = Some (fl, r) -> forall code,
    (exists f, compile E (typed p extended word cs) = Some f /\ f code = true) <-> found (e_fold E) (e_word E) fl r code.
  Proof.
    intros P code. destruct (HE _ _ _ P) as (f & EC & HF). rewrite EC. split.
    - intros (g & EG & H). injection EG as <-. apply HF. exact H.
    - intros H. exists f. split; [reflexivity|]. apply HF. exact H.
  Qed.
  Lemma fixed_unfold rows p extended word cs : p <> [] -> select rows p extended true word cs =
    match regexp E rows (literal_pattern p word) with Some l => Ok l | None => Err end.
  Proof. destruct p; [congruence|reflexivity]. Qed.
End Select.
