(** Proofs about Embed.v. *)
From Verif Require Import Base Text FtsText FtsTextSpec FtsTextProofs SqlModel MetaModel Units Embed EmbedSpec.
Open Scope nat_scope.

(** ** White space splitting, one character at a time *)
Definition flush (cur : text) : list text := match cur with [] => [] | _ => [cur] end.
Fixpoint sw (ws : Z -> bool) (cur s : text) : list text :=
  match s with [] => flush cur | c :: r => if ws c then flush cur ++ sw ws [] r else sw ws (cur ++ [c]) r end.
Lemma sw_gap ws g s : all ws g -> sw ws [] (g ++ s) = sw ws [] s.
Proof. induction g as [|c g IH]; intros A; [reflexivity|]. apply all_cons in A. destruct A as (A & B). cbn. rewrite A. apply IH. exact B. Qed.
Lemma sw_word ws w : forall cur s, none ws w -> sw ws cur (w ++ s) = sw ws (cur ++ w) s.
Proof.
  induction w as [|c w IH]; intros cur s N; cbn; [rewrite app_nil_r; reflexivity|].
  rewrite (N c) by (left; reflexivity). rewrite IH by (intros x Hx; apply N; right; exact Hx). rewrite <- app_assoc. reflexivity.
Qed.
Lemma splits_sw ws s l : splits ws s l -> sw ws [] s = l.
Proof.
  induction 1 as [g G|g w r l G N W R S IH].
  - rewrite <- (app_nil_r g), sw_gap by exact G. reflexivity.
  - rewrite sw_gap by exact G. rewrite sw_word by exact N. cbn [app].
    destruct R as [->|(c & r' & -> & C)].
    + cbn in *. subst l. destruct w; [contradiction|reflexivity].
    + cbn in *. rewrite C in *. cbn in IH. rewrite IH. destruct w; [contradiction|reflexivity].
Qed.
Lemma split_ws_sw ws s : split_whitespace ws s = sw ws [] s.
Proof. symmetry. apply splits_sw. apply split_ws_splits. lia. Qed.
Lemma sw_app_space ws b : forall a cur, ws 32%Z = true -> sw ws cur (a ++ [32%Z] ++ b) = sw ws cur a ++ sw ws [] b.
Proof.
  induction a as [|c a IH]; intros cur W; cbn [app sw].
  - rewrite W. reflexivity.
  - destruct (ws c); [rewrite <- app_assoc; f_equal|]; apply IH; exact W.
Qed.
Lemma sw_words ws s : forall cur, none ws cur -> Forall (fun w => w <> [] /\ none ws w) (sw ws cur s).
Proof.
  induction s as [|c s IH]; intros cur N; cbn.
  - unfold flush. destruct cur; constructor; [split; [discriminate|exact N]|constructor].
  - destruct (ws c) eqn:W.
    + apply Forall_app. split; [unfold flush; destruct cur; constructor; [split; [discriminate|exact N]|constructor]|apply IH; intros x []].
    + apply IH. apply none_app. split; [exact N|]. intros x [<-|[]]. exact W.
Qed.
Lemma sw_join ws l : ws 32%Z = true -> Forall (fun w => w <> [] /\ none ws w) l -> sw ws [] (join (txt " ") l) = l.
Proof.
  intros W F. induction F as [|w l (N & A) F IH]; [reflexivity|]. destruct l as [|w' l].
  - cbn [join]. rewrite <- (app_nil_r w) at 1. rewrite sw_word by exact A. cbn. destruct w; [contradiction|reflexivity].
  - cbn [join]. change (txt " ") with [32%Z] in *. rewrite sw_app_space by exact W. cbn [join] in IH. rewrite IH.
    rewrite <- (app_nil_r w) at 1. rewrite sw_word by exact A. cbn. destruct w; [contradiction|reflexivity].
Qed.

(** ** Truncation *)
Lemma trim_start_suffix p s : exists g, s = g ++ trim_start p s /\ all p g.
Proof. destruct (trim_start_spec p s) as (l & A & B & _). exists l. auto. Qed.
Lemma trim_end_prefix U s : exists g, s = trim_end U s ++ g /\ all (u_ws U) g.
Proof.
  unfold trim_end. destruct (trim_start_suffix (u_ws U) (rev s)) as (g & E & A). exists (rev g). split.
  - rewrite <- rev_app_distr, <- E, rev_involutive. reflexivity.
  - intros c Hc. apply A. apply in_rev. exact Hc.
Qed.
Lemma trim_end_last U s : trim_end U s = [] \/ exists a c, trim_end U s = a ++ [c] /\ u_ws U c = false.
Proof.
  unfold trim_end. destruct (trim_start_spec (u_ws U) (rev s)) as (_ & _ & _ & [E|(c & r & E & N)]); rewrite E; [left; reflexivity|right].
  exists (rev r), c. split; [reflexivity|exact N].
Qed.
Lemma truncate_short U s m : length s <= m -> truncate U s m = s.
Proof. intros L. unfold truncate. apply Nat.leb_le in L. rewrite L. reflexivity. Qed.
Lemma truncate_length U s m : length (truncate U s m) <= m.
Proof.
  unfold truncate. destruct (length s <=? m) eqn:E; [apply Nat.leb_le; exact E|]. apply Nat.leb_gt in E.
  destruct (m <=? length marker) eqn:M; [rewrite firstn_length; lia|]. apply Nat.leb_gt in M. rewrite app_length.
  destruct (trim_end_prefix U (firstn (m - length marker) s)) as (g & H & _). apply (f_equal (@length Z)) in H. rewrite app_length, firstn_length in H. lia.
Qed.
Lemma truncate_long U s m : m < length s -> length marker < m ->
  exists kept dropped, truncate U s m = kept ++ marker /\ firstn (m - length marker) s = kept ++ dropped /\ all (u_ws U) dropped
    /\ (kept = [] \/ exists a c, kept = a ++ [c] /\ u_ws U c = false).
Proof.
  intros L M. unfold truncate. apply Nat.leb_gt in L, M. rewrite L, M.
  destruct (trim_end_prefix U (firstn (m - length marker) s)) as (g & H & A).
  exists (trim_end U (firstn (m - length marker) s)), g. repeat split; auto. apply trim_end_last.
Qed.
(** A prefix followed by a character that is no white space survives. *)
Lemma truncate_keeps U h c r m : u_ws U c = false -> length h + 1 + length marker <= m -> exists r', truncate U (h ++ c :: r) m = h ++ c :: r'.
Proof.
  intros W L. destruct (Nat.le_gt_cases (length (h ++ c :: r)) m) as [S|S]; [rewrite truncate_short by exact S; eauto|].
  assert (M : length marker < m) by lia. destruct (truncate_long U _ m S M) as (k & d & E & F & A & _).
  rewrite firstn_app in F. rewrite firstn_all2 in F by lia.
  destruct (m - length marker - length h) as [|n] eqn:N; [lia|]. cbn [firstn] in F.
  assert (P : exists t, k = h ++ c :: t).
  { clear - F A W. revert k F. induction h as [|x h IH]; intros k F; cbn in F.
    - destruct k as [|y k]; cbn in F.
      + exfalso. subst d. rewrite (A c (or_introl eq_refl)) in W. discriminate W.
      + injection F as <- F. exists k. reflexivity.
    - destruct k as [|y k]; cbn in F.
      + exfalso. subst d. assert (X : In c (x :: h ++ c :: firstn n r)) by (right; apply in_or_app; right; left; reflexivity). rewrite (A c X) in W. discriminate W.
      + injection F as <- F. destruct (IH k F) as (t & ->). exists t. reflexivity. }
  destruct P as (t & ->). rewrite E. rewrite <- app_assoc. cbn. eauto.
Qed.
Lemma join_app sep a b : a <> [] -> b <> [] -> join sep (a ++ b) = join sep a ++ sep ++ join sep b.
Proof.
  intros A B. induction a as [|x a IH]; [contradiction|]. destruct a as [|y a].
  - cbn. destruct b; [contradiction|reflexivity].
  - cbn [app join] in *. rewrite IH by discriminate. rewrite <- !app_assoc. reflexivity.
Qed.

(** ** Words of a path *)
Section WORDS.
  Variables ws is_upper is_lower : Z -> bool.
  Hypothesis space : ws 32%Z = true.
  Notation gap := (gap ws).
  Notation camel := (camel is_upper is_lower).
  Notation flat := (flat is_upper is_lower).
  Notation path_words := (path_words ws is_upper is_lower).
  Definition hump (prev : option Z) (c : Z) : bool := match prev with Some p => camel p c | None => false end.
  Fixpoint cutw (prev : option Z) (cur s : text) : list text :=
    match s with
    | [] => flush cur
    | c :: r => if gap c then flush cur ++ cutw (Some c) [] r
                else if hump prev c then flush cur ++ cutw (Some c) [c] r
                else cutw (Some c) (cur ++ [c]) r
    end.
  Lemma gap_cases c : gap c = ws c || (is_sep c || ((c =? ch "_")%Z || (c =? ch "-")%Z || (c =? ch ".")%Z)).
  Proof.
    unfold EmbedSpec.gap, is_sep. change (txt "/_-." ++ [92%Z]) with [ch "/"; ch "_"; ch "-"; ch "."; 92%Z]. cbn [existsb].
    destruct (ws c), (c =? ch "/")%Z, (c =? ch "_")%Z, (c =? ch "-")%Z, (c =? ch ".")%Z, (c =? 92)%Z; reflexivity.
  Qed.
  Lemma flat_snoc u b c : flat (u ++ [b]) -> camel b c = false -> flat ((u ++ [b]) ++ [c]).
  Proof.
    induction u as [|a u IH]; intros F C; [cbn; auto|]. destruct u as [|a' u]; cbn in *; destruct F as (F1 & F2); [auto|exact (conj F1 (IH F2 C))].
  Qed.
  Lemma cutw_words s :
    (forall prev before g, all gap g -> (g = [] -> before = None) -> path_words before (g ++ s) (cutw prev [] s))
    /\ (forall a w u b before g, all gap g -> none gap (a :: w) -> flat (a :: w) -> a :: w = u ++ [b] ->
          (g = [] -> match before with Some c => camel c a = true | None => True end) ->
          path_words before (g ++ (a :: w) ++ s) (cutw (Some b) (a :: w) s)).
  Proof.
    induction s as [|c s (IA & IB)]; split.
    - intros prev before g G B. rewrite app_nil_r. apply pw_end. exact G.
    - intros a w u b before g G N F L B. cbn [cutw flush]. eapply pw_word; eauto. apply pw_end. intros x [].
    - intros prev before g G B. cbn [cutw]. destruct (gap c) eqn:C.
      + cbn [flush app]. replace (g ++ c :: s) with ((g ++ [c]) ++ s) by (rewrite <- app_assoc; reflexivity). apply IA.
        * apply all_app. split; [exact G|]. intros x [<-|[]]. exact C.
        * intros E. destruct g; discriminate E.
      + assert (X : path_words before (g ++ [c] ++ s) (cutw (Some c) [c] s)).
        { apply (IB c [] [] c before g); auto; [intros x [<-|[]]; exact C|exact Logic.I|]. intros E. rewrite (B E). exact Logic.I. }
        destruct (hump prev c); exact X.
    - intros a w u b before g G N F L B. cbn [cutw]. destruct (gap c) eqn:C.
      + cbn [flush app]. eapply (pw_word _ _ _ before g a w u b (c :: s)); eauto. apply (IA (Some c) (Some b) [c]); [intros x [<-|[]]; exact C|discriminate].
      + cbn [hump]. destruct (camel b c) eqn:H.
        * cbn [flush app]. eapply (pw_word _ _ _ before g a w u b (c :: s)); eauto.
          apply (IB c [] [] c (Some b) []); auto; [intros x []|intros x [<-|[]]; exact C|exact Logic.I].
        * replace (g ++ (a :: w) ++ c :: s) with (g ++ (a :: w ++ [c]) ++ s) by (cbn; rewrite <- app_assoc; reflexivity).
          apply (IB a (w ++ [c]) (u ++ [b]) c before g); auto.
          -- change (a :: w ++ [c]) with ((a :: w) ++ [c]). apply none_app. split; [exact N|]. intros x [<-|[]]. exact C.
          -- change (a :: w ++ [c]) with ((a :: w) ++ [c]). rewrite L in F |- *. apply flat_snoc; assumption.
          -- change (a :: w ++ [c]) with ((a :: w) ++ [c]). rewrite L. reflexivity.
  Qed.

  Definition reads (out : text) (l : list text) (cur : text) : Prop := forall x, sw ws [] (out ++ x) = l ++ sw ws cur x.
  Lemma reads_gap out l cur c : reads out l cur -> ws c = true -> reads (out ++ [c]) (l ++ flush cur) [].
  Proof. intros R W x. rewrite <- app_assoc. rewrite R. cbn. rewrite W, app_assoc. reflexivity. Qed.
  Lemma reads_char out l cur c : reads out l cur -> ws c = false -> reads (out ++ [c]) l (cur ++ [c]).
  Proof. intros R W x. rewrite <- app_assoc. rewrite R. cbn. rewrite W. reflexivity. Qed.
  Lemma ends_snoc out c : ends_with_space (out ++ [c]) = (c =? 32)%Z.
  Proof. unfold ends_with_space. rewrite rev_app_distr. reflexivity. Qed.
  Lemma nonempty_snoc out (c : Z) : nonempty (out ++ [c]) = true.
  Proof. destruct out; reflexivity. Qed.
  Lemma spread_cut s : forall out prev l cur, reads out l cur -> (ends_with_space out = true \/ out = [] -> cur = []) ->
    sw ws [] (spread is_upper is_lower out prev s) = l ++ cutw prev cur s.
  Proof.
    induction s as [|c s IH]; intros out prev l cur R E; cbn [spread cutw].
    - rewrite <- (app_nil_r out), R. reflexivity.
    - assert (G : is_sep c = true \/ (c =? ch "_")%Z || (c =? ch "-")%Z || (c =? ch ".")%Z = true -> gap c = true).
      { rewrite gap_cases. intros [->| ->]; rewrite ?orb_true_r; reflexivity. }
      assert (Kept : cur = [] -> gap c = true -> sw ws [] (spread is_upper is_lower out (Some c) s) = l ++ flush cur ++ cutw (Some c) [] s).
      { intros -> _. cbn [flush app]. apply IH; auto. }
      assert (Pushed : sw ws [] (spread is_upper is_lower (out ++ [32%Z]) (Some c) s) = l ++ flush cur ++ cutw (Some c) [] s).
      { rewrite app_assoc. apply IH; [apply reads_gap; [exact R|exact space]|auto]. }
      assert (White : forall o l' cur', reads o l' cur' -> ws c = true -> l' ++ flush cur' = l ++ flush cur -> sw ws [] (spread is_upper is_lower (o ++ [c]) (Some c) s) = l ++ flush cur ++ cutw (Some c) [] s).
      { intros o l' cur' R' W Q. rewrite (IH _ _ (l' ++ flush cur') []); [rewrite Q, app_assoc; reflexivity|apply reads_gap; assumption|auto]. }
      assert (Nospace : ws c = false -> (c =? 32)%Z = false) by (intros W; apply Z.eqb_neq; intros ->; congruence).
      assert (Plain : forall o l' cur', reads o l' cur' -> ws c = false -> sw ws [] (spread is_upper is_lower (o ++ [c]) (Some c) s) = l' ++ cutw (Some c) (cur' ++ [c]) s).
      { intros o l' cur' R' W. apply IH; [apply reads_char; assumption|]. rewrite ends_snoc, Nospace by exact W.
        intros [Q|Q]; [discriminate Q|]. destruct o; discriminate Q. }
      destruct (is_sep c) eqn:S.
      + rewrite (G (or_introl eq_refl)). destruct (ends_with_space out) eqn:ES; cbn [negb andb]; [apply Kept; auto|].
        destruct (nonempty out) eqn:NE; [exact Pushed|]. apply Kept; [|auto]. apply E. right. destruct out; [reflexivity|discriminate NE].
      + destruct ((c =? ch "_")%Z || (c =? ch "-")%Z || (c =? ch ".")%Z) eqn:D.
        * rewrite (G (or_intror eq_refl)). destruct (ends_with_space out) eqn:ES; cbn [negb]; [apply Kept; auto|exact Pushed].
        * assert (GW : gap c = ws c).
          { rewrite gap_cases, S, D. apply orb_false_r. }
          rewrite GW. destruct (is_upper c) eqn:UP.
          -- destruct prev as [p|]; [|destruct (ws c) eqn:W; [apply White with (l' := l) (cur' := cur); auto|apply Plain; auto]].
             cbn [hump]. unfold camel. rewrite UP, andb_true_r. destruct (is_lower p).
             ++ destruct (ws c) eqn:W.
                ** apply White with (l' := l ++ flush cur) (cur' := []); [apply reads_gap; assumption|reflexivity|cbn; rewrite app_nil_r; reflexivity].
                ** rewrite app_assoc. rewrite (Plain _ (l ++ flush cur) []); [reflexivity|apply reads_gap; assumption|reflexivity].
             ++ destruct (ws c) eqn:W; [apply White with (l' := l) (cur' := cur); auto|apply Plain; auto].
          -- replace (hump prev c) with false by (unfold hump, camel; destruct prev; [rewrite UP, andb_false_r|]; reflexivity).
             destruct (ws c) eqn:W; [apply White with (l' := l) (cur' := cur); auto|apply Plain; auto].
  Qed.
  Lemma spread_words s : path_words None s (split_whitespace ws (spread is_upper is_lower [] None s)).
  Proof.
    rewrite split_ws_sw, (spread_cut s [] None [] []); [|intros x; reflexivity|auto]. cbn [app].
    apply (proj1 (cutw_words s) None None []); [intros x []|auto].
  Qed.
End WORDS.

(** *** Name and stem of a path *)
Lemma existsb_in p (s : text) : existsb p s = false -> none p s.
Proof. intros E c Hc. destruct (p c) eqn:P; [|reflexivity]. rewrite <- E. symmetry. apply existsb_exists. eauto. Qed.
Lemma after_last_spec s : exists d, s = d ++ after_last_sep s /\ none is_sep (after_last_sep s) /\ (d = [] \/ exists d' c, d = d' ++ [c] /\ is_sep c = true).
Proof.
  induction s as [|c s IH]; [exists []; repeat split; auto; intros x []|]. cbn [after_last_sep]. destruct (existsb is_sep (c :: s)) eqn:E.
  - destruct (is_sep c && negb (existsb is_sep s)) eqn:C.
    + apply andb_true_iff in C. destruct C as (C1 & C2). exists [c]. repeat split; auto; [apply existsb_in; destruct (existsb is_sep s); [discriminate C2|reflexivity]|].
      right. exists [], c. auto.
    + destruct IH as (d & D1 & D2 & D3). exists (c :: d). split; [cbn; rewrite <- D1; reflexivity|]. split; [exact D2|]. right.
      destruct D3 as [->|(d' & x & -> & X)].
      * cbn in D1. cbn in E. apply andb_false_iff in C. destruct C as [C|C].
        -- rewrite C in E. cbn in E. apply existsb_exists in E. destruct E as (x & X1 & X2). rewrite D1 in X1. rewrite (D2 x X1) in X2. discriminate X2.
        -- apply negb_false_iff in C. apply existsb_exists in C. destruct C as (x & X1 & X2). rewrite D1 in X1. rewrite (D2 x X1) in X2. discriminate X2.
      * exists (c :: d'), x. auto.
  - exists []. split; [reflexivity|]. split; [apply existsb_in; exact E|auto].
Qed.
Lemma before_last_spec s : (before_last_dot s = s /\ ~ In (ch ".") s) \/ exists e, s = before_last_dot s ++ ch "." :: e /\ ~ In (ch ".") e.
Proof.
  induction s as [|c s IH]; [left; split; auto|]. cbn [before_last_dot]. destruct (existsb (Z.eqb (ch ".")) (c :: s)) eqn:E.
  - right. destruct ((c =? ch ".")%Z && negb (existsb (Z.eqb (ch ".")) s)) eqn:C.
    + apply andb_true_iff in C. destruct C as (C1 & C2). apply Z.eqb_eq in C1. subst c. exists s. split; [reflexivity|].
      intros H. apply negb_true_iff in C2. pose proof (existsb_in _ _ C2 _ H) as X. rewrite Z.eqb_refl in X. discriminate X.
    + destruct IH as [(A & B)|(e & A & B)].
      * exfalso. cbn in E. apply orb_true_iff in E. destruct E as [E|E].
        -- apply Z.eqb_eq in E. subst c. rewrite Z.eqb_refl in C. cbn in C. apply negb_false_iff in C. apply existsb_exists in C. destruct C as (x & X1 & X2). apply Z.eqb_eq in X2. subst x. contradiction.
        -- apply existsb_exists in E. destruct E as (x & X1 & X2). apply Z.eqb_eq in X2. subst x. contradiction.
      * exists e. split; [cbn; rewrite <- A; reflexivity|exact B].
  - left. split; [reflexivity|]. intros H. pose proof (existsb_in _ _ E _ H) as X. rewrite Z.eqb_refl in X. discriminate X.
Qed.

(** ** The pattern *)
Section STRIP.
  Variable U : unicode.
  Hypothesis space : u_ws U 32%Z = true.
  Notation ws := (u_ws U).
  Lemma skip_brackets body r : ~ In (ch "[") body -> ~ In (ch "]") body -> ~ In 92%Z body -> skip_class 1 (body ++ ch "]" :: r) = r.
  Proof.
    induction body as [|c body IH]; intros A B C; [reflexivity|]. cbn [app skip_class].
    replace (c =? 92)%Z with false by (symmetry; apply Z.eqb_neq; intros ->; apply C; left; reflexivity).
    replace (c =? ch "[")%Z with false by (symmetry; apply Z.eqb_neq; intros ->; apply A; left; reflexivity).
    replace (c =? ch "]")%Z with false by (symmetry; apply Z.eqb_neq; intros ->; apply B; left; reflexivity).
    apply IH; intros H; [apply A|apply B|apply C]; right; exact H.
  Qed.
  Lemma skip_braces body r : ~ In (ch "}") body -> skip_brace (body ++ ch "}" :: r) = r.
  Proof.
    induction body as [|c body IH]; intros A; [reflexivity|]. cbn [app skip_brace].
    replace (c =? ch "}")%Z with false by (symmetry; apply Z.eqb_neq; intros ->; apply A; left; reflexivity).
    apply IH. intros H. apply A. right. exact H.
  Qed.
  (** [out] reads like [ref]: the same words and the same open word *)
  Definition alike (out ref : text) : Prop := forall x, sw ws [] (out ++ x) = sw ws [] (ref ++ x).
  Lemma alike_app out ref t : alike out ref -> alike (out ++ t) (ref ++ t).
  Proof. intros A x. rewrite <- !app_assoc. apply A. Qed.
  Lemma alike_space out ref : alike out ref -> alike (space_once out) (ref ++ [32%Z]).
  Proof.
    intros A x. unfold space_once. destruct (ends_with_space out) eqn:E; cbn [negb andb].
    - unfold ends_with_space in E. destruct (rev out) as [|c r] eqn:R; [discriminate E|]. apply Z.eqb_eq in E. subst c.
      assert (O : out = rev r ++ [32%Z]) by (rewrite <- (rev_involutive out), R; reflexivity).
      rewrite <- app_assoc. cbn [app]. rewrite <- (A (32%Z :: x)). rewrite O, <- !app_assoc. change (32%Z :: x) with ([32%Z] ++ x).
      rewrite (sw_app_space ws x) by exact space. change ([32%Z] ++ [32%Z] ++ x) with ([32%Z] ++ (32%Z :: x)). rewrite (sw_app_space ws (32%Z :: x)) by exact space.
      cbn [sw]. rewrite space. reflexivity.
    - destruct (nonempty out) eqn:N.
      + rewrite <- !app_assoc. apply A.
      + destruct out; [|discriminate N]. rewrite <- app_assoc. rewrite <- (A ([32%Z] ++ x)). cbn. rewrite space. reflexivity.
  Qed.
  Lemma not_in_existsb c (l : text) : ~ In c l -> existsb (Z.eqb c) l = false.
  Proof. intros N. destruct (existsb (Z.eqb c) l) eqn:E; [|reflexivity]. apply existsb_exists in E. destruct E as (x & X & Y). apply Z.eqb_eq in Y. subst x. contradiction. Qed.
  Lemma in_existsb c (l : text) : In c l -> existsb (Z.eqb c) l = true.
  Proof. intros N. apply existsb_exists. exists c. split; [exact N|apply Z.eqb_refl]. Qed.
  Definition marks : text := txt "*+?^$().".
  Lemma one_item i r f out ref : item_ok i -> alike out ref -> length (written i ++ r) <= f ->
    exists f' out', strip_loop f out (written i ++ r) = strip_loop f' out' r /\ alike out' (ref ++ said i) /\ length r <= f'.
  Proof.
    intros O A L. destruct f as [|f]; [destruct i; cbn in L; lia|]. destruct i as [c|c|c| |c|body|body]; cbn [written said item_ok app] in *.
    - assert (Q : forall x, In x (txt "*+?^$().[|{" ++ [92%Z]) -> (c =? x)%Z = false) by (intros x Hx; apply Z.eqb_neq; intros ->; contradiction).
      exists f, (out ++ [c]). cbn [strip_loop]. rewrite (Q 92%Z), (Q (ch "[")), (Q (ch "|")), (Q (ch "{")) by (cbn; tauto).
      rewrite not_in_existsb; [|intros H; apply O; change (txt "*+?^$().[|{" ++ [92%Z]) with (marks ++ (txt "[|{" ++ [92%Z])); apply in_or_app; left; exact H].
      split; [reflexivity|]. split; [apply alike_app; exact A|cbn in L; lia].
    - exists f, (out ++ [c]). cbn [strip_loop]. rewrite Z.eqb_refl. unfold class_letter. rewrite not_in_existsb by exact O.
      split; [reflexivity|]. split; [apply alike_app; exact A|cbn in L; lia].
    - exists f, (space_once out). cbn [strip_loop]. rewrite Z.eqb_refl. unfold class_letter. rewrite in_existsb by exact O.
      split; [reflexivity|]. split; [apply alike_space; exact A|cbn in L; lia].
    - exists f, (space_once out). split; [reflexivity|]. split; [apply alike_space; exact A|cbn in L; lia].
    - exists f, out. rewrite app_nil_r. split; [|split; [exact A|cbn in L; lia]]. cbn [strip_loop].
      replace (c =? 92)%Z with false; [rewrite in_existsb by exact O; reflexivity|].
      symmetry. apply Z.eqb_neq. intros ->. cbn in O. repeat destruct O as [O|O]; try discriminate O. exact O.
    - exists f, out. rewrite app_nil_r. split; [|split; [exact A|cbn in L; rewrite app_length in L; cbn in L; rewrite ?app_length in L; cbn in L; lia]].
      rewrite <- !app_assoc. change (txt "}" ++ r) with (ch "}" :: r). transitivity (strip_loop f out (skip_brace (body ++ ch "}" :: r))); [reflexivity|].
      rewrite skip_braces by exact O. reflexivity.
    - exists f, out. rewrite app_nil_r. split; [|split; [exact A|cbn in L; rewrite app_length in L; cbn in L; rewrite ?app_length in L; cbn in L; lia]].
      rewrite <- !app_assoc. change (txt "]" ++ r) with (ch "]" :: r). transitivity (strip_loop f out (skip_class 1 (body ++ ch "]" :: r))); [reflexivity|].
      destruct O as (O1 & O2 & O3). rewrite skip_brackets by assumption. reflexivity.
  Qed.
  Lemma strip_items is : forall f out ref, Forall item_ok is -> alike out ref -> length (flat_map written is) <= f ->
    sw ws [] (strip_loop f out (flat_map written is)) = sw ws [] (ref ++ flat_map said is).
  Proof.
    induction is as [|i is IH]; intros f out ref F A L; cbn [flat_map].
    - specialize (A []). rewrite !app_nil_r in *. destruct f; exact A.
    - inversion_clear F as [|? ? F1 F2]. destruct (one_item i (flat_map written is) f out ref F1 A L) as (f' & out' & -> & A' & L').
      rewrite (IH f' out' (ref ++ said i) F2 A' L'), <- app_assoc. reflexivity.
  Qed.
  Lemma strip_words is : Forall item_ok is ->
    split_whitespace ws (strip_regex U (flat_map written is)) = split_whitespace ws (flat_map said is).
  Proof.
    intros F. unfold strip_regex. rewrite !split_ws_sw, sw_join; [|exact space|apply sw_words; intros x []].
    apply (strip_items is _ [] []); [exact F|intros x; reflexivity|lia].
  Qed.
  Lemma sw_filter (p : text -> bool) l : Forall (fun w => w <> [] /\ none ws w) l -> Forall (fun w => w <> [] /\ none ws w) (filter p l).
  Proof. intros F. induction F as [|w l W F IH]; cbn; [constructor|]. destruct (p w); [constructor; assumption|assumption]. Qed.
  Lemma merge_words q p :
    split_whitespace ws (merge_query U q p)
    = split_whitespace ws q ++ filter (fun t => negb (existsb (text_eqb (u_lower U t)) (map (u_lower U) (split_whitespace ws q)))) (split_whitespace ws p)
    /\ exists r, merge_query U q p = q ++ r.
  Proof.
    unfold merge_query. destruct p as [|c p]; cbn [nonempty negb].
    - cbn. rewrite app_nil_r. split; [reflexivity|]. exists []. rewrite app_nil_r. reflexivity.
    - set (new := filter _ _). assert (N : Forall (fun w => w <> [] /\ none ws w) new) by (apply sw_filter; rewrite split_ws_sw; apply sw_words; intros x []).
      destruct new as [|w l] eqn:E.
      + rewrite app_nil_r. split; [reflexivity|]. exists []. rewrite app_nil_r. reflexivity.
      + split; [|eexists; reflexivity]. change (txt " ") with [32%Z] at 1. rewrite !split_ws_sw. rewrite sw_app_space by exact space. rewrite sw_join by assumption. reflexivity.
  Qed.
End STRIP.

Lemma commas_join l : join (txt ", ") l = commas l.
Proof. induction l as [|x l IH]; [reflexivity|]. destruct l; [reflexivity|]. cbn [join commas] in *. rewrite IH. reflexivity. Qed.
Lemma opt_line label o : opt_part label o = if negb (match some_text o with [] => true | _ => false end) then [label ++ some_text o] else [].
Proof. destruct o as [[|c r]|]; reflexivity. Qed.
Lemma list_line label l : list_part label l = if negb (match l with [] => true | _ => false end) || negb (match commas l with [] => true | _ => false end) then [label ++ commas l] else [].
Proof. destruct l as [|x l]; [reflexivity|]. cbn [list_part]. rewrite commas_join. reflexivity. Qed.
Lemma kind_name t : In t unit_types -> type_name t = kind_of_unit t.
Proof. cbn. intros H. repeat destruct H as [<-|H]; try reflexivity. contradiction H. Qed.
Lemma before_code_described U up lo u names : In (cu_unit_type u) unit_types ->
  before_code U up lo u names = description u (normalize_path U up lo (shorten_path names)).
Proof.
  intros T. unfold before_code, description, described. rewrite (kind_name _ T), !opt_line, !list_line.
  cbn [flat_map orb app some_text]. rewrite <- !app_assoc. reflexivity.
Qed.
