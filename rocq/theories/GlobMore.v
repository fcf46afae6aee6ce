(** Directory names, braces, and the prefix filter. *)
From Verif Require Import Base Text Regex RegexProofs Glob GlobSpec GlobProofs.
Open Scope nat_scope.

(** * Components of a path *)
Lemma components_some s : components s <> [].
Proof. destruct s as [|c s]; [discriminate|]. cbn [components]. destruct (c =? ch "/")%Z; [discriminate|]. destruct (components s); discriminate. Qed.
Lemma components_cons c s : c <> ch "/" -> components (c :: s) = match components s with x :: l => (c :: x) :: l | [] => [[c]] end.
Proof. intros N. cbn [components]. rewrite (proj2 (Z.eqb_neq _ _) N). reflexivity. Qed.
Lemma components_app a b : components (a ++ txt "/" ++ b) = components a ++ components b.
Proof.
  induction a as [|c a IH]; [reflexivity|]. cbn [app]. destruct (Z.eq_dec c (ch "/")) as [->|N].
  - change (components (ch "/" :: a ++ txt "/" ++ b)) with ([] :: components (a ++ txt "/" ++ b)). rewrite IH. reflexivity.
  - rewrite !components_cons, IH by auto. destruct (components a) as [|x l] eqn:E; [exfalso; eapply components_some; eauto|reflexivity].
Qed.
Lemma components_one a : ~ In (ch "/") a -> components a = [a].
Proof.
  induction a as [|c a IH]; intros N; [reflexivity|]. rewrite components_cons by (intros ->; apply N; left; auto).
  rewrite IH by (intros I; apply N; right; auto). reflexivity.
Qed.
Lemma first_slash s : (~ In (ch "/") s) \/ exists a b, s = a ++ txt "/" ++ b /\ ~ In (ch "/") a.
Proof.
  induction s as [|c s IH]; [left; intros []|]. destruct (Z.eq_dec c (ch "/")) as [->|N].
  - right. exists [], s. split; [reflexivity|intros []].
  - destruct IH as [IH|(a & b & -> & IH)].
    + left. intros [I|I]; auto.
    + right. exists (c :: a), b. split; [reflexivity|]. intros [I|I]; auto.
Qed.
Lemma directories_in name : ~ In (ch "/") name -> forall file,
  In name (directories file) <-> in_directory (fun pre dir => boundary pre /\ dir = name) file.
Proof.
  intros N file. unfold directories. split.
  - remember (length file) as n eqn:E. revert file E. induction n as [n IH] using lt_wf_ind. intros file -> I.
    destruct (first_slash file) as [F|(a & b & -> & F)].
    + rewrite components_one in I by auto. destruct I.
    + rewrite components_app, components_one in I by auto.
      rewrite removelast_app in I by apply components_some. apply in_app_or in I. destruct I as [[->|[]]|I].
      * exists [], name, b. split; [reflexivity|]. split; auto. left. reflexivity.
      * destruct (IH (length b)) with (file := b) as (pre & dir & post & -> & B & ->); auto.
        { rewrite !app_length. cbn. lia. }
        exists (a ++ txt "/" ++ pre), name, post. split; [rewrite <- !app_assoc; reflexivity|]. split; auto.
        destruct B as [->|(d & ->)]; [right; exists a; rewrite app_nil_r; reflexivity|].
        right. exists (a ++ txt "/" ++ d). rewrite <- !app_assoc. reflexivity.
  - intros (pre & dir & post & -> & B & ->).
    assert (K : In name (removelast (components (name ++ txt "/" ++ post)))).
    { rewrite components_app, (components_one name) by auto. rewrite removelast_app by apply components_some. left. reflexivity. }
    destruct B as [->|(d & ->)]; [exact K|].
    rewrite <- app_assoc, components_app. rewrite removelast_app by apply components_some. apply in_or_app. right. exact K.
Qed.
(** A name with a slash at its end, or at its beginning, names no directory of a stored path. *)
Lemma slash_names_nothing p file : clean file -> begins (txt "/") p \/ (exists d, p = d ++ txt "/") ->
  ~ in_directory (fun pre dir => boundary pre /\ dir = p) file.
Proof.
  intros C H (pre & dir & post & -> & B & ->). destruct H as [(t & ->)|(d & ->)].
  - destruct B as [->|(d & ->)].
    + apply (proj2 (C [] (t ++ txt "/" ++ post))). cbn. rewrite <- ?app_assoc. reflexivity.
    + apply (proj1 (C d (t ++ txt "/" ++ post))). rewrite <- !app_assoc. reflexivity.
  - apply (proj1 (C (pre ++ d) post)). rewrite <- !app_assoc. reflexivity.
Qed.

(** * Braces *)
Definition closes (s : text) : nat := length (filter (Z.eqb (ch "}")) s).
Lemma closes_app a b : closes (a ++ b) = closes a + closes b.
Proof. unfold closes. rewrite filter_app, app_length. reflexivity. Qed.
Lemma closes_le s : closes s <= length s.
Proof. unfold closes. induction s as [|c s IH]; cbn [filter]; [auto|]. destruct (_ =? _)%Z; cbn [length]; lia. Qed.
Lemma closes_none s : ~ In (ch "}") s -> closes s = 0.
Proof.
  intros N. unfold closes. induction s as [|c s IH]; [reflexivity|]. cbn [filter]. destruct (Z.eqb_spec (ch "}") c) as [E|].
  - exfalso. apply N. left. auto.
  - apply IH. intros I. apply N. right. auto.
Qed.
Lemma find_char_spec c : forall s a b, find_char c s = Some (a, b) <-> s = a ++ c :: b /\ ~ In c a.
Proof.
  induction s as [|d s IH]; intros a b; cbn [find_char].
  - split; [discriminate|]. intros (E & _). destruct a; discriminate.
  - destruct (Z.eqb_spec c d) as [->|N].
    + split.
      * intros E. injection E as <- <-. split; [reflexivity|intros []].
      * intros (E & N). destruct a as [|e a]; [injection E as ->; reflexivity|]. injection E as -> _. exfalso. apply N. left. reflexivity.
    + destruct (find_char c s) as [(a', b')|] eqn:E.
      * split.
        -- intros H. injection H as <- <-. pose proof (proj1 (IH a' b') eq_refl) as E'. clear E. rename E' into E. destruct E as (-> & E). split; [reflexivity|]. intros [I|I]; auto.
        -- intros (H & K). destruct a as [|e a]; [injection H as ->; congruence|]. injection H as -> H.
           assert (F : Some (a', b') = Some (a, b)) by (apply IH; split; [exact H|intros I; apply K; right; auto]).
           injection F as -> ->. reflexivity.
      * split; [discriminate|]. intros (H & K). destruct a as [|e a]; [injection H as ->; congruence|]. injection H as -> H.
        assert (F : None = Some (a, b)) by (apply IH; split; [exact H|intros I; apply K; right; auto]). discriminate.
Qed.
Lemma find_char_none c s : ~ In c s -> find_char c s = None.
Proof.
  intros N. destruct (find_char c s) as [(a, b)|] eqn:E; auto. apply find_char_spec in E. destruct E as (-> & _).
  exfalso. apply N. apply in_or_app. right. left. reflexivity.
Qed.
Lemma split_chars : forall s cur depth l last, split_alternatives s cur depth = (l, last) ->
  forall c, (exists a, In a (l ++ [last]) /\ In c a) -> In c s \/ In c cur.
Proof.
  induction s as [|d s IH]; intros cur depth l last E c (a & I & C); cbn [split_alternatives] in E.
  - injection E as <- <-. destruct I as [<-|[]]. auto.
  - assert (STEP : forall dp l' last', split_alternatives s (cur ++ [d]) dp = (l', last') -> (exists a0, In a0 (l' ++ [last']) /\ In c a0) -> In c (d :: s) \/ In c cur).
    { intros dp l' last' E' H. destruct (IH _ _ _ _ E' c H) as [K|K]; [left; right; auto|]. apply in_app_or in K. destruct K as [K|[<-|[]]]; auto. left. left. auto. }
    destruct (d =? _)%Z; [eapply STEP; eauto|]. destruct (d =? _)%Z; [eapply STEP; eauto|]. destruct (_ && _)%bool; [|eapply STEP; eauto].
    destruct (split_alternatives s [] depth) as (l', last') eqn:E'. injection E as <- <-. destruct I as [<-|I]; auto.
    destruct (IH _ _ _ _ E' c) as [K|[]]; eauto. left. right. auto.
Qed.
Definition last_one (alts last : text) : list text := match last with [] => if ends_with_comma alts then [last] else [] | _ => [last] end.
Lemma last_one_in alts last a : In a (last_one alts last) -> a = last.
Proof. unfold last_one. destruct last; [destruct (ends_with_comma alts)|]; cbn; intuition. Qed.
Definition gather (f : text -> option (list text)) (l : list text) : option (list text) :=
  fold_right (fun a acc => match f a, acc with Some x, Some y => Some (x ++ y) | _, _ => None end) (Some []) l.
Lemma expand_step n p : expand_fuel (S n) p =
  match find_char (ch "{") p with
  | None => Some [p]
  | Some (prefix, rest) =>
      match find_char (ch "}") rest with
      | None => Some [p]
      | Some (alts, suffix) =>
          let '(l, last) := split_alternatives alts [] 0 in
          gather (fun a => expand_fuel n (prefix ++ a ++ suffix)) (l ++ last_one alts last)
      end
  end.
Proof. reflexivity. Qed.
Lemma gather_some f l (P : text -> list text -> Prop) : (forall a, In a l -> exists x, f a = Some x /\ P a x) ->
  exists r, gather f l = Some r /\ forall y, In y r <-> exists a x, In a l /\ f a = Some x /\ In y x.
Proof.
  induction l as [|a l IH]; intros H.
  - exists []. split; [reflexivity|]. intros y. split; [intros []|intros (a & x & [] & _)].
  - destruct (H a (or_introl eq_refl)) as (x & E & _). destruct IH as (r & ER & HR); [intros; apply H; right; auto|].
    exists (x ++ r). split; [cbn; fold (gather f l); rewrite E, ER; reflexivity|]. intros y. rewrite in_app_iff, HR. split.
    + intros [I|(a' & x' & I & E' & J)]; [exists a, x; cbn; auto|exists a', x'; cbn; auto].
    + intros (a' & x' & [->|I] & E' & J); [left; congruence|right; eauto].
Qed.
Lemma expand_total : forall n p, closes p < n -> exists l, expand_fuel n p = Some l.
Proof.
  induction n as [|n IH]; intros p L; [lia|]. rewrite expand_step.
  destruct (find_char (ch "{") p) as [(prefix, rest)|] eqn:E1; [|eauto].
  destruct (find_char (ch "}") rest) as [(alts, suffix)|] eqn:E2; [|eauto].
  destruct (split_alternatives alts [] 0) as (l, last) eqn:ES.
  apply find_char_spec in E1. apply find_char_spec in E2. destruct E1 as (-> & _). destruct E2 as (-> & N2).
  destruct (gather_some (fun a => expand_fuel n (prefix ++ a ++ suffix)) (l ++ last_one alts last) (fun _ _ => True)) as (r & ER & _); [|eauto].
  intros a I. destruct (IH (prefix ++ a ++ suffix)) as (x & E); [|eauto].
  assert (NA : ~ In (ch "}") a).
  { intros C. destruct (split_chars alts [] 0 l last ES (ch "}")) as [K|[]]; auto. exists a. split; auto.
    apply in_app_or in I. apply in_or_app. destruct I as [I|I]; auto. right. left. symmetry. eapply last_one_in; eauto. }
  rewrite !closes_app in *. change (ch "{" :: alts ++ ch "}" :: suffix) with ([ch "{"] ++ alts ++ [ch "}"] ++ suffix) in L.
  rewrite !closes_app in L. change (closes [ch "}"]) with 1 in L. rewrite (closes_none a NA). lia.
Qed.
(** Splitting a well-formed group. *)
Lemma split_word : forall a s cur, braceless a -> ~ In (ch ",") a ->
  split_alternatives (a ++ s) cur 0 = split_alternatives s (cur ++ a) 0.
Proof.
  induction a as [|c a IH]; intros s cur (B1 & B2) C; [rewrite app_nil_r; reflexivity|]. cbn [app split_alternatives].
  assert (N : forall d, In d [ch "{"; ch "}"; ch ","] -> (c =? d)%Z = false).
  { intros d I. apply Z.eqb_neq. intros ->. destruct I as [<-|[<-|[<-|[]]]]; [apply B1|apply B2|apply C]; left; reflexivity. }
  rewrite !N by (cbn; auto). cbn [andb]. rewrite IH.
  - rewrite <- app_assoc. reflexivity.
  - split; intros I; [apply B1|apply B2]; right; auto.
  - intros I. apply C. right. auto.
Qed.
Lemma split_commas : forall l last, Forall (fun a => braceless a /\ ~ In (ch ",") a) (l ++ [last]) ->
  split_alternatives (commas (l ++ [last])) [] 0 = (l, last).
Proof.
  induction l as [|a l IH]; intros last F.
  - cbn [app commas]. inversion F as [|x y (B & C) _]; subst. rewrite <- (app_nil_r last) at 1. rewrite split_word by auto. reflexivity.
  - inversion F as [|x y (B & C) F']; subst. assert (E : commas ((a :: l) ++ [last]) = a ++ txt "," ++ commas (l ++ [last])) by (destruct l; reflexivity).
    rewrite E, split_word by auto. cbn [app].
    change (split_alternatives (txt "," ++ commas (l ++ [last])) a 0) with (let '(l', last') := split_alternatives (commas (l ++ [last])) [] 0 in (a :: l', last')).
    rewrite IH by auto. reflexivity.
Qed.
Lemma last_group alts : alts <> [] -> alts <> [[]] -> Forall (fun a => braceless a /\ ~ In (ch ",") a) alts ->
  let '(l, last) := split_alternatives (commas alts) [] 0 in l ++ last_one (commas alts) last = alts.
Proof.
  intros N1 N2 F. destruct alts as [|last l _] using rev_ind; [congruence|]. rewrite split_commas by auto.
  f_equal. unfold last_one. destruct last as [|c last]; [|reflexivity].
  destruct l as [|x l]; [exfalso; apply N2; reflexivity|].
  replace (ends_with_comma (commas ((x :: l) ++ [[]]))) with true; [reflexivity|]. symmetry.
  assert (E : forall m z, exists q, commas ((z :: m) ++ [[]]) = q ++ txt ",").
  { induction m as [|y m IH]; intros z; [exists z; reflexivity|]. destruct (IH y) as (q & E). exists (z ++ txt "," ++ q).
    change (commas ((z :: y :: m) ++ [[]])) with (z ++ txt "," ++ commas ((y :: m) ++ [[]])). rewrite E, <- !app_assoc. reflexivity. }
  destruct (E l x) as (q & ->). unfold ends_with_comma. rewrite rev_app_distr. reflexivity.
Qed.
Lemma commas_braceless alts : Forall (fun a => braceless a /\ ~ In (ch ",") a) alts -> braceless (commas alts).
Proof.
  induction alts as [|a alts IH]; intros F; [split; intros []|]. inversion F as [|x y (B & C) F']; subst. destruct alts as [|b alts]; [exact B|].
  change (commas (a :: b :: alts)) with (a ++ txt "," ++ commas (b :: alts)). specialize (IH F').
  destruct B as (B1 & B2), IH as (I1 & I2). split; intros I; apply in_app_or in I; (destruct I as [I|I]; [auto|]); apply in_app_or in I;
    (destruct I as [[I|[]]|I]; [discriminate|auto]).
Qed.
Lemma chosen_plain s l x : chosen (Plain s :: l) x <-> exists t, x = s ++ t /\ chosen l t.
Proof. split; [intros H; inversion H; eauto|intros (t & -> & H); constructor; auto]. Qed.
Lemma chosen_group alts l x : chosen (Group alts :: l) x <-> exists a t, In a alts /\ x = a ++ t /\ chosen l t.
Proof. split; [intros H; inversion H; eauto|intros (a & t & I & -> & H); constructor; auto]. Qed.
(** The first group of a pattern, behind a plain beginning. *)
Definition groups (l : list segment) : nat := length (filter (fun g => match g with Group _ => true | _ => false end) l).
Lemma first_group : forall l, Forall flat l -> exists s, braceless s /\
  ((groups l = 0 /\ write l = s /\ forall x, chosen l x <-> x = s) \/
   exists alts rest, groups l = S (groups rest) /\ flat (Group alts) /\ Forall flat rest /\ write l = s ++ write (Group alts :: rest) /\
     forall x, chosen l x <-> exists a, In a alts /\ chosen (Plain (s ++ a) :: rest) x).
Proof.
  induction l as [|g l IH]; intros F.
  - exists []. split; [split; intros []|]. left. repeat split; auto.
    + intros H. inversion H. reflexivity.
    + intros ->. constructor.
  - inversion F as [|x y G F']; subst. destruct g as [s0|alts].
    + destruct (IH F') as (s & B & [(G0 & W & C)|(alts & rest & G0 & FG & FR & W & C)]); exists (s0 ++ s); (split; [|]).
      * destruct G as (G1 & G2), B as (B1 & B2). split; intros I; apply in_app_or in I; tauto.
      * left. split; [exact G0|]. split; [cbn [write flat_map write_segment]; fold (write l); rewrite W; reflexivity|]. intros x. rewrite chosen_plain. split.
        -- intros (t & -> & H). apply C in H. subst. reflexivity.
        -- intros ->. exists s. split; auto. apply C. reflexivity.
      * destruct G as (G1 & G2), B as (B1 & B2). split; intros I; apply in_app_or in I; tauto.
      * right. exists alts, rest. split; [exact G0|]. split; auto. split; auto. split.
        -- cbn [write flat_map]. change (flat_map write_segment l) with (write l). rewrite W. cbn [write_segment]. rewrite <- app_assoc. reflexivity.
        -- intros x. rewrite chosen_plain. split.
           ++ intros (t & -> & H). apply C in H. destruct H as (a & I & H). exists a. split; auto. apply chosen_plain in H.
              destruct H as (u & -> & H). apply chosen_plain. exists u. split; auto. rewrite <- !app_assoc. reflexivity.
           ++ intros (a & I & H). apply chosen_plain in H. destruct H as (u & -> & H). exists ((s ++ a) ++ u). split; [rewrite <- !app_assoc; reflexivity|].
              apply C. exists a. split; auto. apply chosen_plain. eauto.
    + exists []. split; [split; intros []|]. right. exists alts, l. repeat split; auto; try apply G.
      * intros H. apply chosen_group in H. destruct H as (a & t & I & -> & H). exists a. split; auto. apply chosen_plain. eauto.
      * intros (a & I & H). apply chosen_plain in H. destruct H as (t & -> & H). apply chosen_group. exists a, t. auto.
Qed.
Lemma expand_write : forall k n l, groups l <= k -> Forall flat l -> closes (write l) < n ->
  exists r, expand_fuel n (write l) = Some r /\ forall x, In x r <-> chosen l x.
Proof.
  induction k as [|k IH]; intros n l LE F L; (destruct n as [|n]; [lia|]);
    destruct (first_group l F) as (s & B & [(G0 & W & C)|(alts & rest & G0 & FG & FR & W & C)]); try lia.
  - exists [s]. rewrite W, expand_step, find_char_none by apply B. split; [reflexivity|]. intros x. rewrite C. cbn. intuition.
  - exists [s]. rewrite W, expand_step, find_char_none by apply B. split; [reflexivity|]. intros x. rewrite C. cbn. intuition.
  - rewrite W in L |- *. destruct FG as (N1 & N2 & FA).
    assert (E : s ++ write (Group alts :: rest) = s ++ ch "{" :: commas alts ++ ch "}" :: write rest).
    { cbn [write flat_map write_segment]. rewrite <- !app_assoc. reflexivity. }
    rewrite E in L |- *. rewrite expand_step.
    rewrite (proj2 (find_char_spec (ch "{") _ s (commas alts ++ ch "}" :: write rest))) by (split; [reflexivity|apply B]).
    pose proof (commas_braceless alts FA) as CB.
    rewrite (proj2 (find_char_spec (ch "}") _ (commas alts) (write rest))) by (split; [reflexivity|apply CB]).
    pose proof (last_group alts N1 N2 FA) as LG. destruct (split_alternatives (commas alts) [] 0) as (l0, last). rewrite LG.
    assert (SUB : forall a, In a alts -> exists r, expand_fuel n (s ++ a ++ write rest) = Some r /\ forall x, In x r <-> chosen (Plain (s ++ a) :: rest) x).
    { intros a I. rewrite Forall_forall in FA. destruct (FA a I) as (BA & _).
      replace (s ++ a ++ write rest) with (write (Plain (s ++ a) :: rest)) by (cbn [write flat_map write_segment]; rewrite <- app_assoc; reflexivity).
      apply IH.
      - cbn. unfold groups in *. cbn [filter] in *. lia.
      - constructor; auto. destruct B as (B1 & B2), BA as (A1 & A2). split; intros J; apply in_app_or in J; tauto.
      - change (ch "{" :: commas alts ++ ch "}" :: write rest) with ([ch "{"] ++ commas alts ++ [ch "}"] ++ write rest) in L.
        rewrite !closes_app in L. change (closes [ch "}"]) with 1 in L.
        cbn [write flat_map write_segment]. fold (write rest). rewrite !closes_app, (closes_none a (proj2 BA)). lia. }
    destruct (gather_some (fun a => expand_fuel n (s ++ a ++ write rest)) alts (fun a r => forall x, In x r <-> chosen (Plain (s ++ a) :: rest) x) SUB) as (r & ER & HR).
    exists r. split; [exact ER|]. intros x. rewrite HR, C. split.
    + intros (a & y & I & EY & J). exists a. split; auto. destruct (SUB a I) as (r2 & E2 & H2). apply H2. congruence.
    + intros (a & I & H). destruct (SUB a I) as (r2 & E2 & H2). exists a, r2. split; auto. split; auto. apply H2. auto.
Qed.
Lemma expand_braces_spec l : Forall flat l -> forall x, In x (expand_braces (write l)) <-> chosen l x.
Proof.
  intros F x. unfold expand_braces. destruct (expand_write (groups l) (S (length (write l))) l (le_n _) F) as (r & -> & H).
  - pose proof (closes_le (write l)). lia.
  - apply H.
Qed.

(** * LIKE *)
Lemma like_percent p s : like (ch "%" :: p) s = true <-> exists a b, s = a ++ b /\ like p b = true.
Proof.
  change (like (ch "%" :: p) s) with ((fix any (s : text) : bool := like p s || match s with [] => false | _ :: s' => any s' end) s).
  induction s as [|c s IH].
  - rewrite orb_false_r. split; [intros H; exists [], []; auto|]. intros (a & b & E & H). symmetry in E. apply app_eq_nil in E. destruct E as (_ & ->). exact H.
  - rewrite orb_true_iff, IH. split.
    + intros [H|(a & b & -> & H)]; [exists [], (c :: s); auto|exists (c :: a), b; auto].
    + intros (a & b & E & H). destruct a as [|d a]; [left; cbn in E; congruence|]. right. injection E as -> ->. eauto.
Qed.
Lemma like_prefix_all prefix rest : like (prefix ++ txt "%") (prefix ++ rest) = true.
Proof.
  induction prefix as [|c p IH].
  - apply like_percent. exists rest, []. rewrite app_nil_r. auto.
  - cbn [app]. destruct (Z.eq_dec c (ch "%")) as [->|N].
    + apply like_percent. exists [ch "%"], (p ++ rest). auto.
    + cbn [like]. rewrite (proj2 (Z.eqb_neq _ _) N), Z.eqb_refl, orb_true_r. exact IH.
Qed.
Definition wild (c : Z) : bool := (c =? ch "%")%Z || (c =? ch "_")%Z.
Lemma like_prefix_plain prefix s : (forall c, In c prefix -> wild c = false) ->
  like (prefix ++ txt "%") s = true <-> exists a b, s = a ++ b /\ map to_lower1 a = map to_lower1 prefix.
Proof.
  revert s. induction prefix as [|c p IH]; intros s W.
  - split; [intros _; exists [], s; auto|]. intros _. apply like_percent. exists s, []. rewrite app_nil_r. auto.
  - assert (WC : wild c = false) by (apply W; left; auto). unfold wild in WC. apply orb_false_iff in WC. destruct WC as (W1 & W2).
    cbn [app like]. rewrite W1, W2. cbn [orb]. destruct s as [|d s].
    + split; [discriminate|]. intros (a & b & E & H). symmetry in E. apply app_eq_nil in E. destruct E as (-> & _). discriminate.
    + rewrite andb_true_iff, Z.eqb_eq, IH by (intros; apply W; right; auto). split.
      * intros (E & a & b & -> & H). exists (d :: a), b. split; [reflexivity|]. cbn. congruence.
      * intros (a & b & E & H). destruct a as [|e a]; [discriminate|]. injection E as -> ->. cbn in H. injection H as H1 H2. split; [congruence|]. eauto.
Qed.
