(** Proofs about what is recorded of a piece of code. *)
From Verif Require Import Base Text FtsText CallGraphSpec CallGraphProofs Analysis AnalysisSpec AnalysisTree.
From Coq Require Import String.
Open Scope string_scope.
Open Scope nat_scope.
Open Scope list_scope.
Notation length := List.length.

(** ** Control flow *)
Lemma fold_flow l : forall c a b e, fold_left flow_step l (c, a, b, e) =
  (c + length (filter (fun n => one_of branch_kinds (t_kind n) || one_of loop_kinds (t_kind n)) l),
   a || existsb (fun n => one_of loop_kinds (t_kind n)) l,
   b || existsb (fun n => one_of branch_kinds (t_kind n)) l,
   e || existsb (fun n => one_of error_kinds (t_kind n)) l).
Proof.
  assert (D : forall k, (one_of branch_kinds k = true -> one_of loop_kinds k = false /\ one_of error_kinds k = false) /\ (one_of loop_kinds k = true -> one_of error_kinds k = false)).
  { intro k. assert (X : forall (l1 l2 : list string), forallb (fun x => negb (one_of l2 (txt x))) l1 = true -> one_of l1 k = true -> one_of l2 k = false).
    { intros l1 l2 H K. unfold one_of in K. apply mem_in, in_map_iff in K. destruct K as (x & <- & I). rewrite forallb_forall in H. apply H in I. apply negb_true_iff in I. exact I. }
    split; [intro K; split; apply (X branch_kinds)|intro K; apply (X loop_kinds)]; auto. }
  induction l as [|n l IH]; intros c a b e; cbn [fold_left filter existsb].
  - cbn [List.length]. rewrite Nat.add_0_r, !orb_false_r. reflexivity.
  - unfold flow_step at 2. destruct (D (t_kind n)) as (D1 & D2). destruct (one_of branch_kinds (t_kind n)) eqn:B.
    + destruct (D1 eq_refl) as (-> & ->). rewrite IH. cbn [orb List.length]. rewrite Nat.add_succ_comm, !orb_true_r. reflexivity.
    + destruct (one_of loop_kinds (t_kind n)) eqn:L.
      * rewrite (D2 eq_refl). rewrite IH. cbn [orb List.length]. rewrite Nat.add_succ_comm, !orb_true_r. reflexivity.
      * destruct (one_of error_kinds (t_kind n)) eqn:E; rewrite IH; cbn [orb List.length]; rewrite ?orb_true_r; reflexivity.
Qed.
Lemma perm_filter_length {A} (f : A -> bool) l l' : Permutation l l' -> length (filter f l) = length (filter f l').
Proof. induction 1 as [|x l l' H IH|x y l|l l' l'' H IH H' IH']; cbn [filter]; auto; [destruct (f x); cbn; auto|destruct (f x), (f y); cbn; auto|congruence]. Qed.
Lemma counted t (f : tree -> bool) (P : tree -> Prop) : (forall n, f n = true <-> P n) -> there_are (length (filter f (walk_tree t))) t P.
Proof.
  intro H. rewrite (perm_filter_length f _ _ (walk_perm t)).
  assert (G : forall ps ns, Forall2 (at_place t) ps ns -> NoDup ps -> exists qs, NoDup qs /\ length qs = length (filter f ns) /\ forall p, In p qs <-> In p ps /\ exists n, at_place t p n /\ P n).
  { induction 1 as [|p n ps ns A F IH]; intro N.
    - exists []. split; [constructor|split; [reflexivity|]]. intro p. cbn. tauto.
    - inversion N as [|? ? Np Nps]; subst. destruct (IH Nps) as (qs & Nq & Lq & Hq). cbn [filter]. destruct (f n) eqn:E.
      + exists (p :: qs). split; [constructor; [rewrite Hq; tauto|exact Nq]|split; [cbn; auto|]]. intro q. cbn [In]. rewrite Hq. split.
        * intros [<-|(I & X)]; [split; [left; reflexivity|exists n; split; [exact A|apply H; exact E]]|split; [right; exact I|exact X]].
        * intros ([<-|I] & X); [left; reflexivity|right; split; assumption].
      + exists qs. split; [exact Nq|split; [exact Lq|]]. intro q. rewrite Hq. cbn [In]. split.
        * intros (I & X). auto.
        * intros ([<-|I] & X); [|auto]. exfalso. destruct X as (m & A' & Pm). rewrite (at_place_fun _ _ _ _ A A') in E. apply H in Pm. congruence. }
  destruct (G _ _ (spots_nodes t) (spots_nodup t)) as (qs & Nq & Lq & Hq). exists qs. split; [exact Nq|split; [exact Lq|]].
  intro p. rewrite Hq. rewrite in_spots. split; [tauto|]. intros (n & A & Pn). split; eauto.
Qed.
Lemma seen_somewhere t ks : existsb (fun n => one_of ks (t_kind n)) (walk_tree t) = true <-> somewhere t (of_kind ks).
Proof.
  rewrite existsb_exists. unfold somewhere. split.
  - intros (n & I & K). apply in_walk in I. destruct I as (p & A). exists p, n. split; [exact A|apply of_kind_mem; exact K].
  - intros (p & n & A & K). exists n. split; [apply in_walk; eauto|apply of_kind_mem; exact K].
Qed.

(** ** Collected names *)
Lemma collected ks t (f : tree -> list text) s :
  In s (flat_map (fun n => if one_of ks (t_kind n) then f n else []) (walk_tree t)) <-> somewhere t (fun n => of_kind ks n /\ In s (f n)).
Proof.
  rewrite in_flat_map. unfold somewhere. split.
  - intros (n & I & H). apply in_walk in I. destruct I as (p & A). destruct (one_of ks (t_kind n)) eqn:K; [|destruct H]. exists p, n. split; [exact A|split; [apply of_kind_mem; exact K|exact H]].
  - intros (p & n & A & K & H). exists n. split; [apply in_walk; eauto|]. apply of_kind_mem in K. rewrite K. exact H.
Qed.

(** ** Names of calls *)
Lemma split_nonempty fuel sep s : split_fuel fuel sep s <> [].
Proof. destruct fuel, s; cbn [split_fuel]; try discriminate. destruct (starts_with sep _); [discriminate|]. destruct (split_fuel fuel sep s); discriminate. Qed.
Lemma join_cons sep (x : text) l : l <> [] -> join sep (x :: l) = x ++ sep ++ join sep l.
Proof. destruct l; [congruence|reflexivity]. Qed.
Lemma join_split fuel sep : forall s, join sep (split_fuel fuel sep s) = s.
Proof.
  induction fuel as [|f IH]; intros [|c r]; cbn [split_fuel]; try reflexivity.
  destruct (starts_with sep (c :: r)) eqn:E.
  - rewrite join_cons by apply split_nonempty. rewrite IH. cbn [app]. apply starts_with_spec in E. destruct E as (t & E). rewrite E. rewrite skipn_app, Nat.sub_diag, skipn_all, skipn_O. reflexivity.
  - pose proof (IH r) as J. destruct (split_fuel f sep r) as [|h l] eqn:S; [destruct (split_nonempty _ _ _ S)|]. destruct l as [|y l].
    + cbn [join] in *. congruence.
    + rewrite join_cons in * by discriminate. cbn [app]. rewrite J. reflexivity.
Qed.
Lemma starts_with_longer p s t : starts_with p s = true -> starts_with p (s ++ t) = true.
Proof. rewrite !starts_with_spec. intros (u & ->). exists (u ++ t). rewrite app_assoc. reflexivity. Qed.
Lemma split_pure sep : sep <> [] -> forall fuel s, length s <= fuel -> forall x, In x (split_fuel fuel sep s) -> contains sep x = false.
Proof.
  intro NE. assert (B : contains sep [] = false). { destruct sep; [congruence|reflexivity]. }
  induction fuel as [|f IH]; intros [|c r] L x I; cbn [split_fuel] in I; try (destruct I as [<-|[]]; exact B); [cbn in L; lia|].
  destruct (starts_with sep (c :: r)) eqn:E.
  - destruct I as [<-|I]; [exact B|]. apply (IH _) in I; [exact I|]. rewrite skipn_length. destruct sep; [congruence|]. cbn [List.length] in *. lia.
  - assert (L' : length r <= f) by (cbn in L; lia). pose proof (join_split f sep r) as J. pose proof (IH r L') as IHr. destruct (split_fuel f sep r) as [|h l] eqn:S; [destruct (split_nonempty _ _ _ S)|].
    destruct I as [<-|I]; [|apply IHr; right; exact I]. cbn [contains]. rewrite (IHr h) by (left; reflexivity). rewrite orb_false_r.
    destruct (starts_with sep (c :: h)) eqn:X; [|reflexivity]. exfalso. assert (exists t, r = h ++ t) as (t & ->).
    { destruct l as [|y l]; [exists []; rewrite app_nil_r; symmetry; exact J|]. rewrite join_cons in J by discriminate. exists (sep ++ join sep (y :: l)). symmetry. exact J. }
    change (c :: h ++ t) with ((c :: h) ++ t) in E. rewrite (starts_with_longer _ (c :: h) t X) in E. discriminate.
Qed.
Lemma last_in {A} (l : list A) d : l <> [] -> In (last l d) l.
Proof. induction l as [|x l IH]; [congruence|]. destruct l as [|y l]; [left; reflexivity|]. intros _. right. apply IH. discriminate. Qed.
Lemma join_last sep (l : list text) d : l <> [] -> exists before, join sep l = before ++ last l d /\ (before = [] \/ exists b, before = b ++ sep).
Proof.
  induction l as [|x l IH]; [congruence|]. intros _. destruct l as [|y l]; [exists []; split; [reflexivity|left; reflexivity]|].
  destruct IH as (b & E & H); [discriminate|]. rewrite join_cons by discriminate. rewrite E. exists (x ++ sep ++ b). split.
  - rewrite <- !app_assoc. reflexivity.
  - right. destruct H as [->|(b' & ->)]; [exists x; rewrite app_nil_r; reflexivity|exists (x ++ sep ++ b'); rewrite <- !app_assoc; reflexivity].
Qed.
Lemma last_part_spec sep s : txt sep <> [] -> exists before, s = before ++ last_part sep s /\ (before = [] \/ exists b, before = b ++ txt sep) /\ contains (txt sep) (last_part sep s) = false.
Proof.
  intro NE. unfold last_part, split. pose proof (split_nonempty (length s) (txt sep) s) as N. destruct (join_last (txt sep) _ s N) as (b & E & H). rewrite join_split in E.
  exists b. split; [exact E|split; [exact H|]]. eapply split_pure; [exact NE|apply le_n|]. apply last_in. exact N.
Qed.
Lemma split_whole sep fuel : forall s, contains sep s = false -> split_fuel fuel sep s = [s].
Proof.
  induction fuel as [|f IH]; intros [|c r] C; cbn [split_fuel]; try reflexivity. cbn [contains] in C. apply orb_false_iff in C. destruct C as (-> & C). rewrite IH by exact C. reflexivity.
Qed.
Lemma last_cons {A} (x : A) l d : l <> [] -> last (x :: l) d = last l d.
Proof. destruct l; [congruence|reflexivity]. Qed.
Lemma last_default {A} (l : list A) d d' : l <> [] -> last l d = last l d'.
Proof. induction l as [|x l IH]; [congruence|]. intros _. destruct l as [|y l]; [reflexivity|]. rewrite !(last_cons x) by discriminate. apply IH. discriminate. Qed.
Lemma split_at_last sep s d : sep <> [] -> contains sep s = false -> forall fuel b, length (b ++ sep ++ s) <= fuel ->
  (forall b1 b2, b = b1 ++ b2 -> b2 <> [] -> length b2 < length sep -> starts_with sep (b2 ++ sep ++ s) = false) -> last (split_fuel fuel sep (b ++ sep ++ s)) d = s.
Proof.
  intros NE C. induction fuel as [|f IH]; intros b L H.
  { exfalso. rewrite !app_length in L. destruct sep; [congruence|]. cbn [List.length] in L. lia. }
  destruct (b ++ sep ++ s) as [|c r] eqn:E. { destruct b, sep; try discriminate; congruence. }
  cbn [split_fuel]. rewrite <- E. destruct (starts_with sep (b ++ sep ++ s)) eqn:X.
  - rewrite last_cons by apply split_nonempty. destruct (Nat.le_gt_cases (length sep) (length b)) as [Le|Gt].
    + assert (exists b', b = sep ++ b') as (b' & ->).
      { apply starts_with_spec in X. destruct X as (t & X). exists (skipn (length sep) b). pose proof (f_equal (firstn (length sep)) X) as F. rewrite firstn_app in F. replace (length sep - length b) with 0 in F by lia. rewrite firstn_O, app_nil_r in F. rewrite firstn_app, Nat.sub_diag, firstn_all, firstn_O, app_nil_r in F. rewrite <- F at 1. symmetry. apply firstn_skipn. }
      rewrite <- app_assoc. rewrite skipn_app, Nat.sub_diag, skipn_all, skipn_O. cbn [app]. apply IH.
      * rewrite <- E in L. rewrite <- app_assoc, app_length in L. destruct sep; [congruence|]. cbn [List.length] in L. rewrite ?app_length in *. cbn [List.length] in *. lia.
      * intros b1 b2 Eb. apply (H (sep ++ b1)). rewrite Eb, app_assoc. reflexivity.
    + destruct b as [|x b].
      * cbn [app]. rewrite skipn_app, Nat.sub_diag, skipn_all, skipn_O. cbn [app]. rewrite split_whole by exact C. reflexivity.
      * exfalso. rewrite (H [] (x :: b)) in X; [discriminate|reflexivity|discriminate|exact Gt].
  - destruct b as [|x b]. { exfalso. cbn [app] in X. assert (starts_with sep (sep ++ s) = true) by (apply starts_with_spec; eauto). congruence. }
    cbn [app] in E. injection E as <- <-. specialize (IH b). pose proof (split_nonempty f sep (b ++ sep ++ s)) as N. destruct (split_fuel f sep (b ++ sep ++ s)) as [|h l] eqn:S; [congruence|].
    destruct l as [|y l].
    + exfalso. assert (J : h = b ++ sep ++ s). { rewrite <- (join_split f sep (b ++ sep ++ s)), S. reflexivity. }
      assert (P : contains sep h = false). { eapply (split_pure sep NE f (b ++ sep ++ s)); [cbn [app List.length] in L; lia|]. rewrite S. left. reflexivity. }
      assert (contains sep h = true); [|congruence]. apply contains_spec. exists b, s. exact J.
    + rewrite last_cons by discriminate. rewrite last_cons in IH by discriminate. apply IH; [cbn [app List.length] in L; lia|]. intros b1 b2 Eb. apply (H (x :: b1)). rewrite Eb. reflexivity.
Qed.

(** ** Stripping a mark *)
Lemma strip_fuel_spec p : p <> [] -> forall fuel s, length s <= fuel ->
  exists k, s = List.concat (repeat p k) ++ strip_fuel fuel p s /\ starts_with p (strip_fuel fuel p s) = false /\ (starts_with p s = true -> 0 < k).
Proof.
  intro NE. assert (B : starts_with p [] = false) by (destruct p; [congruence|reflexivity]).
  induction fuel as [|f IH]; intros s L.
  - destruct s; [|cbn in L; lia]. exists 0. cbn [strip_fuel repeat List.concat app]. split; [reflexivity|split; [exact B|congruence]].
  - cbn [strip_fuel]. destruct (starts_with p s) eqn:E; [|exists 0; cbn [repeat List.concat app]; split; [reflexivity|split; [exact E|congruence]]].
    apply starts_with_spec in E. destruct E as (t & ->). rewrite skipn_app, Nat.sub_diag, skipn_all, skipn_O. cbn [app].
    destruct (IH t) as (k & Ek & Sk & _). { rewrite app_length in L. destruct p; [congruence|]. cbn [List.length] in L. lia. }
    exists (S k). cbn [repeat List.concat]. rewrite <- app_assoc. split; [f_equal; exact Ek|split; [exact Sk|lia]].
Qed.
Lemma strip_start_spec p s : p <> [] -> exists k, s = List.concat (repeat p k) ++ strip_start p s /\ starts_with p (strip_start p s) = false /\ (starts_with p s = true -> 0 < k).
Proof. intro NE. apply strip_fuel_spec; auto. Qed.
Lemma strip_start_none p s : starts_with p s = false -> strip_start p s = s.
Proof. unfold strip_start. destruct (length s); cbn [strip_fuel]; [reflexivity|]. intros ->. reflexivity. Qed.
Lemma concat_one (c : Z) k : List.concat (repeat [c] k) = repeat c k.
Proof. induction k as [|k IH]; cbn [repeat List.concat app]; [reflexivity|]. rewrite IH. reflexivity. Qed.
Lemma strip_end_spec s : exists bangs, s = strip_end [33%Z] s ++ bangs /\ (forall c, In c bangs -> c = 33%Z) /\ forall a, strip_end [33%Z] s <> a ++ [33%Z].
Proof.
  unfold strip_end. cbn [rev app]. destruct (strip_start_spec [33%Z] (rev s)) as (k & E & N & _); [discriminate|]. rewrite concat_one in E.
  exists (repeat 33%Z k). split; [|split].
  - rewrite <- (rev_involutive s), E at 1. rewrite rev_app_distr. f_equal. clear. induction k as [|k IH]; [reflexivity|]. cbn [repeat rev]. rewrite IH. clear. induction k as [|k IH]; [reflexivity|]. cbn [repeat app]. rewrite IH. reflexivity.
  - intros c I. apply repeat_spec in I. exact I.
  - intros a Ea. apply (f_equal (@rev Z)) in Ea. rewrite rev_involutive, rev_app_distr in Ea. cbn [rev app] in Ea. rewrite Ea in N. cbn [starts_with] in N. discriminate.
Qed.
Lemma contains_prefix p a b : contains p (a ++ b) = false -> contains p a = false.
Proof. intro H. destruct (contains p a) eqn:E; [|reflexivity]. apply contains_spec in E. destruct E as (x & y & ->). assert (contains p ((x ++ p ++ y) ++ b) = true); [|congruence]. apply contains_spec. exists x, (y ++ b). rewrite <- !app_assoc. reflexivity. Qed.
Lemma contains_suffix p a b : contains p (a ++ b) = false -> contains p b = false.
Proof. intro H. destruct (contains p b) eqn:E; [|reflexivity]. apply contains_spec in E. destruct E as (x & y & ->). assert (contains p (a ++ x ++ p ++ y) = true); [|congruence]. apply contains_spec. exists (a ++ x), y. rewrite <- !app_assoc. reflexivity. Qed.
Definition called (full : text) : text := strip_end (txt "!") (last_part "::" (last_part "." full)).
Lemma called_sound full : ends_name full (called full).
Proof.
  unfold called. change (txt "!") with [33%Z].
  destruct (last_part_spec "." full) as (b1 & E1 & H1 & C1); [discriminate|]. set (y := last_part "." full) in *.
  destruct (last_part_spec "::" y) as (b2 & E2 & H2 & C2); [discriminate|]. set (z := last_part "::" y) in *.
  destruct (strip_end_spec z) as (bangs & E3 & B3 & N3). set (s := strip_end [33%Z] z) in *.
  assert (Cd : contains (txt ".") s = false). { apply (contains_prefix _ s bangs). rewrite <- E3. apply (contains_suffix _ b2). rewrite <- E2. exact C1. }
  assert (Cc : contains (txt "::") s = false). { apply (contains_prefix _ s bangs). rewrite <- E3. exact C2. }
  split; [|split; [|split; [exact N3|]]].
  - intros a b E. assert (contains (txt ".") s = true); [|congruence]. apply contains_spec. eauto.
  - intros a b E. assert (contains (txt "::") s = true); [|congruence]. apply contains_spec. eauto.
  - exists (b1 ++ b2), bangs. split; [rewrite <- app_assoc, <- E3, <- E2; exact E1|split; [exact B3|]].
    destruct H2 as [->|(b & ->)].
    + rewrite app_nil_r. destruct H1 as [->|(b & ->)]; [left; reflexivity|right; left; exists b; reflexivity].
    + right; right. exists (b1 ++ b). rewrite app_assoc. reflexivity.
Qed.
Lemma no_char p c s : p <> [] -> hd 0%Z p = c -> ~ In c s -> contains p s = false.
Proof. intros NE <- N. destruct (contains p s) eqn:E; [|reflexivity]. apply contains_spec in E. destruct E as (a & b & ->). exfalso. apply N. destruct p; [congruence|]. cbn [hd]. apply in_or_app. right. left. reflexivity. Qed.
Lemma strip_end_bangs s bangs : (forall a, s <> a ++ [33%Z]) -> (forall c, In c bangs -> c = 33%Z) -> strip_end [33%Z] (s ++ bangs) = s.
Proof.
  intros N B. unfold strip_end. cbn [rev app]. rewrite rev_app_distr. rewrite <- (rev_involutive s) at 2. f_equal.
  assert (S0 : starts_with [33%Z] (rev s) = false).
  { destruct (starts_with [33%Z] (rev s)) eqn:E; [|reflexivity]. apply starts_with_spec in E. destruct E as (t & E). exfalso. apply (N (rev t)). rewrite <- (rev_involutive s), E. reflexivity. }
  assert (B' : forall c, In c (rev bangs) -> c = 33%Z) by (intros c I; apply B, in_rev; exact I).
  unfold strip_start. assert (G : forall l fuel, (forall c, In c l -> c = 33%Z) -> length l <= fuel -> strip_fuel fuel [33%Z] (l ++ rev s) = rev s).
  { induction l as [|c l IH]; intros fuel Bl L; cbn [app].
    - destruct fuel; cbn [strip_fuel]; [reflexivity|]. rewrite S0. reflexivity.
    - destruct fuel; [cbn in L; lia|]. rewrite (Bl c) by (left; reflexivity). cbn [strip_fuel starts_with]. rewrite Z.eqb_refl. cbn [andb List.length skipn]. apply IH; [intros d I; apply Bl; right; exact I|cbn in L; lia]. }
  apply G; [exact B'|]. rewrite app_length. lia.
Qed.
Lemma last_part_whole sep s : contains (txt sep) s = false -> last_part sep s = s.
Proof. intro C. unfold last_part, split. rewrite split_whole by exact C. reflexivity. Qed.
Lemma called_complete U full s : good_unicode U -> plain_name U full s -> called full = s /\ begins (u_alpha U) s = true.
Proof.
  intros G (I & W & before & bangs & E & B & H).
  assert (Wn : forall c, In c s -> c <> 46%Z /\ c <> 58%Z /\ c <> 33%Z).
  { intros c Ic. destruct (W c Ic) as [Al| ->]; [|lia]. split; [|split]; intros ->; rewrite (gu_alnum U G) in Al by reflexivity; discriminate Al. }
  assert (N46 : ~ In 46%Z (s ++ bangs)). { intro X. apply in_app_or in X. destruct X as [X|X]; [apply Wn in X; lia|apply B in X; lia]. }
  assert (N58 : ~ In 58%Z (s ++ bangs)). { intro X. apply in_app_or in X. destruct X as [X|X]; [apply Wn in X; lia|apply B in X; lia]. }
  assert (Cd : contains (txt ".") (s ++ bangs) = false) by (apply (no_char _ 46%Z); [discriminate|reflexivity|exact N46]).
  assert (Cc : contains (txt "::") (s ++ bangs) = false) by (apply (no_char _ 58%Z); [discriminate|reflexivity|exact N58]).
  split.
  2:{ destruct I as (c & r & -> & A). exact A. }
  unfold called. change (txt "!") with [33%Z].
  assert (Fin : last_part "::" (last_part "." full) = s ++ bangs).
  { destruct H as [->|[(b & ->)|(b & -> & Nb)]].
    - cbn [app] in E. rewrite E. rewrite (last_part_whole "." _ Cd). apply last_part_whole. exact Cc.
    - rewrite E. rewrite <- app_assoc. assert (L : last_part "." (b ++ [46%Z] ++ s ++ bangs) = s ++ bangs).
      { unfold last_part, split. apply (split_at_last (txt ".") (s ++ bangs)); [discriminate|exact Cd|apply le_n|]. intros b1 b2 _ N2 L2. destruct b2; [congruence|]. cbn in L2. lia. }
      rewrite L. apply last_part_whole. exact Cc.
    - destruct (last_part_spec "." full) as (b1 & E1 & H1 & C1); [discriminate|]. set (y := last_part "." full) in *.
      assert (exists b2, b = b1 ++ b2 /\ y = b2 ++ [58; 58]%Z ++ s ++ bangs) as (b2 & Eb & Ey).
      { rewrite E1, <- app_assoc in E. assert (Nx : ~ In 46%Z ([58; 58]%Z ++ s ++ bangs)). { intros X. apply in_app_or in X. destruct X as [[X|[X|[]]]|X]; try discriminate X. exact (N46 X). }
        revert E Nx. generalize ([58; 58]%Z ++ s ++ bangs). intros x E Nx. apply app_eq_app in E. destruct E as (l & [(Ea & Ex)|(Ea & Ex)]); [|exists l; split; [exact Ea|exact Ex]].
        destruct l as [|c l] using rev_ind; [exists []; rewrite app_nil_r in *; split; [symmetry; exact Ea|rewrite Ex; reflexivity]|].
        exfalso. destruct H1 as [->|(b0 & ->)]; [destruct b, l; discriminate Ea|]. change (txt ".") with [46%Z] in Ea. rewrite app_assoc in Ea. apply app_inj_tail in Ea. destruct Ea as (_ & <-). apply Nx. rewrite Ex. apply in_or_app. left. apply in_or_app. right. left. reflexivity. }
      rewrite Ey. unfold last_part, split. apply (split_at_last (txt "::") (s ++ bangs)); [discriminate|exact Cc|apply le_n|].
      intros c1 c2 E2 N2 L2. destruct c2 as [|x [|y' c2]]; [congruence| |cbn in L2; lia].
      change (txt "::") with [58; 58]%Z. cbn [app starts_with]. destruct (58 =? x)%Z eqn:Nx; [|reflexivity]. apply Z.eqb_eq in Nx. subst x.
      exfalso. apply (Nb (b1 ++ c1)). rewrite Eb, E2, app_assoc. reflexivity. }
  rewrite Fin. apply strip_end_bangs; [|exact B]. intros a Ea. destruct (Wn 33%Z) as (_ & _ & X); [|congruence]. rewrite Ea. apply in_or_app. right. left. reflexivity.
Qed.
