(** Units of scripts. *)
From Verif Require Import Base Text Calendar FtsText Units Parse ParseSpec ParseProofs ParseUnits Blocks BlocksSpec BlocksProofs BlocksPage.
Open Scope nat_scope.

Lemma nth_firstn_some {A} (l : list A) : forall n j x, nth_error (firstn n l) j = Some x -> nth_error l j = Some x /\ j < n.
Proof. induction l as [|a l IH]; intros [|n] [|j] x H; cbn in *; try discriminate; [split; [assumption|lia]|]. destruct (IH n j x H). split; [assumption|lia]. Qed.
Lemma nth_skipn {A} (l : list A) : forall n j, nth_error (skipn n l) j = nth_error l (n + j).
Proof. induction l as [|a l IH]; intros [|n] j; cbn; auto. destruct j; reflexivity. Qed.

Section B3.
  Variable U : unicode.
  Variable path : text.
  Variable js : text -> grammar * node.
  Variable max_depth : nat.
  Hypothesis JS : good_parser js.
  Lemma moved_shows ls b u lang : stands U (txt "script") ls b -> Forall plain_line (fst b) -> shows_its_lines (file_lines (join_lines (fst b))) u -> shows_pieces U (txt "script") ls (moved lang (snd b) u).
  Proof using.
    intros S F (R & E). split; [cbn; lia|]. exists (lines_of (cu_line u) (cu_end_line u) (file_lines (join_lines (fst b)))). split; [exact E|]. split.
    { cbn [moved cu_line cu_end_line]. unfold lines_of. rewrite firstn_length. lia. }
    intros j p H. unfold lines_of in H. apply nth_firstn_some in H. destruct H as (H & _). rewrite nth_skipn in H.
    assert (H' : nth_error (fst b) (cu_line u - 1 + j) = Some p).
    { destruct (lines_join (fst b) F) as [<-|(c' & Ec & El)]; [exact H|]. rewrite El in H. rewrite Ec. rewrite nth_error_app1; [exact H|]. apply nth_error_Some. intro K. pose proof (eq_trans (eq_sym H) K) as Q. discriminate Q. }
    destruct (S _ _ H') as (l & N & P). exists l. split; [|exact P]. cbn [moved cu_line]. replace (cu_line u + snd b - 1 + j) with (snd b + (cu_line u - 1 + j)) by lia. exact N.
  Qed.
  Lemma script_ok ls lang b : stands U (txt "script") ls b -> Forall plain_line (fst b) ->
    exists o, script_units U path js max_depth lang b = Ok o /\
      match o with
      | None => ~ shallow js max_depth b
      | Some us => Forall (shows_pieces U (txt "script") ls) us /\ Forall (fun u => cu_language u = lang) us /\ script_units_in js b us
      end.
  Proof using JS.
    intros S F. unfold script_units, script_units_in, shallow. pose proof (JS (join_lines (fst b))) as (BO & RO). destruct (js (join_lines (fst b))) as (G, root) eqn:EJ. cbn [fst snd] in BO, RO.
    destruct (walk_ok U path G (file_lines (join_lines (fst b))) BO true (Datatypes.S max_depth) root RO None ([], false)) as (st & E & (new & En & Sn) & _ & W). rewrite E. cbn [bind]. eexists. split; [reflexivity|].
    destruct (snd st) eqn:Fl.
    - cbn [snd]. intro H. specialize (W ltac:(lia) eq_refl). congruence.
    - cbn [fst app] in En. rewrite En. split; [|split].
      + apply Forall_map. eapply Forall_impl; [|exact Sn]. intros u Hu. apply moved_shows; assumption.
      + apply Forall_map. apply Forall_forall. reflexivity.
      + intros n o L I. destruct (found U path G _ true (Datatypes.S max_depth) root None ([], false) st E Fl) as (new' & En' & K). cbn [fst app] in En'. rewrite En in En'. subst new'.
        assert (In1 : inside root n).
        { clear - L BO. induction L as [n o|n o c m q H1 H2 Hc L IH|n o name bb c m q H1 H2 H3 H4 Hc L IH]; [constructor|eapply in_child; eassumption|]. eapply in_child; [apply BO; exact H3|]. eapply in_child; eassumption. }
        destruct (RO n In1) as (R1 & R2). destruct (placed_ok U path G (file_lines (join_lines (fst b))) n (analysis_of G n o) R1 R2) as (u & Eu & _).
        exists (moved lang (snd b) u). split; [apply in_map; apply K; exists n, o; split; [exact L|split; assumption]|].
        apply placed_spec in Eu. unfold unit_of_node in Eu. unfold script_unit_of_node, moved. cbn. fold (analysis_of G n o). intuition lia.
  Qed.
  Lemma scripts_ok ls lang bs : Forall (fun b => stands U (txt "script") ls b /\ Forall plain_line (fst b)) bs -> forall acc, Forall (shows_pieces U (txt "script") ls) acc -> Forall (fun u => cu_language u = lang) acc ->
    exists o, all_scripts U path js max_depth lang bs acc = Ok o /\
      match o with
      | None => exists b, In b bs /\ ~ shallow js max_depth b
      | Some us => (exists more, us = acc ++ more) /\ Forall (shows_pieces U (txt "script") ls) us /\ Forall (fun u => cu_language u = lang) us /\ forall b, In b bs -> script_units_in js b us
      end.
  Proof using JS.
    induction bs as [|b bs IH]; intros F acc A1 A2; cbn [all_scripts].
    - eexists. split; [reflexivity|]. split; [exists []; rewrite app_nil_r; reflexivity|]. split; [exact A1|]. split; [exact A2|]. intros b [].
    - inversion F as [|? ? (S & P) F']; subst. destruct (script_ok ls lang b S P) as (o & -> & K). cbn [bind]. destruct o as [us|].
      + destruct K as (K1 & K2 & K3). destruct (IH F' (acc ++ us)) as (o & E & K); [apply Forall_app; auto|apply Forall_app; auto|]. exists o. split; [exact E|]. destruct o as [all|].
        * destruct K as ((more & ->) & L1 & L2 & L3). split; [exists (us ++ more); rewrite app_assoc; reflexivity|]. split; [exact L1|]. split; [exact L2|]. intros b' [<-|Hb]; [|apply L3; exact Hb].
          clear - K3. unfold script_units_in in *. destruct (js (join_lines (fst b))) as (G, root). intros n o L I. destruct (K3 n o L I) as (u & Hu & Q). exists u. split; [|exact Q].
          apply in_or_app. left. apply in_or_app. right. exact Hu.
        * destruct K as (b' & Hb & Q). exists b'. split; [right; exact Hb|exact Q].
      + eexists. split; [reflexivity|]. exists b. split; [left; reflexivity|exact K].
  Qed.
End B3.

Lemma part_plain U tag p l : piece_of U tag p l -> plain_line l -> plain_line p.
Proof.
  assert (TB : forall c l, In c (bare U l) -> In c l).
  { intros c x H. unfold bare, trim in H. apply in_rev in H. assert (K : forall s, In c (trim_start (u_ws U) s) -> In c s). { clear. induction s as [|d s IH]; cbn [trim_start]; [auto|]. destruct (u_ws U d); [intro H; right; apply IH; exact H|auto]. }
    apply K in H. apply in_rev in H. apply K in H. exact H. }
  intros [->|[(_ & a & E & _)|(_ & b & ->)]] (N1 & N2); [split; assumption| |].
  - split; intro H; [apply N1|apply N2]; apply TB; rewrite E; apply in_or_app; right; right; exact H.
  - split; intro H; [apply N1|apply N2]; apply in_or_app; left; exact H.
Qed.
Lemma stands_plain U tag ls b : stands U tag ls b -> Forall plain_line ls -> Forall plain_line (fst b).
Proof.
  intros S F. apply Forall_forall. intros p Hp. apply In_nth_error in Hp. destruct Hp as (j & Hj). destruct (S j p Hj) as (l & N & P). rewrite Forall_forall in F.
  exact (part_plain U tag p l P (F l (nth_error_In _ _ N))).
Qed.
