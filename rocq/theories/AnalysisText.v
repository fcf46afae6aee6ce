(** Proofs about comments. *)
From Verif Require Import Base Text FtsText CallGraphSpec CallGraphProofs Analysis AnalysisSpec AnalysisTree AnalysisProofs.
From Coq Require Import String.
Open Scope string_scope.
Open Scope nat_scope.
Open Scope list_scope.
Notation length := List.length.

(** ** Blanks around *)
Lemma trim_start_all ws a : forall s, (forall c, In c a -> ws c = true) -> trim_start ws (a ++ s) = trim_start ws s.
Proof. induction a as [|c a IH]; intros s H; [reflexivity|]. cbn [app trim_start]. rewrite (H c) by (left; reflexivity). apply IH. intros d I. apply H. right. exact I. Qed.
Lemma trim_start_cut ws s : exists a, s = a ++ trim_start ws s /\ (forall c, In c a -> ws c = true) /\ forall c r, trim_start ws s = c :: r -> ws c = false.
Proof.
  induction s as [|c s (a & E & H & N)]; [exists []; split; [reflexivity|split; [intros c []|intros; discriminate]]|]. cbn [trim_start]. destruct (ws c) eqn:W.
  - exists (c :: a). split; [cbn; congruence|split; [intros d [<-|I]; auto|exact N]].
  - exists []. split; [reflexivity|split; [intros d []|]]. intros d r X. injection X as <- _. exact W.
Qed.
Lemma trim_cut ws s : exists a b, s = a ++ trim ws s ++ b /\ (forall c, In c (a ++ b) -> ws c = true)
  /\ (forall c r, trim ws s = c :: r -> ws c = false) /\ (forall c r, trim ws s = r ++ [c] -> ws c = false).
Proof.
  unfold trim. destruct (trim_start_cut ws s) as (a & E & H & N). set (g := trim_start ws s) in *.
  destruct (trim_start_cut ws (rev g)) as (b & E2 & H2 & N2). set (h := trim_start ws (rev g)) in *.
  assert (Eg : g = rev h ++ rev b). { rewrite <- (rev_involutive g), E2, rev_app_distr. reflexivity. }
  exists a, (rev b). split; [rewrite <- Eg; exact E|split; [|split]].
  - intros c I. apply in_app_or in I. destruct I as [I|I]; [apply H; exact I|apply H2, in_rev; exact I].
  - intros c r X. apply (N c (r ++ rev b)). rewrite Eg, X. reflexivity.
  - intros c r X. apply (N2 c (rev r)). rewrite <- (rev_involutive h), X, rev_app_distr. reflexivity.
Qed.
Lemma trim_unique ws a t b : (forall c, In c (a ++ b) -> ws c = true) -> (forall c r, t = c :: r -> ws c = false) -> (forall c r, t = r ++ [c] -> ws c = false) -> trim ws (a ++ t ++ b) = t.
Proof.
  intros H N1 N2. unfold trim. rewrite trim_start_all by (intros c I; apply H, in_or_app; left; exact I).
  destruct t as [|c t].
  - cbn [app]. rewrite <- (app_nil_r b), trim_start_all by (intros d I; apply H, in_or_app; right; exact I). reflexivity.
  - cbn [app trim_start]. rewrite (N1 c t eq_refl). change (c :: t ++ b) with ((c :: t) ++ b). rewrite rev_app_distr.
    rewrite trim_start_all by (intros d I; apply H, in_or_app; right; apply in_rev; exact I).
    rewrite <- (rev_involutive (c :: t)) at 2. f_equal. destruct (rev (c :: t)) as [|d r] eqn:E; [reflexivity|]. cbn [trim_start]. rewrite (N2 d (rev r)); [reflexivity|]. rewrite <- (rev_involutive (c :: t)), E. reflexivity.
Qed.
Section TEXT.
  Variable U : unicode.
  Lemma neat_bared s : bared U s (neat U s).
  Proof.
    destruct (trim_cut (u_ws U) s) as (a & b & E & H & N1 & N2). exists a, b. split; [exact E|split; [|split; [|split; assumption]]]; intros c I; apply H, in_or_app; auto.
  Qed.
  Lemma bared_neat s t : bared U s t -> neat U s = t.
  Proof. intros (a & b & -> & A & B & N1 & N2). apply trim_unique; auto. intros c I. apply in_app_or in I. destruct I; auto. Qed.
  Lemma marked_iff mark l : marked U mark l <-> starts_with (txt mark) (neat U l) = true.
  Proof.
    unfold marked. rewrite starts_with_spec. split.
    - intros (t & r & B & E). exists r. rewrite (bared_neat _ _ B). exact E.
    - intros (r & E). exists (neat U l), r. split; [apply neat_bared|exact E].
  Qed.
  Lemma blank_iff l : blank_line U l <-> non_empty (neat U l) = false.
  Proof.
    split.
    - intro B. rewrite (bared_neat l []); [reflexivity|]. exists l, []. rewrite app_nil_r. split; [reflexivity|split; [exact B|split; [intros c []|split; [discriminate|intros c r X; destruct r; discriminate X]]]].
    - intro N. destruct (neat_bared l) as (a & b & E & A & B & _). destruct (neat U l); [|discriminate N]. intros c I. rewrite E in I. cbn [app] in I. apply in_app_or in I. destruct I; auto.
  Qed.
  Lemma between_iff skips l : between U skips l <-> existsb (fun p => starts_with (txt p) (neat U l)) skips || negb (non_empty (neat U l)) = true.
  Proof.
    unfold between. rewrite orb_true_iff, negb_true_iff, blank_iff, existsb_exists. split.
    - intros [B|(p & I & M)]; [right; exact B|left; exists p; split; [exact I|apply marked_iff; exact M]].
    - intros [(p & I & M)|B]; [right; exists p; split; [exact I|apply marked_iff; exact M]|left; exact B].
  Qed.
  Lemma says_uncomment mark l : txt mark <> [] -> marked U mark l -> says U mark l (uncomment U mark (neat U l)).
  Proof.
    intros NE M. apply marked_iff in M. destruct (strip_start_spec (txt mark) (neat U l) NE) as (k & E & S & K).
    exists (neat U l), k, (strip_start (txt mark) (neat U l)). split; [apply neat_bared|split; [exact E|split; [auto|split; [exact S|apply neat_bared]]]].
  Qed.
  (** ** Going up *)
  Definition takes (g : text -> step) (block : list text) : list text := flat_map (fun l => match g (neat U l) with Take s => [s] | _ => [] end) block.
  Lemma go_up_run g block : forall rest acc, (forall l, In l block -> g (neat U l) <> Stop) -> go_up U (fun _ => g) (rev block ++ rest) acc = go_up U (fun _ => g) rest (takes g block ++ acc).
  Proof.
    induction block as [|l block IH] using rev_ind; intros rest acc H; [reflexivity|]. rewrite rev_app_distr. cbn [rev app go_up].
    assert (Hl : g (neat U l) <> Stop) by (apply H, in_or_app; right; left; reflexivity).
    assert (Hb : forall x, In x block -> g (neat U x) <> Stop) by (intros x I; apply H, in_or_app; left; exact I).
    unfold takes. rewrite flat_map_app. cbn [flat_map]. destruct (g (neat U l)) as [s| |] eqn:E; [| |congruence]; rewrite (IH _ _ Hb); unfold takes; cbn [app]; rewrite <- ?app_assoc; reflexivity.
  Qed.
  Lemma line_comment_stop mark skips l : line_comment U mark skips (neat U l) = Stop <-> ~ marked U mark l /\ ~ between U skips l.
  Proof.
    rewrite marked_iff, between_iff. unfold line_comment. destruct (starts_with (txt mark) (neat U l)); [split; [discriminate|intros (X & _); congruence]|].
    destruct (existsb _ skips || negb (non_empty (neat U l))); [split; [discriminate|intros (_ & X); congruence]|split; [intros _; split; discriminate|reflexivity]].
  Qed.
  Lemma comments_takes mark skips block : txt mark <> [] -> comments U mark block (takes (line_comment U mark skips) block).
  Proof.
    intro NE. induction block as [|l block IH]; [constructor|]. unfold takes. cbn [flat_map]. unfold line_comment at 1. destruct (starts_with (txt mark) (neat U l)) eqn:E.
    - cbn [app]. constructor; [apply marked_iff; exact E|apply says_uncomment; [exact NE|apply marked_iff; exact E]|exact IH].
    - destruct (existsb _ skips || negb (non_empty (neat U l))); cbn [app]; (constructor; [rewrite marked_iff; congruence|exact IH]).
  Qed.
  Lemma run_taken mark skips before block : run_above U mark skips before block ->
    go_up U (fun _ => line_comment U mark skips) (rev (before ++ block)) [] = takes (line_comment U mark skips) block.
  Proof.
    intros (Hb & Hs). rewrite rev_app_distr, go_up_run.
    - rewrite app_nil_r. destruct Hs as [->|(b & l & -> & N)]; [reflexivity|]. rewrite rev_app_distr. cbn [rev app go_up]. apply line_comment_stop in N. rewrite N. reflexivity.
    - intros l I E. apply line_comment_stop in E. destruct (Hb l I); tauto.
  Qed.
End TEXT.
Ltac langs := repeat match goal with |- context [is (txt ?x) ?l] => let b := eval vm_compute in (is (txt x) l) in change (is (txt x) l) with b end; cbv iota.
Lemma firstn_whole {A} (a b : list A) : firstn (length a) (a ++ b) = a.
Proof. rewrite firstn_app, Nat.sub_diag, firstn_all, firstn_O, app_nil_r. reflexivity. Qed.
Lemma line_doc U lang mark skips before block after t : In (lang, (mark, skips)) line_style -> run_above U mark skips before block -> t_first t = length (before ++ block) ->
  exists ss, comments U mark block ss /\ extract_docstring U (txt lang) (before ++ block ++ after) t = Ok (match ss with [] => None | _ => Some (join [32%Z] ss) end).
Proof.
  intros I R F. assert (NE : txt mark <> []) by (destruct I as [E|[E|[E|[E|[]]]]]; injection E as <- <- <-; discriminate).
  exists (takes U (line_comment U mark skips) block). split; [apply comments_takes; exact NE|].
  unfold extract_docstring, comment_doc. rewrite F, app_assoc, firstn_whole.
  assert (L : (length ((before ++ block) ++ after) <? length (before ++ block)) = false) by (apply Nat.ltb_ge; rewrite (app_length (before ++ block)); lia). rewrite L.
  pose proof (run_taken U mark skips before block R) as T.
  destruct I as [E|[E|[E|[E|[]]]]]; injection E as <- <- <-; langs; rewrite T; reflexivity.
Qed.
Lemma c_line_doc U lang before block after t ss : In lang ["c"; "cpp"] -> run_above U "///" [] before block -> t_first t = length (before ++ block) ->
  comments U "///" block ss -> ss <> [] -> extract_docstring U (txt lang) (before ++ block ++ after) t = Ok (Some (join [32%Z] ss)).
Proof.
  intros I R F C N.
  assert (Det : forall bl s1, comments U "///" bl s1 -> s1 = takes U (line_comment U "///" []) bl).
  { intros bl s1 H. induction H as [|l ls s ss' M S H IH|l ls ss' M H IH]; [reflexivity| |]; unfold takes; cbn [flat_map]; unfold line_comment at 1.
    - pose proof M as M'. apply marked_iff in M'. rewrite M'. cbn [app]. rewrite IH. f_equal. unfold uncomment. destruct S as (t' & k & rest & B & E & K & St & Bs). rewrite (bared_neat _ _ _ B). symmetry.
      assert (X : strip_start (txt "///") t' = rest); [|rewrite X; apply bared_neat; exact Bs].
      rewrite E. unfold strip_start. clear -St. assert (Le : k <= length (List.concat (repeat (txt "///") k) ++ rest)).
      { rewrite app_length. assert (k <= length (List.concat (repeat (txt "///") k))); [|lia]. induction k as [|k IH]; [cbn; lia|]. cbn [repeat List.concat]. rewrite app_length. change (length (txt "///")) with 3. lia. }
      revert Le. generalize (length (List.concat (repeat (txt "///") k) ++ rest)). induction k as [|k IH]; intros n Le.
      + cbn [repeat List.concat app]. destruct n; cbn [strip_fuel]; [reflexivity|]. rewrite St. reflexivity.
      + destruct n; [lia|]. cbn [repeat List.concat]. rewrite <- app_assoc. cbn [strip_fuel].
        assert (W : starts_with (txt "///") (txt "///" ++ List.concat (repeat (txt "///") k) ++ rest) = true) by (apply starts_with_spec; eauto). rewrite W.
        rewrite skipn_app, Nat.sub_diag, skipn_all, skipn_O. cbn [app]. apply IH. lia.
    - rewrite marked_iff in M. destruct (starts_with (txt "///") (neat U l)); [congruence|]. destruct (existsb _ [] || _); cbn [app]; exact IH. }
  rewrite (Det _ _ C) in *. unfold extract_docstring, comment_doc. rewrite F, app_assoc, firstn_whole.
  assert (L : (length ((before ++ block) ++ after) <? length (before ++ block)) = false) by (apply Nat.ltb_ge; rewrite (app_length (before ++ block)); lia). rewrite L.
  pose proof (run_taken U "///" [] before block R) as T.
  destruct I as [<-|[<-|[]]]; langs; rewrite T; destruct (takes U (line_comment U "///" []) block); try congruence; reflexivity.
Qed.

(** ** Block comments *)
Lemma strip_start_once p s : p <> [] -> starts_with p s = false -> strip_start p (p ++ s) = s.
Proof.
  intros NE H. unfold strip_start. rewrite app_length. destruct p as [|c p]; [congruence|]. cbn [List.length plus]. cbn [strip_fuel].
  assert (W : starts_with (c :: p) ((c :: p) ++ s) = true) by (apply starts_with_spec; eauto). rewrite W. rewrite skipn_app, Nat.sub_diag, skipn_all, skipn_O. cbn [app].
  destruct (length p + length s); cbn [strip_fuel]; [reflexivity|]. rewrite H. reflexivity.
Qed.
Lemma strip_end_once p s : p <> [] -> ends_in p s = false -> strip_end p (s ++ p) = s.
Proof. intros NE H. unfold strip_end. rewrite rev_app_distr, strip_start_once; [apply rev_involutive| |exact H]. intro X. apply NE. apply (f_equal (@rev Z)) in X. rewrite rev_involutive in X. exact X. Qed.
Lemma strip_end_none p s : ends_in p s = false -> strip_end p s = s.
Proof. intro H. unfold strip_end. rewrite strip_start_none by exact H. apply rev_involutive. Qed.
Section BLOCK.
  Variable U : unicode.
  Hypothesis G : good_unicode U.
  Lemma mark_not_blank c : c = 42%Z \/ c = 47%Z -> u_ws U c = false.
  Proof. intros [-> | ->]; rewrite (gu_ws U G) by reflexivity; reflexivity. Qed.
  (** the first character of [r] is a blank or the first of [w] *)
  Lemma head_plain r w : bared U r w -> plain_words w -> forall c x, r = c :: x -> c <> 42%Z /\ c <> 47%Z.
  Proof.
    intros (a & b & E & A & B & _) (N & P1 & P2) c x ->. destruct a as [|d a].
    - destruct w as [|d w]; [congruence|]. cbn [app] in E. injection E as <- _. apply (P1 c w eq_refl).
    - cbn [app] in E. injection E as <- _. assert (X : u_ws U c = true) by (apply A; left; reflexivity). split; intros ->; rewrite mark_not_blank in X by auto; discriminate X.
  Qed.
  Lemma last_plain r w : bared U r w -> plain_words w -> forall c x, r = x ++ [c] -> c <> 42%Z /\ c <> 47%Z.
  Proof.
    intros (a & b & E & A & B & _) (N & P1 & P2) c x ->. destruct b as [|d b] using rev_ind.
    - rewrite app_nil_r in E. destruct w as [|d w] using rev_ind; [congruence|]. rewrite app_assoc in E. apply app_inj_tail in E. destruct E as (_ & ->). apply (P2 d w eq_refl).
    - rewrite !app_assoc in E. apply app_inj_tail in E. destruct E as (_ & ->). assert (X : u_ws U d = true) by (apply B, in_or_app; right; left; reflexivity). split; intros ->; rewrite mark_not_blank in X by auto; discriminate X.
  Qed.
  Lemma not_ending r w : bared U r w -> plain_words w -> ends_in (txt "*/") r = false.
  Proof.
    intros B P. unfold ends_in. destruct (starts_with (rev (txt "*/")) (rev r)) eqn:E; [|reflexivity]. apply starts_with_spec in E. destruct E as (t & E).
    exfalso. destruct (last_plain r w B P 47%Z (rev t ++ [42%Z])) as (_ & X); [|congruence]. rewrite <- (rev_involutive r), E, rev_app_distr, <- app_assoc. reflexivity.
  Qed.
  Lemma starts_head p c s : starts_with (c :: p) s = true -> exists r, s = c :: r.
  Proof. destruct s as [|d s]; cbn [starts_with]; [discriminate|]. intro H. apply andb_true_iff in H. destruct H as (H & _). apply Z.eqb_eq in H. subst d. eauto. Qed.
  Lemma not_starting (p : string) r w c x : txt p = c :: x -> c = 42%Z \/ c = 47%Z -> bared U r w -> plain_words w -> starts_with (txt p) r = false.
  Proof.
    intros Ep Hc B P. destruct (starts_with (txt p) r) eqn:E; [|reflexivity]. rewrite Ep in E. apply starts_head in E. destruct E as (y & E). destruct (head_plain r w B P c y E). destruct Hc; congruence.
  Qed.
  Lemma bare_starred l w : starred U l w -> bare_c U l = w.
  Proof.
    intros (r & B & Br & P). unfold bare_c. rewrite (bared_neat U _ _ B). rewrite (strip_start_none (txt "/**")) by reflexivity. rewrite (strip_start_none (txt "/*")) by reflexivity.
    change (42%Z :: r) with (txt "*" ++ r). rewrite strip_start_once; [|discriminate|apply (not_starting "*" r w 42%Z []); auto].
    rewrite strip_end_none by (apply (not_ending r w); auto). apply bared_neat. exact Br.
  Qed.
  Lemma starred_not_open l w : starred U l w -> starts_with (txt "/*") (neat U l) = false.
  Proof. intros (r & B & _). rewrite (bared_neat U _ _ B). reflexivity. Qed.
  Lemma block_from_mids o : bared U o (txt "/**") -> forall mids rest taken, (forall l, In l mids -> starts_with (txt "/*") (neat U l) = false) ->
    block_from U "/*" (rev mids ++ o :: rest) taken = Some (o :: mids ++ taken).
  Proof.
    intro B. induction mids as [|l mids IH] using rev_ind; intros rest taken H.
    - cbn [rev app block_from]. rewrite (bared_neat U _ _ B). reflexivity.
    - rewrite rev_app_distr. cbn [rev app block_from]. rewrite (H l) by (apply in_or_app; right; left; reflexivity). rewrite IH; [rewrite <- app_assoc; reflexivity|]. intros x I. apply H, in_or_app. left. exact I.
  Qed.
  Lemma block_words before o mids z ws : bared U o (txt "/**") -> bared U z (txt "*/") -> Forall2 (starred U) mids ws ->
    block_comment U "/*" "*/" (bare_c U) (rev (before ++ o :: mids ++ [z])) = Some (join [32%Z] (ws ++ [txt "/"])).
  Proof.
    intros Bo Bz F. rewrite rev_app_distr. cbn [rev]. rewrite rev_app_distr. cbn [rev app]. unfold block_comment. rewrite (bared_neat U _ _ Bz). change (ends_in (txt "*/") (txt "*/")) with true. cbv iota.
    cbn [block_from]. rewrite (bared_neat U _ _ Bz). change (starts_with (txt "/*") (txt "*/")) with false. cbv iota. rewrite <- app_assoc. cbn [app]. rewrite (block_from_mids o Bo).
    2:{ intros l I. destruct (forall2_in_l _ _ _ F l I) as (w & _ & S). apply (starred_not_open l w S). }
    cbn [option_map]. do 2 f_equal. cbn [map filter]. assert (Eo : bare_c U o = []). { unfold bare_c. rewrite (bared_neat U _ _ Bo). reflexivity. }
    rewrite Eo. cbn [non_empty]. rewrite map_app, filter_app. f_equal.
    - clear Bo Bz. induction F as [|l w mids ws S F IH]; [reflexivity|]. cbn [map filter]. rewrite (bare_starred l w S). destruct S as (r & _ & _ & N & _). destruct w; [congruence|]. cbn [non_empty]. rewrite IH. reflexivity.
    - cbn [map filter]. assert (Ez : bare_c U z = txt "/"). { unfold bare_c. rewrite (bared_neat U _ _ Bz). apply bared_neat. exists [], []. split; [reflexivity|split; [intros c []|split; [intros c []|split]]]; intros c r X.
        - injection X as <- _. apply mark_not_blank. auto.
        - destruct r as [|? [|? ?]]; try discriminate X. injection X as <-. apply mark_not_blank. auto. }
      rewrite Ez. reflexivity.
  Qed.
  Lemma block_one before o r w : bared U o (txt "/**" ++ r ++ txt "*/") -> bared U r w -> plain_words w ->
    block_comment U "/*" "*/" (bare_c U) (rev (before ++ [o])) = Some w.
  Proof.
    intros Bo Br P. rewrite rev_app_distr. cbn [rev app]. unfold block_comment. rewrite (bared_neat U _ _ Bo).
    assert (En : ends_in (txt "*/") (txt "/**" ++ r ++ txt "*/") = true). { unfold ends_in. rewrite app_assoc, rev_app_distr. apply starts_with_spec. eauto. }
    rewrite En. cbn [block_from]. rewrite (bared_neat U _ _ Bo). change (starts_with (txt "/*") (txt "/**" ++ r ++ txt "*/")) with true. cbv iota. cbn [option_map map filter].
    assert (E : bare_c U o = w).
    { unfold bare_c. rewrite (bared_neat U _ _ Bo).
      assert (Hr : forall (p : string) c x, txt p = c :: x -> c = 42%Z \/ c = 47%Z -> starts_with (txt p) (r ++ txt "*/") = false).
      { intros p c x Ep Hc. destruct (starts_with (txt p) (r ++ txt "*/")) eqn:X; [|reflexivity]. rewrite Ep in X. apply starts_head in X. destruct X as (y & X). destruct r as [|d r'].
        - exfalso. destruct Br as (a & b & E & _). destruct P as (N & _). destruct a, w; try discriminate E. congruence.
        - cbn [app] in X. injection X as -> _. destruct (head_plain _ w Br P c r' eq_refl). destruct Hc; congruence. }
      rewrite strip_start_once; [|discriminate|apply (Hr "/**" 47%Z (txt "**")); auto]. rewrite (strip_start_none (txt "/*")) by (apply (Hr "/*" 47%Z (txt "*")); auto).
      rewrite (strip_start_none (txt "*")) by (apply (Hr "*" 42%Z []); auto). rewrite strip_end_once; [apply bared_neat; exact Br|discriminate|apply (not_ending r w); auto]. }
    rewrite E. destruct w; [destruct P; congruence|]. reflexivity.
  Qed.
  Lemma c_no_line z rest : starts_with (txt "///") (neat U z) = false -> non_empty (neat U z) = true -> spoken (go_up U (fun _ => line_comment U "///" []) (z :: rest) []) = None.
  Proof. intros H N. cbn [go_up]. unfold line_comment. rewrite H, N. reflexivity. Qed.
  Lemma block_doc_above lang ls start z rest d t : In lang ("c" :: "cpp" :: block_style) -> t_first t = start -> start <= length ls -> rev (firstn start ls) = z :: rest ->
    starts_with (txt "///") (neat U z) = false -> non_empty (neat U z) = true ->
    block_comment U "/*" "*/" (bare_c U) (z :: rest) = d -> extract_docstring U (txt lang) ls t = Ok d.
  Proof.
    intros I F L E H N B. pose proof (c_no_line z rest H N) as X. unfold extract_docstring, comment_doc. rewrite F, E, B. assert (Lf : (length ls <? start) = false) by (apply Nat.ltb_ge; exact L). rewrite Lf.
    cbn [In block_style] in I. repeat (destruct I as [<-|I]; [langs; rewrite ?X; reflexivity|]). destruct I.
  Qed.
End BLOCK.

(** ** Python *)
Lemma keep_kind_iff k t c : keep_kind k t = Some c <-> c = t /\ t_kind t = txt k.
Proof. unfold keep_kind. destruct (text_eqb (t_kind t) (txt k)) eqn:E; [apply text_eqb_eq in E; split; [intro X; injection X as ->; auto|intros (-> & _); reflexivity]|split; [discriminate|intros (_ & X); apply text_eqb_eq in X; congruence]]. Qed.
Lemma python_doc_ok U ls t e a pre mid post : first_statement t e -> ls = pre ++ mid ++ post -> length pre = t_first e -> t_first e <= t_last e -> length mid = S (t_last e - t_first e) -> a = join [10%Z] mid ->
  exists core d, unquoted a core /\ bared U core d /\ extract_docstring U (txt "python") ls t = Ok (Some d).
Proof.
  intros (b & s & bs & ss & Hb & Hs & Ks & He & Ke) -> Lp Le Lm ->. exists (trim is_quote (join [10%Z] mid)), (neat U (trim is_quote (join [10%Z] mid))). split; [|split; [apply neat_bared|]].
  - destruct (trim_cut is_quote (join [10%Z] mid)) as (x & y & E & H & N1 & N2). exists x, y. split; [exact E|split; [|split]].
    + intros c I. apply H in I. unfold is_quote in I. apply orb_true_iff in I. rewrite !Z.eqb_eq in I. exact I.
    + intros c r X. apply N1 in X. unfold is_quote in X. apply orb_false_iff in X. rewrite !Z.eqb_neq in X. exact X.
    + intros c r X. apply N2 in X. unfold is_quote in X. apply orb_false_iff in X. rewrite !Z.eqb_neq in X. exact X.
  - unfold extract_docstring. langs. unfold python_doc. apply by_field_iff in Hb. rewrite Hb. cbn [and_then]. unfold child. rewrite Hs. cbn [nth_error and_then].
    assert (K1 : keep_kind "expression_statement" s = Some s) by (apply keep_kind_iff; auto). rewrite K1. cbn [and_then]. rewrite He. cbn [nth_error and_then]. assert (K2 : keep_kind "string" e = Some e) by (apply keep_kind_iff; auto). rewrite K2.
    assert (R : rows (t_first e) (t_last e) (pre ++ mid ++ post) = Ok mid).
    { unfold rows. destruct (pre ++ mid ++ post) as [|l ls] eqn:E. { destruct pre, mid; try discriminate E. cbn in Lm. lia. } rewrite <- E.
      assert (Lt : length (pre ++ mid ++ post) = t_first e + (S (t_last e - t_first e) + length post)) by (rewrite !app_length; lia). rewrite Lt.
      rewrite Nat.min_l by lia. assert (Q : (t_first e <=? S (t_last e)) = true) by (apply Nat.leb_le; lia). rewrite Q. f_equal. rewrite <- Lp at 2. rewrite skipn_app, Nat.sub_diag, skipn_all, skipn_O. cbn [app].
      replace (S (t_last e) - t_first e) with (length mid) by lia. apply firstn_whole. }
    rewrite R. reflexivity.
Qed.
