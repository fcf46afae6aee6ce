(** Reading and matching of the regular expressions written for --exclude and --exclude-dir. *)
From Verif Require Import Base Text Regex RegexProofs Glob GlobSpec.
Open Scope nat_scope.

(** * Case analysis on a glob, the way both the code and the specification read it *)
Lemma glob_ind_pattern (P : text -> Prop) :
  P [] ->
  (forall p, P p -> P (txt "**/" ++ p)) ->
  (forall p, (forall p', p <> ch "/" :: p') -> P p -> P (txt "**" ++ p)) ->
  (forall p, (forall p', p <> ch "*" :: p') -> P p -> P (txt "*" ++ p)) ->
  (forall p, P p -> P (txt "?" ++ p)) ->
  (forall c p, c <> ch "*" -> c <> ch "?" -> P p -> P (c :: p)) ->
  forall p, P p.
Proof.
  intros H0 H1 H2 H3 H4 H5 p. remember (length p) as n eqn:E. revert p E.
  induction n as [n IH] using lt_wf_ind. intros p ->.
  destruct p as [|c p]; [exact H0|].
  destruct (Z.eq_dec c (ch "*")) as [->|N1].
  - destruct p as [|d p]; [apply (H3 []); [discriminate|exact H0]|].
    destruct (Z.eq_dec d (ch "*")) as [->|N2].
    + destruct p as [|e p]; [apply (H2 []); [discriminate|exact H0]|].
      destruct (Z.eq_dec e (ch "/")) as [->|N3].
      * apply (H1 p). eapply IH; [|reflexivity]. cbn. lia.
      * apply (H2 (e :: p)); [intros p' K; injection K; congruence|]. eapply IH; [|reflexivity]. cbn. lia.
    + apply (H3 (d :: p)); [intros p' K; injection K; congruence|]. eapply IH; [|reflexivity]. cbn. lia.
  - destruct (Z.eq_dec c (ch "?")) as [->|N2].
    + apply (H4 p). eapply IH; [|reflexivity]. cbn. lia.
    + apply H5; auto. eapply IH; [|reflexivity]. cbn. lia.
Qed.

Lemma zmem_in c l : zmem c l = true <-> In c l.
Proof.
  unfold zmem. rewrite existsb_exists. split.
  - intros (x & I & E). apply Z.eqb_eq in E. congruence.
  - intros I. exists c. split; auto. apply Z.eqb_refl.
Qed.
Lemma zmem_out c l : zmem c l = false -> forall d, In d l -> (c =? d)%Z = false.
Proof.
  intros H d I. destruct (Z.eqb_spec c d) as [->|]; auto. apply zmem_in in I. congruence.
Qed.

(** * What the text of a glob is read as *)
Definition slash_star : re := Cat (Star Any) (Cat (Lit (ch "/")) Eps).     (* .*/ *)
Fixpoint parts (p : text) : list re :=
  match p with
  | [] => []
  | c :: p1 =>
      if (c =? ch "*")%Z then
        match p1 with
        | d :: p2 =>
            if (d =? ch "*")%Z then
              match p2 with
              | e :: p3 => if (e =? ch "/")%Z then Alt slash_star Eps :: parts p3 else Star Any :: parts p2
              | [] => [Star Any]
              end
            else Star (Class true (ch "/")) :: parts p1
        | [] => [Star (Class true (ch "/"))]
        end
      else if (c =? ch "?")%Z then Any :: parts p1
      else Lit c :: parts p1
  end.
Lemma parts_dirs p : parts (txt "**/" ++ p) = Alt slash_star Eps :: parts p. Proof. reflexivity. Qed.
Lemma parts_all p : (forall p', p <> ch "/" :: p') -> parts (txt "**" ++ p) = Star Any :: parts p.
Proof.
  intros H. destruct p as [|e p]; [reflexivity|].
  change (parts (txt "**" ++ e :: p)) with (if (e =? ch "/")%Z then Alt slash_star Eps :: parts p else Star Any :: parts (e :: p)).
  destruct (Z.eqb_spec e (ch "/")) as [->|N]; [exfalso; eapply H; reflexivity|reflexivity].
Qed.
Lemma parts_run p : (forall p', p <> ch "*" :: p') -> parts (txt "*" ++ p) = Star (Class true (ch "/")) :: parts p.
Proof.
  intros H. destruct p as [|e p]; [reflexivity|].
  change (parts (txt "*" ++ e :: p)) with (if (e =? ch "*")%Z then match p with e0 :: p3 => if (e0 =? ch "/")%Z then Alt slash_star Eps :: parts p3 else Star Any :: parts p | [] => [Star Any] end else Star (Class true (ch "/")) :: parts (e :: p)).
  destruct (Z.eqb_spec e (ch "*")) as [->|N]; [exfalso; eapply H; reflexivity|reflexivity].
Qed.
Lemma parts_one p : parts (txt "?" ++ p) = Any :: parts p. Proof. reflexivity. Qed.
Lemma parts_same c p : c <> ch "*" -> c <> ch "?" -> parts (c :: p) = Lit c :: parts p.
Proof. intros H1 H2. cbn [parts]. rewrite (proj2 (Z.eqb_neq _ _) H1), (proj2 (Z.eqb_neq _ _) H2). reflexivity. Qed.
Lemma body_all p : (forall p', p <> ch "/" :: p') -> glob_body (txt "**" ++ p) = txt ".*" ++ glob_body p.
Proof.
  intros H. destruct p as [|e p]; [reflexivity|].
  change (glob_body (txt "**" ++ e :: p)) with (if (e =? ch "/")%Z then txt "(.*/)?" ++ glob_body p else txt ".*" ++ glob_body (e :: p)).
  destruct (Z.eqb_spec e (ch "/")) as [->|N]; [exfalso; eapply H; reflexivity|reflexivity].
Qed.
Lemma body_run p : (forall p', p <> ch "*" :: p') -> glob_body (txt "*" ++ p) = txt "[^/]*" ++ glob_body p.
Proof.
  intros H. destruct p as [|e p]; [reflexivity|].
  change (glob_body (txt "*" ++ e :: p)) with (if (e =? ch "*")%Z then match p with e0 :: p3 => if (e0 =? ch "/")%Z then txt "(.*/)?" ++ glob_body p3 else txt ".*" ++ glob_body p | [] => txt ".*" end else txt "[^/]*" ++ glob_body (e :: p)).
  destruct (Z.eqb_spec e (ch "*")) as [->|N]; [exfalso; eapply H; reflexivity|reflexivity].
Qed.

Lemma read_escaped c s st alts q : zmem c punctuation = true -> read (ch "\" :: c :: s) st alts q = read s st alts (Lit c :: q).
Proof. intros H. cbn -[zmem punctuation]. rewrite H. reflexivity. Qed.
Lemma read_plain c s st alts q : zmem c (txt "()|*+?.^$\[]{}") = false -> read (c :: s) st alts q = read s st alts (Lit c :: q).
Proof.
  intros H. cbn [read].
  assert (K : forall d, zmem d (txt "()|*+?.^$\[]{}") = true -> (c =? d)%Z = false) by (intros d D; apply zmem_in in D; eapply zmem_out; eauto).
  rewrite !K by reflexivity. destruct (zmem c (txt "]{}")) eqn:Z; [|reflexivity].
  apply zmem_in in Z. exfalso. enough (zmem c (txt "()|*+?.^$\[]{}") = true) by congruence.
  apply zmem_in. cbn in Z |- *. intuition.
Qed.
Lemma read_body : forall p s st alts q, read (glob_body p ++ s) st alts q = read s st alts (rev (parts p) ++ q).
Proof.
  induction p as [|p IH|p N IH|p N IH|p IH|c p N1 N2 IH] using glob_ind_pattern; intros s st alts q.
  - reflexivity.
  - rewrite parts_dirs. cbn [rev]. rewrite <- (app_assoc (rev (parts p))). cbn [app]. rewrite <- IH. reflexivity.
  - rewrite parts_all, body_all by auto. cbn [rev]. rewrite <- (app_assoc (rev (parts p))). cbn [app]. rewrite <- IH, <- app_assoc. reflexivity.
  - rewrite parts_run, body_run by auto. cbn [rev]. rewrite <- (app_assoc (rev (parts p))). cbn [app]. rewrite <- IH, <- app_assoc. reflexivity.
  - rewrite parts_one. cbn [rev]. rewrite <- (app_assoc (rev (parts p))). cbn [app]. rewrite <- IH. reflexivity.
  - rewrite parts_same by auto. cbn [rev glob_body]. rewrite <- (app_assoc (rev (parts p))). cbn [app].
    rewrite (proj2 (Z.eqb_neq _ _) N1), (proj2 (Z.eqb_neq _ _) N2). rewrite <- IH.
    destruct (zmem c (txt ".+()[]{}^$|\")) eqn:M; cbn [app].
    + apply read_escaped. apply zmem_in in M. apply zmem_in. cbn in M |- *. intuition.
    + apply read_plain. destruct (zmem c (txt "()|*+?.^$\[]{}")) eqn:M2; [|reflexivity]. exfalso.
      apply zmem_in in M2. enough (zmem c (txt ".+()[]{}^$|\") = true) by congruence. apply zmem_in.
      cbn in M2 |- *. unfold ch in N1, N2. cbn in N1, N2. intuition congruence.
Qed.
Lemma read_escape : forall p s st alts q, read (escape p ++ s) st alts q = read s st alts (rev (map Lit p) ++ q).
Proof.
  induction p as [|c p IH]; intros s st alts q; [reflexivity|]. cbn [escape map rev]. rewrite <- (app_assoc (rev (map Lit p))). cbn [app]. rewrite <- IH.
  destruct (zmem c punctuation) eqn:M; cbn [app]; [apply read_escaped; auto|].
  apply read_plain. destruct (zmem c (txt "()|*+?.^$\[]{}")) eqn:M2; [|reflexivity]. exfalso.
  apply zmem_in in M2. enough (zmem c punctuation = true) by congruence. apply zmem_in. cbn in M2 |- *. intuition.
Qed.

(** * What they match *)
Definition plain_flags : flags := {| multi_line := false; any_case := false |}.
Section Match.
  Variable fold : Z -> Z.
  Variable word : Z -> bool.
  Notation matches := (matches fold word plain_flags).
  Notation lang := (lang fold word plain_flags).
  Notation found := (found fold word plain_flags).

  Lemma star_chars r (Q : Z -> Prop) : (forall pre mid post, matches r pre mid post <-> exists d, mid = [d] /\ Q d) ->
    forall pre mid post, matches (Star r) pre mid post <-> Forall Q mid.
  Proof.
    intros HR pre mid post. split.
    - intros H. remember (Star r) as x eqn:E. revert E. induction H; intros E; try discriminate; auto.
      injection E as ->. apply HR in H. destruct H as (d & -> & HQ). cbn. constructor; auto.
    - intros H. revert pre. induction H as [|d mid HQ _ IH]; intros pre; [constructor|].
      change (d :: mid) with ([d] ++ mid). apply m_more; [|apply IH]. apply HR. eauto.
  Qed.
  Lemma any_inv pre mid post : matches Any pre mid post <-> exists d, mid = [d] /\ d <> 10%Z.
  Proof. split; [intros H; inversion H; eauto|intros (d & -> & N); constructor; auto]. Qed.
  Lemma lit_inv c pre mid post : matches (Lit c) pre mid post <-> mid = [c].
  Proof. split; [intros H; inversion H; subst; match goal with K : same _ _ _ _ |- _ => cbn in K; congruence end|intros ->; constructor; reflexivity]. Qed.
  Lemma not_inv c pre mid post : matches (Class true c) pre mid post <-> exists d, mid = [d] /\ d <> c.
  Proof.
    split.
    - intros H. inversion H; subst. eexists. split; [reflexivity|]. match goal with K : ~ same _ _ _ _ |- _ => cbn in K; congruence end.
    - intros (d & -> & N). constructor. cbn. congruence.
  Qed.
  Lemma star_any_inv pre mid post : matches (Star Any) pre mid post <-> ~ In 10%Z mid.
  Proof.
    rewrite (star_chars Any (fun d => d <> 10%Z) any_inv). rewrite Forall_forall. split.
    - intros H I. apply (H _ I). reflexivity.
    - intros H x I ->. auto.
  Qed.
  Lemma star_not_inv c pre mid post : matches (Star (Class true c)) pre mid post <-> ~ In c mid.
  Proof.
    rewrite (star_chars (Class true c) (fun d => d <> c) (not_inv c)). rewrite Forall_forall. split.
    - intros H I. apply (H _ I). reflexivity.
    - intros H x I ->. auto.
  Qed.
  Lemma slash_star_inv pre mid post : matches slash_star pre mid post <-> exists d, mid = d ++ txt "/" /\ ~ In 10%Z d.
  Proof.
    unfold slash_star. rewrite cat_inv. split.
    - intros (a & b & -> & H1 & H2). apply cat_inv in H2. destruct H2 as (b1 & b2 & -> & H2 & H3).
      apply lit_inv in H2. apply eps_inv in H3. subst. apply star_any_inv in H1. exists a. auto.
    - intros (d & -> & N). exists d, (txt "/"). split; [reflexivity|]. split; [apply star_any_inv; auto|].
      apply cat_inv. exists (txt "/"), []. split; [reflexivity|]. split; [apply lit_inv; reflexivity|constructor].
  Qed.
  Lemma blind_parts : forall p, forallb blind (parts p) = true.
  Proof.
    induction p as [|p IH|p N IH|p N IH|p IH|c p N1 N2 IH] using glob_ind_pattern; [reflexivity|..].
    - rewrite parts_dirs. exact IH.
    - rewrite parts_all by auto. exact IH.
    - rewrite parts_run by auto. exact IH.
    - rewrite parts_one. exact IH.
    - rewrite parts_same by auto. exact IH.
  Qed.
  Lemma no_newline_app a b : ~ In 10%Z (a ++ b) -> ~ In 10%Z a /\ ~ In 10%Z b.
  Proof. intros H. split; intros I; apply H; apply in_or_app; auto. Qed.
  Lemma parts_spec : forall p pre mid post, ~ In 10%Z mid -> matches (chain (parts p) Eps) pre mid post <-> glob p mid.
  Proof.
    induction p as [|p IH|p N IH|p N IH|p IH|c p N1 N2 IH] using glob_ind_pattern; intros pre mid post NL.
    - cbn [parts chain]. rewrite eps_inv. split; [intros ->; constructor|intros H; inversion H; auto].
    - rewrite parts_dirs. cbn [chain]. rewrite cat_inv. split.
      + intros (a & b & -> & H1 & H2). apply no_newline_app in NL. apply IH in H2; [|tauto]. apply g_dirs; auto.
        apply alt_inv in H1. destruct H1 as [H1|H1]; [right; apply slash_star_inv in H1; destruct H1 as (d & -> & _); eauto|left; apply eps_inv in H1; auto].
      + intros H. remember (txt "**/" ++ p) as x eqn:E. destruct H as [|dirs p1 s1 D G|y p1 s1 D G|y p1 s1 D1 D2 G|y p1 s1 G|y p1 s1 D1 D2 G].
        * discriminate.
        * apply app_inv_head in E. subst p1. apply no_newline_app in NL. exists dirs, s1. split; [reflexivity|]. split; [|apply IH; tauto].
          apply alt_inv. destruct D as [->|(d & ->)]; [right; constructor|left; apply slash_star_inv; exists d; split; auto].
          destruct NL as (NL & _). apply no_newline_app in NL. tauto.
        * cbn in E. injection E as E. exfalso. eapply D; exact E.
        * cbn in E. injection E as E. exfalso. eapply D2; exact E.
        * discriminate.
        * cbn in E. injection E as E1 E2. exfalso. apply D1; exact E1.
    - rewrite parts_all by auto. cbn [chain]. rewrite cat_inv. split.
      + intros (a & b & -> & H1 & H2). apply no_newline_app in NL. apply IH in H2; [|tauto]. apply g_all; auto.
      + intros H. remember (txt "**" ++ p) as x eqn:E. destruct H as [|dirs p1 s1 D G|y p1 s1 D G|y p1 s1 D1 D2 G|y p1 s1 G|y p1 s1 D1 D2 G].
        * discriminate.
        * cbn in E. injection E as E. exfalso. eapply N. symmetry. exact E.
        * apply app_inv_head in E. subst p1. apply no_newline_app in NL. exists y, s1. split; [reflexivity|]. split; [|apply IH; tauto].
          apply star_any_inv. tauto.
        * cbn in E. injection E as E. exfalso. eapply D2; exact E.
        * discriminate.
        * cbn in E. injection E as E1 E2. exfalso. apply D1; exact E1.
    - rewrite parts_run by auto. cbn [chain]. rewrite cat_inv. split.
      + intros (a & b & -> & H1 & H2). apply no_newline_app in NL. apply IH in H2; [|tauto]. apply g_run; auto. apply star_not_inv in H1. auto.
      + intros H. remember (txt "*" ++ p) as x eqn:E. destruct H as [|dirs p1 s1 D G|y p1 s1 D G|y p1 s1 D1 D2 G|y p1 s1 G|y p1 s1 D1 D2 G].
        * discriminate.
        * cbn in E. injection E as E. exfalso. eapply N. symmetry. exact E.
        * cbn in E. injection E as E. exfalso. eapply N. symmetry. exact E.
        * apply app_inv_head in E. subst p1. apply no_newline_app in NL. exists y, s1. split; [reflexivity|]. split; [|apply IH; tauto].
          apply star_not_inv. auto.
        * discriminate.
        * cbn in E. injection E as E1 E2. exfalso. apply D1; exact E1.
    - rewrite parts_one. cbn [chain]. rewrite cat_inv. split.
      + intros (a & b & -> & H1 & H2). apply no_newline_app in NL. apply IH in H2; [|tauto]. apply any_inv in H1. destruct H1 as (d & -> & _).
        cbn. apply (g_one d p b). auto.
      + intros H. remember (txt "?" ++ p) as x eqn:E. destruct H as [|dirs p1 s1 D G|y p1 s1 D G|y p1 s1 D1 D2 G|y p1 s1 G|y p1 s1 D1 D2 G]; try discriminate.
        * cbn in E. injection E as E. subst p1. exists [y], s1. split; [reflexivity|]. split; [|apply IH; auto; intros I; apply NL; right; auto].
          apply any_inv. exists y. split; auto. intros ->. apply NL. left. reflexivity.
        * cbn in E. injection E as E1 E2. exfalso. apply D2; exact E1.
    - rewrite parts_same by auto. cbn [chain]. rewrite cat_inv. split.
      + intros (a & b & -> & H1 & H2). apply no_newline_app in NL. apply IH in H2; [|tauto]. apply lit_inv in H1. subst a.
        cbn. apply g_same; auto.
      + intros H. remember (c :: p) as x eqn:E. destruct H as [|dirs p1 s1 D G|y p1 s1 D G|y p1 s1 D1 D2 G|y p1 s1 G|y p1 s1 D1 D2 G].
        * discriminate.
        * cbn in E. injection E as E1 E2. exfalso. apply N1. symmetry. exact E1.
        * cbn in E. injection E as E1 E2. exfalso. apply N1. symmetry. exact E1.
        * cbn in E. injection E as E1 E2. exfalso. apply N1. symmetry. exact E1.
        * cbn in E. injection E as E1 E2. exfalso. apply N2. symmetry. exact E1.
        * injection E as -> ->. exists [c], s1. split; [reflexivity|]. split; [apply lit_inv; reflexivity|]. apply IH; [|exact G]. intros I. apply NL. right. auto.
  Qed.

  Lemma lits_spec : forall l pre mid post, matches (chain (map Lit l) Eps) pre mid post <-> mid = l.
  Proof.
    induction l as [|c l IH]; intros pre mid post; cbn [map chain].
    - apply eps_inv.
    - rewrite cat_inv. split.
      + intros (a & b & -> & H1 & H2). apply lit_inv in H1. apply IH in H2. subst. reflexivity.
      + intros ->. exists [c], l. split; [reflexivity|]. split; [apply lit_inv; reflexivity|apply IH; reflexivity].
  Qed.

  (** The beginnings of the patterns. *)
  Definition from_component : re := Alt (Cat Bol Eps) slash_star.                       (* (^|.*/) *)
  Definition after_slash : re := Alt (Cat Bol Eps) (Cat (Lit (ch "/")) Eps).            (* (^|/) *)
  Lemma bol_inv pre mid post : matches (Cat Bol Eps) pre mid post <-> mid = [] /\ pre = [].
  Proof.
    rewrite cat_inv. split.
    - intros (a & b & -> & H1 & H2). apply eps_inv in H2. inversion H1; subst. cbn in *. split; auto.
      match goal with K : _ \/ _ |- _ => destruct K as [K|(K & _)]; [exact K|discriminate] end.
    - intros (-> & ->). exists [], []. split; [reflexivity|]. split; constructor; auto.
  Qed.
  Lemma slash_inv pre mid post : matches (Cat (Lit (ch "/")) Eps) pre mid post <-> mid = txt "/".
  Proof. exact (lits_spec (txt "/") pre mid post). Qed.
  Lemma eol_inv pre mid post : matches (Cat Eol Eps) pre mid post <-> mid = [] /\ post = [].
  Proof.
    rewrite cat_inv. split.
    - intros (a & b & -> & H1 & H2). apply eps_inv in H2. inversion H1; subst. cbn in *. split; auto.
      match goal with K : _ \/ _ |- _ => destruct K as [K|(K & _)]; [exact K|discriminate] end.
    - intros (-> & ->). exists [], []. split; [reflexivity|]. split; constructor; auto.
  Qed.
  Lemma from_component_inv pre mid post : ~ In 10%Z mid -> matches from_component pre mid post <-> (mid = [] /\ pre = []) \/ exists d, mid = d ++ txt "/".
  Proof.
    intros NL. unfold from_component. rewrite alt_inv, bol_inv, slash_star_inv. split.
    - intros [H|(d & E & _)]; eauto.
    - intros [H|(d & ->)]; auto. right. exists d. split; auto. apply no_newline_app in NL. tauto.
  Qed.
  Lemma after_slash_inv pre mid post : matches after_slash pre mid post <-> (mid = [] /\ pre = []) \/ mid = txt "/".
  Proof. unfold after_slash. rewrite alt_inv, bol_inv, slash_inv. tauto. Qed.

  (** --exclude, component form. *)
  Lemma found_component p file : ~ In 10%Z file ->
    found (chain (from_component :: parts p ++ [Eol]) Eps) file <-> excludes p file.
  Proof.
    intros NL. cbn [chain]. rewrite chain_app. cbn [chain]. split.
    - intros (pre & mid & post & -> & H). apply cat_inv in H. destruct H as (a & b & -> & H1 & H2).
      apply matches_chain in H2. destruct H2 as (b1 & b2 & -> & H2 & H3). apply eol_inv in H3. destruct H3 as (-> & ->).
      rewrite !app_nil_r in *. exists (pre ++ a), b1. rewrite app_assoc. split; [reflexivity|]. split.
      + apply from_component_inv in H1; [|intros I; apply NL; rewrite !in_app_iff; auto]. destruct H1 as [(-> & ->)|(d & ->)].
        * left. reflexivity.
        * right. exists (pre ++ d). rewrite app_assoc. reflexivity.
      + eapply parts_spec; [|exact H2]. intros I. apply NL. rewrite !in_app_iff. auto.
    - intros (pre & rest & -> & B & G). apply no_newline_app in NL. destruct NL as (NL1 & NL2).
      exists [], (pre ++ rest), []. rewrite app_nil_r. split; [reflexivity|]. apply cat_inv. exists pre, rest. split; [reflexivity|]. split.
      + apply from_component_inv; auto. destruct B as [->|B]; auto.
      + apply matches_chain. exists rest, []. rewrite app_nil_r. split; [reflexivity|]. split; [apply parts_spec; auto|apply eol_inv; auto].
  Qed.
  (** --exclude, the two other forms. *)
  Lemma found_anywhere p file : ~ In 10%Z file -> found (chain (parts p ++ [Eol]) Eps) file <-> excludes_anywhere p file.
  Proof.
    intros NL. rewrite chain_app. cbn [chain]. split.
    - intros (pre & mid & post & -> & H).
      apply matches_chain in H. destruct H as (b1 & b2 & -> & H2 & H3). apply eol_inv in H3. destruct H3 as (-> & ->).
      rewrite !app_nil_r in *. exists pre, b1. split; [reflexivity|].
      eapply parts_spec; [|exact H2]. intros I. apply NL. rewrite !in_app_iff. auto.
    - intros (pre & rest & -> & G). apply no_newline_app in NL. destruct NL as (NL1 & NL2).
      exists pre, rest, []. rewrite app_nil_r. split; [reflexivity|].
      apply matches_chain. exists rest, []. rewrite app_nil_r. split; [reflexivity|]. split; [apply parts_spec; auto|apply eol_inv; auto].
  Qed.

  (** --exclude-dir: a beginning, the parts, a slash. *)
  Lemma found_dir f l (ok : text -> text -> Prop) (name : text -> Prop) file :
    (forall pre mid post, (forall c, In c mid -> In c file) -> matches (chain l Eps) pre mid post <-> name mid) ->
    (forall pre mid post, (forall c, In c mid -> In c file) -> matches (chain f Eps) pre mid post <-> ok pre mid) ->
    found (chain (f ++ l ++ [Lit (ch "/")]) Eps) file <->
    exists pre a dir post, file = (pre ++ a) ++ dir ++ txt "/" ++ post /\ ok pre a /\ name dir.
  Proof.
    intros HL HF. rewrite !chain_app. cbn [chain]. split.
    - intros (pre & mid & post & E & H). apply matches_chain in H. destruct H as (a & b & -> & H1 & H2).
      apply matches_chain in H2. destruct H2 as (b1 & b2 & -> & H2 & H3). apply slash_inv in H3. subst b2.
      exists pre, a, b1, post. split; [rewrite E, <- !app_assoc; reflexivity|]. split.
      + eapply HF; [|exact H1]. intros c I. rewrite E, !in_app_iff. auto.
      + eapply HL; [|exact H2]. intros c I. rewrite E, !in_app_iff. auto.
    - intros (pre & a & dir & post & E & K & N). exists pre, (a ++ dir ++ txt "/"), post.
      split; [rewrite E, <- !app_assoc; reflexivity|]. apply matches_chain. exists a, (dir ++ txt "/"). split; [reflexivity|]. split.
      + apply HF; auto. intros c I. rewrite E, !in_app_iff. auto.
      + apply matches_chain. exists dir, (txt "/"). split; [reflexivity|]. split; [|apply slash_inv; reflexivity].
        apply HL; auto. intros c I. rewrite E, !in_app_iff. auto.
  Qed.
End Match.

(** * Reading whole patterns *)
Lemma starts_with_begins p s : starts_with p s = true <-> begins p s.
Proof. apply starts_with_spec. Qed.
Definition rootedb (p : text) : bool := starts_with (txt "**/") p || starts_with (txt "/") p.
Lemma rootedb_spec p : rootedb p = true <-> rooted p.
Proof. unfold rootedb, rooted. rewrite orb_true_iff, !starts_with_begins. tauto. Qed.
Definition glob_parts (p : text) : list re := if rootedb p then parts p ++ [Eol] else from_component :: parts p ++ [Eol].
Lemma read_glob p s st alts : read (glob_to_regex p ++ s) st alts [] = read s st alts (rev (glob_parts p)).
Proof.
  unfold glob_to_regex, glob_parts, rootedb.
  destruct (starts_with (txt "**/") p), (starts_with (txt "/") p); cbn [negb andb orb app].
  1-3: rewrite <- app_assoc, read_body, app_nil_r, rev_app_distr; reflexivity.
  rewrite <- !app_assoc. cbn [rev]. rewrite rev_app_distr.
  transitivity (read (glob_body p ++ txt "$" ++ s) st alts [from_component]); [reflexivity|].
  rewrite read_body. reflexivity.
Qed.

Definition dir_first (p : text) : list re :=
  if is_glob_pattern p then
    if starts_with (txt "**/") p then [from_component]
    else if starts_with (txt "*/") p then [Bol; Star (Class true (ch "/")); Lit (ch "/")]
    else if starts_with (txt "/") p then [Bol]
    else [after_slash]
  else [after_slash].
Definition dir_name (p : text) : list re :=
  if is_glob_pattern p then
    if starts_with (txt "**/") p then parts (skipn 3 p)
    else if starts_with (txt "*/") p then parts (skipn 2 p)
    else if starts_with (txt "/") p then parts (skipn 1 p)
    else parts p
  else map Lit p.
Definition dir_parts (p : text) : list re := dir_first p ++ dir_name p ++ [Lit (ch "/")].
Lemma read_dir p s st alts : read (dir_pattern_to_regex p ++ s) st alts [] = read s st alts (rev (dir_parts p)).
Proof.
  unfold dir_pattern_to_regex, dir_parts, dir_first, dir_name. rewrite !rev_app_distr. cbn [rev app].
  destruct (is_glob_pattern p); [destruct (starts_with (txt "**/") p); [|destruct (starts_with (txt "*/") p); [|destruct (starts_with (txt "/") p)]]|];
    rewrite <- !app_assoc.
  - transitivity (read (glob_body (skipn 3 p) ++ txt "/" ++ s) st alts [from_component]); [reflexivity|]. rewrite read_body. reflexivity.
  - transitivity (read (glob_body (skipn 2 p) ++ txt "/" ++ s) st alts (rev [Bol; Star (Class true (ch "/")); Lit (ch "/")])); [reflexivity|].
    rewrite read_body. reflexivity.
  - transitivity (read (glob_body (skipn 1 p) ++ txt "/" ++ s) st alts [Bol]); [reflexivity|]. rewrite read_body. reflexivity.
  - transitivity (read (glob_body p ++ txt "/" ++ s) st alts [after_slash]); [reflexivity|]. rewrite read_body. reflexivity.
  - transitivity (read (escape p ++ txt "/" ++ s) st alts [after_slash]); [reflexivity|]. rewrite read_escape. reflexivity.
Qed.

(** Several patterns joined. *)
Lemma read_join (f : text -> text) (q : text -> list re) :
  (forall p s st alts, read (f p ++ s) st alts [] = read s st alts (rev (q p))) ->
  forall ps alts, ps <> [] -> exists r, read (join (map f ps)) [] alts [] = Some r /\
    forall fold word fl x, found fold word fl r x <->
      (exists a, In a alts /\ found fold word fl a x) \/ exists p, In p ps /\ found fold word fl (chain (q p) Eps) x.
Proof.
  intros HF. induction ps as [|p ps IH]; intros alts N; [congruence|]. destruct ps as [|p2 ps].
  - cbn [map join]. rewrite <- (app_nil_r (f p)), HF. cbn [read]. eexists. split; [reflexivity|]. intros fold word fl x.
    rewrite found_alternatives, sequence_chain, rev_involutive. split.
    + intros [H|H]; auto. right. exists p. cbn. auto.
    + intros [H|(p' & [->|[]] & H)]; auto.
  - change (join (map f (p :: p2 :: ps))) with (f p ++ ch "|" :: join (map f (p2 :: ps))). rewrite HF.
    destruct (IH (sequence (rev (q p)) :: alts)) as (r & E & H); [discriminate|]. exists r. split.
    + rewrite <- E. reflexivity.
    + intros fold word fl x. rewrite H, sequence_chain, rev_involutive. split.
      * intros [(a & [<-|I] & K)|(p' & I & K)].
        -- right. exists p. split; [left; reflexivity|exact K].
        -- left. eauto.
        -- right. exists p'. split; [right; exact I|exact K].
      * intros [(a & I & K)|(p' & [->|I] & K)].
        -- left. exists a. split; [right; exact I|exact K].
        -- left. eexists. split; [left; reflexivity|exact K].
        -- right. eauto.
Qed.
(** None of them begins with inline flags. *)
Lemma no_flags x fl r : starts_with (txt "(?") x = false -> read x [] [] [] = Some r -> fl = plain_flags -> parse x = Some (fl, r).
Proof.
  intros H E ->. unfold parse. rewrite E.
  assert (K : forall t, starts_with (txt "(?" ++ t) x = false).
  { intros t. destruct (starts_with (txt "(?" ++ t) x) eqn:K; auto. apply starts_with_spec in K. destruct K as (u & ->).
    rewrite <- app_assoc in H. destruct (starts_with (txt "(?") (txt "(?" ++ t ++ u)) eqn:K; [discriminate|].
    exfalso. enough (starts_with (txt "(?") (txt "(?" ++ t ++ u) = true) by congruence. apply starts_with_spec. eauto. }
  change (txt "(?mi)") with (txt "(?" ++ txt "mi)"). change (txt "(?m)") with (txt "(?" ++ txt "m)"). change (txt "(?i)") with (txt "(?" ++ txt "i)").
  rewrite !K. reflexivity.
Qed.
Lemma join_first (f : text -> text) ps : ps <> [] ->
  (forall p s, starts_with (txt "(?") (f p ++ s) = false) -> starts_with (txt "(?") (join (map f ps)) = false.
Proof.
  intros N H. destruct ps as [|p ps]; [congruence|]. destruct ps as [|p2 ps].
  - cbn [map join]. rewrite <- (app_nil_r (f p)). apply H.
  - change (join (map f (p :: p2 :: ps))) with (f p ++ ch "|" :: join (map f (p2 :: ps))). apply H.
Qed.
Lemma glob_first p s : starts_with (txt "(?") (glob_to_regex p ++ s) = false.
Proof.
  unfold glob_to_regex. destruct (starts_with (txt "**/") p) eqn:E1.
  - apply starts_with_spec in E1. destruct E1 as (t & ->). reflexivity.
  - destruct (starts_with (txt "/") p) eqn:E2; [|reflexivity]. apply starts_with_spec in E2. destruct E2 as (t & ->). reflexivity.
Qed.
Lemma dir_begins p s : starts_with (txt "(?") (dir_pattern_to_regex p ++ s) = false.
Proof.
  unfold dir_pattern_to_regex. destruct (is_glob_pattern p); [|reflexivity].
  destruct (starts_with (txt "**/") p); [reflexivity|]. destruct (starts_with (txt "*/") p); [reflexivity|].
  destruct (starts_with (txt "/") p); reflexivity.
Qed.

(** * The filters *)
Lemma not_regexp_spec E (f : text -> text) (q : text -> list re) (hit : text -> text -> Prop) rows ps :
  faithful E -> ps <> [] ->
  (forall p s st alts, read (f p ++ s) st alts [] = read s st alts (rev (q p))) ->
  (forall p s, starts_with (txt "(?") (f p ++ s) = false) ->
  (forall r, In r rows -> ~ In 10%Z (snd r)) ->
  (forall p x, ~ In 10%Z x -> found (e_fold E) (e_word E) plain_flags (chain (q p) Eps) x <-> hit p x) ->
  exists keep, not_regexp E rows (join (map f ps)) = map fst (filter (fun r => keep (snd r)) rows) /\
    forall x, ~ In 10%Z x -> keep x = true <-> ~ exists p, In p ps /\ hit p x.
Proof.
  intros HE NE HR HF NL HH. destruct (read_join f q HR ps [] NE) as (r & ER & HX).
  destruct (HE _ plain_flags r (no_flags _ _ _ (join_first f ps NE HF) ER eq_refl)) as (g & EC & HG).
  unfold not_regexp. rewrite EC. exists (fun x => negb (g x)). split; [reflexivity|]. intros x NX.
  assert (HB : g x = true <-> exists p, In p ps /\ hit p x).
  { rewrite HG, HX. split.
    - intros [(a & [] & _)|(p & I & K)]. exists p. split; auto. apply HH; auto.
    - intros (p & I & K). right. exists p. split; auto. apply HH; auto. }
  rewrite <- HB. destruct (g x); cbn; intuition congruence.
Qed.
Lemma found_glob fold word p file : ~ In 10%Z file -> found fold word plain_flags (chain (glob_parts p) Eps) file <-> hits p file.
Proof.
  intros NL. unfold glob_parts, hits. rewrite <- !rootedb_spec. destruct (rootedb p).
  - rewrite found_anywhere by auto. intuition congruence.
  - rewrite found_component by auto. intuition congruence.
Qed.

(** Directories. *)
Lemma boundary_in pre a : boundary (pre ++ a) <-> (a = [] /\ pre = []) \/ (exists d, a = d ++ txt "/") \/ (a = [] /\ boundary pre).
Proof.
  split.
  - intros [H|(d & H)].
    + apply app_eq_nil in H. tauto.
    + destruct a as [|c a _] using rev_ind.
      * rewrite app_nil_r in H. subst. right. right. split; auto. right. eauto.
      * rewrite app_assoc in H. apply app_inj_tail in H. destruct H as (_ & ->). right. left. exists a. reflexivity.
  - intros [(-> & ->)|[(d & ->)|(-> & H)]].
    + left. reflexivity.
    + right. exists (pre ++ d). rewrite app_assoc. reflexivity.
    + rewrite app_nil_r. exact H.
Qed.
Lemma glob_literal p : ~ In (ch "*") p -> ~ In (ch "?") p -> forall mid, glob p mid <-> mid = p.
Proof.
  induction p as [|c p IH]; intros N1 N2 mid.
  - split; [intros H; inversion H; auto|intros ->; constructor].
  - assert (C1 : c <> ch "*") by (intros ->; apply N1; left; auto). assert (C2 : c <> ch "?") by (intros ->; apply N2; left; auto).
    split.
    + intros H. remember (c :: p) as x eqn:E. destruct H as [|dirs p1 s1 D G|y p1 s1 D G|y p1 s1 D1 D2 G|y p1 s1 G|y p1 s1 D1 D2 G]; try discriminate.
      * exfalso. apply C1. cbn in E. injection E as E _. symmetry. exact E.
      * exfalso. apply C1. cbn in E. injection E as E _. symmetry. exact E.
      * exfalso. apply C1. cbn in E. injection E as E _. symmetry. exact E.
      * exfalso. apply C2. cbn in E. injection E as E _. symmetry. exact E.
      * injection E as -> ->. f_equal. apply IH; auto; intros I; [apply N1|apply N2]; right; auto.
    + intros ->. apply g_same; auto. apply IH; auto; intros I; [apply N1|apply N2]; right; auto.
Qed.
Lemma is_glob_spec p : is_glob_pattern p = false <-> no_wildcard p.
Proof.
  unfold is_glob_pattern, no_wildcard. rewrite <- !zmem_in.
  destruct (zmem (ch "*") p), (zmem (ch "?") p), (zmem (ch "[") p); cbn; intuition congruence.
Qed.
(** The name of a directory as --exclude-dir takes it. *)
Lemma found_directory fold word p file : ~ In 10%Z file -> found fold word plain_flags (chain (dir_parts p) Eps) file <-> dir_hits p file.
Proof.
  intros NL. unfold dir_parts, dir_first, dir_name, dir_hits. rewrite <- is_glob_spec.
  assert (SUB : forall mid, (forall c, In c mid -> In c file) -> ~ In 10%Z mid) by (intros mid S0 I; apply NL; apply S0; auto).
  destruct (is_glob_pattern p) eqn:EG.
  - destruct (starts_with (txt "**/") p) eqn:E1; [|destruct (starts_with (txt "*/") p) eqn:E2; [|destruct (starts_with (txt "/") p) eqn:E3]].
    + apply starts_with_spec in E1. destruct E1 as (p' & ->). change (skipn 3 (txt "**/" ++ p')) with p'.
      rewrite (found_dir fold word _ _ (fun pre a => (a = [] /\ pre = []) \/ exists d, a = d ++ txt "/") (glob p')).
      * split.
        -- intros (pre & a & dir & post & -> & K & G). right. split; [discriminate|]. exists (pre ++ a), dir, post. split; [reflexivity|].
           eapply n_any; [reflexivity| |exact G]. apply boundary_in. tauto.
        -- intros [(K & _)|(_ & pre & dir & post & -> & K)]; [discriminate|].
           inversion K as [p2 pr di E B G|p2 pa di E B G|p2 di E G|pr di B1 B2 B3 B G]; subst.
           ++ apply app_inv_head in E. subst p2. exists [], pre, dir, post. split; [reflexivity|]. split; auto. destruct B as [->|B]; auto.
           ++ cbn in E. discriminate.
           ++ cbn in E. discriminate.
           ++ exfalso. apply B1. exists p'. reflexivity.
      * intros. apply parts_spec. auto.
      * intros. cbn [chain]. rewrite cat_inv. split.
        -- intros (a & b & -> & H1 & H2). apply eps_inv in H2. subst b. rewrite app_nil_r in *. apply from_component_inv in H1; auto.
        -- intros H1. exists mid, []. rewrite app_nil_r. split; [reflexivity|]. split; [apply from_component_inv; auto|constructor].
    + assert (NB : ~ begins (txt "**/") p) by (rewrite <- starts_with_begins; congruence).
      apply starts_with_spec in E2. destruct E2 as (p' & ->). change (skipn 2 (txt "*/" ++ p')) with p'.
      rewrite (found_dir fold word _ _ (fun pre a => pre = [] /\ exists d, a = d ++ txt "/" /\ ~ In (ch "/") d) (glob p')).
      * split.
        -- intros (pre & a & dir & post & -> & (-> & d & -> & ND) & G). right. split; [discriminate|]. exists (d ++ txt "/"), dir, post. split; [reflexivity|].
           eapply n_second; [reflexivity|exact ND|exact G].
        -- intros [(K & _)|(_ & pre & dir & post & -> & K)]; [discriminate|].
           inversion K as [p2 pr di E B G|p2 pa di E B G|p2 di E G|pr di B1 B2 B3 B G]; subst.
           ++ exfalso. apply NB. exists p2. exact E.
           ++ apply app_inv_head in E. subst p2. exists [], (pa ++ txt "/"), dir, post. split; [reflexivity|]. split; auto. split; auto. eauto.
           ++ cbn in E. discriminate.
           ++ exfalso. apply B2. exists p'. reflexivity.
      * intros. apply parts_spec. auto.
      * intros pre mid post S0. cbn [chain]. rewrite cat_inv. split.
        -- intros (a & b & -> & H1 & H2). apply cat_inv in H2. destruct H2 as (b1 & b2 & -> & H2 & H3). apply slash_inv in H3. subst b2.
           apply star_not_inv in H2. inversion H1; subst. split; [|exists b1; auto].
           match goal with K : _ \/ _ |- _ => destruct K as [K|(K & _)]; [exact K|discriminate] end.
        -- intros (-> & d & -> & ND). exists [], (d ++ txt "/"). split; [reflexivity|]. split; [constructor; auto|].
           apply cat_inv. exists d, (txt "/"). split; [reflexivity|]. split; [apply star_not_inv; auto|apply slash_inv; reflexivity].
    + assert (NB : ~ begins (txt "**/") p) by (rewrite <- starts_with_begins; congruence).
      assert (NB2 : ~ begins (txt "*/") p) by (rewrite <- starts_with_begins; congruence).
      apply starts_with_spec in E3. destruct E3 as (p' & ->). change (skipn 1 (txt "/" ++ p')) with p'.
      rewrite (found_dir fold word _ _ (fun pre a => a = [] /\ pre = []) (glob p')).
      * split.
        -- intros (pre & a & dir & post & -> & (-> & ->) & G). right. split; [discriminate|]. exists [], dir, post. split; [reflexivity|].
           eapply n_root; [reflexivity|exact G].
        -- intros [(K & _)|(_ & pre & dir & post & -> & K)]; [discriminate|].
           inversion K as [p2 pr di E B G|p2 pa di E B G|p2 di E G|pr di B1 B2 B3 B G]; subst.
           ++ cbn in E. discriminate.
           ++ cbn in E. discriminate.
           ++ apply app_inv_head in E. subst p2. exists [], [], dir, post. split; [reflexivity|]. split; auto.
           ++ exfalso. apply B3. exists p'. reflexivity.
      * intros. apply parts_spec. auto.
      * intros pre mid post S0. cbn [chain]. apply bol_inv.
    + assert (NB : ~ begins (txt "**/") p) by (rewrite <- starts_with_begins; congruence).
      assert (NB2 : ~ begins (txt "*/") p) by (rewrite <- starts_with_begins; congruence).
      assert (NB3 : ~ begins (txt "/") p) by (rewrite <- starts_with_begins; congruence).
      rewrite (found_dir fold word _ _ (fun pre a => (a = [] /\ pre = []) \/ a = txt "/") (glob p)).
      * split.
        -- intros (pre & a & dir & post & -> & K & G). right. split; [discriminate|]. exists (pre ++ a), dir, post. split; [reflexivity|].
           apply n_here; auto. apply boundary_in. destruct K as [K|K]; auto. right. left. exists []. exact K.
        -- intros [(K & _)|(_ & pre & dir & post & -> & K)]; [discriminate|].
           inversion K as [p2 pr di E B G|p2 pa di E B G|p2 di E G|pr di B1 B2 B3 B G]; subst.
           ++ exfalso. apply NB. exists p2. reflexivity.
           ++ exfalso. apply NB2. exists p2. reflexivity.
           ++ exfalso. apply NB3. exists p2. reflexivity.
           ++ destruct B as [->|(d & ->)]; [exists [], []|exists d, (txt "/")]; exists dir, post; split; auto.
      * intros. apply parts_spec. auto.
      * intros. cbn [chain]. rewrite cat_inv. split.
        -- intros (a & b & -> & H1 & H2). apply eps_inv in H2. subst b. rewrite app_nil_r in *. apply after_slash_inv in H1; auto.
        -- intros H1. exists mid, []. rewrite app_nil_r. split; [reflexivity|]. split; [apply after_slash_inv; auto|constructor].
  - rewrite (found_dir fold word _ _ (fun pre a => (a = [] /\ pre = []) \/ a = txt "/") (fun dir => dir = p)).
    + split.
      * intros (pre & a & dir & post & -> & K & ->). left. split; auto. exists (pre ++ a), p, post. split; [reflexivity|]. split; auto.
        apply boundary_in. destruct K as [K|K]; auto. right. left. exists []. exact K.
      * intros [(_ & pre & dir & post & -> & B & ->)|(K & _)]; [|congruence].
        destruct B as [->|(d & ->)]; [exists [], []|exists d, (txt "/")]; exists p, post; split; auto.
    + intros. apply lits_spec.
    + intros. cbn [chain]. rewrite cat_inv. split.
      * intros (a & b & -> & H1 & H2). apply eps_inv in H2. subst b. rewrite app_nil_r in *. apply after_slash_inv in H1; auto.
      * intros H1. exists mid, []. rewrite app_nil_r. split; [reflexivity|]. split; [apply after_slash_inv; auto|constructor].
Qed.
