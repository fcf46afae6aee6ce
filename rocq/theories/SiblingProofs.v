From Verif Require Import Base Text AnalysisText Sibling SiblingSpec.
From Coq Require Import String.
Open Scope string_scope.
Open Scope nat_scope.
Open Scope list_scope.

Definition go := fix go (es : list (text * node)) (ds : list (text * node)) : option node :=
  match es with
  | [] => Some (Dir ds)
  | (x, n) :: r => match copy_node n (lookup x ds) with
                   | Some m => go r (put x m ds)
                   | None => None
                   end
  end.
Lemma copy_dir es dst : copy_node (Dir es) dst = match dst with None => go es [] | Some (Dir ds) => go es ds | Some _ => None end.
Proof. reflexivity. Qed.

Lemma node_rect2 (P : node -> Prop) :
  (forall c, P (File c)) -> (forall c, P (LinkFile c)) -> P LinkOther ->
  (forall es, (forall x m, In (x, m) es -> P m) -> P (Dir es)) -> forall n, P n.
Proof.
  intros HF HL HO HD. fix IH 1. intros [c|es|c|]; [apply HF| |apply HL|apply HO].
  apply HD. induction es as [|[y n] r IHr]; cbn; [intros ? ? []|].
  intros x m [E|Hi]; [injection E as _ <-; apply IH|exact (IHr x m Hi)].
Qed.

Lemma text_eqb_neq a b : a <> b -> text_eqb a b = false.
Proof. intro H. destruct (text_eqb a b) eqn:E; [apply text_eqb_eq in E; contradiction|reflexivity]. Qed.
Lemma lookup_put_same x n es : lookup x (put x n es) = Some n.
Proof.
  induction es as [|[y m] r IH]; cbn; [now rewrite text_eqb_refl|].
  destruct (text_eqb x y) eqn:E; cbn; rewrite E; auto.
Qed.
Lemma lookup_put_other x y n es : x <> y -> lookup x (put y n es) = lookup x es.
Proof.
  intro H. induction es as [|[z m] r IH]; cbn; [now rewrite (text_eqb_neq _ _ H)|].
  destruct (text_eqb y z) eqn:E; cbn.
  - apply text_eqb_eq in E. subst z. now rewrite (text_eqb_neq _ _ H).
  - now rewrite IH.
Qed.
Lemma lookup_in x es m : lookup x es = Some m -> In (x, m) es.
Proof.
  induction es as [|[y n] r IH]; cbn; [discriminate|].
  destruct (text_eqb x y) eqn:E; [apply text_eqb_eq in E; subst; intro H; injection H as ->; auto|auto].
Qed.
Lemma lookup_none x es : ~ In x (map fst es) -> lookup x es = None.
Proof.
  induction es as [|[y n] r IH]; cbn; [auto|]. intro H. rewrite text_eqb_neq by (intro; subst; auto). apply IH. auto.
Qed.

Lemma go_lookup es : forall ds out, NoDup (map fst es) -> go es ds = Some out ->
  exists ds', out = Dir ds' /\ forall x, match lookup x es with
    | Some m => exists y, copy_node m (lookup x ds) = Some y /\ lookup x ds' = Some y
    | None => lookup x ds' = lookup x ds
    end.
Proof.
  induction es as [|[y n] r IH]; intros ds out Hn H.
  - cbn in H. injection H as <-. exists ds. split; [reflexivity|]. intro x. reflexivity.
  - cbn [go] in H. destruct (copy_node n (lookup y ds)) as [m|] eqn:Ec; [|discriminate].
    cbn [map fst] in Hn. inversion Hn as [|? ? Hy Hn']; subst.
    destruct (IH _ _ Hn' H) as (ds' & -> & Hl). exists ds'. split; [reflexivity|].
    intro x. specialize (Hl x). cbn [lookup]. destruct (text_eqb x y) eqn:E.
    + apply text_eqb_eq in E. subst x. rewrite (lookup_none _ _ Hy) in Hl. exists m. split; [exact Ec|].
      rewrite Hl. apply lookup_put_same.
    + assert (x <> y) by (intro; subst; rewrite text_eqb_refl in E; discriminate).
      rewrite lookup_put_other in Hl by assumption. exact Hl.
Qed.

Definition below (dst : option node) (p : list text) : option text := match dst with Some d => content d p | None => None end.
Definition below_there (dst : option node) (p : list text) : bool := match dst with Some d => there d p | None => false end.

Lemma copied src : forall dst out, proper src -> copy_node src dst = Some out -> forall p,
  content out p = (if there src p then content src p else below dst p)
  /\ there out p = there src p || below_there dst p.
Proof.
  assert (Hfile : forall c dst out p, copy_file c dst = Some out ->
    content out p = (if there (File c) p then content (File c) p else below dst p) /\ there out p = there (File c) p || below_there dst p).
  { intros c dst out p H. destruct dst as [[d|es|d|]|]; cbn in H; try discriminate; injection H as <-; destruct p; cbn; auto. }
  induction src as [c|c| |es IH] using node_rect2; intros dst out Hp H p.
  - exact (Hfile c dst out p H).
  - destruct (Hfile c dst out p H) as (A & B). destruct p; cbn in *; auto.
  - discriminate.
  - inversion Hp as [| | |? Hn Hs]; subst.
    assert (Hds : exists ds, go es ds = Some out /\ (dst = Some (Dir ds) \/ (dst = None /\ ds = []))).
    { rewrite copy_dir in H. destruct dst as [[d|ds|d|]|]; try discriminate; eauto. }
    destruct Hds as (ds & Hg & Hd). destruct (go_lookup _ _ _ Hn Hg) as (ds' & -> & Hl).
    destruct p as [|x q]; [cbn; auto|]. specialize (Hl x).
    assert (Hb : below dst (x :: q) = below (lookup x ds) q /\ below_there dst (x :: q) = below_there (lookup x ds) q).
    { destruct Hd as [->|[-> ->]]; cbn; [destruct (lookup x ds)|]; auto. }
    destruct Hb as (-> & ->). cbn [content there]. destruct (lookup x es) as [m|] eqn:El.
    + destruct Hl as (y & Hc & ->). apply lookup_in in El. exact (IH x m El _ _ (Hs x m El) Hc q).
    + rewrite Hl. cbn. unfold below, below_there. destruct (lookup x ds); auto.
Qed.

Lemma go_works es : NoDup (map fst es) -> (forall x m, In (x, m) es -> copy_node m None <> None) ->
  forall ds, (forall x, In x (map fst es) -> lookup x ds = None) -> go es ds <> None.
Proof.
  induction es as [|[y n] r IH]; intros Hn Hw ds Hd; [discriminate|].
  cbn [go]. rewrite (Hd y) by (cbn; auto). pose proof (Hw y n (or_introl eq_refl)) as W.
  destruct (copy_node n None); [|congruence]. cbn in Hn. inversion Hn; subst. apply IH; auto.
  - intros x m Hi. apply (Hw x m). cbn; auto.
  - intros x Hx. rewrite lookup_put_other by (intro; subst; contradiction). apply Hd. cbn; auto.
Qed.
Lemma go_fails es : forall ds, go es ds <> None -> forall x m, In (x, m) es -> exists d, copy_node m d <> None.
Proof.
  induction es as [|[y n] r IH]; intros ds H x m Hi; [destruct Hi|]. cbn [go] in H.
  destruct (copy_node n (lookup y ds)) eqn:E; [|congruence]. destruct Hi as [Hi|Hi].
  - injection Hi as -> ->. exists (lookup x ds). congruence.
  - exact (IH _ H x m Hi).
Qed.
Lemma works src : proper src -> sound src -> copy_node src None <> None.
Proof.
  induction src as [c|c| |es IH] using node_rect2; intros Hp Hs; try discriminate.
  - inversion Hs.
  - rewrite copy_dir. inversion Hp; subst. inversion Hs; subst. apply go_works; auto. intros x m Hi. eapply IH; eauto.
Qed.
Lemma works_only src : forall d, copy_node src d <> None -> sound src.
Proof.
  induction src as [c|c| |es IH] using node_rect2; intros d H; try constructor.
  - exfalso. apply H. reflexivity.
  - intros x m Hi. rewrite copy_dir in H.
    assert (exists ds, go es ds <> None) as (ds & Hg) by (destruct d as [[?|?|?|]|]; try congruence; eauto).
    destruct (go_fails _ _ Hg x m Hi) as (d' & Hd). exact (IH x m Hi d' Hd).
Qed.

Section W.
  Variable ws : Z -> bool.
  Variable canonical : text -> option text.
  Variable index_dir : text -> option text.
  Lemma starts_iff p s : starts_with p s = true <-> exists t, s = p ++ t.
  Proof.
    revert s. induction p as [|x p IH]; intro s; [split; [exists s; auto|auto]|].
    destruct s as [|y s]; cbn; [split; [discriminate|intros (t & H); discriminate]|].
    rewrite andb_true_iff, IH, Z.eqb_eq. split.
    - intros (-> & t & ->). exists t. auto.
    - intros (t & H). injection H as -> ->. split; [auto|exists t; auto].
  Qed.
  Lemma line_root line r : In r (root_of_line ws canonical line) <-> exists p, names_path ws line p /\ canonical p = Some r.
  Proof.
    unfold root_of_line, names_path. split.
    - intro H. destruct (starts_with (txt "worktree ") line) eqn:E; [|destruct H].
      apply starts_iff in E. destruct E as (t & ->).
      change (skipn 9 (txt "worktree " ++ t)) with t in H.
      destruct (canonical (trim ws t)) as [k|] eqn:Ek; [|destruct H]. destruct H as [->|[]].
      destruct (trim_cut ws t) as (a & b & Ht & Hr). exists (trim ws t). split; [|exact Ek].
      exists a, b. destruct Hr as (A & B & C). repeat match goal with |- _ /\ _ => split end; auto. now rewrite <- Ht.
    - intros (p & (a & b & -> & Ha & Hb & Hc) & Hk).
      assert (starts_with (txt "worktree ") (txt "worktree " ++ a ++ p ++ b) = true) as -> by (apply starts_iff; eauto).
      change (skipn 9 (txt "worktree " ++ a ++ p ++ b)) with (a ++ p ++ b).
      rewrite trim_unique by assumption. rewrite Hk. cbn; auto.
  Qed.
  Lemma candidates_in self roots : forall l, candidates index_dir self roots = Some l ->
    map fst l = filter (fun r => negb (text_eqb r self)) roots /\ forall r d, In (r, d) l -> index_dir r = Some d.
  Proof.
    induction roots as [|r roots IH]; cbn; intros l H; [injection H as <-; cbn; split; [auto|intros ? ? []]|].
    destruct (text_eqb r self) eqn:E; cbn; [auto|].
    destruct (index_dir r) as [d|] eqn:Ed; [|discriminate].
    destruct (candidates index_dir self roots) as [l'|]; [|discriminate]. cbn in H. injection H as <-.
    destruct (IH _ eq_refl) as (A & B). cbn. split; [now rewrite A|].
    intros r' d' [Hi|Hi]; [injection Hi as <- <-; exact Ed|auto].
  Qed.
End W.
