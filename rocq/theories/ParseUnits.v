(** Which nodes become units. *)
From Verif Require Import Base Text FtsText Units Parse ParseSpec ParseProofs ParseGaps.
Open Scope nat_scope.

Section U1.
  Variable U : unicode.
  Variable path : text.
  Variable G : grammar.
  Variable ls : list text.
  Variable ra : bool.
  Definition analysis_of (m : node) (q : option text) : code_unit := g_analysis G m (if g_function G (n_kind m) then q else None).
  Definition makes (m : node) (q : option text) (u : code_unit) : Prop := is_unit G m q /\ placed U path G ls m (analysis_of m q) = Ok u.
  Lemma below_iff p : forall n, below p n = true <-> exists y x, In y (n_children n) /\ inside y x /\ p (n_kind x) = true.
  Proof using.
    assert (K : forall h n, height n < h -> below p n = true <-> exists y x, In y (n_children n) /\ inside y x /\ p (n_kind x) = true).
    { induction h as [|h IH]; intros n Hn; [lia|]. destruct n as [k a b cs] eqn:En. cbn [below n_children]. rewrite existsb_exists. split.
      - intros (c & Hc & H). assert (Hh : height c < h). { pose proof (height_child n c) as Q. rewrite En in Q. specialize (Q Hc). lia. }
        destruct c as [kc ac bc ccs] eqn:Ec. rewrite <- Ec in *. apply orb_prop in H. destruct H as [H|H].
        + exists c, c. split; [exact Hc|]. split; [constructor|]. rewrite Ec. exact H.
        + apply (IH c Hh) in H. destruct H as (y & x & Hy & Hx & Px). exists c, x. split; [exact Hc|]. split; [|exact Px]. eapply in_child; eassumption.
      - intros (y & x & Hy & Hx & Px). exists y. split; [exact Hy|]. assert (Hh : height y < h). { pose proof (height_child n y) as Q. rewrite En in Q. specialize (Q Hy). lia. }
        destruct y as [ky ay by_ ycs] eqn:Ey. rewrite <- Ey in *. apply orb_true_iff. inversion Hx as [m|m c x' Hc Hcx]; subst m.
        + left. subst x. rewrite Ey in Px. exact Px.
        + right. apply (IH y Hh). exists c, x. subst x'. repeat split; assumption. }
    intro n. apply (K (S (height n))). lia.
  Qed.
  Lemma stays fuel n p st st' : extract_from_node U path G ls ra fuel n p st = Ok st' -> snd st = true -> st' = st.
  Proof using. intros H St. destruct fuel; cbn [extract_from_node] in H; rewrite St in H; injection H as <-; reflexivity. Qed.
  Lemma into_found f p (cs : list node) :
    (forall c, In c cs -> forall st st', extract_from_node U path G ls ra f c p st = Ok st' -> snd st' = false ->
       exists new, fst st' = fst st ++ new /\ forall u, In u new <-> exists m q, looked_at G ra c p m q /\ makes m q u) ->
    forall st st', foldM (fun st c => extract_from_node U path G ls ra f c p st) cs st = Ok st' -> snd st' = false ->
      snd st = false /\ exists new, fst st' = fst st ++ new /\ forall u, In u new <-> exists c m q, In c cs /\ looked_at G ra c p m q /\ makes m q u.
  Proof using.
    induction cs as [|c cs IH]; intros H st st' E F; cbn [foldM] in E.
    - injection E as <-. split; [exact F|]. exists []. rewrite app_nil_r. split; [reflexivity|]. intro u. split; [intros []|intros (c & m & q & [] & _)].
    - destruct (extract_from_node U path G ls ra f c p st) as [s1| |] eqn:E1; try discriminate. cbn [bind] in E.
      destruct (IH (fun c Hc => H c (or_intror Hc)) s1 st' E F) as (F1 & n2 & E2 & K2).
      destruct (H c (or_introl eq_refl) st s1 E1 F1) as (n1 & En & K1). split.
      { destruct (snd st) eqn:St; [|reflexivity]. rewrite (stays _ _ _ _ _ E1 St) in F1. congruence. }
      exists (n1 ++ n2). rewrite E2, En, app_assoc. split; [reflexivity|]. intro u. rewrite in_app_iff, K1, K2. split.
      + intros [(m & q & H1 & H2)|(x & m & q & Hx & H1 & H2)]; [exists c, m, q; split; [left; reflexivity|auto]|exists x, m, q; split; [right; exact Hx|auto]].
      + intros (x & m & q & [<-|Hx] & H1 & H2); [left; exists m, q; auto|right; exists x, m, q; auto].
  Qed.
  Lemma found fuel : forall n p st st', extract_from_node U path G ls ra fuel n p st = Ok st' -> snd st' = false ->
    exists new, fst st' = fst st ++ new /\ forall u, In u new <-> exists m q, looked_at G ra n p m q /\ makes m q u.
  Proof using.
    induction fuel as [|f IH]; intros n p st st' E F; cbn [extract_from_node] in E; destruct (snd st) eqn:St.
    1,2: injection E as <-; cbn in F; congruence.
    { injection E as <-. congruence. }
    assert (IC : forall p cs c, In c cs -> forall st st', extract_from_node U path G ls ra f c p st = Ok st' -> snd st' = false ->
       exists new, fst st' = fst st ++ new /\ forall u, In u new <-> exists m q, looked_at G ra c p m q /\ makes m q u) by (intros p0 cs c _; apply IH).
    (* the node itself is no unit, its children are looked at *)
    assert (CHILDREN : forall new0 st0, (is_class G n -> g_name G n = None) -> ~ is_constant G n p -> fst st0 = fst st ++ new0 ->
      (forall u, In u new0 <-> makes n p u) ->
      foldM (fun st c => extract_from_node U path G ls ra f c p st) (n_children n) st0 = Ok st' ->
      exists new, fst st' = fst st ++ new /\ forall u, In u new <-> exists m q, looked_at G ra n p m q /\ makes m q u).
    { intros new0 st0 NC NK E0 K0 EF. destruct (into_found f p (n_children n) (IC p (n_children n)) st0 st' EF F) as (_ & n1 & E1 & K1).
      exists (new0 ++ n1). rewrite E1, E0, app_assoc. split; [reflexivity|]. intro u. rewrite in_app_iff, K0, K1. split.
      - intros [H|(c & m & q & Hc & L & M)]; [exists n, p; split; [constructor|exact H]|]. exists m, q. split; [|exact M]. eapply la_child; eassumption.
      - intros (m & q & L & M). inversion L; subst; [left; exact M| |].
        + right. exists c, m, q. split; [assumption|split; assumption].
        + rewrite NC in H0 by assumption. discriminate. }
    (* the node is a unit and nothing below is looked at *)
    assert (ALONE : forall u', placed U path G ls n (analysis_of n p) = Ok u' -> is_unit G n p -> fst st' = fst st ++ [u'] ->
      (forall m q, looked_at G ra n p m q -> m = n /\ q = p) ->
      exists new, fst st' = fst st ++ new /\ forall u, In u new <-> exists m q, looked_at G ra n p m q /\ makes m q u).
    { intros u' Pl IU E0 LA. exists [u']. split; [exact E0|]. intro u. split.
      - intros [<-|[]]. exists n, p. split; [constructor|]. split; assumption.
      - intros (m & q & L & (_ & M)). destruct (LA m q L) as (-> & ->). rewrite Pl in M. injection M as <-. left. reflexivity. }
    assert (NOUNIT : ~ is_unit G n p -> forall u, In u [] <-> makes n p u) by (intros NU u; split; [intros []|intros (IU & _); contradiction]).
    destruct (g_function G (n_kind n)) eqn:Gf.
    - assert (NC : is_class G n -> g_name G n = None) by (intros (Q & _); congruence).
      assert (NK : ~ is_constant G n p) by (intros (Q & _); congruence).
      destruct (g_name G n) as [name|] eqn:Gn; cbn [bind] in E.
      + destruct (placed U path G ls n (g_analysis G n p)) as [u'| |] eqn:Pl; try discriminate. cbn [bind] in E.
        apply (CHILDREN [u'] (fst st ++ [u'], snd st)); try assumption; try reflexivity.
        * intro u. unfold makes, analysis_of. rewrite Gf, Pl. split.
          -- intros [<-|[]]. split; [|reflexivity]. left. split; [exact Gf|congruence].
          -- intros (_ & Q). injection Q as <-. left. reflexivity.
        * rewrite St. exact E.
      + apply (CHILDREN [] st); try assumption; [rewrite app_nil_r; reflexivity|]. apply NOUNIT. intros [(_ & Q)|[((Q & _) & _)|((Q & _) & _)]]; congruence.
    - destruct (g_class G (n_kind n)) eqn:Gc.
      + destruct (g_name G n) as [name|] eqn:Gn.
        * destruct (placed U path G ls n (g_analysis G n None)) as [u'| |] eqn:Pl; try discriminate. cbn [bind] in E.
          assert (CL : is_class G n) by (split; assumption).
          assert (IU : is_unit G n p) by (right; left; split; [exact CL|congruence]).
          assert (PA : placed U path G ls n (analysis_of n p) = Ok u') by (unfold analysis_of; rewrite Gf; exact Pl).
          assert (NCH : ~ (is_class G n -> g_name G n = None)) by (intro Q; specialize (Q CL); congruence).
          destruct (negb ra && g_abstract G (n_kind n)) eqn:Ab.
          { injection E as <-. apply (ALONE u'); try assumption; [reflexivity|]. intros m q L. inversion L; subst; [auto|contradiction|].
            apply andb_prop in Ab. destruct Ab as (Ra & Ab). apply Bool.negb_true_iff in Ra. destruct (H2 Ra) as (Q & _). congruence. }
          destruct (g_body G n) as [b|] eqn:Gb.
          2:{ injection E as <-. apply (ALONE u'); try assumption; [reflexivity|]. intros m q L. inversion L; subst; [auto|contradiction|]. congruence. }
          destruct (ra || below (g_function G) b) eqn:Be.
          -- destruct (into_found f (Some name) (n_children b) (IC (Some name) (n_children b)) _ st' E F) as (_ & n1 & E1 & K1). cbn [fst] in E1.
             exists (u' :: n1). rewrite E1, <- app_assoc. split; [reflexivity|]. intro u. cbn [In]. rewrite K1. split.
             ++ intros [<-|(c & m & q & Hc & L & M)]; [exists n, p; split; [constructor|split; assumption]|]. exists m, q. split; [|exact M].
                eapply la_body; try eassumption. intro Ra. rewrite Ra in Ab, Be. cbn in Ab, Be. split; [exact Ab|]. apply below_iff in Be. exact Be.
             ++ intros (m & q & L & M). inversion L; subst; [|contradiction|].
                ** left. destruct M as (_ & M). rewrite PA in M. injection M as <-. reflexivity.
                ** right. rewrite Gn in H0. injection H0 as <-. rewrite Gb in H1. injection H1 as <-. exists c, m, q. split; [assumption|split; assumption].
          -- injection E as <-. apply (ALONE u'); try assumption; [reflexivity|]. intros m q L. inversion L; subst; [auto|contradiction|].
             apply orb_false_elim in Be. destruct Be as (Ra & Be). rewrite Gb in H1. injection H1 as <-. destruct (H2 Ra) as (_ & Q). apply below_iff in Q. congruence.
        * apply (CHILDREN [] st); try assumption; [reflexivity|intros (_ & Q & _); congruence|rewrite app_nil_r; reflexivity|]. apply NOUNIT. intros [(Q & _)|[(_ & Q)|((_ & Q & _) & _)]]; unfold is_function in *; congruence.
      + destruct ((match p with None => true | Some _ => false end) && g_constant G (n_kind n)) eqn:Gk.
        * apply andb_prop in Gk. destruct Gk as (Gp & Gk). destruct p as [|]; [discriminate|]. assert (IK : is_constant G n None) by (repeat split; assumption).
          assert (LA : forall m q, looked_at G ra n None m q -> m = n /\ q = None).
          { intros m q L. inversion L; subst; [auto|contradiction|]. destruct H as (_ & H). congruence. }
          destruct (g_constant_name G n) as [name|] eqn:Gn.
          -- destruct (placed U path G ls n (g_analysis G n None)) as [u'| |] eqn:Pl; try discriminate. cbn [bind] in E. injection E as <-.
             apply (ALONE u'); [unfold analysis_of; rewrite Gf; exact Pl|right; right; split; [exact IK|congruence]|reflexivity|exact LA].
          -- injection E as <-. exists []. rewrite app_nil_r. split; [reflexivity|]. intro u. split; [intros []|]. intros (m & q & L & (M & _)). destruct (LA m q L) as (-> & ->).
             exfalso. destruct M as [(Q & _)|[((_ & Q) & _)|(_ & Q)]]; unfold is_function in *; congruence.
        * apply (CHILDREN [] st); try assumption; [intros (_ & Q); congruence| |rewrite app_nil_r; reflexivity|].
          -- intros (_ & _ & -> & Q). rewrite Q in Gk. discriminate.
          -- apply NOUNIT. intros [(Q & _)|[((_ & Q) & _)|((_ & _ & -> & Q) & _)]]; unfold is_function in *; try congruence. rewrite Q in Gk. discriminate.
  Qed.
  Lemma attributes_belong n : forall start, n <= start -> (forall k, n < k <= start -> attributes_from U G ls n start < k -> above_belongs U G ls k) ->
    forall k, attributes_from U G ls n start < k <= start -> above_belongs U G ls k.
  Proof using.
    induction n as [|i IH]; intros start H B k Hk; cbn [attributes_from] in *.
    - apply B; lia.
    - unfold above_belongs in *. destruct (nth_error ls i) as [l|] eqn:Ni; cbn [nth_error] in *.
      + destruct (clean U l) as [|c r] eqn:Cl.
        * apply (IH start); [lia| |exact Hk]. intros x Hx Ha. destruct (Nat.eq_dec x (S i)) as [->|Ne]; [|apply B; lia].
          replace (S i - 1) with i by lia. rewrite Ni. left. apply blank_iff. unfold is_blank. rewrite Cl. reflexivity.
        * destruct (g_attribute G (c :: r)) eqn:Ga.
          -- destruct (Nat.le_gt_cases k i) as [Le|Gt].
             ++ apply (IH i); [lia| |lia]. intros x Hx. lia.
             ++ destruct (Nat.eq_dec k (S i)) as [->|Ne]; [|apply B; [lia|lia]]. replace (S i - 1) with i by lia. rewrite Ni. right. unfold clean in Cl. rewrite Cl. exact Ga.
          -- lia.
      + apply (IH start); [lia| |exact Hk]. intros x Hx Ha. destruct (Nat.eq_dec x (S i)) as [->|Ne]; [|apply B; lia]. replace (S i - 1) with i by lia. rewrite Ni. exact I.
  Qed.
  Lemma placed_spec n found u : placed U path G ls n found = Ok u -> unit_of_node U G ls n found u.
  Proof using.
    unfold placed. destruct (cut _ _ _) as [body| |]; try discriminate. cbn [bind]. intro H. injection H as <-. unfold unit_of_node. cbn.
    pose proof (attributes_le U G ls (n_first n) (n_first n) (le_n _)) as A. fold (find_start_with_attributes U G ls (n_first n)) in A.
    repeat split; try lia. intros k Hk. apply (attributes_belong (n_first n) (n_first n)); [lia|lia|]. unfold find_start_with_attributes in Hk. lia.
  Qed.
End U1.
