(** Earlier metadata layouts: reading. *)
From Coq Require Import Permutation Sorted.
From Verif Require Import Base IndexModel IndexLemmas Text SqlModel SqlSpec Base64 MetaModel MetaQuery MetaSpec MetaProofs MetaCreate MetaContent MetaFilter MetaWhere MetaRead Legacy LegacySpec.
Open Scope nat_scope.

(** ** Dividing columns and values *)
Lemma chosen_len p : forall cols vals, length vals = length cols -> length (chosen p cols vals) = length (filter p cols).
Proof.
  unfold chosen. induction cols as [|c cols IH]; intros [|v vals] H; try discriminate; [reflexivity|]. cbn [combine filter fst]. destruct (p c); cbn [map length]; rewrite IH by (cbn in H; lia); reflexivity.
Qed.
Lemma divided_fields (g : sqlv -> json) (p : column -> bool) : forall cols vals, length vals = length cols ->
  Permutation (combine (map c_name cols) (map g vals))
    (combine (map c_name (filter p cols)) (map g (chosen p cols vals))
       ++ combine (map c_name (filter (fun c => negb (p c)) cols)) (map g (chosen (fun c => negb (p c)) cols vals))).
Proof.
  unfold chosen. induction cols as [|c cols IH]; intros [|v vals] H; try discriminate; [constructor|].
  cbn [combine filter fst map]. specialize (IH vals ltac:(cbn in H; lia)). destruct (p c); cbn [negb map combine app].
  - constructor. exact IH.
  - rewrite IH. apply Permutation_middle.
Qed.
Lemma F2_len {A B} (R : A -> B -> Prop) l m : Forall2 R l m -> length l = length m.
Proof. induction 1; cbn; congruence. Qed.
Lemma F2_weaken {A B} (R Q : A -> B -> Prop) l m : (forall a b, R a b -> Q a b) -> Forall2 R l m -> Forall2 Q l m.
Proof. intros H. induction 1; constructor; auto. Qed.
Lemma F2_subs {A B} (f : A -> Z) (g : B -> Z) l m : Forall2 (fun a b => f a = g b) l m -> map f l = map g m.
Proof. induction 1; cbn; congruence. Qed.

Section SAME.
  Variable t : ltab.
  Variable d : db.
  Hypothesis SD : same_documents t d.
  Lemma same_subs : map l_sub (l_rows t) = map sub_of (rows d).
  Proof using SD. destruct SD as (_ & _ & _ & _ & F). apply F2_subs. eapply F2_weaken; [|exact F]. intros a b H. apply H. Qed.
  Lemma same_length : length (thin_rows d) = length (fat_rows d).
  Proof using SD. destruct SD as (_ & _ & C & _ & _). rewrite <- (map_length t_cid), C, map_length. reflexivity. Qed.
  Lemma same_thin_subs : map l_sub (l_rows t) = map t_sub (thin_rows d).
  Proof using SD. rewrite same_subs. unfold rows, sub_of. rewrite <- (map_map fst t_sub), map_fst_combine by apply same_length. reflexivity. Qed.
  Lemma same_lookup i : match find (fun r => (l_sub r =? i)%Z) (l_rows t), lookup (rows d) i with
    | Some r, Some p => l_sub r = sub_of p /\ length (l_vals r) = length (l_cols t) /\ t_vals (fst p) = chosen thin_col (l_cols t) (l_vals r) /\ f_vals (snd p) = chosen fat_col (l_cols t) (l_vals r)
    | None, None => True | _, _ => False end.
  Proof using SD.
    destruct SD as (_ & _ & _ & _ & F). fold (rows d) in F. unfold lookup. induction F as [|r p l m H F IH]; [exact I|]. cbn [find]. destruct H as (H1 & H2). replace (sub_of p =? i)%Z with (l_sub r =? i)%Z by (unfold sub_of; rewrite H1; reflexivity). destruct (l_sub r =? i)%Z eqn:Q; [split; [exact H1|exact H2]|exact IH].
  Qed.
End SAME.
Lemma NoDup_app_l {A} (l m : list A) : NoDup (l ++ m) -> NoDup l.
Proof. induction l as [|x l IH]; cbn; intro H; [constructor|]. inversion H; subst. constructor; [intro I; apply H2; apply in_or_app; left; exact I|apply IH; assumption]. Qed.
Lemma NoDup_sub_filter {A B} (f : A -> B) (p : A -> bool) (pre : list B) l : NoDup (pre ++ map f l) -> NoDup (pre ++ map f (filter p l)).
Proof.
  revert pre. induction l as [|x l IH]; intros pre H; [exact H|]. cbn [filter map] in *. destruct (p x); cbn [map].
  - change (f x :: map f (filter p l)) with ([f x] ++ map f (filter p l)). rewrite app_assoc. apply IH. rewrite <- app_assoc. exact H.
  - apply IH. apply NoDup_remove_1 in H. exact H.
Qed.
Lemma same_wf E t d : old_table E t -> same_documents t d -> wf_db d.
Proof.
  intros O SD. pose proof (same_thin_subs t d SD) as TS. pose proof (same_length t d SD) as SL. pose proof SD as SD'. destruct SD' as (C1 & C2 & C3 & C4 & F).
  assert (FT : Forall (fun p => length (t_vals (fst p)) = length (thin_cols d) /\ length (f_vals (snd p)) = length (fat_cols d)) (combine (thin_rows d) (fat_rows d))).
  { apply Forall_forall. intros p I. clear - F I C1 C2. induction F as [|r q l m H F IH]; [destruct I|]. destruct I as [->|I]; [|apply IH; exact I]. destruct H as (_ & L & V1 & V2). rewrite V1, V2, C1, C2, !chosen_len by exact L. split; reflexivity. }
  pose proof (ot_cols _ _ O) as OC. change (map (map to_lower1)) with (map ci) in OC.
  constructor.
  - rewrite <- TS. apply (ot_ids _ _ O).
  - apply Forall_forall. intros r I. assert (J : In (t_sub r) (map l_sub (l_rows t))) by (rewrite TS; apply in_map; exact I). apply in_map_iff in J. destruct J as (q & <- & Q). apply (proj1 (Forall_forall _ _) (ot_nonneg _ _ O) q Q).
  - exact C4.
  - exact C3.
  - apply Forall_forall. intros r I. rewrite <- (map_fst_combine (thin_rows d) (fat_rows d) SL) in I. apply in_map_iff in I. destruct I as (p & <- & I). apply (proj1 (Forall_forall _ _) FT p I).
  - apply Forall_forall. intros r I. rewrite <- (map_snd_combine (thin_rows d) (fat_rows d) SL) in I. apply in_map_iff in I. destruct I as (p & <- & I). apply (proj1 (Forall_forall _ _) FT p I).
  - rewrite C1. cbn [map] in *. rewrite map_map in *. change (ci subset_column :: ci content_column :: ?l) with ([ci subset_column; ci content_column] ++ l) in *. apply NoDup_sub_filter. exact OC.
  - rewrite C2. cbn [map] in *. rewrite map_map in *. inversion OC as [|? ? _ OC']; subst. change (ci content_column :: ?l) with ([ci content_column] ++ l) in *. apply NoDup_sub_filter. exact OC'.
  - rewrite C1. apply Forall_forall. intros c I. apply filter_In in I. split; [exact (proj2 I)|apply (proj1 (Forall_forall _ _) (ot_valid _ _ O) c (proj1 I))].
  - rewrite C2. apply Forall_forall. intros c I. apply filter_In in I. split; [apply negb_true_iff; exact (proj2 I)|apply (proj1 (Forall_forall _ _) (ot_valid _ _ O) c (proj1 I))].
Qed.

(** ** Reading *)
  Lemma old_sorted l : NoDup (map l_sub l) -> sinc (map l_sub (isort by_sub l)).
  Proof.
    intro D. assert (D' : NoDup (map l_sub (isort by_sub l))) by (eapply Permutation_NoDup; [apply Permutation_map; symmetry; apply isort_perm|exact D]).
    assert (S : StronglySorted (fun a b => by_sub a b = true) (isort by_sub l)) by (apply isort_sorted; unfold by_sub; intros; lia).
    induction S as [|a m S IH F]; cbn [map] in *; [constructor|]. inversion D' as [|? ? D1 D2]; subst. constructor; [apply IH; exact D2|]. apply Forall_forall. intros x I. apply in_map_iff in I. destruct I as (b & <- & I).
    rewrite Forall_forall in F. specialize (F b I). unfold by_sub in F. assert (l_sub a <> l_sub b) by (intro Q; apply D1; rewrite Q; apply in_map; exact I). lia.
  Qed.
Section READ.
  Variable E : engine.
  Variable t : ltab.
  Hypothesis ND : NoDup (map l_sub (l_rows t)).
  Definition old_lookup (i : Z) : option lrow := find (fun r => (l_sub r =? i)%Z) (l_rows t).
  Definition old_show (i : Z) : list json := match old_lookup i with Some r => [old_object E t r] | None => [] end.
  Lemma old_lookup_spec i r : old_lookup i = Some r <-> In r (l_rows t) /\ l_sub r = i.
  Proof using ND.
    unfold old_lookup. split.
    - intro F. apply find_some in F. destruct F as (F1 & F2). split; [exact F1|lia].
    - intros (I & S). revert ND I. induction (l_rows t) as [|x l IH]; cbn [map find]; intros D I; [destruct I|]. inversion D as [|? ? D1 D2]; subst. destruct I as [->|I]; [rewrite Z.eqb_refl; reflexivity|].
      destruct (l_sub x =? l_sub r)%Z eqn:Q; [|apply IH; assumption]. exfalso. apply D1. replace (l_sub x) with (l_sub r) by lia. apply in_map. exact I.
  Qed.
  Lemma old_lookup_none i : old_lookup i = None <-> ~ In i (map l_sub (l_rows t)).
  Proof using ND.
    split.
    - intros N I. apply in_map_iff in I. destruct I as (r & S & I). rewrite (proj2 (old_lookup_spec i r) (conj I S)) in N. discriminate.
    - intro N. destruct (old_lookup i) as [r|] eqn:L; [|reflexivity]. exfalso. apply old_lookup_spec in L. destruct L as (I & <-). apply N. apply in_map. exact I.
  Qed.
  Variable scan : list lrow -> list lrow.
  Hypothesis SP : forall l, Permutation (scan l) l.
  Lemma get_ids_old_show ids : get_ids_old E scan t ids = flat_map old_show (firsts ids).
  Proof using SP ND.
    unfold get_ids_old. rewrite pick_firsts. set (res := flat_map _ (chunks param_limit ids)).
    assert (R : forall p, In p res <-> exists r, In r (l_rows t) /\ In (l_sub r) ids /\ p = (l_sub r, old_object E t r)).
    { intro p. unfold res. rewrite in_flat_map. split.
      - intros (ch & Hch & Hp). apply in_map_iff in Hp. destruct Hp as (r & <- & Hr). apply (Permutation_in _ (SP _)) in Hr. apply filter_In in Hr. destruct Hr as (Hr & Hm). apply zmem_In in Hm.
        exists r. repeat split; auto. rewrite <- (concat_chunks param_limit ids) by (unfold param_limit; lia). apply in_concat. eauto.
      - intros (r & Hr & Hi & ->). rewrite <- (concat_chunks param_limit ids) in Hi by (unfold param_limit; lia). apply in_concat in Hi. destruct Hi as (ch & Hch & Hi). exists ch. split; auto.
        apply in_map_iff. exists r. split; auto. apply (Permutation_in _ (Permutation_sym (SP _))). apply filter_In. split; [exact Hr|]. apply zmem_In. exact Hi. }
    assert (F : forall l, (forall x, In x l -> In x ids) -> flat_map (found (fold_left map_insert res [])) l = flat_map old_show l).
    { induction l as [|x l IH]; intro Hl; cbn [flat_map]; auto. rewrite IH by (intros; apply Hl; right; auto). f_equal. unfold found, old_show. destruct (old_lookup x) as [r|] eqn:L.
      - apply old_lookup_spec in L. destruct L as (Hr & Hs). rewrite (find_map_insert res [] x (old_object E t r)).
        + replace (existsb (fun p => (fst p =? x)%Z) res) with true; [reflexivity|]. symmetry. apply existsb_exists. exists (x, old_object E t r). split; [|cbn; lia]. apply R. exists r. repeat split; auto; [|rewrite Hs; auto]. rewrite Hs. apply Hl. left. auto.
        + intros p Hp Hx. apply R in Hp. destruct Hp as (r' & Hr' & _ & ->). cbn in *. assert (r' = r); [|congruence].
          pose proof (proj2 (old_lookup_spec x r') (conj Hr' Hx)) as L1. pose proof (proj2 (old_lookup_spec x r) (conj Hr Hs)) as L2. congruence.
      - rewrite (find_map_insert res [] x JNull).
        + replace (existsb (fun p => (fst p =? x)%Z) res) with false; auto. symmetry. apply not_true_iff_false. intro C. apply existsb_exists in C. destruct C as (p & Hp & Hx). apply R in Hp. destruct Hp as (r & Hr & _ & ->). cbn in Hx. apply (proj1 (old_lookup_none _) L). replace x with (l_sub r) by lia. apply in_map; auto.
        + intros p Hp Hx. apply R in Hp. destruct Hp as (r & Hr & _ & ->). cbn in Hx. exfalso. apply (proj1 (old_lookup_none _) L). rewrite <- Hx. apply in_map; auto. }
    apply F. intros x Hx. clear -Hx. induction ids as [|y ids IH]; cbn in Hx; auto. destruct Hx as [->|Hx]; [left; auto|]. right. apply filter_In in Hx. apply IH. tauto.
  Qed.
  Lemma get_all_old_show : exists ids, sinc ids /\ (forall i, In i ids <-> old_lookup i <> None) /\ get_all_old E scan t = flat_map old_show ids.
  Proof using SP ND.
    unfold get_all_old. set (L := isort by_sub (scan (l_rows t))). assert (P : Permutation L (l_rows t)) by (unfold L; rewrite isort_perm; apply SP).
    exists (map l_sub L). split; [|split].
    - apply old_sorted. eapply Permutation_NoDup; [apply Permutation_map; symmetry; apply SP|exact ND].
    - intro i. assert (Q : In i (map l_sub L) <-> In i (map l_sub (l_rows t))) by (split; apply Permutation_in; [|symmetry]; apply Permutation_map; exact P). rewrite Q.
      destruct (old_lookup i) as [r|] eqn:K; [|apply old_lookup_none in K; tauto]. split; [discriminate|]. intros _. apply old_lookup_spec in K. destruct K as (I & <-). apply in_map. exact I.
    - assert (I : forall r, In r L -> In r (l_rows t)) by (intros r; apply Permutation_in; exact P). clear P. revert I. generalize L. clear L. induction L as [|r L IH]; intro I; [reflexivity|]. cbn [map flat_map]. rewrite <- IH by (intros; apply I; right; assumption).
      unfold old_show at 1. rewrite (proj2 (old_lookup_spec (l_sub r) r) (conj (I r (or_introl eq_refl)) eq_refl)). reflexivity.
  Qed.
End READ.

Lemma F2_flat {A} (R : json -> json -> Prop) (f g : A -> list json) l : (forall x, Forall2 R (f x) (g x)) -> Forall2 R (flat_map f l) (flat_map g l).
Proof. intro H. induction l as [|x l IH]; [constructor|]. cbn [flat_map]. apply Forall2_app; auto. Qed.
Lemma same_shown E t d i : old_table E t -> same_documents t d -> Forall2 same_object (old_show E t i) (show E d i).
Proof.
  intros O SD. pose proof (same_lookup t d SD i) as L. unfold old_show, show, old_lookup. destruct (find _ (l_rows t)) as [r|] eqn:Fr; destruct (lookup (rows d) i) as [p|] eqn:Fp; try contradiction; [|constructor].
  destruct L as (S & Len & V1 & V2). constructor; [|constructor]. apply find_some in Fr. destruct Fr as (_ & Fr). eexists _, _. split; [reflexivity|]. split; [reflexivity|].
  replace (l_sub r) with i by lia. constructor. destruct SD as (C1 & C2 & _). unfold fields. rewrite C1, C2, V1, V2. exact (divided_fields (row_to_json_value E) thin_col (l_cols t) (l_vals r) Len).
Qed.
(** The same objects, in the same order, from both layouts. *)
Lemma same_reads E scan t d sub : good_engine E -> (forall l, Permutation (scan l) l) -> old_table E t -> same_documents t d ->
  exists l, get_rows E (Db d) sub = Ok l /\ Forall2 same_object (get_old E scan t sub) l.
Proof.
  intros G SP O SD. pose proof (same_wf E t d O SD) as W. cbn [get_rows]. eexists. split; [reflexivity|]. destruct sub as [ids|]; cbn [get_old].
  - rewrite get_ids_old_show by (auto; apply (ot_ids _ _ O)). rewrite get_ids_show by auto. apply F2_flat. intro i. apply same_shown; assumption.
  - destruct (get_all_old_show E t (ot_ids _ _ O) scan SP) as (ids & S & M & ->).
    destruct (get_all_ok E (Db d) (get_all_v2 E d) G W eq_refl) as (ids' & S' & M' & ->).
    assert (EQ : ids = ids'). { apply sinc_unique; auto. intro x. rewrite M, M', row_at_lookup by auto. pose proof (same_lookup t d SD x) as L. unfold old_lookup. destruct (find _ (l_rows t)); destruct (lookup (rows d) x); cbn [option_map]; try contradiction; split; congruence. }
    subst ids'. apply F2_flat. intro i. replace (object_at E (Db d) i) with (show E d i) by (unfold object_at, show; rewrite row_at_lookup by auto; destruct (lookup (rows d) i); reflexivity). exact (same_shown E t d i O SD).
Qed.
