(** Lemmas on deletion: masks, filtering and renumbering. *)
From Verif Require Import Base F32 CodecModel CodecSpec CodecProofs IndexModel IndexSpec IndexLemmas.
Open Scope nat_scope.

Fixpoint keep_from {A} (ids : list Z) (id : Z) (l : list A) : list A :=
  match l with
  | [] => []
  | x :: xs => if in_ids ids id then keep_from ids (id + 1) xs else x :: keep_from ids (id + 1) xs
  end.

Lemma delete_positions_keep {A} ids (l : list A) : delete_positions ids l = keep_from ids 0 l.
Proof.
  unfold delete_positions. change 0%Z with (Z.of_nat 0). generalize 0 at 1 2 as a.
  induction l as [|x l IH]; intro a; cbn; auto. fold (in_ids ids (Z.of_nat a)).
  destruct (in_ids ids (Z.of_nat a)); cbn [negb map snd]; rewrite IH;
    replace (Z.of_nat (S a)) with (Z.of_nat a + 1)%Z by lia; reflexivity.
Qed.
Lemma keep_from_app {A} ids id (l1 l2 : list A) :
  keep_from ids id (l1 ++ l2) = keep_from ids id l1 ++ keep_from ids (id + Z.of_nat (length l1)) l2.
Proof.
  revert id; induction l1 as [|x l1 IH]; intro id; cbn [app keep_from length].
  - cbn [app]. f_equal; lia.
  - replace (id + Z.of_nat (S (length l1)))%Z with (id + 1 + Z.of_nat (length l1))%Z by lia.
    rewrite IH. destruct (in_ids ids id); reflexivity.
Qed.
Lemma keep_from_map {A B} (f : A -> B) ids id l : keep_from ids id (map f l) = map f (keep_from ids id l).
Proof. revert id; induction l; intro id; cbn; auto. rewrite IHl. destruct (in_ids ids id); auto. Qed.
Lemma Forall2_keep {A B} (R : A -> B -> Prop) ids id l m :
  Forall2 R l m -> Forall2 R (keep_from ids id l) (keep_from ids id m).
Proof.
  intro H; revert id; induction H; intro id; cbn; auto. destruct (in_ids ids id); auto.
Qed.
Lemma Forall_keep {A} (P : A -> Prop) ids id l : Forall P l -> Forall P (keep_from ids id l).
Proof. intro H; revert id; induction H; intro id; cbn; auto. destruct (in_ids ids id); auto. Qed.
Lemma keep_from_length_le {A} ids id (l : list A) : length (keep_from ids id l) <= length l.
Proof.
  revert id; induction l; intro id; cbn; auto.
  specialize (IHl (id + 1)%Z). destruct (in_ids ids id); cbn; lia.
Qed.
Lemma keep_from_same {A} ids id (l : list A) :
  length (keep_from ids id l) = length l -> keep_from ids id l = l.
Proof.
  revert id; induction l; intro id; cbn; auto. intro H.
  pose proof (keep_from_length_le ids (id + 1) l).
  destruct (in_ids ids id); cbn in *; [lia|]. f_equal; apply IHl; lia.
Qed.
Lemma keep_from_length {A B} ids id (l : list A) (m : list B) :
  length l = length m -> length (keep_from ids id l) = length (keep_from ids id m).
Proof.
  revert id m; induction l; intros id [|b m] H; cbn in *; try lia.
  destruct (in_ids ids id); cbn; rewrite (IHl (id+1)%Z m) by lia; lia.
Qed.

Lemma delete_mask_fst ids id (cs : list stored_doc) :
  fst (delete_mask ids id (map (@length _) cs)) = map (@length _) (keep_from ids id cs).
Proof.
  revert id; induction cs as [|c cs IH]; intro id; cbn; auto.
  specialize (IH (id + 1)%Z). destruct (delete_mask ids (id + 1) (map (@length _) cs)) as [dl mask].
  cbn in IH. destruct (in_ids ids id); cbn; rewrite IH; auto.
Qed.
Local Arguments keep_codes : simpl never.
Lemma keep_codes_app a b m1 m2 :
  length a = length m1 -> keep_codes (a ++ b) (m1 ++ m2) = keep_codes a m1 ++ keep_codes b m2.
Proof.
  unfold keep_codes. revert m1; induction a as [|x a IH]; intros [|m m1] H; cbn in *; try lia; auto.
  destruct m; cbn; rewrite IH by lia; auto.
Qed.
Lemma keep_codes_true a n : length a = n -> keep_codes a (repeat true n) = a.
Proof. intros <-. unfold keep_codes. induction a; cbn; auto. f_equal; auto. Qed.
Lemma keep_codes_false a n : length a = n -> keep_codes a (repeat false n) = [].
Proof. intros <-. unfold keep_codes. induction a; cbn; auto. Qed.
Lemma delete_mask_codes ids id (cs : list stored_doc) :
  keep_codes (map fst (concat cs)) (snd (delete_mask ids id (map (@length _) cs)))
  = map fst (concat (keep_from ids id cs)).
Proof.
  revert id; induction cs as [|c cs IH]; intro id; cbn; auto.
  specialize (IH (id + 1)%Z). destruct (delete_mask ids (id + 1) (map (@length _) cs)) as [dl mask].
  cbn in IH. rewrite map_app.
  destruct (in_ids ids id); cbn; rewrite keep_codes_app by (rewrite map_length, repeat_length; auto);
    rewrite IH.
  - rewrite keep_codes_false by apply map_length. reflexivity.
  - rewrite keep_codes_true by apply map_length. rewrite map_app; reflexivity.
Qed.
Lemma keep_rows_app a b m1 m2 k :
  length a = length m1 -> keep_rows b m2 = Ok k ->
  keep_rows (a ++ b) (m1 ++ m2) = Ok (map fst (filter snd (combine a m1)) ++ k).
Proof.
  revert m1; induction a as [|x a IH]; intros [|m m1] H Hk; cbn in *; try lia; auto.
  rewrite IH by (auto; lia). cbn. destruct m; reflexivity.
Qed.
Lemma filter_true {A} (a : list A) n : length a = n -> map fst (filter snd (combine a (repeat true n))) = a.
Proof. intros <-; induction a; cbn; auto. f_equal; auto. Qed.
Lemma filter_false {A} (a : list A) n : length a = n -> map fst (filter snd (combine a (repeat false n))) = [].
Proof. intros <-; induction a; cbn; auto. Qed.
Lemma delete_mask_rows ids id (cs : list stored_doc) :
  keep_rows (map snd (concat cs)) (snd (delete_mask ids id (map (@length _) cs)))
  = Ok (map snd (concat (keep_from ids id cs))).
Proof.
  revert id; induction cs as [|c cs IH]; intro id; cbn; auto.
  specialize (IH (id + 1)%Z). destruct (delete_mask ids (id + 1) (map (@length _) cs)) as [dl mask].
  cbn in IH. rewrite map_app.
  destruct (in_ids ids id); cbn;
    (erewrite keep_rows_app; [|rewrite map_length, repeat_length; auto|exact IH]).
  - rewrite filter_false by apply map_length. reflexivity.
  - rewrite filter_true by apply map_length. rewrite map_app; reflexivity.
Qed.

Lemma clean_docs_spec ids id (B : list doc) :
  clean_docs ids id (concat B) (map (@length row) B)
  = (concat (keep_from ids id B), map (@length row) (keep_from ids id B)).
Proof.
  revert id; induction B as [|b B IH]; intro id; cbn; auto.
  rewrite skipn_app_exact, firstn_app_exact, IH. destruct (in_ids ids id); reflexivity.
Qed.

(** ** Renumbering *)
Fixpoint postings_from (id : Z) (docs : list stored_doc) (c : nat) : list Z :=
  match docs with
  | [] => []
  | d :: ds => if has_code c d then id :: postings_from (id + 1) ds c else postings_from (id + 1) ds c
  end.
Lemma postings_eq docs c : postings docs c = postings_from 0 docs c.
Proof.
  unfold postings.
  assert (H : forall a pre, length pre = a ->
    map Z.of_nat (filter (fun i => has_code c (nth i (pre ++ docs) [])) (seq a (length docs)))
    = postings_from (Z.of_nat a) docs c); [|apply (H 0 []); reflexivity].
  induction docs as [|d ds IH]; intros a pre Hpre; cbn [length seq filter map postings_from]; auto.
  rewrite app_nth2 by lia. rewrite Hpre, Nat.sub_diag; cbn [nth].
  specialize (IH (S a) (pre ++ [d])). rewrite <- app_assoc in IH; cbn [app] in IH.
  rewrite app_length in IH; cbn in IH.
  replace (Z.of_nat a + 1)%Z with (Z.of_nat (S a)) by lia.
  destruct (has_code c d); cbn [map]; rewrite IH by lia; reflexivity.
Qed.

Lemma partition_point_count k l : StronglySorted Z.le l ->
  partition_point (fun x => x <? k)%Z l = length (filter (fun x => x <? k)%Z l).
Proof.
  induction 1 as [|a l S IH F]; cbn; auto.
  destruct (Z.ltb_spec a k); cbn; [rewrite IH; auto|].
  rewrite filter_none; auto. rewrite Forall_forall in *; intros x Hx; specialize (F x Hx); lia.
Qed.
Lemma filter_perm_length {A} (P : A -> bool) l m : Permutation l m -> length (filter P l) = length (filter P m).
Proof.
  induction 1; cbn; auto; try congruence.
  - destruct (P x); cbn; congruence.
  - destruct (P x), (P y); cbn; auto.
Qed.
Lemma in_ids_In ids id : in_ids ids id = true <-> In id ids.
Proof.
  unfold in_ids; rewrite existsb_exists; split.
  - intros (x & H & E); apply Z.eqb_eq in E; subst; auto.
  - intro H; exists id; split; auto; apply Z.eqb_refl.
Qed.
Lemma count_step l k : NoDup l ->
  length (filter (fun x => x <? k + 1)%Z l)
  = length (filter (fun x => x <? k)%Z l) + (if in_ids l k then 1 else 0).
Proof.
  induction 1 as [|a l Hn Hd IH]; cbn; auto.
  assert (Hk : a = k -> in_ids l k = false).
  { intros ->. destruct (in_ids l k) eqn:E; auto. apply in_ids_In in E; contradiction. }
  destruct (Z.eqb_spec k a) as [->|]; cbn [orb].
  - rewrite (Hk eq_refl) in IH.
    destruct (Z.ltb_spec a (a + 1)), (Z.ltb_spec a a); try lia; cbn; lia.
  - fold (in_ids l k).
    destruct (Z.ltb_spec a (k + 1)), (Z.ltb_spec a k); try lia; cbn; lia.
Qed.
Definition below (ids : list Z) (k : Z) : nat :=
  partition_point (fun x => x <? k)%Z (isort Z.leb (nodup Z.eq_dec ids)).
Lemma below_count ids k : below ids k = length (filter (fun x => x <? k)%Z (nodup Z.eq_dec ids)).
Proof.
  unfold below. rewrite partition_point_count by apply isort_le.
  apply filter_perm_length, isort_perm.
Qed.
Lemma in_ids_nodup ids k : in_ids (nodup Z.eq_dec ids) k = in_ids ids k.
Proof.
  destruct (in_ids ids k) eqn:E.
  - apply in_ids_In in E. apply in_ids_In, nodup_In; auto.
  - destruct (in_ids (nodup Z.eq_dec ids) k) eqn:E2; auto.
    apply in_ids_In, nodup_In, in_ids_In in E2; congruence.
Qed.
Lemma below_step ids k : below ids (k + 1) = below ids k + (if in_ids ids k then 1 else 0).
Proof. rewrite !below_count, count_step by apply NoDup_nodup. rewrite in_ids_nodup; auto. Qed.
Lemma below_0 ids : Forall (fun z => 0 <= z)%Z ids -> below ids 0 = 0.
Proof.
  intro H. rewrite below_count, filter_none; auto.
  rewrite Forall_forall in *; intros x Hx. apply nodup_In in Hx. specialize (H x Hx). lia.
Qed.

Lemma postings_from_keep ids c docs : forall id,
  postings_from (id - Z.of_nat (below ids id)) (keep_from ids id docs) c
  = map (renumber (isort Z.leb (nodup Z.eq_dec ids)))
        (filter (fun x => negb (in_ids ids x)) (postings_from id docs c)).
Proof.
  induction docs as [|d ds IH]; intro id; cbn; auto.
  specialize (IH (id + 1)%Z). rewrite below_step in IH.
  destruct (in_ids ids id) eqn:E.
  - replace (id + 1 - Z.of_nat (below ids id + 1))%Z with (id - Z.of_nat (below ids id))%Z in IH by lia.
    rewrite IH. destruct (has_code c d); cbn; rewrite ?E; reflexivity.
  - replace (id + 1 - Z.of_nat (below ids id + 0))%Z with (id - Z.of_nat (below ids id) + 1)%Z in IH by lia.
    cbn. rewrite IH. destruct (has_code c d); cbn; rewrite ?E; reflexivity.
Qed.
Lemma postings_keep ids docs c : Forall (fun z => 0 <= z)%Z ids ->
  postings (keep_from ids 0 docs) c
  = map (renumber (isort Z.leb (nodup Z.eq_dec ids)))
        (filter (fun x => negb (in_ids ids x)) (postings docs c)).
Proof.
  intro H. rewrite !postings_eq, <- postings_from_keep, below_0 by auto. reflexivity.
Qed.

Lemma patch_ivf_lists ids sd lists :
  patch_ivf ids sd (concat lists) (map (@length Z) lists)
  = Ok (map (fun l => map (renumber sd) (filter (fun id => negb (in_ids ids id)) l)) lists).
Proof.
  induction lists as [|l lists IH]; cbn; auto.
  rewrite app_length. destruct (Nat.leb_spec (length l) (length l + length (concat lists))); [|lia].
  rewrite skipn_app_exact, firstn_app_exact, IH. reflexivity.
Qed.
