(** C115: the indices a server lists and what it says of each. *)
From Verif Require Import Base Text ApiProgress CallGraphSpec CallGraphProofs IndexList IndexListSpec.
Open Scope nat_scope.
Open Scope list_scope.

Section LISTS.
  Variable F : Type.
  Variable f_zero : F.
  Variable f_int : Z -> F.
  Local Notation entries := (list (option (entry F))).

  Lemma listed_iff (x : option (entry F)) n e : In (n, e) (listed x) <-> x = Some e /\ e_name e = Some n /\ e_type e = Directory /\ (e_meta e <> Missing \/ e_config_there e = true).
  Proof.
    destruct x as [d|]; cbn [listed]; [|split; [intros []|intros [H _]; discriminate]].
    split.
    - destruct (e_type d) eqn:T; cbn [is_dir]; try (intros []).
      destruct (meta_there F (e_meta d) || e_config_there d) eqn:M; [|intros []].
      destruct (e_name d) as [m|] eqn:N; [|intros []]. intros [H|[]]. injection H as -> ->.
      repeat match goal with |- _ /\ _ => split end; auto.
      apply orb_prop in M as [M|M]; [left; intro Q; rewrite Q in M; discriminate|auto].
    - intros (H & N & T & M). injection H as ->. rewrite T; cbn [is_dir]. rewrite N.
      replace (meta_there F (e_meta e) || e_config_there e) with true; [left; reflexivity|].
      symmetry; apply orb_true_iff. destruct M as [M|M]; [left|right; exact M]. destruct (e_meta e); [congruence|reflexivity|reflexivity].
  Qed.

  Lemma found_iff (es : entries) n e : In (n, e) (flat_map listed es) <-> index_dir es n e.
  Proof.
    rewrite in_flat_map; unfold index_dir; split.
    - intros (x & I & H); apply listed_iff in H as (-> & H); auto.
    - intros (I & H); exists (Some e); split; [exact I|apply listed_iff; auto].
  Qed.

  Lemma dirs_iff (es : entries) n e : In (n, e) (list_dirs (Some es)) <-> index_dir es n e.
  Proof. cbn [list_dirs]. rewrite isort_In. apply found_iff. Qed.

  Lemma names_iff (es : entries) n : In n (list_all (Some es)) <-> exists e, index_dir es n e.
  Proof.
    unfold list_all; rewrite in_map_iff; split.
    - intros ([m e] & <- & H); exists e; apply dirs_iff; exact H.
    - intros (e & H); exists (n, e); split; [reflexivity|apply dirs_iff; exact H].
  Qed.

  Lemma names_once_tail (x : option (entry F)) es : names_once (x :: es) -> names_once es.
  Proof. intros H i j a b n A B; specialize (H (S i) (S j) a b n A B). intros; injection H; auto. Qed.

  Lemma nodup_names (es : entries) : names_once es -> NoDup (map fst (flat_map listed es)).
  Proof.
    induction es as [|x es IH]; intro O; [constructor|]. cbn [flat_map]; rewrite map_app.
    specialize (IH (names_once_tail _ _ O)).
    destruct (listed x) as [|[n e] [|q l]] eqn:L.
    - exact IH.
    - cbn [map app]. constructor; [|exact IH]. intro H; apply in_map_iff in H as ([m f] & Q & H). cbn [fst] in Q |- *. subst m.
      apply found_iff in H as (I & N & _). apply In_nth_error in I as [j J].
      assert (X : In (n, e) (listed x)) by (rewrite L; left; reflexivity). apply listed_iff in X as (-> & N' & _).
      specialize (O 0 (S j) e f n eq_refl J N' N). discriminate.
    - exfalso. destruct x as [d|]; cbn [listed] in L; [|discriminate].
      destruct (is_dir (e_type d)), (meta_there F (e_meta d) || e_config_there d), (e_name d); discriminate.
  Qed.

  Lemma sorted_dirs (es : entries) : names_once es -> StronglySorted comes_before (list_all (Some es)).
  Proof.
    intro O. pose proof (nodup_names es O) as D.
    assert (ND : NoDup (list_all (Some es))).
    { unfold list_all; cbn [list_dirs]. eapply Permutation_NoDup; [apply Permutation_map; symmetry; apply isort_perm|exact D]. }
    assert (S0 : StronglySorted (fun a b : text * entry F => text_leb (fst a) (fst b) = true) (list_dirs (Some es))).
    { cbn [list_dirs]. apply (isort_sorted (fun a b : text * entry F => text_leb (fst a) (fst b))).
      - intros x y; apply text_leb_total.
      - intros x y z; apply text_leb_trans. }
    revert ND; unfold list_all. induction S0 as [|x l S1 IH A]; cbn [map]; intro ND; [constructor|].
    inversion ND as [|? ? N1 N2]; subst. constructor; [apply IH; exact N2|].
    rewrite Forall_forall in *. intros y Y. apply in_map_iff in Y as (z & <- & Z). apply text_leb_before; [apply A; exact Z|].
    intro Q; apply N1; rewrite Q; apply in_map; exact Z.
  Qed.

  Lemma before_irrefl a b : comes_before a b -> comes_before b a -> False.
  Proof.
    intros (p & x & y & -> & -> & H) (q & u & v & P & Q & K). revert q u v P Q K; induction p as [|c p IH]; cbn [app]; intros q u v P Q K.
    - destruct q as [|d q]; cbn [app] in P, Q.
      + subst u v. destruct x as [|c1 x], y as [|c2 y]; try tauto; lia.
      + subst x y. lia.
    - destruct q as [|d q]; cbn [app] in P, Q; [subst u v; lia|].
      injection P as -> P; injection Q as Q. exact (IH _ _ _ P Q K).
  Qed.

  Lemma sorted_same l : forall l', StronglySorted comes_before l -> StronglySorted comes_before l' -> (forall n, In n l <-> In n l') -> l = l'.
  Proof.
    induction l as [|x l IH]; intros l' A B H.
    - destruct l' as [|y l']; [reflexivity|]. destruct (proj2 (H y) (or_introl eq_refl)).
    - destruct l' as [|y l']; [destruct (proj1 (H x) (or_introl eq_refl))|].
      inversion A as [|? ? A1 A2]; inversion B as [|? ? B1 B2]; subst. rewrite Forall_forall in A2, B2.
      assert (E : x = y).
      { destruct (proj1 (H x) (or_introl eq_refl)) as [Q|X]; [congruence|].
        destruct (proj2 (H y) (or_introl eq_refl)) as [Q|Y]; [congruence|].
        destruct (before_irrefl x y); [apply A2; exact Y|apply B2; exact X]. }
      subst y. f_equal. apply IH; [exact A1|exact B1|]. intro n; split; intro I.
      + destruct (proj1 (H n) (or_intror I)) as [->|J]; [|exact J]. destruct (before_irrefl n n); apply A2; exact I.
      + destruct (proj2 (H n) (or_intror I)) as [->|J]; [|exact J]. destruct (before_irrefl n n); apply B2; exact I.
  Qed.

  (** The names listed are those of the index directories, in order and each once; none if the directory cannot be read. *)
  Theorem C115_listed (es : entries) :
    (forall n, In n (list_all (Some es)) <-> exists e, index_dir es n e)
    /\ (names_once es -> StronglySorted comes_before (list_all (Some es)))
    /\ list_all (F := F) None = [].
  Proof. split; [intro; apply names_iff|split; [apply sorted_dirs|reflexivity]]. Qed.

  (** The order in which the system hands out the entries makes no difference. *)
  Theorem C115_any_order (es es' : entries) : names_once es -> names_once es' -> (forall x, In x es <-> In x es') ->
    list_all (Some es) = list_all (Some es').
  Proof.
    intros O O' H. apply sorted_same; [apply sorted_dirs; exact O|apply sorted_dirs; exact O'|].
    intro n; rewrite !names_iff; unfold index_dir; split; intros (e & I & R); exists e; split; try exact R; apply H; exact I.
  Qed.

  Lemma holds_iff (key : text -> figure F) k d : holds key k d (or_default (as_u64 (key k)) d).
  Proof.
    destruct (key k) as [z|f|] eqn:K; cbn [as_u64 or_default].
    - destruct ((0 <=? z)%Z && (z <? 2 ^ 64)%Z) eqn:B; cbn [or_default].
      + apply andb_prop in B as [B1 B2]. apply Z.leb_le in B1; apply Z.ltb_lt in B2.
        apply holds_it; rewrite Z2Nat.id by exact B1; assumption.
      + apply holds_not. intros n Q. rewrite K in Q; injection Q as ->.
        apply andb_false_iff in B as [B|B]; [apply Z.leb_gt in B; lia|apply Z.ltb_ge in B; exact B].
    - apply holds_not; intros n Q; congruence.
    - apply holds_not; intros n Q; congruence.
  Qed.

  Lemma summary_iff n (e : entry F) : (e_meta e <> Damaged -> exists s, get_index_summary F f_zero f_int n e = Ok s /\ s_name s = n /\ tells f_zero f_int e s)
    /\ (e_meta e = Damaged -> get_index_summary F f_zero f_int n e = Err).
  Proof.
    unfold get_index_summary, tells; destruct (e_meta e) as [| |key]; split; intro H; try congruence; try discriminate.
    - eexists; split; [reflexivity|]. cbn. repeat split.
    - eexists; split; [reflexivity|]. cbn [s_name s_max s_documents s_embeddings s_partitions s_dimension s_nbits s_avg s_has_metadata].
      repeat match goal with |- _ /\ _ => split end; try reflexivity; try apply holds_iff.
      destruct (key (txt "avg_doclen")); reflexivity.
  Qed.

  (** The health report speaks, in the same order, of the listed indices whose metadata.json is not damaged, and says what their files say. *)
  Theorem C115_summaries (es : entries) : names_once es ->
    (forall s, In s (get_all_index_summaries F f_zero f_int (Some es)) ->
       exists e, index_dir es (s_name s) e /\ tells f_zero f_int e s)
    /\ StronglySorted comes_before (map s_name (get_all_index_summaries F f_zero f_int (Some es)))
    /\ (forall n, In n (map s_name (get_all_index_summaries F f_zero f_int (Some es)))
          <-> exists e, index_dir es n e /\ e_meta e <> Damaged).
  Proof.
    intro O.
    assert (M : forall s, In s (get_all_index_summaries F f_zero f_int (Some es)) <->
                exists e, index_dir es (s_name s) e /\ get_index_summary F f_zero f_int (s_name s) e = Ok s).
    { intro s; unfold get_all_index_summaries; rewrite in_flat_map; split.
      - intros ([n e] & I & H). apply dirs_iff in I; cbn [fst snd] in H. exists e.
        destruct (summary_iff n e) as [A B]. destruct (get_index_summary F f_zero f_int n e) as [t| |] eqn:G; [|destruct H|destruct H].
        destruct H as [<-|[]].
        assert (N : s_name t = n).
        { destruct A as (u & U & Q & _); [intro D; specialize (B D); congruence|congruence]. }
        rewrite N; auto.
      - intros (e & I & H). exists (s_name s, e). split; [apply dirs_iff; exact I|]. cbn [fst snd]; rewrite H; left; reflexivity. }
    repeat match goal with |- _ /\ _ => split end.
    - intros s H; apply M in H as (e & I & G). exists e; split; [exact I|].
      destruct (summary_iff (s_name s) e) as [A B].
      destruct A as (u & U & _ & T); [intro D; specialize (B D); congruence|congruence].
    - pose proof (sorted_dirs es O) as S0. unfold list_all in S0. unfold get_all_index_summaries.
      assert (SUB : forall l : list (text * entry F), StronglySorted comes_before (map fst l) ->
         StronglySorted comes_before (map s_name (flat_map (fun x => match get_index_summary F f_zero f_int (fst x) (snd x) with Ok s => [s] | _ => [] end) l))
         /\ forall n, In n (map s_name (flat_map (fun x => match get_index_summary F f_zero f_int (fst x) (snd x) with Ok s => [s] | _ => [] end) l)) -> In n (map fst l)).
      { induction l as [|[n e] l IH]; cbn [map flat_map]; intro Q; [split; [constructor|auto]|].
        inversion Q as [|? ? Q1 Q2]; subst. destruct (IH Q1) as [I1 I2]. cbn [fst snd].
        destruct (summary_iff n e) as [A B].
        destruct (get_index_summary F f_zero f_int n e) as [t| |] eqn:G; cbn [app map].
        - assert (N : s_name t = n).
          { destruct A as (u & U & P & _); [intro D; specialize (B D); congruence|congruence]. }
          rewrite N. split; [constructor; [exact I1|]|].
          + rewrite Forall_forall in *; intros y Y; apply Q2, I2, Y.
          + intros m [H|H]; [left; exact H|right; apply I2; exact H].
        - split; [exact I1|intros m H; right; apply I2; exact H].
        - split; [exact I1|intros m H; right; apply I2; exact H]. }
      apply SUB; exact S0.
    - intro n; split.
    + intro H; apply in_map_iff in H as (s & <- & H). apply M in H as (e & I & G). exists e; split; [exact I|].
      intro D; rewrite (proj2 (summary_iff (s_name s) e) D) in G; discriminate.
    + intros (e & I & D). destruct (proj1 (summary_iff n e) D) as (s & G & N & _).
      apply in_map_iff; exists s; split; [exact N|]. apply M; exists e; rewrite N; auto.
  Qed.
End LISTS.
Print Assumptions C115_listed.
Print Assumptions C115_any_order.
Print Assumptions C115_summaries.

From Coq Require Import String.
Open Scope string_scope.
Open Scope nat_scope.
Open Scope list_scope.
Definition ex_key (k : text) : figure nat :=
  if text_eqb k (txt "num_documents") then FInt 7 else if text_eqb k (txt "nbits") then FInt (-1) else FOther.
Definition ex_dir (n : string) (t : etype) (m : meta_file nat) (c : option config) : option (entry nat) :=
  Some {| e_name := Some (txt n); e_type := t; e_meta := m; e_config_there := match c with Some _ => true | None => false end; e_config := c; e_db := true |}.
Definition ex_entries : list (option (entry nat)) :=
  [ex_dir "web" Directory (Parsed ex_key) None; None; ex_dir "tmp" Directory Missing None; ex_dir "notes" File Missing None;
   ex_dir "docs" Directory Missing (Some {| c_nbits := 2; c_max := Some 9 |}); ex_dir "bad" Directory Damaged None].
Example C115_listed_example :
  names_once ex_entries
  /\ list_all (Some ex_entries) = [txt "bad"; txt "docs"; txt "web"]
  /\ list_all (Some (rev ex_entries)) = [txt "bad"; txt "docs"; txt "web"]
  /\ map (fun s => (s_name s, s_documents s, s_nbits s, s_max s)) (get_all_index_summaries nat 0 Z.to_nat (Some ex_entries))
     = [(txt "docs", 0, 2, Some 9); (txt "web", 7, 4, None)].
Proof.
  split; [|repeat split; vm_compute; reflexivity].
  intros i j a b n A B N M.
  assert (LI : i < 6) by (apply (proj1 (nth_error_Some ex_entries i)); congruence).
  assert (LJ : j < 6) by (apply (proj1 (nth_error_Some ex_entries j)); congruence).
  do 6 (destruct i as [|i]; [do 6 (destruct j as [|j]; [try reflexivity; exfalso; cbn in A, B; try discriminate;
    injection A as <-; injection B as <-; cbn [e_name] in N, M; rewrite <- N in M; vm_compute in M; discriminate|]); lia|]); lia.
Qed.

(** Not so: every index whose files are there is listed. *)
Theorem C115_link_refuted :
  ~ (forall (es : list (option (entry nat))) e n, In (Some e) es -> e_name e = Some n -> (e_meta e <> Missing /\ e_meta e <> Damaged) -> In n (list_all (Some es))).
Proof.
  intro H.
  specialize (H [ex_dir "web" Link (Parsed ex_key) None] _ (txt "web") (or_introl eq_refl) eq_refl).
  destruct H; [split; discriminate].
Qed.
Print Assumptions C115_link_refuted.

(** Not so: the health report speaks of every listed index. *)
Theorem C115_health_refuted :
  ~ (forall (es : list (option (entry nat))) n, In n (list_all (Some es)) -> In n (map s_name (get_all_index_summaries nat 0 Z.to_nat (Some es)))).
Proof.
  intro H. specialize (H [ex_dir "bad" Directory Damaged None] (txt "bad") (or_introl eq_refl)). destruct H.
Qed.
Print Assumptions C115_health_refuted.
