(** C28, further: keys that an update of metadata may not name. *)
From Coq Require Import String.
From Verif Require Import Base Text SqlModel SqlSpec.
From Verif Require Import MetaModel MetaQuery MetaSpec MetaExamples.
Open Scope list_scope.
Open Scope nat_scope.

Lemma valid_name_of k : is_valid_column_name k = true -> valid_name k.
Proof.
  destruct k as [|c r]; [discriminate|]. cbn [is_valid_column_name]. rewrite andb_true_iff, forallb_forall. intros [A B].
  assert (W : forall d, (a_alnum d || under d) = true -> a_alnum d = true \/ d = ch "_").
  { intros d H; apply orb_prop in H as [H|H]; [auto|right; apply Z.eqb_eq; exact H]. }
  exists c, r; split; [reflexivity|split].
  - apply orb_prop in A as [A|A]; [auto|right; apply Z.eqb_eq; exact A].
  - intros d D; apply W, B, D.
Qed.

(** An update that names the id of documents, something that is no name, or a column nobody declared fails and changes nothing, even if no document is selected. *)
Theorem C28_unknown_keys_refused :
  forall U E s condition params us k v s' r,
    In (k, v) us ->
    k = txt "_subset_"
    \/ ~ valid_name k
    \/ (u_lower U (txt "_subset_") <> u_lower U k /\ forall k' t, declared s k' t -> u_lower U k' <> u_lower U k) ->
    update_where U E s condition params (JObj us) = (s', r) ->
    s' = s /\ forall n, r <> Ok n.
Proof.
  intros U E s c ps us k v s' r I B H.
  assert (N : forall d, s = Db d -> forallb (fun u => updatable U (schema_columns d) (fst u)) us = false).
  { intros d D. apply not_true_iff_false; intro F. rewrite forallb_forall in F. specialize (F _ I). cbn [fst] in F.
    unfold updatable in F. rewrite !andb_true_iff, existsb_exists, negb_true_iff in F. destruct F as ((F1 & F2) & x & X & F3).
    apply text_eqb_eq in F3.
    destruct B as [->|[B|(B1 & B2)]].
    - vm_compute in F1; discriminate.
    - apply B, valid_name_of, F2.
    - destruct X as [<-|X]; [exact (B1 F3)|].
      rewrite <- map_app in X. apply in_map_iff in X as ([n t] & <- & X). apply (B2 n t); [exists d; auto|exact F3]. }
  unfold update_where in H. destruct s as [| |d].
  all: try (destruct us as [|u us]; [destruct I|]).
  all: try (injection H as <- <-; split; [reflexivity|discriminate]).
  rewrite (N d eq_refl) in H.
  destruct (validate_condition U (schema_columns d) c); cbn [bind] in H; injection H as <- <-; split; try reflexivity; discriminate.
Qed.
Print Assumptions C28_unknown_keys_refused.
Example C28_unknown_keys_refused_example :
  let none := txt "year > ?" in
  snd (update_where ascii_unicode ex_engine ex_store2 none [JInt 3000] (obj [("title", JNull)]%string)) = Ok 0
  /\ snd (update_where ascii_unicode ex_engine ex_store2 none [JInt 3000] (obj [("title", JNull); ("_subset_", JInt 1)]%string)) = Err
  /\ snd (update_where ascii_unicode ex_engine ex_store2 none [JInt 3000] (obj [("colour", JInt 1)]%string)) = Err
  /\ snd (update_where ascii_unicode ex_engine ex_store2 none [JInt 3000] (obj [("a-b", JInt 1)]%string)) = Err.
Proof. repeat split; vm_compute; reflexivity. Qed.
