(** C34: the full-text index follows the documents. *)
From Coq Require Import String.
From Verif Require Import Base F32 IndexModel IndexSpec IndexExamples.
From Verif Require Import Text MetaModel MetaSpec MetaProofs MetaExamples SyncModel SyncSpec FtsText FtsStore FtsStoreSpec FtsStoreProofs.
Open Scope list_scope.
Open Scope nat_scope.

(** C34. After any history of adds, appends, deletes and reloads there is a collection (documents
    with their items, as in C24) such that the full-text row of document id [i], if there is one,
    is built from the item of document [i]. *)
Theorem C34_rows_follow_documents :
  forall V E X D docs0 g0 md0 k0 ops outs s f, freached V E X D docs0 g0 md0 k0 ops outs s f ->
    exists out0 outs' L0 L, outs = out0 :: outs' /\ adds [] docs0 md0 out0 L0 /\ call_history L0 (map fst ops) outs' L
      /\ rows_follow X (snd s) L f.
Proof.
  intros V E X D docs0 g0 md0 k0 ops outs s f R. destruct (fts_history _ _ _ _ _ _ _ _ _ _ _ _ R) as (o & os & L0 & L & H1 & H2 & H3 & H4 & _).
  exists o, os, L0, L. auto.
Qed.
Print Assumptions C34_rows_follow_documents.
(** Without the identifier-aware tokenizer, or without deletions, a term finds document [i] only
    if [i] is in the collection, has an item, and the term is one of the terms of the text built
    from it. *)
Theorem C34_hits_are_documents :
  forall V E X D docs0 g0 md0 k0 ops outs s f, freached V E X D docs0 g0 md0 k0 ops outs s f ->
    no_identifiers k0 ops \/ no_deletion ops ->
    exists out0 outs' L0 L, outs = out0 :: outs' /\ adds [] docs0 md0 out0 L0 /\ call_history L0 (map fst ops) outs' L
      /\ forall i t, matches f i t ->
         exists v x k, item_of L i = Some v /\ built_from X (snd s) i v x /\ ft_config f = Some k /\ In t (indexed_terms X k x).
Proof.
  intros V E X D docs0 g0 md0 k0 ops outs s f R N. destruct (fts_history _ _ _ _ _ _ _ _ _ _ _ _ R) as (o & os & L0 & L & H1 & H2 & H3 & H4 & H5 & _).
  exists o, os, L0, L. repeat (split; auto). intros i t M. apply (matches_iff X) in M; auto. destruct M as (x & k & T & Ck & Ht).
  destruct (H4 i x T) as (v & Hv & B). exists v, x, k. auto.
Qed.
Print Assumptions C34_hits_are_documents.
(** If moreover items are only added by the calls that index them, always with the same
    tokenizer, every document with an item is found by exactly the terms of its text. *)
Theorem C34_every_item_found :
  forall V E X D docs0 g0 md0 k0 ops outs s f, freached V E X D docs0 g0 md0 k0 ops outs s f ->
    no_identifiers k0 ops \/ no_deletion ops -> all_indexed k0 ops ->
    exists out0 outs' L0 L, outs = out0 :: outs' /\ adds [] docs0 md0 out0 L0 /\ call_history L0 (map fst ops) outs' L
      /\ forall i v, item_of L i = Some v ->
         exists x, built_from X (snd s) i v x /\ forall t, matches f i t <-> In t (indexed_terms X k0 x).
Proof.
  intros V E X D docs0 g0 md0 k0 ops outs s f R N A. destruct (fts_history _ _ _ _ _ _ _ _ _ _ _ _ R) as (o & os & L0 & L & H1 & H2 & H3 & H4 & H5 & H6 & H7).
  exists o, os, L0, L. repeat (split; auto). intros i v Hv. assert (Ni : item_of L i <> None) by (rewrite Hv; discriminate).
  destruct (text_of f i) as [x|] eqn:T; [|destruct (H6 A i Ni T)]. destruct (H4 i x T) as (v' & Hv' & B). rewrite Hv in Hv'. injection Hv' as <-.
  exists x. split; auto. intro t. rewrite (matches_iff X) by auto. rewrite T, (H7 A i Ni). split.
  - intros (x' & k' & Q1 & Q2 & Ht). injection Q1 as <-. injection Q2 as <-. auto.
  - intro Ht. exists x, k0. auto.
Qed.
Print Assumptions C34_every_item_found.
(** The text built from an item contains each of its non-empty string values as words. *)
Theorem C34_text_contains_strings :
  forall X v s, occurs_in (JStr s) v -> s <> [] -> word_of s (metadata_to_text X v).
Proof. intros X v s H N. apply join_word, collect_value; auto. Qed.
Print Assumptions C34_text_contains_strings.
(** After a change of rows of the database (update_where, C29) their full-text rows are built
    from the new values, and the others are as before. *)
Theorem C34_changed_rows_follow :
  forall X k f d ids, k <> IdentifierAware -> wf_db d -> ft_config f = Some k -> index_follows X f -> Forall (has_row (Db d)) ids ->
    let f' := fts_update_rows X f d ids in
    index_follows X f' /\ ft_config f' = Some k
    /\ (forall i, ~ In i ids -> text_of f' i = text_of f i)
    /\ (ft_tables f <> None -> forall i, In i ids -> exists id row, cells (Db d) i = Some (id :: row)
         /\ text_of f' i = Some (join [32%Z] (flat_map (value_text X) (map (fun c => snd (snd c)) row)))).
Proof. exact update_rows_ok. Qed.
Print Assumptions C34_changed_rows_follow.

(** ** Examples *)
(** words separated by spaces, in lower case *)
Fixpoint ex_words (cur : text) (x : text) : list text :=
  match x with
  | [] => if nonempty cur then [cur] else []
  | c :: r => if (c =? 32)%Z then (if nonempty cur then [cur] else []) ++ ex_words [] r else ex_words (cur ++ [to_lower1 c]) r
  end.
Definition ex_fts : fts_engine := {| x_int := fun z => [(48 + z)%Z]; x_num := fun _ => txt "n"; x_f64 := fun _ => txt "f"; x_terms := fun _ => ex_words [] |}.
Definition frun_ex md0 k0 ops := got ([], (((empty_disk, ex_meta0), NoDb), no_fts)) (frun ex_fts ex_env ex_engine ex_docs3 (cfg 2 3 2 0) md0 k0 ops).
Lemma frun_got md0 k0 ops : is_ok (frun ex_fts ex_env ex_engine ex_docs3 (cfg 2 3 2 0) md0 k0 ops) = true ->
  frun ex_fts ex_env ex_engine ex_docs3 (cfg 2 3 2 0) md0 k0 ops
  = Ok (fst (frun_ex md0 k0 ops), (fst (snd (frun_ex md0 k0 ops)), snd (snd (frun_ex md0 k0 ops)))).
Proof. unfold frun_ex. destruct (frun _ _ _ _ _ _ _ _) as [(a, (b, c))| |]; [reflexivity|discriminate..]. Qed.
Ltac freached_tac :=
  split; [lia|]; split; [exact ex_kmeans|]; split; [exact ex_good|]; split; [repeat constructor|];
  split; [repeat constructor; cbn; intuition discriminate|];
  split; [repeat constructor; cbn; intuition discriminate|];
  split; [cbn; repeat (constructor; [first [split; [discriminate|repeat constructor]|repeat (constructor; try lia)|exact I]|]); constructor|];
  split; [cbn; repeat split; auto|];
  apply frun_got; vm_compute; reflexivity.
Definition ex_fops : list (sop * fts_tokenizer) :=
  [(SAddPath [[tok 10]; [tok 30; tok 20]] (cfg 2 0 10 5) (Some ex_more), Unicode61);
   (SDelete [4]%Z, Unicode61);
   (SAddPath [[tok 20]] (cfg 2 0 1 7) (Some [obj [("file", str "z.rs")]]), Unicode61);
   (SDelete [1; 3; 3; 77]%Z, Unicode61);
   (SAddPath [[tok 20]] (cfg 2 0 1 7) (Some [obj [("bad key", str "z.rs")]]), Unicode61);
   (SReload, Unicode61)]%string.
Definition ex_frun := frun_ex (Some ex_items) Unicode61 ex_fops.
Example C34_example :
  let s := fst (snd ex_frun) in let f := snd (snd ex_frun) in
  freached ex_env ex_engine ex_fts 8 ex_docs3 (cfg 2 3 2 0) (Some ex_items) Unicode61 ex_fops (fst ex_frun) s f
  /\ no_identifiers Unicode61 ex_fops /\ all_indexed Unicode61 ex_fops
  /\ fst ex_frun = [Ok [0; 1; 2]; Ok [3; 4]; Ok [1]; Ok [4]; Ok [2]; Err; Ok []]%Z
  /\ map (text_of f) [0; 1; 2; 3]%Z = [Some (txt "a.rs one" ++ [32; 2038]%Z); Some (txt "c.rs three"); Some (txt "z.rs"); None]
  /\ map (fun i => places_of f i (txt "three")) [0; 1; 2; 3]%Z = [[]; [1]; []; []].
Proof.
  cbv zeta. split.
  - unfold ex_frun. freached_tac.
  - split; [repeat constructor; discriminate|]. split; [repeat constructor|]. split; [vm_compute; reflexivity|]. split; vm_compute; reflexivity.
Qed.
(** Finding: with the identifier-aware tokenizer, rows are indexed with their sub-words but
    deleted without them, so a deleted document is still found by a sub-word... *)
Definition ex_code : list json := [obj [("code", str "fooBar")]; obj [("code", str "barBaz")]; obj [("code", str "getHttp")]]%string.
Theorem C34_deleted_row_still_found_refuted :
  exists md0 ops outs s f, freached ex_env ex_engine ex_fts 8 ex_docs3 (cfg 2 3 2 0) md0 IdentifierAware ops outs s f
    /\ outs = [Ok [0; 1; 2]; Ok [1]]%Z /\ count (snd s) = Ok 2 /\ text_of f 2 = None /\ matches f 2 (txt "http").
Proof.
  pose (ops := [(SDelete [2]%Z, IdentifierAware)]). pose (r := frun_ex (Some ex_code) IdentifierAware ops).
  exists (Some ex_code), ops, (fst r), (fst (snd r)), (snd (snd r)). split.
  - unfold r. freached_tac.
  - split; [vm_compute; reflexivity|]. split; [vm_compute; reflexivity|]. split; [vm_compute; reflexivity|].
    assert (Q : places_of (snd (snd r)) 2 (txt "http") = [2]) by (vm_compute; reflexivity). unfold matches. rewrite Q. discriminate.
Qed.
Print Assumptions C34_deleted_row_still_found_refuted.
(** ... and after the rebuild of another deletion the remaining documents are no longer found
    by theirs. *)
Theorem C34_rebuild_loses_subwords_refuted :
  exists md0 ops outs s f f0, freached ex_env ex_engine ex_fts 8 ex_docs3 (cfg 2 3 2 0) md0 IdentifierAware ops outs s f
    /\ outs = [Ok [0; 1; 2]; Ok [1]]%Z /\ text_of f 1 = Some (txt "getHttp") /\ ft_config f = Some IdentifierAware
    /\ ~ matches f 1 (txt "http")
    /\ f0 = snd (snd (frun_ex md0 IdentifierAware [])) /\ text_of f0 2 = Some (txt "getHttp") /\ matches f0 2 (txt "http").
Proof.
  pose (ops := [(SDelete [0]%Z, IdentifierAware)]). pose (r := frun_ex (Some ex_code) IdentifierAware ops).
  exists (Some ex_code), ops, (fst r), (fst (snd r)), (snd (snd r)), (snd (snd (frun_ex (Some ex_code) IdentifierAware []))). split.
  - unfold r. freached_tac.
  - split; [vm_compute; reflexivity|]. split; [vm_compute; reflexivity|]. split; [vm_compute; reflexivity|]. split.
    + assert (Q : places_of (snd (snd r)) 1 (txt "http") = []) by (vm_compute; reflexivity). unfold matches. rewrite Q. auto.
    + split; [reflexivity|]. split; [vm_compute; reflexivity|].
      assert (Q : places_of (snd (snd (frun_ex (Some ex_code) IdentifierAware []))) 2 (txt "http") = [2]) by (vm_compute; reflexivity).
      unfold matches. rewrite Q. discriminate.
Qed.
Print Assumptions C34_rebuild_loses_subwords_refuted.
(** Finding: the items added through update_with_metadata are in the database and not in the
    full-text index; adding with another tokenizer drops the rows of all earlier documents. *)
Theorem C34_unindexed_items_refuted :
  exists ops outs s f, freached ex_env ex_engine ex_fts 8 ex_docs3 (cfg 2 3 2 0) (Some ex_items) Unicode61 ops outs s f
    /\ outs = [Ok [0; 1; 2]; Ok [3]]%Z /\ row_at ex_engine (snd s) 3 <> None /\ text_of f 3 = None /\ text_of f 0 <> None.
Proof.
  pose (ops := [(SAdd [[tok 10]] (cfg 2 0 10 5) (Some [obj [("file", str "z.rs")]]), Unicode61)]%string). pose (r := frun_ex (Some ex_items) Unicode61 ops).
  exists ops, (fst r), (fst (snd r)), (snd (snd r)). split.
  - unfold r. freached_tac.
  - split; [vm_compute; reflexivity|]. split; [|split; [vm_compute; reflexivity|]]; intro Q; vm_compute in Q; discriminate Q.
Qed.
Print Assumptions C34_unindexed_items_refuted.
Theorem C34_tokenizer_change_drops_rows_refuted :
  exists ops outs s f, freached ex_env ex_engine ex_fts 8 ex_docs3 (cfg 2 3 2 0) (Some ex_items) Unicode61 ops outs s f
    /\ outs = [Ok [0; 1; 2]; Ok [3]]%Z /\ row_at ex_engine (snd s) 0 <> None /\ text_of f 0 = None /\ text_of f 3 <> None.
Proof.
  pose (ops := [(SAddPath [[tok 10]] (cfg 2 0 10 5) (Some [obj [("file", str "z.rs")]]), Trigram)]%string). pose (r := frun_ex (Some ex_items) Unicode61 ops).
  exists ops, (fst r), (fst (snd r)), (snd (snd r)). split.
  - unfold r. freached_tac.
  - split; [vm_compute; reflexivity|]. split; [|split; [vm_compute; reflexivity|]]; intro Q; vm_compute in Q; discriminate Q.
Qed.
Print Assumptions C34_tokenizer_change_drops_rows_refuted.
Example C34_text_example :
  let v := obj [("a", JArr [str "one"; obj [("b", str "two")]]); ("c", JBool true)]%string in
  occurs_in (str "two") v /\ metadata_to_text ex_fts v = txt "one two true".
Proof.
  cbv zeta. split; [|vm_compute; reflexivity].
  apply (oi_obj _ _ (txt "a") (JArr [str "one"; obj [("b"%string, str "two")]])); [left; reflexivity|].
  apply (oi_arr _ _ (obj [("b"%string, str "two")])); [right; left; reflexivity|]. apply (oi_obj _ _ (txt "b") (str "two")); [left; reflexivity|constructor].
Qed.
Example C34_changed_example :
  let f := snd (snd ex_frun) in
  match snd (fst (snd ex_frun)) with
  | Db d => wf_db d /\ ft_config f = Some Unicode61 /\ index_follows ex_fts f /\ Forall (has_row (Db d)) [2; 0]%Z
  | _ => False
  end.
Proof.
  cbv zeta. pose proof C34_example as (R & N & _). cbv zeta in R. pose proof (fts_history _ _ _ _ _ _ _ _ _ _ _ _ R) as (o & os & L0 & L & _ & _ & _ & _ & H5 & _).
  specialize (H5 (or_introl N)).
  assert (W : MetaProofs.wf (snd (fst (snd ex_frun)))).
  { eapply (freached_wf ex_env ex_engine ex_fts). exact R. }
  destruct (snd (fst (snd ex_frun))) as [| |d] eqn:Ed; [vm_compute in Ed; discriminate..|]. split; [exact W|]. split; [vm_compute; reflexivity|]. split; [exact H5|].
  rewrite <- Ed. repeat constructor; vm_compute; discriminate.
Qed.
