(** Proofs about Torn.v. *)
From Verif Require Import Base F32 CodecModel IndexModel IndexSpec SearchModel Torn.
From Verif Require Shared SharedSpec.
Open Scope nat_scope.

Lemma load_seen_still d : load_seen (fun _ => d) = load d.
Proof. unfold load_seen, load, load_metadata, load_codec. reflexivity. Qed.

(** *** No operation rewrites centroids.npy in place *)
Definition keeps (w : write) : Prop := w <> WCentroids None.
Definition gentle {A} (m : eff A) : Prop := forall d, Forall keeps (fst (m d)).
Lemma gentle_lift {A} (r : res A) : gentle (lift r). Proof. intros d. constructor. Qed.
Lemma gentle_ret {A} (a : A) : gentle (ret a). Proof. intros d. constructor. Qed.
Lemma gentle_ask {A} (f : disk -> res A) : gentle (ask f). Proof. intros d. constructor. Qed.
Lemma gentle_emit w : keeps w -> gentle (emit w). Proof. intros K d. constructor; [exact K|constructor]. Qed.
Lemma gentle_bind {A B} (m : eff A) (k : A -> eff B) : gentle m -> (forall a, gentle (k a)) -> gentle (bindE m k).
Proof.
  intros M K d. unfold bindE. specialize (M d). destruct (m d) as (ws, r). cbn in M. destruct r as [a| |]; [|exact M|exact M].
  specialize (K a (final d ws)). destruct (k a (final d ws)) as (ws', r'). cbn in *. apply Forall_app. auto.
Qed.
Lemma gentle_for {X S} (f : S -> X -> eff S) l : (forall s x, gentle (f s x)) -> forall s, gentle (forE f l s).
Proof. intros F. induction l as [|x l IH]; intros s; cbn; [apply gentle_ret|]. apply gentle_bind; auto. Qed.
Lemma gentle_when b m : gentle m -> gentle (whenE b m).
Proof. intros M. destruct b; [exact M|apply gentle_ret]. Qed.
Lemma keeps_centroids x : keeps (WCentroids (Some x)). Proof. discriminate. Qed.
Create HintDb gentle.
Ltac gentle := repeat (first
  [ solve [auto with gentle]
  | match goal with
    | |- gentle (lift _) => apply gentle_lift
    | |- gentle (ret _) => apply gentle_ret
    | |- gentle (ask _) => apply gentle_ask
    | |- gentle (emit _) => apply gentle_emit; discriminate
    | |- gentle (bindE _ _) => apply gentle_bind; [|intros]
    | |- gentle (forE _ _ _) => apply gentle_for; intros
    | |- gentle (whenE _ _) => apply gentle_when
    | |- gentle (let x := _ in _) => cbv zeta
    | |- gentle (match ?x with _ => _ end) => destruct x
    end ]).

Section OPS.
  Variable V : env.
  Lemma gentle_save_buffer docs : gentle (save_buffer docs). Proof. unfold save_buffer. gentle. Qed.
  Lemma gentle_clear_buffer : gentle clear_buffer. Proof. unfold clear_buffer. gentle. Qed.
  Lemma gentle_save_emb docs : gentle (save_embeddings_npy docs). Proof. unfold save_embeddings_npy. gentle. Qed.
  Lemma gentle_clear_emb : gentle clear_embeddings_npy. Proof. unfold clear_embeddings_npy. gentle. Qed.
  Hint Resolve gentle_save_buffer gentle_clear_buffer gentle_save_emb gentle_clear_emb : gentle.
  Lemma gentle_create_chunk docs c bs s i : gentle (create_chunk (v_fsub V) (v_dot V) (v_mem V) docs c bs s i).
  Proof. unfold create_chunk. gentle. Qed.
  Lemma gentle_fix_offset cur i : gentle (fix_offset cur i). Proof. unfold fix_offset. gentle. Qed.
  Hint Resolve gentle_create_chunk gentle_fix_offset : gentle.
  Lemma gentle_create_files docs cen g : gentle (create_index_files (v_fsub V) (v_dot V) (v_mem V) (v_quantile V) (v_threshold V) docs cen g).
  Proof. unfold create_index_files. gentle. Qed.
  Hint Resolve gentle_create_files : gentle.
  Lemma gentle_create_kmeans docs g : gentle (create_index_with_kmeans_files (v_fsub V) (v_dot V) (v_mem V) (v_kmeans V) (v_quantile V) (v_threshold V) docs g).
  Proof. unfold create_index_with_kmeans_files. gentle. Qed.
  Lemma gentle_update_centroids docs thr g : gentle (update_centroids (v_kmeans V) (v_outlier V) docs thr g).
  Proof. unfold update_centroids. gentle. Qed.
  Lemma gentle_update_chunk docs c md bs sc ap s i : gentle (update_chunk (v_fsub V) (v_dot V) (v_mem V) docs c md bs sc ap s i).
  Proof. unfold update_chunk. gentle. Qed.
  Lemma gentle_start md : gentle (start_position md). Proof. unfold start_position. gentle. Qed.
  Hint Resolve gentle_create_kmeans gentle_update_centroids gentle_update_chunk gentle_start : gentle.
  Lemma gentle_update_index docs c bs t : gentle (update_index (v_fsub V) (v_dot V) (v_mem V) (v_next V) docs c bs t).
  Proof. unfold update_index. gentle. Qed.
  Lemma gentle_delete_chunk ids s i : gentle (delete_chunk ids s i). Proof. unfold delete_chunk. gentle. Qed.
  Lemma gentle_clean ids n : gentle (clean_embeddings_files ids n). Proof. unfold clean_embeddings_files. gentle. Qed.
  Hint Resolve gentle_update_index gentle_delete_chunk gentle_clean : gentle.
  Lemma gentle_delete ids b : gentle (delete_from_index_impl ids b). Proof. unfold delete_from_index_impl. gentle. Qed.
  Hint Resolve gentle_delete : gentle.
  Lemma gentle_update h docs g : gentle (update (v_fsub V) (v_dot V) (v_mem V) (v_kmeans V) (v_quantile V) (v_threshold V) (v_next V) (v_outlier V) h docs g).
  Proof. unfold update. gentle. Qed.
  Lemma gentle_append docs g : gentle (update_append (v_fsub V) (v_dot V) (v_mem V) (v_next V) docs g).
  Proof. unfold update_append. gentle. Qed.
  Lemma gentle_create docs g : gentle (create_with_kmeans (v_fsub V) (v_dot V) (v_mem V) (v_kmeans V) (v_quantile V) (v_threshold V) docs g).
  Proof. unfold create_with_kmeans. gentle. Qed.
End OPS.
Lemma gentle_by_library {A} (m : eff A) enc d : gentle m -> Forall SharedSpec.by_library (map (as_change enc) (fst (m d))).
Proof.
  intros G. specialize (G d). induction G as [|w ws K G IH]; cbn; constructor; [|exact IH].
  destruct w as [o| [o|] |o|o|o|o|o|i o|i o|i o|i o|o|o|o|o|o]; try exact Logic.I; try (exfalso; apply K; reflexivity).
Qed.

(** *** A released handle *)
Lemma released_panics fadd norm km kv kd ar sel hp x q p s : 1 <= q_dim q -> search_one_mmap fadd norm km kv kd ar sel hp (release x) q p s = Panic.
Proof.
  intros Q. unfold search_one_mmap, release. cbn [x_codec c_centroids c_dim length].
  replace (p_centroid_batch_size p <? 0) with false by (symmetry; apply Nat.ltb_ge; lia). rewrite andb_false_r.
  replace (q_dim q =? 0) with false by (symmetry; apply Nat.eqb_neq; lia). reflexivity.
Qed.

Lemma mapM_ext {A B} (f g : A -> res B) l : (forall a, f a = g a) -> mapM f l = mapM g l.
Proof. intros E. induction l as [|a l IH]; cbn; [reflexivity|]. rewrite E, IH. reflexivity. Qed.
Lemma merge_chunks_ext {A} (f g : nat -> option (list A)) n p z : (forall i, f i = g i) -> merge_chunks f n p z = merge_chunks g n p z.
Proof. intros E. unfold merge_chunks. rewrite (map_ext _ (fun i => match g i with Some l => l | None => [] end)); [reflexivity|]. intros i. rewrite E. reflexivity. Qed.
Lemma bind_ext {A B} (r : res A) (f g : A -> res B) : (forall a, f a = g a) -> bind r f = bind r g.
Proof. intros E. destruct r; cbn; auto. Qed.
Lemma load_seen_same see d : (forall r, see r = d) -> load_seen see = load d.
Proof.
  intros E. rewrite <- load_seen_still. unfold load_seen. rewrite !E.
  rewrite (bind_ext (need (f_meta d)) _ (fun m => if num_documents m =? 0 then
        Ok {| num_chunks := num_chunks m; nbits := nbits m; num_partitions := num_partitions m; num_embeddings := num_embeddings m;
              num_documents := sum (map (fun i => match f_doclens d i with Some l => length l | None => 0 end) (seq 0 (num_chunks m)));
              embedding_dim := embedding_dim m |} else Ok m)).
  2:{ intros m. rewrite (map_ext _ (fun i => match f_doclens d i with Some l => length l | None => 0 end)); [reflexivity|]. intros i. rewrite E. reflexivity. }
  apply bind_ext. intros md. apply bind_ext. intros c. apply bind_ext. intros ivf. apply bind_ext. intros ivl.
  rewrite (mapM_ext _ (fun i => need (f_doclens d i))) by (intros i; rewrite E; reflexivity). apply bind_ext. intros dls. cbv zeta.
  rewrite (merge_chunks_ext _ (f_codes d)) by (intros i; rewrite E; reflexivity).
  apply bind_ext. intros codes.
  rewrite (merge_chunks_ext (fun i => f_residuals (see (RResiduals i)) i) (f_residuals d)) by (intros i; rewrite E; reflexivity). reflexivity.
Qed.
