(** The index behind the search handler: [MmapIndex::search] (SearchModel.v) and the keyword
    search (FtsRank.v) put together as the handler calls them (handlers/search.rs 210-229,
    310-337). *)
From Verif Require Import Base F32 CodecModel IndexModel IndexSpec SearchModel SearchSpec SearchProofs SearchOps.
From Verif Require Import Text FtsRank ApiEmbed ApiRead ApiReadSpec.
Open Scope nat_scope.

(** The rows of a matrix *)
Definition query_of (m : matrix) : query :=
  {| q_dim := Z.to_nat (snd (fst m));
     q_rows := map (fun i => firstn (Z.to_nat (snd (fst m))) (skipn (i * Z.to_nat (snd (fst m))) (snd m))) (seq 0 (Z.to_nat (fst (fst m)))) |}.
Definition with_top_k (p : params) (k : nat) : params :=
  {| p_n_full_scores := p_n_full_scores p; p_top_k := k; p_n_ivf_probe := p_n_ivf_probe p;
     p_centroid_batch_size := p_centroid_batch_size p; p_threshold := p_threshold p |}.
Section INDEX.
  Variable A : arith.
  Variable read : f32 -> num A.                    (* the number with these bits *)
  Variable V : env. Variable K : kernel. Variable x : index. Variable p : params. Variable D : nat.
  (** [hits t]: the rows SQLite's full-text index finds for the text query, if it accepts it *)
  Variable G : Type. Variable order : list (Z * G) -> list (Z * G). Variable conv : G -> num A.
  Variable hits : text -> res (list (Z * G)).
  Definition index_searcher : searcher A := {|
    i_dim := Z.of_nat D;
    i_search m k sub := bind (SearchSpec.search V K x (query_of m) (with_top_k p k) sub) (fun r => Ok (r_passage_ids r, map read (r_scores r)));
    i_keyword t k sub := bind (hits t) (fun l =>
      Ok (match sub with Some ids => search_filtered A G order conv l k ids | None => fts_search A G order conv l k end)) |}.
End INDEX.
