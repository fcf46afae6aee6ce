(** C14, continued: the embeddings of many documents at once. *)
From Verif Require Import Base F32 CodecModel CodecSpec CodecProofs IndexModel IndexSpec IndexLemmas IndexCore IndexDelCore IndexOps IndexAccess IndexExamples.
Open Scope nat_scope.

Lemma rows_length fadd normalize c lk w : forall packed codes rs, decompress_rows fadd normalize c lk w packed codes = Ok rs -> length rs = length packed.
Proof.
  induction packed as [|p ps IH]; intros codes rs H; cbn [decompress_rows] in H; [injection H as <-; reflexivity|].
  destruct codes as [|code cs]; [discriminate H|]. destruct (decompress_row fadd normalize c lk w code p) as [r| |]; try discriminate H. cbn [bind] in H.
  destruct (decompress_rows fadd normalize c lk w ps cs) as [rs'| |] eqn:E; try discriminate H. injection H as <-. cbn [length]. rewrite (IH _ _ E). reflexivity.
Qed.
Lemma rows_app fadd normalize c lk w : forall packed codes rs packed' codes' rs', length packed = length codes ->
  decompress_rows fadd normalize c lk w packed codes = Ok rs -> decompress_rows fadd normalize c lk w packed' codes' = Ok rs' ->
  decompress_rows fadd normalize c lk w (packed ++ packed') (codes ++ codes') = Ok (rs ++ rs').
Proof.
  induction packed as [|p ps IH]; intros codes rs packed' codes' rs' L H H'; destruct codes as [|code cs]; try discriminate L; cbn [decompress_rows app] in *; [injection H as <-; exact H'|].
  destruct (decompress_row fadd normalize c lk w code p) as [r| |]; try discriminate H. cbn [bind] in *.
  destruct (decompress_rows fadd normalize c lk w ps cs) as [rs0| |] eqn:E; try discriminate H. injection H as <-. injection L as L. rewrite (IH _ _ _ _ _ L E H'). reflexivity.
Qed.

(** C14. Asked for any documents at once, in any order and more than once, the index gives the embeddings that it
    gives for each, one after the other, with their numbers of tokens; ids that it does not have count for nothing. *)
Theorem C14_many_at_once :
  forall V D docs0 g0 ops outs d h x ids,
    reached V D docs0 g0 ops outs d h -> load d = Ok x ->
    exists es, Forall2 (fun i e => if i <? length (documents docs0 ops) then embeddings V x i = Ok e else e = []) ids es
      /\ decompress_documents (v_fadd V) (v_norm V) x ids = Ok (concat es, map (@length _) es).
Proof.
  intros V D docs0 g0 ops outs d h x ids R Hx. destruct (reached_good _ _ _ _ _ _ _ _ R) as (_ & fr & pe & nb & cents & cut & wei & css & E & B & HI & _).
  cbn [fst] in HI. pose proof (in_core _ _ _ _ _ _ _ _ _ _ _ _ HI) as HC.
  pose proof (load_inv_loaded _ _ _ _ _ _ _ _ _ _ _ HC Hx) as HX.
  pose proof (core_len _ _ _ _ _ _ _ _ _ _ HC) as Hlen.
  pose proof (core_shows (v_fadd V) (v_fsub V) (v_norm V) (v_dot V) D _ _ _ _ _ _ _ _ HC HX) as (_ & _ & w & c & _ & _ & Hsh).
  set (N := length (documents docs0 ops)) in *.
  assert (HN : length (x_doc_lengths x) = N) by (destruct HX as (_ & _ & _ & _ & _ & -> & _); rewrite map_length; symmetry; exact Hlen).
  assert (One : forall i, exists sd e, (if i <? N then embeddings V x i = Ok e else e = []) /\ length e = length sd
    /\ decompress (v_fadd V) (v_norm V) (x_codec x) (map snd sd) (map fst sd) = Ok e
    /\ if i <? N then exists s, doc_range x i = Ok (s, s + length sd) /\ slice (x_codes x) s (s + length sd) = Ok (map fst sd) /\ slice (x_residuals x) s (s + length sd) = Ok (map snd sd)
       else sd = []).
  { intro i. pose proof HX as (_ & Hcod & _). destruct (Nat.ltb_spec i N) as [Hi|Hi].
    - destruct (nth_error (documents docs0 ops) i) as [r|] eqn:Er; [|apply nth_error_None in Er; fold N in Er; lia].
      destruct (Hsh _ _ Er) as (_ & e & _ & He & _). destruct (nth_error (concat css) i) as [sd|] eqn:Es; [|apply nth_error_None in Es; unfold N in Hi; lia].
      pose proof (loaded_emb (v_fadd V) (v_norm V) D _ _ _ _ _ _ _ _ _ HX Es) as Hd. rewrite He in Hd. exists sd, e.
      rewrite Hcod. repeat match goal with |- _ /\ _ => split end; [exact He| |symmetry; exact Hd|exact (loaded_range D _ _ _ _ _ _ _ _ _ HX Es)].
      symmetry in Hd. unfold decompress in Hd. destruct (c_weights _); [|discriminate Hd]. destruct (c_lookup _); [|discriminate Hd]. rewrite (rows_length _ _ _ _ _ _ _ _ Hd), map_length. reflexivity.
    - exists [], []. rewrite Hcod. repeat match goal with |- _ /\ _ => split end; try reflexivity. }
  assert (All : forall is, exists es sds, Forall2 (fun i e => if i <? N then embeddings V x i = Ok e else e = []) is es
    /\ mapM (fun id => if length (x_doc_lengths x) <=? id then Ok 0 else bind (doc_range x id) (fun se => Ok (snd se - fst se))) is = Ok (map (@length _) es)
    /\ mapM (fun id => bind (doc_range x id) (fun se => slice (x_codes x) (fst se) (snd se))) (filter (fun id => id <? length (x_doc_lengths x)) is) = Ok (map (map fst) sds)
    /\ mapM (fun id => bind (doc_range x id) (fun se => slice (x_residuals x) (fst se) (snd se))) (filter (fun id => id <? length (x_doc_lengths x)) is) = Ok (map (map snd) sds)
    /\ decompress (v_fadd V) (v_norm V) (x_codec x) (concat (map (map snd) sds)) (concat (map (map fst) sds)) = Ok (concat es)).
  { rewrite HN. induction is as [|i is (es & sds & F & L & C & Re & De)].
    - exists [], []. repeat match goal with |- _ /\ _ => split end; try reflexivity; [constructor|]. pose proof HX as (_ & Hcod & _). rewrite Hcod. reflexivity.
    - destruct (One i) as (sd & e & H1 & H2 & H3 & H4). cbn [filter mapM]. destruct (Nat.ltb_spec i N) as [Hi|Hi].
      + destruct H4 as (s & Hr & Hc & Hs). exists (e :: es), (sd :: sds). destruct (Nat.leb_spec N i); [lia|]. cbn [mapM]. rewrite Hr. cbn [bind fst snd]. rewrite L, Hc, Hs, C, Re. cbn [bind map concat].
        repeat match goal with |- _ /\ _ => split end; try reflexivity.
        * constructor; [|exact F]. destruct (Nat.ltb_spec i N); [exact H1|lia].
        * rewrite (Nat.add_comm s), Nat.add_sub, H2. reflexivity.
        * unfold decompress in *. destruct (c_weights _); [|discriminate H3]. destruct (c_lookup _); [|discriminate H3]. apply rows_app; [rewrite !map_length; reflexivity|exact H3|exact De].
      + subst e sd. exists ([] :: es), sds. destruct (Nat.leb_spec N i); [|lia]. cbn [bind]. rewrite L, C, Re. cbn [bind map concat app length].
        repeat match goal with |- _ /\ _ => split end; try reflexivity; [|exact De]. constructor; [|exact F]. destruct (Nat.ltb_spec i N); [lia|reflexivity]. }
  destruct (All ids) as (es & sds & F & L & C & Re & De). exists es. split; [exact F|]. unfold decompress_documents. rewrite L. cbn [bind].
  destruct (Nat.eqb_spec (sum (map (@length _) es)) 0) as [Z|Z].
  - rewrite sum_map_length in Z. destruct (concat es); [reflexivity|discriminate Z].
  - cbv zeta. rewrite C. cbn [bind]. rewrite Re. cbn [bind]. rewrite De. reflexivity.
Qed.
Print Assumptions C14_many_at_once.
Example C14_many_example :
  reached ex_env 8 ex_docs (cfg 2 3 2 0) ex_ops ex_outs ex_d ex_h /\ load ex_d = Ok ex_x
  /\ snd (got ([], []) (decompress_documents (v_fadd ex_env) (v_norm ex_env) ex_x [4; 99; 1; 4])) = [2; 0; 0; 2].
Proof. split; [exact ex_reached|]. split; [exact ex_loaded|]. vm_compute. reflexivity. Qed.
(** C51. A file of raw embeddings without the file of lengths is read as one document. *)
Theorem C51_without_lengths :
  forall d, (forall flat, f_buffer d = Some flat -> f_buffer_lengths d = None -> load_buffer d = [flat])
    /\ (forall flat, f_emb d = Some flat -> f_emb_lengths d = None -> load_embeddings_npy d = [flat])
    /\ (f_buffer d = None -> load_buffer d = []) /\ (f_emb d = None -> load_embeddings_npy d = []).
Proof.
  intro d. unfold load_buffer, load_embeddings_npy, load_docs. repeat match goal with |- _ /\ _ => split end.
  - intros flat -> ->. reflexivity.
  - intros flat -> ->. reflexivity.
  - intros ->. reflexivity.
  - intros ->. reflexivity.
Qed.
Print Assumptions C51_without_lengths.
