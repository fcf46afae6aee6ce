(** Properties of the merged files (next-plaid/src/mmap.rs). *)
From Verif Require Import Base IndexModel Text Calendar Npy NpySpec NpyProofs NpyHeader Merge MergeSpec MergeProofs.
Open Scope nat_scope.

(** C15. Whatever happened to the directory before (chunk files changed, merges and clears, also
    interrupted ones), a merge of the codes that runs to its end yields, and leaves in the
    directory, the NPY file of the rows of the current chunk files in order followed by the
    padding; and an error when there are no rows. *)
Theorem C15_codes :
  forall v0 es vs c ws r, codes_run v0 es = (vs, c) -> trusted vs es -> codes_merge (current vs v0) c = (ws, r) ->
    (all_rows (current vs v0) = [] -> r = Err) /\
    (all_rows (current vs v0) <> [] -> r = Ok (write_npy_1d 8 (txt "<i8") (array (fun _ => 0%Z) (current vs v0)))
       /\ c_merged (apply_cwrites c ws) = Some (write_npy_1d 8 (txt "<i8") (array (fun _ => 0%Z) (current vs v0)))).
Proof. exact codes_merged. Qed.
Print Assumptions C15_codes.
(** The same for the residuals, whose chunk files all have the same number of columns. *)
Theorem C15_residuals :
  forall v0 es vs c ws r, residuals_run v0 es = (vs, c) -> trusted vs es -> residuals_merge (current vs v0) c = (ws, r) ->
    regular (current vs v0) ->
    (all_rows (current vs v0) = [] \/ columns (current vs v0) = 0 -> r = Err) /\
    (all_rows (current vs v0) <> [] -> columns (current vs v0) <> 0 ->
      forall f, f = write_npy_2d 1 (txt "|u1") (Z.of_nat (length (residual_array (current vs v0)))) (Z.of_nat (columns (current vs v0)))
                      (concat (residual_array (current vs v0))) ->
       r = Ok f /\ c_merged (apply_cwrites c ws) = Some f).
Proof. exact residuals_merged. Qed.
Print Assumptions C15_residuals.
(** Read through the memory map, the merged file gives the rows of the chunk files. *)
Theorem C15_codes_read :
  forall U, good_unicode U -> forall utf8, good_utf8 utf8 ->
  forall v0 es vs c ws f, codes_run v0 es = (vs, c) -> trusted vs es -> codes_merge (current vs v0) c = (ws, Ok f) ->
    forall all, all = array (fun _ => 0%Z) (current vs v0) -> array1_ok 8 all -> numbers 8 all ->
    forall a n, a + n <= length all -> npy_slice_i64 U utf8 f a n = Ok (firstn n (skipn a all)).
Proof. exact codes_read. Qed.
Print Assumptions C15_codes_read.
Theorem C15_residuals_read :
  forall U, good_unicode U -> forall utf8, good_utf8 utf8 ->
  forall v0 es vs c ws f, residuals_run v0 es = (vs, c) -> trusted vs es -> residuals_merge (current vs v0) c = (ws, Ok f) ->
    regular (current vs v0) ->
    forall all, all = residual_array (current vs v0) -> (Z.of_nat (length all) * Z.of_nat (columns (current vs v0)) < 2 ^ 63 - 2 ^ 20)%Z ->
    (Z.of_nat (length all) < 2 ^ 63)%Z ->
    npy_view U utf8 1 f = Ok (Z.of_nat (length all), Z.of_nat (columns (current vs v0)), concat all).
Proof. exact residuals_read. Qed.
Print Assumptions C15_residuals_read.
(** This is the array that opening an index uses ([merge_chunks] of the index model). *)
Theorem C15_index_model :
  forall (A : Type) (files : nat -> option (list A)) (v : version A) (zero : A),
    (forall i, i < v_num v -> option_map k_rows (v_chunks v i) = files i) ->
    merge_chunks files (v_num v) (v_padding v) zero
    = match all_rows v with [] => Err | _ => Ok (array (fun _ => zero) v) end.
Proof. exact index_link. Qed.
Print Assumptions C15_index_model.

Definition dir (l : list (Z * list Z)) (padding : nat) (t : Z) : version Z :=
  {| v_chunks := fun i => option_map (fun c => {| k_mtime := fst c; k_cols := 0; k_rows := snd c |}) (nth_error l i);
     v_num := length l; v_padding := padding; v_meta := Some t |}.
(** The code never looks at the chunk files when metadata.json kept its time: here the chunk file
    was replaced, with another time, and metadata.json was rewritten half a millisecond later. *)
Theorem C15_metadata_time_refuted :
  exists (v w : version Z) (f : bytes),
    v_chunks v 0 = Some {| k_mtime := 10; k_cols := 0; k_rows := [5%Z] |} /\ v_chunks w 0 = Some {| k_mtime := 20; k_cols := 0; k_rows := [6%Z] |}
    /\ v_meta v = Some 5000000%Z /\ v_meta w = Some 5500000%Z
    /\ snd (codes_merge w (snd (codes_run v [Merge 4; Edit w]))) = Ok f
    /\ f = write_npy_1d 8 (txt "<i8") [5%Z] /\ array (fun _ => 0%Z) w = [6%Z].
Proof.
  exists (dir [(10, [5])]%Z 0 5000000%Z), (dir [(20, [6])]%Z 0 5500000%Z), (write_npy_1d 8 (txt "<i8") [5%Z]).
  split; [reflexivity|]. split; [reflexivity|]. split; [reflexivity|]. split; [reflexivity|].
  split; [vm_compute; reflexivity|]. split; reflexivity.
Qed.
Print Assumptions C15_metadata_time_refuted.
(** A merge interrupted between its two renames, then a change back to the earlier times (a
    chunk added, then emptied, and the clear not reached): every version whose times come back has its
    array back, but the next merge keeps the file of the version in between, because it only
    asks the file not to be too short. *)
Theorem C15_interrupted_merge_refuted :
  exists (v1 v2 v3 : version Z) (f : bytes),
    times_tell [v1; v2; v3]
    /\ fst (codes_run v1 [Merge 4; Edit v2; Merge 1; Edit v3]) = [v1; v2; v3]
    /\ snd (codes_merge v3 (snd (codes_run v1 [Merge 4; Edit v2; Merge 1; Edit v3]))) = Ok f
    /\ f = write_npy_1d 8 (txt "<i8") [5; 6]%Z /\ array (fun _ => 0%Z) v3 = [5%Z].
Proof.
  exists (dir [(10, [5])]%Z 0 5000000%Z), (dir [(10, [5]); (20, [6])]%Z 0 15000000%Z), (dir [(10, [5]); (30, [])]%Z 0 25000000%Z),
    (write_npy_1d 8 (txt "<i8") [5; 6]%Z).
  split; [|split; [reflexivity|split; [vm_compute; reflexivity|split; reflexivity]]].
  intros i k v w Hle Hi Hk Hp Hs.
  destruct i as [|[|[|i]]]; [| | |destruct i; discriminate Hi]; cbn in Hi; injection Hi as <-;
    (destruct k as [|[|[|k]]]; [| | |destruct k; discriminate Hk]); cbn in Hk; injection Hk as <-; try lia; try (repeat split; fail);
    exfalso; destruct Hs as [Hs|[Hn [_ Ht]]]; try discriminate Hn; try (cbn in Ht; lia); specialize (Hs 1); discriminate Hs.
Qed.
Print Assumptions C15_interrupted_merge_refuted.
(** Two merges around a change, the second interrupted, and one more: the theorem applies. *)
Example C15_example :
  let v := dir [(10, [3; 1]); (20, [2])]%Z 1 5000000%Z in let w := dir [(10, [3; 1]); (30, [2; 4])]%Z 2 15000000%Z in
  times_never_return [v; w] /\ fst (codes_run v [Merge 4; Edit w; Merge 1]) = [v; w]
  /\ snd (codes_merge w (snd (codes_run v [Merge 4; Edit w; Merge 1]))) = Ok (write_npy_1d 8 (txt "<i8") [3; 1; 2; 4; 0; 0]%Z)
  /\ array (fun _ => 0%Z) w = [3; 1; 2; 4; 0; 0]%Z
  /\ cleared [Merge 0; Edit w; Clear 2; Merge 1].
Proof.
  intros v w. split; [|split; [reflexivity|split; [vm_compute; reflexivity|split; [reflexivity|]]]].
  - intros i j k a b d Hij Hjk Hi Hj Hk Hp Hs.
    destruct k as [|[|k]]; [| |destruct k; discriminate Hk].
    + assert (j = 0) as -> by lia. cbn in Hj, Hk. injection Hj as <-. injection Hk as <-. repeat split.
    + destruct i as [|[|i]]; [|assert (j = 1) as -> by lia; cbn in Hj, Hk; injection Hj as <-; injection Hk as <-; repeat split
                              |destruct i; discriminate Hi].
      cbn in Hi, Hk. injection Hi as <-. injection Hk as <-. discriminate Hp.
  - constructor. constructor; [lia|]. constructor. constructor.
Qed.
Example C15_residuals_example :
  let v := {| v_chunks := fun i => match i with 0 => Some {| k_mtime := 10; k_cols := 2; k_rows := [[1; 2]; [3; 4]]%Z |} | _ => None end;
              v_num := 2; v_padding := 1; v_meta := Some 5%Z |} in
  regular v /\ columns v = 2 /\ all_rows v = [[1; 2]; [3; 4]]%Z
  /\ snd (residuals_merge v (snd (residuals_run v [Merge 1]))) = Ok (write_npy_2d 1 (txt "|u1") 3 2 [1; 2; 3; 4; 0; 0]%Z).
Proof.
  intro v. split; [|split; [reflexivity|split; [reflexivity|vm_compute; reflexivity]]].
  intros i k Hi Hk. destruct i as [|i]; [|discriminate Hk]. injection Hk as <-. split; [reflexivity|]. repeat constructor; lia.
Qed.
