(** A small tool and project, and runs that leave the index out of date. *)
From Verif Require Import Base Text Colgrep ColgrepSpec.
Open Scope nat_scope.

(** Every character above space is a unit; 255 is invalid UTF-8. *)
Definition toy : tool := {|
  t_language := fun _ => true; t_utf8 := fun c => negb (existsb (Z.eqb 255) c);
  t_hash := fun c => fold_left (fun h x => (h * 257 + x)%Z) c 0%Z;
  t_units := fun _ c => map (fun x => (x, [x])) (filter (fun x => (32 <? x)%Z) c);
  t_path_leb := fun a b => (nth 0 a 0 <=? nth 0 b 0)%Z;
  t_max_size := 100; t_chunk := 2; t_flush := 2; t_checkpoint := 2 |}.
Definition proj (l : list (path * (text * Z))) : project :=
  {| p_files := map (fun e => (fst e, {| f_content := fst (snd e); f_mtime := snd (snd e) |})) l;
     p_visible := fun _ => true |}.
Definition turns : list row -> list bool := fun _ => [true; false; true; false; true; false].
Definition visit_of (l : list (path * (text * Z))) : visit :=
  {| v_project := proj l; v_sched := turns; v_force := false |}.
Definition run (pj : project) : act unit := index toy turns [] pj false.
(** The directory after the first [n] changes of a run. *)
Definition cut_at {A} (n : nat) (m : act A) (d : store) : store := apply_all d (firstn n (fst (m d))).
Lemma cut_killed {A} n (m : act A) d : killed m d (cut_at n m d).
Proof. exists (firstn n (fst (m d))), (skipn n (fst (m d))). split; [symmetry; apply firstn_skipn|reflexivity]. Qed.
Lemma cut_outside {A} n (m : act A) d :
  match skipn n (fst (m d)) with DbDel _ :: _ => False | _ => True end ->
  killed_outside_deletion m d (cut_at n m d).
Proof.
  intros H. exists (firstn n (fst (m d))), (skipn n (fst (m d))). split; [symmetry; apply firstn_skipn|]. split; [reflexivity|].
  intros ids r E. now rewrite E in H.
Qed.

Definition row_eqb (a b : row) : bool :=
  text_eqb (r_file a) (r_file b) && (r_line a =? r_line b)%Z && text_eqb (r_text a) (r_text b).
Lemma row_eqb_refl a : row_eqb a a = true.
Proof. unfold row_eqb. now rewrite !text_eqb_refl, Z.eqb_refl. Qed.
(** Out of date for a visible reason: no index, a wrong number of units or rows, a unit that should not
    be there, or a document shown with the row of another. *)
Definition stale (T : tool) (pj : project) (d : store) : bool :=
  match d_vec d, d_db d with
  | Some rows, Some db =>
      negb (length rows =? length (wanted T pj))
      || negb (length db =? length rows)
      || existsb (fun r => negb (existsb (row_eqb r) (wanted T pj))) rows
      || existsb (fun e => match nth_error rows (fst e) with Some r => negb (row_eqb (snd e) r) | None => false end) db
  | _, _ => true
  end.
Lemma stale_not T pj d : stale T pj d = true -> ~ up_to_date T pj d.
Proof.
  intros H (rows & db & Hv & Hd & HP & HL & HN). unfold stale in H. rewrite Hv, Hd in H.
  apply orb_true_iff in H. destruct H as [H|H];
    [apply orb_true_iff in H; destruct H as [H|H]; [apply orb_true_iff in H; destruct H as [H|H]|]|].
  - rewrite (Permutation_length HP), Nat.eqb_refl in H. discriminate.
  - rewrite HL, Nat.eqb_refl in H. discriminate.
  - apply existsb_exists in H. destruct H as (r & Hr & H). apply (Permutation_in _ HP) in Hr.
    rewrite negb_true_iff in H. rewrite <- not_true_iff_false in H. apply H. apply existsb_exists. exists r.
    split; auto. apply row_eqb_refl.
  - apply existsb_exists in H. destruct H as ((i, r') & Hi & H). cbn in H.
    destruct (nth_error rows i) as [r|] eqn:E; [|discriminate]. apply (HN i r E) in Hi. subst r'.
    rewrite row_eqb_refl in H. discriminate.
Qed.

(** Case analysis on concrete projects. *)
Ltac in_cases :=
  repeat match goal with
  | H : candidate _ _ _ _ |- _ => destruct H as (H & _)
  | H : indexable _ _ _ _ |- _ => let X := fresh "U" in destruct H as ((H & _) & X)
  | H : unreadable _ _ _ _ |- _ => let X := fresh "U" in destruct H as ((H & _) & X)
  end;
  repeat match goal with
  | H : In _ (p_files _) |- _ => cbn in H
  | H : _ \/ _ |- _ => destruct H as [H|H]
  | H : (_, _) = (_, _) |- _ => injection H; clear H; intros; subst
  | H : False |- _ => destruct H
  end;
  try discriminate; cbn in *; try discriminate; try congruence.
Lemma toy_good : good_tool toy.
Proof. cbv. lia. Qed.
Lemma listed_proj l : NoDup (map fst l) -> listed_once (proj l).
Proof. intros H. unfold listed_once, proj. cbn. now rewrite map_map. Qed.
Ltac listed := apply listed_proj; repeat constructor; cbn; intuition discriminate.

Definition A : path := txt "a".
Definition B : path := txt "b".
Definition D : path := txt "c".

Definition base := [(A, (txt "p", 1%Z)); (B, (txt "x", 1%Z))].
Definition indexed : store := visits toy empty_store [visit_of base].

(** An edited file that lost all its units. *)
Definition emptied := [(A, (txt "p", 1%Z)); (B, (txt "  ", 2%Z))].
(** A file that was not valid UTF-8 and now is. *)
Definition broken := [(A, (txt "p", 1%Z)); (B, ([255%Z], 1%Z))].
Definition mended := [(A, (txt "p", 1%Z)); (B, (txt "x", 2%Z))].
(** A file that gets its first code after having been indexed without any. *)
Definition blank := [(B, (txt " ", 1%Z))].
Definition coded := [(B, (txt "xy", 2%Z))].
(** An edit that keeps the time and the size. *)
Definition hidden := [(A, (txt "p", 1%Z)); (B, (txt "y", 1%Z))].
(** A new file. *)
Definition more := [(A, (txt "p", 1%Z)); (B, (txt "x", 1%Z)); (D, (txt "kl", 1%Z))].
(** A file deleted. *)
Definition fewer := [(B, (txt "x", 1%Z)); (D, (txt "kl", 1%Z))].
(** An edit. *)
Definition edited := [(A, (txt "p", 1%Z)); (B, (txt "yz", 2%Z))].
Definition reverted := [(A, (txt "p", 1%Z)); (B, (txt "x", 3%Z))].
(** Two files with two units each: one batch per file. *)
Definition pairs := [(A, (txt "pq", 1%Z)); (B, (txt "xy", 1%Z))].
Definition pairs' := [(A, (txt "rst", 2%Z)); (B, (txt "xy", 1%Z))].
