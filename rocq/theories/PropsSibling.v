(** C117: the copy of an index for a sibling worktree, and the siblings found. *)
From Verif Require Import Base Text Sibling SiblingSpec SiblingProofs.
From Coq Require Import String.
Open Scope string_scope.
Open Scope nat_scope.
Open Scope list_scope.

(** Copied to a place where nothing is, a directory is the same directory: the same paths, and the same bytes at each. It works exactly if every link leads to a file. *)
Theorem C117_copy : forall src, proper src ->
  (forall out, copy_node src None = Some out -> forall p, there out p = there src p /\ content out p = content src p)
  /\ ((exists out, copy_node src None = Some out) <-> sound src).
Proof.
  intros src Hp. split; [|split].
  - intros out H p. destruct (copied src None out Hp H p) as (A & B). cbn in A, B. rewrite orb_false_r in B. split; [exact B|].
    rewrite A. destruct (there src p) eqn:E; [reflexivity|].
    clear A B H Hp. symmetry. revert src E. induction p as [|x q IH]; intros src E; [discriminate|].
    cbn in *. destruct src as [|es| |]; auto. destruct (lookup x es) as [m|]; auto.
  - intros (out & H). apply (works_only src None). congruence.
  - intro Hs. pose proof (works src Hp Hs). destruct (copy_node src None) as [out|]; [eauto|congruence].
Qed.
Print Assumptions C117_copy.

(** Copied over something, what the source has is as in the source, and whatever else was there stays. *)
Theorem C117_copy_over : forall src d out, proper src -> copy_node src (Some d) = Some out -> forall p,
  there out p = there src p || there d p
  /\ (there src p = true -> content out p = content src p)
  /\ (there src p = false -> content out p = content d p).
Proof.
  intros src d out Hp H p. destruct (copied src (Some d) out Hp H p) as (A & B). cbn in A, B.
  repeat match goal with |- _ /\ _ => split end; [exact B| |]; intro E; rewrite A, E; reflexivity.
Qed.
Print Assumptions C117_copy_over.

Definition store := Dir [(txt "metadata.json", File (txt "{}")); (txt "parts", Dir [(txt "0.npy", File (txt "00")); (txt "1.npy", LinkFile (txt "11"))])].
Example C117_copy_example : proper store /\ sound store
  /\ copy_node store None = Some (Dir [(txt "metadata.json", File (txt "{}")); (txt "parts", Dir [(txt "0.npy", File (txt "00")); (txt "1.npy", File (txt "11"))])])
  /\ (forall out, copy_node store (Some (Dir [(txt "parts", Dir [(txt "2.npy", File (txt "22"))])])) = Some out ->
       content out [txt "parts"; txt "2.npy"] = Some (txt "22") /\ content out [txt "parts"; txt "0.npy"] = Some (txt "00")).
Proof.
  repeat match goal with |- _ /\ _ => split end.
  - constructor; [repeat constructor; cbn; intuition discriminate|].
    intros x m [E|[E|[]]]; injection E as <- <-; constructor; [repeat constructor; cbn; intuition discriminate|].
    intros x m [E|[E|[]]]; injection E as <- <-; constructor.
  - constructor. intros x m [E|[E|[]]]; injection E as <- <-; constructor. intros x m [E|[E|[]]]; injection E as <- <-; constructor.
  - vm_compute. reflexivity.
  - intros out H. vm_compute in H. injection H as <-. vm_compute. auto.
Qed.

(** "Symlinks are copied as-is": they are not. A link to a file becomes a file; one to a directory fails the copy. *)
Theorem C117_links_refuted :
  ~ (forall c, copy_node (LinkFile c) None = Some (LinkFile c))
  /\ (forall x, copy_node (Dir [(x, LinkOther)]) None = None).
Proof. split; [intro H; specialize (H []); discriminate H|reflexivity]. Qed.
Print Assumptions C117_links_refuted.

(** The siblings are what git lists and the file system still knows, in the order git lists them, without the project itself; each has the index directory of its own root. *)
Theorem C117_siblings : forall ws canonical index_dir project self lines l,
  canonical project = Some self ->
  seed_candidates ws canonical index_dir project (Some lines) = Some l ->
  (forall r, In r (map fst l) <-> r <> self /\ exists line p, In line lines /\ names_path ws line p /\ canonical p = Some r)
  /\ (forall r d, In (r, d) l -> index_dir r = Some d)
  /\ (forall before after, lines = before ++ after -> exists l1 l2, l = l1 ++ l2
        /\ seed_candidates ws canonical index_dir project (Some before) = Some l1
        /\ seed_candidates ws canonical index_dir project (Some after) = Some l2).
Proof.
  intros ws canonical index_dir project self lines l Hc H. unfold seed_candidates in *. rewrite Hc in *. cbn [list_worktree_roots] in *.
  destruct (candidates_in _ _ _ _ H) as (A & B). repeat match goal with |- _ /\ _ => split end; [|exact B|].
  - intro r. rewrite A, filter_In, in_flat_map, negb_true_iff. split.
    + intros ((line & Hl & Hr) & E). apply line_root in Hr. destruct Hr as (p & Hp). split; [|exists line, p; tauto].
      intro; subst. rewrite text_eqb_refl in E. discriminate.
    + intros (Hn & line & p & Hl & Hp). split; [|now apply text_eqb_neq]. exists line. split; [exact Hl|]. apply line_root. eauto.
  - clear A B Hc. intros before after ->. rewrite flat_map_app in H. revert l H.
    generalize (flat_map (root_of_line ws canonical) after). intro R.
    induction (flat_map (root_of_line ws canonical) before) as [|r rs IH]; cbn; intros l H; [exists [], l; auto|].
    destruct (text_eqb r self); [auto|]. destruct (index_dir r) as [d|]; [|discriminate].
    destruct (candidates index_dir self (rs ++ R)) as [l'|]; [|discriminate]. injection H as <-.
    destruct (IH _ eq_refl) as (l1 & l2 & -> & -> & H2). exists ((r, d) :: l1), l2. auto.
Qed.
Print Assumptions C117_siblings.

(** No git, no siblings; and no error. *)
Example C117_no_git : forall ws canonical index_dir project, seed_candidates ws canonical index_dir project None = Some [].
Proof. reflexivity. Qed.

Definition blank (c : Z) : bool := (c =? 32)%Z.
Definition known (p : text) : option text := if text_eqb p (txt "/gone") then None else Some p.
Definition dir_of (p : text) : option text := Some (txt "/idx" ++ p).
Example C117_siblings_example :
  seed_candidates blank known dir_of (txt "/b") (Some (map txt ["worktree /a"; "HEAD 12"; "branch x"; ""; "worktree /b"; ""; "worktree /gone"; ""; "worktree /c"]%string))
  = Some [(txt "/a", txt "/idx/a"); (txt "/c", txt "/idx/c")].
Proof. vm_compute. reflexivity. Qed.

(** Not every worktree git lists is found: a root whose name ends in a blank is read without it. *)
Theorem C117_blank_refuted : ~ (forall ws canonical path r, ws 32%Z = true -> canonical path = Some r ->
  In r (list_worktree_roots ws canonical (Some [txt "worktree " ++ path]))).
Proof.
  intro H. specialize (H blank (fun p => if text_eqb p (txt "/a ") then Some p else None) (txt "/a ") (txt "/a ") eq_refl eq_refl).
  vm_compute in H. exact H.
Qed.
Print Assumptions C117_blank_refuted.
