(** Proofs about the choice of an index. *)
From Verif Require Import Base Text Regex Glob GlobMore Which WhichSpec.
Open Scope nat_scope.

Lemma path_eqb_eq : forall p q, path_eqb p q = true <-> p = q.
Proof.
  unfold path_eqb. induction p as [|a p IH]; intros [|b q]; split; intros H; try reflexivity; try discriminate.
  - apply andb_true_iff in H. destruct H as (A & B). apply text_eqb_eq in A. apply IH in B. congruence.
  - injection H as -> ->. apply andb_true_iff. split; [apply text_eqb_refl|]. apply IH. reflexivity.
Qed.
Lemma strip_eq : forall a p r, strip a p = Some r <-> p = a ++ r.
Proof.
  induction a as [|x a IH]; intros p r; cbn [strip app].
  - split; congruence.
  - destruct p as [|y p]; [split; discriminate|]. destruct (text_eqb x y) eqn:E.
    + apply text_eqb_eq in E. subst y. rewrite IH. split; [intros ->; reflexivity|]. intros H. injection H as H. exact H.
    + apply text_eqb_neq in E. split; [discriminate|]. intros H. injection H as <- _. congruence.
Qed.
Lemma strip_none a p : strip a p = None <-> ~ below a p.
Proof.
  destruct (strip a p) as [r|] eqn:E.
  - apply strip_eq in E. split; [discriminate|]. intros H. exfalso. apply H. exists r. exact E.
  - split; [|reflexivity]. intros _ (r & R). apply strip_eq in R. congruence.
Qed.
Lemma app_same {A} : forall (a b c d : list A), length a = length b -> a ++ c = b ++ d -> a = b /\ c = d.
Proof.
  induction a as [|x a IH]; intros [|y b] c d L E; cbn [length app] in *; try discriminate; [auto|]. injection E as -> E. injection L as L.
  destruct (IH b c d L E) as (-> & ->). auto.
Qed.
Lemma app_self {A} (l r : list A) : l = l ++ r -> r = [].
Proof. intros H. rewrite <- (app_nil_r l) in H at 1. apply app_inv_head in H. auto. Qed.
Lemma inside_strip q p : inside q p <-> exists rel, strip q p = Some rel /\ p <> q.
Proof.
  split.
  - intros (n & rest & ->). exists (n :: rest). split; [apply strip_eq; reflexivity|]. intros H. symmetry in H. apply app_self in H. discriminate.
  - intros (rel & E & N). apply strip_eq in E. subst p. destruct rel as [|n rest]; [rewrite app_nil_r in N; congruence|]. exists n, rest. reflexivity.
Qed.

(** ** The data directory as a map *)
Definition keys (s : store) : list text := map fst s.
Lemma lookup_in s d e : lookup s d = Some e -> In (d, e) s.
Proof.
  unfold lookup. destruct (find _ s) as [(d', e')|] eqn:F; [|discriminate]. cbn [option_map snd]. intros H. injection H as ->.
  apply find_some in F. destruct F as (I & Q). cbn [fst] in Q. apply text_eqb_eq in Q. subst d'. exact I.
Qed.
Lemma in_lookup s d e : NoDup (keys s) -> In (d, e) s -> lookup s d = Some e.
Proof.
  induction s as [|(d', e') s IH]; intros N I; [destruct I|]. cbn [keys map fst] in N. apply NoDup_cons_iff in N. destruct N as (N1 & N2).
  unfold lookup. cbn [find fst]. destruct I as [I|I].
  - injection I as -> ->. rewrite text_eqb_refl. reflexivity.
  - assert (Q : text_eqb d' d = false). { apply text_eqb_neq. intros ->. apply N1. unfold keys. apply in_map_iff. exists (d, e). auto. }
    rewrite Q. apply IH; assumption.
Qed.
Lemma lookup_none s d : lookup s d = None <-> ~ In d (keys s).
Proof.
  unfold lookup. destruct (find _ s) as [(d', e')|] eqn:F; cbn [option_map].
  - split; [discriminate|]. intros H. exfalso. apply H. apply find_some in F. destruct F as (I & Q). cbn [fst] in Q. apply text_eqb_eq in Q. subst d'.
    apply in_map_iff. exists (d, e'). auto.
  - split; [|reflexivity]. intros _ H. apply in_map_iff in H. destruct H as ((d', e') & D & I). cbn [fst] in D. subst d'.
    assert (X := find_none _ _ F _ I). cbn [fst] in X. rewrite text_eqb_refl in X. discriminate.
Qed.
Lemma lookup_put_same s d e : lookup (put s d e) d = Some e.
Proof.
  induction s as [|x s IH]; unfold lookup; cbn [put find fst]; [rewrite text_eqb_refl; reflexivity|].
  destruct (text_eqb (fst x) d) eqn:Q; cbn [find fst]; [rewrite text_eqb_refl; reflexivity|]. rewrite Q. exact IH.
Qed.
Lemma lookup_put_other s d e d' : d' <> d -> lookup (put s d e) d' = lookup s d'.
Proof.
  intros N. induction s as [|x s IH]; unfold lookup in *; cbn [put find fst].
  - destruct (text_eqb d d') eqn:Q; [apply text_eqb_eq in Q; congruence|reflexivity].
  - destruct (text_eqb (fst x) d) eqn:Q; cbn [find fst].
    + apply text_eqb_eq in Q. rewrite Q. destruct (text_eqb d d') eqn:Q'; [apply text_eqb_eq in Q'; congruence|reflexivity].
    + destruct (text_eqb (fst x) d') eqn:Q'; [reflexivity|exact IH].
Qed.
Lemma in_put s d e x : In x (put s d e) -> x = (d, e) \/ In x s.
Proof.
  induction s as [|y s IH]; cbn [put]; [intros [<-|[]]; auto|]. destruct (text_eqb (fst y) d); intros [<-|I]; auto; [right; right; exact I|right; left; reflexivity|].
  destruct (IH I); auto. right. right. assumption.
Qed.
Lemma keys_put s d e x : In x (keys (put s d e)) -> x = d \/ In x (keys s).
Proof. intros H. apply in_map_iff in H. destruct H as (y & <- & I). apply in_put in I. destruct I as [->|I]; [left; reflexivity|]. right. apply in_map. exact I. Qed.
Lemma nodup_put s d e : NoDup (keys s) -> NoDup (keys (put s d e)).
Proof.
  induction s as [|y s IH]; cbn [put keys map fst]; intros N; [constructor; [intros []|constructor]|].
  apply NoDup_cons_iff in N. destruct N as (N1 & N2). destruct (text_eqb (fst y) d) eqn:Q; cbn [map fst].
  - apply text_eqb_eq in Q. rewrite Q in N1. constructor; assumption.
  - constructor; [|apply IH; exact N2]. intros H. apply keys_put in H. destruct H as [H|H]; [|exact (N1 H)]. apply text_eqb_neq in Q. congruence.
Qed.
Lemma nodup_remove s d : NoDup (keys s) -> NoDup (keys (remove s d)).
Proof.
  induction s as [|y s IH]; cbn [remove filter keys map]; intros N; [constructor|]. apply NoDup_cons_iff in N. destruct N as (N1 & N2).
  destruct (negb (text_eqb (fst y) d)); cbn [map]; [|apply IH; exact N2]. constructor; [|apply IH; exact N2].
  intros H. apply N1. apply in_map_iff in H. destruct H as (x & X & I). apply filter_In in I. apply in_map_iff. exists x. tauto.
Qed.
Lemma lookup_remove_same s d : lookup (remove s d) d = None.
Proof.
  apply lookup_none. intros H. apply in_map_iff in H. destruct H as (x & X & I). apply filter_In in I. destruct I as (_ & I). rewrite X, text_eqb_refl in I. discriminate.
Qed.
Lemma lookup_remove_other s d d' : d' <> d -> lookup (remove s d) d' = lookup s d'.
Proof.
  intros N. unfold lookup, remove. induction s as [|x s IH]; [reflexivity|]. cbn [filter]. destruct (text_eqb (fst x) d) eqn:Q; cbn [negb find].
  - apply text_eqb_eq in Q. rewrite Q. destruct (text_eqb d d') eqn:Q'; [apply text_eqb_eq in Q'; congruence|exact IH].
  - destruct (text_eqb (fst x) d'); [reflexivity|exact IH].
Qed.

Section Proofs.
Variable name : path -> text -> text.
Variable wanted : path -> path -> bool.
Variable included : list text -> path -> bool.

(** ** The deepest project above *)
Definition match_of (x : text * entry) (p : path) (m : text) (q : path) : Prop :=
  e_meta (snd x) = Some {| m_path := q; m_model := Some m |} /\ inside q p.
Lemma consider_spec p m best x :
  (consider p m best x = best /\ forall q, match_of x p m q -> depth q <= best_depth best) \/
  (exists q rel, match_of x p m q /\ p = q ++ rel /\ best_depth best < depth q /\ consider p m best x = Some {| p_dir := fst x; p_root := q; p_sub := rel |}).
Proof.
  unfold consider, match_of. destruct (e_meta (snd x)) as [[q [m'|]]|] eqn:M; cbn [m_model m_path];
    try (left; split; [reflexivity|]; intros q' (H & _); discriminate).
  destruct (text_eqb m' m) eqn:Em; [|left; split; [reflexivity|]; intros q' (H & _); injection H as _ ->; rewrite text_eqb_refl in Em; discriminate].
  apply text_eqb_eq in Em. subst m'. destruct (path_eqb p q) eqn:Ep.
  - apply path_eqb_eq in Ep. subst q. left. split; [reflexivity|]. intros q' (H & I). injection H as <-. apply inside_strip in I. destruct I as (? & _ & X). congruence.
  - assert (Np : p <> q). { intros ->. assert (X := proj2 (path_eqb_eq q q) eq_refl). congruence. }
    destruct (strip q p) as [rel|] eqn:S.
    + destruct (best_depth best <? depth q) eqn:D.
      * right. exists q, rel. apply Nat.ltb_lt in D. split; [split; [reflexivity|apply inside_strip; exists rel; auto]|]. split; [apply strip_eq; exact S|]. auto.
      * left. apply Nat.ltb_ge in D. split; [reflexivity|]. intros q' (H & _). injection H as <-. exact D.
    + left. split; [reflexivity|]. intros q' (H & I). injection H as <-. apply inside_strip in I. destruct I as (? & X & _). congruence.
Qed.
Definition good (s : store) (p : path) (m : text) (best : option parent) : Prop :=
  match best with
  | Some i => exists e, In (p_dir i, e) s /\ e_meta e = Some {| m_path := p_root i; m_model := Some m |} /\ inside (p_root i) p /\ p = p_root i ++ p_sub i
  | None => True
  end.
Lemma good_more s x p m best : good s p m best -> good (s ++ [x]) p m best.
Proof. destruct best as [i|]; [|auto]. intros (e & I & R). exists e. split; [apply in_or_app; left; exact I|exact R]. Qed.
Lemma find_parent_inv p m s : good s p m (find_parent_index s p m) /\
  forall x q, In x s -> match_of x p m q -> depth q <= best_depth (find_parent_index s p m).
Proof.
  unfold find_parent_index. induction s as [|x s IH] using rev_ind; [split; [exact Logic.I|intros x q []]|].
  rewrite fold_left_app. cbn [fold_left]. destruct IH as (G & D). destruct (consider_spec p m (fold_left (consider p m) s None) x) as [(E & B)|(q & rel & M & P & L & E)].
  - rewrite E. split; [apply good_more; exact G|]. intros y q I Y. apply in_app_or in I. destruct I as [I|[<-|[]]]; [exact (D y q I Y)|exact (B q Y)].
  - rewrite E. split.
    + cbn [good p_dir p_root p_sub]. destruct M as (M & I). exists (snd x). split; [apply in_or_app; right; left; destruct x; reflexivity|]. auto.
    + intros y q' I Y. cbn [best_depth p_root]. apply in_app_or in I. destruct I as [I|[<-|[]]]; [assert (X := D y q' I Y); lia|].
      destruct M as (M & _). destruct Y as (Y & _). assert (X : Some {| m_path := q'; m_model := Some m |} = Some {| m_path := q; m_model := Some m |}) by congruence.
      injection X as ->. lia.
Qed.
Lemma find_parent_some s p m i : find_parent_index s p m = Some i ->
  (exists e, In (p_dir i, e) s /\ e_meta e = Some {| m_path := p_root i; m_model := Some m |}) /\ inside (p_root i) p /\ p = p_root i ++ p_sub i /\
  forall q, recorded s q m -> inside q p -> length q <= length (p_root i).
Proof.
  intros E. destruct (find_parent_inv p m s) as (G & D). rewrite E in G, D. cbn [good] in G. destruct G as (e & I & M & N & P). split; [exists e; auto|]. split; [exact N|]. split; [exact P|].
  intros q (d & e' & I' & M') N'. assert (X := D (d, e') q I' (conj M' N')). cbn [best_depth] in X. unfold depth in X. lia.
Qed.
Lemma find_parent_none s p m : find_parent_index s p m = None -> forall q, recorded s q m -> ~ inside q p.
Proof.
  intros E q (d & e' & I' & M') N'. destruct (find_parent_inv p m s) as (_ & D). rewrite E in D. assert (X := D (d, e') q I' (conj M' N')).
  cbn [best_depth] in X. unfold depth in X. lia.
Qed.
Lemma outside_spec p cwd : is_external p cwd = true <-> outside p cwd.
Proof.
  unfold is_external, outside. destruct cwd as [c|]; [|split; [discriminate|intros (c & H & _); discriminate]].
  destruct (strip c p) as [r|] eqn:S.
  - split; [discriminate|]. intros (c' & H & N). injection H as <-. exfalso. apply N. exists r. apply strip_eq. exact S.
  - split; [|reflexivity]. intros _. exists c. split; [reflexivity|]. apply strip_none. exact S.
Qed.

(** ** What stays true through every history *)
Definition named (s : store) : Prop := forall d e mt, In (d, e) s -> e_meta e = Some mt -> exists m, m_model mt = Some m /\ d = name (m_path mt) m.
Definition from (seen : list content) (s : store) : Prop := forall d e c rel t, In (d, e) s -> e_index e = Some c -> In (rel, t) c ->
  exists root m disk, d = name root m /\ In disk seen /\ In (root ++ rel, t) disk.
Definition sound (seen : list content) (w : world) : Prop := NoDup (keys (w_store w)) /\ named (w_store w) /\ from seen (w_store w) /\ In (w_disk w) seen.

Lemma in_files disk root rel t : In (rel, t) (files_of wanted disk root) <-> In (root ++ rel, t) disk /\ wanted root rel = true.
Proof.
  unfold files_of. rewrite in_flat_map. split.
  - intros ((f, t') & I & H). cbn [fst snd] in H. destruct (strip root f) as [r|] eqn:S; [|destruct H]. destruct (wanted root r) eqn:W; [|destruct H].
    destruct H as [H|[]]. injection H as -> ->. apply strip_eq in S. subst f. auto.
  - intros (I & W). exists (root ++ rel, t). split; [exact I|]. cbn [fst snd]. rewrite (proj2 (strip_eq root (root ++ rel) rel) eq_refl), W. left. reflexivity.
Qed.
Lemma put_sound seen w d e e0 : sound seen w -> (forall mt, e_meta e = Some mt -> (exists m, m_model mt = Some m /\ d = name (m_path mt) m) \/ (lookup (w_store w) d = Some e0 /\ e_meta e0 = Some mt)) ->
  (forall c rel t, e_index e = Some c -> In (rel, t) c -> (exists root m disk, d = name root m /\ In disk seen /\ In (root ++ rel, t) disk) \/
     (exists c0, lookup (w_store w) d = Some e0 /\ e_index e0 = Some c0 /\ In (rel, t) c0)) ->
  sound seen {| w_disk := w_disk w; w_store := put (w_store w) d e |}.
Proof.
  intros (N & M & F & K) Hm Hc. split; [apply nodup_put; exact N|]. split; [|split; [|exact K]].
  - intros d' e' mt I E. apply in_put in I. destruct I as [I|I]; [|exact (M _ _ _ I E)]. injection I as -> ->. destruct (Hm mt E) as [X|(L & X)]; [exact X|].
    exact (M _ _ _ (lookup_in _ _ _ L) X).
  - intros d' e' c rel t I E T. apply in_put in I. destruct I as [I|I]; [|exact (F _ _ _ _ _ I E T)]. injection I as -> ->. destruct (Hc c rel t E T) as [X|(c0 & L & X & Y)]; [exact X|].
    exact (F _ _ _ _ _ (lookup_in _ _ _ L) X Y).
Qed.
Lemma run_sound seen w root m o : sound seen w -> sound seen (run_index name wanted w root m o).
Proof.
  clear included. intros S. unfold run_index. set (d := name root m).
  assert (Now : forall rel t, In (rel, t) (files_of wanted (w_disk w) root) -> exists r m' disk, d = name r m' /\ In disk seen /\ In (r ++ rel, t) disk).
  { intros rel t I. apply in_files in I. exists root, m, (w_disk w). destruct S as (_ & _ & _ & K). tauto. }
  set (e := match lookup (w_store w) d with Some e => e | None => no_entry end).
  assert (Old : forall mt, e_meta e = Some mt -> lookup (w_store w) d = Some e /\ e_meta e = Some mt).
  { intros mt E. unfold e in *. destruct (lookup (w_store w) d) as [e0|]; [auto|discriminate]. }
  assert (OldC : forall c rel t, e_index e = Some c -> In (rel, t) c -> exists c0, lookup (w_store w) d = Some e /\ e_index e = Some c0 /\ In (rel, t) c0).
  { intros c rel t E T. unfold e in *. destruct (lookup (w_store w) d) as [e0|]; [|discriminate]. exists c. auto. }
  assert (St : forall mt, Some {| m_path := root; m_model := Some m |} = Some mt -> exists m0, m_model mt = Some m0 /\ d = name (m_path mt) m0).
  { intros mt E. injection E as <-. exists m. auto. }
  apply put_sound with e; [exact S| |].
  - intros mt E. destruct o as [rb| |ko kn any st bd]; cbn [e_meta] in E.
    + destruct (e_index e) as [c|]; [destruct (rb || e_building e)|]; auto.
    + auto.
    + destruct st; auto.
  - intros c rel t E T. destruct o as [rb| |ko kn any st bd]; cbn [e_index] in E.
    + left. apply Now. destruct (e_index e) as [c0|]; [|destruct (files_of wanted (w_disk w) root) eqn:F; [discriminate|]]; injection E as <-; exact T.
    + right. exact (OldC c rel t E T).
    + destruct any; [|discriminate]. injection E as <-. apply in_app_or in T. destruct T as [T|T]; apply filter_In in T; destruct T as (T & _); [|left; apply Now; exact T].
      right. destruct (e_index e) as [c0|] eqn:E0; [|destruct T]. destruct (OldC c0 rel t eq_refl T) as (c1 & X). exists c1. exact X.
Qed.
Lemma remove_sound seen w d : sound seen w -> sound seen {| w_disk := w_disk w; w_store := remove (w_store w) d |}.
Proof.
  intros (N & M & F & K). split; [apply nodup_remove; exact N|]. split; [|split; [|exact K]].
  - intros d' e mt I. apply filter_In in I. apply M. tauto.
  - intros d' e c rel t I. apply filter_In in I. apply F. tauto.
Qed.
Lemma search_world w q o : fst (search name wanted included w q o) =
  if q_no_update q then w else run_index name wanted w (root_of (q_path q) (choose name (w_store w) (q_path q) (q_model q) (q_cwd q))) (q_model q) o.
Proof.
  unfold search. destruct (q_no_update q); [|destruct o].
  all: repeat match goal with |- context [match option_map e_index ?x with _ => _ end] => destruct (option_map e_index x) as [[?|]|] end; reflexivity.
Qed.
Lemma sound_more seen more w : sound seen w -> (forall d, In d seen -> In d more) -> sound more w.
Proof.
  intros (N & M & F & K) H. split; [exact N|]. split; [exact M|]. split; [|apply H; exact K].
  intros d e c rel t I E T. destruct (F d e c rel t I E T) as (r & m & disk & A & B & C). exists r, m, disk. auto.
Qed.
Lemma step_sound seen w ev : sound seen w -> (forall d, ev = Edit d -> In d seen) -> sound seen (step name wanted included w ev).
Proof.
  intros S H. destruct ev as [disk|q o|p m o|p m| |d mk ik bk]; cbn [step].
  - destruct S as (N & M & F & K). split; [exact N|]. split; [exact M|]. split; [exact F|]. cbn [w_disk]. apply H. reflexivity.
  - rewrite search_world. destruct (q_no_update q); [exact S|]. apply run_sound. exact S.
  - apply run_sound. exact S.
  - unfold clear. destruct (lookup (w_store w) (name p m)); [apply remove_sound; exact S|]. destruct (find_parent_index (w_store w) p m); [apply remove_sound; exact S|exact S].
  - destruct S as (N & M & F & K). split; [constructor|]. split; [intros ? ? ? []|]. split; [intros ? ? ? ? ? []|exact K].
  - destruct (lookup (w_store w) d) as [e|] eqn:L; [|exact S]. apply put_sound with e; [exact S| |].
    + intros mt E. cbn [e_meta] in E. destruct mk; [auto|discriminate].
    + intros c rel t E T. cbn [e_index] in E. destruct ik; [|discriminate]. right. exists c. auto.
Qed.
Lemma disks_head disk evs : In disk (disks disk evs).
Proof. destruct evs; left; reflexivity. Qed.
Lemma history_sound : forall disk evs, sound (disks disk evs) (history name wanted included disk evs).
Proof.
  intros disk evs. unfold history.
  assert (G : forall evs w seen, sound seen w -> (forall d, In d (disks (w_disk w) evs) -> In d seen) -> sound seen (fold_left (step name wanted included) evs w)).
  { clear. induction evs as [|ev evs IH]; intros w seen S H; [exact S|]. cbn [fold_left].
    assert (D : w_disk (step name wanted included w ev) = match ev with Edit d => d | _ => w_disk w end).
    { destruct ev as [d|q o|p m o|p m| |d mk ik bk]; cbn [step]; try reflexivity.
      - rewrite search_world. destruct (q_no_update q); reflexivity.
      - unfold clear. destruct (lookup (w_store w) (name p m)); [reflexivity|]. destruct (find_parent_index (w_store w) p m); reflexivity.
      - destruct (lookup (w_store w) d); reflexivity. }
    apply IH.
    - apply step_sound; [exact S|]. intros d ->. apply H. cbn [disks]. right. apply disks_head.
    - intros d I. apply H. cbn [disks]. right. rewrite D in I. destruct ev; exact I. }
  apply G; [|auto]. split; [constructor|]. split; [intros ? ? ? []|]. split; [intros ? ? ? ? ? []|]. apply disks_head.
Qed.

(** ** The choice *)
Lemma exists_spec seen w p m : distinct_names name -> sound seen w -> index_exists name (w_store w) p m = true <-> has_index name (w_store w) p m.
Proof.
  intros Inj (N & M & F & K). unfold index_exists, has_index. split.
  - destruct (lookup (w_store w) (name p m)) as [e|] eqn:L; [|discriminate]. destruct (e_index e) as [c|] eqn:E; [|discriminate]. intros _. exists e, c. split; [apply lookup_in; exact L|exact E].
  - intros (e & c & I & E). rewrite (in_lookup _ _ _ N I), E. destruct (e_meta e) as [mt|] eqn:X; [|reflexivity]. destruct (M _ _ _ I X) as (m' & Y & Z). apply Inj in Z. destruct Z as (<- & <-).
    rewrite Y, (proj2 (path_eqb_eq p p) eq_refl). apply text_eqb_refl.
Qed.
Lemma choose_spec seen w p m cwd : distinct_names name -> sound seen w ->
  project_of name (w_store w) p m cwd (root_of p (choose name (w_store w) p m cwd)).
Proof.
  intros Inj S. unfold choose, project_of. assert (X := exists_spec seen w p m Inj S). destruct (index_exists name (w_store w) p m).
  - left. split; [apply X; reflexivity|reflexivity].
  - right. assert (NX : ~ has_index name (w_store w) p m) by (intros H; apply X in H; discriminate). assert (O := outside_spec p cwd). destruct (is_external p cwd).
    + left. split; [exact NX|]. split; [apply O; reflexivity|reflexivity].
    + right. assert (NO : ~ outside p cwd) by (intros H; apply O in H; discriminate). destruct (find_parent_index (w_store w) p m) as [i|] eqn:E; cbn [root_of].
      * left. destruct (find_parent_some _ _ _ _ E) as ((e & I & Me) & Ins & P & D). split; [exact NX|]. split; [exact NO|]. split; [exists (p_dir i), e; auto|]. split; [exact Ins|exact D].
      * right. split; [exact NX|]. split; [exact NO|]. split; [reflexivity|]. exact (find_parent_none _ _ _ E).
Qed.
Lemma chosen_dir seen w p m cwd i : sound seen w -> choose name (w_store w) p m cwd = Some i ->
  p_dir i = name (p_root i) m /\ p = p_root i ++ p_sub i /\ p_root i <> p /\ inside (p_root i) p.
Proof.
  intros (N & M & _) E. unfold choose in E. destruct (index_exists name (w_store w) p m); [discriminate|]. destruct (is_external p cwd); [discriminate|].
  destruct (find_parent_some _ _ _ _ E) as ((e & I & Me) & Ins & P & _). destruct (M _ _ _ I Me) as (m' & X & Y). cbn [m_model m_path] in X, Y. injection X as <-.
  split; [exact Y|]. split; [exact P|]. split; [|exact Ins]. intros H. apply inside_strip in Ins. destruct Ins as (? & _ & Z). congruence.
Qed.
Lemma root_below seen w p m cwd : sound seen w -> below (root_of p (choose name (w_store w) p m cwd)) p.
Proof.
  intros S. destruct (choose name (w_store w) p m cwd) as [i|] eqn:E; cbn [root_of].
  - destruct (chosen_dir _ _ _ _ _ _ S E) as (_ & P & _). exists (p_sub i). exact P.
  - exists []. rewrite app_nil_r. reflexivity.
Qed.

(** ** Patterns that name something absent *)
Lemma zmem_in c l : zmem c l = true <-> In c l.
Proof.
  unfold zmem. rewrite existsb_exists. split.
  - intros (x & I & E). apply Z.eqb_eq in E. subst x. exact I.
  - intros I. exists c. split; [exact I|apply Z.eqb_refl].
Qed.
Lemma before_slash_split s : exists rest, s = before_slash s ++ rest /\ (rest = [] \/ exists r, rest = ch "/" :: r) /\ ~ In (ch "/") (before_slash s).
Proof.
  induction s as [|c s (rest & E & R & N)]; [exists []; cbn; auto|]. cbn [before_slash]. destruct (c =? ch "/")%Z eqn:Q.
  - apply Z.eqb_eq in Q. subst c. exists (ch "/" :: s). split; [reflexivity|]. split; [right; exists s; reflexivity|]. intros [].
  - exists rest. split; [cbn [app]; congruence|]. split; [exact R|]. intros [H|H]; [apply Z.eqb_neq in Q; congruence|exact (N H)].
Qed.
Lemma before_slash_app n rest : ~ In (ch "/") n -> (rest = [] \/ exists r, rest = ch "/" :: r) -> before_slash (n ++ rest) = n.
Proof.
  intros N R. induction n as [|c n IH]; cbn [app].
  - destruct R as [->|(r & ->)]; [reflexivity|]. cbn [before_slash]. rewrite Z.eqb_refl. reflexivity.
  - cbn [before_slash]. destruct (c =? ch "/")%Z eqn:Q; [apply Z.eqb_eq in Q; exfalso; apply N; left; exact Q|]. f_equal. apply IH. intros H. apply N. right. exact H.
Qed.
Lemma starts_split p s : starts_with p s = true -> s = p ++ skipn (length p) s.
Proof.
  revert s. induction p as [|x p IH]; intros s; [intros _; reflexivity|]. destruct s as [|y s]; [discriminate|]. cbn [starts_with length skipn app]. intros H. apply andb_true_iff in H.
  destruct H as (A & B). apply Z.eqb_eq in A. subst y. f_equal. apply IH. exact B.
Qed.
Lemma starts_app p s : starts_with p (p ++ s) = true.
Proof. induction p as [|x p IH]; [destruct s; reflexivity|]. cbn [app starts_with]. rewrite Z.eqb_refl. exact IH. Qed.
Lemma skipn_len_app {A} (p s : list A) : skipn (length p) (p ++ s) = s.
Proof. induction p; [reflexivity|assumption]. Qed.
Lemma on_disk_false disk dir n : on_disk disk dir n = false <-> n <> [] /\ n <> txt "." /\ n <> txt ".." /\ forall f t, In (f, t) disk -> ~ below (dir ++ [n]) f.
Proof.
  clear name wanted included. unfold on_disk. rewrite !orb_false_iff. rewrite !text_eqb_neq.
  assert (X : existsb (fun f : path * text => match strip (dir ++ [n]) (fst f) with Some _ => true | None => false end) disk = false <-> forall f t, In (f, t) disk -> ~ below (dir ++ [n]) f).
  { split.
    - intros H f t I. apply strip_none. destruct (strip (dir ++ [n]) f) eqn:S; [|reflexivity]. exfalso. apply not_true_iff_false in H. apply H. apply existsb_exists. exists (f, t). split; [exact I|]. cbn [fst]. rewrite S. reflexivity.
    - intros H. apply not_true_iff_false. intros T. apply existsb_exists in T. destruct T as ((f, t) & I & S). cbn [fst] in S. rewrite (proj2 (strip_none _ _) (H f t I)) in S. discriminate. }
  rewrite X. tauto.
Qed.
Lemma widen_spec disk pats p : should_search_from_root disk pats p = true <-> names_absent disk pats p.
Proof.
  clear name wanted included. unfold should_search_from_root, names_absent. rewrite existsb_exists. split.
  - intros (pat & I & H). destruct (starts_with (txt "**/") pat) eqn:S; [|discriminate]. apply starts_split in S. cbn [length txt] in S. change (length (txt "**/")) with 3 in S.
    destruct (before_slash_split (skipn 3 pat)) as (rest & E & R & N). destruct (zmem (ch "*") (before_slash (skipn 3 pat))) eqn:Z; [discriminate|].
    apply negb_true_iff in H. apply on_disk_false in H. destruct H as (A & B & C & D). exists pat, (before_slash (skipn 3 pat)), rest. split; [exact I|].
    split; [rewrite <- E; exact S|]. split; [exact R|]. split; [exact N|]. split; [intros X; apply zmem_in in X; congruence|]. auto.
  - intros (pat & n & rest & I & -> & R & N & Z & A & B & C & D). exists (txt "**/" ++ n ++ rest). split; [exact I|]. rewrite starts_app.
    change 3 with (length (txt "**/")). rewrite skipn_len_app, before_slash_app by assumption. destruct (zmem (ch "*") n) eqn:Q; [apply zmem_in in Q; contradiction|].
    apply negb_true_iff. apply on_disk_false. auto.
Qed.

(** ** What a search shows *)
Definition shown_from (disk : content) (q : request) (root : path) (sub : option path) (files : content) : content :=
  map (fun f => (root ++ fst f, snd f))
    (let by_dir := match sub with
                   | Some sub => filter (fun f => like (shown_path sub ++ txt "%") (shown_path (fst f))) files
                   | None => files end in
     let by_include := match q_include q with [] => by_dir | pats => filter (fun f => included pats (fst f)) by_dir end in
     match q_file q with
     | Some n => filter (fun f => match strip root (q_path q ++ [n]) with Some rel => path_eqb (fst f) rel | None => false end) by_include
     | None => by_include end).
Definition sub_of (disk : content) (q : request) (c : option parent) : option path :=
  match c with
  | Some i => if should_search_from_root disk (q_include q) (p_root i ++ p_sub i) then None else Some (p_sub i)
  | None => None end.
Lemma shown_path_app : forall a b, exists r, shown_path (a ++ b) = shown_path a ++ r.
Proof.
  induction a as [|x a IH]; intros b; [exists (shown_path b); reflexivity|]. destruct (IH b) as (r & E). destruct a as [|y a].
  - cbn [app shown_path]. destruct b as [|z b]; [exists []; rewrite app_nil_r; reflexivity|]. exists (ch "/" :: shown_path (z :: b)). reflexivity.
  - exists r. change (shown_path ((x :: y :: a) ++ b)) with (x ++ ch "/" :: shown_path ((y :: a) ++ b)).
    change (shown_path (x :: y :: a)) with (x ++ ch "/" :: shown_path (y :: a)). rewrite E, <- app_assoc. reflexivity.
Qed.
Lemma in_shown disk q root sub files f t : In (f, t) (shown_from disk q root sub files) <->
  exists rel, f = root ++ rel /\ In (rel, t) files /\
    (forall s, sub = Some s -> like (shown_path s ++ txt "%") (shown_path rel) = true) /\
    (q_include q = [] \/ included (q_include q) rel = true) /\
    (forall n, q_file q = Some n -> q_path q ++ [n] = root ++ rel).
Proof.
  clear name wanted. unfold shown_from. cbv zeta. rewrite in_map_iff.
  assert (A : forall rel, In (rel, t) (match sub with Some s => filter (fun f => like (shown_path s ++ txt "%") (shown_path (fst f))) files | None => files end) <->
     In (rel, t) files /\ (forall s, sub = Some s -> like (shown_path s ++ txt "%") (shown_path rel) = true)).
  { intros rel. destruct sub as [s|]; [|split; [intros H; split; [exact H|discriminate]|tauto]]. rewrite filter_In. cbn [fst].
    split; intros (X & Y); (split; [exact X|]); [intros s' E; injection E as <-; exact Y|apply Y; reflexivity]. }
  set (by_dir := match sub with Some s => filter (fun f => like (shown_path s ++ txt "%") (shown_path (fst f))) files | None => files end) in *.
  assert (B : forall rel, In (rel, t) (match q_include q with [] => by_dir | pats => filter (fun f => included pats (fst f)) by_dir end) <->
     In (rel, t) by_dir /\ (q_include q = [] \/ included (q_include q) rel = true)).
  { intros rel. destruct (q_include q) as [|x l] eqn:Q; [split; [auto|tauto]|]. rewrite filter_In. cbn [fst]. split; intros (X & Y); (split; [exact X|]); [right; exact Y|].
    destruct Y as [Y|Y]; [discriminate|exact Y]. }
  set (by_inc := match q_include q with [] => by_dir | pats => filter (fun f => included pats (fst f)) by_dir end) in *.
  assert (C : forall rel, In (rel, t) (match q_file q with Some n => filter (fun f => match strip root (q_path q ++ [n]) with Some r => path_eqb (fst f) r | None => false end) by_inc | None => by_inc end) <->
     In (rel, t) by_inc /\ (forall n, q_file q = Some n -> q_path q ++ [n] = root ++ rel)).
  { intros rel. destruct (q_file q) as [n|]; [|split; [intros H; split; [exact H|discriminate]|tauto]]. rewrite filter_In. cbn [fst].
    split; intros (X & Y); (split; [exact X|]).
    - intros n' E. injection E as <-. destruct (strip root (q_path q ++ [n])) as [r|] eqn:S; [|discriminate]. apply path_eqb_eq in Y. subst r. apply strip_eq in S. exact S.
    - specialize (Y n eq_refl). apply strip_eq in Y. rewrite Y. apply path_eqb_eq. reflexivity. }
  split.
  - intros ((rel, t') & E & I). cbn [fst snd] in E. injection E as <- ->. exists rel. split; [reflexivity|]. apply C in I. destruct I as (I & Z). apply B in I. destruct I as (I & Y). apply A in I. destruct I as (I & X). auto.
  - intros (rel & -> & I & X & Y & Z). exists (rel, t). split; [reflexivity|]. apply C. split; [|exact Z]. apply B. split; [|exact Y]. apply A. auto.
Qed.

Lemma search_answer seen w q o l : sound seen w -> snd (search name wanted included w q o) = Shown l ->
  let c := choose name (w_store w) (q_path q) (q_model q) (q_cwd q) in
  let root := root_of (q_path q) c in
  exists e files, lookup (w_store (fst (search name wanted included w q o))) (name root (q_model q)) = Some e /\ e_index e = Some files /\
    l = shown_from (w_disk w) q root (sub_of (w_disk w) q c) files.
Proof.
  intros S H. cbv zeta. rewrite search_world. unfold search in H. cbv zeta in H. set (c := choose name (w_store w) (q_path q) (q_model q) (q_cwd q)) in *.
  assert (D : (match c with Some i => p_dir i | None => name (root_of (q_path q) c) (q_model q) end) = name (root_of (q_path q) c) (q_model q)).
  { destruct c as [i|] eqn:E; [|reflexivity]. destruct (chosen_dir _ _ _ _ _ _ S E) as (X & _). exact X. }
  rewrite D in H. assert (R : sub_of (w_disk w) q c = match c with
                | Some i => if should_search_from_root (w_disk w) (q_include q) (root_of (q_path q) c ++ p_sub i) then None else Some (p_sub i)
                | None => None end) by (unfold sub_of; destruct c; reflexivity). rewrite R. clear R D.
  set (w1 := if q_no_update q then w else run_index name wanted w (root_of (q_path q) c) (q_model q) o) in *.
  destruct (lookup (w_store w1) (name (root_of (q_path q) c) (q_model q))) as [e|] eqn:L; cbn [option_map] in H.
  - destruct (e_index e) as [files|] eqn:E.
    + exists e, files. split; [reflexivity|]. split; [exact E|]. destruct (if q_no_update q then Busy else o); cbn [snd] in H; try discriminate; injection H as <-; reflexivity.
    + destruct (if q_no_update q then Busy else o); discriminate.
  - destruct (if q_no_update q then Busy else o); discriminate.
Qed.
End Proofs.
