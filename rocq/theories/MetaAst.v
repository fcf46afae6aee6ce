(** The reading of a condition by SQLite ([ast_of]) is the tree the documented grammar gives. *)
From Verif Require Import Base Text SqlModel SqlSpec SqlProofs MetaModel MetaQuery.
Open Scope nat_scope.
Set Default Proof Using "Type".

Definition rmap {A B} (f : A -> B) (r : res A) : res B := match r with Ok a => Ok (f a) | Err => Err | Panic => Panic end.
(** Tables in which every name is a known column. *)
Definition any_unicode : unicode :=
  {| u_ws := a_ws; u_alpha := a_alpha; u_alnum := a_alnum; u_digit := a_digit; u_space := a_ws;
     u_word := a_alnum; u_upper := fun t => t; u_lower := fun _ => [] |}.
Notation pE := (parse_expr any_unicode [[]]).
Notation pO := (or_loop any_unicode [[]]).
Notation pA := (parse_and any_unicode [[]]).
Notation pL := (and_loop any_unicode [[]]).
Notation pU := (parse_unary any_unicode [[]]).
Notation pP := (parse_primary any_unicode [[]]).

Lemma ae_S f ts : ast_expr (S f) ts = bind (ast_and f ts) (fun p => ast_or_loop f (fst p) (snd p)). Proof. reflexivity. Qed.
Lemma ao_S f a ts : ast_or_loop (S f) a ts = if token_eqb (current ts) TOr
           then bind (ast_and f (advance ts)) (fun p => ast_or_loop f (COr a (fst p)) (snd p)) else Ok (a, ts). Proof. reflexivity. Qed.
Lemma aa_S f ts : ast_and (S f) ts = bind (ast_unary f ts) (fun p => ast_and_loop f (fst p) (snd p)). Proof. reflexivity. Qed.
Lemma al_S f a ts : ast_and_loop (S f) a ts = if token_eqb (current ts) TAnd
           then bind (ast_unary f (advance ts)) (fun p => ast_and_loop f (CAnd a (fst p)) (snd p)) else Ok (a, ts). Proof. reflexivity. Qed.
Lemma au_S f ts : ast_unary (S f) ts = if token_eqb (current ts) TNot
           then bind (ast_primary f (advance ts)) (fun p => Ok (CNot (fst p), snd p)) else ast_primary f ts. Proof. reflexivity. Qed.
Lemma ap_S f ts : ast_primary (S f) ts = if token_eqb (current ts) TLParen
           then bind (ast_expr f (advance ts)) (fun p => bind (expect TRParen (snd p)) (fun r => Ok (fst p, r)))
           else match current ts with TIdent name => ast_operator name (advance ts) | _ => Err end. Proof. reflexivity. Qed.

(** forgetting the tree gives the validator's parser *)
Lemma erase_in_tail f : forall n ts, rmap snd (ast_in_tail f n ts) = in_tail f ts.
Proof.
  induction f as [|f IH]; intros n ts; cbn [ast_in_tail in_tail]; [reflexivity|].
  destruct (token_eqb _ _).
  - destruct (expect TPlaceholder (advance ts)); cbn [bind rmap]; auto.
  - destruct (expect TRParen ts); reflexivity.
Qed.
Lemma erase_in n c ts : rmap snd (ast_in n c ts) = parse_in_list ts.
Proof.
  unfold ast_in, parse_in_list. destruct (expect TLParen ts) as [t1| |]; cbn [bind rmap]; auto.
  destruct (expect TPlaceholder t1) as [t2| |]; cbn [bind rmap]; auto.
  rewrite <- (erase_in_tail _ 1). destruct (ast_in_tail _ 1 t2); reflexivity.
Qed.
Lemma erase_operator c ts : rmap snd (ast_operator c ts) = parse_operator ts.
Proof.
  assert (O : forall a t, rmap snd (ast_one a t) = expect TPlaceholder t) by (intros a t; unfold ast_one; destruct (expect _ _); reflexivity).
  assert (B : forall n t, rmap snd (ast_between n c t) = between_tail t) by (intros a t; unfold ast_between; destruct (between_tail _); reflexivity).
  unfold ast_operator, parse_operator. destruct (current ts); try reflexivity; auto using erase_in.
  - destruct (current (advance ts)); try reflexivity; auto using erase_in.
  - destruct (token_eqb _ _); destruct (expect _ _); reflexivity.
Qed.
Lemma erase f : forall ts,
  rmap snd (ast_expr f ts) = pE f ts /\ (forall a, rmap snd (ast_or_loop f a ts) = pO f ts)
  /\ rmap snd (ast_and f ts) = pA f ts /\ (forall a, rmap snd (ast_and_loop f a ts) = pL f ts)
  /\ rmap snd (ast_unary f ts) = pU f ts /\ rmap snd (ast_primary f ts) = pP f ts.
Proof.
  induction f as [|f IH]; intros ts; [repeat split|].
  assert (B : forall (p : res (cond * list token)) q (k : cond * list token -> res (cond * list token)) k',
            rmap snd p = q -> (forall x, rmap snd (k x) = k' (snd x)) -> rmap snd (bind p k) = bind q k').
  { intros p q k k' E K. destruct p as [x| |]; cbn in *; subst; cbn; auto. }
  split; [|split; [|split; [|split; [|split]]]].
  - rewrite ae_S, pe_S. apply B; [apply IH|intros (a & t); cbn; apply IH].
  - intro a. rewrite ao_S, po_S. destruct (token_eqb _ _); auto. apply B; [apply IH|intros (b & t); cbn; apply IH].
  - rewrite aa_S, pa_S. apply B; [apply IH|intros (a & t); cbn; apply IH].
  - intro a. rewrite al_S, pl_S. destruct (token_eqb _ _); auto. apply B; [apply IH|intros (b & t); cbn; apply IH].
  - rewrite au_S, pu_S. destruct (token_eqb _ _); [|apply IH].
    transitivity (bind (pP f (advance ts)) (fun r => Ok r)); [apply B; [apply IH|reflexivity]|destruct (pP f (advance ts)); reflexivity].
  - rewrite ap_S, pp_S. destruct (token_eqb _ _); [|destruct (current ts); auto; apply erase_operator].
    apply B; [apply IH|]. intros (a & t). cbn. destruct (expect TRParen t); reflexivity.
Qed.
Lemma ast_expr_total f ts : 5 * length ts + 5 <= f -> ast_expr f ts <> Panic.
Proof.
  intros Hf E. pose proof (proj1 (erase f ts)) as H. rewrite E in H. cbn in H. symmetry in H.
  revert H. apply parse_total. lia.
Qed.

Lemma ast_mono f : forall g, f <= g -> forall ts,
  (ast_expr f ts <> Panic -> ast_expr g ts = ast_expr f ts) /\ (forall a, ast_or_loop f a ts <> Panic -> ast_or_loop g a ts = ast_or_loop f a ts)
  /\ (ast_and f ts <> Panic -> ast_and g ts = ast_and f ts) /\ (forall a, ast_and_loop f a ts <> Panic -> ast_and_loop g a ts = ast_and_loop f a ts)
  /\ (ast_unary f ts <> Panic -> ast_unary g ts = ast_unary f ts) /\ (ast_primary f ts <> Panic -> ast_primary g ts = ast_primary f ts).
Proof.
  induction f as [|f IH]; intros g Hg ts; [repeat split; intros; exfalso; auto|].
  destruct g as [|g]; [lia|]. assert (Hg' : f <= g) by lia. specialize (IH g Hg').
  assert (B : forall (p q : res (cond * list token)) (k k' : cond * list token -> res (cond * list token)),
     (p <> Panic -> q = p) -> (forall x, k x <> Panic -> k' x = k x) -> bind p k <> Panic -> bind q k' = bind p k).
  { intros p q k k' P K N. destruct p as [x| |]; cbn [bind] in *; rewrite ?P by discriminate; cbn; auto; congruence. }
  split; [|split; [|split; [|split; [|split]]]].
  - rewrite !ae_S. apply B; [apply IH|]. intros x. apply IH.
  - intro a. rewrite !ao_S. destruct (token_eqb _ _); auto. apply B; [apply IH|]. intros x. apply IH.
  - rewrite !aa_S. apply B; [apply IH|]. intros x. apply IH.
  - intro a. rewrite !al_S. destruct (token_eqb _ _); auto. apply B; [apply IH|]. intros x. apply IH.
  - rewrite !au_S. destruct (token_eqb _ _); [|apply IH]. apply B; [apply IH|auto].
  - rewrite !ap_S. destruct (token_eqb _ _); auto. apply B; [apply IH|auto].
Qed.

Lemma ast_in_tail_complete l n : ph_list l n -> forall f k r m, l = TPlaceholder :: m -> length m < f -> ast_in_tail f k (m ++ TRParen :: r) = Ok (k + n - 1, r).
Proof.
  induction 1 as [|l n Hl IH]; intros f k r m E Hf.
  - injection E as <-. destruct f; [cbn in Hf; lia|]. cbn. do 2 f_equal. lia.
  - injection E as <-. inversion Hl as [E|l' n' Hl' E]; subst.
    + destruct f as [|f]; [cbn in Hf; lia|]. cbn [app ast_in_tail]. cbn [current hd token_eqb advance tl bind]. rewrite expect_app. cbn [bind].
      pose proof (IH f (S k) r [] eq_refl) as Q. cbn [app] in Q. rewrite Q by (cbn in Hf |- *; lia). do 2 f_equal. lia.
    + destruct f as [|f]; [cbn in Hf; lia|]. cbn [app ast_in_tail]. cbn [current hd token_eqb advance tl bind]. rewrite expect_app. cbn [bind].
      pose proof (IH f (S k) r (TComma :: l') eq_refl) as Q. cbn [app] in Q. rewrite Q by (cbn in Hf |- *; lia). do 2 f_equal. lia.
Qed.
Lemma ast_in_complete n c l k r : ph_list l k -> ast_in n c (TLParen :: l ++ TRParen :: r) = Ok (CIn n c k, r).
Proof.
  intro Hl. unfold ast_in. rewrite expect_app. cbn [bind].
  assert (exists m, l = TPlaceholder :: m) as (m & E) by (inversion Hl; eauto).
  rewrite E. cbn [app]. rewrite expect_app. cbn [bind]. rewrite (ast_in_tail_complete l k Hl _ 1 r m E) by (rewrite app_length; lia).
  cbn. do 3 f_equal. lia.
Qed.
Section GRAM.
  Variable col : text -> Prop.
  Lemma ast_complete :
    (forall l a, expr col l a -> forall rest r, current rest <> TAnd -> (exists f, ast_or_loop f a rest = Ok r) -> exists f, ast_expr f (l ++ rest) = Ok r)
    /\ (forall l a, and_expr col l a -> forall rest r, (exists f, ast_and_loop f a rest = Ok r) -> exists f, ast_and f (l ++ rest) = Ok r)
    /\ (forall l a, unary col l a -> forall rest, exists f, ast_unary f (l ++ rest) = Ok (a, rest))
    /\ (forall l a, primary col l a -> forall rest, exists f, ast_primary f (l ++ rest) = Ok (a, rest)).
  Proof.
    assert (UA : forall f g l r, f <= g -> ast_and f l = Ok r -> ast_and g l = Ok r).
    { intros f g l r H E. rewrite <- E. apply ast_mono; auto. rewrite E. discriminate. }
    assert (UU : forall f g l r, f <= g -> ast_unary f l = Ok r -> ast_unary g l = Ok r).
    { intros f g l r H E. rewrite <- E. apply ast_mono; auto. rewrite E. discriminate. }
    assert (UO : forall f g a l r, f <= g -> ast_or_loop f a l = Ok r -> ast_or_loop g a l = Ok r).
    { intros f g a l r H E. rewrite <- E. apply ast_mono; auto. rewrite E. discriminate. }
    assert (UL : forall f g a l r, f <= g -> ast_and_loop f a l = Ok r -> ast_and_loop g a l = Ok r).
    { intros f g a l r H E. rewrite <- E. apply ast_mono; auto. rewrite E. discriminate. }
    assert (STOP : forall a rest, current rest <> TAnd -> exists f, ast_and_loop f a rest = Ok (a, rest)).
    { intros a rest N. exists 1. rewrite al_S. rewrite token_eqb_neq; auto. }
    apply grammar_ind.
    - intros l a _ IH rest r N (f & Hf). destruct (IH rest (a, rest) (STOP a rest N)) as (g & Hg).
      exists (S (f + g)). rewrite ae_S. rewrite (UA g (f + g) _ _ (Nat.le_add_l g f) Hg). cbn [bind fst snd]. apply (UO f); auto. lia.
    - intros l a m b _ IH _ IHm rest r N (f & Hf). destruct (IHm rest (b, rest) (STOP b rest N)) as (g & Hg).
      rewrite <- app_assoc. apply IH; [discriminate|]. exists (S (f + g)). cbn [app]. rewrite ao_S. cbn [app current hd token_eqb advance tl].
      rewrite (UA g (f + g) _ _ (Nat.le_add_l g f) Hg). cbn [bind fst snd]. apply (UO f); auto. lia.
    - intros l a _ IH rest r (f & Hf). destruct (IH rest) as (g & Hg).
      exists (S (f + g)). rewrite aa_S. rewrite (UU g (f + g) _ _ (Nat.le_add_l g f) Hg). cbn [bind fst snd]. apply (UL f); auto. lia.
    - intros l a m b _ IH _ IHm rest r (f & Hf). destruct (IHm rest) as (g & Hg).
      rewrite <- app_assoc. apply IH. exists (S (f + g)). cbn [app]. rewrite al_S. cbn [app current hd token_eqb advance tl].
      rewrite (UU g (f + g) _ _ (Nat.le_add_l g f) Hg). cbn [bind fst snd]. apply (UL f); auto. lia.
    - intros l a Hl IH rest. destruct (IH rest) as (f & Hf). exists (S f). rewrite au_S.
      rewrite token_eqb_neq; auto. inversion Hl; discriminate.
    - intros l a Hl IH rest. destruct (IH rest) as (f & Hf). exists (S f). cbn [app]. rewrite au_S. cbn [app current hd token_eqb advance tl]. rewrite Hf. reflexivity.
    - intros c o Hc rest. exists 1. reflexivity.
    - intros n c Hc rest. exists 1. destruct n; reflexivity.
    - intros n c Hc rest. exists 1. destruct n; reflexivity.
    - intros n c Hc rest. exists 1. destruct n; reflexivity.
    - intros n c Hc rest. exists 1. destruct n; reflexivity.
    - intros n c l k Hc Hl rest. exists 1. cbn [app]. rewrite ap_S. cbn [current hd token_eqb].
      destruct n; cbn [opt_not app advance tl]; unfold ast_operator; cbn [app advance tl current hd]; rewrite <- app_assoc; apply ast_in_complete; auto.
    - intros l a _ IH rest. destruct (IH (TRParen :: rest) (a, TRParen :: rest)) as (f & Hf); [discriminate|exists 1; reflexivity|].
      exists (S f). cbn [app]. rewrite ap_S. cbn [app current hd token_eqb advance tl]. rewrite <- app_assoc. cbn [app]. rewrite Hf. cbn [bind fst snd]. rewrite expect_app. reflexivity.
  Qed.
  (** SQL's reading of a sentence is its tree in the grammar. *)
  Lemma ast_of_expr ts a : expr col ts a -> ast_of (ts ++ [TEof]) = Ok a.
  Proof.
    intro Ha. unfold ast_of. destruct ast_complete as (PC & _).
    destruct (PC ts a Ha [TEof] (a, [TEof])) as (f & Hf); [discriminate|exists 1; reflexivity|].
    assert (E : ast_expr (5 * length (ts ++ [TEof]) + 5) (ts ++ [TEof]) = Ok (a, [TEof])); [|rewrite E; reflexivity].
    destruct (Nat.le_ge_cases f (5 * length (ts ++ [TEof]) + 5)) as [Hle|Hle].
    - rewrite <- Hf. apply ast_mono; auto. rewrite Hf. discriminate.
    - rewrite <- Hf. symmetry. apply ast_mono; auto. apply ast_expr_total. lia.
  Qed.
  Lemma expr_unique ts a b : expr col ts a -> expr col ts b -> a = b.
  Proof. intros Ha Hb. apply ast_of_expr in Ha, Hb. congruence. Qed.

  Lemma expr_mentioned :
    (forall l a, expr col l a -> forall c, In c (mentioned a) <-> In (TIdent c) l)
    /\ (forall l a, and_expr col l a -> forall c, In c (mentioned a) <-> In (TIdent c) l)
    /\ (forall l a, unary col l a -> forall c, In c (mentioned a) <-> In (TIdent c) l)
    /\ (forall l a, primary col l a -> forall c, In c (mentioned a) <-> In (TIdent c) l).
  Proof.
    assert (X : forall c d : text, d = c \/ False <-> TIdent d = TIdent c) by (intros; split; [intros [->|[]]; auto|intro H; injection H; auto]).
    apply grammar_ind; auto.
    - intros l a m b _ H _ H2 c. cbn [mentioned]. rewrite !in_app_iff, H, H2. cbn. intuition discriminate.
    - intros l a m b _ H _ H2 c. cbn [mentioned]. rewrite !in_app_iff, H, H2. cbn. intuition discriminate.
    - intros l a _ H c. cbn [mentioned]. rewrite H. cbn. intuition discriminate.
    - intros c o _ d. cbn. rewrite X. intuition discriminate.
    - intros n c _ d. destruct n; cbn; rewrite X; intuition discriminate.
    - intros n c _ d. destruct n; cbn; rewrite X; intuition discriminate.
    - intros n c _ d. destruct n; cbn; rewrite X; intuition discriminate.
    - intros n c _ d. destruct n; cbn; rewrite X; intuition discriminate.
    - intros n c l k _ Hl d. assert (HL : ~ In (TIdent d) l) by (induction Hl; cbn; intuition discriminate).
      destruct n; cbn; rewrite X, in_app_iff; cbn; intuition discriminate.
    - intros l a _ H c. rewrite H. cbn. rewrite in_app_iff. cbn. intuition discriminate.
  Qed.
End GRAM.
