(** Proofs about the penalty of a path. *)
From Verif Require Import Base Text FtsText FtsRank PathRank PathRankSpec.
From Verif Require Npy Walk.
From Coq Require Import String.
Open Scope string_scope.
Open Scope nat_scope.
Open Scope list_scope.

(** ** What the expressions match *)
Definition piece_says (U : unicode) (p : piece) (m : text) : Prop :=
  match p with
  | Lit t => m = txt t
  | Maybe t => m = [] \/ m = txt t
  | OneOf cs => exists c, m = [c] /\ In c (txt cs)
  | Alts l => exists t, In t l /\ m = txt t
  | Run => ~ In 47%Z m
  | Words => m <> [] /\ forall c, In c m -> u_word U c = true
  end.
Fixpoint pieces_say (U : unicode) (ps : list piece) (m : text) : Prop :=
  match ps with [] => m = [] | p :: r => exists a b, m = a ++ b /\ piece_says U p a /\ pieces_say U r b end.
Lemma after_iff t s r : In r (after t s) <-> s = t ++ r.
Proof.
  unfold after. destruct (starts_with t s) eqn:E.
  - apply starts_with_spec in E. destruct E as (u & ->). rewrite skipn_app, skipn_all, Nat.sub_diag. cbn [app skipn In]. split; [intros [<-|[]]; reflexivity|intro E; apply app_inv_head in E; auto].
  - split; [intros []|]. intros ->. assert (starts_with t (t ++ r) = true) by (apply starts_with_spec; eauto). congruence.
Qed.
Lemma run_iff f s r : In r (run f s) <-> exists m, s = m ++ r /\ forall c, In c m -> f c = true.
Proof.
  revert r. induction s as [|x s IH]; intro r; cbn [run In].
  - split; [intros [<-|[]]; exists []; split; [reflexivity|intros c []]|]. intros (m & E & _). symmetry in E. apply app_eq_nil in E. left. symmetry. apply E.
  - split.
    + intros [<-|I]; [exists []; split; [reflexivity|intros c []]|]. destruct (f x) eqn:E; [|destruct I]. apply IH in I. destruct I as (m & -> & H). exists (x :: m). split; [reflexivity|]. intros c [<-|J]; [exact E|apply H; exact J].
    + intros ([|y m] & E & H); [left; exact E|]. right. injection E as <- ->. rewrite (H x (or_introl eq_refl)). apply IH. exists m. split; [reflexivity|]. intros c J. apply H. right. exact J.
Qed.
Lemma leaves_iff U p s r : In r (leaves U p s) <-> exists m, s = m ++ r /\ piece_says U p m.
Proof.
  destruct p; cbn [leaves piece_says].
  - rewrite after_iff. split; [intros ->; eauto|intros (m & -> & ->); reflexivity].
  - cbn [In]. rewrite after_iff. split; [intros [<-| ->]; [exists []; auto|eauto]|intros (m & -> & [->| ->]); auto].
  - split.
    + destruct s as [|c t]; [intros []|]. destruct (existsb (Z.eqb c) (txt s0)) eqn:E; [|intros []]. intros [<-|[]]. exists [c]. split; [reflexivity|]. exists c. split; [reflexivity|]. apply existsb_exists in E. destruct E as (d & I & E). apply Z.eqb_eq in E. subst. exact I.
    + intros (m & -> & c & -> & I). cbn [app]. assert (E : existsb (Z.eqb c) (txt s0) = true) by (apply existsb_exists; exists c; split; [exact I|apply Z.eqb_refl]). rewrite E. left. reflexivity.
  - rewrite in_flat_map. split; [intros (t & I & J); apply after_iff in J; subst; eauto|intros (m & -> & t & I & ->); exists t; split; [exact I|apply after_iff; reflexivity]].
  - rewrite run_iff. split; intros (m & E & H); exists m; (split; [exact E|]).
    + intros I. apply H in I. discriminate I.
    + intros c I. apply negb_true_iff, Z.eqb_neq. intros ->. exact (H I).
  - split.
    + destruct s as [|c t]; [intros []|]. destruct (u_word U c) eqn:E; [|intros []]. intro I. apply run_iff in I. destruct I as (m & -> & H). exists (c :: m). split; [reflexivity|split; [discriminate|]]. intros d [<-|J]; [exact E|apply H; exact J].
    + intros ([|c m] & -> & N & H); [congruence|]. cbn [app]. rewrite (H c (or_introl eq_refl)). apply run_iff. exists m. split; [reflexivity|]. intros d J. apply H. right. exact J.
Qed.
Lemma leaves_all_iff U ps s r : In r (leaves_all U ps s) <-> exists m, s = m ++ r /\ pieces_say U ps m.
Proof.
  revert s. induction ps as [|p ps IH]; intro s; cbn [leaves_all pieces_say].
  - cbn [In]. split; [intros [<-|[]]; exists []; auto|intros (m & -> & ->); auto].
  - rewrite in_flat_map. split.
    + intros (t & I & J). apply leaves_iff in I. destruct I as (a & -> & A). apply IH in J. destruct J as (b & -> & B). exists (a ++ b). rewrite app_assoc. split; [reflexivity|]. exists a, b. auto.
    + intros (m & -> & a & b & -> & A & B). exists (b ++ r). split; [apply leaves_iff; exists a; rewrite app_assoc; auto|apply IH; eauto].
Qed.
Definition opens (a : text) : Prop := a = [] \/ exists a', a = a' ++ [47%Z].
Lemma after_slashes_iff s e : In e (after_slashes s) <-> exists a, s = a ++ 47%Z :: e.
Proof.
  induction s as [|c s IH]; cbn [after_slashes].
  - split; [intros []|intros (a & E); destruct a; discriminate E].
  - rewrite in_app_iff, IH. split.
    + intros [I|(a & ->)]; [|exists (c :: a); reflexivity]. destruct (c =? 47)%Z eqn:E; [|destruct I]. destruct I as [<-|[]]. apply Z.eqb_eq in E. subst. exists []. reflexivity.
    + intros ([|d a] & E); injection E as -> ->; [left; left; reflexivity|right; eauto].
Qed.
Lemma entries_iff s e : In e (entries s) <-> exists a, s = a ++ e /\ opens a.
Proof.
  unfold entries. cbn [In]. rewrite after_slashes_iff. split.
  - intros [<-|(a & ->)]; [exists []; split; [reflexivity|left; reflexivity]|]. exists (a ++ [47%Z]). rewrite <- app_assoc. split; [reflexivity|right; eauto].
  - intros (a & -> & [->|(a' & ->)]); [auto|right; exists a'; rewrite <- app_assoc; reflexivity].
Qed.
Lemma to_end_iff U alts s : to_end U alts s = true <-> exists a e ps, s = a ++ e /\ opens a /\ In ps alts /\ pieces_say U ps e.
Proof.
  unfold to_end. rewrite existsb_exists. split.
  - intros (e & I & X). apply entries_iff in I. destruct I as (a & -> & O). apply existsb_exists in X. destruct X as (ps & J & X). apply existsb_exists in X. destruct X as (r & K & X). apply leaves_all_iff in K. destruct K as (m & -> & S). destruct r; [|discriminate X]. rewrite app_nil_r. exists a, m, ps. auto.
  - intros (a & e & ps & -> & O & J & S). exists e. split; [apply entries_iff; eauto|]. apply existsb_exists. exists ps. split; [exact J|]. apply existsb_exists. exists []. split; [|reflexivity]. apply leaves_all_iff. exists e. rewrite app_nil_r. auto.
Qed.
Lemma to_slash_iff U alts s : to_slash U alts s = true <-> exists a m b ps, s = a ++ m ++ b /\ opens a /\ (b = [] \/ exists b', b = 47%Z :: b') /\ In ps alts /\ pieces_say U ps m.
Proof.
  unfold to_slash. rewrite existsb_exists. split.
  - intros (e & I & X). apply entries_iff in I. destruct I as (a & -> & O). apply existsb_exists in X. destruct X as (ps & J & X). apply existsb_exists in X. destruct X as (r & K & X). apply leaves_all_iff in K. destruct K as (m & -> & S). exists a, m, r, ps. repeat match goal with |- _ /\ _ => split end; auto. destruct r as [|c r]; [auto|]. right. apply Z.eqb_eq in X. subst. eauto.
  - intros (a & m & b & ps & -> & O & B & J & S). exists (m ++ b). split; [apply entries_iff; eauto|]. apply existsb_exists. exists ps. split; [exact J|]. apply existsb_exists. exists b. split; [apply leaves_all_iff; eauto|]. destruct B as [->|(b' & ->)]; reflexivity.
Qed.

(** ** The expressions written out *)
Definition shape : Type := text * list (bool * text).
Fixpoint tail_says (U : unicode) (l : list (bool * text)) (m : text) : Prop :=
  match l with
  | [] => m = []
  | (k, t) :: r => exists a b, m = a ++ t ++ b /\ piece_says U (if k then Run else Words) a /\ tail_says U r b
  end.
Definition shape_says (U : unicode) (s : shape) (m : text) : Prop := exists r, m = fst s ++ r /\ tail_says U (snd s) r.
Definition before (t : text) (s : shape) : shape := (t ++ fst s, snd s).
Fixpoint expand (ps : list piece) : list shape :=
  match ps with
  | [] => [([], [])]
  | p :: r =>
    match p with
    | Lit t => map (before (txt t)) (expand r)
    | Maybe t => expand r ++ map (before (txt t)) (expand r)
    | OneOf cs => flat_map (fun c => map (before [c]) (expand r)) (txt cs)
    | Alts l => flat_map (fun t => map (before (txt t)) (expand r)) l
    | Run => map (fun s : shape => ([], (true, fst s) :: snd s)) (expand r)
    | Words => map (fun s : shape => ([], (false, fst s) :: snd s)) (expand r)
    end
  end.
Lemma before_says U t s m : shape_says U (before t s) m <-> exists b, m = t ++ b /\ shape_says U s b.
Proof.
  unfold shape_says, before. cbn [fst snd]. split.
  - intros (r & -> & T). exists (fst s ++ r). rewrite <- app_assoc. eauto.
  - intros (b & -> & r & -> & T). exists r. rewrite <- app_assoc. auto.
Qed.
Lemma gap_says U k s m : shape_says U ([], (k, fst s) :: snd s) m <-> exists a b, m = a ++ b /\ piece_says U (if k then Run else Words) a /\ shape_says U s b.
Proof.
  unfold shape_says. cbn [fst snd tail_says app]. split.
  - intros (r & -> & a & b & -> & A & B). exists a, (fst s ++ b). eauto.
  - intros (a & b & -> & A & r & -> & B). exists (a ++ fst s ++ r). split; [reflexivity|eauto].
Qed.
Lemma expand_iff U ps m : pieces_say U ps m <-> exists s, In s (expand ps) /\ shape_says U s m.
Proof.
  revert m. induction ps as [|p ps IH]; intro m; cbn [pieces_say expand].
  - split; [intros ->; exists ([], []); split; [left; reflexivity|exists []; split; reflexivity]|]. intros (s & [<-|[]] & r & -> & T). exact T.
  - assert (B : forall t, (exists b, m = t ++ b /\ pieces_say U ps b) <-> exists s, In s (map (before t) (expand ps)) /\ shape_says U s m).
    { intro t. split.
      - intros (b & -> & S). apply IH in S. destruct S as (s & I & S). exists (before t s). split; [apply in_map; exact I|apply before_says; eauto].
      - intros (s & I & S). apply in_map_iff in I. destruct I as (s' & <- & I). apply before_says in S. destruct S as (b & -> & S). exists b. split; [reflexivity|apply IH; eauto]. }
    assert (G : forall k : bool, (exists a b, m = a ++ b /\ piece_says U (if k then Run else Words) a /\ pieces_say U ps b) <-> exists s, In s (map (fun s : shape => ([], (k, fst s) :: snd s)) (expand ps)) /\ shape_says U s m).
    { intro k. split.
      - intros (a & b & -> & A & S). apply IH in S. destruct S as (s & I & S). exists ([], (k, fst s) :: snd s). split; [apply in_map_iff; eauto|apply gap_says; eauto].
      - intros (s & I & S). apply in_map_iff in I. destruct I as (s' & <- & I). apply gap_says in S. destruct S as (a & b & -> & A & S). exists a, b. split; [reflexivity|split; [exact A|apply IH; eauto]]. }
    destruct p; cbn [piece_says].
    + rewrite <- B. split; [intros (a & b & -> & -> & S); eauto|intros (b & -> & S); eauto 6].
    + split.
      * intros (a & b & -> & [->| ->] & S); [apply IH in S; destruct S as (x & I & S); exists x; rewrite in_app_iff; auto|]. destruct (proj1 (B (txt s))) as (x & I & S'); [eauto|]. exists x. rewrite in_app_iff. auto.
      * intros (x & I & S). apply in_app_iff in I. destruct I as [I|I].
        { exists [], m. split; [reflexivity|split; [auto|apply IH; eauto]]. }
        { destruct (proj2 (B (txt s))) as (b & -> & S'); [eauto|]. exists (txt s), b. auto. }
    + split.
      * intros (a & b & -> & (c & -> & I) & S). destruct (proj1 (B [c])) as (x & J & S'); [eauto|]. exists x. split; [apply in_flat_map; eauto|exact S'].
      * intros (x & I & S). apply in_flat_map in I. destruct I as (c & I & J). destruct (proj2 (B [c])) as (b & -> & S'); [eauto|]. exists [c], b. eauto.
    + split.
      * intros (a & b & -> & (t & I & ->) & S). destruct (proj1 (B (txt t))) as (x & J & S'); [eauto|]. exists x. split; [apply in_flat_map; eauto|exact S'].
      * intros (x & I & S). apply in_flat_map in I. destruct I as (t & I & J). destruct (proj2 (B (txt t))) as (b & -> & S'); [eauto|]. exists (txt t), b. eauto.
    + apply (G true).
    + apply (G false).
Qed.
Definition part_eqb (x y : bool * text) : bool := Bool.eqb (fst x) (fst y) && text_eqb (snd x) (snd y).
Fixpoint parts_eqb (x y : list (bool * text)) : bool :=
  match x, y with [], [] => true | a :: x, b :: y => part_eqb a b && parts_eqb x y | _, _ => false end.
Definition shape_eqb (x y : shape) : bool := text_eqb (fst x) (fst y) && parts_eqb (snd x) (snd y).
Lemma shape_eqb_eq x y : shape_eqb x y = true -> x = y.
Proof.
  unfold shape_eqb. destruct x as [a l], y as [b l']. cbn [fst snd]. rewrite andb_true_iff. intros (E & P). apply text_eqb_eq in E. subst b. f_equal. revert l' P.
  induction l as [|[k t] l IH]; intros [|[k' t'] l'] P; try discriminate P; [reflexivity|]. cbn [parts_eqb] in P. unfold part_eqb in P. cbn [fst snd] in P. rewrite !andb_true_iff in P. destruct P as ((P & Q) & R). apply Bool.eqb_prop in P. apply text_eqb_eq in Q. subst. f_equal. apply IH. exact R.
Qed.
Lemma included (l l' : list shape) : forallb (fun x => existsb (shape_eqb x) l') l = true -> forall x, In x l -> In x l'.
Proof. intros H x I. rewrite forallb_forall in H. specialize (H x I). apply existsb_exists in H. destruct H as (y & J & E). apply shape_eqb_eq in E. subst. exact J. Qed.
Lemma alts_iff U alts m : (exists ps, In ps alts /\ pieces_say U ps m) <-> exists s, In s (flat_map expand alts) /\ shape_says U s m.
Proof.
  split.
  - intros (ps & I & S). apply expand_iff in S. destruct S as (s & J & S). exists s. split; [apply in_flat_map; eauto|exact S].
  - intros (s & I & S). apply in_flat_map in I. destruct I as (ps & I & J). exists ps. split; [exact I|apply expand_iff; eauto].
Qed.

(** ** Names of directories *)
Lemma dirs_ok U alts names s :
  forallb (fun x => existsb (shape_eqb x) (map (fun n => (txt n, []) : shape) names)) (flat_map expand alts) = true ->
  forallb (fun x => existsb (shape_eqb x) (flat_map expand alts)) (map (fun n => (txt n, []) : shape) names) = true ->
  forallb (fun n => negb (existsb (Z.eqb 47) (txt n))) names = true ->
  to_slash U alts s = true <-> goes_through names s.
Proof.
  intros H1 H2 N. rewrite to_slash_iff.
  assert (M : forall m, (exists ps, In ps alts /\ pieces_say U ps m) <-> In m (map txt names)).
  { intro m. rewrite alts_iff. split.
    - intros (x & I & S). apply (included _ _ H1) in I. apply in_map_iff in I. destruct I as (n & <- & I). destruct S as (r & -> & T). cbn [fst snd tail_says] in T |- *. subst r. rewrite app_nil_r. apply in_map. exact I.
    - intro I. apply in_map_iff in I. destruct I as (n & <- & I). exists (txt n, []). split; [apply (included _ _ H2); apply in_map_iff; eauto|]. exists []. rewrite app_nil_r. split; reflexivity. }
  unfold goes_through, part_of. split.
  - intros (a & m & b & ps & E & O & B & I & S). assert (J : In m (map txt names)) by (apply M; eauto). exists m, b. split; [|exact J]. exists a. split; [exact E|split; [exact O|split; [exact B|]]].
    apply in_map_iff in J. destruct J as (n & <- & J). rewrite forallb_forall in N. specialize (N n J). intro K. apply negb_true_iff in N. assert (existsb (Z.eqb 47) (txt n) = true) by (apply existsb_exists; exists 47%Z; split; [exact K|reflexivity]). congruence.
  - intros (c & b & (a & E & O & B & _) & J). apply M in J. destruct J as (ps & I & S). exists a, c, b, ps. auto.
Qed.
Lemma test_dir_ok U s : to_slash U test_dir_re s = true <-> goes_through test_dirs s.
Proof. apply dirs_ok; vm_compute; reflexivity. Qed.
Lemma compat_dir_ok U s : to_slash U compat_dir_re s = true <-> goes_through compat_dirs s.
Proof. apply dirs_ok; vm_compute; reflexivity. Qed.
Lemma examples_dir_ok U s : to_slash U examples_dir_re s = true <-> goes_through example_dirs s.
Proof. apply dirs_ok; vm_compute; reflexivity. Qed.

(** ** Names of test files *)
Definition dotted (e : string) : text := txt "." ++ txt e.
Definition wanted : list shape :=
  flat_map (fun p => map (fun e => (txt (fst p), [(true, dotted e)]) : shape) (snd p)) test_beginnings
  ++ flat_map (fun p => map (fun e => ([], [(true, txt (fst p) ++ dotted e)]) : shape) (snd p)) test_endings
  ++ [(txt "tests.rs", []); (txt "runtests.jl", []); (txt "test_helper", [(true, txt "."); (false, [])]); (txt "test_helpers", [(true, txt "."); (false, [])])].
Lemma wanted_in : forall s, In s (flat_map expand test_file_re) <-> In s wanted.
Proof. intro s. split; apply included; vm_compute; reflexivity. Qed.
Lemma word_slash U : good_unicode U -> u_word U 47 = false.
Proof. intro G. rewrite (gu_word U G) by reflexivity. reflexivity. Qed.
Lemma wanted_says U m : good_unicode U -> (exists s, In s wanted /\ shape_says U s m) <-> test_name U m /\ ~ In 47%Z m.
Proof.
  intro G.
  assert (NB : forallb (fun p => negb (existsb (Z.eqb 47) (txt (fst p))) && forallb (fun e => negb (existsb (Z.eqb 47) (dotted e))) (snd p)) (test_beginnings ++ test_endings) = true) by (vm_compute; reflexivity).
  rewrite forallb_forall in NB.
  assert (NS : forall t, negb (existsb (Z.eqb 47) t) = true -> ~ In 47%Z t).
  { intros t H I. apply negb_true_iff in H. assert (existsb (Z.eqb 47) t = true) by (apply existsb_exists; exists 47%Z; auto). congruence. }
  assert (NP : forall b es e, In (b, es) (test_beginnings ++ test_endings) -> In e es -> ~ In 47%Z (txt b) /\ ~ In 47%Z (dotted e)).
  { intros b es e I J. specialize (NB _ I). apply andb_true_iff in NB. destruct NB as (X & Y). rewrite forallb_forall in Y. split; apply NS; [exact X|apply Y; exact J]. }
  unfold wanted, test_name. split.
  - intros (s & I & S). apply in_app_iff in I. destruct I as [I|I]; [|apply in_app_iff in I; destruct I as [I|I]].
    + apply in_flat_map in I. destruct I as ((b & es) & I & J). cbn [fst snd] in J. apply in_map_iff in J. destruct J as (e & <- & J). destruct S as (r & -> & a & c & -> & A & T0). cbn [tail_says] in T0. subst c. cbn [fst snd]. cbn [piece_says] in A. rewrite app_nil_r.
      split; [left; exists b, es, e, a; split; [exact I|split; [exact J|reflexivity]]|]. destruct (NP b es e) as (N1 & N2); [apply in_app_iff; auto|exact J|]. rewrite !in_app_iff. intuition.
    + apply in_flat_map in I. destruct I as ((b & es) & I & J). cbn [fst snd] in J. apply in_map_iff in J. destruct J as (e & <- & J). destruct S as (r & -> & a & c & -> & A & T0). cbn [tail_says] in T0. subst c. cbn [fst snd app]. cbn [piece_says] in A. rewrite app_nil_r.
      split; [right; left; exists b, es, e, a; split; [exact I|split; [exact J|reflexivity]]|]. destruct (NP b es e) as (N1 & N2); [apply in_app_iff; auto|exact J|]. rewrite !in_app_iff. intuition.
    + assert (W : forall pre x, tail_says U [(true, txt "."); (false, [])] x -> ~ In 47%Z pre -> exists a w, pre ++ x = pre ++ a ++ txt "." ++ w /\ w <> [] /\ (forall c, In c w -> u_word U c = true) /\ ~ In 47%Z (pre ++ x)).
      { intros pre x (a & b & -> & A & c & d & -> & (C1 & C2) & T0) Np. cbn [tail_says] in T0. subst d. rewrite !app_nil_r. cbn [app]. exists a, c. split; [reflexivity|split; [exact C1|split; [exact C2|]]]. cbn [piece_says] in A. rewrite !in_app_iff. intros [K|[K|[K|K]]]; [tauto|tauto|destruct K as [K|[]]; vm_compute in K; discriminate K|]. apply C2 in K. rewrite word_slash in K by exact G. discriminate K. }
      cbn [In] in I. destruct I as [<-|[<-|[<-|[<-|[]]]]].
      * destruct S as (r & -> & T). cbn [fst snd tail_says] in *. subst r. rewrite app_nil_r. split; [right; right; left; reflexivity|apply NS; reflexivity].
      * destruct S as (r & -> & T). cbn [fst snd tail_says] in *. subst r. rewrite app_nil_r. split; [right; right; right; left; reflexivity|apply NS; reflexivity].
      * destruct S as (r & -> & T). cbn [fst snd] in *. destruct (W (txt "test_helper") r T) as (a & w & E & W1 & W2 & N); [apply NS; reflexivity|]. split; [|exact N]. right; right; right; right. exists a, w. auto.
      * destruct S as (r & -> & T). cbn [fst snd] in *. destruct (W (txt "test_helpers") r T) as (a & w & E & W1 & W2 & N); [apply NS; reflexivity|]. split; [|exact N]. right; right; right; right. exists (txt "s" ++ a), w. split; [exact E|auto].
  - intros (T & N). destruct T as [(b & es & e & a & I & J & ->)|[(b & es & e & a & I & J & ->)|[->|[->|(a & w & -> & W1 & W2)]]]].
    + exists (txt b, [(true, dotted e)]). split; [apply in_app_iff; left; apply in_flat_map; exists (b, es); split; [exact I|apply in_map_iff; eauto]|]. exists (a ++ dotted e). split; [reflexivity|]. exists a, []. rewrite app_nil_r. split; [reflexivity|split; [|reflexivity]]. cbn [piece_says]. intro K. apply N. rewrite !in_app_iff. auto.
    + exists ([], [(true, txt b ++ dotted e)]). split; [apply in_app_iff; right; apply in_app_iff; left; apply in_flat_map; exists (b, es); split; [exact I|apply in_map_iff; eauto]|]. exists (a ++ txt b ++ dotted e). split; [reflexivity|]. exists a, []. rewrite app_nil_r. split; [reflexivity|split; [|reflexivity]]. cbn [piece_says]. intro K. apply N. rewrite !in_app_iff. auto.
    + exists (txt "tests.rs", []). split; [rewrite !in_app_iff; right; right; left; reflexivity|]. exists []. split; reflexivity.
    + exists (txt "runtests.jl", []). split; [rewrite !in_app_iff; right; right; right; left; reflexivity|]. exists []. split; reflexivity.
    + exists (txt "test_helper", [(true, txt "."); (false, [])]). split; [rewrite !in_app_iff; right; right; right; right; left; reflexivity|]. exists (a ++ txt "." ++ w). split; [reflexivity|]. exists a, w. split; [reflexivity|split; [intro K; apply N; rewrite !in_app_iff; auto|]]. exists w, []. rewrite !app_nil_r. split; [reflexivity|split; [split; assumption|reflexivity]].
Qed.
Lemma test_file_ok U s : good_unicode U -> to_end U test_file_re s = true <-> exists c, part_of s c [] /\ test_name U c.
Proof.
  intro G. rewrite to_end_iff.
  assert (M : forall m, (exists ps, In ps test_file_re /\ pieces_say U ps m) <-> test_name U m /\ ~ In 47%Z m).
  { intro m. rewrite alts_iff, <- (wanted_says U m G). split; intros (x & I & S); exists x; (split; [apply wanted_in; exact I|exact S]). }
  split.
  - intros (a & e & ps & -> & O & I & S). destruct (proj1 (M e)) as (T & N); [eauto|]. exists e. split; [|exact T]. exists a. rewrite app_nil_r. split; [reflexivity|split; [exact O|split; [left; reflexivity|exact N]]].
  - intros (c & (a & E & O & _ & N) & T). rewrite app_nil_r in E. destruct (proj2 (M c) (conj T N)) as (ps & I & S). exists a, c, ps. auto.
Qed.
