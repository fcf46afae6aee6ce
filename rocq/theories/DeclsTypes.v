(** Proofs about type parameters, template parameters and methods. *)
From Verif Require Import Base Text FtsText FtsTextSpec FtsTextProofs CallGraphSpec CallGraphProofs Analysis AnalysisSpec AnalysisTree AnalysisProofs AnalysisText AnalysisMore Qml QmlSpec QmlText Decls DeclsSpec DeclsProofs.
From Coq Require Import String.
Open Scope string_scope.
Open Scope nat_scope.
Open Scope list_scope.
Notation length := List.length.

(** ** Outermost nodes *)
Fixpoint outer (ks : list string) (t : tree) : list (list nat * tree) :=
  let 'Tree k _ _ _ _ _ cs := t in
  if one_of ks k then [([], t)]
  else (fix go i l := match l with [] => [] | c :: r => map (fun x => (i :: fst x, snd x)) (outer ks c) ++ go (S i) r end) 0 cs.
Fixpoint outer_from (ks : list string) (i : nat) (l : list tree) : list (list nat * tree) :=
  match l with [] => [] | c :: r => map (fun x => (i :: fst x, snd x)) (outer ks c) ++ outer_from ks (S i) r end.
Lemma outer_eq ks t : outer ks t = if one_of ks (t_kind t) then [([], t)] else outer_from ks 0 (t_children t).
Proof.
  destruct t as [k f b s x y cs]. cbn [outer t_kind t_children]. destruct (one_of ks k); [reflexivity|].
  generalize 0. induction cs as [|c r IH]; intro i; [reflexivity|]. cbn [outer_from]. f_equal. apply IH.
Qed.
Lemma in_outer_from ks l : forall i p n, In (p, n) (outer_from ks i l) <-> exists j c q, nth_error l j = Some c /\ p = (i + j) :: q /\ In (q, n) (outer ks c).
Proof.
  induction l as [|c r IH]; intros i p n; cbn [outer_from].
  - split; [intros []|]. intros ([|j] & c & q & E & _); discriminate.
  - rewrite in_app_iff, in_map_iff, IH. split.
    + intros [((q & m) & E & I)|(j & d & q & E & -> & I)].
      * cbn [fst snd] in E. injection E as <- <-. exists 0, c, q. rewrite Nat.add_0_r. auto.
      * exists (S j), d, q. split; [exact E|split; [f_equal; lia|exact I]].
    + intros ([|j] & d & q & E & -> & I).
      * injection E as <-. left. exists (q, n). rewrite Nat.add_0_r. auto.
      * right. exists j, d, q. split; [exact E|split; [f_equal; lia|exact I]].
Qed.
Lemma outer_iff ks t : forall p n, In (p, n) (outer ks t) <-> outermost ks t p n.
Proof.
  induction t as [k f b s x y cs IH] using tree_ind2. intros p n. set (t := Tree k f b s x y cs) in *. rewrite outer_eq. unfold outermost. destruct (one_of ks (t_kind t)) eqn:K.
  - cbn [In]. split.
    + intros [[= <- <-]|[]]. split; [constructor|split; [apply of_kind_mem; exact K|]]. intros q r m E R A. symmetry in E. apply app_eq_nil in E. destruct E as (_ & E). congruence.
    + intros (A & Kn & N). left. destruct p as [|i p]; [inversion A; reflexivity|]. exfalso. apply (N [] (i :: p) t eq_refl ltac:(discriminate) (at_root t)). apply of_kind_mem. exact K.
  - rewrite in_outer_from. rewrite Forall_forall in IH. split.
    + intros (j & c & q & E & -> & I). cbn [plus]. apply (IH c (nth_error_In _ _ E)) in I. destruct I as (A & Kn & N).
      split; [econstructor; eauto|split; [exact Kn|]]. intros q' r m E' R A'. inversion A' as [|? i c' p' ? N' A'']; subst.
      * intro X. apply of_kind_mem in X. congruence.
      * cbn [app] in E'. injection E' as -> ->. rewrite E in N'. injection N' as <-. exact (N _ _ _ eq_refl R A'').
    + intros (A & Kn & N). inversion A as [|? i c p' ? E A']; subst; [apply of_kind_mem in Kn; congruence|].
      exists i, c, p'. split; [exact E|split; [reflexivity|]]. apply (IH c (nth_error_In _ _ E)). split; [exact A'|split; [exact Kn|]].
      intros q r m -> R A''. apply (N (i :: q) r m eq_refl R). econstructor; eauto.
Qed.
Lemma sorted_app {A} (R : A -> A -> Prop) a b : StronglySorted R a -> StronglySorted R b -> (forall x y, In x a -> In y b -> R x y) -> StronglySorted R (a ++ b).
Proof.
  induction 1 as [|x a Sa IH F]; cbn [app]; intros Sb H; [exact Sb|]. constructor; [apply IH; [exact Sb|]; intros u v Iu Iv; apply H; [right; exact Iu|exact Iv]|].
  apply Forall_app. split; [exact F|]. apply Forall_forall. intros y I. apply H; [left; reflexivity|exact I].
Qed.
Lemma sorted_map {A} (g : A -> list nat) i l : StronglySorted read_before (map g l) -> StronglySorted read_before (map (fun x => i :: g x) l).
Proof.
  induction l as [|x l IH]; cbn [map]; intro H; [constructor|]. inversion H as [|? ? Sl F]; subst. constructor; [apply IH; exact Sl|].
  rewrite Forall_forall in *. intros y I. apply in_map_iff in I. destruct I as (z & <- & I). apply same_child. apply F. apply in_map. exact I.
Qed.
Lemma outer_sorted ks t : StronglySorted read_before (map fst (outer ks t)).
Proof.
  induction t as [k f b s x y cs IH] using tree_ind2. rewrite outer_eq. cbn [t_kind t_children]. destruct (one_of ks k); [repeat constructor|].
  generalize 0. induction IH as [|c r H F IH]; intro i; cbn [outer_from]; [constructor|]. rewrite map_app, map_map. cbn [fst]. apply sorted_app.
  - apply sorted_map. exact H.
  - apply IH.
  - intros p q Ip Iq. apply in_map_iff in Ip, Iq. destruct Ip as ((p' & ?) & <- & _). destruct Iq as ((q' & n) & <- & J). apply in_outer_from in J. destruct J as (j & d & q & _ & E & _). cbn [fst] in *. subst q'. apply left_of. lia.
Qed.

(** ** Names *)
Section NAMES.
  Variable U : unicode.
  Definition name_of (skip : list string) (n : tree) : option text :=
    let s := neat U (t_text n) in if negb (non_empty s) || one_of skip s then None else Some s.
  Lemma name_of_iff skip n s : gives_name U skip n s <-> name_of skip n = Some s.
  Proof.
    unfold gives_name, name_of. assert (O : forall w, one_of skip w = true <-> spoken w skip) by (intro w; apply is_spoken). split.
    - intros (B & N & K). apply bared_neat in B. rewrite B. destruct s as [|c r]; [congruence|]. cbn [non_empty negb orb]. destruct (one_of skip (c :: r)) eqn:E; [|reflexivity]. apply O in E. destruct (K E).
    - destruct (negb (non_empty (neat U (t_text n))) || one_of skip (neat U (t_text n))) eqn:E; [discriminate|]. apply orb_false_iff in E. destruct E as (N & K). intros [= <-].
      split; [apply neat_bared|split]; [intro X; rewrite X in N; discriminate|]. intro X. apply O in X. congruence.
  Qed.
  Lemma add_name_eq skip acc n : add_name U skip acc n = fold_left push_unique (as_list (name_of skip n)) acc.
  Proof. unfold add_name, name_of. destruct (negb (non_empty (neat U (t_text n))) || one_of skip (neat U (t_text n))); reflexivity. Qed.
  Definition all_names (skip : list string) (ns : list tree) : list text := flat_map (fun n => as_list (name_of skip n)) ns.
  Definition keywords : list string := ["extends"; "super"; "where"].
  Lemma type_param_names_eq lang t : forall acc, type_param_names U lang t acc = fold_left push_unique (all_names keywords (map snd (outer (id_kinds lang) t))) acc.
  Proof.
    induction t as [k f b s x y cs IH] using tree_ind2. intro acc. rewrite outer_eq. cbn [type_param_names t_kind t_children]. destruct (one_of (id_kinds lang) k).
    - cbn [map snd all_names flat_map]. rewrite app_nil_r. apply add_name_eq.
    - generalize 0. revert acc. induction IH as [|c r H F IH]; intros acc i; cbn [fold_left outer_from]; [reflexivity|].
      rewrite (IH _ (S i)), H. unfold all_names. rewrite map_app, map_map, flat_map_app, fold_left_app. reflexivity.
  Qed.
  Lemma outer_places ks t : Forall2 (at_place t) (map fst (outer ks t)) (map snd (outer ks t)).
  Proof.
    assert (A : forall p n, In (p, n) (outer ks t) -> at_place t p n) by (intros p n H; apply outer_iff in H; exact (proj1 H)).
    induction (outer ks t) as [|(p & n) l IH]; cbn [map fst snd]; constructor; [apply A; left; reflexivity|apply IH; intros q m H; apply A; right; exact H].
  Qed.
  Lemma names_of_iff lang t v : names_of U (id_kinds lang) keywords t v <-> v = type_param_names U lang t [].
  Proof.
    rewrite type_param_names_eq. set (ks := id_kinds lang). split.
    - intros (ps & ns & names & So & F & O & E & Fi). apply firsts_iff in Fi. subst v. f_equal. apply (each_iff _ (name_of keywords)) in E; [|intros a b; apply name_of_iff]. subst names. unfold all_names. f_equal.
      assert (P : ps = map fst (outer ks t)).
      { assert (Same : forall p, In p ps <-> In p (map fst (outer ks t))).
        { intro p. rewrite in_map_iff. split.
          - intro H. destruct (forall2_in_l _ _ _ F p H) as (n & _ & A). exists (p, n). split; [reflexivity|]. apply outer_iff, O. auto.
          - intros ((q & n) & <- & H). apply outer_iff in H. apply O in H. exact (proj1 H). }
        pose proof (outer_sorted ks t) as So'. clear -So So' Same. revert Same. generalize dependent (map fst (outer ks t)). intros l Sl. revert So. revert ps. induction Sl as [|x l Sl IH F]; intros ps Sp Same.
        - destruct ps as [|p ps]; [reflexivity|]. destruct (proj1 (Same p) (or_introl eq_refl)).
        - destruct Sp as [|y ps Sp G]; [destruct (proj2 (Same x) (or_introl eq_refl))|]. rewrite Forall_forall in F, G.
          assert (y = x).
          { destruct (proj1 (Same y) (or_introl eq_refl)) as [E|H]; [auto|]. destruct (proj2 (Same x) (or_introl eq_refl)) as [E|H']; [auto|]. destruct (read_before_irrefl _ _ (F _ H) (G _ H')). }
          subst y. f_equal. apply IH; [exact Sp|]. intro p. specialize (Same p). cbn [In] in Same. split; intro H.
          + destruct (proj1 Same (or_intror H)) as [<-|H']; [destruct (read_before_neq _ (G _ H))|exact H'].
          + destruct (proj2 Same (or_intror H)) as [<-|H']; [destruct (read_before_neq _ (F _ H))|exact H']. }
      pose proof (outer_places ks t) as F'. rewrite <- P in F'. clear -F F'. revert F'. generalize (map snd (outer ks t)). induction F as [|p n ps ns A F IH]; intros l H; inversion H; subst; [reflexivity|]. f_equal; [eapply at_place_fun; eauto|apply IH; assumption].
    - intros ->. exists (map fst (outer ks t)), (map snd (outer ks t)), (all_names keywords (map snd (outer ks t))).
      split; [apply outer_sorted|split; [apply outer_places|split; [|split; [apply (each_iff _ (name_of keywords)); [intros a b; apply name_of_iff|reflexivity]|apply firsts_iff; reflexivity]]]].
      intros p n. rewrite <- outer_iff, in_map_iff. split.
      + intro H. split; [exists (p, n); auto|apply outer_iff in H; exact (proj1 H)].
      + intros (((q & m) & E & H) & A). cbn [fst] in E. subst q. assert (A' : at_place t p m) by (apply outer_iff in H; exact (proj1 H)). rewrite (at_place_fun _ _ _ _ A A'). exact H.
  Qed.

  (** ** Templates *)
  Definition direct (c : tree) : option text := if one_of ["type_identifier"; "identifier"] (t_kind c) then name_of [] c else None.
  Fixpoint template_list (t : tree) : list text :=
    let 'Tree k _ _ _ _ _ cs := t in
    if one_of ["type_identifier"] k then as_list (name_of [] t)
    else (if one_of ["type_parameter_declaration"; "template_type_parameter"] k then flat_map (fun c => as_list (direct c)) cs else []) ++ flat_map template_list cs.
  Lemma template_visit_eq t : forall acc, template_visit U t acc = fold_left push_unique (template_list t) acc.
  Proof.
    induction t as [k f b s x y cs IH] using tree_ind2. intro acc. cbn [template_visit template_list]. destruct (one_of ["type_identifier"] k); [apply add_name_eq|].
    rewrite fold_left_app.
    assert (D : (if one_of ["type_parameter_declaration"; "template_type_parameter"] k
        then fold_left (fun a c => if one_of ["type_identifier"; "identifier"] (t_kind c) then add_name U [] a c else a) cs acc else acc)
      = fold_left push_unique (if one_of ["type_parameter_declaration"; "template_type_parameter"] k then flat_map (fun c => as_list (direct c)) cs else []) acc).
    { destruct (one_of _ k); [|reflexivity]. clear IH. revert acc. induction cs as [|c r I2]; intro acc; cbn [fold_left flat_map]; [reflexivity|]. rewrite I2, fold_left_app. f_equal.
      unfold direct. destruct (one_of _ (t_kind c)); [apply add_name_eq|reflexivity]. }
    rewrite D. generalize (fold_left push_unique (if one_of ["type_parameter_declaration"; "template_type_parameter"] k then flat_map (fun c => as_list (direct c)) cs else []) acc).
    clear -IH. induction IH as [|c r H F IH]; intro acc; cbn [fold_left flat_map]; [reflexivity|]. rewrite IH, H, fold_left_app. reflexivity.
  Qed.
  Lemma in_as_list {A} (o : option A) x : In x (as_list o) <-> o = Some x.
  Proof. destruct o as [a|]; cbn [as_list In]; split; [intros [->|[]]; reflexivity|intros [= ->]; auto|intros []|discriminate]. Qed.
  Lemma template_list_iff t : forall s, In s (template_list t) <-> template_name U t s.
  Proof.
    induction t as [k f b w x y cs IH] using tree_ind2. intro s. rewrite Forall_forall in IH. set (t := Tree k f b w x y cs). unfold template_name.
    assert (E : template_list t = if one_of ["type_identifier"] k then as_list (name_of [] t)
      else (if one_of ["type_parameter_declaration"; "template_type_parameter"] k then flat_map (fun c => as_list (direct c)) cs else []) ++ flat_map template_list cs) by reflexivity.
    rewrite E. clear E. assert (Kt : forall ks, of_kind ks t <-> one_of ks k = true) by (intro ks; apply (of_kind_mem ks t)). destruct (one_of ["type_identifier"] k) eqn:K.
    - rewrite in_as_list, <- name_of_iff. split.
      + intro G. exists [], t. split; [constructor|split; [exact G|split; [|left; apply Kt; exact K]]]. intros q r m X R. symmetry in X. apply app_eq_nil in X. destruct X as (_ & X). congruence.
      + intros (p & n & A & G & N & _). destruct p as [|i p]; [inversion A; subst; exact G|]. exfalso. apply (N [] (i :: p) t eq_refl ltac:(discriminate) (at_root t)). apply Kt. exact K.
    - rewrite in_app_iff. split.
      + intros [H|H].
        * destruct (one_of _ k) eqn:K2 in H; [|destruct H]. apply in_flat_map in H. destruct H as (c & Ic & H). apply in_as_list in H. unfold direct in H. destruct (one_of _ (t_kind c)) eqn:Kc in H; [|discriminate]. apply name_of_iff in H.
          destruct (In_nth_error _ _ Ic) as (i & Ei). exists [i], c. split; [econstructor; [exact Ei|constructor]|split; [exact H|split]].
          -- intros q r m X R A. destruct q as [|j q]; [inversion A; subst; rewrite Kt; congruence|]. cbn [app] in X. injection X as _ X. symmetry in X. apply app_eq_nil in X. destruct X as (_ & X). congruence.
          -- apply of_kind_mem in Kc. destruct Kc as (kk & [<-|[<-|[]]] & Ek); [left; exists "type_identifier"; cbn [In]; auto|right]. split; [exists "identifier"; cbn [In]; auto|]. exists [], i, t. split; [reflexivity|split; [constructor|apply Kt; exact K2]].
        * apply in_flat_map in H. destruct H as (c & Ic & H). apply (IH c Ic) in H. destruct H as (p & n & A & G & N & D). destruct (In_nth_error _ _ Ic) as (i & Ei).
          exists (i :: p), n. split; [econstructor; eauto|split; [exact G|split]].
          -- intros q r m X R A'. inversion A' as [|? j c' q' ? Ej A'']; subst; [rewrite Kt; congruence|]. cbn [app] in X. injection X as -> ->. cbn [t_children] in Ej. unfold t in Ej. cbn [t_children] in Ej. rewrite Ei in Ej. injection Ej as <-. exact (N _ _ _ eq_refl R A'').
          -- destruct D as [D|(D & q & j & m & -> & A' & Km)]; [left; exact D|right]. split; [exact D|]. exists (i :: q), j, m. split; [reflexivity|split; [econstructor; eauto|exact Km]].
      + intros (p & n & A & G & N & D). inversion A as [|? i c p' ? Ei A']; subst.
        { destruct D as [D|(_ & q & j & m & X & _)]; [apply Kt in D; congruence|]. symmetry in X. apply app_eq_nil in X. destruct X as (_ & X). discriminate. }
        assert (Ic : In c cs) by (eapply nth_error_In; exact Ei).
        assert (N' : forall q r m, p' = q ++ r -> r <> [] -> at_place c q m -> ~ of_kind ["type_identifier"] m).
        { intros q r m -> R A''. apply (N (i :: q) r m eq_refl R). econstructor; eauto. }
        destruct D as [D|(D & q & j & m & X & Am & Km)].
        * right. apply in_flat_map. exists c. split; [exact Ic|]. apply (IH c Ic). exists p', n. auto.
        * destruct q as [|i' q].
          -- injection X as <- ->. inversion Am; subst m. assert (c = n) as -> by (inversion A'; auto). left. apply Kt in Km. rewrite Km. apply in_flat_map. exists n. split; [exact Ic|]. apply in_as_list. unfold direct.
             assert (Kn : one_of ["type_identifier"; "identifier"] (t_kind n) = true). { apply of_kind_mem. destruct D as (kk & [<-|[]] & Ek). exists "identifier". cbn [In]. auto. }
             rewrite Kn. apply name_of_iff. exact G.
          -- cbn [app] in X. injection X as <- ->. right. apply in_flat_map. exists c. split; [exact Ic|]. apply (IH c Ic). exists (q ++ [j]), n. split; [exact A'|split; [exact G|split; [exact N'|right]]]. split; [exact D|]. exists q, j, m. split; [reflexivity|split; [|exact Km]].
             inversion Am as [|? ? c' ? ? Ei' A'']; subst. unfold t in Ei, Ei'. rewrite Ei in Ei'. injection Ei' as <-. exact A''.
  Qed.
  Lemma template_visit_iff t : NoDup (template_visit U t []) /\ forall s, In s (template_visit U t []) <-> template_name U t s.
  Proof.
    rewrite template_visit_eq. split; [apply push_nodup; constructor|]. intro s. rewrite push_in, <- template_list_iff. cbn [In]. tauto.
  Qed.

  (** ** Receivers *)
  Lemma strip_cut fuel : forall s, length s <= fuel -> exists stars, s = stars ++ strip_fuel fuel (txt "*") s /\ (forall c, In c stars -> c = 42%Z) /\ forall r, strip_fuel fuel (txt "*") s <> 42%Z :: r.
  Proof.
    induction fuel as [|fu IH]; intros s L.
    - destruct s; [|cbn in L; lia]. exists []. split; [reflexivity|split; [intros c []|discriminate]].
    - cbn [strip_fuel]. destruct (starts_with (txt "*") s) eqn:E.
      + destruct s as [|c r]; [discriminate|]. assert (c = 42%Z) as ->. { change (txt "*") with [42%Z] in E. cbn [starts_with] in E. apply andb_true_iff in E. destruct E as (E & _). apply Z.eqb_eq in E. symmetry. exact E. }
        change (skipn (length (txt "*")) (42%Z :: r)) with r. cbn [List.length] in L. destruct (IH r ltac:(lia)) as (st & H & All & N). exists (42%Z :: st). split; [cbn [app]; f_equal; exact H|split; [intros c [<-|J]; auto|exact N]].
      + exists []. split; [reflexivity|split; [intros c []|]]. intros r ->. discriminate E.
  Qed.
  Lemma receiver_iff s w : receiver_type U s w <-> neat U (strip_start (txt "*") s) = w.
  Proof.
    unfold strip_start. destruct (strip_cut (length s) s (le_n _)) as (st & E & All & N). remember (strip_fuel (length s) (txt "*") s) as rest. unfold receiver_type. split.
    - intros (st' & rest' & E' & All' & N' & B). apply bared_neat in B. subst w. f_equal. clear -E E' All All' N N'. rewrite E' in E. clear E'. revert st E All. induction st' as [|c l IH]; intros [|d st] E All; cbn [app] in E.
      + auto.
      + subst rest'. rewrite (All d (or_introl eq_refl)) in N'. destruct (N' _ eq_refl).
      + subst rest. rewrite (All' c (or_introl eq_refl)) in N. destruct (N _ eq_refl).
      + injection E as _ E. apply (IH ltac:(intros z J; apply All'; right; exact J) st E). intros z J. apply All. right. exact J.
    - intros <-. exists st, rest. split; [exact E|split; [exact All|split; [exact N|apply neat_bared]]].
  Qed.
  Lemma function_type_iff lang up n class m w :
    function_type U lang up n class = (m, w) <->
    match class with
    | Some _ => m = true /\ w = None
    | None => (m = true /\ exists t, w = Some t /\ belongs U lang up n t) \/ (m = false /\ w = None /\ forall t, ~ belongs U lang up n t)
    end.
  Proof.
    destruct class as [c|]; cbn [function_type]; [split; [intros [= <- <-]; auto|intros (-> & ->); reflexivity]|].
    set (owner := if is lang ["go"] then _ else _).
    assert (O : forall t, owner = Some t <-> belongs U lang up n t).
    { intro t. unfold owner, belongs. destruct (is lang ["go"]) eqn:G.
      - apply is_one in G. rewrite and_then_iff. split.
        + intros (x & K & H). apply keep_kind_iff in K. destruct K as (-> & K). apply and_then_iff in H. destruct H as (r & R & H). unfold go_receiver in H. apply and_then_iff in H. destruct H as (ty & A & [= <-]).
          left. split; [exact G|split; [exact K|]]. exists r, ty. apply by_field_iff in R. split; [exact R|split; [|apply receiver_iff; reflexivity]]. apply (among_iff _ (by_field "type")); [intros a b; apply by_field_iff|exact A].
        + intros [(_ & K & r & ty & R & A & T)|(X & _)]; [|subst lang; discriminate]. exists n. split; [apply keep_kind_iff; auto|]. apply and_then_iff. exists r. split; [apply by_field_iff; exact R|]. unfold go_receiver. apply and_then_iff. exists ty.
          split; [apply (among_iff _ _ (in_field "type")); [intros a b; apply by_field_iff|exact A]|]. apply receiver_iff in T. rewrite T. reflexivity.
      - assert (NG : lang <> txt "go") by (intro X; apply is_one in X; congruence). destruct (is lang ["rust"]) eqn:Ru.
        + apply is_one in Ru. destruct up as [|p [|g rest]].
          * split; [discriminate|]. intros [(X & _)|(_ & p & g & rest & ty & X & _)]; [congruence|discriminate].
          * split; [discriminate|]. intros [(X & _)|(_ & p' & g & rest & ty & X & _)]; [congruence|discriminate].
          * rewrite and_then_iff. split.
            -- intros (x & K & H). apply keep_kind_iff in K. destruct K as (_ & K). apply and_then_iff in H. destruct H as (g' & K' & H). apply keep_kind_iff in K'. destruct K' as (-> & K'). destruct (by_field "type" g) as [ty|] eqn:F; [|discriminate]. injection H as <-.
               right. split; [exact Ru|]. exists p, g, rest, ty. apply by_field_iff in F. auto.
            -- intros [(X & _)|(_ & p' & g' & rest' & ty & [= <- <- <-] & K & K' & F & ->)]; [congruence|]. exists p. split; [apply keep_kind_iff; auto|]. apply and_then_iff. exists g. split; [apply keep_kind_iff; auto|]. apply by_field_iff in F. rewrite F. reflexivity.
        + split; [discriminate|]. intros [(X & _)|(X & _)]; [congruence|apply is_one in X; congruence]. }
    destruct owner as [t|].
    - split.
      + intros [= <- <-]. left. split; [reflexivity|]. exists t. split; [reflexivity|apply O; reflexivity].
      + intros [(-> & t' & -> & B)|(_ & _ & N)]; [apply O in B; injection B as ->; reflexivity|]. destruct (N t). apply O. reflexivity.
    - split.
      + intros [= <- <-]. right. split; [reflexivity|split; [reflexivity|]]. intros t B. apply O in B. discriminate.
      + intros [(_ & t' & _ & B)|(-> & -> & _)]; [apply O in B; discriminate|reflexivity].
  Qed.
End NAMES.
