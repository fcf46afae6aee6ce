(** Proofs about QML units: what one node gives. *)
From Verif Require Import Base Text FtsText FtsTextSpec FtsTextProofs CallGraphSpec CallGraphProofs Analysis AnalysisSpec AnalysisTree AnalysisProofs AnalysisText AnalysisMore Pattern Qml QmlSpec.
From Coq Require Import String.
Open Scope string_scope.
Open Scope nat_scope.
Open Scope list_scope.
Notation length := List.length.

(** ** Lists *)
Lemma push_in l : forall acc x, In x (fold_left push_unique l acc) <-> In x acc \/ In x l.
Proof.
  induction l as [|y l IH]; intros acc x; cbn [fold_left In]; [tauto|]. rewrite IH. unfold push_unique. destruct (mem y acc) eqn:M.
  - apply mem_in in M. split; [tauto|]. intros [H|[<-|H]]; tauto.
  - rewrite in_app_iff. cbn [In]. tauto.
Qed.
Lemma firsts_iff l v : firsts l v <-> v = fold_left push_unique l [].
Proof.
  split.
  - induction 1 as [|l v x F IH N|l v x F IH N]; [reflexivity| |]; rewrite fold_left_app; cbn [fold_left]; rewrite <- IH; unfold push_unique;
      destruct (mem x v) eqn:M; try reflexivity; exfalso.
    + apply mem_in in M. rewrite IH in M. apply push_in in M. destruct M as [[]|M]. auto.
    + assert (I : In x v) by (rewrite IH; apply push_in; auto). apply mem_in in I. congruence.
  - revert v. induction l as [|x l IH] using rev_ind; intros v ->; [constructor|]. rewrite fold_left_app. cbn [fold_left]. unfold push_unique at 1. specialize (IH _ eq_refl).
    destruct (mem x (fold_left push_unique l [])) eqn:M.
    + apply firsts_old; [exact IH|]. apply mem_in, push_in in M. destruct M as [[]|M]. exact M.
    + apply firsts_new; [exact IH|]. intro I. assert (mem x (fold_left push_unique l []) = true) by (apply mem_in, push_in; auto). congruence.
Qed.
Lemma push_nodup_id l : forall acc, NoDup (acc ++ l) -> fold_left push_unique l acc = acc ++ l.
Proof.
  induction l as [|x l IH]; intros acc N; cbn [fold_left]; [rewrite app_nil_r; reflexivity|]. unfold push_unique at 2. assert (M : mem x acc = false).
  { destruct (mem x acc) eqn:M; [|reflexivity]. apply mem_in in M. apply NoDup_remove_2 in N. exfalso. apply N, in_or_app. auto. }
  rewrite M, IH; rewrite <- app_assoc; [reflexivity|exact N].
Qed.
Lemma push_nodup l : forall acc, NoDup acc -> NoDup (fold_left push_unique l acc).
Proof.
  induction l as [|x l IH]; intros acc N; cbn [fold_left]; [exact N|]. apply IH. unfold push_unique. destruct (mem x acc) eqn:M; [exact N|].
  apply nodup_app; [exact N|constructor; [intros []|constructor]|]. intros y I [<-|[]]. apply mem_in in I. congruence.
Qed.
Lemma each_iff {A B} (R : A -> B -> Prop) (f : A -> option B) : (forall a b, R a b <-> f a = Some b) -> forall l r, each R l r <-> r = flat_map (fun a => as_list (f a)) l.
Proof.
  intros H l. induction l as [|a l IH]; intro r; cbn [flat_map].
  - split; [inversion 1; reflexivity|intros ->; constructor].
  - destruct (f a) as [b|] eqn:E; cbn [as_list app].
    + split.
      * inversion 1 as [|a' b' l' r' X Y|a' l' r' X Y]; subst; [apply H in X; rewrite E in X; injection X as <-; f_equal; apply IH; exact Y|]. exfalso. apply (X b), H. exact E.
      * intros ->. apply each_gives; [apply H; exact E|apply IH; reflexivity].
    + split.
      * inversion 1 as [|a' b' l' r' X Y|a' l' r' X Y]; subst; [apply H in X; congruence|apply IH; exact Y].
      * intros ->. apply each_none; [intros b X; apply H in X; congruence|apply IH; reflexivity].
Qed.
Lemma one_kind k n : of_kind [k] n <-> t_kind n = txt k.
Proof. unfold of_kind. cbn [In]. split; [intros (x & [<-|[]] & E); exact E|intro E; exists k; auto]. Qed.
Lemma eqb_kind k n : text_eqb (t_kind n) (txt k) = true <-> of_kind [k] n.
Proof. rewrite one_kind. apply text_eqb_eq. Qed.

Section ONE.
  Variable U : unicode.
  Lemma node_text_iff n s : node_text U n = Some s <-> code_of U n s.
  Proof.
    unfold node_text, some_text, code_of. split.
    - destruct (non_empty (neat U (t_text n))) eqn:N; [|discriminate]. intro E. injection E as <-. split; [apply neat_bared|]. intro X. rewrite X in N. discriminate N.
    - intros (B & N). rewrite (bared_neat _ _ _ B). destruct s; [congruence|reflexivity].
  Qed.
  Lemma field_text_iff f n s : field_text U f n = Some s <-> field_says U f n s.
  Proof.
    unfold field_text, field_says. split.
    - destruct (by_field f n) as [c|] eqn:E; [|discriminate]. cbn [and_then]. intro H. exists c. split; [apply by_field_iff; exact E|apply node_text_iff; exact H].
    - intros (c & F & H). apply by_field_iff in F. rewrite F. cbn [and_then]. apply node_text_iff. exact H.
  Qed.
  Lemma may_say_iff f n o : may_say U f n o <-> o = field_text U f n.
  Proof.
    unfold may_say. destruct o as [s|].
    - rewrite <- field_text_iff. split; congruence.
    - split.
      + intro H. destruct (field_text U f n) as [s|] eqn:E; [|reflexivity]. apply field_text_iff in E. destruct (H _ E).
      + intros E s X. apply field_text_iff in X. congruence.
  Qed.
  Lemma first_line_iff code s : first_line U code s <-> s = first_non_empty_line U code.
  Proof.
    unfold first_line, first_non_empty_line. split.
    - intros [(a & l & b & E & Ha & Hl & B)|(Ha & ->)].
      + assert (F : find (fun l => non_empty (neat U l)) (lines code) = Some l).
        { apply find_split. exists a, b. split; [exact E|split]. { destruct (non_empty (neat U l)) eqn:N; [reflexivity|]. apply blank_iff in N. contradiction. } intros y I. apply blank_iff, Ha, I. }
        rewrite F. symmetry. apply bared_neat. exact B.
      + destruct (find _ (lines code)) as [l|] eqn:F; [|reflexivity]. apply find_some in F. destruct F as (I & N). apply Ha, blank_iff in I. congruence.
    - intros ->. destruct (find _ (lines code)) as [l|] eqn:F.
      + left. apply find_split in F. destruct F as (a & b & E & N & H). exists a, l, b. split; [exact E|split; [intros x I; apply blank_iff, H, I|split; [|apply neat_bared]]]. intro B. apply blank_iff in B. congruence.
      + right. split; [|reflexivity]. intros x I. apply blank_iff. apply (find_none _ _ F x I).
  Qed.
  Lemma own_line_iff ls n s : own_line U ls n s <-> s = line_of U ls n.
  Proof.
    unfold own_line, line_of. destruct (nth_error ls (t_first n)) as [l|]; [|reflexivity]. split; [intro B; symmetry; apply bared_neat; exact B|intros ->; apply neat_bared].
  Qed.
  Lemma simple_iff s : simple_name s <-> is_simple_identifier s = true.
  Proof.
    unfold simple_name, is_simple_identifier. destruct s as [|c r].
    - split; [intros (c & r & X & _); discriminate X|discriminate].
    - assert (Q : forall f x, under x || f x = true <-> x = 95%Z \/ f x = true) by (intros f x; unfold under; rewrite orb_true_iff, Z.eqb_eq; reflexivity).
      rewrite andb_true_iff, Q, forallb_forall. split.
      + intros (c' & r' & E & H & F). injection E as <- <-. split; [exact H|]. intros x I. apply Q, F, I.
      + intros (H & F). exists c, r. split; [reflexivity|split; [exact H|]]. intros x I. apply Q, F, I.
  Qed.
  Lemma variable_here_iff c s : variable_here U c s <-> variable_of U c = Some s.
  Proof.
    unfold variable_here, variable_of. rewrite <- !eqb_kind. destruct (text_eqb (t_kind c) (txt "ui_property")) eqn:P.
    - apply text_eqb_eq in P. rewrite P. change (text_eqb (txt "ui_property") (txt "ui_binding")) with false. rewrite field_text_iff. split; [intros [(_ & X)|(X & _)]; [exact X|discriminate X]|intro X; left; auto].
    - destruct (text_eqb (t_kind c) (txt "ui_binding")); [|split; [intros [(X & _)|(X & _)]; discriminate X|discriminate]].
      rewrite <- (field_text_iff "name" c (txt "id")). destruct (field_text U "name" c) as [n|]; [|split; [intros [(X & _)|(_ & X & _)]; discriminate X|discriminate]].
      destruct (text_eqb n (txt "id")) eqn:I.
      + apply text_eqb_eq in I. subst n. destruct (by_field "value" c) as [v|] eqn:F; cbn [and_then].
        * destruct (is_simple_identifier (neat U (t_text v))) eqn:Si.
          -- split.
             ++ intros [(X & _)|(_ & _ & v' & Fv & B & _)]; [discriminate X|]. apply by_field_iff in Fv. rewrite F in Fv. injection Fv as <-. rewrite (bared_neat _ _ _ B). reflexivity.
             ++ intro E. injection E as <-. right. split; [reflexivity|split; [reflexivity|]]. exists v. split; [apply by_field_iff; exact F|split; [apply neat_bared|apply simple_iff; exact Si]].
          -- split; [|discriminate]. intros [(X & _)|(_ & _ & v' & Fv & B & Sm)]; [discriminate X|]. apply by_field_iff in Fv. rewrite F in Fv. injection Fv as <-. rewrite (bared_neat _ _ _ B) in Si. apply simple_iff in Sm. congruence.
        * split; [|discriminate]. intros [(X & _)|(_ & _ & v & Fv & _)]; [discriminate X|]. apply by_field_iff in Fv. congruence.
      + split; [|discriminate]. intros [(X & _)|(_ & X & _)]; [discriminate X|]. injection X as ->. rewrite (proj2 (text_eqb_eq _ _) eq_refl) in I. discriminate I.
  Qed.
  Lemma fold_some (f : tree -> option text) l : forall acc, fold_left (fun l c => match f c with Some x => push_unique l x | None => l end) l acc = fold_left push_unique (flat_map (fun a => as_list (f a)) l) acc.
  Proof. induction l as [|c l IH]; intro acc; cbn [fold_left flat_map]; [reflexivity|]. rewrite fold_left_app, IH. destruct (f c); reflexivity. Qed.
  Lemma object_variables_iff n v : object_variables U n v <-> v = extract_object_variables U n.
  Proof.
    unfold object_variables, extract_object_variables. rewrite <- by_field_none. destruct (by_field "initializer" n) as [i|] eqn:F.
    - rewrite fold_some. split.
      + intros [(X & _)|(i' & all & Fi & E & Fs)]; [discriminate X|]. apply by_field_iff in Fi. rewrite F in Fi. injection Fi as <-. apply (each_iff _ _ variable_here_iff) in E. subst all. apply firsts_iff. exact Fs.
      + intros ->. right. exists i. eexists. split; [apply by_field_iff; exact F|split; [apply (each_iff _ _ variable_here_iff); reflexivity|apply firsts_iff; reflexivity]].
    - split; [intros [(_ & X)|(i & all & Fi & _)]; [exact X|apply by_field_iff in Fi; congruence]|intros ->; left; auto].
  Qed.
  Lemma signal_parameters_iff n v : signal_parameters U n v <-> v = extract_signal_parameters U n.
  Proof.
    unfold signal_parameters, extract_signal_parameters. rewrite <- by_field_none.
    set (f := fun c => if text_eqb (t_kind c) (txt "ui_signal_parameter") then node_text U c else None).
    assert (Hf : forall c s, of_kind ["ui_signal_parameter"] c /\ code_of U c s <-> f c = Some s).
    { intros c s. unfold f. rewrite <- eqb_kind, <- node_text_iff. destruct (text_eqb _ _); [tauto|split; [intros (X & _); discriminate X|discriminate]]. }
    assert (Fm : forall l, flat_map (fun a => as_list (f a)) l = filter non_empty (map (fun c => neat U (t_text c)) (filter (fun c => text_eqb (t_kind c) (txt "ui_signal_parameter")) l))).
    { induction l as [|c l IH]; [reflexivity|]. cbn [flat_map filter]. rewrite IH. unfold f. destruct (text_eqb (t_kind c) (txt "ui_signal_parameter")); [|reflexivity]. cbn [map filter]. unfold node_text, some_text. destruct (non_empty (neat U (t_text c))); reflexivity. }
    destruct (by_field "parameters" n) as [p|] eqn:F.
    - rewrite <- Fm. split.
      + intros [(X & _)|(p' & Fp & E)]; [discriminate X|]. apply by_field_iff in Fp. rewrite F in Fp. injection Fp as <-. apply (each_iff _ _ Hf) in E. exact E.
      + intros ->. right. exists p. split; [apply by_field_iff; exact F|apply (each_iff _ _ Hf); reflexivity].
    - split; [intros [(_ & X)|(i & Fi & _)]; [exact X|apply by_field_iff in Fi; congruence]|intros ->; left; auto].
  Qed.
  Lemma handler_iff s : handler_name s <-> looks_like_signal_handler s = true.
  Proof.
    unfold handler_name, looks_like_signal_handler. destruct s as [|a [|b [|c r]]]; try (split; [intros (x & y & X & _); discriminate X|discriminate]).
    rewrite !andb_true_iff, !Z.eqb_eq. split.
    - intros (x & y & X & H). cbn in X. injection X as -> -> -> _. auto.
    - intros ((-> & ->) & H). exists c, r. split; [reflexivity|exact H].
  Qed.

  (** ** Imports *)
  Lemma unquoted_with_iff q s core : unquoted_with q s core <-> core = trim (fun c => (c =? q)%Z) s.
  Proof.
    split.
    - intros (a & b & -> & H & F & L). symmetry. apply trim_unique; [intros c I; apply Z.eqb_eq, H, I|intros c r E; apply Z.eqb_neq, (F c r E)|intros c r E; apply Z.eqb_neq, (L c r E)].
    - intros ->. destruct (trim_cut (fun c => (c =? q)%Z) s) as (a & b & E & H & N1 & N2). exists a, b. split; [exact E|split; [intros c I; apply Z.eqb_eq, H, I|split; intros c r X; apply Z.eqb_neq; [eapply N1|eapply N2]; exact X]].
  Qed.
  Lemma split_words ws s w : In w (split_whitespace ws s) -> w <> [] /\ none ws w.
  Proof.
    intro I. pose proof (split_ws_splits ws (S (length s)) s (Nat.lt_succ_diag_r _)) as Sp. fold (split_whitespace ws s) in Sp.
    induction Sp as [g G|g w' r l G N Ne R Sp IH]; [destruct I|]. destruct I as [<-|I]; auto.
  Qed.
  Lemma word_neat w : none (u_ws U) w -> neat U w = w.
  Proof.
    intro N. apply bared_neat. exists [], []. rewrite app_nil_r. split; [reflexivity|split; [intros c []|split; [intros c []|split]]]; intros c r E; apply N; rewrite E; [left; reflexivity|apply in_or_app; right; left; reflexivity].
  Qed.
  Lemma after_first_some sep s b : after_first sep s = Some b <-> exists a, s = a ++ sep ++ b /\ forall a' b', s = a' ++ sep ++ b' -> length a <= length a'.
  Proof.
    revert b. induction s as [|c s IH]; intro b; cbn [after_first]; destruct (starts_with sep _) eqn:E.
    - apply starts_with_spec in E. destruct E as (t & E). destruct sep; [|discriminate E]. destruct t; [|discriminate E]. cbn. split.
      + intro X. injection X as <-. exists []. split; [reflexivity|]. intros; cbn; lia.
      + intros (a & X & _). destruct a; [destruct b; [reflexivity|discriminate X]|discriminate X].
    - split; [discriminate|]. intros (a & X & _). assert (starts_with sep [] = true); [|congruence]. destruct a; [|discriminate X]. apply starts_with_spec. exists b. exact X.
    - apply starts_with_spec in E. destruct E as (t & E). rewrite E, skipn_app, skipn_all, Nat.sub_diag. cbn [app skipn]. split.
      + intro X. injection X as <-. exists []. split; [reflexivity|]. intros; cbn; lia.
      + intros (a & X & Min). specialize (Min [] t eq_refl). destruct a; [|cbn in Min; lia]. cbn in X. apply app_inv_head in X. rewrite X. reflexivity.
    - rewrite IH. split.
      + intros (a & -> & Min). exists (c :: a). split; [reflexivity|]. intros [|x a'] b' X; [|cbn in X; injection X as _ X; cbn; apply le_n_S, (Min _ _ X)].
        exfalso. assert (starts_with sep (c :: a ++ sep ++ b) = true); [|congruence]. apply starts_with_spec. exists b'. exact X.
      + intros (a & X & Min). destruct a as [|x a]; [exfalso; assert (starts_with sep (c :: s) = true); [apply starts_with_spec; exists b; exact X|congruence]|].
        cbn in X. injection X as -> ->. exists a. split; [reflexivity|]. intros a' b' Y. specialize (Min (x :: a') b'). cbn in Min. rewrite Y in Min. specialize (Min eq_refl). lia.
  Qed.
  Lemma after_first_none sep s : after_first sep s = None <-> forall a b, s <> a ++ sep ++ b.
  Proof.
    induction s as [|c s IH]; cbn [after_first]; destruct (starts_with sep _) eqn:E.
    - split; [discriminate|]. intro H. apply starts_with_spec in E. destruct E as (t & E). destruct (H [] t E).
    - split; [intros _ a b X|reflexivity]. destruct a; [|discriminate X]. assert (starts_with sep [] = true); [apply starts_with_spec; exists b; exact X|congruence].
    - split; [discriminate|]. intro H. apply starts_with_spec in E. destruct E as (t & E). destruct (H [] t E).
    - rewrite IH. split.
      + intros H [|x a] b X; [assert (starts_with sep (c :: s) = true); [apply starts_with_spec; exists b; exact X|congruence]|]. cbn in X. injection X as _ X. exact (H _ _ X).
      + intros H a b X. apply (H (c :: a) b). cbn. congruence.
  Qed.
  Lemma alias_iff r l : import_alias U r l <-> l = match after_first (txt " as ") r with Some a => named_text (neat U (first_word (u_ws U) a)) | None => [] end.
  Proof.
    assert (W : forall b, named_text (neat U (first_word (u_ws U) b)) = match split_whitespace (u_ws U) b with w :: _ => [w] | [] => [] end).
    { intro b. unfold first_word. pose proof (split_words (u_ws U) b) as Sw. destruct (split_whitespace (u_ws U) b) as [|w rest]; cbn [hd]; [reflexivity|]. destruct (Sw w (or_introl eq_refl)) as (Ne & N). rewrite (word_neat w N). destruct w; [congruence|reflexivity]. }
    unfold import_alias. destruct (after_first (txt " as ") r) as [b|] eqn:A.
    - rewrite W. pose proof A as A'. apply after_first_some in A. destruct A as (a & E & Min). split.
      + intros [(X & _)|(a' & b' & E' & Min' & H)]; [destruct (X _ _ E)|]. assert (b' = b). { assert (after_first (txt " as ") r = Some b') by (apply after_first_some; eauto). congruence. } subst b'.
        destruct H as [(w & (rest & Hw) & ->)|(Hw & ->)]; rewrite Hw; reflexivity.
      + intros ->. right. exists a, b. split; [exact E|split; [exact Min|]]. destruct (split_whitespace (u_ws U) b) as [|w rest] eqn:Sp; [right; auto|left; exists w; split; [exists rest; exact Sp|reflexivity]].
    - pose proof (proj1 (after_first_none _ _) A) as N. split; [intros [(_ & X)|(a & b & E & _)]; [exact X|destruct (N _ _ E)]|intros ->; left; auto].
  Qed.
  Lemma strip_rep mark k rest : txt mark <> [] -> starts_with (txt mark) rest = false -> strip_start (txt mark) (List.concat (repeat (txt mark) k) ++ rest) = rest.
  Proof.
    intros NE St. unfold strip_start. assert (Le : k <= length (List.concat (repeat (txt mark) k) ++ rest)).
    { rewrite app_length. assert (k <= length (List.concat (repeat (txt mark) k))); [|lia]. induction k as [|k IH]; [cbn; lia|]. cbn [repeat List.concat]. rewrite app_length. destruct (txt mark) as [|x y]; [congruence|]. cbn [length]. lia. }
    revert Le. generalize (length (List.concat (repeat (txt mark) k) ++ rest)). induction k as [|k IH]; intros n Le.
    - cbn [repeat List.concat app]. destruct n; cbn [strip_fuel]; [reflexivity|]. rewrite St. reflexivity.
    - destruct n; [lia|]. cbn [repeat List.concat strip_fuel]. rewrite <- app_assoc. assert (X : starts_with (txt mark) (txt mark ++ List.concat (repeat (txt mark) k) ++ rest) = true) by (apply starts_with_spec; eauto).
      rewrite X, skipn_app, skipn_all, Nat.sub_diag. cbn [app skipn]. apply IH. lia.
  Qed.
  Lemma says_iff mark l r : txt mark <> [] -> says U mark l r <-> marked U mark l /\ r = uncomment U mark (neat U l).
  Proof.
    intro NE. split.
    - intros (t & k & rest & B & E & K & St & Bs). split.
      + apply marked_iff. rewrite (bared_neat _ _ _ B), E. apply starts_with_spec. destruct k; [lia|]. cbn [repeat List.concat]. rewrite <- app_assoc. eauto.
      + unfold uncomment. rewrite (bared_neat _ _ _ B), E, strip_rep by assumption. symmetry. apply bared_neat. exact Bs.
    - intros (M & ->). apply says_uncomment; assumption.
  Qed.
  Lemma first_of_bared s r : bared U s r -> r <> [] -> exists w rest, split_whitespace (u_ws U) r = w :: rest.
  Proof.
    intros (a & b & _ & _ & _ & F & _) Ne. destruct r as [|c r]; [congruence|]. unfold split_whitespace. cbn [split_ws_fuel drop_while]. rewrite (F c r eq_refl). eauto.
  Qed.
  Lemma import_names_iff line l : import_names U line l <-> l = line_imports U line.
  Proof.
    unfold import_names, line_imports. assert (Mk := marked_iff U "import " line). assert (Sa := fun r => says_iff "import " line r ltac:(discriminate)).
    destruct (starts_with (txt "import ") (neat U line)).
    - assert (M : marked U "import " line) by (apply Mk; reflexivity). fold (uncomment U "import " (neat U line)). set (r := uncomment U "import " (neat U line)) in *.
      assert (Br : bared U (strip_start (txt "import ") (neat U line)) r) by apply neat_bared.
      destruct (non_empty r) eqn:N.
      + assert (Nr : r <> []) by (intro X; rewrite X in N; discriminate N). destruct (first_of_bared _ _ Br Nr) as (w & rest & W). assert (Fw : first_word (u_ws U) r = w) by (unfold first_word; rewrite W; reflexivity). rewrite Fw. split.
        * intros [(X & _)|(r' & S & H)]; [contradiction|]. apply Sa in S. destruct S as (_ & ->). destruct H as [(X & _)|(w0 & w' & m & al & (rest' & Hw) & Q1 & Q2 & A & ->)]; [contradiction|].
          rewrite W in Hw. injection Hw as <- _. apply unquoted_with_iff in Q1. subst w'. apply unquoted_with_iff in Q2. subst m. apply alias_iff in A. subst al. unfold named_text, non_empty. destruct (trim _ (trim _ w)); reflexivity.
        * intros ->. right. exists r. split; [apply Sa; auto|right]. exists w. do 3 eexists. split; [exists rest; exact W|split; [apply unquoted_with_iff; reflexivity|split; [apply unquoted_with_iff; reflexivity|split; [apply alias_iff; reflexivity|]]]].
          unfold named_text at 1. destruct (trim _ (trim _ w)); reflexivity.
      + assert (Er : r = []) by (destruct r; [reflexivity|discriminate N]). split.
        * intros [(X & _)|(r' & S & H)]; [contradiction|]. apply Sa in S. destruct S as (_ & ->). destruct H as [(_ & ->)|(w0 & w' & m & al & (rest' & Hw) & _)]; [reflexivity|]. rewrite Er in Hw. discriminate Hw.
        * intros ->. right. exists r. split; [apply Sa; auto|left; auto].
    - assert (M : ~ marked U "import " line) by (rewrite Mk; discriminate). split; [intros [(_ & X)|(r & S & _)]; [exact X|]|intros ->; left; auto]. apply Sa in S. destruct S as (S & _). contradiction.
  Qed.
  Lemma file_imports_iff ls v : file_imports U ls v <-> v = extract_qml_imports U ls.
  Proof.
    unfold file_imports, extract_qml_imports. assert (F : forall l e, Forall2 (import_names U) l e <-> e = map (line_imports U) l).
    { induction l as [|x l IH]; intro e; split.
      - inversion 1; reflexivity.
      - intros ->. constructor.
      - inversion 1; subst. cbn [map]. f_equal; [apply import_names_iff; assumption|apply IH; assumption].
      - intros ->. constructor; [apply import_names_iff; reflexivity|apply IH; reflexivity]. }
    rewrite flat_map_concat_map. split.
    - intros (e & H & X). apply F in H. subst e. apply firsts_iff. exact X.
    - intros ->. eexists. split; [apply F; reflexivity|apply firsts_iff; reflexivity].
  Qed.
  Lemma used_iff code name : used_in code name = true <-> mentions code name.
  Proof.
    unfold used_in, mentions. rewrite !orb_true_iff, !contains_spec. change (txt ".") with [46%Z]. change (txt " ") with [32%Z]. change (txt " {") with [32%Z; 123%Z]. split.
    - intros [[(a & b & E)|(a & b & E)]|(a & b & E)]; [exists a, 46%Z, b|exists a, 32%Z, b|exists a, 32%Z, (123%Z :: b)]; (split; [rewrite E, <- ?app_assoc; reflexivity|auto]).
    - intros (a & c & b & E & [->|Hc]); [left; left|left; right; subst c]; exists a, b; rewrite E, <- ?app_assoc; reflexivity.
  Qed.
  Lemma imports_mentioned_iff ls code v : imports_mentioned U ls code v <-> v = imports_used_in_code U ls code.
  Proof.
    unfold imports_mentioned, imports_used_in_code. rewrite push_nodup_id by (cbn [app]; apply NoDup_filter, push_nodup; constructor). cbn [app]. split.
    - intros (all & keep & Fi & K & ->). apply file_imports_iff in Fi. subst all. apply filter_ext. intro x. destruct (keep x) eqn:E.
      + symmetry. apply used_iff, K. exact E.
      + destruct (used_in code x) eqn:E'; [|reflexivity]. apply used_iff, K in E'. congruence.
    - intros ->. exists (extract_qml_imports U ls), (used_in code). split; [apply file_imports_iff; reflexivity|split; [intro x; apply used_iff|reflexivity]].
  Qed.
End ONE.
