(** The older notation of patterns, and braces. *)
From Verif Require Import Base Text Regex Glob Pattern PatternSpec PatternProofs.
Open Scope nat_scope.

(** Positions of the backslashes before the delimiters of kind [b] (braces or parentheses). *)
Fixpoint delims (b : bool) (p : old) (i : nat) : list nat :=
  match p with
  | ONil => []
  | OChar _ r => delims b r (S i)
  | OEsc _ r | OBar r => delims b r (i + 2)
  | OGroup a r => (if b then [] else [i; i + 2 + length (write_old a)]) ++ delims b a (i + 2) ++ delims b r (i + 4 + length (write_old a))
  | OBrace a r => (if b then [i; i + 2 + length (write_old a)] else []) ++ delims b a (i + 2) ++ delims b r (i + 4 + length (write_old a))
  end.
Definition opn (b : bool) : Z := if b then ch "{" else ch "(".
Definition cls (b : bool) : Z := if b then ch "}" else ch ")".
Lemma mark_esc b d s i st : d <> opn b -> d <> cls b -> mark_pairs (opn b) (cls b) (ch "\" :: d :: s) i st = mark_pairs (opn b) (cls b) s (i + 2) st.
Proof.
  intros N1 N2. cbn [mark_pairs]. rewrite Z.eqb_refl. destruct (Z.eqb_spec d (ch "\")); [reflexivity|]. destruct (Z.eqb_spec d (opn b)); [contradiction|]. destruct (Z.eqb_spec d (cls b)); [contradiction|reflexivity].
Qed.
Lemma mark_open b s i st : mark_pairs (opn b) (cls b) (ch "\" :: opn b :: s) i st = mark_pairs (opn b) (cls b) s (i + 2) (i :: st).
Proof. destruct b; reflexivity. Qed.
Lemma mark_close b s i o st : mark_pairs (opn b) (cls b) (ch "\" :: cls b :: s) i (o :: st) = o :: i :: mark_pairs (opn b) (cls b) s (i + 2) st.
Proof. destruct b; reflexivity. Qed.

Lemma mark_old b : forall p s i st, ok_old p -> exists M, mark_pairs (opn b) (cls b) (write_old p ++ s) i st = M ++ mark_pairs (opn b) (cls b) s (i + length (write_old p)) st /\ incl (delims b p i) M.
Proof.
  induction p as [|c r IH|d r IH|r IH|a IA r IH|a IA r IH]; intros s i st K; cbn [ok_old write_old delims] in *.
  - exists []. cbn. rewrite Nat.add_0_r. split; [reflexivity|intros x []].
  - destruct K as (N & K). destruct (IH s (S i) st K) as (M & E & I). exists M. split; [|exact I]. rewrite <- app_comm_cons. cbn [mark_pairs length]. destruct (Z.eqb_spec c (ch "\")); [contradiction|]. rewrite E. do 2 f_equal. lia.
  - destruct K as (N & K). destruct (IH s (i + 2) st K) as (M & E & I). exists M. split; [|exact I]. rewrite <- !app_comm_cons. rewrite mark_esc by (intros ->; apply N; destruct b; cbn; tauto). rewrite E. do 2 f_equal. cbn [length]. lia.
  - destruct (IH s (i + 2) st K) as (M & E & I). exists M. split; [|exact I]. change (txt "\|" ++ write_old r) with (ch "\" :: ch "|" :: write_old r). rewrite <- !app_comm_cons. rewrite mark_esc by (destruct b; vm_compute; discriminate). rewrite E. do 2 f_equal. cbn [length]. lia.
  - destruct K as (KA & K). change (txt "\(" ++ write_old a ++ txt "\)" ++ write_old r) with (ch "\" :: ch "(" :: write_old a ++ txt "\)" ++ write_old r).
    assert (LEN : i + 4 + length (write_old a) + length (write_old r) = i + length (ch "\" :: ch "(" :: write_old a ++ txt "\)" ++ write_old r)) by (cbn [length]; rewrite !app_length; change (length (txt "\)")) with 2; lia).
    destruct b.
    + destruct (IA (txt "\)" ++ write_old r ++ s) (i + 2) st KA) as (M1 & E1 & I1). destruct (IH s (i + 4 + length (write_old a)) st K) as (M2 & E2 & I2).
      exists (M1 ++ M2). split; [|cbn [app]; apply incl_app; [apply incl_appl; exact I1|apply incl_appr; exact I2]].
      rewrite <- !app_comm_cons, <- !app_assoc. rewrite mark_esc by (vm_compute; discriminate). rewrite E1. change (txt "\)" ++ write_old r ++ s) with (ch "\" :: ch ")" :: write_old r ++ s). rewrite mark_esc by (vm_compute; discriminate).
      replace (i + 2 + length (write_old a) + 2) with (i + 4 + length (write_old a)) by lia. rewrite E2, LEN, ?app_assoc_reverse. reflexivity.
    + destruct (IA (txt "\)" ++ write_old r ++ s) (i + 2) (i :: st) KA) as (M1 & E1 & I1). destruct (IH s (i + 4 + length (write_old a)) st K) as (M2 & E2 & I2).
      exists (M1 ++ [i; i + 2 + length (write_old a)] ++ M2). split.
      * rewrite <- !app_comm_cons, <- !app_assoc. change (ch "(") with (opn false). rewrite mark_open. rewrite E1. change (txt "\)" ++ write_old r ++ s) with (ch "\" :: cls false :: write_old r ++ s). rewrite mark_close.
        replace (i + 2 + length (write_old a) + 2) with (i + 4 + length (write_old a)) by lia. rewrite E2, LEN, ?app_assoc_reverse. reflexivity.
      * apply incl_app; [apply incl_appr, incl_appl, incl_refl|]. apply incl_app; [apply incl_appl; exact I1|apply incl_appr, incl_appr; exact I2].
  - destruct K as (KA & K). change (txt "\{" ++ write_old a ++ txt "\}" ++ write_old r) with (ch "\" :: ch "{" :: write_old a ++ txt "\}" ++ write_old r).
    assert (LEN : i + 4 + length (write_old a) + length (write_old r) = i + length (ch "\" :: ch "{" :: write_old a ++ txt "\}" ++ write_old r)) by (cbn [length]; rewrite !app_length; change (length (txt "\}")) with 2; lia).
    destruct b.
    + destruct (IA (txt "\}" ++ write_old r ++ s) (i + 2) (i :: st) KA) as (M1 & E1 & I1). destruct (IH s (i + 4 + length (write_old a)) st K) as (M2 & E2 & I2).
      exists (M1 ++ [i; i + 2 + length (write_old a)] ++ M2). split.
      * rewrite <- !app_comm_cons, <- !app_assoc. change (ch "{") with (opn true). rewrite mark_open. rewrite E1. change (txt "\}" ++ write_old r ++ s) with (ch "\" :: cls true :: write_old r ++ s). rewrite mark_close.
        replace (i + 2 + length (write_old a) + 2) with (i + 4 + length (write_old a)) by lia. rewrite E2, LEN, ?app_assoc_reverse. reflexivity.
      * apply incl_app; [apply incl_appr, incl_appl, incl_refl|]. apply incl_app; [apply incl_appl; exact I1|apply incl_appr, incl_appr; exact I2].
    + destruct (IA (txt "\}" ++ write_old r ++ s) (i + 2) st KA) as (M1 & E1 & I1). destruct (IH s (i + 4 + length (write_old a)) st K) as (M2 & E2 & I2).
      exists (M1 ++ M2). split; [|cbn [app]; apply incl_app; [apply incl_appl; exact I1|apply incl_appr; exact I2]].
      rewrite <- !app_comm_cons, <- !app_assoc. rewrite mark_esc by (vm_compute; discriminate). rewrite E1. change (txt "\}" ++ write_old r ++ s) with (ch "\" :: ch "}" :: write_old r ++ s). rewrite mark_esc by (vm_compute; discriminate).
      replace (i + 2 + length (write_old a) + 2) with (i + 4 + length (write_old a)) by lia. rewrite E2, LEN, ?app_assoc_reverse. reflexivity.
Qed.

Lemma forward_esc convert d s i empty skip : ~ In d (txt "|(){}") -> forward convert (ch "\" :: d :: s) i empty skip = ch "\" :: d :: forward convert s (i + 2) false skip.
Proof.
  intro N. assert (Q : forall c, In c (txt "|(){}") -> (d =? c)%Z = false) by (intros c I; apply Z.eqb_neq; intros ->; contradiction).
  cbn [forward]. rewrite Z.eqb_refl. cbn [negb]. destruct (Z.eqb_spec d (ch "\")) as [->|]; [reflexivity|].
  rewrite (Q (ch "|")) by (cbn; tauto). destruct (zmem d (txt "+?")); [reflexivity|].
  assert (Z1 : zmem d (txt "()") = false).
  { destruct (zmem d (txt "()")) eqn:E; [|reflexivity]. exfalso. unfold zmem in E. apply existsb_exists in E. destruct E as (z & I & E). apply Z.eqb_eq in E. subst z. apply N. destruct I as [<-|[<-|[]]]; cbn; tauto. }
  rewrite Z1, (Q (ch "{")), (Q (ch "}")) by (cbn; tauto). reflexivity.
Qed.
Lemma forward_old convert : forall p s i empty, ok_old p -> (forall j, In j (delims false p i ++ delims true p i) -> convert j = true) -> (empty = true -> ~ begins_with_brace p) ->
  forward convert (write_old p ++ s) i empty 0 = write_new p ++ forward convert s (i + length (write_old p)) (match p with ONil => empty | _ => false end) 0.
Proof.
  induction p as [|c r IH|d r IH|r IH|a IA r IH|a IA r IH]; intros s i empty K C B; cbn [ok_old write_old write_new delims] in *.
  - cbn. rewrite Nat.add_0_r. reflexivity.
  - destruct K as (N & K). rewrite <- app_comm_cons. cbn [forward]. destruct (Z.eqb_spec c (ch "\")); [contradiction|]. cbn [negb]. rewrite (IH s (S i) false K C) by discriminate. cbn [length app]. f_equal. f_equal. replace (match r with ONil => false | _ => false end) with false by (destruct r; reflexivity). f_equal. lia.
  - destruct K as (N & K). rewrite <- !app_comm_cons. rewrite forward_esc by exact N. rewrite (IH s (i + 2) false K C) by discriminate. cbn [length app]. do 3 f_equal. replace (match r with ONil => false | _ => false end) with false by (destruct r; reflexivity). f_equal. lia.
  - rewrite <- app_assoc. rewrite forward_bar. rewrite (IH s (i + 2) false K C) by discriminate. rewrite <- app_assoc. do 2 f_equal. replace (match r with ONil => false | _ => false end) with false by (destruct r; reflexivity). f_equal. rewrite app_length. cbn [length txt]. cbn. lia.
  - destruct K as (KA & K).
    assert (FA : forall f, forward convert (write_old a ++ f) (i + 2) false 0 = write_new a ++ forward convert f (i + 2 + length (write_old a)) false 0).
    { intro f. rewrite (IA f (i + 2) false KA) by (try discriminate; intros j J; apply C; rewrite !in_app_iff; rewrite in_app_iff in J; tauto). destruct a; reflexivity. }
    assert (FR : forall f, forward convert (write_old r ++ f) (i + 4 + length (write_old a)) false 0 = write_new r ++ forward convert f (i + 4 + length (write_old a) + length (write_old r)) false 0).
    { intro f. rewrite (IH f (i + 4 + length (write_old a)) false K) by (try discriminate; intros j J; apply C; rewrite !in_app_iff; rewrite in_app_iff in J; tauto). destruct r; reflexivity. }
    change (txt "\(" ++ write_old a ++ txt "\)" ++ write_old r) with (ch "\" :: ch "(" :: write_old a ++ txt "\)" ++ write_old r).
    rewrite <- !app_comm_cons, <- !app_assoc.
    assert (C1 : convert i = true) by (apply C; cbn; tauto). assert (C2 : convert (i + 2 + length (write_old a)) = true) by (apply C; cbn; tauto).
    change (txt "(" ++ write_new a ++ txt ")" ++ write_new r ++ forward convert s (i + length (ch "\" :: ch "(" :: write_old a ++ txt "\)" ++ write_old r)) false 0) with (ch "(" :: write_new a ++ txt ")" ++ write_new r ++ forward convert s (i + length (ch "\" :: ch "(" :: write_old a ++ txt "\)" ++ write_old r)) false 0).
    assert (S1 : forward convert (ch "\" :: ch "(" :: write_old a ++ txt "\)" ++ write_old r ++ s) i empty 0 = ch "(" :: forward convert (write_old a ++ txt "\)" ++ write_old r ++ s) (i + 2) false 0) by (cbn [forward]; rewrite C1; reflexivity).
    rewrite S1, FA. f_equal. f_equal.
    assert (S2 : forward convert (txt "\)" ++ write_old r ++ s) (i + 2 + length (write_old a)) false 0 = ch ")" :: forward convert (write_old r ++ s) (i + 2 + length (write_old a) + 2) false 0) by (change (txt "\)" ++ write_old r ++ s) with (ch "\" :: ch ")" :: write_old r ++ s); cbn [forward]; rewrite C2; reflexivity).
    rewrite S2. change (txt ")" ++ write_new r ++ ?f) with (ch ")" :: write_new r ++ f). f_equal. replace (i + 2 + length (write_old a) + 2) with (i + 4 + length (write_old a)) by lia. rewrite FR. f_equal. f_equal. cbn [length]. rewrite !app_length. cbn [length]. change (length (txt "\)")) with 2. lia.
  - destruct K as (KA & K). assert (EM : empty = false) by (destruct empty; [exfalso; apply (B eq_refl); exact I|reflexivity]). subst empty.
    assert (FA : forall f, forward convert (write_old a ++ f) (i + 2) false 0 = write_new a ++ forward convert f (i + 2 + length (write_old a)) false 0).
    { intro f. rewrite (IA f (i + 2) false KA) by (try discriminate; intros j J; apply C; rewrite !in_app_iff; rewrite in_app_iff in J; tauto). destruct a; reflexivity. }
    assert (FR : forall f, forward convert (write_old r ++ f) (i + 4 + length (write_old a)) false 0 = write_new r ++ forward convert f (i + 4 + length (write_old a) + length (write_old r)) false 0).
    { intro f. rewrite (IH f (i + 4 + length (write_old a)) false K) by (try discriminate; intros j J; apply C; rewrite !in_app_iff; rewrite in_app_iff in J; tauto). destruct r; reflexivity. }
    change (txt "\{" ++ write_old a ++ txt "\}" ++ write_old r) with (ch "\" :: ch "{" :: write_old a ++ txt "\}" ++ write_old r).
    rewrite <- !app_comm_cons, <- !app_assoc.
    assert (C1 : convert i = true) by (apply C; apply in_or_app; right; cbn; tauto). assert (C2 : convert (i + 2 + length (write_old a)) = true) by (apply C; apply in_or_app; right; cbn; tauto).
    change (txt "{" ++ write_new a ++ txt "}" ++ write_new r ++ forward convert s (i + length (ch "\" :: ch "{" :: write_old a ++ txt "\}" ++ write_old r)) false 0) with (ch "{" :: write_new a ++ txt "}" ++ write_new r ++ forward convert s (i + length (ch "\" :: ch "{" :: write_old a ++ txt "\}" ++ write_old r)) false 0).
    assert (S1 : forward convert (ch "\" :: ch "{" :: write_old a ++ txt "\}" ++ write_old r ++ s) i false 0 = ch "{" :: forward convert (write_old a ++ txt "\}" ++ write_old r ++ s) (i + 2) false 0) by (cbn [forward]; rewrite C1; reflexivity).
    rewrite S1, FA. f_equal. f_equal.
    assert (S2 : forward convert (txt "\}" ++ write_old r ++ s) (i + 2 + length (write_old a)) false 0 = ch "}" :: forward convert (write_old r ++ s) (i + 2 + length (write_old a) + 2) false 0) by (change (txt "\}" ++ write_old r ++ s) with (ch "\" :: ch "}" :: write_old r ++ s); cbn [forward]; rewrite C2; reflexivity).
    rewrite S2. change (txt "}" ++ write_new r ++ ?f) with (ch "}" :: write_new r ++ f). f_equal. replace (i + 2 + length (write_old a) + 2) with (i + 4 + length (write_old a)) by lia. rewrite FR. f_equal. f_equal. cbn [length]. rewrite !app_length. cbn [length]. change (length (txt "\}")) with 2. lia.
Qed.
Lemma old_notation p : ok_old p -> ~ begins_with_brace p -> bre_to_ere (write_old p) = write_new p.
Proof.
  intros K B. unfold bre_to_ere. destruct (mark_old false p [] 0 [] K) as (M1 & E1 & I1). destruct (mark_old true p [] 0 [] K) as (M2 & E2 & I2). rewrite app_nil_r in E1, E2.
  change (ch "(") with (opn false). change (ch ")") with (cls false). change (ch "{") with (opn true). change (ch "}") with (cls true). rewrite E1, E2.
  rewrite <- (app_nil_r (write_old p)) at 1. rewrite forward_old; [cbn [forward]; apply app_nil_r|exact K| |intros _; exact B].
  intros j J. apply existsb_exists. exists j. split; [|apply Nat.eqb_refl]. apply in_app_or in J. destruct J as [J|J]; apply in_or_app; [left; apply in_or_app; left; apply I1; exact J|right; apply in_or_app; left; apply I2; exact J].
Qed.

(** *** Braces *)
Lemma repetition_valid b : repetition b -> is_valid_quantifier b = true.
Proof.
  unfold is_valid_quantifier. intros [(N & D)|(m & n & -> & M & Nn & NE)].
  - destruct (find_char (ch ",") b) as [(x, y)|] eqn:F.
    + exfalso. assert (I : In (ch ",") b). { clear N D. revert x y F. induction b as [|c b IH]; cbn [find_char]; intros x y F; [discriminate|]. destruct (Z.eqb_spec (ch ",") c) as [->|]; [left; reflexivity|]. destruct (find_char (ch ",") b) as [(u, v)|]; [|discriminate]. right. eapply IH. reflexivity. }
      specialize (D _ I). vm_compute in D. destruct D as (D1 & D2). apply D1. reflexivity.
    + apply andb_true_iff. split; [apply nonempty_spec; exact N|apply digits_number; exact D].
  - assert (F : find_char (ch ",") (m ++ txt "," ++ n) = Some (m, n)).
    { clear Nn NE. induction m as [|c m IH]; [reflexivity|]. cbn [app find_char]. destruct (Z.eqb_spec (ch ",") c) as [E|]; [exfalso; specialize (M c (or_introl eq_refl)); subst c; vm_compute in M; destruct M as (M1 & _); apply M1; reflexivity|].
      rewrite IH; [reflexivity|]. intros x X. apply M. right. exact X. }
    rewrite F. apply andb_true_iff. split; [apply andb_true_iff; split; apply digits_number; assumption|]. apply orb_true_iff. destruct NE; [left|right]; apply nonempty_spec; assumption.
Qed.
Lemma repetition_closing b s : repetition b -> closing (b ++ txt "}" ++ s) = Some b.
Proof.
  intro R. assert (C : forall c, In c b -> c <> ch "}" /\ c <> ch "{").
  { intros c I. assert (H : (48 <= c <= 57)%Z \/ c = ch ",").
    { destruct R as [(_ & D)|(m & n & -> & M & Nn & _)]; [left; apply D; exact I|]. apply in_app_or in I. destruct I as [I|[I|I]]; [left; apply M; exact I|right; symmetry; exact I|left; apply Nn; exact I]. }
    destruct H as [H| ->]; [|split; vm_compute; discriminate]. split; intros ->; vm_compute in H; destruct H as (_ & H2); apply H2; reflexivity. }
  clear R. induction b as [|c b IH]; [reflexivity|]. cbn [app closing]. destruct (C c (or_introl eq_refl)) as (N1 & N2). destruct (Z.eqb_spec c (ch "}")); [contradiction|]. destruct (Z.eqb_spec c (ch "{")); [contradiction|].
  rewrite IH; [reflexivity|]. intros x X. apply C. right. exact X.
Qed.
Lemma escape_copy : forall b prev s, escape_braces prev (b ++ s) false (length b) = b ++ escape_braces (last b prev) s false 0.
Proof.
  induction b as [|c b IH]; intros prev s; [reflexivity|]. cbn [app length escape_braces]. rewrite IH. replace (last (c :: b) prev) with (last b c); [reflexivity|].
  clear. revert c prev. induction b as [|d b IH]; intros c prev; [reflexivity|]. change (last (d :: b) c = last (d :: b) prev). transitivity (last b d); [symmetry; apply IH|apply IH].
Qed.
(** After the typed parts the character before the next part is a backslash only after [PEsc]; the
    next part never begins with a bracket. *)
Lemma escape_parts : forall l prev, Forall ok_part l -> escape_braces prev (flat_map typed_part l) false 0 = flat_map engine_part l.
Proof.
  induction l as [|x l IH]; intros prev F; [reflexivity|]. inversion F as [|? ? K F']; subst. cbn [flat_map]. destruct x as [s|d|b| |]; cbn [typed_part engine_part ok_part] in *.
  - revert prev. induction s as [|c s IS]; intro prev; [apply IH; exact F'|]. cbn [app escape_braces]. pose proof (K c (or_introl eq_refl)) as N.
    assert (Q : forall z, In z (txt "\[]{}") -> (c =? z)%Z = false) by (intros z I; apply Z.eqb_neq; intros ->; contradiction).
    rewrite (Q (ch "[")), (Q (ch "]")), (Q (ch "\")), (Q (ch "{")), (Q (ch "}")) by (cbn; tauto). cbn [andb]. f_equal. apply IS; [constructor; [|exact F']|]; intros z I; apply K; right; exact I.
  - cbn [app escape_braces]. change (ch "\" =? ch "[")%Z with false. change (ch "\" =? ch "]")%Z with false. cbn [andb]. rewrite Z.eqb_refl.
    assert (Z1 : zmem d (txt "{}") = false). { unfold zmem. destruct (existsb (Z.eqb d) (txt "{}")) eqn:E; [|reflexivity]. exfalso. apply K. apply existsb_exists in E. destruct E as (z & I & E). apply Z.eqb_eq in E. subst z. exact I. }
    rewrite Z1. do 2 f_equal. apply IH. exact F'.
  - change (txt "{" ++ b ++ txt "}") with (ch "{" :: b ++ txt "}"). rewrite <- !app_comm_cons, <- !app_assoc. cbn [escape_braces]. change (ch "{" =? ch "[")%Z with false. change (ch "{" =? ch "]")%Z with false. change (ch "{" =? ch "\")%Z with false. cbn [andb].
    rewrite Z.eqb_refl. rewrite repetition_closing, repetition_valid by exact K. f_equal.
    replace (b ++ txt "}" ++ flat_map typed_part l) with ((b ++ txt "}") ++ flat_map typed_part l) by (rewrite <- app_assoc; reflexivity).
    replace (S (length b)) with (length (b ++ txt "}")) by (rewrite app_length; cbn; lia). rewrite escape_copy, <- app_assoc. f_equal. f_equal. apply IH. exact F'.
  - change (txt "\{" ++ flat_map typed_part l) with (ch "\" :: ch "{" :: flat_map typed_part l). cbn [escape_braces]. change (ch "\" =? ch "[")%Z with false. change (ch "\" =? ch "]")%Z with false. cbn [andb]. rewrite Z.eqb_refl. change (zmem (ch "{") (txt "{}")) with true. cbv iota.
    rewrite IH by exact F'. reflexivity.
  - change (txt "\}" ++ flat_map typed_part l) with (ch "\" :: ch "}" :: flat_map typed_part l). cbn [escape_braces]. change (ch "\" =? ch "[")%Z with false. change (ch "\" =? ch "]")%Z with false. cbn [andb]. rewrite Z.eqb_refl. change (zmem (ch "}") (txt "{}")) with true. cbv iota.
    rewrite IH by exact F'. reflexivity.
Qed.
