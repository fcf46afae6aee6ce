(** Lemmas for C116. *)
From Verif Require Import Base Text FtsText ServerArgs ServerArgsSpec.
From Coq Require Import String.
Open Scope string_scope.
Open Scope nat_scope.
Open Scope list_scope.
Notation length := List.length.
Notation concat := List.concat.

Definition dval (t : text) : Z := fold_left (fun a c => (10 * a + (c - 48))%Z) t 0%Z.

Lemma dval_snoc t c : dval (t ++ [c]) = (10 * dval t + (c - 48))%Z.
Proof. unfold dval; rewrite fold_left_app; reflexivity. Qed.

Lemma digit_iff c : a_digit c = true <-> exists d, (0 <= d < 10)%Z /\ c = (48 + d)%Z.
Proof.
  unfold a_digit; rewrite andb_true_iff, !Z.leb_le; split.
  - intros [A B]; exists (c - 48)%Z; split; lia.
  - intros (d & D & ->); lia.
Qed.

Lemma spells_iff t n : spells t n <-> t <> [] /\ forallb a_digit t = true /\ dval t = n.
Proof.
  split.
  - induction 1 as [d D|t n d _ (A & B & C) D].
    + split; [discriminate|]. split; [|unfold dval; cbn [fold_left]; lia].
      cbn [forallb]; rewrite andb_true_r; apply digit_iff; exists d; auto.
    + split; [intro Q; apply app_eq_nil in Q as [_ Q]; discriminate|]. split.
      * rewrite forallb_app, B; cbn [forallb andb]; rewrite andb_true_r; apply digit_iff; exists d; auto.
      * rewrite dval_snoc, C; lia.
  - intros (A & B & <-). revert A B. induction t as [|c t IH] using rev_ind; [congruence|]. intros _ B.
    rewrite forallb_app in B; apply andb_prop in B as [B1 B2]. cbn [forallb] in B2; rewrite andb_true_r in B2.
    apply digit_iff in B2 as (d & D & ->). rewrite dval_snoc. replace (48 + d - 48)%Z with d by lia.
    destruct t as [|x t].
    + cbn [app]. replace (10 * dval [] + d)%Z with d by (unfold dval; cbn [fold_left]; lia). constructor; exact D.
    + apply spells_more; [|exact D]. apply IH; [discriminate|exact B1].
Qed.

Lemma number_iff max t n : parse_below max t = Some n <-> number max t n.
Proof.
  assert (G : forall ds, match ds with [] => None | _ => if forallb a_digit ds then let v := dval ds in if (v <? max)%Z then Some v else None else None end = Some n
            <-> (n < max)%Z /\ spells ds n).
  { intro ds; rewrite spells_iff. destruct ds as [|c ds]; [split; [discriminate|intros (_ & A & _); congruence]|].
    destruct (forallb a_digit (c :: ds)); cbv zeta; [|split; [discriminate|intros (_ & _ & B & _); discriminate]].
    destruct (dval (c :: ds) <? max)%Z eqn:L; [apply Z.ltb_lt in L|apply Z.ltb_ge in L]; split.
    - intro Q; injection Q as <-; repeat split; [exact L|discriminate].
    - intros (_ & _ & _ & ->); reflexivity.
    - discriminate.
    - intros (A & _ & _ & B); lia. }
  assert (P : forall u, ~ spells (43%Z :: u) n).
  { intros u H; apply spells_iff in H as (_ & H & _). cbn in H; discriminate. }
  unfold parse_below, number. fold dval. destruct t as [|c r].
  - split; [discriminate|]. intros (_ & [H|(u & H & _)]); [apply spells_iff in H as (H & _); congruence|discriminate].
  - destruct (c =? 43)%Z eqn:C.
    + apply Z.eqb_eq in C; subst c. rewrite (G r). split.
      * intros (A & B); split; [exact A|]. right; exists r; split; [reflexivity|exact B].
      * intros (A & [B|(u & Q & B)]); [destruct (P r B)|]. change (txt "+" ++ u) with (43%Z :: u) in Q. injection Q as ->; auto.
    + rewrite (G (c :: r)). split.
      * intros (A & B); auto.
      * intros (A & [B|(u & Q & B)]); [auto|]. change (txt "+" ++ u) with (43%Z :: u) in Q. injection Q as -> _; discriminate.
Qed.

(** One option changes the settings so. *)
Definition apply_item (i : item) (s : settings) : settings :=
  match i with
  | Host v => {| s_host := v; s_port := s_port s; s_index_dir := s_index_dir s; s_model := s_model s; s_cuda := s_cuda s; s_int8 := s_int8 s; s_count := s_count s |}
  | Port n => {| s_host := s_host s; s_port := n; s_index_dir := s_index_dir s; s_model := s_model s; s_cuda := s_cuda s; s_int8 := s_int8 s; s_count := s_count s |}
  | IndexDir v => {| s_host := s_host s; s_port := s_port s; s_index_dir := v; s_model := s_model s; s_cuda := s_cuda s; s_int8 := s_int8 s; s_count := s_count s |}
  | Model v => {| s_host := s_host s; s_port := s_port s; s_index_dir := s_index_dir s; s_model := Some v; s_cuda := s_cuda s; s_int8 := s_int8 s; s_count := s_count s |}
  | Cuda => {| s_host := s_host s; s_port := s_port s; s_index_dir := s_index_dir s; s_model := s_model s; s_cuda := true; s_int8 := s_int8 s; s_count := s_count s |}
  | Int8 => {| s_host := s_host s; s_port := s_port s; s_index_dir := s_index_dir s; s_model := s_model s; s_cuda := s_cuda s; s_int8 := true; s_count := s_count s |}
  | Count c n => {| s_host := s_host s; s_port := s_port s; s_index_dir := s_index_dir s; s_model := s_model s; s_cuda := s_cuda s; s_int8 := s_int8 s;
                    s_count := fun d => if counter_eqb d c then Some n else s_count s d |}
  end.

Lemma step_one g i rest s : one g i -> parse_args (g ++ rest) s = parse_args rest (apply_item i s).
Proof.
  intros [w v [->| ->]|w v n [->| ->] N|w v [->| ->]|w v [->| ->]| | |c v n N]; try reflexivity.
  - cbn [app]. apply number_iff in N. change (parse_args _ s) with (match option_map (fun n => apply_item (Port n) s) (parse_below u16_max v) with Some s' => parse_args rest s' | None => Exit 1 end).
    change u16_max with (2 ^ 16)%Z. rewrite N; reflexivity.
  - cbn [app]. apply number_iff in N. change (parse_args _ s) with (match option_map (fun n => apply_item (Port n) s) (parse_below u16_max v) with Some s' => parse_args rest s' | None => Exit 1 end).
    change u16_max with (2 ^ 16)%Z. rewrite N; reflexivity.
  - cbn [app]. apply number_iff in N.
    assert (E : parse_args (counter_word c :: v :: rest) s = match option_map (fun n => apply_item (Count c n) s) (parse_below u64_max v) with Some s' => parse_args rest s' | None => Exit 1 end).
    { destruct c; reflexivity. }
    rewrite E. change u64_max with (2 ^ 64)%Z. rewrite N; reflexivity.
Qed.

Lemma step_all groups items rest : Forall2 one groups items ->
  forall s, parse_args (concat groups ++ rest) s = parse_args rest (fold_left (fun s i => apply_item i s) items s).
Proof.
  induction 1 as [|g i gs is O _ IH]; intro s; [reflexivity|].
  cbn [List.concat fold_left]. rewrite <- app_assoc, (step_one g i _ s O). apply IH.
Qed.

Ltac is_word a W := match goal with |- context [text_eqb a (txt ?w)] => destruct (text_eqb a (txt w)) eqn:W; [apply text_eqb_eq in W|] end.

Lemma classify_cases a : match classify a with
  | None => True
  | Some AHost => a = txt "--host" \/ a = txt "-h"
  | Some APort => a = txt "--port" \/ a = txt "-p"
  | Some AIndexDir => a = txt "--index-dir" \/ a = txt "-d"
  | Some AModel => a = txt "--model" \/ a = txt "-m"
  | Some ACuda => a = txt "--cuda"
  | Some AInt8 => a = txt "--int8"
  | Some (ACount c) => a = counter_word c
  | Some AHelp => a = txt "--help"
  end.
Proof.
  unfold classify; cbv zeta.
  repeat (let W := fresh "W" in is_word a W; cbn [orb]; [solve [auto]|]). exact I.
Qed.

(** What a command line comes to: a row of options, one followed by the cry for help, or neither. *)
Lemma parse_cases : forall n args s, length args <= n ->
  match parse_args args s with
  | Run s' => exists items, reads args items /\ s' = fold_left (fun s i => apply_item i s) items s
  | Exit 0 => exists pre rest items, args = pre ++ txt "--help" :: rest /\ reads pre items
  | Exit 1 => True
  | Exit _ => False
  end.
Proof.
  induction n as [|n IH]; intros args s L.
  - destruct args; [|cbn in L; lia]. cbn [parse_args]. exists []; split; [exists []; split; [reflexivity|constructor]|reflexivity].
  - destruct args as [|a r]; [cbn [parse_args]; exists []; split; [exists []; split; [reflexivity|constructor]|reflexivity]|].
    cbn [List.length] in L.
    assert (CONT : forall g rest i, a :: r = g ++ rest -> one g i -> length rest <= n -> parse_args (a :: r) s = parse_args rest (apply_item i s) ->
      match parse_args (a :: r) s with
      | Run s' => exists items, reads (a :: r) items /\ s' = fold_left (fun s i => apply_item i s) items s
      | Exit 0 => exists pre rest items, a :: r = pre ++ txt "--help" :: rest /\ reads pre items
      | Exit 1 => True
      | Exit _ => False
      end).
    { intros g rest i E O LE P. rewrite P. specialize (IH rest (apply_item i s) LE). rewrite E.
      destruct (parse_args rest (apply_item i s)) as [s'|[|[|c]]]; [| |exact IH|exact IH].
      - destruct IH as (items & (gs & -> & F) & ->). exists (i :: items). split; [|reflexivity].
        exists (g :: gs); split; [reflexivity|constructor; assumption].
      - destruct IH as (pre & q & items & -> & (gs & -> & F)). exists (g ++ concat gs), q, (i :: items). split; [rewrite app_assoc; reflexivity|].
        exists (g :: gs); split; [reflexivity|constructor; assumption]. }
    pose proof (classify_cases a) as C.
    destruct (classify a) as [k|] eqn:K; [|cbn [parse_args]; rewrite K; exact I].
    assert (VAL : forall k0, k = k0 -> (k0 <> AHelp /\ k0 <> ACuda /\ k0 <> AInt8) ->
       parse_args (a :: r) s = match r with [] => Exit 1 | v :: r' => match assign k0 v s with Some s' => parse_args r' s' | None => Exit 1 end end).
    { intros k0 <- (N1 & N2 & N3). cbn [parse_args]; rewrite K. destruct k; try congruence; reflexivity. }
    destruct k.
    + rewrite (VAL _ eq_refl) by (repeat split; discriminate). rewrite <- (VAL _ eq_refl) by (repeat split; discriminate).
      destruct r as [|v r']; [rewrite (VAL _ eq_refl) by (repeat split; discriminate); exact I|].
      apply (CONT [a; v] r' (Host v)); [reflexivity|constructor; exact C|cbn in L; lia|]. rewrite (VAL _ eq_refl) by (repeat split; discriminate). reflexivity.
    + destruct r as [|v r']; [rewrite (VAL _ eq_refl) by (repeat split; discriminate); exact I|].
      destruct (parse_below u16_max v) as [m|] eqn:N.
      * apply (CONT [a; v] r' (Port m)); [reflexivity|constructor; [exact C|apply number_iff; exact N]|cbn in L; lia|].
        rewrite (VAL _ eq_refl) by (repeat split; discriminate). unfold assign; rewrite N; reflexivity.
      * rewrite (VAL _ eq_refl) by (repeat split; discriminate). unfold assign; rewrite N; exact I.
    + destruct r as [|v r']; [rewrite (VAL _ eq_refl) by (repeat split; discriminate); exact I|].
      apply (CONT [a; v] r' (IndexDir v)); [reflexivity|constructor; exact C|cbn in L; lia|]. rewrite (VAL _ eq_refl) by (repeat split; discriminate). reflexivity.
    + destruct r as [|v r']; [rewrite (VAL _ eq_refl) by (repeat split; discriminate); exact I|].
      apply (CONT [a; v] r' (Model v)); [reflexivity|constructor; exact C|cbn in L; lia|]. rewrite (VAL _ eq_refl) by (repeat split; discriminate). reflexivity.
    + apply (CONT [a] r Cuda); [reflexivity|rewrite C; constructor|lia|]. cbn [parse_args]; rewrite K; reflexivity.
    + apply (CONT [a] r Int8); [reflexivity|rewrite C; constructor|lia|]. cbn [parse_args]; rewrite K; reflexivity.
    + destruct r as [|v r']; [rewrite (VAL _ eq_refl) by (repeat split; discriminate); exact I|].
      destruct (parse_below u64_max v) as [m|] eqn:N.
      * apply (CONT [a; v] r' (Count c m)); [reflexivity|rewrite C; constructor; apply number_iff; exact N|cbn in L; lia|].
        rewrite (VAL _ eq_refl) by (repeat split; discriminate). unfold assign; rewrite N; reflexivity.
      * rewrite (VAL _ eq_refl) by (repeat split; discriminate). unfold assign; rewrite N; exact I.
    + cbn [parse_args]; rewrite K. exists [], r, []. split; [rewrite C; reflexivity|exists []; split; [reflexivity|constructor]].
Qed.

(** The last item counts. *)
Lemma last_fold {A} (f : item -> option A) (get : settings -> A) :
  (forall i s, get (apply_item i s) = match f i with Some x => x | None => get s end) ->
  forall items s, last_of f (get s) items (get (fold_left (fun s i => apply_item i s) items s)).
Proof.
  intro H. induction items as [|i items IH] using rev_ind; intro s; [cbn [fold_left]; constructor; intros i []|].
  rewrite fold_left_app; cbn [fold_left]. rewrite H. destruct (f i) as [x|] eqn:E.
  - apply last_some; [exact E|intros j []].
  - destruct (IH s) as [l N|a j b x X N].
    + constructor. intros k K; apply in_app_or in K as [K|[<-|[]]]; [apply N; exact K|exact E].
    + rewrite <- app_assoc; cbn [app]. apply last_some; [exact X|]. intros k K; apply in_app_or in K as [K|[<-|[]]]; [apply N; exact K|exact E].
Qed.

Lemma flag_fold (flag : item) (get : settings -> bool) :
  (forall i s, get (apply_item i s) = true <-> i = flag \/ get s = true) ->
  forall items s, get s = false -> get (fold_left (fun s i => apply_item i s) items s) = true <-> In flag items.
Proof.
  intros H items s F. induction items as [|i items IH] using rev_ind; [cbn; rewrite F; intuition discriminate|].
  rewrite fold_left_app; cbn [fold_left]. rewrite H, IH, in_app_iff. cbn [In]. intuition auto.
Qed.

Lemma asked_fold items : asks_for items (fold_left (fun s i => apply_item i s) items defaults).
Proof.
  unfold asks_for; repeat match goal with |- _ /\ _ => split end.
  - refine (last_fold host_of s_host _ items defaults); intros [] s; reflexivity.
  - refine (last_fold port_of s_port _ items defaults); intros [] s; reflexivity.
  - refine (last_fold dir_of s_index_dir _ items defaults); intros [] s; reflexivity.
  - refine (last_fold model_of s_model _ items defaults); intros [] s; reflexivity.
  - apply (flag_fold Cuda s_cuda); [|reflexivity]. intros [] s; cbn; intuition (try discriminate; try reflexivity).
  - apply (flag_fold Int8 s_int8); [|reflexivity]. intros [] s; cbn; intuition (try discriminate; try reflexivity).
  - intro c. refine (last_fold (count_of c) (fun s => s_count s c) _ items defaults). intros [] s; try reflexivity.
    cbn [apply_item s_count count_of]. destruct (counter_eqb c c0); reflexivity.
Qed.
