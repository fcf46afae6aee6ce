(** Proofs about the Python client. *)
From Verif Require Import Base F32 Text FtsText Base64 Base64Spec Base64Proofs Npy NpySpec NpyProofs NpyHeader SqlModel MetaModel MetaQuery FtsRank ApiEmbed ApiEmbedSpec ApiEmbedProofs ApiRead Client ClientSpec.
Open Scope nat_scope.
Open Scope list_scope.

Lemma mapM_two {A B C} (f : A -> res C) (g : B -> res C) l l' : Forall2 (fun x y => f x = g y) l l' -> mapM f l = mapM g l'.
Proof. induction 1 as [|x y l l' E F IH]; [reflexivity|]. cbn [mapM]. rewrite E, IH. reflexivity. Qed.
Lemma two_length {A B} (R : A -> B -> Prop) l l' : Forall2 R l l' -> length l = length l'.
Proof. induction 1; cbn [length]; congruence. Qed.
Lemma two_numbered {A B} (R : A -> B -> Prop) l l' : Forall2 R l l' -> forall s,
  Forall2 (fun p q => fst p = fst q /\ R (snd p) (snd q)) (combine (seq s (length l)) l) (combine (seq s (length l')) l').
Proof. induction 1 as [|x y l l' E F IH]; intro s; [constructor|]. cbn [length seq combine]. constructor; [split; [reflexivity|exact E]|apply IH]. Qed.

Lemma two_impl {A B} (R S : A -> B -> Prop) l m : (forall x y, R x y -> S x y) -> Forall2 R l m -> Forall2 S l m.
Proof. intros H F. induction F; constructor; auto. Qed.

Section SAME.
  Variable U : unicode. Variable E : engine. Variable reg : option (text -> bool).
  Variable A : arith. Variable iter : list (Z * num A) -> list (Z * num A). Variable X : searcher A.
  Variable dk : nat. Variable ad : num A.
  Lemma nonempty_listed {B} (o : option (list B)) : nonempty o = match listed o with [] => false | _ => true end.
  Proof. destruct o as [[|]|]; reflexivity. Qed.
  (** A search depends on the arrays sent, not on their form. *)
  Lemma search_same s r r' : Forall2 (fun a b => to_ndarray a = to_ndarray b) (listed (r_queries A r)) (listed (r_queries A r')) ->
    r_text A r = r_text A r' -> r_alpha A r = r_alpha A r' -> r_fusion A r = r_fusion A r' -> r_top_k A r = r_top_k A r' ->
    r_subset A r = r_subset A r' -> r_filter A r = r_filter A r' -> listed (r_params A r) = listed (r_params A r') ->
    search U E reg A iter X dk ad s r = search U E reg A iter X dk ad s r'.
  Proof.
    intros F Et Ea Ef Ek Es Ei Ep. assert (N : nonempty (r_queries A r) = nonempty (r_queries A r')) by (rewrite !nonempty_listed; destruct F; reflexivity).
    pose proof (two_length _ _ _ F) as L. unfold search, effective_subset. rewrite N, Et, Ea, Ef, Ek, Es, Ei, Ep, L. cbv zeta.
    destruct (negb (nonempty (r_queries A r')) && negb (nonempty (r_text A r'))); [reflexivity|]. destruct (negb _); [reflexivity|].
    destruct (negb _ && negb _); [reflexivity|]. destruct (_ && _ && negb _); [reflexivity|].
    match goal with |- bind ?x _ = bind ?x _ => destruct x as [sub| |]; try reflexivity end. cbn [bind].
    destruct (nonempty (r_queries A r') && negb (nonempty (r_text A r'))).
    - unfold semantic_only. rewrite (mapM_two _ _ _ _ F). reflexivity.
    - destruct (_ && negb _); [reflexivity|]. f_equal. apply mapM_two.
      assert (G : Forall2 (fun p q : text * option sent => fst p = fst q /\ match snd p, snd q with Some a, Some b => to_ndarray a = to_ndarray b | None, None => True | _, _ => False end)
        (combine (listed (r_text A r')) (if nonempty (r_queries A r') then map Some (listed (r_queries A r)) else map (fun _ => None) (listed (r_text A r'))))
        (combine (listed (r_text A r')) (if nonempty (r_queries A r') then map Some (listed (r_queries A r')) else map (fun _ => None) (listed (r_text A r'))))).
      { destruct (nonempty (r_queries A r')).
        - clear -F. generalize (listed (r_text A r')). induction F as [|a b l l' H F IH]; intros [|t ts]; cbn [map combine]; constructor; [split; [reflexivity|exact H]|apply IH].
        - generalize (listed (r_text A r')). induction l as [|t ts IH]; cbn [map combine]; constructor; [split; [reflexivity|exact I]|exact IH]. }
      unfold numbered. eapply two_impl; [|apply (two_numbered _ _ _ G)].
      intros (i & t & q) (j & u & p) (H1 & H2 & H3). cbn [fst snd] in *. subst j u. unfold one_text, to_query. destruct q, p; try contradiction; [rewrite H3|]; reflexivity.
  Qed.
End SAME.

(** Good rows arrive as they are. *)
Lemma good_arrives rows : good_rows rows -> to_ndarray (client_b64 rows) = to_ndarray (plain_rows rows).
Proof.
  intros (r & c & R & R1 & C1 & B & F). assert (Ur : usize r) by (unfold usize; nia). assert (Uc : usize c) by (unfold usize; nia).
  destruct (round_trip rows r c _ _ eq_refl R R1 Ur Uc B F) as (Es & D). change (base64_encode _) with (fst (encode_b64_embeddings rows)) in D. rewrite encode_values in D.
  pose proof (cols_ok rows r c R R1) as K. unfold to_ndarray, client_b64, plain_rows. cbn [s_b64 s_shape s_rows]. unfold len. rewrite K, (proj1 R), D. cbn [bind].
  replace (length rows =? 0) with false by (symmetry; apply Nat.eqb_neq; destruct R as (R & _); lia).
  replace (cols_of rows =? 0) with false by (symmetry; apply Nat.eqb_neq; lia).
  replace (forallb (fun r0 => length r0 =? cols_of rows) rows) with true; [reflexivity|]. symmetry. apply rect_forallb. unfold len. rewrite K, (proj1 R). exact R.
Qed.
Definition query_sent (rows : rows_of) : sent := match rows with [] => plain_rows [] | _ => client_b64 rows end.
Lemma query_sent_arrives rows : rows = [] \/ good_rows rows -> to_ndarray (query_sent rows) = to_ndarray (plain_rows rows).
Proof. intros [->|G]; [reflexivity|]. destruct rows; [reflexivity|]. apply good_arrives. exact G. Qed.
Lemma given_item q rows : given_as q rows -> query_item q = JSent (query_sent rows).
Proof. intros [-> | ->]; destruct rows; reflexivity. Qed.
Lemma sents_given qs rs : Forall2 given_as qs rs -> sents (map query_item qs) = Ok (map query_sent rs).
Proof. induction 1 as [|q r qs rs H F IH]; [reflexivity|]. cbn [map]. rewrite (given_item _ _ H). unfold sents in *. cbn [mapM]. rewrite IH. reflexivity. Qed.
Lemma given_not_text qs rs : Forall2 given_as qs rs -> is_text_input qs = false.
Proof. intros [|q r qs' rs' [-> | ->] F]; reflexivity. Qed.
Lemma sents_plain rs : sents (map (fun r => JSent (plain_rows r)) rs) = Ok (map plain_rows rs).
Proof. induction rs as [|r rs IH]; [reflexivity|]. unfold sents in *. cbn [map mapM]. rewrite IH. reflexivity. Qed.
Lemma texts_given ts : texts (map as_it_is (map IText ts)) = Ok ts.
Proof. induction ts as [|t ts IH]; [reflexivity|]. unfold texts in *. cbn [map mapM as_it_is]. rewrite IH. reflexivity. Qed.
Lemma if_any_is {B} (o : option (list B)) : o <> Some [] -> if_any o = o.
Proof. intro H. destruct o as [[|]|]; [contradiction H|..]; reflexivity. Qed.
Lemma if_any_listed {B} (o : option (list B)) : listed (if_any o) = listed o.
Proof. destruct o as [[|]|]; reflexivity. Qed.

Section ASK.
  Variable U : unicode. Variable E : engine. Variable reg : option (text -> bool).
  Variable A : arith. Variable iter : list (Z * num A) -> list (Z * num A). Variable X : index_params A -> searcher A.
  Variable dk : nat. Variable ad : num A. Variable encode : list text -> res (list rows_of).
  Lemma two_sent rs : Forall (fun r => r = [] \/ good_rows r) rs -> Forall2 (fun a b => to_ndarray a = to_ndarray b) (map query_sent rs) (map plain_rows rs).
  Proof. induction 1; cbn [map]; constructor; [apply query_sent_arrives; assumption|assumption]. Qed.
  Lemma ask_embeddings s (c : call A) rs : Forall2 given_as (q_queries A c) rs -> Forall (fun r => r = [] \/ good_rows r) rs -> plain_call c ->
    ask U E reg A iter X dk ad encode s c = search U E reg A iter (X (settings (q_params A c))) dk ad s (asked_for c rs).
  Proof.
    intros G F (Hs & Hf & Hn). pose proof (given_not_text _ _ G) as NT. pose proof (sents_given _ _ G) as SG. pose proof (two_sent _ F) as F2.
    unfold ask. rewrite NT. cbv zeta. rewrite (if_any_is _ Hs). destruct (q_text A c) as [t|] eqn:Et.
    - rewrite (if_any_is _ Hf). destruct (q_queries A c) as [|q qs] eqn:Eq.
      + inversion G; subst. cbn [serve bind b_queries b_params b_subset b_filter b_filter_params]. unfold answered. apply search_same; cbn; rewrite ?Et; try reflexivity; [constructor|].
        destruct (q_filter A c); [apply if_any_listed|reflexivity].
      + cbn [serve b_queries b_params b_subset b_filter b_filter_params]. rewrite SG. cbn [bind]. unfold answered. apply search_same; cbn [mk_request asked_for r_queries r_text r_alpha r_fusion r_top_k r_subset r_filter r_params b_text b_alpha b_fusion b_params listed]; rewrite ?Et; try reflexivity; [exact F2|].
        destruct (q_filter A c); [apply if_any_listed|reflexivity].
    - destruct (q_filter A c) as [f|] eqn:Ef.
      + destruct Hn as [Hn|Hn]; [|discriminate]. cbn [serve b_queries b_params b_subset b_filter b_filter_params needed bind]. rewrite SG. cbn [bind].
        destruct (map query_sent rs) as [|x xs] eqn:Em.
        * destruct rs; [|discriminate Em]. unfold search, asked_for. cbn [r_queries r_text map nonempty]. rewrite Et. reflexivity.
        * unfold answered. apply search_same; cbn [mk_request asked_for r_queries r_text r_alpha r_fusion r_top_k r_subset r_filter r_params listed]; rewrite ?Et, ?Ef, ?Hn; try reflexivity; [exact F2|]. apply if_any_listed.
      + cbn [serve b_queries b_params b_subset b_filter b_filter_params needed bind]. rewrite SG. cbn [bind]. unfold answered.
        apply search_same; cbn [mk_request asked_for r_queries r_text r_alpha r_fusion r_top_k r_subset r_filter r_params b_text b_alpha b_fusion b_params listed]; rewrite ?Et, ?Ef; try reflexivity. exact F2.
  Qed.
  Lemma ask_texts s (c : call A) ts : q_queries A c = map IText ts -> ts <> [] -> plain_call c ->
    ask U E reg A iter X dk ad encode s c = bind (encode ts) (fun rs => search U E reg A iter (X (settings (q_params A c))) dk ad s (asked_for c rs)).
  Proof.
    intros G N (Hs & Hf & Hn). assert (T : is_text_input (q_queries A c) = true) by (rewrite G; destruct ts; [contradiction N|]; reflexivity).
    pose proof (texts_given ts) as TG. rewrite <- G in TG.
    unfold ask. rewrite T. cbv zeta. rewrite (if_any_is _ Hs). destruct (q_text A c) as [t|] eqn:Et.
    - rewrite (if_any_is _ Hf). destruct (q_queries A c) as [|q qs] eqn:Eq; [destruct ts; [contradiction N; reflexivity|discriminate G]|].
      unfold serve_encode. rewrite TG. cbn [bind]. destruct (encode ts) as [rs| |]; try reflexivity. cbn [bind serve b_queries b_params b_subset b_filter b_filter_params].
      rewrite sents_plain. cbn [bind]. unfold answered. apply search_same; cbn [mk_request asked_for r_queries r_text r_alpha r_fusion r_top_k r_subset r_filter r_params b_text b_alpha b_fusion b_params listed]; rewrite ?Et; try reflexivity.
      * clear. induction (map plain_rows rs); constructor; [reflexivity|assumption].
      * destruct (q_filter A c); [apply if_any_listed|reflexivity].
    - destruct (q_filter A c) as [f|] eqn:Ef.
      + destruct Hn as [Hn|Hn]; [|discriminate]. cbn [serve b_queries b_params b_subset b_filter b_filter_params needed bind]. rewrite TG. cbn [bind].
        destruct ts as [|t ts]; [contradiction N; reflexivity|]. destruct (encode (t :: ts)) as [rs| |]; try reflexivity. cbn [bind].
        unfold answered. apply search_same; cbn [mk_request asked_for r_queries r_text r_alpha r_fusion r_top_k r_subset r_filter r_params b_text b_alpha b_fusion b_params listed]; rewrite ?Et, ?Ef, ?Hn; try reflexivity.
        * clear. induction (map plain_rows rs); constructor; [reflexivity|assumption].
        * apply if_any_listed.
      + cbn [serve b_queries b_params b_subset b_filter b_filter_params needed bind]. rewrite TG. cbn [bind].
        destruct ts as [|t ts]; [contradiction N; reflexivity|]. destruct (encode (t :: ts)) as [rs| |]; try reflexivity. cbn [bind].
        unfold answered. apply search_same; cbn [mk_request asked_for r_queries r_text r_alpha r_fusion r_top_k r_subset r_filter r_params b_text b_alpha b_fusion b_params listed]; rewrite ?Et, ?Ef; try reflexivity.
        clear. induction (map plain_rows rs); constructor; [reflexivity|assumption].
  Qed.
End ASK.

(** ** Addresses *)
Lemma before_query_is s : ~ In 63%Z s -> ~ In 35%Z s -> before_query s = s.
Proof.
  induction s as [|x s IH]; intros Hq Hh; [reflexivity|]. cbn [before_query]. cbn [In] in Hq, Hh.
  destruct (Z.eqb_spec x 63); [subst; tauto|]. destruct (Z.eqb_spec x 35); [subst; tauto|]. cbn [orb]. rewrite IH by tauto. reflexivity.
Qed.
Definition plain_part (p : text) : Prop := p <> [] /\ p <> dot /\ p <> dots /\ ~ In 47%Z p.
Lemma split_parts p l : Forall plain_part (p :: l) -> Npy.split_on 47 (p ++ flat_map (fun x => 47%Z :: x) l) = p :: l.
Proof.
  revert p. induction l as [|q l IH]; intros p F; inversion F as [|? ? (_ & _ & _ & P) F']; subst; cbn [flat_map].
  - rewrite app_nil_r. apply split_on_none. exact P.
  - cbn [app]. rewrite split_on_app by exact P. rewrite IH by exact F'. reflexivity.
Qed.
Lemma text_eqb_no a b : a <> b -> text_eqb a b = false.
Proof. intro H. destruct (text_eqb a b) eqn:Q; [|reflexivity]. apply text_eqb_eq in Q. contradiction. Qed.
Lemma last_among {B} (l : list B) d : l <> [] -> In (last l d) l.
Proof. intro N. rewrite (app_removelast_last d N) at 2. apply in_or_app. right. left. reflexivity. Qed.
Lemma removelast_among {B} (l : list B) x : In x (removelast l) -> In x l.
Proof. destruct l as [|y l]; [contradiction|]. intro H. rewrite (@app_removelast_last B (y :: l) y) by discriminate. apply in_or_app. left. exact H. Qed.
Lemma filter_every {B} (f : B -> bool) l : (forall x, In x l -> f x = true) -> filter f l = l.
Proof. induction l as [|x l IH]; intro H; [reflexivity|]. cbn [filter]. rewrite (H x) by (left; reflexivity). rewrite IH by (intros y Hy; apply H; right; exact Hy). reflexivity. Qed.
Lemma four_bytes v : length (flat_map (le_bytes 4) v) = 4 * length v.
Proof. induction v as [|x v IH]; [reflexivity|]. cbn [flat_map]. rewrite app_length, IH. cbn [le_bytes length]. lia. Qed.
Lemma plain_last l : Forall plain_part l -> l <> [] -> plain_part (last l []).
Proof. intros F N. rewrite Forall_forall in F. apply F. apply last_among. exact N. Qed.
Lemma address_is l s : Forall plain_part l -> l <> [] -> Npy.split_on 47 (before_query s) = l -> address s = l.
Proof.
  intros F N Hs. unfold address. rewrite Hs. assert (NE : no_empty l = l).
  { unfold no_empty. destruct l as [|x l]; [contradiction N; reflexivity|]. rewrite filter_every.
    - symmetry. apply app_removelast_last. discriminate.
    - intros y Hy. rewrite Forall_forall in F. destruct (F y (removelast_among _ _ Hy)) as (Hn & _). rewrite (text_eqb_no _ _ Hn). reflexivity. }
  rewrite NE. destruct (plain_last l F N) as (_ & L1 & L2 & _). unfold resolve_dots. rewrite (text_eqb_no _ _ L1), (text_eqb_no _ _ L2). cbn [orb]. rewrite app_nil_r.
  assert (G : forall a, fold_left (fun a p => if text_eqb p dots then removelast a else if text_eqb p dot then a else a ++ [p]) l a = a ++ l).
  { clear N Hs NE L1 L2. induction F as [|p l (_ & P1 & P2 & _) F IH]; intro a; cbn [fold_left]; [now rewrite app_nil_r|]. rewrite (text_eqb_no _ _ P1), (text_eqb_no _ _ P2), IH, <- app_assoc. reflexivity. }
  apply G.
Qed.
Lemma plain_name_part n : plain_name n -> plain_part n.
Proof. unfold plain_name, plain_part, dot, dots. tauto. Qed.
Lemma no_char_parts c l : c <> 47%Z -> Forall (fun p => ~ In c p) l -> ~ In c (flat_map (fun x => 47%Z :: x) l).
Proof. intros H F Hi. apply in_flat_map in Hi. destruct Hi as (p & Hp & [Q|Q]); [congruence|]. rewrite Forall_forall in F. exact (F p Hp Q). Qed.
Lemma name_arrives n suffix : plain_name n -> Forall plain_name suffix -> address (index_endpoint n suffix) = txt "indices" :: n :: suffix.
Proof.
  intros P F. assert (PI : plain_part (txt "indices")) by (repeat split; try discriminate; cbn; intuition discriminate).
  assert (FP : Forall plain_part (txt "indices" :: n :: suffix)).
  { constructor; [exact PI|]. constructor; [apply plain_name_part, P|]. eapply Forall_impl; [|exact F]. apply plain_name_part. }
  apply address_is; [exact FP|discriminate|].
  replace (index_endpoint n suffix) with (txt "indices" ++ flat_map (fun x => 47%Z :: x) (n :: suffix)) by (unfold index_endpoint; cbn [flat_map]; reflexivity).
  rewrite before_query_is.
  - apply split_parts. exact FP.
  - intro H. apply in_app_or in H. destruct H as [H|H]; [cbn in H; intuition discriminate|]. revert H. apply no_char_parts; [discriminate|].
    constructor; [unfold plain_name in P; tauto|]. eapply Forall_impl; [|exact F]. unfold plain_name. intros; tauto.
  - intro H. apply in_app_or in H. destruct H as [H|H]; [cbn in H; intuition discriminate|]. revert H. apply no_char_parts; [discriminate|].
    constructor; [unfold plain_name in P; tauto|]. eapply Forall_impl; [|exact F]. unfold plain_name. intros; tauto.
Qed.

(** ** Encoded texts *)
Lemma slice_concat (rows : rows_of) c : Forall (fun x => length x = c) rows -> forall pre k, length pre = k * c ->
  map (fun i => firstn c (skipn (i * c) (pre ++ concat rows))) (seq k (length rows)) = rows.
Proof.
  induction 1 as [|x rows H F IH]; intros pre k Hp; [reflexivity|]. cbn [length seq map concat]. f_equal.
  - rewrite skipn_app, <- Hp, skipn_all, Nat.sub_diag. cbn [skipn app]. rewrite <- H at 1. rewrite firstn_app, firstn_all, Nat.sub_diag. cbn [firstn]. apply app_nil_r.
  - rewrite app_assoc. apply IH. rewrite app_length. lia.
Qed.
Lemma decoded rows r c b64 : rectangular rows r c -> Forall (Forall f32_wf) rows -> fst (encode_b64_embeddings rows) = b64 ->
  decode_answer b64 (Z.to_nat r) (Z.to_nat c) = Ok rows.
Proof.
  intros R F <-. rewrite encode_values. unfold decode_answer. rewrite base64_inverse by apply flat_bytes.
  pose proof (concat_size rows r c R) as S. assert (L : length (flat_map (le_bytes 4) (concat rows)) = 4 * length (concat rows)) by apply four_bytes.
  assert (Hr : (0 <= r)%Z) by (destruct R; lia). assert (RC : length (concat rows) = Z.to_nat r * Z.to_nat c).
  { destruct rows as [|x rows]; [destruct R as (<- & _); reflexivity|]. destruct R as (R1 & R2). inversion R2; subst. nia. }
  rewrite L, RC, Nat.eqb_refl. f_equal. rewrite elements_patterns; [|lia|apply wf_patterns, Forall_concat, F].
  unfold sliced. destruct R as (R1 & R2). replace (Z.to_nat r) with (length rows) by lia.
  apply (slice_concat rows (Z.to_nat c)) with (pre := []); [|reflexivity]. eapply Forall_impl; [|exact R2]. cbn beta. intros x Hx. lia.
Qed.

(** ** Adding *)
Definition whole (rows : rows_of) : matrix := (len rows, Z.of_nat (cols_of rows), concat rows).
Lemma good_whole rows : good_rows rows -> to_ndarray (client_b64 rows) = Ok (whole rows).
Proof.
  intros (r & c & R & R1 & C1 & B & F). rewrite good_arrives by (exists r, c; repeat (split; [assumption|]); assumption).
  pose proof (cols_ok rows r c R R1) as K. pose proof (concat_size rows r c R) as S. unfold to_ndarray, plain_rows. cbn [s_b64 s_shape s_rows].
  replace (length rows =? 0) with false by (symmetry; apply Nat.eqb_neq; destruct R as (R & _); lia).
  replace (cols_of rows =? 0) with false by (symmetry; apply Nat.eqb_neq; lia).
  replace (forallb (fun r0 => length r0 =? cols_of rows) rows) with true by (symmetry; apply rect_forallb; unfold len; rewrite K, (proj1 R); exact R).
  apply shape_vec_iff; [unfold len; lia|lia|]. unfold len, whole. rewrite K, (proj1 R). repeat split; [unfold allocatable; nia|exact S|unfold len; rewrite (proj1 R); reflexivity].
Qed.
Lemma add_good docs md : docs <> [] -> Forall good_rows docs -> length md = length docs ->
  client_add (map IDict docs) (Some md) = Ok (inl (map whole docs, md)).
Proof.
  intros N F L. unfold client_add. replace (is_text_input (map IDict docs)) with false by (destruct docs; reflexivity).
  assert (M : mapM document_item (map IDict docs) = Ok (map (fun r => JSent (client_b64 r)) docs)).
  { clear N L. induction F as [|r docs G F IH]; [reflexivity|]. cbn [map mapM]. rewrite IH. destruct r as [|x r]; [destruct G as (r & c & (R & _) & R1 & _); cbn in R; lia|]. reflexivity. }
  rewrite M. cbn [bind]. destruct md as [|m md]; [destruct docs; [contradiction N; reflexivity|discriminate L]|]. unfold add_embeddings. cbn [needed bind if_any].
  assert (S : sents (map (fun r => JSent (client_b64 r)) docs) = Ok (map client_b64 docs)).
  { clear. induction docs as [|r docs IH]; [reflexivity|]. unfold sents in *. cbn [map mapM]. rewrite IH. reflexivity. }
  rewrite S. cbn [bind]. assert (T : mapM to_ndarray (map client_b64 docs) = Ok (map whole docs)).
  { clear - F. induction F as [|r docs G F IH]; [reflexivity|]. cbn [map mapM]. rewrite IH, (good_whole _ G). reflexivity. }
  rewrite T. cbn [bind]. rewrite map_length, L, Nat.eqb_refl. destruct docs; [contradiction N; reflexivity|]. reflexivity.
Qed.
Lemma add_texts_good ts md : ts <> [] -> length md = length ts -> client_add (map IText ts) (Some md) = Ok (inr (ts, md)).
Proof.
  intros N L. unfold client_add. replace (is_text_input (map IText ts)) with true by (destruct ts; [contradiction N|]; reflexivity).
  destruct md as [|m md]; [destruct ts; [contradiction N; reflexivity|discriminate L]|]. unfold add_texts. cbn [needed bind if_any]. rewrite texts_given. cbn [bind].
  rewrite L, Nat.eqb_refl. destruct ts; [contradiction N; reflexivity|]. reflexivity.
Qed.
Lemma mapM_len {A B} (f : A -> res B) l l' : mapM f l = Ok l' -> length l' = length l.
Proof. revert l'. induction l as [|x l IH]; intros l' H; cbn [mapM] in H; [injection H as <-; reflexivity|]. destruct (f x); try discriminate. cbn [bind] in H. destruct (mapM f l); try discriminate. cbn [bind] in H. injection H as <-. cbn [length]. rewrite (IH _ eq_refl). reflexivity. Qed.
Lemma add_as_many docs md x : client_add docs md = Ok x -> exists l, md = Some l /\ length l = length docs /\ docs <> [].
Proof.
  unfold client_add, add_texts, add_embeddings. intro H. destruct (is_text_input docs).
  - cbn [needed bind] in H. destruct (texts (map as_it_is docs)) as [ts| |] eqn:T; cbn [bind] in H; try discriminate. apply mapM_len in T. rewrite map_length in T.
    destruct md as [[|m l]|]; cbn [if_any needed bind] in H; try discriminate. destruct ts as [|t ts]; [discriminate|]. destruct (Nat.eqb_spec (length (m :: l)) (length (t :: ts))); [|discriminate].
    exists (m :: l). repeat split; [congruence|]. intros ->. discriminate.
  - destruct (mapM document_item docs) as [js| |] eqn:J; cbn [needed bind] in H; try discriminate. apply mapM_len in J.
    destruct (sents js) as [ds| |] eqn:T; cbn [bind] in H; try discriminate. apply mapM_len in T.
    destruct md as [[|m l]|]; cbn [if_any needed bind] in H; try discriminate. destruct (mapM to_ndarray ds) as [ms| |] eqn:M; cbn [bind] in H; try discriminate. apply mapM_len in M.
    destruct ms as [|t ts]; [discriminate|]. destruct (Nat.eqb_spec (length (m :: l)) (length (t :: ts))); [|discriminate].
    exists (m :: l). repeat split; [congruence|]. intros ->. cbn [length] in J. rewrite J in T. rewrite T in M. discriminate.
Qed.
