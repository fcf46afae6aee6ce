(** Streams of chunks: every schedule of the workers delivers every chunk once. *)
From Verif Require Import Base Onnx OnnxSpec OnnxPrepare OnnxEncode OnnxPaths.
Open Scope nat_scope.

(** * No panics *)
Section Calm.
  Context {T : tokenizer} (N : network) (c : config T) (dim : nat) (f : list nat -> option (list nat) -> list (list (value N))).
  Context (HT : steady T) (HN : ignores_padding N dim f) (HC : calm T N).
  Lemma batch_calm is_query filter_skiplist prefix pad vs origin : 3 <= max_length c is_query -> Forall nonempty vs ->
    encode_prepared N c (batch c is_query filter_skiplist prefix (batch_len c is_query pad vs) vs origin) <> Panic.
  Proof.
    intros M NE. destruct vs as [|v vs]; [discriminate|]. set (ws := v :: vs) in *.
    assert (HF : Forall (fits c is_query (batch_len c is_query pad ws)) ws).
    { pose proof (batch_len_enough c is_query pad ws ltac:(lia)) as B. rewrite Forall_forall in *. intros w I. split; [exact (NE w I)|exact (B w I)]. }
    set (p := batch c is_query filter_skiplist prefix (batch_len c is_query pad ws) ws origin).
    destruct (run N (b_size p) (b_len p) (b_ids p) (b_mask p) (b_types p)) as [(shape & data)| |] eqn:R.
    - unfold p in *. rewrite (encode_batch_spec N c dim f HN is_query filter_skiplist prefix _ ws M HF shape data origin ltac:(discriminate) R). discriminate.
    - unfold encode_prepared. replace (b_size p =? 0) with false by reflexivity. rewrite R. discriminate.
    - exfalso. now apply (proj2 (proj2 HC)) in R.
  Qed.
  Lemma prefix_calm is_query : prefix_token c is_query <> Panic.
  Proof. unfold prefix_token. destruct (if is_query then _ else _); [discriminate|]. destruct (token_id T _); discriminate. Qed.
  Lemma encode_texts_calm is_query filter_skiplist ts : 3 <= max_length c is_query -> encode_texts N c is_query filter_skiplist ts <> Panic.
  Proof.
    intros M. destruct ts as [|t ts]; [discriminate|]. set (us := t :: ts).
    change (bind (bind (encode_batch T (preprocess c us)) (fun encs => prepare_encodings c encs is_query filter_skiplist)) (encode_prepared N c) <> Panic).
    destruct (encode_batch T (preprocess c us)) as [es| |] eqn:E; [|discriminate|exfalso; now apply (proj1 (proj2 HC)) in E]. cbn [bind].
    apply (proj2 HT) in E.
    assert (PE : Forall proper es) by (clear -E; remember (preprocess c us) as xs; clear Heqxs; induction E; constructor; auto; tauto).
    destruct (prefix_token c is_query) as [prefix| |] eqn:P; [| |exfalso; now apply prefix_calm in P].
    - rewrite (prepare_encodings_spec c es is_query filter_skiplist prefix M P PE). cbn [bind]. apply batch_calm; auto.
      apply Forall_map. eapply Forall_impl; [|exact PE]. intros e HE. now apply visible_nonempty.
    - unfold prepare_encodings. rewrite P. discriminate.
  Qed.
End Calm.
Lemma mapM_calm {A B} (h : A -> res B) l : (forall x, In x l -> h x <> Panic) -> mapM h l <> Panic.
Proof.
  induction l as [|x l IH]; cbn [mapM]; intros H; [discriminate|]. pose proof (H x (or_introl eq_refl)). destruct (h x); cbn; [|discriminate|congruence].
  specialize (IH (fun y I => H y (or_intror I))). destruct (mapM h l); cbn; congruence.
Qed.
Lemma join_all_calm {A} (rs : list (res A)) : (forall r, In r rs -> r <> Panic) -> join_all rs <> Panic.
Proof.
  intros H. unfold join_all. destruct (existsb panicked rs) eqn:E.
  - apply existsb_exists in E. destruct E as (r & I & P). specialize (H r I). destruct r; try discriminate. congruence.
  - now apply mapM_calm.
Qed.
Lemma encode_all_calm {T} (N : network) (M : model T) dim f is_query filter_skiplist ts :
  steady T -> ignores_padding N dim f -> calm T N -> 3 <= max_length (m_config M) is_query -> 1 <= m_batch_size M ->
  encode_all N M is_query filter_skiplist ts <> Panic.
Proof.
  intros HT HN HC M3 HB. destruct ts as [|t ts]; [discriminate|]. unfold encode_all.
  pose proof (fun us => encode_texts_calm N (m_config M) dim f HT HN HC is_query filter_skiplist us M3) as K.
  destruct (m_sessions M =? 1).
  - unfold single_session. replace (m_batch_size M =? 0) with false by (symmetry; apply Nat.eqb_neq; lia).
    pose proof (mapM_calm (encode_texts N (m_config M) is_query filter_skiplist) (chunks (m_batch_size M) (t :: ts)) (fun x _ => K x)) as Q. destruct (mapM _ _); cbn; congruence.
  - unfold parallel. pose proof (join_all_calm (map (encode_texts N (m_config M) is_query filter_skiplist) (chunks (Nat.max (m_batch_size M) 1) (t :: ts)))) as Q.
    destruct (join_all _); cbn; try congruence. exfalso. apply Q; auto. intros r I. apply in_map_iff in I. destruct I as (x & <- & _). apply K.
Qed.

(** * Streams *)
Section Runs.
  Context {T : tokenizer} (N : network) (M : model T).
  Notation chunk := (nat * nat * list (text T))%type.
  Definition answer (w : chunk) : res (nat * nat * list (list (list (value N)))) :=
    let '(ci, off, texts) := w in
    match encode_texts N (m_config M) false true texts with Ok out => Ok (ci, off, out) | Err => Err | Panic => Panic end.
  Definition busy (ws : list (@worker T)) : list chunk := flat_map (fun w => match w with Busy x => [x] | _ => [] end) ws.
  Lemma busy_upd ws i (x : @worker T) y : nth_error ws i = Some x ->
    Permutation (busy [x] ++ busy (upd ws i y)) (busy [y] ++ busy ws).
  Proof.
    revert i. induction ws as [|w ws IH]; intros [|i] H; cbn in H; try discriminate.
    - injection H as ->. cbn [upd]. change (busy (y :: ws)) with (busy ([y] ++ ws)). change (busy (x :: ws)) with (busy ([x] ++ ws)). unfold busy. rewrite !flat_map_app.
      rewrite !app_assoc. apply Permutation_app_tail. apply Permutation_app_comm.
    - cbn [upd]. change (busy (w :: upd ws i y)) with (busy ([w] ++ upd ws i y)). change (busy (w :: ws)) with (busy ([w] ++ ws)). unfold busy in *. rewrite !(flat_map_app _ [w]).
      rewrite Permutation_app_swap_app. rewrite (IH i H). rewrite Permutation_app_swap_app. reflexivity.
  Qed.
  Definition inv (W : list chunk) (s : stream N) : Prop :=
    exists done lost, Permutation (q_queue N s ++ busy (q_workers N s) ++ done ++ lost) W /\ q_sent N s = map answer done /\
      Forall (fun w => answer w = Panic) lost /\ Forall (fun w => answer w <> Panic) done /\ (In Ended (q_workers N s) -> q_queue N s = [] \/ lost <> []).
  Lemma upd_In {A} (l : list A) i x y : In x (upd l i y) -> x = y \/ In x l.
  Proof. revert i. induction l as [|z l IH]; intros [|i] H; cbn in *; try tauto; destruct H as [H|H]; auto. apply IH in H. tauto. Qed.
  Lemma inv_step W s s' : inv W s -> stream_step N M s s' -> inv W s'.
  Proof.
    intros (done & lost & P & ES & FL & FD & E) H. destruct H as [i w queue ws sent HI|i ws sent HI|i ci off texts out queue ws sent HI HE|i ci off texts queue ws sent HI HE|i ci off texts queue ws sent HI HE];
      cbn [q_queue q_workers q_sent] in *.
    - exists done, lost. cbn [q_queue q_workers q_sent]. split; [|split; [auto|split; [auto|split; [auto|]]]].
      + pose proof (busy_upd ws i Idle (Busy w) HI) as B. cbn [busy flat_map app] in B. fold (busy (upd ws i (Busy w))) (busy ws) in B. rewrite <- P. rewrite B. cbn [app]. apply Permutation_sym, Permutation_middle.
      + intros I. apply upd_In in I. destruct I as [I|I]; [discriminate|]. destruct (E I) as [Q|Q]; [discriminate|now right].
    - exists done, lost. cbn [q_queue q_workers q_sent]. split; [|split; [auto|split; [auto|split; [auto|]]]].
      + pose proof (busy_upd ws i Idle Ended HI) as B. cbn [busy flat_map app] in B. fold (busy (upd ws i Ended)) (busy ws) in B. rewrite <- P. now rewrite B.
      + now left.
    - exists (done ++ [(ci, off, texts)]), lost. cbn [q_queue q_workers q_sent].
      assert (EA : answer (ci, off, texts) = Ok (ci, off, out)) by (cbn [answer]; now rewrite HE).
      split; [|split; [now rewrite map_app, ES; cbn [map]; rewrite EA|split; [auto|split; [apply Forall_app; split; auto; constructor; auto; congruence|]]]].
      + pose proof (busy_upd ws i (Busy (ci, off, texts)) Idle HI) as B. cbn [busy flat_map app] in B. fold (busy (upd ws i Idle)) (busy ws) in B. rewrite <- P. apply Permutation_app_head.
        rewrite <- B. cbn [app]. rewrite <- app_assoc. cbn [app]. rewrite !app_assoc. apply Permutation_sym, Permutation_middle.
      + intros I. apply upd_In in I. destruct I as [I|I]; [discriminate|auto].
    - exists (done ++ [(ci, off, texts)]), lost. cbn [q_queue q_workers q_sent].
      assert (EA : answer (ci, off, texts) = Err) by (cbn [answer]; now rewrite HE).
      split; [|split; [now rewrite map_app, ES; cbn [map]; rewrite EA|split; [auto|split; [apply Forall_app; split; auto; constructor; auto; congruence|]]]].
      + pose proof (busy_upd ws i (Busy (ci, off, texts)) Idle HI) as B. cbn [busy flat_map app] in B. fold (busy (upd ws i Idle)) (busy ws) in B. rewrite <- P. apply Permutation_app_head.
        rewrite <- B. cbn [app]. rewrite <- app_assoc. cbn [app]. rewrite !app_assoc. apply Permutation_sym, Permutation_middle.
      + intros I. apply upd_In in I. destruct I as [I|I]; [discriminate|auto].
    - exists done, (lost ++ [(ci, off, texts)]). cbn [q_queue q_workers q_sent].
      assert (EA : answer (ci, off, texts) = Panic) by (cbn [answer]; now rewrite HE).
      split; [|split; [auto|split; [apply Forall_app; split; auto|split; auto]]].
      + pose proof (busy_upd ws i (Busy (ci, off, texts)) Ended HI) as B. cbn [busy flat_map app] in B. fold (busy (upd ws i Ended)) (busy ws) in B. rewrite <- P. apply Permutation_app_head.
        rewrite <- B. cbn [app]. rewrite !app_assoc. apply Permutation_sym, Permutation_cons_append.
      + intros _. right. destruct lost; discriminate.
  Qed.
  Lemma inv_run W s s' : stream_run N M s s' -> inv W s -> inv W s'.
  Proof. induction 1; eauto using inv_step. Qed.
  Lemma busy_repeat k : busy (repeat Idle k) = [].
  Proof. induction k; cbn; auto. Qed.
  Lemma inv_start texts : inv (work_queue M texts) (stream_start N M texts).
  Proof.
    exists [], []. cbn. rewrite busy_repeat, app_nil_r. repeat split; auto. intros I. apply repeat_spec in I. discriminate.
  Qed.
  Lemma busy_over (s : stream N) : stream_over N s -> busy (q_workers N s) = [].
  Proof. unfold stream_over. intros F. induction F as [|w l -> _ IH]; cbn; auto. Qed.
  Lemma workers_len s s' : stream_step N M s s' -> length (q_workers N s') = length (q_workers N s).
  Proof. destruct 1; cbn; apply upd_length. Qed.
  Lemma workers_run s s' : stream_run N M s s' -> length (q_workers N s') = length (q_workers N s).
  Proof. induction 1; auto. erewrite IHstream_run, workers_len; eauto. Qed.
  Lemma stream_delivers texts s : stream_run N M (stream_start N M texts) s -> stream_over N s -> 1 <= m_sessions M ->
    (forall w, In w (work_queue M texts) -> answer w <> Panic) -> q_queue N s = [] /\ Permutation (q_sent N s) (map answer (work_queue M texts)).
  Proof.
    intros R O S1 NP. destruct (inv_run _ _ _ R (inv_start texts)) as (done & lost & P & ES & FL & FD & E). rewrite busy_over in P by auto. cbn [app] in P.
    assert (L0 : lost = []).
    { destruct lost as [|w lost]; auto. exfalso. inversion FL; subst. apply (NP w); auto. eapply Permutation_in; [exact P|]. rewrite !in_app_iff. right. right. now left. }
    subst lost. rewrite app_nil_r in P.
    assert (Q : q_queue N s = []).
    { destruct (q_workers N s) as [|w ws] eqn:EW.
      - apply workers_run in R. rewrite EW in R. cbn in R. rewrite repeat_length in R. lia.
      - unfold stream_over in O. rewrite EW in O. inversion O; subst. destruct E as [E|E]; auto; [now left|congruence]. }
    split; auto. rewrite Q in P. cbn in P. rewrite ES. now apply Permutation_map.
  Qed.
  (** Every schedule ends. *)
  Definition weight (w : @worker T) : nat := match w with Idle => 1 | Busy _ => 3 | Ended => 0 end.
  Definition remaining (s : stream N) : nat := 3 * length (q_queue N s) + list_sum (map weight (q_workers N s)).
  Lemma weight_upd ws i (x y : @worker T) : nth_error ws i = Some x -> list_sum (map weight (upd ws i y)) + weight x = list_sum (map weight ws) + weight y.
  Proof.
    unfold list_sum. revert i. induction ws as [|w ws IH]; intros [|i] H; cbn in H; try discriminate; cbn [upd map fold_right]; [injection H as ->; lia|]. specialize (IH i H). lia.
  Qed.
  Lemma step_remaining s s' : stream_step N M s s' -> remaining s' < remaining s.
  Proof.
    unfold remaining. intros H. destruct H as [i w queue ws sent HI|i ws sent HI|i ci off texts out queue ws sent HI HE|i ci off texts queue ws sent HI HE|i ci off texts queue ws sent HI HE];
      cbn [q_queue q_workers length].
    - pose proof (weight_upd ws i Idle (Busy w) HI). cbn [weight] in *. lia.
    - pose proof (weight_upd ws i Idle Ended HI). cbn [weight] in *. lia.
    - pose proof (weight_upd ws i _ Idle HI). cbn [weight] in *. lia.
    - pose proof (weight_upd ws i _ Idle HI). cbn [weight] in *. lia.
    - pose proof (weight_upd ws i _ Ended HI). cbn [weight] in *. lia.
  Qed.
  Lemma over_or_step s : stream_over N s \/ exists s', stream_step N M s s'.
  Proof.
    destruct s as [queue ws sent].
    assert (D : Forall (fun w => w = Ended) ws \/ exists i w, nth_error ws i = Some w /\ w <> Ended).
    { clear. induction ws as [|w ws [IH|(i & x & IH)]]; [left; constructor| |right; exists (S i), x; exact IH].
      destruct w; [right; exists 0, Idle; split; [reflexivity|discriminate]|right; exists 0, (Busy w); split; [reflexivity|discriminate]|left; now constructor]. }
    destruct D as [D|(i & w & E & NE)]; [now left|right]. destruct w as [|((ci & off) & texts)|]; [| |congruence].
    - destruct queue as [|x queue]; eexists; [now apply (step_end N M i)|now apply (step_pop N M i)].
    - destruct (encode_texts N (m_config M) false true texts) as [out| |] eqn:EE; eexists;
        [eapply (step_send N M i); eauto|eapply (step_error N M i); eauto|eapply (step_panic N M i); eauto].
  Qed.
  Lemma reaches_over s : exists s', stream_run N M s s' /\ stream_over N s'.
  Proof.
    assert (K : forall k s, remaining s <= k -> exists s', stream_run N M s s' /\ stream_over N s').
    { clear. induction k as [|k IH]; intros s L; destruct (over_or_step s) as [O|(s' & H)]; try (exists s; split; [constructor|auto]; fail);
        pose proof (step_remaining s s' H); [lia|]. destruct (IH s' ltac:(lia)) as (s2 & R & O). exists s2. split; auto. econstructor; eauto. }
    apply (K (remaining s)). lia.
  Qed.
End Runs.

(** * Chunks and offsets *)
Lemma chunks_firstn {A} n : 1 <= n -> forall fuel (l : list A) i ch, nth_error (chunks_fuel fuel n l) i = Some ch ->
  concat (firstn i (chunks_fuel fuel n l)) = firstn (i * n) l /\ i * n < length l.
Proof.
  intros HN. induction fuel as [|fuel IH]; intros l i ch H; [destruct i; discriminate|]. cbn [chunks_fuel] in *. destruct l as [|x l]; [destruct i; discriminate|].
  set (ys := x :: l) in *. destruct i as [|i]; [split; [reflexivity|cbn; lia]|]. cbn [nth_error] in H. destruct (IH _ _ _ H) as (E & L). rewrite skipn_length in L.
  cbn [firstn concat]. split; [|cbn [Nat.mul]; lia]. rewrite E. cbn [Nat.mul].
  rewrite <- (firstn_skipn n ys) at 3. rewrite firstn_app, firstn_length. rewrite (firstn_all2 (firstn n ys)) by (rewrite firstn_length; lia). f_equal. f_equal. lia.
Qed.
Lemma chunk_offset {A} n (l : list A) i ch : 1 <= n -> nth_error (chunks n l) i = Some ch -> length (concat (firstn i (chunks n l))) = i * n.
Proof. intros HN H. destruct (chunks_firstn n HN _ l i ch H) as (E & L). unfold chunks in *. rewrite E, firstn_length. lia. Qed.
Lemma Forall2_nth {A B} (P : A -> B -> Prop) l r i x : Forall2 P l r -> nth_error l i = Some x -> exists y, nth_error r i = Some y /\ P x y.
Proof. intros F. revert i. induction F as [|a b l r H _ IH]; intros [|i] E; cbn in *; try discriminate; [injection E as ->; eauto|eauto]. Qed.
Lemma Forall2_firstn {A B} (P : A -> B -> Prop) l r i : Forall2 P l r -> Forall2 P (firstn i l) (firstn i r).
Proof. intros F. revert i. induction F; intros [|i]; cbn; constructor; auto. Qed.

Section Whole.
  Context {T : tokenizer} (N : network) (M : model T) (dim : nat) (f : list nat -> option (list nat) -> list (list (value N))).
  Notation c := (m_config M).
  Context (HT : steady T) (HN : ignores_padding N dim f) (prefix : nat) (M3 : 3 <= document_length c) (HP : prefix_token c false = Ok prefix).
  Notation g := (own N c f false true prefix).
  (** If every chunk is answered, they assemble to the embeddings of the texts. *)
  Lemma answers_assemble texts parts : Forall2 (fun w p => answer N M w = Ok p) (work_queue M texts) parts ->
    exists whole, assembles parts whole /\ Forall2 (embeds c g) texts whole.
  Proof.
    intros F. set (n := Nat.max (m_batch_size M) 1) in *. exists (concat (map snd parts)).
    assert (LN : 1 <= n) by lia.
    assert (F1 : Forall2 (fun x p => fst (fst p) = fst x /\ snd (fst p) = fst x * n /\ encode_texts N c false true (snd x) = Ok (snd p)) (numbered (chunks n texts)) parts).
    { unfold work_queue in F. fold n in F. apply Forall2_map_l in F. eapply Forall2_impl_in; [|exact F]. intros (i & ch) p _ E. cbn [answer] in E.
      destruct (encode_texts N c false true ch) eqn:EE; try discriminate. injection E as <-. cbn. auto. }
    assert (F2 : Forall2 (fun ch p => encode_texts N c false true ch = Ok (snd p)) (chunks n texts) parts).
    { rewrite <- (numbered_snd (chunks n texts)). apply Forall2_map_l. eapply Forall2_impl_in; [|exact F1]. cbn beta. intros x p _ H. apply H. }
    assert (F3 : Forall2 (Forall2 (embeds c g)) (chunks n texts) (map snd parts)).
    { clear F F1. induction F2 as [|ch p l r H _ IH]; cbn; constructor; auto. exact (encode_texts_spec N c dim f HT HN false true prefix M3 HP ch (snd p) H). }
    split; [|rewrite <- (concat_chunks n texts LN) at 1; now apply Forall2_concat].
    split; auto. intros k index offset out E.
    assert (EX : exists ch, nth_error (chunks n texts) k = Some ch /\ index = k /\ offset = k * n).
    { assert (LL : length (chunks n texts) = length parts) by (now apply f2_len in F2).
      assert (K : k < length (chunks n texts)) by (rewrite LL; apply nth_error_Some; congruence).
      destruct (nth_error (chunks n texts) k) as [ch|] eqn:EC; [|apply nth_error_None in EC; lia]. exists ch. split; auto.
      destruct (Forall2_nth _ _ _ k (k, ch) F1) as (p & EP & A1 & A2 & _); [now rewrite numbered_nth, EC|]. rewrite E in EP. injection EP as <-. cbn in *. auto. }
    destruct EX as (ch & EC & -> & ->). split; auto. rewrite <- (chunk_offset n texts k ch LN EC).
    rewrite <- firstn_map. apply f2_len with (P := embeds c g). apply Forall2_concat. now apply Forall2_firstn.
  Qed.
End Whole.
