(** Property C105: the words of a search. *)
From Verif Require Import Base Text CmdLine CmdLineSpec.
Open Scope nat_scope.

Lemma looks_path_like w : looks_like_path w = true <-> path_like w.
Proof.
  unfold looks_like_path, path_like. rewrite orb_true_iff, existsb_exists. split.
  - intros [H|(c & C & H)].
    + destruct w as [|c r]; [discriminate H|]. apply existsb_exists in H. destruct H as (d & D & E). apply Z.eqb_eq in E. subst d.
      destruct D as [<-|[<-|[<-|[]]]]; [left; exists r; reflexivity|right; right; left; left; reflexivity|right; left; exists r; reflexivity].
    + apply orb_true_iff in H. rewrite !Z.eqb_eq in H. destruct H as [->| ->]; auto.
  - intros [(r & ->)|[(r & ->)|[H|H]]]; [left; reflexivity|left; reflexivity| |]; right; eexists; (split; [exact H|]); rewrite Z.eqb_refl, ?orb_true_r; reflexivity.
Qed.
(** C105. A search is read in exactly one of the ways of the specification. *)
Theorem C105_read_exactly :
  forall there query paths pattern s, (query = None -> paths = []) ->
    read_words there query paths pattern = Some s <-> reads there query paths pattern s.
Proof.
  intros there query paths pattern s W. split.
  - unfold read_words. intros E. destruct query as [q|], pattern as [e|]; [| | |discriminate E]; injection E as <-.
    + destruct (looks_like_path q) eqn:L; [apply Pattern_and_paths; apply looks_path_like; exact L|].
      assert (N : ~ path_like q) by (intros P; apply looks_path_like in P; congruence).
      destruct paths; [apply Pattern_given_here; exact N|apply Pattern_given; [exact N|discriminate]].
    + destruct paths as [|p rest]; [apply Query_only|]. destruct (there p) eqn:T.
      * apply Query_and_paths; [|discriminate]. intros p' r X. injection X as <- <-. left. exact T.
      * destruct (looks_like_path p) eqn:L.
        -- apply Query_and_paths; [|discriminate]. intros p' r X. injection X as <- <-. right. apply looks_path_like. exact L.
        -- assert (N : ~ path_like p) by (intros P; apply looks_path_like in P; congruence).
           destruct rest; [apply Pattern_then_query_here; assumption|apply Pattern_then_query; [assumption|assumption|discriminate]].
    + rewrite W by reflexivity. apply Pattern_alone.
  - intros R. destruct R as [q paths H N|q|e q paths T N P|e q T N|e q paths N P|e q N|e p paths P|e]; unfold read_words.
    + destruct paths as [|p r]; [congruence|]. destruct (there p) eqn:T; [reflexivity|]. destruct (H p r eq_refl) as [X|X]; [congruence|].
      apply looks_path_like in X. rewrite X. reflexivity.
    + reflexivity.
    + rewrite T. destruct (looks_like_path q) eqn:L; [exfalso; apply N, looks_path_like, L|]. destruct paths; [congruence|reflexivity].
    + rewrite T. destruct (looks_like_path q) eqn:L; [exfalso; apply N, looks_path_like, L|]. reflexivity.
    + destruct (looks_like_path q) eqn:L; [exfalso; apply N, looks_path_like, L|]. destruct paths; [congruence|reflexivity].
    + destruct (looks_like_path q) eqn:L; [exfalso; apply N, looks_path_like, L|]. reflexivity.
    + apply looks_path_like in P. rewrite P. reflexivity.
    + reflexivity.
Qed.
Print Assumptions C105_read_exactly.
(** C105. No word is lost and none is made up, but the current directory. *)
Definition of_option (o : option text) : list text := match o with Some t => [t] | None => [] end.
Theorem C105_no_word_lost :
  forall there query paths pattern, (query = None -> paths = []) ->
    (read_words there query paths pattern = None <-> query = None /\ pattern = None)
    /\ forall s, read_words there query paths pattern = Some s ->
         (forall w, In w (of_option query ++ of_option pattern ++ paths) -> In w (q_query s :: of_option (q_pattern s) ++ q_paths s))
         /\ (forall w, In w (q_query s :: of_option (q_pattern s) ++ q_paths s) -> In w (of_option query ++ of_option pattern ++ paths) \/ w = txt ".")
         /\ q_paths s <> []
         /\ (q_paths s = [txt "."] \/ exists before, of_option query ++ paths = before ++ q_paths s).
Proof.
  intros there query paths pattern W. split.
  - unfold read_words. destruct query, pattern; split; try discriminate; try (intros (X & Y); congruence); auto.
  - intros s E. apply C105_read_exactly in E; [|exact W].
    destruct E as [q paths H N|q|e q paths T N P|e q T N|e q paths N P|e q N|e p paths P|e]; cbn [of_option q_query q_pattern q_paths app In];
      (split; [intros w Hw; rewrite ?in_app_iff in *; cbn [In] in *; tauto|]); (split; [intros w Hw; rewrite ?in_app_iff in *; cbn [In] in *; intuition auto|]);
      (split; [first [assumption|discriminate]|]).
    + right. exists [q]. reflexivity.
    + left; reflexivity.
    + right. exists [e; q]. reflexivity.
    + left; reflexivity.
    + right. exists [q]. reflexivity.
    + left; reflexivity.
    + right. exists []. reflexivity.
    + left; reflexivity.
Qed.
Print Assumptions C105_no_word_lost.
Definition ex_there (w : text) : bool := text_eqb w (txt "src") || text_eqb w (txt "lib").
Example C105_example :
  read_words ex_there (Some (txt "error handling")) [txt "src"; txt "lib"] None = Some (mk_search (txt "error handling") None [txt "src"; txt "lib"])
  /\ read_words ex_there (Some (txt "fn\s+parse")) [txt "parser entry"; txt "src"] None = Some (mk_search (txt "parser entry") (Some (txt "fn\s+parse")) [txt "src"])
  /\ read_words ex_there (Some (txt "./src")) [txt "lib"] (Some (txt "TODO")) = Some (mk_search (txt "TODO") (Some (txt "TODO")) [txt "./src"; txt "lib"])
  /\ read_words ex_there None [] (Some (txt "TODO")) = Some (mk_search (txt "TODO") (Some (txt "TODO")) [txt "."])
  /\ read_words ex_there None [] None = None.
Proof. vm_compute. auto. Qed.

(** Not so: with -e a directory that is there is searched.  If its name has no separator it is the query,
    and the current directory is searched. *)
Theorem C105_directory_as_query_refuted :
  ex_there (txt "src") = true /\ read_words ex_there (Some (txt "src")) [] (Some (txt "TODO")) = Some (mk_search (txt "src") (Some (txt "TODO")) [txt "."]).
Proof. vm_compute. auto. Qed.
Print Assumptions C105_directory_as_query_refuted.
(** Not so: with -e the query given is the query.  With a slash or a dot in front it becomes a path. *)
Theorem C105_query_as_path_refuted :
  read_words ex_there (Some (txt "read/write lock")) [txt "src"] (Some (txt "lock")) = Some (mk_search (txt "lock") (Some (txt "lock")) [txt "read/write lock"; txt "src"])
  /\ read_words ex_there (Some (txt ".await points")) [] (Some (txt "await")) = Some (mk_search (txt "await") (Some (txt "await")) [txt ".await points"]).
Proof. vm_compute. auto. Qed.
Print Assumptions C105_query_as_path_refuted.
(** Not so: a directory that is not there is reported.  A misspelt name becomes the query, the query a
    pattern, and the current directory is searched without a limit. *)
Theorem C105_misspelt_directory_refuted :
  ex_there (txt "scr") = false
  /\ exists s, read_words ex_there (Some (txt "error handling")) [txt "scr"] None = Some s /\ s = mk_search (txt "scr") (Some (txt "error handling")) [txt "."]
     /\ forall saved context, limit None saved context s = None.
Proof. split; [reflexivity|]. eexists. split; [vm_compute; reflexivity|]. split; [reflexivity|]. intros. reflexivity. Qed.
Print Assumptions C105_misspelt_directory_refuted.
