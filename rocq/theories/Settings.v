(** The saved settings of colgrep: colgrep/src/config.rs, colgrep/src/commands/config.rs, and the
    values a search and an indexing run take from them (commands/search.rs, commands/init.rs, main.rs). *)
From Verif Require Import Base F32 Text.
Open Scope nat_scope.

(** config.rs 109-185 [Config] *)
Record config := mk_config {
  g_model : option text; g_k : option nat; g_n : option nat; g_fp32 : option bool; g_cache : option text; g_pool : option nat;
  g_sessions : option nat; g_batch : option nat; g_verbose : option bool; g_depth : option nat; g_relative : option bool;
  g_hybrid : option bool; g_alpha : option f32; g_ignore : list text; g_include : list text }.
Definition default_config : config := mk_config None None None None None None None None None None None None None [] [].

(** ** The file.  The text of a JSON object is modelled by its members. *)
Inductive jv := JNull | JBool (b : bool) | JNum (n : nat) | JFloat (x : f32) | JText (t : text) | JList (l : list text) | JElse.
Definition object := list (text * jv).

(** serde_json writes a float that is not finite as null *)
Definition j_float (x : f32) : jv := if is_finite x then JFloat x else JNull.
Definition member {A} (k : text) (j : A -> jv) (o : option A) : object := match o with Some a => [(k, j a)] | None => [] end.   (* skip_serializing_if *)
Definition j_list (k : text) (l : list text) : object := match l with [] => [] | _ => [(k, JList l)] end.
(** config.rs 204-216 [save], the object written *)
Definition to_json (c : config) : object :=
  member (txt "default_model") JText (g_model c) ++ member (txt "default_k") JNum (g_k c) ++ member (txt "default_n") JNum (g_n c)
  ++ member (txt "fp32") JBool (g_fp32 c) ++ member (txt "coreml_cache_dir") JText (g_cache c) ++ member (txt "pool_factor") JNum (g_pool c)
  ++ member (txt "parallel_sessions") JNum (g_sessions c) ++ member (txt "batch_size") JNum (g_batch c) ++ member (txt "verbose") JBool (g_verbose c)
  ++ member (txt "max_recursion_depth") JNum (g_depth c) ++ member (txt "relative_paths") JBool (g_relative c)
  ++ member (txt "hybrid_search") JBool (g_hybrid c) ++ member (txt "hybrid_alpha") j_float (g_alpha c)
  ++ j_list (txt "extra_ignore") (g_ignore c) ++ j_list (txt "force_include") (g_include c).

(** What serde's derived reader does with one field: absent, once, or more than once (an error) *)
Definition found (k : text) (o : object) : option (option jv) :=
  match filter (fun p => text_eqb (fst p) k) o with [] => Some None | [p] => Some (Some (snd p)) | _ => None end.
Definition field {A} (k : text) (read : jv -> option A) (o : object) : option (option A) :=
  match found k o with
  | None => None
  | Some None => Some None
  | Some (Some JNull) => Some None
  | Some (Some v) => match read v with Some a => Some (Some a) | None => None end
  end.
Definition list_field (k : text) (o : object) : option (list text) :=
  match found k o with None => None | Some None => Some [] | Some (Some (JList l)) => Some l | Some (Some _) => None end.
Definition r_text (v : jv) := match v with JText t => Some t | _ => None end.
Definition r_num (v : jv) := match v with JNum n => Some n | _ => None end.
Definition r_bool (v : jv) := match v with JBool b => Some b | _ => None end.
(** an integer is read as a float as well; [rounded] is the conversion *)
Definition r_float (rounded : nat -> f32) (v : jv) := match v with JFloat x => Some x | JNum n => Some (rounded n) | _ => None end.
Notation "'do' x <- a ;; b" := (match a with Some x => b | None => None end) (at level 60, x name, right associativity).
(** config.rs 190-201 [load], the object read; members of other names are ignored *)
Definition from_json (rounded : nat -> f32) (o : object) : option config :=
  do m <- field (txt "default_model") r_text o;; do k <- field (txt "default_k") r_num o;; do n <- field (txt "default_n") r_num o;;
  do f <- field (txt "fp32") r_bool o;; do d <- field (txt "coreml_cache_dir") r_text o;; do p <- field (txt "pool_factor") r_num o;;
  do s <- field (txt "parallel_sessions") r_num o;; do b <- field (txt "batch_size") r_num o;; do v <- field (txt "verbose") r_bool o;;
  do x <- field (txt "max_recursion_depth") r_num o;; do r <- field (txt "relative_paths") r_bool o;; do h <- field (txt "hybrid_search") r_bool o;;
  do a <- field (txt "hybrid_alpha") (r_float rounded) o;; do i <- list_field (txt "extra_ignore") o;; do w <- list_field (txt "force_include") o;;
  Some (mk_config m k n f d p s b v x r h a i w).

(** The file on disk.  [Cut]: a prefix of a text, left by a process that was killed in [fs::write]; no
    proper prefix of the text of an object is the text of a value. *)
Inductive disk := Missing | Saved (o : object) | Cut.
Definition load (rounded : nat -> f32) (d : disk) : option config :=
  match d with Missing => Some default_config | Saved o => from_json rounded o | Cut => None end.
Definition save (c : config) : disk := Saved (to_json c).
(** [Config::load().unwrap_or_default()]: search.rs 532, init.rs 39, index/mod.rs 1780, 2691 *)
Definition load_or_default (rounded : nat -> f32) (d : disk) : config := match load rounded d with Some c => c | None => default_config end.

(** ** Setters: config.rs 218-507 *)
Definition set_model v c := mk_config v (g_k c) (g_n c) (g_fp32 c) (g_cache c) (g_pool c) (g_sessions c) (g_batch c) (g_verbose c) (g_depth c) (g_relative c) (g_hybrid c) (g_alpha c) (g_ignore c) (g_include c).
Definition set_k v c := mk_config (g_model c) v (g_n c) (g_fp32 c) (g_cache c) (g_pool c) (g_sessions c) (g_batch c) (g_verbose c) (g_depth c) (g_relative c) (g_hybrid c) (g_alpha c) (g_ignore c) (g_include c).
Definition set_n v c := mk_config (g_model c) (g_k c) v (g_fp32 c) (g_cache c) (g_pool c) (g_sessions c) (g_batch c) (g_verbose c) (g_depth c) (g_relative c) (g_hybrid c) (g_alpha c) (g_ignore c) (g_include c).
Definition set_fp32 v c := mk_config (g_model c) (g_k c) (g_n c) v (g_cache c) (g_pool c) (g_sessions c) (g_batch c) (g_verbose c) (g_depth c) (g_relative c) (g_hybrid c) (g_alpha c) (g_ignore c) (g_include c).
Definition set_cache v c := mk_config (g_model c) (g_k c) (g_n c) (g_fp32 c) v (g_pool c) (g_sessions c) (g_batch c) (g_verbose c) (g_depth c) (g_relative c) (g_hybrid c) (g_alpha c) (g_ignore c) (g_include c).
Definition set_pool v c := mk_config (g_model c) (g_k c) (g_n c) (g_fp32 c) (g_cache c) v (g_sessions c) (g_batch c) (g_verbose c) (g_depth c) (g_relative c) (g_hybrid c) (g_alpha c) (g_ignore c) (g_include c).
Definition set_sessions v c := mk_config (g_model c) (g_k c) (g_n c) (g_fp32 c) (g_cache c) (g_pool c) v (g_batch c) (g_verbose c) (g_depth c) (g_relative c) (g_hybrid c) (g_alpha c) (g_ignore c) (g_include c).
Definition set_batch v c := mk_config (g_model c) (g_k c) (g_n c) (g_fp32 c) (g_cache c) (g_pool c) (g_sessions c) v (g_verbose c) (g_depth c) (g_relative c) (g_hybrid c) (g_alpha c) (g_ignore c) (g_include c).
Definition set_verbose v c := mk_config (g_model c) (g_k c) (g_n c) (g_fp32 c) (g_cache c) (g_pool c) (g_sessions c) (g_batch c) v (g_depth c) (g_relative c) (g_hybrid c) (g_alpha c) (g_ignore c) (g_include c).
Definition set_depth v c := mk_config (g_model c) (g_k c) (g_n c) (g_fp32 c) (g_cache c) (g_pool c) (g_sessions c) (g_batch c) (g_verbose c) v (g_relative c) (g_hybrid c) (g_alpha c) (g_ignore c) (g_include c).
Definition set_relative v c := mk_config (g_model c) (g_k c) (g_n c) (g_fp32 c) (g_cache c) (g_pool c) (g_sessions c) (g_batch c) (g_verbose c) (g_depth c) v (g_hybrid c) (g_alpha c) (g_ignore c) (g_include c).
Definition set_hybrid v c := mk_config (g_model c) (g_k c) (g_n c) (g_fp32 c) (g_cache c) (g_pool c) (g_sessions c) (g_batch c) (g_verbose c) (g_depth c) (g_relative c) v (g_alpha c) (g_ignore c) (g_include c).
Definition set_alpha v c := mk_config (g_model c) (g_k c) (g_n c) (g_fp32 c) (g_cache c) (g_pool c) (g_sessions c) (g_batch c) (g_verbose c) (g_depth c) (g_relative c) (g_hybrid c) v (g_ignore c) (g_include c).
Definition set_ignore v c := mk_config (g_model c) (g_k c) (g_n c) (g_fp32 c) (g_cache c) (g_pool c) (g_sessions c) (g_batch c) (g_verbose c) (g_depth c) (g_relative c) (g_hybrid c) (g_alpha c) v (g_include c).
Definition set_include v c := mk_config (g_model c) (g_k c) (g_n c) (g_fp32 c) (g_cache c) (g_pool c) (g_sessions c) (g_batch c) (g_verbose c) (g_depth c) (g_relative c) (g_hybrid c) (g_alpha c) (g_ignore c) v.

(** [f32::clamp(0.0, 1.0)] *)
Definition clamp01 (x : f32) : f32 := if f_lt x f_zero then f_zero else if f_lt f_one x then f_one else x.
(** 462-467, 487-492 [add_extra_ignore], [add_force_include]; 470-474, 495-499 the removals *)
Definition add_pattern (l : list text) (p : text) : list text := if existsb (text_eqb p) l then l else l ++ [p].
Definition remove_pattern (l : list text) (p : text) : list text := filter (fun q => negb (text_eqb q p)) l.

(** ** cli.rs 638-742: the options of [settings] *)
Record options := mk_options {
  o_k : option nat; o_n : option nat; o_fp32 : bool; o_int8 : bool; o_default_precision : bool; o_cache : option text; o_clear_cache : bool;
  o_pool : option nat; o_sessions : option nat; o_batch : option nat; o_depth : option nat; o_verbose : bool; o_no_verbose : bool;
  o_relative : bool; o_no_relative : bool; o_hybrid : bool; o_no_hybrid : bool; o_alpha : option f32;
  o_add_ignore : list text; o_remove_ignore : list text; o_add_include : list text; o_remove_include : list text;
  o_clear_ignore : bool; o_clear_include : bool }.

Definition is_none {A} (o : option A) : bool := match o with None => true | Some _ => false end.
Definition is_nil {A} (l : list A) : bool := match l with [] => true | _ => false end.
(** commands/config.rs 125-152: nothing given, the settings are shown *)
Definition shows (o : options) : bool :=
  is_none (o_k o) && is_none (o_n o) && negb (o_fp32 o) && negb (o_int8 o) && negb (o_default_precision o) && is_none (o_cache o) && negb (o_clear_cache o)
  && is_none (o_pool o) && is_none (o_sessions o) && is_none (o_batch o) && is_none (o_depth o) && negb (o_verbose o) && negb (o_no_verbose o)
  && negb (o_relative o) && negb (o_no_relative o) && negb (o_hybrid o) && negb (o_no_hybrid o) && is_none (o_alpha o)
  && is_nil (o_add_ignore o) && is_nil (o_remove_ignore o) && is_nil (o_add_include o) && is_nil (o_remove_include o)
  && negb (o_clear_ignore o) && negb (o_clear_include o).
(** 0 clears, else the setter with its minimum *)
Definition number (set : option nat -> config -> config) (least : nat) (o : option nat) (c : config) : config :=
  match o with None => c | Some n => if n =? 0 then set None c else set (Some (Nat.max n least)) c end.
(** 281-477: the changes, in their order *)
Definition changed (o : options) (c : config) : config :=
  let c := number set_k 0 (o_k o) c in
  let c := number set_n 0 (o_n o) c in
  let c := if o_fp32 o then set_fp32 (Some true) c else if o_int8 o then set_fp32 (Some false) c else if o_default_precision o then set_fp32 None c else c in
  let c := match o_cache o with Some d => set_cache (Some d) c | None => if o_clear_cache o then set_cache None c else c end in
  let c := number set_pool 1 (o_pool o) c in
  let c := number set_sessions 1 (o_sessions o) c in
  let c := number set_batch 1 (o_batch o) c in
  let c := number set_depth 1 (o_depth o) c in
  let c := if o_verbose o then set_verbose (Some true) c else if o_no_verbose o then set_verbose None c else c in
  let c := if o_relative o then set_relative (Some true) c else if o_no_relative o then set_relative None c else c in
  let c := if o_hybrid o then set_hybrid None c else if o_no_hybrid o then set_hybrid (Some false) c else c in
  let c := match o_alpha o with Some a => if f_eq a f_zero then set_alpha None c else set_alpha (Some (clamp01 a)) c | None => c end in
  let c := if o_clear_ignore o then set_ignore [] c else c in
  let c := set_ignore (fold_left add_pattern (o_add_ignore o) (g_ignore c)) c in
  let c := set_ignore (fold_left remove_pattern (o_remove_ignore o) (g_ignore c)) c in
  let c := if o_clear_include o then set_include [] c else c in
  let c := set_include (fold_left add_pattern (o_add_include o) (g_include c)) c in
  set_include (fold_left remove_pattern (o_remove_include o) (g_include c)) c.

(** A command on the settings; [works]: the model can be fetched and loaded (commands/config.rs 36-71) *)
Inductive command := Settings (o : options) | Set_model (m : text) (works : bool).
(** What a command comes to: it fails, leaves the file, or writes a configuration *)
Inductive outcome := Fails | Leaves | Writes (c : config).
(** commands/config.rs 22-93 [cmd_set_model], 97-483 [cmd_config] *)
Definition outcome_of (rounded : nat -> f32) (x : command) (d : disk) : outcome :=
  match load rounded d with
  | None => Fails
  | Some c =>
    match x with
    | Settings o => if shows o then Leaves else Writes (changed o c)
    | Set_model m works =>
      if match g_model c with Some m' => text_eqb m' m | None => false end then Leaves
      else if works then Writes (set_model (Some m) c) else Fails
    end
  end.
Definition run_command (rounded : nat -> f32) (x : command) (d : disk) : disk :=
  match outcome_of rounded x d with Writes c => save c | _ => d end.
(** the file after commands, each run to its end or failed by itself *)
Definition after (rounded : nat -> f32) (h : list command) (d : disk) : disk := fold_left (fun d x => run_command rounded x d) h d.
(** the process is killed while it writes: [fs::write] (config.rs 214) cuts the file first *)
Definition killed_writing (rounded : nat -> f32) (x : command) (d : disk) : disk :=
  match outcome_of rounded x d with Writes _ => Cut | _ => d end.

(** ** What the commands use *)

(** config.rs 18-20 *)
Definition default_pool : nat := 2.
Definition default_depth : nat := 1024.
Definition default_alpha : f32 := 1058642330%Z.   (* 0.60, 0x3f19999a *)
Definition or_else {A} (o : option A) (d : A) : A := match o with Some a => a | None => d end.
Section USE.
  Variable cuda : bool.                (* built with the CUDA feature *)
  Variable c : config.
  Definition use_fp32 : bool := or_else (g_fp32 c) cuda.                       (* 259-268 *)
  Definition get_pool : nat := or_else (g_pool c) default_pool.                (* 297-299 *)
  Definition get_sessions : option nat := option_map (fun n => Nat.max n 1) (g_sessions c).   (* 314-316 *)
  Definition get_batch : option nat := option_map (fun n => Nat.max n 1) (g_batch c).         (* 339-341 *)
  Definition is_verbose : bool := or_else (g_verbose c) false.                 (* 364-366 *)
  Definition use_relative : bool := or_else (g_relative c) true.               (* 380-382 *)
  Definition get_depth : nat := or_else (g_depth c) default_depth.             (* 396-399 *)
  Definition use_hybrid : bool := or_else (g_hybrid c) true.                   (* 413-415 *)
  (** 437-444; [env]: COLGREP_ALPHA if it is a number *)
  Definition get_alpha (env : option f32) : f32 := match env with Some v => clamp01 v | None => or_else (g_alpha c) default_alpha end.
End USE.

(** The options of a search that have a saved counterpart, cli.rs 285-444 *)
Record search_options := mk_search_options {
  s_k : option nat; s_n : option nat; s_model : option text; s_content : bool; s_pattern : bool; s_semantic_only : bool; s_alpha : option f32;
  s_pool : option nat; s_no_pool : bool }.
Record search_values := mk_search_values {
  v_k : option nat; v_n : nat; v_model : option text; v_pool : nat; v_relative : bool; v_verbose : bool; v_int8 : bool; v_sessions : option nat;
  v_batch : option nat; v_hybrid : bool; v_alpha : f32 }.
(** search.rs 363-388, 457-459, 485-499, 532-551, 648-653, 1060-1066, 1497-1504; main.rs 225, 406 (10 and 15).
    [None] for the number of results: [usize::MAX / 1024], all; [None] for the model: [DEFAULT_MODEL]. *)
Definition search_with (cuda : bool) (env_alpha : option f32) (c : config) (s : search_options) : search_values :=
  let k := or_else (match s_k s with Some k => Some k | None => g_k c end) (if is_none (s_n s) then 15 else 10) in
  {| v_k := if s_pattern s && is_none (s_k s) then None else Some k;
     v_n := or_else (match s_n s with Some n => Some n | None => g_n c end) 20;
     v_model := match s_model s with Some m => Some m | None => g_model c end;
     v_pool := if s_no_pool s then 1 else match s_pool s with Some p => Nat.max p 1 | None => get_pool c end;
     v_relative := use_relative c;
     v_verbose := if s_content s || match s_n s with Some n => 0 <? n | None => false end then true else is_verbose c;
     v_int8 := negb (use_fp32 cuda c); v_sessions := get_sessions c; v_batch := get_batch c;
     v_hybrid := negb (s_semantic_only s) && use_hybrid c;
     v_alpha := or_else (s_alpha s) (get_alpha c env_alpha) |}.
(** index/mod.rs 200-205, 1449-1455: the factor for a run that encodes so many units *)
Definition large_batch : nat := 10 * 1000.
Definition pool_of_run (asked units : nat) : nat := if large_batch <? units then 2 else asked.
(** parser/mod.rs 103-116; [env]: COLGREP_MAX_RECURSION_DEPTH if it is a number *)
Definition depth_used (env : option nat) (d : option config) : nat :=
  let from_config := match d with Some c => get_depth c | None => default_depth end in
  match env with Some v => if 0 <? v then v else from_config | None => from_config end.
(** commands/config.rs 192-202: the values [settings] shows for k and n *)
Definition shown_k (c : config) : nat := or_else (g_k c) 25.
Definition shown_n (c : config) : nat := or_else (g_n c) 6.
