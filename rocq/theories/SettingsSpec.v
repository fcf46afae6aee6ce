(** What C104 says about the saved settings. *)
From Verif Require Import Base F32 Text Settings.
Open Scope nat_scope.

(** The settings that are one value, and their values *)
Inductive setting := Model | K | N | Fp32 | Cache | Pool | Sessions | Batch | Depth | Verbose | Relative | Hybrid | Alpha.
Inductive value := Automatic | Number (n : nat) | Flag (b : bool) | Word (t : text) | Real (x : f32).

(** The value in use if none was set.  [Automatic]: chosen by the run. *)
Definition built_in (cuda : bool) (s : setting) : value :=
  match s with
  | Model | K | Cache | Sessions | Batch => Automatic
  | N => Number 20 | Pool => Number 2 | Depth => Number 1024
  | Fp32 => Flag cuda | Verbose => Flag false | Relative => Flag true | Hybrid => Flag true
  | Alpha => Real 1058642330%Z   (* 0.6 *)
  end.
Inductive request := Nothing | Reset | Set_to (v : value).
Definition number_or_reset (o : option nat) : request := match o with None => Nothing | Some 0 => Reset | Some n => Set_to (Number n) end.
Definition one_of (choices : list (bool * request)) : request := fold_right (fun p r => if fst p : bool then snd p else r) Nothing choices.
(** What a command asks for a setting, from the help texts of the options.  A real between 0 and 1. *)
Definition into_unit (x : f32) : f32 := if f_gt x f_one then f_one else if f_gt f_zero x then f_zero else x.
Definition asks (x : command) (s : setting) : request :=
  match x, s with
  | Set_model m works, Model => if works then Set_to (Word m) else Nothing
  | Set_model _ _, _ => Nothing
  | Settings _, Model => Nothing
  | Settings o, K => number_or_reset (o_k o)
  | Settings o, N => number_or_reset (o_n o)
  | Settings o, Fp32 => one_of [(o_fp32 o, Set_to (Flag true)); (o_int8 o, Set_to (Flag false)); (o_default_precision o, Reset)]
  | Settings o, Cache => match o_cache o with Some t => Set_to (Word t) | None => if o_clear_cache o then Reset else Nothing end
  | Settings o, Pool => number_or_reset (o_pool o)
  | Settings o, Sessions => number_or_reset (o_sessions o)
  | Settings o, Batch => number_or_reset (o_batch o)
  | Settings o, Depth => number_or_reset (o_depth o)
  | Settings o, Verbose => one_of [(o_verbose o, Set_to (Flag true)); (o_no_verbose o, Set_to (Flag false))]
  | Settings o, Relative => one_of [(o_relative o, Set_to (Flag true)); (o_no_relative o, Set_to (Flag false))]
  | Settings o, Hybrid => one_of [(o_hybrid o, Set_to (Flag true)); (o_no_hybrid o, Set_to (Flag false))]
  | Settings o, Alpha => match o_alpha o with None => Nothing | Some a => if f_eq a f_zero then Reset else Set_to (Real (into_unit a)) end
  end.
(** The value after a history of commands: that of the last command that asked for one. *)
Inductive last_asked (s : setting) : list command -> request -> Prop :=
| never h : (forall x, In x h -> asks x s = Nothing) -> last_asked s h Nothing
| at_last h1 x h2 : asks x s <> Nothing -> (forall y, In y h2 -> asks y s = Nothing) -> last_asked s (h1 ++ x :: h2) (asks x s).
Definition standing (cuda : bool) (s : setting) (r : request) : value := match r with Set_to v => v | _ => built_in cuda s end.

(** The value of a setting that runs take from a configuration *)
Definition maybe {A} (j : A -> value) (o : option A) : value := match o with Some a => j a | None => Automatic end.
Definition in_use (cuda : bool) (c : config) (s : setting) : value :=
  match s with
  | Model => maybe Word (g_model c) | K => maybe Number (g_k c) | N => Number (or_else (g_n c) 20) | Fp32 => Flag (use_fp32 cuda c) | Cache => maybe Word (g_cache c)
  | Pool => Number (get_pool c) | Sessions => maybe Number (get_sessions c) | Batch => maybe Number (get_batch c) | Depth => Number (get_depth c)
  | Verbose => Flag (is_verbose c) | Relative => Flag (use_relative c) | Hybrid => Flag (use_hybrid c) | Alpha => Real (get_alpha c None)
  end.

(** Patterns: in one command clearing comes first, then additions, then removals. *)
Section PATTERNS.
  Variables (clears : options -> bool) (adds removes : options -> list text).
  (** the command leaves the pattern in the list, takes it out, or says nothing about it *)
  Definition takes_out (x : command) (p : text) : Prop :=
    match x with Settings o => In p (removes o) \/ (clears o = true /\ ~ In p (adds o)) | Set_model _ _ => False end.
  Definition puts_in (x : command) (p : text) : Prop := match x with Settings o => In p (adds o) /\ ~ In p (removes o) | Set_model _ _ => False end.
  Definition listed (h : list command) (p : text) : Prop :=
    exists h1 x h2, h = h1 ++ x :: h2 /\ puts_in x p /\ forall y, In y h2 -> ~ takes_out y p.
End PATTERNS.

(** A real number was given, if any *)
Definition sensible (x : command) : Prop := match x with Settings o => match o_alpha o with Some a => is_nan a = false | None => True end | Set_model _ _ => True end.
