(** The processor a run uses and whether its output has colour, as told by the command line and the environment. *)
From Verif Require Import Base.
From Coq Require Import String Ascii.
Open Scope string_scope.
Open Scope nat_scope.
Open Scope list_scope.

(** A value of a variable. [Garbled] is one that is not UTF-8 (so not empty): std::env::var gives an error for it, var_os gives it. *)
Inductive value := Plain (s : string) | Garbled.

(** The environment of the process: std::env reads and writes it. It has one value for each name. Simplified: names are taken as they are (Windows ignores case). *)
Definition environ := string -> option value.

(** std::env::var, without the reason for which it fails. *)
Definition var (e : environ) (name : string) : option string :=
  match e name with Some (Plain s) => Some s | _ => None end.

(** std::env::set_var *)
Definition set_var (name s : string) (e : environ) : environ :=
  fun n => if String.eqb n name then Some (Plain s) else e n.

(** std::env::remove_var *)
Definition remove_var (name : string) (e : environ) : environ :=
  fun n => if String.eqb n name then None else e n.

(** u8::to_ascii_lowercase *)
Definition lower1 (c : ascii) : ascii :=
  let n := nat_of_ascii c in
  if (65 <=? n) && (n <=? 90) then ascii_of_nat (n + 32) else c.

(** str::eq_ignore_ascii_case *)
Fixpoint eq_nocase (a b : string) : bool :=
  match a, b with
  | EmptyString, EmptyString => true
  | String x a', String y b' => Ascii.eqb (lower1 x) (lower1 y) && eq_nocase a' b'
  | _, _ => false
  end.

(** colgrep/src/acceleration.rs 3 *)
Definition force_cpu_env_vars : list string := ["FORCE_CPU"; "COLGREP_FORCE_CPU"; "NEXT_PLAID_FORCE_CPU"].

(** colgrep/src/acceleration.rs 4 *)
Definition force_gpu_env_vars : list string := ["FORCE_GPU"; "COLGREP_FORCE_GPU"; "NEXT_PLAID_FORCE_GPU"].

(** colgrep/src/acceleration.rs 6-12 *)
Inductive mode := Auto | ForceCpu | ForceGpu.

(** colgrep/src/acceleration.rs 14-18 *)
Definition env_var_is_truthy (e : environ) (name : string) : bool :=
  match var e name with
  | Some v => String.eqb v "1" || eq_nocase v "true"
  | None => false
  end.

(** colgrep/src/acceleration.rs 20-37. [None] is the error of 29. *)
Definition env_acceleration_mode (e : environ) : option mode :=
  let force_cpu := existsb (env_var_is_truthy e) force_cpu_env_vars in
  let force_gpu := existsb (env_var_is_truthy e) force_gpu_env_vars in
  if force_cpu && force_gpu then None
  else Some (match force_cpu, force_gpu with
             | true, false => ForceCpu
             | false, true => ForceGpu
             | _, _ => Auto
             end).

(** colgrep/src/acceleration.rs 39-47, without its message *)
Definition env_acceleration_mode_lossy (e : environ) : mode :=
  match env_acceleration_mode e with Some m => m | None => Auto end.

(** A loop that removes variables. colgrep/src/acceleration.rs 59-61, 64-66, 72-74 *)
Definition remove_all (names : list string) (e : environ) : environ :=
  fold_left (fun e name => remove_var name e) names e.

(** A loop that sets variables to 1. colgrep/src/acceleration.rs 67-69, 75-77 *)
Definition set_all (names : list string) (e : environ) : environ :=
  fold_left (fun e name => set_var name "1" e) names e.

(** colgrep/src/acceleration.rs 56-80 *)
Definition apply_acceleration_mode (m : mode) (e : environ) : environ :=
  match m with
  | Auto => remove_all (force_cpu_env_vars ++ force_gpu_env_vars) e
  | ForceCpu => set_all force_cpu_env_vars (remove_all force_gpu_env_vars e)
  | ForceGpu => set_all force_gpu_env_vars (remove_all force_cpu_env_vars e)
  end.

(** next-plaid/src/lib.rs 71-75 and next-plaid-onnx/src/lib.rs 264-268 *)
Definition is_force_gpu (e : environ) : bool :=
  match var e "NEXT_PLAID_FORCE_GPU" with
  | Some v => String.eqb v "1" || eq_nocase v "true"
  | None => false
  end.

(** next-plaid/src/lib.rs 79-84 and next-plaid-onnx/src/lib.rs 255-260 *)
Definition is_force_cpu (e : environ) : bool :=
  negb (is_force_gpu e)
  && match var e "NEXT_PLAID_FORCE_CPU" with
     | Some v => String.eqb v "1" || eq_nocase v "true"
     | None => false
     end.

(** colgrep/src/main.rs 26-47. [config] is the directory of the settings file, [None] if there is none or the file cannot be read; [blank] is whether str::trim leaves nothing. *)
Definition apply_coreml_cache_dir (blank : string -> bool) (config : option string) (e : environ) : environ :=
  match e "NEXT_PLAID_COREML_CACHE_DIR" with
  | Some _ => e
  | None =>
      match config with
      | Some dir => if blank dir then e else set_var "NEXT_PLAID_COREML_CACHE_DIR" dir e
      | None => e
      end
  end.

(** colgrep/src/main.rs 62-71: the environment the rest of the run sees, [None] if the run ends with an error. colgrep/src/cli.rs 451-456: clap refuses the two flags together; that is not modelled, the theorems say so. *)
Definition start (blank : string -> bool) (force_cpu force_gpu : bool) (config : option string) (e : environ) : option environ :=
  match env_acceleration_mode e with
  | None => None
  | Some env_mode =>
      let m := if force_cpu then ForceCpu else if force_gpu then ForceGpu else env_mode in
      Some (apply_coreml_cache_dir blank config (apply_acceleration_mode m e))
  end.

(** colgrep/src/config.rs 24, 28, 39-57: [cuda] is the build feature, [cudnn] whether cuDNN is found *)
Definition get_default_batch_size (cuda cudnn : bool) (e : environ) : nat :=
  if cuda then
    match env_acceleration_mode_lossy e with
    | ForceCpu => 1
    | ForceGpu => 64
    | Auto => if cudnn then 64 else 1
    end
  else 1.

(** colgrep/src/config.rs 59-64. [cpus] is available_parallelism. *)
Definition get_default_cpu_parallel_sessions (cpus : option nat) : nat :=
  Nat.min (match cpus with Some n => n | None => 16 end) 16.

(** colgrep/src/config.rs 66-100 *)
Definition get_default_parallel_sessions (cuda cudnn : bool) (cpus : option nat) (e : environ) : nat :=
  if cuda then
    match env_acceleration_mode_lossy e with
    | ForceCpu => get_default_cpu_parallel_sessions cpus
    | ForceGpu => 1
    | Auto => if cudnn then 1 else get_default_cpu_parallel_sessions cpus
    end
  else get_default_cpu_parallel_sessions cpus.

(** colgrep/src/color.rs 18-26 *)
Inductive color_choice := CAuto | CAlways | CNever.

(** colgrep/src/color.rs 73-75 *)
Definition env_truthy (e : environ) (name : string) : bool :=
  match var e name with
  | Some v => negb (String.eqb v "") && negb (String.eqb v "0")
  | None => false
  end.

(** colgrep/src/color.rs 59-70. [terminal] is whether the output is a terminal. *)
Definition auto_detect (terminal : bool) (e : environ) : bool :=
  if env_truthy e "CLICOLOR_FORCE" then true
  else if match e "NO_COLOR" with
          | Some (Plain v) => negb (String.eqb v "")
          | Some Garbled => true
          | None => false
          end then false
  else if match var e "CLICOLOR" with Some v => String.eqb v "0" | None => false end then false
  else terminal.

(** colgrep/src/color.rs 30-51: what both writers of colour are told, the override of the colored crate and the flag the highlighter reads *)
Definition init (choice : color_choice) (terminal : bool) (e : environ) : bool * bool :=
  let enabled := match choice with CAlways => true | CNever => false | CAuto => auto_detect terminal e end in
  (enabled, enabled).
