(** How the server reads its command line and the limits in its environment. *)
From Verif Require Import Base Text FtsText.
From Coq Require Import String.
Open Scope string_scope.
Open Scope nat_scope.
Open Scope list_scope.

(** str::parse for an unsigned number below [max]: an optional plus sign and decimal digits *)
Definition parse_below (max : Z) (t : text) : option Z :=
  let ds := match t with c :: r => if (c =? 43)%Z then r else t | [] => t end in
  match ds with
  | [] => None
  | _ => if forallb a_digit ds
         then let v := fold_left (fun a c => (10 * a + (c - 48))%Z) ds 0%Z in if (v <? max)%Z then Some v else None
         else None
  end.
Definition u16_max : Z := 2 ^ 16.
Definition u32_max : Z := 2 ^ 32.
(** u64, and usize on a 64-bit system *)
Definition u64_max : Z := 2 ^ 64.

(** The six options that take a count *)
Inductive counter := Parallel | BatchSize | Threads | QueryLength | DocumentLength | ModelPoolSize.
Definition counter_eqb (a b : counter) : bool :=
  match a, b with
  | Parallel, Parallel | BatchSize, BatchSize | Threads, Threads | QueryLength, QueryLength
  | DocumentLength, DocumentLength | ModelPoolSize, ModelPoolSize => true
  | _, _ => false
  end.

(** next-plaid-api/src/main.rs 521-532: the variables of main. Simplified: the six counts are one function. *)
Record settings := {
  s_host : text; s_port : Z; s_index_dir : text; s_model : option text; s_cuda : bool; s_int8 : bool;
  s_count : counter -> option Z }.
Definition defaults : settings :=
  {| s_host := txt "0.0.0.0"; s_port := 8080%Z; s_index_dir := txt "./indices"; s_model := None; s_cuda := false; s_int8 := false;
     s_count := fun _ => None |}.

(** next-plaid-api/src/main.rs 536-710: the patterns of the match *)
Inductive arg := AHost | APort | AIndexDir | AModel | ACuda | AInt8 | ACount (c : counter) | AHelp.
Definition classify (a : text) : option arg :=
  let is := fun s => text_eqb a (txt s) in
  if is "--host" || is "-h" then Some AHost
  else if is "--port" || is "-p" then Some APort
  else if is "--index-dir" || is "-d" then Some AIndexDir
  else if is "--model" || is "-m" then Some AModel
  else if is "--cuda" then Some ACuda
  else if is "--int8" then Some AInt8
  else if is "--parallel" then Some (ACount Parallel)
  else if is "--batch-size" then Some (ACount BatchSize)
  else if is "--threads" then Some (ACount Threads)
  else if is "--query-length" then Some (ACount QueryLength)
  else if is "--document-length" then Some (ACount DocumentLength)
  else if is "--model-pool-size" then Some (ACount ModelPoolSize)
  else if is "--help" then Some AHelp
  else None.

(** The assignments of the branches that take a value; [None]: the value is no number, the process ends with code 1 *)
Definition assign (k : arg) (v : text) (s : settings) : option settings :=
  match k with
  | AHost => Some {| s_host := v; s_port := s_port s; s_index_dir := s_index_dir s; s_model := s_model s; s_cuda := s_cuda s; s_int8 := s_int8 s; s_count := s_count s |}
  | APort => option_map (fun n => {| s_host := s_host s; s_port := n; s_index_dir := s_index_dir s; s_model := s_model s; s_cuda := s_cuda s; s_int8 := s_int8 s; s_count := s_count s |}) (parse_below u16_max v)
  | AIndexDir => Some {| s_host := s_host s; s_port := s_port s; s_index_dir := v; s_model := s_model s; s_cuda := s_cuda s; s_int8 := s_int8 s; s_count := s_count s |}
  | AModel => Some {| s_host := s_host s; s_port := s_port s; s_index_dir := s_index_dir s; s_model := Some v; s_cuda := s_cuda s; s_int8 := s_int8 s; s_count := s_count s |}
  | ACount c => option_map (fun n => {| s_host := s_host s; s_port := s_port s; s_index_dir := s_index_dir s; s_model := s_model s; s_cuda := s_cuda s; s_int8 := s_int8 s;
                                        s_count := fun d => if counter_eqb d c then Some n else s_count s d |}) (parse_below u64_max v)
  | _ => None
  end.

(** The server runs, or the process ends with a code *)
Inductive outcome := Run (s : settings) | Exit (code : nat).

(** next-plaid-api/src/main.rs 534-711, without its messages. [args] are the arguments after the name of the program. *)
Fixpoint parse_args (args : list text) (s : settings) : outcome :=
  match args with
  | [] => Run s
  | a :: r =>
      match classify a with
      | None => Exit 1
      | Some AHelp => Exit 0
      | Some ACuda => parse_args r {| s_host := s_host s; s_port := s_port s; s_index_dir := s_index_dir s; s_model := s_model s; s_cuda := true; s_int8 := s_int8 s; s_count := s_count s |}
      | Some AInt8 => parse_args r {| s_host := s_host s; s_port := s_port s; s_index_dir := s_index_dir s; s_model := s_model s; s_cuda := s_cuda s; s_int8 := true; s_count := s_count s |}
      | Some k =>
          match r with
          | [] => Exit 1
          | v :: r' => match assign k v s with Some s' => parse_args r' s' | None => Exit 1 end
          end
      end
  end.

(** A limit of the environment: next-plaid-api/src/main.rs 297-308, 860-884; handlers/documents.rs 38-46, 198-221, 665-703; handlers/encode.rs 32-58. [v] is std::env::var. *)
Definition env_limit (max default : Z) (v : option text) : Z :=
  match v with
  | None => default
  | Some t => match parse_below max t with Some n => n | None => default end
  end.

(** The quota of tower_governor: at most [q_burst] requests at once, one more every [q_period] seconds (GovernorConfigBuilder::per_second sets the interval after which one element of the quota is replenished) *)
Record quota := { q_period : Z; q_burst : Z }.

(** next-plaid-api/src/main.rs 293-304, 477-487: no limit unless enabled; finish gives none, and expect panics, if the interval or the burst is zero *)
Definition rate_limit (U : unicode) (enabled per_second burst : option text) : res (option quota) :=
  let on := match enabled with
            | None => false
            | Some v => let w := u_lower U v in text_eqb w (txt "true") || text_eqb w (txt "1") || text_eqb w (txt "yes")
            end in
  if on then
    let p := env_limit u64_max 50 per_second in
    let b := env_limit u32_max 100 burst in
    if ((p =? 0) || (b =? 0))%Z then Panic else Ok (Some {| q_period := p; q_burst := b |})
  else Ok None.

(** handlers/documents.rs 305, 739: tokio's mpsc::channel panics without room *)
Definition batch_channel (v : option text) : res Z :=
  let n := env_limit u64_max 100 v in
  if (n =? 0)%Z then Panic else Ok n.
