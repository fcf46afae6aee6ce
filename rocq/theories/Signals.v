(** Ctrl+C and the sections that defer it: two words of memory that threads share. *)
From Verif Require Import Base.
Open Scope Z_scope.
Open Scope list_scope.

(** What threads do to the two words, one access at a time, in the order in which they take place:
    colgrep/src/signal.rs 48-50 [enter_critical_section] ([CriticalSectionGuard::new] 71-74), 55-57 [exit_critical_section] (its drop 77-81),
    93 the swap of the handler, 94-101 its second access and its message,
    31 and 34 the two accesses of [is_interrupted_outside_critical].
    Simplified: accesses to the two words are in one order that all threads agree on (the loads are Relaxed in the code); [reset_interrupted] (dead code, 38-42) is left out. *)
Inductive event := Enter (t : nat) | Leave (t : nat) | Press | Say | AskDepth (t : nat) | AskFlag (t : nat).

(** colgrep/src/signal.rs 15 and 19, the two words; [asking] the threads between their two accesses; [answers] what [is_interrupted_outside_critical] returned, the latest first; [noticed] the handler is between its two accesses; [said] its messages, the latest first: [true] "finishing the current write". *)
Record state := { flag : bool; depth : Z; asking : list nat; answers : list (nat * bool); noticed : bool; said : list bool }.
Definition start : state := {| flag := false; depth := 0; asking := []; answers := []; noticed := false; said := [] |}.

(** AtomicUsize wraps around *)
Definition wrap (z : Z) : Z := z mod 2 ^ 64.

(** One access. A thread that has not asked gets no answer. *)
Definition step (s : state) (e : event) : state :=
  match e with
  | Enter _ => {| flag := flag s; depth := wrap (depth s + 1); asking := asking s; answers := answers s; noticed := noticed s; said := said s |}
  | Leave _ => {| flag := flag s; depth := wrap (depth s - 1); asking := asking s; answers := answers s; noticed := noticed s; said := said s |}
  | Press => {| flag := true; depth := depth s; asking := asking s; answers := answers s;
                noticed := if flag s then noticed s else true; said := said s |}
  | Say => if noticed s then {| flag := flag s; depth := depth s; asking := asking s; answers := answers s; noticed := false; said := (0 <? depth s) :: said s |} else s
  | AskDepth t => if 0 <? depth s
                  then {| flag := flag s; depth := depth s; asking := asking s; answers := (t, false) :: answers s; noticed := noticed s; said := said s |}
                  else {| flag := flag s; depth := depth s; asking := t :: asking s; answers := answers s; noticed := noticed s; said := said s |}
  | AskFlag t => if existsb (Nat.eqb t) (asking s)
                 then {| flag := flag s; depth := depth s; asking := filter (fun u => negb (Nat.eqb t u)) (asking s); answers := (t, flag s) :: answers s; noticed := noticed s; said := said s |}
                 else s
  end.
Definition run (h : list event) : state := fold_left step h start.

(** colgrep/src/signal.rs 23-25 [is_interrupted], 121-127 [check_interrupted] (an error exactly if this is true) *)
Definition is_interrupted (s : state) : bool := flag s.
