(** What the environment and the command line ask for, in words of their own. *)
From Verif Require Import Base EnvModes.
From Coq Require Import String Ascii.
Open Scope string_scope.
Open Scope nat_scope.
Open Scope list_scope.

(** The words that mean yes: 1, and true in any letters. *)
Inductive letter (small big : ascii) : ascii -> Prop :=
| letter_small : letter small big small
| letter_big : letter small big big.

Inductive yes : string -> Prop :=
| yes_one : yes "1"
| yes_true : forall t r u e,
    letter "t" "T" t -> letter "r" "R" r -> letter "u" "U" u -> letter "e" "E" e ->
    yes (String t (String r (String u (String e EmptyString)))).

(** The variables with which a processor is asked for. *)
Definition cpu_name (n : string) : Prop := n = "FORCE_CPU" \/ n = "COLGREP_FORCE_CPU" \/ n = "NEXT_PLAID_FORCE_CPU".
Definition gpu_name (n : string) : Prop := n = "FORCE_GPU" \/ n = "COLGREP_FORCE_GPU" \/ n = "NEXT_PLAID_FORCE_GPU".

Definition asks_cpu (e : environ) : Prop := exists n s, cpu_name n /\ e n = Some (Plain s) /\ yes s.
Definition asks_gpu (e : environ) : Prop := exists n s, gpu_name n /\ e n = Some (Plain s) /\ yes s.

(** The processor an environment asks for; none if it asks for both. *)
Definition asked (e : environ) (m : mode) : Prop :=
  match m with
  | ForceCpu => asks_cpu e /\ ~ asks_gpu e
  | ForceGpu => asks_gpu e /\ ~ asks_cpu e
  | Auto => ~ asks_cpu e /\ ~ asks_gpu e
  end.

(** The processor of a run: a flag goes before the environment. *)
Definition wanted (force_cpu force_gpu : bool) (e : environ) (m : mode) : Prop :=
  (force_cpu = true /\ m = ForceCpu)
  \/ (force_cpu = false /\ force_gpu = true /\ m = ForceGpu)
  \/ (force_cpu = false /\ force_gpu = false /\ asked e m).

(** Colour by the environment: the first rule that applies. *)
Definition forced_on (e : environ) : Prop := exists s, e "CLICOLOR_FORCE" = Some (Plain s) /\ s <> "" /\ s <> "0".
Definition refused (e : environ) : Prop := exists v, e "NO_COLOR" = Some v /\ v <> Plain "".
Definition switched_off (e : environ) : Prop := e "CLICOLOR" = Some (Plain "0").

Definition coloured (choice : color_choice) (terminal : bool) (e : environ) : Prop :=
  match choice with
  | CAlways => True
  | CNever => False
  | CAuto => forced_on e \/ (~ refused e /\ ~ switched_off e /\ terminal = true)
  end.
