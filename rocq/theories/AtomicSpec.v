(** Specification of crashes. *)
From Verif Require Import Base Text Calendar Npy AtomicFile.
Open Scope nat_scope.

Inductive sub {A} : list A -> list A -> Prop :=
  | sub_nil : sub [] []
  | sub_skip x l m : sub l m -> sub l (x :: m)
  | sub_take x l m : sub l m -> sub (x :: l) (x :: m).
(** What a file can hold after a loss of power: any of the unsynced directory changes may be
    missing, and an inode that is not clean may hold anything. *)
Definition after_power_loss (s : fs) (n : name) (r : option bytes) : Prop :=
  exists cs, sub cs (unsynced s) /\
    match apply_changes (durable s) cs n with
    | None => r = None
    | Some i => exists b, r = Some b /\ (clean s i = true -> b = content s i)
    end.
(** Nothing about the file [n] is only in memory. *)
Definition settled (s : fs) (n : name) : Prop :=
  durable s n = entries s n /\ Forall (fun c => ~ In n (map fst c)) (unsynced s)
  /\ (forall i, entries s n = Some i -> i < next s /\ clean s i = true).
(** Inode numbers in use are below [next]. *)
Definition fresh_next (s : fs) : Prop := forall n i, entries s n = Some i -> i < next s.
(** A temporary name for [n]: a dot, then the name (or a fixed word), and more. *)
Definition temporary (valid_utf8 : name -> bool) (pid : Z) (n t : name) : Prop := exists z k, t = temp_name valid_utf8 pid n z k.
