(** Specification: what is read at a path is what was last written there. *)
From Verif Require Import Base ReadCache.
Open Scope nat_scope.

Section SPEC.
  Variable D : Type.
  (** The databases by path, and the answer of one operation on them. *)
  Definition plain (m : nat -> option D) (a : act D) : (nat -> option D) * option (option D) :=
    match a with
    | Create p md => (put m p md, None)
    | Write p f => (put m p (option_map f (m p)), None)
    | Read p => (m, Some (m p))
    | RemoveDir p => (put m p None, None)
    | RenameDir p q => (match m q with Some _ => m | None => put (put m q (m p)) p None end, None)
    end.
  Fixpoint plain_answers (m : nat -> option D) (l : list (act D)) : list (option (option D)) :=
    match l with [] => [] | a :: r => let (m', x) := plain m a in x :: plain_answers m' r end.
  (** No directory is removed or renamed after a read in this process ([seen]: paths read). *)
  Fixpoint undisturbed (seen : list nat) (l : list (act D)) : Prop :=
    match l with
    | [] => True
    | Read p :: r => undisturbed (p :: seen) r
    | RemoveDir p :: r => ~ In p seen /\ undisturbed seen r
    | RenameDir p q :: r => ~ In p seen /\ ~ In q seen /\ undisturbed seen r
    | _ :: r => undisturbed seen r
    end.
  (** Steps that leave every file where it is. *)
  Definition keeps_files (s : shared D) (e : event D) : Prop :=
    match e with
    | EAct (Create p _) => current (h_proc s) p = None
    | EAct (RemoveDir _) | EAct (RenameDir _ _) => False
    | _ => True
    end.
  Inductive quiet_run (any : D) : shared D -> Prop :=
  | quiet_start : quiet_run any {| h_proc := begin any; h_reader := fun _ => Idle |}
  | quiet_step s e s' x : quiet_run any s -> keeps_files s e -> go s e = Some (s', x) -> quiet_run any s'.
End SPEC.
Arguments plain {D}. Arguments plain_answers {D}. Arguments undisturbed {D}. Arguments keeps_files {D}. Arguments quiet_run {D}.
