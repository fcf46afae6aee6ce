(** Specification of progress reporting and of the dates in it. *)
From Verif Require Import Base Text ApiProgress.
Open Scope Z_scope.

(** ** What the health endpoint shows *)
Definition shown (es : list pevent) (now : Z) (name : text) (h : health) : Prop :=
  In h (health_statuses (record_all es) now) /\ h_index h = name.
Definition is_queued (e : pevent) : Prop := match e_what e with RQueued _ => True | _ => False end.
Definition is_stage (e : pevent) : Prop := match e_what e with RStage _ => True | _ => False end.
Definition is_outcome (e : pevent) : Prop := match e_what e with RComplete _ | RFailed _ => True | _ => False end.
(** No event of the index *)
Definition silent (name : text) (es : list pevent) : Prop := Forall (fun e => e_name e <> name) es.
(** Every update of the index that began has ended *)
Definition idle (name : text) (es : list pevent) : Prop :=
  forall a e b, es = a ++ e :: b -> e_name e = name -> is_stage e -> exists e', In e' b /\ e_name e' = name /\ is_outcome e'.
