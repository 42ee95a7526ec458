(** Assumptions on the scheduler's environment, as predicates on (trace so far, next event). *)
From stdpp Require Import base gmap sets list.
From Verif Require Import Dependency_Model Sched_Trace Sched_Spec Sched_Model.

(** Anything may happen. *)
Definition anything (t : list obs) (ev : event) : Prop := True.

(** Engines are announced only while they are not registered. *)
Definition no_double_registration (t : list obs) (ev : event) : Prop :=
  forall e, ev = EvRegister e -> registered t e = false.

(** Clients use fresh ids and results belong to submitted tasks. *)
Definition sane_ids (t : list obs) (ev : event) : Prop :=
  match ev with
  | EvSubmit m _ => ~ submitted t m
  | EvResult m _ _ => submitted t m
  | _ => True
  end.

(** Clients use fresh ids, engine identities are fresh, an engine answers each delivery at most
    once, and not after the scheduler gave up on it. *)
Definition genuine (t : list obs) (ev : event) : Prop :=
  match ev with
  | EvSubmit m _ => ~ submitted t m
  | EvRegister e => ObsRegister e ∉ t
  | EvResult m e _ => phase_of t m = OnEngine e
  | _ => True
  end.

(** Additionally all tasks are independent of each other and no engine refuses any. *)
Definition independent_tasks (t : list obs) (ev : event) : Prop :=
  genuine t ev /\
  match ev with
  | EvSubmit _ md => independent md
  | EvResult _ _ k => k <> RUnmet
  | _ => True
  end.
