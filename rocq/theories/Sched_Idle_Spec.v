(** No engine stands idle while a task could run on it: environment and vocabulary. *)
From stdpp Require Import base gmap sets list.
From Verif Require Import Dependency_Model Dependency_Spec Sched_Trace Sched_Spec Sched_Model Sched_Env.

(** The default kind of dependency: all the tasks, and they must succeed. *)
Definition ordinary_dep (d : dep_dict) : Prop :=
  default true (k_all d) = true /\ default true (k_success d) = true /\ default false (k_failure d) = false.
Definition dep_tasks (d : dep_dict) : list nat := default [] (k_dependencies d).

(** [genuine], and every submission has dependencies of the default kind, on tasks submitted
    before, and asks only for engines that have been announced.  Engines may come, die, fail and
    refuse tasks; tasks may have retries and timeouts. *)
Definition ordinary (t : list obs) (ev : event) : Prop :=
  genuine t ev /\
  match ev with
  | EvSubmit m md =>
      ordinary_dep (t_after md) /\ ordinary_dep (t_follow md) /\
      (forall x, x ∈ dep_tasks (t_after md) \/ x ∈ dep_tasks (t_follow md) -> submitted t x) /\
      (forall e, e ∈ t_targets md -> ObsRegister e ∈ t)
  | _ => True
  end.

(** Task [m] could be given to engine [e] now: it may be sent there ([Sched_Spec.may_send]), and
    [e] has not given it back before. *)
Definition could_run (t : list obs) (m e : nat) : Prop :=
  may_send t m e /\ forall k, ObsResult m e k ∉ t.
