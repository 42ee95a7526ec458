(** What the user of a load-balanced view may conclude from a result (C64), and when it gets one (C65). *)
From stdpp Require Import base gmap sets list.
From Verif Require Import Dependency_Model Sched_Trace Sched_Model Sched_Idle_Spec.
From Verif Require Import Sys_Model.
From Verif Require Client_Model Client_Spec.

(** Task m was submitted with these options; the submission has reached the scheduler or is on its way. *)
Definition asked (s : sys) (m : nat) (md : taskmd) : Prop := (m, md) ∈ to_sched s \/ ObsSubmit m md ∈ s_log (sch s).
(** The scheduler gave task m to engine e. *)
Definition sent (s : sys) (m e : nat) : Prop := ObsSend m e ∈ s_log (sch s).
(** An attempt at m failed on e: it raised an exception or was aborted, or e had it and died. *)
Definition failed_on (s : sys) (m e : nat) : Prop :=
  (exists x, (m, e) ∈ begun s /\ (m, e, Raised x) ∈ ended s) \/ (m, e, Aborted) ∈ ended s \/ (e ∈ dead s /\ sent s m e).
(** All attempts failed, 1 + retries of them on as many engines; e is one of those. *)
Definition gave_up (s : sys) (m e : nat) : Prop :=
  exists md es, asked s m md /\ NoDup es /\ length es = S (t_retries md) /\ e ∈ es /\ forall e, e ∈ es -> failed_on s m e.

Section Spec.
Context (enum : gset Client_Model.mid -> list Client_Model.mid).
Definition has_result (s : sys) (m : nat) (r : Client_Model.result) : Prop := future enum s m = Some (Some r).
Definition succeeded (s : sys) (m : nat) : Prop := exists v, has_result s m (Client_Model.Value v).
Definition failed (s : sys) (m : nat) : Prop := exists r, has_result s m r /\ forall v, r <> Client_Model.Value v.
(** The result of x is that of engine e. *)
Definition from_engine (s : sys) (x e : nat) (r : Client_Model.result) : Prop :=
  (exists v, r = Client_Model.Value v /\ (x, e, Returned v) ∈ ended s) \/
  (exists y, r = Client_Model.Failure (exception y) /\ (x, e, Raised y) ∈ ended s) \/
  (r = Client_Model.TaskAborted /\ (x, e, Aborted) ∈ ended s) \/
  r = Client_Model.EngineDied e.
Definition answered_by (s : sys) (x e : nat) : Prop := exists r, has_result s x r /\ from_engine s x e r.

(** Task x has finished with result r when the client of task m learns that m failed: the client of x has this result;
    if that is another client, the result may still be on its way to it. *)
Definition known (s : sys) (m x : nat) (r : Client_Model.result) : Prop :=
  has_result s x r \/ (client_of s x <> client_of s m /\ exists p, (x, p) ∈ replies s /\ Client_Spec.outcome p = Some r).
(** A dependency of m can no longer be met: a task of it (all of them, if one suffices) finished in the way that is not accepted. *)
Definition impossible (s : sys) (m : nat) (d : dep_dict) : Prop :=
  let ids := default [] (k_dependencies d) in
  let wrong x := (default true (k_success d) = false /\ exists v, known s m x (Client_Model.Value v)) \/
                 (default false (k_failure d) = false /\ exists r, known s m x r /\ forall v, r <> Client_Model.Value v) in
  ids <> [] /\ if default true (k_all d) then exists x, x ∈ ids /\ wrong x else forall x, x ∈ ids -> wrong x.
(** Two tasks to follow were answered by different engines. *)
Definition apart (s : sys) (m : nat) (d : dep_dict) : Prop :=
  let ids := default [] (k_dependencies d) in
  default true (k_all d) = true /\
  exists m1 m2 e1 e2 r1 r2, m1 ∈ ids /\ m2 ∈ ids /\ e1 <> e2 /\ known s m m1 r1 /\ from_engine s m1 e1 r1 /\ known s m m2 r2 /\ from_engine s m2 e2 r2.
(** The task asked for certain engines, and each is dead, gave the task back, or was not known to the scheduler when it failed the task. *)
Definition no_engine (s : sys) (m : nat) (targets : list nat) : Prop :=
  targets <> [] /\ forall e, e ∈ targets ->
    e ∈ dead s \/ (exists o, (m, e, o) ∈ ended s /\ forall v, o <> Returned v) \/
    exists t t' w, s_log (sch s) = t ++ ObsReply m (Unreachable w) :: t' /\ ObsRegister e ∉ t.
(** Why the scheduler failed task m *)
Definition reason (s : sys) (m : nat) (w : why) : Prop :=
  exists md, asked s m md /\
  match w with
  | TaskTimeout => t_timeout md = true
  | InvalidDep => exists x, (x ∈ default [] (k_dependencies (t_after md)) \/ x ∈ default [] (k_dependencies (t_follow md))) /\
                            ((client_of s x = client_of s m /\ m <= x) \/     (* not submitted before m *)
                             (client_of s x <> client_of s m /\                (* not known to the scheduler when it failed m *)
                              exists t t', s_log (sch s) = t ++ ObsReply m (Unreachable InvalidDep) :: t' /\ forall md', ObsSubmit x md' ∉ t))
  | ImpossibleDep => impossible s m (t_after md) \/ impossible s m (t_follow md) \/ apart s m (t_follow md) \/ no_engine s m (t_targets md)
  end.

(** The result r of task m is deserved. *)
Definition deserved (s : sys) (m : nat) (r : Client_Model.result) : Prop :=
  match r with
  | Client_Model.Value v => exists e, (m, e) ∈ begun s /\ (m, e, Returned v) ∈ ended s
  | Client_Model.Failure c =>
      (exists x e, c = exception x /\ (m, e) ∈ begun s /\ (m, e, Raised x) ∈ ended s /\ gave_up s m e) \/
      (exists w, c = code w /\ reason s m w)
  | Client_Model.EngineDied e => e ∈ dead s /\ gave_up s m e
  | Client_Model.TaskAborted => exists e, (m, e, Aborted) ∈ ended s /\ gave_up s m e
  end.

(** Why task m does not run on engine e: a task it comes after has not succeeded, it asked for other engines, a task it follows has not succeeded there,
    or e gave it back *)
Definition blocked (s : sys) (m e : nat) : Prop :=
  exists md, asked s m md /\
  ((exists x, x ∈ dep_tasks (t_after md) /\ ~ succeeded s x) \/
   (t_targets md <> [] /\ e ∉ t_targets md) \/
   (exists x, x ∈ dep_tasks (t_follow md) /\ ~ (succeeded s x /\ answered_by s x e)) \/
   exists o, (m, e, o) ∈ ended s /\ forall v, o <> Returned v).
End Spec.

(** What users usually submit: dependencies of the default kind (all the tasks, and they must succeed), on tasks the same client has submitted, or others
    that have reached the scheduler; engines the scheduler knows of *)
Definition ordinary_task (s : sys) (c : nat) (md : taskmd) : Prop :=
  ordinary_dep (t_after md) /\ ordinary_dep (t_follow md) /\
  (forall x, x ∈ dep_tasks (t_after md) \/ x ∈ dep_tasks (t_follow md) ->
    client_of s x = Some c \/ exists md', ObsSubmit x md' ∈ s_log (sch s)) /\
  (forall e, e ∈ t_targets md -> ObsRegister e ∈ s_log (sch s)).
(** without targets and [follow] dependencies *)
Definition anywhere_task (s : sys) (c : nat) (md : taskmd) : Prop := ordinary_task s c md /\ t_targets md = [] /\ dep_tasks (t_follow md) = [].
(** A living engine *)
Definition live (s : sys) (e : nat) : Prop := e ∈ connected s /\ e ∉ dead s.
(** ... on which nothing has gone wrong *)
Definition reliable (s : sys) (e : nat) : Prop := live s e /\ forall m o, (m, e, o) ∈ ended s -> exists v, o = Returned v.

(** How often task m began, and how often it refused to run (UnmetDependency) *)
Definition times_begun (s : sys) (m : nat) : nat := length (filter (fun x => fst x = m) (begun s)).
Definition times_refused (s : sys) (m : nat) : nat :=
  length (List.filter (fun x => match x with (m', _, Refused) => bool_decide (m' = m) | _ => false end) (ended s)).
