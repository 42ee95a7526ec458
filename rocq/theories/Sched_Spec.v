(** What a user of the load-balanced view relies on, stated on the observable trace only. *)
From stdpp Require Import base gmap sets list.
From Verif Require Import Dependency_Model Dependency_Spec Sched_Trace.
From Coq Require Import ZArith.

(** * Reading a trace *)

(** Tasks whose clients have been told that they succeeded / failed. *)
Definition told_ok (t : list obs) : gset nat :=
  list_to_set (omap (fun o => match o with ObsReply m (FromEngine _ true) => Some m | _ => None end) t).
Definition told_bad (t : list obs) : gset nat :=
  list_to_set (omap (fun o => match o with
                              | ObsReply m (FromEngine _ false) => Some m
                              | ObsReply m (Unreachable _) => Some m
                              | _ => None end) t).
Definition hist_of (t : list obs) : history := Hist (told_ok t) (told_bad t).

(** The same restricted to results coming from engine [e]. *)
Definition told_on (e : nat) (b : bool) (t : list obs) : gset nat :=
  list_to_set (omap (fun o => match o with
                              | ObsReply m (FromEngine e' b') =>
                                  if decide (e = e' /\ b = b') then Some m else None
                              | _ => None end) t).
Definition hist_on (e : nat) (t : list obs) : history := Hist (told_on e true t) (told_on e false t).

(** Is engine [e] registered at the end of [t]? *)
Definition registered (t : list obs) (e : nat) : bool :=
  foldl (fun b o => match o with
                    | ObsRegister e' => if decide (e = e') then true else b
                    | ObsUnregister e' => if decide (e = e') then false else b
                    | _ => b end) false t.

(** Tasks outstanding on [e]: sent to it minus results received, since it registered. *)
Definition outstanding (t : list obs) (e : nat) : Z :=
  foldl (fun n o => match o with
                    | ObsRegister e' => if decide (e = e') then 0%Z else n
                    | ObsSend _ e' => if decide (e = e') then (n + 1)%Z else n
                    | ObsResult _ e' _ => if decide (e = e') then (n - 1)%Z else n
                    | _ => n end) 0%Z t.

(** * Dependencies as submitted (defaults of Dependency(): all=True, success=True, failure=False) *)
Definition dict_met (d : dep_dict) (h : history) : Prop :=
  met (list_to_set (default [] (k_dependencies d))) (default true (k_all d))
      (default true (k_success d)) (default false (k_failure d)) h.

(** It is legitimate to send task [m] to engine [e] after trace [t]. *)
Definition may_send (t : list obs) (m e : nat) : Prop :=
  exists md,
    ObsSubmit m md ∈ t /\
    ObsRegister e ∈ t /\
    dict_met (t_after md) (hist_of t) /\
    (t_targets md = [] \/ e ∈ t_targets md) /\
    dict_met (t_follow md) (hist_on e t).

(** * Life of one task *)
Inductive phase := Unknown | Waiting | OnEngine (e : nat) | Replied | Broken.

(** A task is submitted once, then sent to an engine only while no engine works on it, an engine
    answers only what it was given, and the client gets one reply, after which nothing happens. *)
Definition phase_step (m : nat) (p : phase) (o : obs) : phase :=
  match o with
  | ObsSubmit m' _ => if decide (m = m') then match p with Unknown => Waiting | _ => Broken end else p
  | ObsSend m' e => if decide (m = m') then match p with Waiting => OnEngine e | _ => Broken end else p
  | ObsResult m' e _ =>
      if decide (m = m') then
        match p with OnEngine e' => if decide (e = e') then Waiting else Broken | _ => Broken end
      else p
  | ObsReply m' _ => if decide (m = m') then match p with Waiting => Replied | _ => Broken end else p
  | _ => p
  end.
Definition phase_of (t : list obs) (m : nat) : phase := foldl (phase_step m) Unknown t.

(** * Retries *)
Definition is_result (m : nat) (k : rkind) (o : obs) : bool :=
  match o with
  | ObsResult m' _ k' => bool_decide (m = m') && match k, k' with
                                                 | ROk, ROk | RErr, RErr | RUnmet, RUnmet => true
                                                 | _, _ => false end
  | _ => false end.
Definition is_send (m : nat) (o : obs) : bool :=
  match o with ObsSend m' _ => bool_decide (m = m') | _ => false end.
(** How many error results of task [m] (from engines, or made up for a dead engine) [t] contains. *)
Definition errors (t : list obs) (m : nat) : nat :=
  length (List.filter (is_result m RErr) t).
(** How many times task [m] was refused for an unmet dependency. *)
Definition refusals (t : list obs) (m : nat) : nat :=
  length (List.filter (is_result m RUnmet) t).
(** How many times task [m] was sent to an engine. *)
Definition sends (t : list obs) (m : nat) : nat :=
  length (List.filter (is_send m) t).
Definition submitted (t : list obs) (m : nat) : Prop := exists md, ObsSubmit m md ∈ t.

(** * Order of submission and of delivery *)
Definition submits (t : list obs) : list nat :=
  omap (fun o => match o with ObsSubmit m _ => Some m | _ => None end) t.
Definition deliveries (t : list obs) : list nat :=
  omap (fun o => match o with ObsSend m _ => Some m | _ => None end) t.
(** A task that may run anywhere, at once, and is not retried. *)
Definition independent (md : taskmd) : Prop :=
  t_targets md = [] /\ t_retries md = 0 /\ t_timeout md = false /\
  default [] (k_dependencies (t_after md)) = [] /\ default [] (k_dependencies (t_follow md)) = [] /\
  (default true (k_success (t_after md)) || default false (k_failure (t_after md))) = true /\
  (default true (k_success (t_follow md)) || default false (k_failure (t_follow md))) = true.

(** * Failures reported by the scheduler itself *)
(** Given what has finished, the dependency can never be met: a task of it (all of them, if one
    suffices) finished in the way that is not accepted. *)
Definition hopeless (d : dep_dict) (h : history) : Prop :=
  let ids := default [] (k_dependencies d) in
  let wrong x := (default true (k_success d) = false /\ x ∈ h_ok h) \/ (default false (k_failure d) = false /\ x ∈ h_bad h) in
  ids <> [] /\ if default true (k_all d) then exists x, x ∈ ids /\ wrong x else forall x, x ∈ ids -> wrong x.
(** The results of two tasks of a 'follow' dependency came from different engines. *)
Definition split_follow (d : dep_dict) (t : list obs) : Prop :=
  let ids := default [] (k_dependencies d) in
  default true (k_all d) = true /\
  exists m1 m2 e1 e2 b1 b2, m1 ∈ ids /\ m2 ∈ ids /\ e1 <> e2 /\
    ObsReply m1 (FromEngine e1 b1) ∈ t /\ ObsReply m2 (FromEngine e2 b2) ∈ t.
(** Every requested engine is gone or has given the task back. *)
Definition no_target_left (t : list obs) (m : nat) (targets : list nat) : Prop :=
  targets <> [] /\ forall e, e ∈ targets -> registered t e = false \/ exists k, k <> ROk /\ ObsResult m e k ∈ t.
Definition justified (t : list obs) (m : nat) (w : why) : Prop :=
  exists md, ObsSubmit m md ∈ t /\
  match w with
  | TaskTimeout => t_timeout md = true
  | InvalidDep => exists x, (x ∈ default [] (k_dependencies (t_after md)) \/ x ∈ default [] (k_dependencies (t_follow md))) /\
                            (x = m \/ ~ submitted t x)
  | ImpossibleDep => hopeless (t_after md) (hist_of t) \/ hopeless (t_follow md) (hist_of t) \/
                     split_follow (t_follow md) t \/ no_target_left t m (t_targets md)
  end.
