(** Property theorems C09 - C16 (task scheduler). *)
From stdpp Require Import base gmap sets list.
From Verif Require Import Dependency_Model Sched_Trace Sched_Spec Sched_Model Sched_Env Sched_Base Sched_Safety Sched_Load
  Sched_Retry Sched_Once Sched_Strand Sched_Fifo Sched_Blame Sched_Witness.
From Verif Require Chooser_Model Chooser_Proofs.
From Coq Require Import ZArith Lia.

(** ** C09: whatever happens, a task is sent only when its 'after' dependency is met by the results
    delivered so far, to a known engine of its target list on which its 'follow' dependency is met. *)
Theorem C09_sends_allowed : forall hwm scheme s,
  reachable hwm scheme anything s ->
  forall t m e t', s_log s = t ++ ObsSend m e :: t' -> may_send t m e.
Proof. intros hwm scheme s H. exact (safety hwm scheme s H). Qed.
Print Assumptions C09_sends_allowed.

(** The engine is registered at that moment (when the Hub announces engines properly). *)
Theorem C09_sends_to_registered : forall hwm scheme s,
  reachable hwm scheme no_double_registration s ->
  forall t m e t', s_log s = t ++ ObsSend m e :: t' -> registered t e = true.
Proof. intros hwm scheme s H t m e t' E. exact (proj1 (sends_to_registered hwm scheme s H t m e t' E)). Qed.
Print Assumptions C09_sends_to_registered.

(** With the default high-water mark, a task never returns to an engine that gave it back. *)
Theorem C09_blacklist : forall scheme s,
  reachable 1 scheme genuine s ->
  forall t m e t', s_log s = t ++ ObsSend m e :: t' -> forall k, ObsResult m e k ∉ t.
Proof. exact never_back. Qed.
Print Assumptions C09_blacklist.

Definition ev1 : list event := [EvRegister 100; EvSubmit 1 plain; EvSubmit 2 (after [1]); EvResult 1 100 ROk].
Definition tr1 : list obs := Eval vm_compute in default [] (trace_of 1 ev1).
Example C09_example : exists s t t',
  reachable 1 ll genuine s /\ s_log s = t ++ ObsSend 2 100 :: t' /\
  ObsSubmit 2 (after [1]) ∈ t /\ 1 ∈ told_ok t.
Proof.
  destruct (trace_of_reachable 1 ev1 tr1 ltac:(vm_compute; reflexivity)) as (s & Hr & Hl).
  exists s, [ObsRegister 100; ObsSubmit 1 plain; ObsSend 1 100; ObsSubmit 2 (after [1]); ObsResult 1 100 ROk; ObsReply 1 (FromEngine 100 true)], [].
  split; [exact Hr|]. split; [rewrite Hl; vm_compute; reflexivity|]. split; [set_solver|]. vm_compute. reflexivity.
Qed.

(** ** C10: at every moment the unanswered deliveries of an engine are at most hwm. *)
Theorem C10_high_water_mark : forall hwm scheme s t t',
  reachable hwm scheme no_double_registration s -> hwm <> 0 -> s_log s = t ++ t' ->
  forall e, (outstanding t e <= Z.of_nat hwm)%Z.
Proof. exact hwm_respected. Qed.
Print Assumptions C10_high_water_mark.

(** Without proper announcements it fails: an engine announced twice (the scheduler registers the
    engines of the Hub's connection reply, 214-232, and may get the notification as well) receives
    two tasks although hwm is 1. *)
Theorem C10_double_registration_refuted : exists s,
  reachable 1 ll anything s /\ outstanding (s_log s) 100 = 2%Z.
Proof.
  destruct (trace_with_reachable anything (fun _ _ => true) 1 [EvRegister 100; EvRegister 100; EvSubmit 1 plain; EvSubmit 2 plain]
    [ObsRegister 100; ObsRegister 100; ObsSubmit 1 plain; ObsSend 1 100; ObsSubmit 2 plain; ObsSend 2 100]
    (fun _ _ _ => I) ltac:(vm_compute; reflexivity)) as (s & Hr & Hl).
  exists s. split; [exact Hr|]. rewrite Hl. vm_compute. reflexivity.
Qed.

Example C10_example : exists s, reachable 2 ll no_double_registration s /\ outstanding (s_log s) 100 = 2%Z /\ submitted (s_log s) 3.
Proof.
  destruct (trace_with_reachable no_double_registration
     (fun t ev => match ev with EvRegister e => negb (registered t e) | _ => true end) 2
     [EvRegister 100; EvSubmit 1 plain; EvSubmit 2 plain; EvSubmit 3 plain]
     [ObsRegister 100; ObsSubmit 1 plain; ObsSend 1 100; ObsSubmit 2 plain; ObsSend 2 100; ObsSubmit 3 plain]) as (s & Hr & Hl).
  - intros t ev H e ->. apply negb_true_iff in H. exact H.
  - vm_compute. reflexivity.
  - exists s. split; [exact Hr|]. rewrite Hl. split; [vm_compute; reflexivity|]. exists plain. set_solver.
Qed.

(** ** C11, C13: with the default high-water mark the life of every task follows the automaton
    [phase_step]: submitted once, on at most one engine at a time, one final reply, nothing after. *)
Theorem C11_life_cycle : forall scheme s m,
  reachable 1 scheme genuine s -> phase_of (s_log s) m <> Broken.
Proof. exact life_cycle. Qed.
Print Assumptions C11_life_cycle.

(** Hence at most one reply per task ... *)
Theorem C11_at_most_one_reply : forall scheme s m r1 r2 t1 t2 t3,
  reachable 1 scheme genuine s -> s_log s <> t1 ++ ObsReply m r1 :: t2 ++ ObsReply m r2 :: t3.
Proof. exact one_reply. Qed.
Print Assumptions C11_at_most_one_reply.

(** ... and a task is sent again only after the engine that had it gave it back. *)
Theorem C13_no_duplicate_execution : forall scheme s m e1 e2 t1 t2 t3,
  reachable 1 scheme genuine s -> s_log s = t1 ++ ObsSend m e1 :: t2 ++ ObsSend m e2 :: t3 ->
  exists k, ObsResult m e1 k ∈ t2.
Proof. exact no_double_send. Qed.
Print Assumptions C13_no_duplicate_execution.

Definition ev2 : list event := [EvRegister 100; EvSubmit 1 plain; EvResult 1 100 ROk; EvSubmit 2 (retrying 1);
     EvSubmit 3 (after [2]); EvRegister 101; EvResult 2 100 RErr].
Definition tr2 : list obs := Eval vm_compute in default [] (trace_of 1 ev2).
Example C11_example : exists s, reachable 1 ll genuine s /\
  phase_of (s_log s) 1 = Replied /\ phase_of (s_log s) 2 = OnEngine 101 /\ sends (s_log s) 2 = 2 /\ phase_of (s_log s) 3 = Waiting.
Proof.
  destruct (trace_of_reachable 1 ev2 tr2 ltac:(vm_compute; reflexivity)) as (s & Hr & Hl).
  exists s. split; [exact Hr|]. rewrite Hl. vm_compute. auto.
Qed.

(** With a high-water mark of 2 both fail: a task released through its dependency stays in the
    queue (715-720) and is sent a second time when an engine registers. *)
Definition ev3 : list event := [EvRegister 100; EvRegister 101; EvSubmit 1 plain; EvSubmit 2 (after [1]); EvResult 1 101 ROk; EvRegister 102].
Definition tr3 : list obs := Eval vm_compute in default [] (trace_of 2 ev3).
Theorem C13_hwm2_refuted : exists s, reachable 2 ll genuine s /\
  exists t1 t2 t3, s_log s = t1 ++ ObsSend 2 100 :: t2 ++ ObsSend 2 102 :: t3 /\ forall k, ObsResult 2 100 k ∉ t2.
Proof.
  destruct (trace_of_reachable 2 ev3 tr3 ltac:(vm_compute; reflexivity)) as (s & Hr & Hl).
  exists s. split; [exact Hr|]. rewrite Hl.
  exists [ObsRegister 100; ObsRegister 101; ObsSubmit 1 plain; ObsSend 1 101; ObsSubmit 2 (after [1]); ObsResult 1 101 ROk;
          ObsReply 1 (FromEngine 101 true)], [ObsRegister 102], [].
  split; [vm_compute; reflexivity|]. intros k Hin. apply elem_of_list_singleton in Hin. discriminate.
Qed.
Print Assumptions C13_hwm2_refuted.

(** ** C12: order of waiting tasks. *)
(** In general it is not first come, first served: [extendleft] (763) reverses what it puts back. *)
Definition ev4 : list event := [EvRegister 100; EvSubmit 1 plain; EvSubmit 2 (after [1]); EvSubmit 3 (after [1]); EvSubmit 4 plain;
     EvRegister 101; EvResult 1 100 ROk; EvResult 4 101 ROk].
Definition tr4 : list obs := Eval vm_compute in default [] (trace_of 1 ev4).
Theorem C12_fifo_refuted : exists s, reachable 1 ll genuine s /\
  exists t1 t2 t3 t4 t5, s_log s = t1 ++ ObsSubmit 2 (after [1]) :: t2 ++ ObsSubmit 3 (after [1]) :: t3 ++
     ObsSend 3 100 :: t4 ++ ObsSend 2 101 :: t5 /\ 1 ∈ told_ok t3.
Proof.
  destruct (trace_of_reachable 1 ev4 tr4 ltac:(vm_compute; reflexivity)) as (s & Hr & Hl).
  exists s. split; [exact Hr|]. rewrite Hl.
  exists [ObsRegister 100; ObsSubmit 1 plain; ObsSend 1 100], [], [ObsSubmit 4 plain; ObsRegister 101; ObsSend 4 101; ObsResult 1 100 ROk;
     ObsReply 1 (FromEngine 100 true)], [ObsResult 4 101 ROk; ObsReply 4 (FromEngine 101 true)], [].
  split; vm_compute; reflexivity.
Qed.
Print Assumptions C12_fifo_refuted.

(** But tasks without dependencies, targets, timeout and retries are delivered in the order they
    were submitted, whatever the (well-behaved) scheme and the high-water mark ... *)
Theorem C12_fifo : forall hwm scheme s,
  (forall k l, l <> [] -> scheme k l < length l) ->
  reachable hwm scheme independent_tasks s ->
  exists waiting, submits (s_log s) = deliveries (s_log s) ++ waiting.
Proof. intros hwm scheme s Hs. exact (fifo hwm scheme Hs s). Qed.
Print Assumptions C12_fifo.

(** ... and one waits only while every registered engine is full. *)
Theorem C12_work_conserving : forall hwm scheme s m e,
  (forall k l, l <> [] -> scheme k l < length l) ->
  reachable hwm scheme independent_tasks s ->
  phase_of (s_log s) m = Waiting -> registered (s_log s) e = true ->
  hwm <> 0 /\ outstanding (s_log s) e = Z.of_nat hwm.
Proof. intros hwm scheme s m e Hs. exact (work_conserving hwm scheme Hs s m e). Qed.
Print Assumptions C12_work_conserving.

Definition ev12 : list event := [EvRegister 100; EvSubmit 1 plain; EvSubmit 2 plain; EvSubmit 3 plain; EvSubmit 4 plain; EvSubmit 5 plain;
  EvResult 1 100 ROk; EvRegister 101; EvResult 2 100 RErr].
Definition tr12 : list obs := Eval vm_compute in default [] (trace_of 2 ev12).
Definition plainb (t : list obs) (ev : event) : bool :=
  genuineb t ev && match ev with EvSubmit _ (TaskMd [] 0 (DepDict None None None None) (DepDict None None None None) false) => true | EvSubmit _ _ => false | EvResult _ _ RUnmet => false | _ => true end.
Example C12_example : (forall k l, l <> [] -> ll k l < length l) /\ exists s, reachable 2 ll independent_tasks s /\
  deliveries (s_log s) = [1; 2; 3; 4; 5] /\ registered (s_log s) 101 = true.
Proof.
  split.
  { intros k l Hl. unfold ll. destruct (Chooser_Model.leastload l) as [i|] eqn:E.
    - destruct (Chooser_Proofs.leastload_spec l Hl) as (i' & x & E' & Hx & _). rewrite E in E'. injection E' as <-.
      apply List.nth_error_Some. congruence.
    - destruct l; [contradiction|simpl; lia]. }
  destruct (trace_with_reachable independent_tasks plainb 2 ev12 tr12) as (s & Hr & Hl).
  - intros t ev H. apply andb_true_iff in H as [H1 H2]. split; [apply genuineb_ok, H1|].
    destruct ev as [m md|m e k| | | |]; simpl in *; auto; [|destruct k; congruence].
    destruct md as [[|] [|] [[|] [|] [|] [|]] [[|] [|] [|] [|]] [|]]; try discriminate. repeat split.
  - vm_compute. reflexivity.
  - exists s. split; [exact Hr|]. rewrite Hl. vm_compute. auto.
Qed.
Example C12_waiting_example : exists s, reachable 1 ll independent_tasks s /\
  phase_of (s_log s) 2 = Waiting /\ registered (s_log s) 100 = true.
Proof.
  destruct (trace_with_reachable independent_tasks plainb 1 [EvRegister 100; EvSubmit 1 plain; EvSubmit 2 plain]
    [ObsRegister 100; ObsSubmit 1 plain; ObsSend 1 100; ObsSubmit 2 plain]) as (s & Hr & Hl).
  - intros t ev H. apply andb_true_iff in H as [H1 H2]. split; [apply genuineb_ok, H1|].
    destruct ev as [m md|m e k| | | |]; simpl in *; auto; [|destruct k; congruence].
    destruct md as [[|] [|] [[|] [|] [|] [|]] [[|] [|] [|] [|]] [|]]; try discriminate. repeat split.
  - vm_compute. reflexivity.
  - exists s. split; [exact Hr|]. rewrite Hl. vm_compute. auto.
Qed.

(** ** C14: impossible dependencies. *)
(** Failing them is not complete: a task whose dependency is invalid (77 was never submitted) gets
    no reply when another waiting task already depends on one of its dependencies (489-492 raises
    KeyError before the reply is sent). *)
Theorem C14_reported_refuted : exists s, reachable 1 ll genuine s /\
  ObsSubmit 3 (after [1; 77]) ∈ s_log s /\ ~ submitted (s_log s) 77 /\ (forall r, ObsReply 3 r ∉ s_log s).
Proof.
  destruct (trace_of_reachable 1 [EvRegister 100; EvSubmit 1 plain; EvSubmit 2 (after [1]); EvSubmit 3 (after [1; 77])]
    [ObsRegister 100; ObsSubmit 1 plain; ObsSend 1 100; ObsSubmit 2 (after [1]); ObsSubmit 3 (after [1; 77])]
    ltac:(vm_compute; reflexivity)) as (s & Hr & Hl).
  exists s. split; [exact Hr|]. rewrite Hl. split; [set_solver|]. split.
  - intros [md H]. set_solver.
  - intros r H. set_solver.
Qed.
Print Assumptions C14_reported_refuted.

(** What does hold, in every history whatever engines and clients do: a task failed by the scheduler
    without being run has a reason that the history before the failure shows. *)
Theorem C14_failures_justified : forall hwm scheme s,
  reachable hwm scheme anything s ->
  forall t m w t', s_log s = t ++ ObsReply m (Unreachable w) :: t' -> justified t m w.
Proof. intros hwm scheme. exact (blame hwm scheme anything). Qed.
Print Assumptions C14_failures_justified.

Definition ev14 : list event := [EvRegister 100; EvSubmit 1 plain; EvSubmit 2 (after [1]); EvResult 1 100 RErr].
Definition tr14 : list obs := Eval vm_compute in default [] (trace_of 1 ev14).
Example C14_example : exists s, reachable 1 ll genuine s /\
  exists t t', s_log s = t ++ ObsReply 2 (Unreachable ImpossibleDep) :: t' /\ ObsReply 1 (FromEngine 100 false) ∈ t.
Proof.
  destruct (trace_of_reachable 1 ev14 tr14 ltac:(vm_compute; reflexivity)) as (s & Hr & Hl).
  exists s. split; [exact Hr|]. rewrite Hl. exists (take (length tr14 - 1) tr14), []. split; [vm_compute; reflexivity|]. set_solver.
Qed.

(** ** C15: when the timer armed for a dead engine fires, every task it had gets a failure; if its
    retries are used up the client is told, and none is left on the dead engine. *)
Theorem C15_stranded_resolved : forall scheme s s' fuel e m md,
  reachable 1 scheme genuine s -> registered (s_log s) e = false -> phase_of (s_log s) m = OnEngine e ->
  ObsSubmit m md ∈ s_log s ->
  step 1 scheme fuel s (EvStrandTimer e) = Some s' ->
  ObsResult m e RErr ∈ s_log s' /\ phase_of (s_log s') m <> OnEngine e /\
  (errors (s_log s) m = t_retries md -> ObsReply m (FromEngine e false) ∈ s_log s').
Proof. exact strand_recovered. Qed.
Print Assumptions C15_stranded_resolved.

Example C15_example : exists s s', reachable 1 ll genuine s /\ registered (s_log s) 100 = false /\
  phase_of (s_log s) 1 = OnEngine 100 /\ step 1 ll 50 s (EvStrandTimer 100) = Some s' /\
  phase_of (s_log s') 1 = OnEngine 101.
Proof.
  destruct (trace_step_reachable 1 [EvRegister 100; EvSubmit 1 (retrying 1); EvUnregister 100; EvRegister 101] (EvStrandTimer 100)
    [ObsRegister 100; ObsSubmit 1 (retrying 1); ObsSend 1 100; ObsUnregister 100; ObsRegister 101]
    [ObsRegister 100; ObsSubmit 1 (retrying 1); ObsSend 1 100; ObsUnregister 100; ObsRegister 101; ObsResult 1 100 RErr; ObsSend 1 101]
    ltac:(vm_compute; reflexivity) ltac:(vm_compute; reflexivity)) as (s & s' & Hr & Hl & Hs & Hl').
  exists s, s'. rewrite Hl, Hl'. split; [exact Hr|]. split; [vm_compute; reflexivity|]. split; [vm_compute; reflexivity|].
  split; [exact Hs|vm_compute; reflexivity].
Qed.

(** ** C16: failures are reported exactly when the retries are used up, and deliveries are bounded. *)
Theorem C16_retries_honoured : forall hwm scheme s,
  reachable hwm scheme sane_ids s ->
  forall t m e b t', s_log s = t ++ ObsReply m (FromEngine e b) :: t' ->
  exists md, ObsSubmit m md ∈ t /\
    if b : bool then errors t m <= t_retries md else errors t m = S (t_retries md).
Proof. exact retries_honoured. Qed.
Print Assumptions C16_retries_honoured.

Theorem C16_sends_bounded : forall scheme s m md,
  reachable 1 scheme genuine s -> ObsSubmit m md ∈ s_log s ->
  sends (s_log s) m <= S (t_retries md + refusals (s_log s) m).
Proof. exact sends_bounded. Qed.
Print Assumptions C16_sends_bounded.

Definition ev5 : list event := [EvRegister 100; EvSubmit 1 (retrying 1); EvResult 1 100 RErr; EvRegister 101; EvResult 1 101 RErr].
Definition tr5 : list obs := Eval vm_compute in default [] (trace_of 1 ev5).
Example C16_example : exists s, reachable 1 ll genuine s /\ ObsSubmit 1 (retrying 1) ∈ s_log s /\
  sends (s_log s) 1 = 2 /\ errors (s_log s) 1 = 2 /\ ObsReply 1 (FromEngine 101 false) ∈ s_log s.
Proof.
  destruct (trace_of_reachable 1 ev5 tr5 ltac:(vm_compute; reflexivity)) as (s & Hr & Hl).
  exists s. split; [exact Hr|]. rewrite Hl. split; [set_solver|]. split; [vm_compute; reflexivity|]. split; [vm_compute; reflexivity|set_solver].
Qed.
