(** Property theorems C45 (the task scheduler never hangs). *)
From stdpp Require Import base gmap sets list.
From Verif Require Import Dependency_Model Sched_Trace Sched_Spec Sched_Model Sched_Env Sched_Base Sched_Term Sched_Witness.
From Coq Require Import ZArith Lia.

(** ** C45: in any state at all, handling any event ends, with one well-defined result: from some
    recursion bound on, the bound does not matter. *)
Theorem C45_handlers_terminate : forall hwm scheme s ev,
  exists s' n, forall fuel, n <= fuel -> step hwm scheme fuel s ev = Some s'.
Proof. exact step_ends. Qed.
Print Assumptions C45_handlers_terminate.

(** So every finite history of submissions, results, engines coming and going and timers is
    processed to its end, and two bounds that both suffice give the same outcome. *)
Theorem C45_histories_processed : forall hwm scheme evs,
  exists s n, forall fuel, n <= fuel -> run hwm scheme fuel init evs = Some s.
Proof. intros hwm scheme evs. exact (run_ends hwm scheme evs init). Qed.
Print Assumptions C45_histories_processed.

Theorem C45_outcome_unique : forall hwm scheme evs f1 f2 s1 s2,
  run hwm scheme f1 init evs = Some s1 -> run hwm scheme f2 init evs = Some s2 -> s1 = s2.
Proof.
  intros hwm scheme evs f1 f2 s1 s2 H1 H2.
  apply (run_stable hwm scheme f1 (max f1 f2)) in H1; [| lia].
  apply (run_stable hwm scheme f2 (max f1 f2)) in H2; [| lia]. congruence.
Qed.
Print Assumptions C45_outcome_unique.

(** Whatever the scheduler has been through, it can handle whatever comes next. *)
Theorem C45_never_stuck : forall hwm scheme (ok : list obs -> event -> Prop) s ev,
  reachable hwm scheme ok s -> ok (s_log s) ev ->
  exists fuel s', step hwm scheme fuel s ev = Some s' /\ reachable hwm scheme ok s'.
Proof.
  intros hwm scheme ok s ev Hr Hok. destruct (step_ends hwm scheme s ev) as (s' & n & H).
  exists n, s'. split; [apply H; lia |]. econstructor; eauto.
Qed.
Print Assumptions C45_never_stuck.

(** A chain of dependents fails through nested calls; a bound below the length of the chain is not
    enough, so the bound in the statements is needed. *)
Definition ev45 : list event := [EvRegister 100; EvSubmit 1 plain; EvSubmit 2 (after [1]); EvSubmit 3 (after [2]); EvSubmit 4 (after [3]);
  EvResult 1 100 RErr].
Example C45_example :
  (exists s, run 0 ll 5 init ev45 = Some s /\ ObsReply 4 (Unreachable ImpossibleDep) ∈ s_log s) /\
  run 0 ll 3 init ev45 = None.
Proof.
  split; [| vm_compute; reflexivity].
  destruct (run 0 ll 5 init ev45) as [s |] eqn:E; [| vm_compute in E; discriminate].
  exists s. split; [reflexivity |].
  assert (El : match run 0 ll 5 init ev45 with Some s => s_log s | None => [] end =
    [ObsRegister 100; ObsSubmit 1 plain; ObsSend 1 100; ObsSubmit 2 (after [1]); ObsSubmit 3 (after [2]); ObsSubmit 4 (after [3]);
     ObsResult 1 100 RErr; ObsReply 1 (FromEngine 100 false);
     ObsReply 2 (Unreachable ImpossibleDep); ObsReply 3 (Unreachable ImpossibleDep); ObsReply 4 (Unreachable ImpossibleDep)])
    by (vm_compute; reflexivity).
  rewrite E in El. rewrite El. do 10 apply elem_of_list_further. apply elem_of_list_here.
Qed.
