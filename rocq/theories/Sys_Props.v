(** Client, scheduler and engines together: a result is deserved, final, and ends the task (C64); and every task gets its result, unless something stands in the way of it (C65). *)
From stdpp Require Import base gmap sets list relations.
From Verif Require Import Dependency_Model Dependency_Spec Sched_Trace Sched_Spec Sched_Model Sched_Env Sched_Base Sched_Idle_Spec Sched_Witness.
From Verif Require Import Sys_Model Sys_Spec Sys_Log Sys_Trace Sys_Core Sys_Hist Sys_Client Sys_Result Sys_Facts Sys_Exec Sys_Measure Sys_Live Sys_Quiet Sys_Rest Sys_Witness.
From Verif Require Client_Model Client_Spec Client_Steps Client_Props Sched_Idle_Props.
From Coq Require Import ZArith Lia.

(** * C64 *)
(** Whatever is submitted, and whenever engines come, die, fail, refuse or abort tasks: the result the client sees is that of an execution that ended so,
    or the task failed on 1 + retries engines, or the scheduler had a reason to fail it ([Sys_Spec.deserved]). *)
Theorem C64_results_deserved : forall scheme allowed enum s m r,
  Client_Steps.enumerates enum -> reachable scheme allowed s -> has_result enum s m r -> deserved enum s m r.
Proof. intros scheme allowed enum s m r He. exact (results_deserved scheme allowed enum He s m r). Qed.
Print Assumptions C64_results_deserved.

Theorem C64_result_final : forall scheme allowed enum s s' m r,
  Client_Steps.enumerates enum -> reachable scheme allowed s -> rtc (steps scheme allowed) s s' -> has_result enum s m r -> has_result enum s' m r.
Proof.
  intros scheme allowed enum s s' m r He R H. induction H as [s|s s1 s' St H IH]; [auto|]. intros Hr.
  apply IH; [eapply steps_reach; eauto|eapply result_stays; eauto].
Qed.
Print Assumptions C64_result_final.

(** Once the client has a result, the task is not running, not queued at an engine, and never runs again. *)
Theorem C64_result_ends : forall scheme allowed enum s s' m r e,
  Client_Steps.enumerates enum -> reachable scheme allowed s -> rtc (steps scheme allowed) s s' -> has_result enum s m r ->
  (e, m) ∉ busy s' /\ (e, m) ∉ inbox s' /\ ((m, e) ∈ begun s' -> (m, e) ∈ begun s).
Proof.
  intros scheme allowed enum s s' m r e He R H. induction H as [s|s s1 s' St H IH]; intros Hr.
  - pose proof (done_nowhere scheme allowed enum He s m r e R Hr) as N. unfold loc in N. rewrite !elem_of_app in N. tauto.
  - assert (R1 := steps_reach scheme allowed s s1 R St).
    destruct (IH R1 (result_stays scheme allowed enum He s s1 m r R St Hr)) as (B1 & B2 & B3). split; [exact B1|]. split; [exact B2|]. intros X. apply B3 in X. clear B1 B2 B3 IH H.
    destruct St as [St|St]; [destruct St; exact X|]. destruct St as [| | | |s e1 m1 l1 l2 Hc Hd E Hf Hb| | | | |]; try exact X. cbn [begun] in X. apply elem_of_app in X as [X|X]; [exact X|].
    apply elem_of_list_singleton in X. injection X as <- <-. exfalso. apply (done_nowhere scheme allowed enum He s m r e R Hr). unfold loc. rewrite E, !elem_of_app, elem_of_cons. auto.
Qed.
Print Assumptions C64_result_ends.

(** Each client waits for its own tasks, those without a result yet, and for no others. *)
Theorem C64_outstanding : forall scheme allowed enum s c x,
  Client_Steps.enumerates enum -> reachable scheme allowed s ->
  x ∈ Client_Model.outstanding (Client_Model.run enum Client_Model.empty_client (events_of c s)) <->
  exists m, x = Client_Model.Plain m /\ client_of s m = Some c /\ future enum s m = Some None.
Proof.
  intros scheme allowed enum s c x He R. pose proof (told_reachable scheme allowed s R) as V. pose proof (v_client _ V c) as K.
  destruct (Client_Props.C37_client enum (events_of c s) He (k_genuine _ _ K)) as (O & _ & _). change Client_Props.start with Client_Model.empty_client in O. rewrite O, (k_out _ _ K x).
  assert (Hf : forall m, client_of s m = Some c -> m ∉ (received (events_of c s)).*1 <-> future enum s m = Some None).
  { intros m Hc. rewrite (future_is scheme allowed enum He s m c R Hc). split.
    - intros N. f_equal. destruct (Client_Spec.res _ !! _) as [r|] eqn:E; [|reflexivity]. apply (k_res _ _ K) in E as (p & A & _). destruct N. apply elem_of_list_fmap. exists (m, p). auto.
    - intros [= E] X. apply elem_of_list_fmap in X as ([m' p] & Em & X). cbn in Em. subst m'.
      destruct (received_reply scheme allowed s m p R (ex_intro _ c X)) as (_ & Ht & r & Y). destruct (reply_is scheme allowed s m p r R Ht Y) as (y & A & _).
      assert (Z : Client_Spec.res (Client_Spec.seen (events_of c s)) !! Client_Model.Plain m = Some y) by (apply (k_res _ _ K); eauto). congruence. }
  split.
  - intros (n & A & B & C). exists n. split; [exact B|]. split; [exact A|]. apply Hf; assumption.
  - intros (n & A & B & C). exists n. split; [exact B|]. split; [exact A|]. apply Hf; assumption.
Qed.
Print Assumptions C64_outstanding.

(** A task is never executed by two engines at once; it is never executed twice by the same engine; an engine executes one task at a time. *)
Theorem C64_one_at_a_time : forall scheme allowed s,
  reachable scheme allowed s ->
  (forall m e1 e2, (e1, m) ∈ busy s -> (e2, m) ∈ busy s -> e1 = e2) /\ NoDup (begun s) /\ NoDup (busy s).*1.
Proof.
  intros scheme allowed s R. pose proof (hist_reachable scheme allowed s R) as Y. split; [|split; [apply (y_begun _ _ _ _ _ _ _ Y)|apply (y_one _ _ _ _ _ _ _ Y)]].
  intros m e1 e2 A B. apply (one_place scheme allowed s m e1 e2 R); unfold loc; rewrite !elem_of_app; auto.
Qed.
Print Assumptions C64_one_at_a_time.

(** A second execution of a task begins only after the first has failed: it ended without a value, or its engine died. *)
Theorem C64_begins_again : forall scheme allowed s l1 m e1 e2 l2,
  reachable scheme allowed s -> begun s = l1 ++ (m, e2) :: l2 -> (m, e1) ∈ l1 ->
  e1 <> e2 /\ ((exists o, (m, e1, o) ∈ ended s /\ forall v, o <> Returned v) \/ e1 ∈ dead s).
Proof. exact begin_again. Qed.
Print Assumptions C64_begins_again.
(** ... at that time already: it is not running any more when the second begins. *)
Theorem C64_begins_again_after : forall scheme allowed s s' m e1 e2,
  reachable scheme allowed s -> internal scheme s s' -> begun s' = begun s ++ [(m, e2)] -> (m, e1) ∈ begun s ->
  (exists o, (m, e1, o) ∈ ended s /\ forall v, o <> Returned v) \/ e1 ∈ dead s.
Proof.
  intros scheme allowed s s' m e1 e2 R St E X.
  destruct (begin_again scheme allowed s' (begun s) m e1 e2 [] ltac:(eapply r_int; eauto) E X) as [_ Y].
  assert (Hd : ended s' = ended s /\ dead s' = dead s).
  { clear Y. destruct St; cbn [begun] in E; try (split; reflexivity); exfalso; apply (f_equal length) in E; cbn in E; rewrite app_length in E; cbn in E; lia. }
  destruct Hd as [E1 E2]. rewrite E1, E2 in Y. exact Y.
Qed.
Print Assumptions C64_begins_again_after.
Theorem C64_executions_bounded : forall scheme allowed s m md,
  reachable scheme allowed s -> asked s m md -> times_begun s m <= S (t_retries md + times_refused s m).
Proof. exact begun_bound. Qed.
Print Assumptions C64_executions_bounded.

(** * C65 *)
(** Nothing moves by itself any more. *)
Definition quiet (scheme : nat -> list Z -> nat) (s : sys) : Prop := forall s', ~ internal scheme s s'.

(** Left alone, the system comes to rest, whatever happens in whatever order; *)
Theorem C65_comes_to_rest : forall scheme allowed s,
  reachable scheme allowed s -> exists n, forall k s', nsteps (internal scheme) k s s' -> k <= n.
Proof. intros scheme allowed s R. exists (mu s). intros k s' H. destruct (takes_at_most scheme allowed k s s' R H). lia. Qed.
Print Assumptions C65_comes_to_rest.
Theorem C65_can_rest : forall scheme allowed s,
  reachable scheme allowed s -> exists s', rtc (internal scheme) s s' /\ quiet scheme s'.
Proof.
  intros scheme allowed s R. destruct (can_rest scheme allowed s R) as (s' & A & B). exists s'. split; [exact A|]. intros s2. exact (settled_rests scheme s' s2 B).
Qed.
Print Assumptions C65_can_rest.

(** and then no task is running, and no engine that lives has a task waiting; each task has its result, or something stands in its way on every living engine. *)
Theorem C65_nothing_runs : forall scheme allowed s e m,
  reachable scheme allowed s -> quiet scheme s -> (e, m) ∉ busy s /\ (live s e -> (e, m) ∉ inbox s).
Proof.
  intros scheme allowed s e m R Q. destruct (at_rest scheme allowed s R Q). split; [rewrite z_busy; intros X; inversion X|]. intros [_ L] X. exact (L (z_inbox _ _ X)).
Qed.
Print Assumptions C65_nothing_runs.
Theorem C65_done_or_blocked : forall scheme enum s m,
  Client_Steps.enumerates enum -> Sched_Idle_Props.picks_offered scheme ->
  reachable scheme ordinary_task s -> quiet scheme s -> m < next_id s ->
  (exists r, has_result enum s m r) \/ forall e, live s e -> blocked enum s m e.
Proof.
  intros scheme enum s m He Hs R Q Hm. exact (quiet_tasks scheme ordinary_task (fun _ _ _ H => H) Hs enum He s m R (at_rest _ _ s R Q) Hm).
Qed.
Print Assumptions C65_done_or_blocked.

(** A task without dependencies and targets has its result if there is a living engine that did not give it back. *)
Theorem C65_plain : forall scheme enum s m md e,
  Client_Steps.enumerates enum -> Sched_Idle_Props.picks_offered scheme ->
  reachable scheme ordinary_task s -> quiet scheme s -> asked s m md ->
  t_targets md = [] -> dep_tasks (t_after md) = [] -> dep_tasks (t_follow md) = [] -> live s e -> (forall o, (m, e, o) ∈ ended s -> exists v, o = Returned v) ->
  exists r, has_result enum s m r.
Proof.
  intros scheme enum s m md e He Hs R Q A Ht Ha Hf L Hg.
  assert (Hm : m < next_id s).
  { apply (ids_lt scheme s m (core_reachable _ _ s R)), elem_of_app. destruct A as [A|A]; [right; apply elem_of_list_fmap; exists (m, md); auto|left; apply submits_elem; exists md; exact A]. }
  destruct (C65_done_or_blocked scheme enum s m He Hs R Q Hm) as [X|X]; [exact X|]. destruct (X e L) as (md' & A' & B).
  rewrite (asked_fun _ _ s m md' md R A' A) in B. rewrite Ha, Hf in B. exfalso. destruct B as [(x & X1 & _)|[(X1 & _)|[(x & X1 & _)|(o & X1 & X2)]]]; try (inversion X1; fail).
  - congruence.
  - destruct (Hg o X1) as [v ->]. exact (X2 v eq_refl).
Qed.
Print Assumptions C65_plain.

(** m depends on x, perhaps through other tasks. *)
Inductive needs (s : sys) : nat -> nat -> Prop :=
| n_direct m md x : asked s m md -> x ∈ dep_tasks (t_after md) -> needs s m x
| n_more m md y x : asked s m md -> y ∈ dep_tasks (t_after md) -> needs s y x -> needs s m x.
(** With an engine on which nothing goes wrong, and tasks that ask for no particular engine: every task has its result, except those that depend on a task that failed. *)
Theorem C65_done_or_needs_failed : forall scheme enum s e,
  Client_Steps.enumerates enum -> Sched_Idle_Props.picks_offered scheme ->
  reachable scheme anywhere_task s -> quiet scheme s -> reliable s e ->
  forall m, m < next_id s -> (exists r, has_result enum s m r) \/ exists x, needs s m x /\ failed enum s x.
Proof.
  intros scheme enum s e He Hs R Q [L G] m. induction (lt_wf m) as [m _ IH]. intros Hm.
  assert (HA : forall s c md, anywhere_task s c md -> ordinary_task s c md) by (intros ? ? ? H; apply H).
  destruct (quiet_tasks scheme anywhere_task HA Hs enum He s m R (at_rest _ _ s R Q) Hm) as [X|X]; [left; exact X|]. right.
  destruct (X e L) as (md & A & B). destruct (asked_allowed scheme anywhere_task s m md R A) as (s0 & c & _ & _ & Ht & Hf).
  destruct B as [(x & X1 & X2)|[(X1 & _)|[(x & X1 & _)|(o & X1 & X2)]]].
  - destruct (q_fine _ _ (usual_reachable scheme anywhere_task HA s R) m md A) as (_ & _ & Hx & _). destruct (Hx x (or_introl X1)) as [Hlt _].
    destruct (IH x Hlt ltac:(lia)) as [[r Hr]|(y & Hy & F)].
    + exists x. split; [econstructor; eauto|]. exists r. split; [exact Hr|]. intros v ->. apply X2. exists v. exact Hr.
    + exists y. split; [eapply n_more; eauto|exact F].
  - congruence.
  - rewrite Hf in X1. inversion X1.
  - destruct (G m o X1) as [v ->]. destruct (X2 v eq_refl).
Qed.
Print Assumptions C65_done_or_needs_failed.
Lemma needs_earlier scheme s m x : reachable scheme anywhere_task s -> needs s m x -> x < m.
Proof.
  intros R. assert (HA : forall s c md, anywhere_task s c md -> ordinary_task s c md) by (intros ? ? ? H; apply H).
  induction 1 as [m md x A B|m md y x A B N IH]; destruct (q_fine _ _ (usual_reachable scheme anywhere_task HA s R) m md A) as (_ & _ & Hx & _); destruct (Hx _ (or_introl B)) as [Hlt _]; lia.
Qed.
(** So without failures everything is done. *)
Theorem C65_all_done : forall scheme enum s e,
  Client_Steps.enumerates enum -> Sched_Idle_Props.picks_offered scheme ->
  reachable scheme anywhere_task s -> quiet scheme s -> reliable s e -> (forall x, x < next_id s -> ~ failed enum s x) ->
  forall m, m < next_id s -> succeeded enum s m.
Proof.
  intros scheme enum s e He Hs R Q G F m Hm. destruct (C65_done_or_needs_failed scheme enum s e He Hs R Q G m Hm) as [[r Hr]|(x & N & X)].
  - destruct r as [v|c|e'|]; [exists v; exact Hr|exfalso; apply (F m Hm); eexists; (split; [exact Hr|discriminate])..].
  - pose proof (needs_earlier scheme s m x R N). destruct (F x ltac:(lia) X).
Qed.
Print Assumptions C65_all_done.

(** * Concrete histories *)
Definition knownb (s : sys) (c x : nat) : bool :=
  bool_decide (client_of s x = Some c) || existsb (fun o => match o with ObsSubmit y _ => y =? x | _ => false end) (s_log (sch s)).
Definition anywhereb (s : sys) (c : nat) (md : taskmd) : bool :=
  Sched_Idle_Props.ordinary_depb (t_after md) && Sched_Idle_Props.ordinary_depb (t_follow md) &&
  forallb (knownb s c) (dep_tasks (t_after md)) && bool_decide (t_targets md = []) && bool_decide (dep_tasks (t_follow md) = []).
Lemma anywhereb_ok s c md : anywhereb s c md = true -> anywhere_task s c md.
Proof.
  unfold anywhereb. rewrite !andb_true_iff, !bool_decide_eq_true. intros ((((A & B) & C) & D) & E).
  assert (Hd : forall d, Sched_Idle_Props.ordinary_depb d = true -> ordinary_dep d).
  { intros d Hd. unfold Sched_Idle_Props.ordinary_depb in Hd. rewrite !andb_true_iff, negb_true_iff in Hd. unfold ordinary_dep. tauto. }
  split; [|split; [exact D|exact E]]. split; [auto|]. split; [auto|]. split.
  - intros x [X|X]; [|rewrite E in X; inversion X]. rewrite forallb_forall in C. apply elem_of_list_In, C, orb_true_iff in X as [X|X]; [left; apply bool_decide_eq_true in X; exact X|right].
    apply existsb_exists in X as (o & X & Y). destruct o as [y md'| | | | |]; try discriminate. apply Nat.eqb_eq in Y as ->. exists md'. apply elem_of_list_In, X.
  - rewrite D. intros e X. inversion X.
Qed.
Lemma anywhere_ordinary scheme s : reachable scheme anywhere_task s -> reachable scheme ordinary_task s.
Proof.
  induction 1 as [|s s' R IH St|s s' R IH St]; [constructor| |eapply r_int; eauto]. eapply r_ext; [exact IH|]. destruct St as [s c md Hj A| | | | |]; try (constructor; assumption).
  - constructor; [exact Hj|apply A].
  - econstructor; eassumption.
  - econstructor; eassumption.
Qed.
Definition settledb (s : sys) : bool :=
  match to_sched s, outbox s, hub_s s, hub_c s with [], [], [], [] => match replies s, s_strand_timers (sch s), busy s with [], [], [] =>
    forallb (fun e => bool_decide (e ∈ noticed s)) (dead s) && forallb (fun x => bool_decide (fst x ∈ dead s)) (inbox s) | _, _, _ => false end | _, _, _, _ => false end.
Lemma settledb_quiet scheme s : settledb s = true -> quiet scheme s.
Proof.
  unfold settledb. intros H s'. apply settled_rests.
  destruct (to_sched s) eqn:E1; [|discriminate]. destruct (outbox s) eqn:E2; [|discriminate]. destruct (hub_s s) eqn:E3; [|discriminate]. destruct (hub_c s) eqn:E4; [|discriminate].
  destruct (replies s) eqn:E5; [|discriminate]. destruct (s_strand_timers (sch s)) eqn:E6; [|discriminate]. destruct (busy s) eqn:E7; [|discriminate].
  apply andb_true_iff in H as [A B]. split; auto.
  - intros e X. rewrite forallb_forall in A. apply elem_of_list_In, A, bool_decide_eq_true in X. exact X.
  - intros e m X. rewrite forallb_forall in B. apply elem_of_list_In, B, bool_decide_eq_true in X. exact X.
Qed.
Definition run (l : list act) : sys := default start (drive anywhereb start l).
Lemma run_ok l : match drive anywhereb start l with Some _ => True | None => False end -> reachable ll anywhere_task (run l).
Proof.
  unfold run. destruct (drive anywhereb start l) as [s|] eqn:E; [|intros []]. intros _. cbn. eapply (drive_ok anywhere_task anywhereb anywhereb_ok); [constructor|exact E].
Qed.

(** Three engines. Task 0 may be retried once: it raises an exception on engine 3, and engine 1 dies with it; task 1 and then task 2, which depends on it, succeed. *)
Definition acts1 : list act :=
  [Join 0; Connect 1; Connect 2; Connect 3; SHub; SHub; SHub; CTold 0; Submit 0 (retrying 1); Submit 0 plain; Submit 0 (after [1]); SSubmit 0; SSubmit 0; SSubmit 0;
   Begin 3; Begin 2; End 3 (Raised 5); SResult 3; Begin 1; Die 1; Notice 1; SHub; SStrand 1; End 2 (Returned 7); SResult 2; Begin 3; CReply 0;
   End 3 (Returned 9); SResult 3; CReply 0; CReply 0; CTold 0; CTold 0; CTold 0].
Definition s1 : sys := Eval vm_compute in run acts1.
Example C64_example : reachable ll anywhere_task s1 /\ next_id s1 = 3 /\ begun s1 = [(0, 3); (1, 2); (0, 1); (2, 3)] /\ ended s1 = [(0, 3, Raised 5); (1, 2, Returned 7); (2, 3, Returned 9)] /\ has_result elements s1 0 (Client_Model.EngineDied 1) /\ has_result elements s1 1 (Client_Model.Value 7) /\ has_result elements s1 2 (Client_Model.Value 9).
Proof. split; [change s1 with (run acts1); apply run_ok; vm_compute; exact I|]. vm_compute. repeat split. Qed.
(** Before the end: task 0 has its result, task 2 is running. *)
Definition s1b : sys := Eval vm_compute in run (take 27 acts1).
Example C64_example_running : reachable ll anywhere_task s1b /\ busy s1b = [(3, 2)] /\ future elements s1b 2 = Some None /\ has_result elements s1b 0 (Client_Model.EngineDied 1).
Proof. split; [change s1b with (run (take 27 acts1)); apply run_ok; vm_compute; exact I|]. vm_compute. repeat split. Qed.
Example C65_example : reachable ll ordinary_task s1 /\ reachable ll anywhere_task s1 /\ quiet ll s1 /\ reliable s1 2 /\ live s1 3.
Proof.
  assert (R : reachable ll anywhere_task s1) by apply C64_example. split; [apply anywhere_ordinary, R|]. split; [exact R|]. split; [apply settledb_quiet; vm_compute; reflexivity|].
  split; [split|].
  - split; [apply (bool_decide_unpack _); vm_compute; exact I|]. apply (bool_decide_unpack _); vm_compute; exact I.
  - intros m o X. change (ended s1) with [(0, 3, Raised 5); (1, 2, Returned 7); (2, 3, Returned 9)] in X. rewrite !elem_of_cons in X.
    destruct X as [X|[X|[X|X]]]; [discriminate| |discriminate|inversion X]. injection X as -> ->. eauto.
  - split; apply (bool_decide_unpack _); vm_compute; exact I.
Qed.

(** A task that depends on a failed one need not be failed: task 3 depends on task 0, which has failed, and on task 1, for which task 2 is waiting.
    The scheduler forgets it (task_scheduler.py 464-466: KeyError), and it waits for ever. *)
Definition acts2 : list act :=
  [Join 0; Connect 1; Connect 2; SHub; SHub; CTold 0; CTold 0; Submit 0 plain; Submit 0 plain; SSubmit 0; SSubmit 0; Submit 0 (after [1]); SSubmit 0; Begin 1; Begin 2; End 2 (Raised 5); SResult 2; CReply 0;
   Submit 0 (after [0; 1]); SSubmit 0; End 1 (Returned 7); SResult 1; CReply 0; Begin 2; End 2 (Returned 8); SResult 2; CReply 0].
Definition s2 : sys := Eval vm_compute in run acts2.
Theorem C65_failed_dependency_refuted : exists s, reachable ll anywhere_task s /\ quiet ll s /\ reliable s 1 /\ failed elements s 0 /\ succeeded elements s 1 /\ asked s 3 (after [0; 1]) /\ future elements s 3 = Some None.
Proof.
  exists s2. split; [change s2 with (run acts2); apply run_ok; vm_compute; exact I|]. split; [apply settledb_quiet; vm_compute; reflexivity|].
  split; [split|].
  - split; apply (bool_decide_unpack _); vm_compute; exact I.
  - intros m o X. change (ended s2) with [(0, 2, Raised 5); (1, 1, Returned 7); (2, 2, Returned 8)] in X. rewrite !elem_of_cons in X.
    destruct X as [X|[X|[X|X]]]; [discriminate| |discriminate|inversion X]. injection X as -> ->. eauto.
  - split; [exists (Client_Model.Failure 9); split; [vm_compute; reflexivity|discriminate]|]. split; [exists 7; vm_compute; reflexivity|]. split; [|vm_compute; reflexivity].
    right. apply elem_of_list_In. vm_compute. auto 20.
Qed.
Print Assumptions C65_failed_dependency_refuted.

(** Even a chain of single dependencies can get stuck: 1 depends on 0 and 2 on 1.  When engine 2 is announced the scheduler goes through its queue and puts
    the tasks back in the opposite order (task_scheduler.py 763: extendleft).  When 0 fails, it passes over 2 before it fails 1, and nothing makes it look at 2 again. *)
Definition acts4 : list act :=
  [Join 0; Connect 1; SHub; CTold 0; Submit 0 plain; Submit 0 (after [0]); Submit 0 (after [1]); SSubmit 0; SSubmit 0; SSubmit 0; Begin 1; Connect 2; SHub; CTold 0; End 1 (Raised 5); SResult 1; CReply 0; CReply 0].
Definition s4 : sys := Eval vm_compute in run acts4.
Theorem C65_chain_refuted : exists s, reachable ll anywhere_task s /\ quiet ll s /\ reliable s 2 /\
  asked s 1 (after [0]) /\ asked s 2 (after [1]) /\ failed elements s 0 /\ failed elements s 1 /\ future elements s 2 = Some None.
Proof.
  exists s4. split; [change s4 with (run acts4); apply run_ok; vm_compute; exact I|]. split; [apply settledb_quiet; vm_compute; reflexivity|].
  split; [split|].
  - split; apply (bool_decide_unpack _); vm_compute; exact I.
  - intros m o X. change (ended s4) with [(0, 1, Raised 5)] in X. rewrite !elem_of_cons in X. destruct X as [X|X]; [discriminate|inversion X].
  - split; [right; apply elem_of_list_In; vm_compute; auto 20|]. split; [right; apply elem_of_list_In; vm_compute; auto 20|].
    split; [exists (Client_Model.Failure 9); split; [vm_compute; reflexivity|discriminate]|]. split; [exists (Client_Model.Failure 0); split; [vm_compute; reflexivity|discriminate]|].
    vm_compute. reflexivity.
Qed.
Print Assumptions C65_chain_refuted.

(** A diamond: 0, then 1 and 2, then 3. *)
Definition acts3 : list act :=
  [Join 0; Submit 0 plain; Connect 1; CTold 0; Submit 0 (after [0]); Submit 0 (after [0]); SHub; SSubmit 0; Connect 2; Submit 0 (after [1; 2]); SSubmit 0; SHub; CTold 0; SSubmit 0; SSubmit 0;
   Begin 1; End 1 (Returned 4); SResult 1; CReply 0; Begin 2; Begin 1; End 1 (Returned 5); End 2 (Returned 6); SResult 2; SResult 1; Begin 2; End 2 (Returned 7); SResult 2; CReply 0; CReply 0; CReply 0].
Definition s3 : sys := Eval vm_compute in run acts3.
Example C65_all_done_example : reachable ll anywhere_task s3 /\ quiet ll s3 /\ reliable s3 1 /\ next_id s3 = 4 /\ forall x, x < next_id s3 -> ~ failed elements s3 x.
Proof.
  split; [change s3 with (run acts3); apply run_ok; vm_compute; exact I|]. split; [apply settledb_quiet; vm_compute; reflexivity|].
  split; [split|split; [reflexivity|]].
  - split; apply (bool_decide_unpack _); vm_compute; exact I.
  - intros m o X. change (ended s3) with [(0, 1, Returned 4); (2, 1, Returned 5); (1, 2, Returned 6); (3, 2, Returned 7)] in X. rewrite !elem_of_cons in X.
    destruct X as [X|[X|[X|[X|X]]]]; [injection X as -> ->; eauto..|discriminate|discriminate|inversion X].
  - change (next_id s3) with 4. intros x Hx (r & H & N). destruct x as [|[|[|[|x]]]]; [..|lia];
      unfold has_result in H; vm_compute in H; injection H as <-; exact (N _ eq_refl).
Qed.

(** Two clients; the second joins later. Its task 1 comes after task 0 of the first client, and its task 2 does not. *)
Definition acts5 : list act :=
  [Join 0; Connect 1; SHub; Submit 0 plain; SSubmit 0; Connect 2; SHub; Join 7; Submit 7 (after [0]); Submit 7 plain; SSubmit 7; SSubmit 7; CTold 7; CTold 7; CTold 0;
   Begin 2; End 2 (Returned 6); SResult 2; CReply 7; Begin 1; End 1 (Returned 5); SResult 1; Begin 1; End 1 (Returned 8); SResult 1; CReply 7; CReply 0; CTold 0].
Definition s5 : sys := Eval vm_compute in run acts5.
Definition s5b : sys := Eval vm_compute in run (take 26 acts5).
Example C65_two_clients : reachable ll anywhere_task s5 /\ quiet ll s5 /\ owners s5 = [0; 7; 7] /\
  has_result elements s5 0 (Client_Model.Value 5) /\ has_result elements s5 1 (Client_Model.Value 8) /\ has_result elements s5 2 (Client_Model.Value 6).
Proof. split; [change s5 with (run acts5); apply run_ok; vm_compute; exact I|]. split; [apply settledb_quiet; vm_compute; reflexivity|]. vm_compute. repeat split. Qed.
(** Before the end, client 7 has both its results, and client 0 is still waiting for its own. *)
Example C64_two_clients : reachable ll anywhere_task s5b /\ has_result elements s5b 1 (Client_Model.Value 8) /\ future elements s5b 0 = Some None /\
  elements (Client_Model.outstanding (Client_Model.run elements Client_Model.empty_client (events_of 0 s5b))) = [Client_Model.Plain 0] /\
  elements (Client_Model.outstanding (Client_Model.run elements Client_Model.empty_client (events_of 7 s5b))) = [].
Proof. split; [change s5b with (run (take 26 acts5)); apply run_ok; vm_compute; exact I|]. repeat split; vm_compute; reflexivity. Qed.

(** A dependency on a task that another client has submitted before may be refused as invalid: that submission has not reached the scheduler yet. *)
Definition s6 : sys := Eval vm_compute in default start (drive (fun _ _ _ => true) start [Join 0; Join 7; Submit 0 plain; Submit 7 (after [0]); SSubmit 7; SSubmit 0; CReply 7; Connect 1; SHub; Begin 1; End 1 (Returned 4); SResult 1; CReply 0]).
Theorem C64_other_client_refuted : exists s, reachable ll (fun _ _ _ => True) s /\ asked s 1 (after [0]) /\ client_of s 0 = Some 0 /\ client_of s 1 = Some 7 /\
  succeeded elements s 0 /\ has_result elements s 1 (Client_Model.Failure (code InvalidDep)).
Proof.
  exists s6. split.
  - apply (drive_ok (fun _ _ _ => True) (fun _ _ _ => true) (fun _ _ _ _ => I)
      [Join 0; Join 7; Submit 0 plain; Submit 7 (after [0]); SSubmit 7; SSubmit 0; CReply 7; Connect 1; SHub; Begin 1; End 1 (Returned 4); SResult 1; CReply 0] start); [constructor|vm_compute; reflexivity].
  - split; [right; apply elem_of_list_In; vm_compute; auto 20|]. split; [reflexivity|]. split; [reflexivity|]. split; [exists 4; vm_compute; reflexivity|vm_compute; reflexivity].
Qed.
Print Assumptions C64_other_client_refuted.
