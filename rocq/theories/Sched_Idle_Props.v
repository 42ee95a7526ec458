(** Property theorems C53 (no engine is idle while a waiting task could run on it). *)
From stdpp Require Import base gmap sets list.
From Verif Require Import Dependency_Model Dependency_Spec Sched_Trace Sched_Spec Sched_Model Sched_Env Sched_Base Sched_Load Sched_Once
  Sched_Strand Sched_Idle_Spec Sched_Idle_Inv Sched_Idle_Top Sched_Witness Chooser_Model Chooser_Spec Chooser_Props.
From Coq Require Import ZArith Lia QArith.
Open Scope nat_scope.

(** A policy picks one of the engines it is offered. *)
Definition picks_offered (scheme : nat -> list Z -> nat) : Prop := forall k l, l <> [] -> scheme k l < length l.

(** ** C53: after any history of submissions with ordinary dependencies, results, engines coming and
    dying and timers, with the default high-water mark of 1 and any policy: if a task waits and a
    registered engine has nothing to do, then the task must not run on that engine now (a dependency
    is not met, it follows a task that ran elsewhere, it asked for other engines), or that engine has
    given it back before. *)
Theorem C53_no_idle_engine : forall scheme s m e,
  picks_offered scheme -> reachable 1 scheme ordinary s ->
  phase_of (s_log s) m = Waiting -> registered (s_log s) e = true -> outstanding (s_log s) e = 0%Z ->
  ~ could_run (s_log s) m e.
Proof. intros scheme s m e Hs. exact (no_idle scheme Hs s m e). Qed.
Print Assumptions C53_no_idle_engine.

(** A task without restrictions that no engine has given back waits only while every registered
    engine works. *)
Theorem C53_plain_waits_only_when_busy : forall scheme s m md e,
  picks_offered scheme -> reachable 1 scheme ordinary s ->
  phase_of (s_log s) m = Waiting -> ObsSubmit m md ∈ s_log s ->
  t_targets md = [] -> dep_tasks (t_after md) = [] -> dep_tasks (t_follow md) = [] -> (forall e k, ObsResult m e k ∉ s_log s) ->
  registered (s_log s) e = true -> outstanding (s_log s) e = 1%Z.
Proof.
  intros scheme s m md e Hs Hr Hw Hmd Ht Ha Hf Hnr Hreg.
  assert (HI10 : I10 1 s) by (eapply (I10_reachable 1 scheme ordinary); [|exact Hr]; intros t ev H; apply genuine_registration, H).
  destruct (W_reachable scheme Hs s Hr) as [[HI HN] _].
  assert (Hin : e ∈ s_targets s) by (apply (l_reg _ _ _ _ HI10); exact Hreg).
  apply elem_of_list_lookup in Hin as [i Hi]. pose proof (l_load _ _ _ _ HI10 i e Hi) as H1.
  destruct (w_load _ _ _ _ _ _ _ _ _ _ _ HI i e Hi) as (l & _ & H2). rewrite H1 in H2. injection H2 as H2.
  pose proof (fit_bounded 1 (s_log s) (l_sends _ _ _ _ HI10) ltac:(discriminate) e) as H3.
  assert (outstanding (s_log s) e <> 0%Z); [|lia]. intros H0.
  assert (Hreg' : ObsRegister e ∈ s_log s).
  { clear -Hreg. induction (s_log s) as [|o t IH] using rev_ind; [discriminate|]. rewrite registered_snoc in Hreg. apply elem_of_app.
    destruct o as [|e'|e'| | |]; auto; destruct (decide (e = e')) as [->|]; auto; [right; left|discriminate]. }
  apply (C53_no_idle_engine scheme s m e Hs Hr Hw Hreg H0). split; [|intros k; apply Hnr].
  exists md. split; [exact Hmd|]. split; [exact Hreg'|]. unfold dict_met. unfold dep_tasks in Ha, Hf. rewrite Ha, Hf.
  destruct (n_targets _ _ _ _ _ _ _ _ _ _ _ _ _ _ _ _ HN m md Hmd) as ((A1 & _) & (A2 & _) & _). rewrite A1, A2.
  split; [intros x Hx; inversion Hx|]. split; [auto|]. intros x Hx; inversion Hx.
Qed.
Print Assumptions C53_plain_waits_only_when_busy.

(** The policies of the scheduler (task_scheduler.py 22-81) pick an offered engine, whatever the
    random numbers drawn at the k-th call. *)
Theorem C53_policies : forall (r1 r2 : nat -> list Z -> nat) (u v : nat -> Q),
  picks_offered r1 -> picks_offered r2 ->
  picks_offered (fun k l => plainrandom (r1 k l) l) /\ picks_offered (fun _ l => lru l) /\
  picks_offered (fun k l => twobin (r1 k l) (r2 k l) l) /\
  picks_offered (fun k l => default 0 (weighted (u k) (v k) l)) /\ picks_offered (fun _ l => default 0 (leastload l)).
Proof.
  intros r1 r2 u v H1 H2. split; [exact H1|]. split; [intros k [|x l] H; [congruence|unfold lru; simpl; lia]|].
  split; [intros k l H; specialize (H1 k l H); specialize (H2 k l H); unfold twobin; lia|]. split.
  - intros k l H. assert (Hl : 0 < length l) by (destruct l; [congruence|cbn; lia]).
    destruct (weighted (u k) (v k) l) as [i|] eqn:E; [|exact Hl]. cbn. revert E. unfold weighted.
    destruct (cumsum _); [discriminate|]. destruct (scan _ _) as [idx|]; [|discriminate]. destruct (scan _ _) as [idy|]; [|discriminate].
    destruct (nth_error _ idx) eqn:Ex; [|discriminate]. destruct (nth_error _ idy) eqn:Ey; [|discriminate].
    assert (Hx : idx < length l) by (rewrite <- (map_length weight l); apply nth_error_Some; congruence).
    assert (Hy : idy < length l) by (rewrite <- (map_length weight l); apply nth_error_Some; congruence).
    destruct (Qlt_le_dec _ _); intros E; injection E as <-; assumption.
  - intros k l H. destruct (C17_leastload l H) as (i & x & E & Hx & _). rewrite E. cbn. apply nth_error_Some. congruence.
Qed.
Print Assumptions C53_policies.

(** * The hypotheses are met *)
Definition ordinary_depb (d : dep_dict) : bool := default true (k_all d) && default true (k_success d) && negb (default false (k_failure d)).
Definition ordinaryb (t : list obs) (ev : event) : bool :=
  genuineb t ev && match ev with
  | EvSubmit m md => ordinary_depb (t_after md) && ordinary_depb (t_follow md) &&
      forallb (submittedb t) (dep_tasks (t_after md)) && forallb (submittedb t) (dep_tasks (t_follow md)) && forallb (knownb t) (t_targets md)
  | _ => true end.
Lemma ordinaryb_ok t ev : ordinaryb t ev = true -> ordinary t ev.
Proof.
  unfold ordinaryb. intros H. apply andb_true_iff in H as [H1 H2]. split; [apply genuineb_ok; exact H1|].
  destruct ev as [m md| | | | |]; auto. rewrite !andb_true_iff in H2. destruct H2 as ((((A & B) & C) & D) & E).
  assert (Hd : forall d, ordinary_depb d = true -> ordinary_dep d).
  { intros d Hd. unfold ordinary_depb in Hd. rewrite !andb_true_iff, negb_true_iff in Hd. unfold ordinary_dep. tauto. }
  assert (Hsub : forall x, submittedb t x = true -> submitted t x).
  { intros x Hx. apply existsb_exists in Hx as ([m' md'| | | | |] & Hin & Hb); try discriminate.
    apply bool_decide_eq_true in Hb as ->. exists md'. apply elem_of_list_In. exact Hin. }
  split; [auto|]. split; [auto|]. split.
  - intros x [Hx|Hx]; apply Hsub; [eapply forallb_forall in C|eapply forallb_forall in D]; try eassumption; apply elem_of_list_In; exact Hx.
  - intros e He. eapply forallb_forall in E; [|apply elem_of_list_In; exact He].
    apply existsb_exists in E as ([|e'| | | |] & Hin & Hb); try discriminate. apply bool_decide_eq_true in Hb as ->. apply elem_of_list_In. exact Hin.
Qed.
Lemma ll_picks : picks_offered ll.
Proof. intros k l H. unfold ll. destruct (C17_leastload l H) as (i & x & E & Hx & _). rewrite E. apply nth_error_Some. congruence. Qed.

(** Task 1 runs on one engine, the other is idle; tasks 2 (follow), 3 (after) and 4 (wants the busy
    engine) wait. *)
Definition ev53 : list event := [EvRegister 100; EvRegister 101; EvSubmit 1 plain; EvSubmit 2 (follow [1]); EvSubmit 3 (after [1]); EvSubmit 4 (targeted [101])].
Example C53_example : exists s, reachable 1 ll ordinary s /\ ObsSend 1 101 ∈ s_log s /\
  (forall m, m ∈ [2; 3; 4] -> phase_of (s_log s) m = Waiting) /\ registered (s_log s) 100 = true /\ outstanding (s_log s) 100 = 0%Z.
Proof.
  destruct (trace_with_reachable ordinary ordinaryb 1 ev53 
    [ObsRegister 100; ObsRegister 101; ObsSubmit 1 plain; ObsSend 1 101; ObsSubmit 2 (follow [1]); ObsSubmit 3 (after [1]); ObsSubmit 4 (targeted [101])]) as (s & Hr & Hl).
  - exact ordinaryb_ok.
  - vm_compute. reflexivity.
  - exists s. rewrite Hl. split; [exact Hr|]. split; [do 3 apply elem_of_list_further; apply elem_of_list_here|].
    split; [|split; vm_compute; reflexivity].
    intros m Hm. rewrite !elem_of_cons in Hm. destruct Hm as [->|[->|[->|Hm]]]; [vm_compute; reflexivity..|inversion Hm].
Qed.
(** When task 1 is done: one of the tasks bound to its engine goes there, and task 3 to the other. *)
Example C53_example_after : exists s, reachable 1 ll ordinary s /\ 
  s_log s = [ObsRegister 100; ObsRegister 101; ObsSubmit 1 plain; ObsSend 1 101; ObsSubmit 2 (follow [1]); ObsSubmit 3 (after [1]); ObsSubmit 4 (targeted [101]);
             ObsResult 1 101 ROk; ObsReply 1 (FromEngine 101 true); ObsSend 2 101; ObsSend 3 100].
Proof. apply (trace_with_reachable ordinary ordinaryb 1 (ev53 ++ [EvResult 1 101 ROk])); [exact ordinaryb_ok|vm_compute; reflexivity]. Qed.
(** All engines busy: a plain task waits. *)
Example C53_example_busy : exists s, reachable 1 ll ordinary s /\ phase_of (s_log s) 2 = Waiting /\ ObsSubmit 2 plain ∈ s_log s /\
  registered (s_log s) 100 = true /\ outstanding (s_log s) 100 = 1%Z.
Proof.
  destruct (trace_with_reachable ordinary ordinaryb 1 [EvRegister 100; EvSubmit 1 plain; EvSubmit 2 plain]
    [ObsRegister 100; ObsSubmit 1 plain; ObsSend 1 100; ObsSubmit 2 plain]) as (s & Hr & Hl).
  - exact ordinaryb_ok.
  - vm_compute. reflexivity.
  - exists s. rewrite Hl. split; [exact Hr|]. split; [vm_compute; reflexivity|]. split; [do 3 apply elem_of_list_further; apply elem_of_list_here|].
    split; vm_compute; reflexivity.
Qed.

(** The exception for engines that gave the task back is needed: a task that failed once and has
    retries left waits forever if no other engine exists, although its engine is idle. *)
Theorem C53_after_giving_back_refuted : ~ (forall s m e, reachable 1 ll ordinary s -> phase_of (s_log s) m = Waiting ->
  registered (s_log s) e = true -> outstanding (s_log s) e = 0%Z -> ~ may_send (s_log s) m e).
Proof.
  intros H. destruct (trace_with_reachable ordinary ordinaryb 1 [EvRegister 100; EvSubmit 1 (retrying 1); EvResult 1 100 RErr]
    [ObsRegister 100; ObsSubmit 1 (retrying 1); ObsSend 1 100; ObsResult 1 100 RErr]) as (s & Hr & Hl).
  - exact ordinaryb_ok.
  - vm_compute. reflexivity.
  - apply (H s 1 100 Hr); rewrite Hl; [vm_compute; reflexivity..|]. exists (retrying 1).
    split; [apply elem_of_list_further; apply elem_of_list_here|]. split; [apply elem_of_list_here|].
    split; [intros x Hx; vm_compute in Hx; inversion Hx|]. split; [left; reflexivity|]. intros x Hx; vm_compute in Hx; inversion Hx.
Qed.
Print Assumptions C53_after_giving_back_refuted.
