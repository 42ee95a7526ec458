(** Results and replies in the scheduler's log belong together. *)
From stdpp Require Import base gmap sets list.
From Verif Require Import Dependency_Model Sched_Trace Sched_Spec Sched_Model Sched_Env Sched_Base Sched_Traverse Sched_Frame Sched_Load Sched_Once Sched_Strand.
From Verif Require Import Sys_Log.
From Coq Require Import ZArith Lia.

(** a relayed reply is the result of that engine *)
Definition relayed (t : list obs) : Prop := forall m e b, ObsReply m (FromEngine e b) ∈ t -> exists k, k <> RUnmet /\ okb k = b /\ ObsResult m e k ∈ t.
(** a good result is relayed *)
Definition accepted (t : list obs) : Prop := forall m e, ObsResult m e ROk ∈ t -> ObsReply m (FromEngine e true) ∈ t.

Lemma relayed_own t u : relayed t -> Forall own u -> relayed (t ++ u).
Proof.
  intros H Hu m e b X. apply elem_of_app in X as [X|X].
  - destruct (H m e b X) as (k & A & B & D). exists k. rewrite elem_of_app. auto.
  - rewrite Forall_forall in Hu. destruct (Hu _ X).
Qed.
Lemma relayed_result t m e k u : relayed t -> Forall (fun o => own o \/ (k <> RUnmet /\ o = ObsReply m (FromEngine e (okb k)))) u -> relayed (t ++ ObsResult m e k :: u).
Proof.
  intros H Hu m' e' b X. apply elem_of_app in X as [X|X].
  - destruct (H m' e' b X) as (k' & A & B & D). exists k'. rewrite elem_of_app. auto.
  - apply elem_of_cons in X as [X|X]; [discriminate|]. rewrite Forall_forall in Hu. destruct (Hu _ X) as [Y|[Hk Y]]; [destruct Y|]. injection Y as -> -> ->.
    exists k. rewrite elem_of_app, elem_of_cons. auto.
Qed.

Section Result.
Context (hwm : nat) (scheme : nat -> list Z -> nat).
Lemma stranded_relayed fuel e s : relayed (s_log s) ->
  let Q s' := relayed (s_log s') in wp (handle_stranded_tasks hwm scheme fuel e) (fun _ => Q) Q s.
Proof.
  intros H Q. unfold handle_stranded_tasks. apply wp_bind, wp_get, wp_bind, wp_of_option; [|intros _; exact H].
  intros ms _. apply wp_bind. eapply wp_mono; [apply wp_for_each with (I := Q); [exact H|]| |intros s' Hs'; exact Hs'].
  - intros m s' _ H'. apply wp_bind, wp_get, wp_bind, wp_of_option; [|intros _; exact H']. intros l' _.
    destruct (al_lookup m l'); [|apply wp_ret; exact H']. apply wp_swallow.
    assert (X : forall s'', grows (fun o => own o \/ (RErr <> RUnmet /\ o = ObsReply m (FromEngine e (okb RErr)))) (s_log s' ++ [ObsResult m e RErr]) (s_strand_timers s') s'' -> Q s'').
    { intros s'' (_ & u & E & Hu). unfold Q. rewrite E, <- app_assoc. apply relayed_result; assumption. }
    eapply wp_mono; [apply dispatch_result_grows|intros [] s'' Y; apply X, Y|intros s'' Y; apply X, Y].
  - intros [] s' H'. apply wp_bind, wp_get, wp_bind, wp_of_option; [|intros _; exact H']. intros ? _. apply wp_bind, wp_upd.
    apply wp_bind, wp_get, wp_bind, wp_of_option; [|intros _; exact H']. intros ? _. apply wp_upd. exact H'.
Qed.
Lemma relayed_step fuel s ev s' : relayed (s_log s) -> step hwm scheme fuel s ev = Some s' -> relayed (s_log s').
Proof.
  intros H St. destruct ev as [m md|m e k|e|e|e|j tid].
  - destruct (step_submit _ _ _ _ _ _ _ St) as (_ & u & E & Hu). rewrite E, (app_assoc _ [_] u : _ ++ _ :: _ = _). apply relayed_own; [|exact Hu].
    intros m' e b X. apply elem_of_app in X as [X|X]; [|apply elem_of_list_singleton in X; discriminate]. destruct (H m' e b X) as (k & A & B & D). exists k. rewrite elem_of_app. auto.
  - destruct (step_result _ _ _ _ _ _ _ _ St) as (_ & u & E & Hu). rewrite E. apply relayed_result; assumption.
  - destruct (step_register _ _ _ _ _ _ St) as (_ & u & E & Hu). rewrite E, (app_assoc _ [_] u : _ ++ _ :: _ = _). apply relayed_own; [|exact Hu].
    intros m' e' b X. apply elem_of_app in X as [X|X]; [|apply elem_of_list_singleton in X; discriminate]. destruct (H m' e' b X) as (k & A & B & D). exists k. rewrite elem_of_app. auto.
  - destruct (step_unregister _ _ _ _ _ _ St) as (_ & E). rewrite E.
    intros m' e' b X. apply elem_of_app in X as [X|X]; [|apply elem_of_list_singleton in X; discriminate]. destruct (H m' e' b X) as (k & A & B & D). exists k. rewrite elem_of_app. auto.
  - revert St. apply (step_wp hwm scheme fuel s _ s' (fun s' => relayed (s_log s'))). cbn [handle]. apply wp_bind, wp_get. destruct (index_of e (s_strand_timers s)); [|apply wp_ret; exact H].
    apply wp_bind, wp_upd. apply stranded_relayed. exact H.
  - destruct (step_job_timer _ _ _ _ _ _ _ St) as (_ & u & E & Hu). rewrite E. apply relayed_own; assumption.
Qed.
Lemma relayed_reachable ok s : Sched_Base.reachable hwm scheme ok s -> relayed (s_log s).
Proof. induction 1 as [|s ev s' fuel R IH Hok St]; [intros m e b X; inversion X|]. eapply relayed_step; eauto. Qed.
End Result.

Section Accept.
Context (scheme : nat -> list Z -> nat).
Notation sreach := (Sched_Base.reachable 1 scheme genuine).
Lemma handle_result_replies fuel e m b s :
  let Q s' := ObsReply m (FromEngine e b) ∈ s_log s' in wp (handle_result 1 scheme fuel e m b) (fun _ => Q) Q s.
Proof.
  intros Q. unfold handle_result. apply wp_bind, wp_upd. set (s1 := set_log _ _). pose (I := grows (fun _ => True) (s_log s1) (s_strand_timers s1)).
  assert (H1 : I s1) by apply grows_start. assert (HQ : forall s', I s' -> Q s').
  { intros s' (_ & u & E & _). unfold Q. rewrite E. apply elem_of_app. left. unfold s1. cbn [s_log set_log]. apply elem_of_app. right. left. }
  eapply wp_mono with (Q := fun _ => I) (E := I); [|intros [] s' X; apply HQ, X|exact HQ].
  apply wp_bind, wp_get, wp_bind, wp_of_option; [|intros _; exact H1]. intros l0 _.
  apply wp_bind, wp_of_option; [|intros _; exact H1]. intros j Hj. apply wp_bind, wp_upd. set (s2 := set_pending _ _). assert (H2 : I s2) by exact H1.
  apply wp_bind. eapply wp_mono with (Q := fun _ => I) (E := I); [| |auto].
  - destruct b; (apply wp_bind, wp_get, wp_bind, wp_of_option; [|intros _; exact H2]); intros Y HY; apply wp_bind, wp_upd, wp_upd; exact H2.
  - intros [] s' Hs'. apply wp_bind, wp_upd, wp_bind, wp_upd. apply (update_graph_keeps _ _ _ _ _ (kept_grows 1 (fun _ => True) (fun _ _ => Logic.I) (s_log s1) (s_strand_timers s1))). exact Hs'.
Qed.
Lemma accept_now fuel s m e s' : sreach s -> phase_of (s_log s) m = OnEngine e -> step 1 scheme fuel s (EvResult m e ROk) = Some s' ->
  ObsReply m (FromEngine e true) ∈ s_log s'.
Proof.
  intros R P. assert (HI := I11_reachable scheme s R).
  assert (Hsub : submitted (s_log s) m) by (apply phase_submitted; [apply (life_cycle scheme), R|congruence]). destruct Hsub as [md Hmd].
  destruct (w_bud _ _ _ _ _ _ _ _ _ _ _ HI m md Hmd) as [_ HB]. destruct HB as [_ HB]; [discriminate|]. destruct (HB e P) as (r & Hr & _).
  apply (step_wp 1 scheme fuel s (EvResult m e ROk) s' (fun s' => ObsReply m (FromEngine e true) ∈ s_log s')). cbn [handle].
  unfold dispatch_result. apply wp_bind, wp_upd. set (s1 := set_log _ _). apply wp_bind, wp_get, wp_bind.
  apply wp_mono with (Q := fun _ s' => s_retries s' !! m = Some r) (E := fun _ => False); [| |intros ? []].
  { destruct (index_of _ _); [apply wp_upd|apply wp_ret]; exact Hr. }
  intros [] s2 H2. cbv zeta. apply wp_bind, wp_get, wp_bind, wp_of_option; [|congruence]. intros r' _. rewrite decide_False by (intros [? _]; discriminate).
  apply wp_bind, wp_upd. apply handle_result_replies.
Qed.
Lemma accepted_reachable s : sreach s -> accepted (s_log s).
Proof.
  induction 1 as [|s ev s' fuel R IH Hok St]; [intros m e X; inversion X|]. intros m e X.
  assert (Hx : ObsResult m e ROk ∈ s_log s \/ ev = EvResult m e ROk).
  { destruct ev as [m0 md|m0 e0 k|e0|e0|e0|j tid].
    - destruct (step_submit _ _ _ _ _ _ _ St) as (_ & u & E & Hu). rewrite E in X. apply elem_of_app in X as [X|X]; [auto|]. apply elem_of_cons in X as [X|X]; [discriminate|]. rewrite Forall_forall in Hu. destruct (Hu _ X).
    - destruct (step_result _ _ _ _ _ _ _ _ St) as (_ & u & E & Hu). rewrite E in X. apply elem_of_app in X as [X|X]; [auto|]. apply elem_of_cons in X as [X|X]; [injection X as -> -> <-; auto|].
      rewrite Forall_forall in Hu. destruct (Hu _ X) as [[]|[_ Y]]. discriminate.
    - destruct (step_register _ _ _ _ _ _ St) as (_ & u & E & Hu). rewrite E in X. apply elem_of_app in X as [X|X]; [auto|]. apply elem_of_cons in X as [X|X]; [discriminate|]. rewrite Forall_forall in Hu. destruct (Hu _ X).
    - destruct (step_unregister _ _ _ _ _ _ St) as (_ & E). rewrite E in X. apply elem_of_app in X as [X|X]; [auto|]. apply elem_of_list_singleton in X. discriminate.
    - destruct (decide (e0 ∈ s_strand_timers s)) as [Hin|Hin].
      + destruct (step_strand _ _ _ _ _ _ Hin St) as (_ & u & E & Hu). rewrite E in X. apply elem_of_app in X as [X|X]; [auto|]. rewrite Forall_forall in Hu. destruct (Hu _ X) as [[]|[[m1 Y]|[m1 Y]]]; discriminate.
      + left. revert X. revert St. apply (step_wp 1 scheme fuel s _ s' (fun s' => ObsResult m e ROk ∈ s_log s' -> ObsResult m e ROk ∈ s_log s)). cbn [handle]. apply wp_bind, wp_get. destruct (index_of e0 (s_strand_timers s)) eqn:Ei; [|apply wp_ret; auto].
        apply index_of_spec, elem_of_list_lookup_2 in Ei. contradiction.
    - destruct (step_job_timer _ _ _ _ _ _ _ St) as (_ & u & E & Hu). rewrite E in X. apply elem_of_app in X as [X|X]; [auto|]. rewrite Forall_forall in Hu. destruct (Hu _ X). }
  destruct Hx as [Hx| ->]; [|eapply accept_now; eauto].
  assert (Hmono : exists u, s_log s' = s_log s ++ u).
  { destruct ev as [m0 md|m0 e0 k|e0|e0|e0|j tid].
    - destruct (step_submit _ _ _ _ _ _ _ St) as (_ & u & E & Hu). eauto.
    - destruct (step_result _ _ _ _ _ _ _ _ St) as (_ & u & E & Hu). eauto.
    - destruct (step_register _ _ _ _ _ _ St) as (_ & u & E & Hu). eauto.
    - destruct (step_unregister _ _ _ _ _ _ St) as (_ & E). eauto.
    - destruct (decide (e0 ∈ s_strand_timers s)) as [Hin|Hin].
      + destruct (step_strand _ _ _ _ _ _ Hin St) as (_ & u & E & Hu). eauto.
      + revert St. apply (step_wp 1 scheme fuel s _ s' (fun s' => exists u, s_log s' = s_log s ++ u)). cbn [handle]. apply wp_bind, wp_get. destruct (index_of e0 (s_strand_timers s)) eqn:Ei; [|apply wp_ret; exists []; symmetry; apply app_nil_r].
        apply index_of_spec, elem_of_list_lookup_2 in Ei. contradiction.
    - destruct (step_job_timer _ _ _ _ _ _ _ St) as (_ & u & E & Hu). eauto. }
  destruct Hmono as [u ->]. apply elem_of_app. left. apply IH, Hx.
Qed.
End Accept.
