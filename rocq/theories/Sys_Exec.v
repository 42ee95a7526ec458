(** Executions: how often, where, and not after the result. *)
From stdpp Require Import base gmap sets list.
From Verif Require Import Dependency_Model Sched_Trace Sched_Spec Sched_Model Sched_Env Sched_Base Sched_Load Sched_Once Sched_Retry Sched_Strand Sched_Idle_Inv Sched_Blame.
From Verif Require Import Sys_Model Sys_Spec Sys_Log Sys_Trace Sys_Core Sys_Hist Sys_Client Sys_Result Sys_Facts.
From Verif Require Client_Model Client_Spec Client_Steps Client_Props Sched_Props.
From Coq Require Import ZArith Lia.

Lemma sent_back t m e1 : sound t -> ObsSend m e1 ∈ t -> phase_of t m <> OnEngine e1 -> exists k, ObsResult m e1 k ∈ t.
Proof.
  intros Hs X P. apply elem_of_list_split in X as (t1 & t2 & E). destruct (phase_of t1 m) eqn:P1.
  all: assert (Hs1 : sound (t1 ++ [ObsSend m e1])) by (rewrite E, (app_assoc t1 [_] t2 : t1 ++ _ :: t2 = _) in Hs; eapply sound_prefix, Hs).
  all: pose proof (Hs1 m) as H1; rewrite phase_snoc, P1 in H1; cbn [phase_step] in H1; rewrite decide_True in H1 by reflexivity; try congruence.
  assert (D : (exists k, ObsResult m e1 k ∈ t2) \/ forall k, ObsResult m e1 k ∉ t2).
  { destruct (decide ((m, e1) ∈ answers t2)) as [Y|Y]; rewrite answers_elem in Y; [left; exact Y|]. right. intros k Z. apply Y. eauto. }
  destruct D as [[k D]|D]; [exists k; rewrite E; apply elem_of_app; right; right; exact D|]. exfalso.
  pose proof (Hs m) as Hb. rewrite E, (app_assoc t1 [_] t2 : t1 ++ _ :: t2 = _), phase_app, phase_snoc, P1 in P, Hb. cbn [phase_step] in P, Hb. rewrite decide_True in P, Hb by reflexivity.
  destruct (on_engine_stays t2 m e1 D) as [Z|Z]; rewrite Z in P, Hb; congruence.
Qed.

Section Exec.
Context (scheme : nat -> list Z -> nat) (allowed : sys -> nat -> taskmd -> Prop).
Notation reach := (reachable scheme allowed).
Definition steps (s s' : sys) : Prop := external scheme allowed s s' \/ internal scheme s s'.
Lemma steps_reach s s' : reach s -> steps s s' -> reach s'.
Proof. intros R [H|H]; [eapply r_ext|eapply r_int]; eauto. Qed.

(** What only grows *)
Lemma grow s s' : steps s s' -> (exists u, events s' = events s ++ u) /\ next_id s <= next_id s' /\ (forall x, x ∈ ended s -> x ∈ ended s') /\ (forall x, x ∈ dead s -> x ∈ dead s').
Proof.
  assert (N : forall l : list (nat * Client_Model.event), exists u, l = l ++ u) by (intros l; exists []; symmetry; apply app_nil_r).
  intros [H|H]; destruct H; unfold after_sched, set_to_sched, set_outbox, set_hub_s, forget, tell, set_replies, set_hub_c; cbn [events next_id ended dead];
    (split; [first [apply N|eexists; reflexivity]|]); (split; [lia|]); (split; intros x Hx; first [exact Hx|right; exact Hx|apply elem_of_app; left; exact Hx]).
Qed.

Section Final.
Context (enum : gset Client_Model.mid -> list Client_Model.mid) (Henum : Client_Steps.enumerates enum).
Lemma result_stays s s' m r : reach s -> steps s s' -> has_result enum s m r -> has_result enum s' m r.
Proof.
  intros R St H. pose proof (steps_reach _ _ R St) as R'. destruct (grow s s' St) as ([u E] & Hn & _).
  apply (result_received scheme allowed enum Henum) in H as (x & [c X] & Y); [|assumption..].
  apply (result_received scheme allowed enum Henum); [assumption|]. exists x. split; [|exact Y]. exists c. unfold events_of. rewrite E, for_client_app. unfold received. rewrite omap_app. apply elem_of_app. left. exact X.
Qed.
(** A task with a result is nowhere. *)
Lemma done_replied s m r : reach s -> has_result enum s m r -> phase_of (log s) m = Replied.
Proof.
  intros R H. apply (result_received scheme allowed enum Henum) in H as (x & X & Y); [|assumption..].
  destruct (received_reply scheme allowed s m x R X) as (_ & _ & r' & Z). eapply reply_replied; [apply (log_sound scheme allowed s R)|exact Z].
Qed.
Lemma done_nowhere s m r e : reach s -> has_result enum s m r -> (e, m) ∉ loc s.
Proof.
  intros R H X. pose proof (done_replied s m r R H) as P. apply (proj2 (c_placed _ _ (core_reachable scheme allowed s R))) in X. congruence.
Qed.
End Final.

Lemma one_place s m e1 e2 : reach s -> (e1, m) ∈ loc s -> (e2, m) ∈ loc s -> e1 = e2.
Proof.
  intros R A B. apply (proj2 (c_placed _ _ (core_reachable scheme allowed s R))) in A, B. congruence.
Qed.

(** While a task is with an engine, those it was sent to before have failed. *)
Lemma earlier_failed s m e1 e2 : reach s -> phase_of (log s) m = OnEngine e2 -> ObsSend m e1 ∈ log s -> e1 <> e2 ->
  (exists o, (m, e1, o) ∈ ended s /\ forall v, o <> Returned v) \/ e1 ∈ dead s.
Proof.
  intros R P X Hne. pose proof (log_sound scheme allowed s R) as Hs. pose proof (core_reachable scheme allowed s R) as C.
  assert (Hr : exists k, ObsResult m e1 k ∈ log s).
  { apply sent_back; [exact Hs|exact X|congruence]. }
  destruct Hr as [k Hr]. assert (Hk : k <> ROk).
  { intros ->. apply (accepted_reachable scheme _ (c_sched _ _ C)) in Hr. rewrite (reply_replied _ _ (FromEngine e1 true)) in P; [discriminate|apply Hs|exact Hr]. }
  destruct (given_back scheme allowed s m e1 k R Hr) as [(o & -> & B)|(_ & B)]; [left|right; exact B]. exists o. split; [exact B|]. intros v ->. apply Hk. reflexivity.
Qed.

(** A task begins again only when that is so. *)
Lemma begin_again s l1 m e1 e2 l2 : reach s -> begun s = l1 ++ (m, e2) :: l2 -> (m, e1) ∈ l1 ->
  e1 <> e2 /\ ((exists o, (m, e1, o) ∈ ended s /\ forall v, o <> Returned v) \/ e1 ∈ dead s).
Proof.
  intros R. revert l1 l2. 
  assert (Mono : forall s s', steps s s' -> (exists o, (m, e1, o) ∈ ended s /\ forall v, o <> Returned v) \/ e1 ∈ dead s -> (exists o, (m, e1, o) ∈ ended s' /\ forall v, o <> Returned v) \/ e1 ∈ dead s').
  { intros a b St. destruct (grow a b St) as (_ & _ & G1 & G2). intros [(o & A & B)|A]; [left; exists o; auto|right; auto]. }
  induction R as [|s s' R IH St|s s' R IH St]; intros l1 l2.
  - intros E. destruct l1; discriminate.
  - assert (E' : begun s' = begun s) by (destruct St; reflexivity). rewrite E'. intros E X. destruct (IH l1 l2 E X) as [A B]. split; [exact A|]. eapply Mono; [left; exact St|exact B].
  - assert (D : begun s' = begun s \/ exists e m l1 l2, e ∈ connected s /\ inbox s = l1 ++ (e, m) :: l2 /\ begun s' = begun s ++ [(m, e)]) by (destruct St; eauto 10).
    destruct D as [E'|(e & m' & k1 & k2 & He & Hib & E')]; rewrite E'; intros E X.
    + destruct (IH l1 l2 E X) as [A B]. split; [exact A|]. eapply Mono; [right; exact St|exact B].
    + destruct (decide (l2 = [])) as [->|Hl2].
      * apply app_inj_tail in E as [E Ex]. injection Ex as -> ->. pose proof (hist_reachable scheme allowed s R) as Y. pose proof (core_reachable scheme allowed s R) as C.
        assert (Hin : (e2, m) ∈ inbox s) by (rewrite Hib; apply elem_of_app; right; left). rewrite <- E in X.
        assert (Hne : e1 <> e2) by (intros ->; apply (y_inbox _ _ _ _ _ _ _ Y m e2 Hin), X). split; [exact Hne|].
        eapply Mono; [right; exact St|]. apply (earlier_failed s m e1 e2 R); [|apply (y_sent _ _ _ _ _ _ _ Y), X|exact Hne].
        apply (proj2 (c_placed _ _ C)). unfold loc. apply elem_of_app. auto.
      * destruct (exists_last Hl2) as (l2' & z & ->). rewrite app_comm_cons, app_assoc in E. apply app_inj_tail in E as [E _].
        destruct (IH l1 l2' E X) as [A B]. split; [exact A|]. eapply Mono; [right; exact St|exact B].
Qed.

(** How often a task begins *)
Lemma begun_bound s m md : reach s -> asked s m md -> times_begun s m <= S (t_retries md + times_refused s m).
Proof.
  intros R Ha. pose proof (hist_reachable scheme allowed s R) as Y. pose proof (core_reachable scheme allowed s R) as C. pose proof (log_sound scheme allowed s R) as Hs.
  pose proof (never_back scheme _ (c_sched _ _ C) : no_repeat (log s)) as Hn.
  assert (H1 : times_begun s m <= sends (log s) m).
  { unfold times_begun. replace (sends (log s) m) with (length (filter (fun x : nat * nat => snd x = m) (to_engines (log s)))).
    - rewrite <- (fmap_length (fun x : nat * nat => (snd x, fst x)) (filter (fun x => snd x = m) (to_engines (log s)))). apply submseteq_length, NoDup_submseteq.
      + apply NoDup_filter, (y_begun _ _ _ _ _ _ _ Y).
      + intros [a b] X. apply elem_of_list_filter in X as [X1 X2]. cbn in X1. subst a. apply elem_of_list_fmap. exists (b, m). split; [reflexivity|].
        apply elem_of_list_filter. split; [reflexivity|]. apply to_engines_elem, (y_sent _ _ _ _ _ _ _ Y), X2.
    - clear. unfold sends. induction (log s) as [|o t IH]; [reflexivity|]. destruct o as [| | |m' e'| |]; try exact IH.
      change (to_engines (ObsSend m' e' :: t)) with ((e', m') :: to_engines t). cbn [List.filter is_send].
      destruct (decide (m' = m)) as [->|N]; [rewrite filter_cons_True by reflexivity; rewrite bool_decide_eq_true_2 by reflexivity; cbn [length]; f_equal; exact IH|].
      rewrite filter_cons_False by exact N. rewrite bool_decide_eq_false_2 by congruence. exact IH. }
  assert (H2 : refusals (log s) m <= times_refused s m).
  { pose (rf := fun t : list obs => omap (fun o => match o with ObsResult m' e RUnmet => if decide (m = m') then Some (m, e, Refused) else None | _ => None end) t).
    assert (L : length (rf (log s)) = refusals (log s) m).
    { clear. unfold rf, refusals. induction (log s) as [|o t IH]; [reflexivity|]. destruct o as [| | | |m' e' []|]; cbn; rewrite ?andb_false_r; try exact IH.
      destruct (decide (m = m')) as [->|N]; [rewrite bool_decide_eq_true_2 by reflexivity; cbn; rewrite IH; reflexivity|rewrite bool_decide_eq_false_2 by exact N; exact IH]. }
    rewrite <- L. unfold times_refused. apply submseteq_length, NoDup_submseteq.
    - pose proof (answers_nodup (log s) Hs Hn) as N. revert N. generalize (log s). clear. intros t. unfold rf. induction t as [|o t IH]; [constructor|]. intros N.
      assert (N' : NoDup (answers t)) by (destruct o; cbn in N; try exact N; apply NoDup_cons in N; apply N). specialize (IH N').
      destruct o as [| | | |m' e' []|]; cbn; try exact IH. destruct (decide (m = m')) as [->|]; [|exact IH].
      constructor; [|exact IH]. cbn in N. apply NoDup_cons in N as [N _]. intros X. apply N. apply answers_elem. apply elem_of_list_omap in X as ([| | | |a b []|] & X & Z); try discriminate.
      destruct (decide (m' = a)) as [->|]; [|discriminate]. injection Z as ->. eauto.
    - intros [[a b] o] X. unfold rf in X. apply elem_of_list_omap in X as ([| | | |a' b' []|] & X & Z); try discriminate. destruct (decide (m = a')) as [<-|]; [|discriminate]. injection Z as <- <- <-.
      apply elem_of_list_In, List.filter_In. split; [|apply bool_decide_eq_true_2; reflexivity]. apply elem_of_list_In.
      destruct (given_back scheme allowed s m b' RUnmet R X) as [(o & A & B)|(A & _)]; [|discriminate]. destruct o; try discriminate. exact B. }
  assert (Hd : times_begun s m = 0 \/ exists md', ObsSubmit m md' ∈ log s).
  { destruct (times_begun s m) eqn:E; [auto|]. right. assert (Z : exists e, ObsSend m e ∈ log s).
    { unfold times_begun in E. destruct (filter _ (begun s)) as [|[a b] l] eqn:F; [discriminate|]. assert (Z : (a, b) ∈ filter (fun x => fst x = m) (begun s)) by (rewrite F; left).
      apply elem_of_list_filter in Z as [Z1 Z2]. cbn in Z1. subst a. exists b. apply (y_sent _ _ _ _ _ _ _ Y), Z2. }
    destruct Z as [e Z]. apply elem_of_list_split in Z as (t1 & t2 & Z). rewrite Z in Hs. rewrite (app_assoc t1 [_] t2 : t1 ++ _ :: t2 = _) in Hs. apply sound_prefix in Hs.
    destruct (phase_submitted t1 m) as [md' W]; [eapply sound_prefix, Hs| |exists md'; rewrite Z; apply elem_of_app; auto].
    intros P. apply (Hs m). rewrite phase_snoc, P. cbn [phase_step]. rewrite decide_True by reflexivity. reflexivity. }
  destruct Hd as [-> |[md' Hsub]]; [lia|]. assert (md' = md) as ->.
  { destruct Ha as [Ha|Ha]; [|eapply submit_unique; [apply Hs|exact Hsub|exact Ha]]. exfalso. pose proof (ids_nodup scheme s C) as N. apply NoDup_app in N as (_ & N & _).
    apply (N m); [apply submits_elem; eexists; exact Hsub|]. apply elem_of_list_fmap. exists (m, md). auto. }
  pose proof (sends_bounded scheme _ m md (c_sched _ _ C) Hsub) as B. fold (log s) in B. lia.
Qed.
End Exec.
