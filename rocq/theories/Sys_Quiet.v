(** Ordinary tasks: who waits when nothing moves, and why. *)
From stdpp Require Import base gmap sets list relations.
From Verif Require Import Dependency_Model Dependency_Spec Sched_Trace Sched_Spec Sched_Model Sched_Env Sched_Base Sched_Load Sched_Once Sched_Retry Sched_Strand Sched_Idle_Spec Sched_Idle_Inv Sched_Idle_Top Sched_Term.
From Verif Require Import Sys_Model Sys_Spec Sys_Log Sys_Trace Sys_Core Sys_Hist Sys_Client Sys_Result Sys_Facts Sys_Exec Sys_Measure Sys_Live.
From Verif Require Client_Model Client_Spec Client_Steps Sched_Idle_Props.
From Coq Require Import ZArith Lia.

Section Quiet.
Context (scheme : nat -> list Z -> nat) (allowed : sys -> nat -> taskmd -> Prop) (Hallowed : forall s c md, allowed s c md -> ordinary_task s c md).
Notation reach := (reachable scheme allowed).
Notation oreach := (Sched_Base.reachable 1 scheme ordinary).

(** ** The scheduler sees ordinary submissions only. *)
Definition fine (s : sys) (m : nat) (md : taskmd) : Prop :=
  ordinary_dep (t_after md) /\ ordinary_dep (t_follow md) /\
  (forall x, x ∈ dep_tasks (t_after md) \/ x ∈ dep_tasks (t_follow md) -> x < m /\ (client_of s x = client_of s m \/ submitted (log s) x)) /\
  (forall e, e ∈ t_targets md -> ObsRegister e ∈ log s).
Record usual (s : sys) : Prop := Usual {
  q_sched : oreach (sch s);
  q_fine : forall m md, asked s m md -> fine s m md }.

Lemma fine_mono s s' u m md : (forall x, x <= m -> client_of s' x = client_of s x) -> log s' = log s ++ u -> fine s m md -> fine s' m md.
Proof.
  intros Hc E (A & B & D & F). split; [exact A|]. split; [exact B|].
  assert (Hs : forall x, submitted (log s) x -> submitted (log s') x) by (intros x [md' X]; exists md'; rewrite E; apply elem_of_app; auto). split.
  - intros x Hx. destruct (D x Hx) as [X [Y|Y]]; (split; [exact X|]); [left; rewrite !Hc by lia; exact Y|right; auto].
  - intros e He. rewrite E. apply elem_of_app. auto.
Qed.
Lemma earlier_submitted s m md l1 l2 x : core scheme s -> to_sched s = l1 ++ (m, md) :: l2 -> (forall m' md', (m', md') ∈ l1 -> client_of s m' <> client_of s m) ->
  x < m -> client_of s x = client_of s m -> submitted (log s) x.
Proof.
  intros C E Hfst Hx Hc. assert (Hlt : m < next_id s) by (apply (ids_lt scheme s m C); rewrite E, fmap_app, !elem_of_app; right; right; left).
  destruct (proj1 (ids_client scheme s m C) Hlt) as [c Hcm]. pose proof (c_order _ _ C c) as I. rewrite E, fmap_app, app_assoc, filter_app in I. cbn [fmap list_fmap fst] in I. rewrite filter_cons_True in I by exact Hcm.
  assert (Ef : filter (mine s c) (seq 0 (next_id s)) = filter (mine s c) (seq 0 m) ++ m :: filter (mine s c) (seq (S m) (next_id s - S m))).
  { replace (next_id s) with (m + S (next_id s - S m)) at 1 by lia. rewrite seq_app, filter_app. cbn [seq Nat.add]. rewrite filter_cons_True by exact Hcm. reflexivity. }
  assert (N : NoDup (filter (mine s c) (seq 0 (next_id s)))) by (apply NoDup_filter, NoDup_ListNoDup, seq_NoDup). rewrite Ef in I, N.
  pose proof (split_unique m _ _ _ _ N (eq_sym I)) as S.
  assert (X : x ∈ filter (mine s c) (seq 0 m)) by (apply elem_of_list_filter; split; [rewrite Hc; exact Hcm|apply elem_of_seq; lia]).
  rewrite S in X. apply elem_of_list_filter in X as [_ X]. apply elem_of_app in X as [X|X]; [apply submits_elem, X|]. exfalso.
  apply elem_of_list_fmap in X as ([x' md'] & Ex & X). cbn in Ex. subst x'. exact (Hfst x md' X Hc).
Qed.
Lemma usual_sched s s' u ev : usual s -> ordinary (log s) ev -> sched_step scheme (sch s) ev (sch s') -> s_log (sch s') = log s ++ u -> owners s' = owners s ->
  (forall m md, asked s' m md -> asked s m md) -> usual s'.
Proof.
  intros [A B] O [f St] E Eo Ha. split; [econstructor; eauto|]. intros m md X. eapply (fine_mono s s' u); [|exact E|apply B, Ha, X]. intros x _. unfold client_of. rewrite Eo. reflexivity.
Qed.
Lemma own_asked (u : list obs) m md : Forall own u -> ObsSubmit m md ∉ u.
Proof. intros Hu X. exact (proj1 (Forall_forall _ _) Hu _ X). Qed.

Lemma usual_ext s s' : core scheme s -> usual s -> external scheme allowed s s' -> usual s'.
Proof.
  intros C U St. destruct St as [s c md Hj Ha|s c Hj|s e He|s e He Hd|s e m o l1 l2 He E Hlast|s j tid sc St]; try (destruct U as [U1 U2]; split; [exact U1|exact U2]).
  - destruct U as [U1 U2]. split; [exact U1|]. set (s' := Sys _ _ _ _ _ _ _ _ _ _ _ _ _ _ _ _ _ _).
    assert (Hold : forall x, x < next_id s -> client_of s' x = client_of s x) by (intros x Hx; apply lookup_app_l; rewrite (c_owners _ _ C); exact Hx).
    assert (Hask : forall m md', asked s m md' -> m < next_id s).
    { intros m md' X. apply (ids_lt scheme s m C), elem_of_app. destruct X as [X|X]; [right; apply elem_of_list_fmap; exists (m, md'); auto|left; apply submits_elem; exists md'; exact X]. }
    assert (Hok : forall m md', asked s m md' -> fine s' m md').
    { intros m md' X. eapply (fine_mono s s' []); [|symmetry; apply app_nil_r|apply U2, X]. intros x Hx. apply Hold. specialize (Hask m md' X). lia. }
    intros m md' [X|X]; [|apply Hok; right; exact X].
    cbn [to_sched s'] in X. apply elem_of_app in X as [X|X]; [apply Hok; left; exact X|]. apply elem_of_list_singleton in X. injection X as -> ->.
    destruct (Hallowed _ _ _ Ha) as (A & B & D & F). split; [exact A|]. split; [exact B|]. split; [|exact F]. intros x Hx.
    assert (Hlt : x < next_id s).
    { destruct (D x Hx) as [Y|[md' Y]]; [apply (ids_client scheme s x C); eauto|]. apply (Hask x md'). right. exact Y. }
    split; [exact Hlt|]. destruct (D x Hx) as [Y|Y]; [left|right; exact Y]. rewrite Hold, Y by exact Hlt. symmetry. unfold client_of, s'. cbn [owners]. rewrite <- (c_owners _ _ C). apply list_lookup_middle. reflexivity.
  - destruct (timeout_log scheme s j tid sc C St) as (_ & _ & u & El & Es & Hu). eapply (usual_sched s _ u); [exact U| |exact St|exact El|reflexivity|].
    + split; [exact I|exact I].
    + intros m md [X|X]; [left; exact X|]. right. cbn [sch after_sched] in X. rewrite El in X. apply elem_of_app in X as [X|X]; [exact X|]. exfalso. exact (own_asked _ _ _ Hu X).
Qed.
Lemma usual_int s s' : core scheme s -> usual s -> internal scheme s s' -> usual s'.
Proof.
  intros C U St. destruct St as [s m md l1 l2 sc E Hfst St|s e m o l1 l2 sc E Hfst St|s a l sc E St|s e sc Hin Hno St|s e m l1 l2 He Hd E Hfst Hb|s e m l1 l2 He Hd E Hfst Hb|s e m o l1 l2 E Ho|s e He Hn|s c m r l1 l2 us Hc E Hfst|s c a l1 l2 E Hfst];
    try (destruct U as [U1 U2]; split; [exact U1|exact U2]).
  - destruct (submit_log scheme s m md l1 l2 sc C E St) as (_ & _ & u & El & Es & Hu). eapply (usual_sched s _ (ObsSubmit m md :: u)); [exact U| |exact St|exact El|reflexivity|].
    + split; [exact (gen_submit scheme s m md l1 l2 C E)|]. destruct (q_fine _ U m md) as (A & B & D & F); [left; rewrite E; apply elem_of_app; right; left|]. repeat (split; [assumption|]). split; [|exact F].
      intros x Hx. destruct (D x Hx) as [Y [W|W]]; [eapply earlier_submitted; eauto|exact W].
    + intros m' md' [X|X]; [left; cbn [to_sched set_to_sched after_sched] in X; rewrite E; apply elem_of_app in X as [X|X]; apply elem_of_app; [left; exact X|right; right; exact X]|]. cbn [sch set_to_sched after_sched] in X. rewrite El in X.
      apply elem_of_app in X as [X|X]; [right; exact X|]. apply elem_of_cons in X as [X|X]; [injection X as -> ->; left; rewrite E; apply elem_of_app; right; left|]. exfalso. exact (own_asked _ _ _ Hu X).
  - destruct (result_log scheme s e m o l1 l2 sc C E St) as (_ & _ & u & El & Es & Hu). eapply (usual_sched s _ (ObsResult m e (kind_of o) :: u)); [exact U| |exact St|exact El|reflexivity|].
    + split; [|exact I]. exact (gen_result scheme s e m o l1 l2 C E).
    + intros m' md' [X|X]; [left; exact X|]. right. cbn [sch set_outbox after_sched] in X. rewrite El in X. apply elem_of_app in X as [X|X]; [exact X|]. exfalso.
      apply elem_of_cons in X as [X|X]; [discriminate|]. destruct (proj1 (Forall_forall _ _) Hu _ X) as [Y|[_ Y]]; [destruct Y|discriminate].
  - destruct a as [[] e]; cbn [announcement fst snd] in St.
    + destruct (register_log scheme s e l sc C E St) as (_ & _ & u & El & Es & Hu). eapply (usual_sched s _ (ObsRegister e :: u)); [exact U| |exact St|exact El|reflexivity|].
      * split; [exact (gen_register scheme s e l C E)|exact I].
      * intros m' md' [X|X]; [left; exact X|]. right. cbn [sch set_hub_s after_sched] in X. rewrite El in X. apply elem_of_app in X as [X|X]; [exact X|]. exfalso.
        apply elem_of_cons in X as [X|X]; [discriminate|]. exact (own_asked _ _ _ Hu X).
    + destruct (unregister_log scheme s e sc C St) as (_ & _ & El & Es). eapply (usual_sched s _ [ObsUnregister e]); [exact U| |exact St|exact El|reflexivity|].
      * split; [exact I|exact I].
      * intros m' md' [X|X]; [left; exact X|]. right. cbn [sch set_hub_s after_sched] in X. rewrite El in X. apply elem_of_app in X as [X|X]; [exact X|]. exfalso.
        apply elem_of_list_singleton in X. discriminate.
  - destruct (strand_log scheme s e sc C Hin St) as (_ & _ & (u & El & Es & Hu & _) & _). eapply (usual_sched s _ u); [exact U| |exact St|exact El|reflexivity|].
    + split; [exact I|exact I].
    + intros m' md' [X|X]; [left; exact X|]. right. cbn [sch forget after_sched] in X. rewrite El in X. apply elem_of_app in X as [X|X]; [exact X|]. exfalso.
      destruct (proj1 (Forall_forall _ _) Hu _ X) as [Y|[[m1 Y]|[m1 Y]]]; [destruct Y|discriminate..].
Qed.
Lemma usual_reachable s : reach s -> usual s.
Proof.
  induction 1 as [|s s' R IH St|s s' R IH St].
  - split; [constructor|]. intros m md [X|X]; inversion X.
  - eapply usual_ext; eauto using core_reachable.
  - eapply usual_int; eauto using core_reachable.
Qed.

(** ** Who waits *)
Context (Hscheme : Sched_Idle_Props.picks_offered scheme).
Context (enum : gset Client_Model.mid -> list Client_Model.mid) (Henum : Client_Steps.enumerates enum).

Lemma waits_blocked s m e : reach s -> settled s -> m < next_id s -> phase_of (log s) m = Waiting -> live s e -> blocked enum s m e.
Proof.
  intros R Z Hm P [He Hd]. pose proof (usual_reachable s R) as U. pose proof (live_registered scheme allowed s e R Z He Hd) as Hr.
  pose proof (unloaded scheme allowed s e R Z Hr) as H0. destruct (all_submitted scheme allowed s m R Z Hm) as [md Hmd].
  pose proof (Sched_Idle_Props.C53_no_idle_engine scheme (sch s) m e Hscheme (q_sched _ U) P Hr H0) as Hno.
  destruct (q_fine _ U m md (or_intror Hmd)) as ((A1 & A2 & A3) & (B1 & B2 & B3) & Hlt & Htg). exists md. split; [right; exact Hmd|].
  destruct (decide (Forall (fun x => x ∈ told_ok (log s)) (dep_tasks (t_after md)))) as [Fa|Fa].
  2:{ left. apply not_Forall_Exists in Fa; [|apply _]. apply Exists_exists in Fa as (x & X & Y). exists x. split; [exact X|]. intros W. apply Y.
      apply (succeeded_ok scheme allowed enum Henum s x R Z). exact W. }
  destruct (decide (t_targets md = [] \/ e ∈ t_targets md)) as [T|T].
  2:{ right. left. split; intros X; apply T; auto. }
  destruct (decide (Forall (fun x => x ∈ told_on e true (log s)) (dep_tasks (t_follow md)))) as [Ff|Ff].
  2:{ right. right. left. apply not_Forall_Exists in Ff; [|apply _]. apply Exists_exists in Ff as (x & X & Y). exists x. split; [exact X|]. intros [W1 W2]. apply Y. apply told_on_elem.
      assert (Hok : x ∈ told_ok (log s)) by (apply (succeeded_ok scheme allowed enum Henum s x R Z); auto). apply told_ok_elem in Hok as [e' Hok].
      destruct W1 as [v Hv].
      assert (HR : forall r, has_result enum s x r -> r = Client_Model.Value v).
      { intros r Hres. unfold has_result in *. congruence. }
      destruct W2 as (r0 & V0 & W2). apply HR in V0. subst r0.
      destruct W2 as [(v' & V1 & V2)|[(z & V1 & _)|[[V1 _]|V1]]]; try discriminate.
      destruct (sent_back (log s) x e) as [k Hk]; [apply (log_sound scheme allowed s R)|apply (y_sent' _ _ _ _ _ _ _ (hist_reachable scheme allowed s R) _ _ _ V2)| |].
      { rewrite (reply_replied _ _ (FromEngine e' true)); [discriminate|apply (log_sound scheme allowed s R)|exact Hok]. }
      destruct (given_back scheme allowed s x e k R Hk) as [(o & K1 & K2)|(_ & K)]; [|contradiction].
      assert (o = Returned v') as ->.
      { pose proof (y_ended _ _ _ _ _ _ _ (hist_reachable scheme allowed s R)) as N. clear - N V2 K2. induction (ended s) as [|[[a b] c] t IH]; [inversion V2|]. cbn [fmap list_fmap fst] in N. apply NoDup_cons in N as [N1 N2].
        apply elem_of_cons in V2 as [V2|V2]; apply elem_of_cons in K2 as [K2|K2]; [congruence| | |auto]; exfalso; apply N1; apply elem_of_list_fmap.
        - injection V2 as -> -> <-. exists (a, b, o). auto.
        - injection K2 as -> -> <-. exists (a, b, Returned v'). auto. }
      cbn in K1. subst k. apply (accepted_reachable scheme _ (c_sched _ _ (core_reachable scheme allowed s R))), Hk. }
  right. right. right. destruct (decide ((m, e) ∈ answers (log s))) as [K|K]; rewrite answers_elem in K.
  - destruct K as [k K]. destruct (given_back scheme allowed s m e k R K) as [(o & -> & B)|(_ & B)]; [|contradiction]. exists o. split; [exact B|]. intros v ->.
    apply (accepted_reachable scheme _ (c_sched _ _ (core_reachable scheme allowed s R))) in K. rewrite (reply_replied _ _ (FromEngine e true)) in P; [discriminate|apply (log_sound scheme allowed s R)|exact K].
  - exfalso. apply Hno. split; [|intros k X; apply K; eauto]. exists md. split; [exact Hmd|]. split.
    + pose proof (c_hub _ _ (core_reachable scheme allowed s R)) as Q. apply (registered_ann _ _ _ _ e Q) in Hr as [Hr _]. apply ann_reg, Hr.
    + unfold dict_met, met, dep_tasks in *. rewrite A1, A2, A3, B1, B2, B3. split; [|split; [exact T|]].
      * intros x Hx. apply elem_of_list_to_set in Hx. left. split; [reflexivity|]. exact (proj1 (Forall_forall _ _) Fa x Hx).
      * intros x Hx. apply elem_of_list_to_set in Hx. left. split; [reflexivity|]. exact (proj1 (Forall_forall _ _) Ff x Hx).
Qed.
Lemma quiet_tasks s m : reach s -> settled s -> m < next_id s -> (exists r, has_result enum s m r) \/ forall e, live s e -> blocked enum s m e.
Proof.
  intros R Z Hm. destruct (done_or_waiting scheme allowed enum Henum s m R Z Hm) as [X|X]; [left; exact X|]. right. intros e He. apply waits_blocked; assumption.
Qed.
End Quiet.
