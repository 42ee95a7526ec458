(** Coming to rest, and what is left then. *)
From stdpp Require Import base gmap sets list relations.
From Verif Require Import Dependency_Model Dependency_Spec Sched_Trace Sched_Spec Sched_Model Sched_Env Sched_Base Sched_Idle_Spec.
From Verif Require Import Sys_Model Sys_Spec Sys_Log Sys_Trace Sys_Core Sys_Hist Sys_Client Sys_Result Sys_Facts Sys_Exec Sys_Measure Sys_Live Sys_Quiet.
From Verif Require Client_Model Client_Spec Client_Steps Sched_Idle_Props.
From Coq Require Import ZArith Lia.

Section Rest.
Context (scheme : nat -> list Z -> nat) (allowed : sys -> nat -> taskmd -> Prop).
Notation reach := (reachable scheme allowed).

Lemma at_rest s : reach s -> (forall s', ~ internal scheme s s') -> settled s.
Proof. intros R H. destruct (progress scheme allowed s R) as [[s' St]|Z]; [destruct (H s' St)|exact Z]. Qed.
Lemma takes_at_most k : forall s s', reach s -> nsteps (internal scheme) k s s' -> k + mu s' <= mu s /\ reach s'.
Proof.
  induction k as [|k IH]; intros s s' R H; inversion H as [|? ? s1 ? St H1]; subst; [split; [lia|exact R]|].
  assert (R1 : reach s1) by (eapply r_int; eauto). destruct (IH s1 s' R1 H1) as [A B]. pose proof (decreases scheme allowed s s1 R St). split; [lia|exact B].
Qed.
Lemma can_rest s : reach s -> exists s', rtc (internal scheme) s s' /\ settled s'.
Proof.
  remember (mu s) as n eqn:E. revert s E. induction (lt_wf n) as [n _ IH]. intros s -> R.
  destruct (progress scheme allowed s R) as [[s1 St]|Z]; [|exists s; split; [constructor|exact Z]].
  destruct (IH (mu s1) (decreases scheme allowed s s1 R St) s1 eq_refl ltac:(eapply r_int; eauto)) as (s' & A & B). exists s'. split; [|exact B]. eapply rtc_l; eauto.
Qed.

(** Everything asked for was allowed. *)
Lemma asked_back s s' m md : core scheme s -> steps scheme allowed s s' -> asked s' m md -> asked s m md \/ exists c, allowed s c md.
Proof.
  intros C [St|St].
  - destruct St as [s c md' Hj Ha|s c Hj|s e He|s e He Hd|s e m' o l1 l2 He E Hlast|s j tid sc St]; intros X; try (left; exact X).
    + destruct X as [X|X]; [|left; right; exact X]. cbn [to_sched] in X. apply elem_of_app in X as [X|X]; [left; left; exact X|]. apply elem_of_list_singleton in X. injection X as -> ->. right. exists c. exact Ha.
    + left. destruct (timeout_log scheme s j tid sc C St) as (_ & _ & u & El & Es & Hu). destruct X as [X|X]; [left; exact X|]. right. cbn [sch after_sched] in X. rewrite El in X.
      apply elem_of_app in X as [X|X]; [exact X|]. exfalso. exact (own_asked _ _ _ Hu X).
  - destruct St as [s m' md' l1 l2 sc E Hfst St|s e m' o l1 l2 sc E Hfst St|s a l sc E St|s e sc Hin Hno St|s e m' l1 l2 He Hd E Hfst Hb|s e m' l1 l2 He Hd E Hfst Hb|s e m' o l1 l2 E Ho|s e He Hn|s c m' r l1 l2 us Hc E Hfst|s c a l1 l2 E Hfst];
      intros X; left; try exact X.
    + destruct (submit_log scheme s m' md' l1 l2 sc C E St) as (_ & _ & u & El & Es & Hu).
      destruct X as [X|X]; [left; cbn [to_sched set_to_sched after_sched] in X; rewrite E; apply elem_of_app in X as [X|X]; apply elem_of_app; [left; exact X|right; right; exact X]|]. cbn [sch set_to_sched after_sched] in X. rewrite El in X.
      apply elem_of_app in X as [X|X]; [right; exact X|]. apply elem_of_cons in X as [X|X]; [injection X as -> ->; left; rewrite E; apply elem_of_app; right; left|]. exfalso. exact (own_asked _ _ _ Hu X).
    + destruct (result_log scheme s e m' o l1 l2 sc C E St) as (_ & _ & u & El & Es & Hu).
      destruct X as [X|X]; [left; exact X|]. right. cbn [sch set_outbox after_sched] in X. rewrite El in X. apply elem_of_app in X as [X|X]; [exact X|]. exfalso.
      apply elem_of_cons in X as [X|X]; [discriminate|]. destruct (proj1 (Forall_forall _ _) Hu _ X) as [Y|[_ Y]]; [destruct Y|discriminate].
    + destruct X as [X|X]; [left; exact X|]. right. cbn [sch set_hub_s after_sched] in X. destruct a as [[] e]; cbn [announcement fst snd] in St.
      * destruct (register_log scheme s e l sc C E St) as (_ & _ & u & El & Es & Hu). rewrite El in X. apply elem_of_app in X as [X|X]; [exact X|]. exfalso.
        apply elem_of_cons in X as [X|X]; [discriminate|]. exact (own_asked _ _ _ Hu X).
      * destruct (unregister_log scheme s e sc C St) as (_ & _ & El & Es). rewrite El in X. apply elem_of_app in X as [X|X]; [exact X|]. exfalso.
        apply elem_of_list_singleton in X. discriminate.
    + destruct (strand_log scheme s e sc C Hin St) as (_ & _ & (u & El & Es & Hu & _) & _).
      destruct X as [X|X]; [left; exact X|]. right. cbn [sch forget after_sched] in X. rewrite El in X. apply elem_of_app in X as [X|X]; [exact X|]. exfalso.
      destruct (proj1 (Forall_forall _ _) Hu _ X) as [Y|[[m1 Y]|[m1 Y]]]; [destruct Y|discriminate..].
Qed.
Lemma asked_allowed s m md : reach s -> asked s m md -> exists s0 c, reach s0 /\ allowed s0 c md.
Proof.
  induction 1 as [|s s' R IH St|s s' R IH St]; [intros [X|X]; inversion X| |]; intros X;
    (destruct (asked_back s s' m md (core_reachable scheme allowed s R) ltac:((left; exact St) || (right; exact St)) X) as [Y|[c Y]]; [exact (IH Y)|eauto]).
Qed.
Lemma asked_fun s m md md' : reach s -> asked s m md -> asked s m md' -> md = md'.
Proof.
  intros R. set (subs := fun t : list obs => omap (fun o => match o with ObsSubmit m md => Some (m, md) | _ => None end) t).
  assert (E : forall t, (subs t).*1 = submits t).
  { intros t. unfold subs, submits. induction t as [|o t IH]; [reflexivity|]. destruct o; cbn [omap list_omap fmap list_fmap]; first [exact IH|f_equal; exact IH]. }
  assert (N : NoDup (subs (log s) ++ to_sched s).*1).
  { rewrite fmap_app, E. apply (ids_nodup scheme s (core_reachable scheme allowed s R)). }
  assert (In : forall x, asked s m x -> (m, x) ∈ subs (log s) ++ to_sched s).
  { intros x [X|X]; apply elem_of_app; [right; exact X|left]. unfold subs. apply elem_of_list_omap. eexists. split; [exact X|reflexivity]. }
  intros A B. apply In in A, B. revert N A B. generalize (subs (log s) ++ to_sched s). clear. induction l as [|[a b] l IH]; intros N A B; [inversion A|].
  cbn in N. apply NoDup_cons in N as [N1 N2]. assert (Hf : forall x, (a, x) ∉ l) by (intros x X; apply N1, elem_of_list_fmap; exists (a, x); auto).
  apply elem_of_cons in A as [A|A]; apply elem_of_cons in B as [B|B].
  - congruence.
  - injection A as -> ->. destruct (Hf _ B).
  - injection B as -> ->. destruct (Hf _ A).
  - exact (IH N2 A B).
Qed.
End Rest.
