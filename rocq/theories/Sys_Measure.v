(** Left alone, the system comes to rest. *)
From stdpp Require Import base gmap sets list.
From Verif Require Import Dependency_Model Sched_Trace Sched_Spec Sched_Model Sched_Env Sched_Base Sched_Load Sched_Once Sched_Retry Sched_Strand Sched_Idle_Inv Sched_Term.
From Verif Require Import Sys_Model Sys_Spec Sys_Log Sys_Trace Sys_Core Sys_Hist Sys_Client Sys_Result Sys_Facts Sys_Exec.
From Verif Require Client_Model.
From Coq Require Import ZArith Lia.

Section Measure.
Context (scheme : nat -> list Z -> nat) (allowed : sys -> nat -> taskmd -> Prop).
Notation reach := (reachable scheme allowed).

Lemma sent_known s e m : reach s -> ObsSend m e ∈ log s -> e ∈ connected s /\ m < next_id s.
Proof.
  intros R X. pose proof (core_reachable scheme allowed s R) as C. pose proof (log_sound scheme allowed s R) as Hs. split.
  - apply elem_of_list_split in X as (t & t' & E).
    assert (Hr : registered t e = true).
    { eapply (sends_to_registered 1 scheme (sch s)); [|exact E].
      pose proof (c_sched _ _ C) as Q. clear - Q. induction Q as [|x ev x' fuel Hr IH Hok Hst]; [constructor|]. econstructor; [exact IH|apply genuine_registration, Hok|exact Hst]. }
    pose proof (c_hub _ _ C) as P. rewrite E, ann_app, <- app_assoc in P. apply (registered_ann _ _ _ _ _ P) in Hr as [Hr _]. apply (h_conn _ _ _ P). apply elem_of_app. auto.
  - eapply submitted_known; [exact R|]. apply elem_of_list_split in X as (t1 & t2 & Z). rewrite Z in Hs |- *. rewrite (app_assoc t1 [_] t2 : t1 ++ _ :: t2 = _) in Hs. apply sound_prefix in Hs.
    destruct (phase_submitted t1 m) as [md' W]; [eapply sound_prefix, Hs| |exists md'; apply elem_of_app; auto].
    intros P. apply (Hs m). rewrite phase_snoc, P. cbn [phase_step]. rewrite decide_True by reflexivity. reflexivity.
Qed.
Lemma bounds s : reach s -> length (to_engines (log s)) <= length (connected s) * next_id s /\ length (replied (log s)) <= next_id s /\ length (noticed s) <= length (connected s).
Proof.
  intros R. pose proof (core_reachable scheme allowed s R) as C. pose proof (log_sound scheme allowed s R) as Hs. split; [|split].
  - replace (length (connected s) * next_id s) with (length (list_prod (connected s) (seq 0 (next_id s)))) by (rewrite prod_length, seq_length; reflexivity).
    apply submseteq_length, NoDup_submseteq; [apply to_engines_nodup; [exact Hs|exact (never_back scheme _ (c_sched _ _ C))]|].
    intros [e m] X. apply to_engines_elem, (sent_known s e m R) in X as [A B]. apply elem_of_list_In, in_prod; apply elem_of_list_In; [exact A|]. apply elem_of_seq. lia.
  - rewrite <- (seq_length (next_id s) 0). apply submseteq_length, NoDup_submseteq; [apply replied_nodup, Hs|]. intros m X. apply replied_elem in X as [r X]. apply elem_of_seq.
    pose proof (submitted_known scheme allowed s m R (reply_known scheme allowed s m r R X)). lia.
  - apply submseteq_length, NoDup_submseteq; [apply (c_noticed _ _ C)|]. intros e X. apply (c_dc _ _ C), (c_nd _ _ C), X.
Qed.

Definition mu (s : sys) : nat :=
  5 * (length (connected s) * next_id s - length (to_engines (log s))) + 4 * length (inbox s) + 3 * length (busy s) + 2 * length (outbox s)
  + 2 * (next_id s - length (replied (log s))) + length (replies s) + 2 * length (to_sched s) + 2 * length (hub_s s) + length (hub_c s)
  + length (s_strand_timers (sch s)) + (3 + length (joined s)) * (length (connected s) - length (noticed s)).

Lemma to_client_length o u : length (to_client o u) = length (replied u).
Proof. rewrite <- (to_client_fst o u), fmap_length. reflexivity. Qed.
Lemma filter_le {A} (P : A -> Prop) `{forall x, Decision (P x)} l : length (filter P l) <= length l.
Proof. apply filter_length. Qed.

Ltac counts := rewrite ?app_length, ?to_client_length, ?fmap_length in *; cbn [length] in *.
Lemma decreases s s' : reach s -> internal scheme s s' -> mu s' < mu s.
Proof.
  intros R St. assert (R' : reach s') by (eapply r_int; eauto). pose proof (bounds s R) as B. pose proof (bounds s' R') as B'. pose proof (core_reachable scheme allowed s R) as C. clear R R'.
  unfold mu. destruct St as [s m md l1 l2 sc E Hfst St|s e m o l1 l2 sc E Hfst St|s a l sc E St|s e sc Hin Hno St|s e m l1 l2 He Hd E Hfst Hb|s e m l1 l2 He Hd E Hfst Hb|s e m o l1 l2 E Ho|s e He Hn|s c m r l1 l2 us Hc E Hfst|s c a l1 l2 E Hfst].
  - destruct (submit_log scheme s m md l1 l2 sc C E St) as (_ & Et & u & El & Es & Hu). unfold set_to_sched, after_sched, log in *. cbn [connected next_id sch inbox busy outbox replies to_sched hub_s hub_c noticed joined] in *.
    rewrite El, Es, E, Et, to_engines_app, replied_app in *. counts. generalize dependent ((3 + length (joined s)) * (length (connected s) - length (noticed s))). generalize dependent (length (connected s) * next_id s). intros. lia.
  - destruct (result_log scheme s e m o l1 l2 sc C E St) as (_ & Et & u & El & Es & Hu). unfold set_outbox, after_sched, log in *. cbn [connected next_id sch inbox busy outbox replies to_sched hub_s hub_c noticed joined] in *.
    rewrite El, Es, E, Et, to_engines_app, replied_app in *. counts. generalize dependent ((3 + length (joined s)) * (length (connected s) - length (noticed s))). generalize dependent (length (connected s) * next_id s). intros. lia.
  - destruct a as [[] e]; cbn [announcement fst snd] in St.
    + destruct (register_log scheme s e l sc C E St) as (_ & Et & u & El & Es & Hu). unfold set_hub_s, after_sched, log in *. cbn [connected next_id sch inbox busy outbox replies to_sched hub_s hub_c noticed joined] in *.
      rewrite El, Es, E, Et, to_engines_app, replied_app in *. counts. generalize dependent ((3 + length (joined s)) * (length (connected s) - length (noticed s))). generalize dependent (length (connected s) * next_id s). intros. lia.
    + destruct (unregister_log scheme s e sc C St) as (_ & Et & El & Es). unfold set_hub_s, after_sched, log in *. cbn [connected next_id sch inbox busy outbox replies to_sched hub_s hub_c noticed joined] in *.
      rewrite El, Es, E, to_engines_app, replied_app in *. counts. generalize dependent ((3 + length (joined s)) * (length (connected s) - length (noticed s))). generalize dependent (length (connected s) * next_id s). intros. cbn in *. lia.
  - destruct (strand_log scheme s e sc C Hin St) as (_ & Et & (u & El & Es & Hu & _) & _). unfold forget, after_sched, log in *. cbn [connected next_id sch inbox busy outbox replies to_sched hub_s hub_c noticed joined] in *.
    rewrite El, Es, to_engines_app, replied_app in *. counts. pose proof (filter_le (fun x : nat * nat => fst x <> e) (inbox s ++ to_engines u)) as F. counts. generalize dependent ((3 + length (joined s)) * (length (connected s) - length (noticed s))). generalize dependent (length (connected s) * next_id s). intros. lia.
  - unfold log in *. cbn [connected next_id sch inbox busy outbox replies to_sched hub_s hub_c noticed joined] in *. rewrite E in *. counts. lia.
  - unfold log in *. cbn [connected next_id sch inbox busy outbox replies to_sched hub_s hub_c noticed joined] in *. rewrite E in *. counts. lia.
  - unfold log in *. cbn [connected next_id sch inbox busy outbox replies to_sched hub_s hub_c noticed joined] in *. rewrite E in *. counts. lia.
  - unfold log in *. cbn [connected next_id sch inbox busy outbox replies to_sched hub_s hub_c noticed joined] in *. counts. unfold to_all. rewrite map_length.
    destruct B as (_ & B2 & _), B' as (_ & _ & B'3). replace (length (connected s) - length (noticed s)) with (S (length (connected s) - S (length (noticed s)))) by lia.
    rewrite Nat.mul_succ_r. generalize ((3 + length (joined s)) * (length (connected s) - S (length (noticed s)))). generalize (length (connected s) * next_id s). intros. lia.
  - unfold set_replies, tell, log in *. cbn [connected next_id sch inbox busy outbox replies to_sched hub_s hub_c noticed joined] in *. rewrite E in *. counts. lia.
  - unfold set_hub_c, tell, log in *. cbn [connected next_id sch inbox busy outbox replies to_sched hub_s hub_c noticed joined] in *. rewrite E in *. counts. lia.
Qed.
End Measure.
