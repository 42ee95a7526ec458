(** What has become of the tasks when nothing moves any more. *)
From stdpp Require Import base gmap sets list relations.
From Verif Require Import Dependency_Model Dependency_Spec Sched_Trace Sched_Spec Sched_Model Sched_Env Sched_Base Sched_Load Sched_Once Sched_Retry Sched_Strand Sched_Idle_Spec Sched_Idle_Inv Sched_Idle_Top Sched_Term.
From Verif Require Import Sys_Model Sys_Spec Sys_Log Sys_Trace Sys_Core Sys_Hist Sys_Client Sys_Result Sys_Facts Sys_Exec Sys_Measure.
From Verif Require Client_Model Client_Spec Client_Steps Sched_Idle_Props.
From Coq Require Import ZArith Lia.

Section Live.
Context (scheme : nat -> list Z -> nat) (allowed : sys -> nat -> taskmd -> Prop).
Notation reach := (reachable scheme allowed).

Record settled (s : sys) : Prop := Settled {
  z_sched : to_sched s = [];
  z_out : outbox s = [];
  z_hub_s : hub_s s = [];
  z_hub_c : hub_c s = [];
  z_replies : replies s = [];
  z_strand : s_strand_timers (sch s) = [];
  z_busy : busy s = [];
  z_noticed : forall e, e ∈ Sys_Model.dead s -> e ∈ noticed s;
  z_inbox : forall e m, (e, m) ∈ inbox s -> e ∈ Sys_Model.dead s }.

Lemma first_of (e : nat) (l : list (nat * nat)) m : (e, m) ∈ l -> exists l1 m' l2, l = l1 ++ (e, m') :: l2 /\ forall m'', (e, m'') ∉ l1.
Proof.
  induction l as [|[a b] l IH]; intros X; [inversion X|]. destruct (decide (a = e)) as [->|N].
  - exists [], b, l. split; [reflexivity|]. intros m'' Y. inversion Y.
  - apply elem_of_cons in X as [X|X]; [congruence|]. destruct (IH X) as (l1 & m' & l2 & -> & H). exists ((a, b) :: l1), m', l2. split; [reflexivity|].
    intros m'' Y. apply elem_of_cons in Y as [Y|Y]; [congruence|]. eapply H, Y.
Qed.
Lemma steps_exist sc ev : exists sc', sched_step scheme sc ev sc'.
Proof. destruct (step_ends 1 scheme sc ev) as (s' & n & H). exists s', n. apply H. lia. Qed.
Lemma inbox_connected s e m : reach s -> (e, m) ∈ inbox s -> e ∈ connected s.
Proof.
  intros R X. eapply sent_known; [exact R|]. apply on_engine_sent; [eapply log_sound, R|]. apply (proj2 (c_placed _ _ (core_reachable scheme allowed s R))). apply elem_of_app. left. exact X.
Qed.
Lemma progress s : reach s -> (exists s', internal scheme s s') \/ settled s.
Proof.
  intros R. pose proof (core_reachable scheme allowed s R) as C.
  destruct (to_sched s) as [|[m md] l] eqn:E1; [|left; destruct (steps_exist (sch s) (EvSubmit m md)) as [sc St]; eexists; eapply (i_submit scheme s m md [] l); [exact E1|intros ? ? X; inversion X|exact St]].
  destruct (outbox s) as [|[[e m] o] l] eqn:E2.
  2:{ left. destruct (steps_exist (sch s) (EvResult m e (kind_of o))) as [sc St]. eexists. eapply (i_result scheme s e m o [] l); eauto. intros ? ? X. inversion X. }
  destruct (hub_s s) as [|a l] eqn:E3; [|left; destruct (steps_exist (sch s) (announcement a)) as [sc St]; eexists; eapply i_hub; eauto].
  destruct (hub_c s) as [|[c a] l] eqn:E4; [|left; eexists; eapply (i_told scheme s c a [] l); [exact E4|intros ? X; inversion X]].
  destruct (replies s) as [|[m r] l] eqn:E5.
  2:{ left. destruct (true_logged s m r) as [r' X]; [apply (v_true _ (told_reachable scheme allowed s R)); left; rewrite E5; left|].
      assert (Hm : m < next_id s) by (apply (replied_known scheme s m C), replied_elem; eauto). apply (ids_client scheme s m C) in Hm as [c Hc].
      eexists. eapply (i_reply scheme s c m r [] l []); [exact Hc|exact E5|intros ? ? Y; inversion Y]. }
  destruct (s_strand_timers (sch s)) as [|e l] eqn:E6.
  2:{ left. destruct (steps_exist (sch s) (EvStrandTimer e)) as [sc St]. eexists. eapply (i_strand scheme s e); [rewrite E6; left|rewrite E2; intros ? ? X; inversion X|exact St]. }
  destruct (busy s) as [|[e m] l] eqn:E7; [|left; eexists; eapply (i_end scheme s e m (Returned 0) [] l); eauto; discriminate].
  destruct (decide (Forall (fun e => e ∈ noticed s) (Sys_Model.dead s))) as [D|D].
  2:{ left. apply not_Forall_Exists in D; [|apply _]. apply Exists_exists in D as (e & A & B). eexists. eapply i_notice; eauto. }
  destruct (decide (Forall (fun x : nat * nat => fst x ∈ Sys_Model.dead s) (inbox s))) as [I|I].
  2:{ left. apply not_Forall_Exists in I; [|apply _]. apply Exists_exists in I as ([e m] & A & B). cbn in B. destruct (first_of e _ m A) as (l1 & m' & l2 & E & F).
      eexists. eapply (i_begin scheme s e m' l1 l2); [eapply inbox_connected; eauto|exact B|exact E|exact F|]. rewrite E7. intros ? X. inversion X. }
  right. split; auto.
  - intros e X. exact (proj1 (Forall_forall _ _) D e X).
  - intros e m X. exact (proj1 (Forall_forall _ _) I (e, m) X).
Qed.
Lemma settled_rests s s' : settled s -> ~ internal scheme s s'.
Proof.
  intros [Z1 Z2 Z3 Z4 Z5 Z6 Z7 Z8 Z9] St. destruct St as [s m md l1 l2 sc E Hfst St|s e m o l1 l2 sc E Hfst St|s a l sc E St|s e sc Hin Hno St|s e m l1 l2 He Hd E Hfst Hb|s e m l1 l2 He Hd E Hfst Hb|s e m o l1 l2 E Ho|s e He Hn|s c m r l1 l2 us Hc E Hfst|s c a l1 l2 E Hfst];
  try congruence.
  - rewrite Z1 in E. destruct l1; discriminate.
  - rewrite Z2 in E. destruct l1; discriminate.
  - rewrite Z6 in Hin. inversion Hin.
  - apply Hd, (Z9 e m). rewrite E. apply elem_of_app. right. left.
  - apply Hd, (Z9 e m). rewrite E. apply elem_of_app. right. left.
  - rewrite Z7 in E. destruct l1; discriminate.
  - apply Hn, Z8, He.
  - rewrite Z5 in E. destruct l1; discriminate.
  - rewrite Z4 in E. destruct l1; discriminate.
Qed.

(** Engines and tasks in a settled state *)
Lemma live_registered s e : reach s -> settled s -> e ∈ connected s -> e ∉ Sys_Model.dead s -> registered (log s) e = true.
Proof.
  intros R Z He Hd. pose proof (core_reachable scheme allowed s R) as C. pose proof (c_hub _ _ C) as P. apply (registered_ann _ _ _ _ e P). rewrite (z_hub_s _ Z), app_nil_r in P. split.
  - apply (h_conn _ _ _ P), He.
  - intros X. apply (h_dead _ _ _ P) in X. apply Hd, (c_nd _ _ C), X.
Qed.
Lemma registered_live s e : reach s -> settled s -> registered (log s) e = true -> e ∈ connected s /\ e ∉ Sys_Model.dead s.
Proof.
  intros R Z Hr. pose proof (core_reachable scheme allowed s R) as C. pose proof (c_hub _ _ C) as P. apply (registered_ann _ _ _ _ e P) in Hr as [A B]. rewrite (z_hub_s _ Z), app_nil_r in P. split.
  - apply (h_conn _ _ _ P), A.
  - intros X. apply B. apply (h_dead _ _ _ P), (z_noticed _ Z), X.
Qed.
Lemma nowhere s m e : reach s -> settled s -> phase_of (log s) m <> OnEngine e.
Proof.
  intros R Z P. pose proof (core_reachable scheme allowed s R) as C. assert (HI := I11_reachable scheme _ (c_sched _ _ C)).
  destruct (w_on _ _ _ _ _ _ _ _ _ _ _ HI m e P) as (l & Hl & Hm).
  assert (H10 : I10 1 (sch s)) by (eapply (I10_reachable 1 scheme genuine); [apply genuine_registration|apply c_sched, C]).
  assert (Hr : registered (log s) e = true).
  { apply (l_reg _ _ _ _ H10). destruct (w_strand _ _ _ _ _ _ _ _ _ _ _ HI e l Hl) as [A|[A|A]]; [intros ->; inversion Hm|exact A| |inversion A]. rewrite (z_strand _ Z) in A. inversion A. }
  apply (registered_live s e R Z) in Hr as [_ Hd]. apply (proj2 (c_placed _ _ C)) in P. unfold loc in P. rewrite (z_busy _ Z), (z_out _ Z) in P. cbn [map app] in P.
  apply elem_of_app in P as [P|P]; [apply Hd, (z_inbox _ Z e m P)|apply Hd, (c_lost _ _ C e m P)].
Qed.
Lemma unloaded s e : reach s -> settled s -> registered (log s) e = true -> outstanding (log s) e = 0%Z.
Proof.
  intros R Z Hr. pose proof (core_reachable scheme allowed s R) as C. assert (HI := I11_reachable scheme _ (c_sched _ _ C)).
  assert (H10 : I10 1 (sch s)) by (eapply (I10_reachable 1 scheme genuine); [apply genuine_registration|apply c_sched, C]).
  apply (l_reg _ _ _ _ H10) in Hr. apply elem_of_list_lookup in Hr as [i Hi]. pose proof (l_load _ _ _ _ H10 i e Hi) as L.
  destruct (w_load _ _ _ _ _ _ _ _ _ _ _ HI i e Hi) as (l & Hl & L'). assert (l = []) as ->.
  { destruct l as [|[m j] l]; [reflexivity|]. exfalso. destruct (w_pd _ _ _ _ _ _ _ _ _ _ _ HI e _ m j Hl (elem_of_list_here _ _)) as (jb & _ & _ & _ & P & _). exact (nowhere s m e R Z P). }
  rewrite L in L'. injection L' as L'. exact L'.
Qed.
Lemma all_submitted s m : reach s -> settled s -> m < next_id s -> submitted (log s) m.
Proof.
  intros R Z Hm. apply (ids_lt scheme s m (core_reachable scheme allowed s R)) in Hm. rewrite (z_sched _ Z) in Hm. cbn in Hm. rewrite app_nil_r in Hm. apply submits_elem, Hm.
Qed.

Context (enum : gset Client_Model.mid -> list Client_Model.mid) (Henum : Client_Steps.enumerates enum).
Lemma replied_seen s m : reach s -> settled s -> m ∈ replied (log s) -> arrived s m.
Proof.
  intros R Z X. pose proof (core_reachable scheme allowed s R) as C. destruct (proj1 (ids_client scheme s m C) (replied_known scheme s m C X)) as [c Hc]. exists c.
  assert (Y : m ∈ filter (mine s c) (replied (log s))) by (apply elem_of_list_filter; auto).
  rewrite (v_replies _ (told_reachable scheme allowed s R) c), (z_replies _ Z) in Y. cbn in Y. rewrite app_nil_r in Y. exact Y.
Qed.
Lemma succeeded_ok s x : reach s -> settled s -> x ∈ told_ok (log s) <-> succeeded enum s x.
Proof.
  intros R Z. rewrite told_ok_elem. split.
  - intros [e X]. assert (Hm : arrived s x) by (apply replied_seen; auto; apply replied_elem; eauto).
    destruct (reply_matches scheme allowed enum Henum s x _ R Hm X) as (y & A & (v & -> & _)). exists v. exact A.
  - intros [v H]. apply (result_received scheme allowed enum Henum) in H as (y & X & E); [|assumption..]. destruct (received_reply scheme allowed s x y R X) as (_ & Ht & _).
    destruct y as [w| |[] ?| |]; cbn in Ht, E; try discriminate; try contradiction. destruct Ht as (e & _ & B). eauto.
Qed.
Lemma done_or_waiting s m : reach s -> settled s -> m < next_id s -> (exists r, has_result enum s m r) \/ phase_of (log s) m = Waiting.
Proof.
  intros R Z Hm. pose proof (log_sound scheme allowed s R) as Hs. destruct (phase_of (log s) m) eqn:P.
  - exfalso. destruct (all_submitted s m R Z Hm) as [md X]. clear - X P Hs. apply elem_of_list_split in X as (t1 & t2 & E). rewrite E in P, Hs.
    rewrite (app_assoc t1 [_] t2 : t1 ++ _ :: t2 = _) in P, Hs. rewrite phase_app in P. assert (Q : phase_of (t1 ++ [ObsSubmit m md]) m <> Unknown).
    { pose proof (sound_prefix _ _ Hs m) as H1. rewrite phase_snoc in *. cbn [phase_step] in *. rewrite decide_True in * by reflexivity. destruct (phase_of t1 m); congruence. }
    revert P Q. generalize (phase_of (t1 ++ [ObsSubmit m md]) m). clear. induction t2 as [|o t IH]; intros p P Q; [contradiction|]. cbn [foldl] in P. apply (IH _ P).
    destruct o; cbn [phase_step]; auto; destruct (decide _); auto; destruct p; try congruence; destruct (decide _); congruence.
  - right. reflexivity.
  - exfalso. exact (nowhere s m e R Z P).
  - left. assert (X : exists r, ObsReply m r ∈ log s).
    { clear - P. revert P. induction (log s) as [|o t IH] using rev_ind; [discriminate|]. rewrite phase_snoc. intros P. 
      assert (D : (exists r, o = ObsReply m r) \/ phase_of t m = Replied).
      { destruct o as [m0 md|e0|e0|m0 e0|m0 e0 k0|m0 r]; cbn [phase_step] in P; auto; destruct (decide (m = m0)) as [->|]; auto; destruct (phase_of t m0); try congruence; eauto. destruct (decide _); congruence. }
      destruct D as [[r ->]|D]; [exists r; apply elem_of_app; right; left|]. destruct (IH D) as [r X]. exists r. apply elem_of_app. auto. }
    destruct X as [r X]. assert (Hr : arrived s m) by (apply replied_seen; auto; apply replied_elem; eauto).
    destruct (reply_matches scheme allowed enum Henum s m _ R Hr X) as (y & Y & _). eauto.
  - exfalso. exact (Hs m P).
Qed.
End Live.
