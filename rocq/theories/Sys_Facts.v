(** Every result is deserved. *)
From stdpp Require Import base gmap sets list.
From Verif Require Import Dependency_Model Sched_Trace Sched_Spec Sched_Model Sched_Env Sched_Base Sched_Load Sched_Once Sched_Retry Sched_Strand Sched_Idle_Inv Sched_Blame.
From Verif Require Import Sys_Model Sys_Spec Sys_Log Sys_Trace Sys_Core Sys_Hist Sys_Client Sys_Result.
From Verif Require Client_Model Client_Spec Client_Steps Client_Props Sched_Props.
From Coq Require Import ZArith Lia.

(** ** More about logs *)
Lemma on_engine_sent t m e : sound t -> phase_of t m = OnEngine e -> ObsSend m e ∈ t.
Proof.
  induction t as [|o t IH] using rev_ind; intros Hs Hp; [discriminate Hp|]. rewrite phase_snoc in Hp. apply elem_of_app.
  assert (IH' := IH (sound_prefix _ _ Hs)).
  destruct o as [m0 md|e0|e0|m0 e0|m0 e0 k0|m0 r]; cbn [phase_step] in Hp; try (left; apply IH', Hp).
  all: destruct (decide (m = m0)) as [->|]; [|left; apply IH', Hp]; destruct (phase_of t m0) eqn:P; try discriminate.
  - injection Hp as ->. right. left.
  - destruct (decide _); discriminate.
Qed.
Lemma result_sent t m e k : sound t -> ObsResult m e k ∈ t -> ObsSend m e ∈ t.
Proof.
  intros Hs X. apply elem_of_list_split in X as (t1 & t2 & ->). apply elem_of_app. left. rewrite (app_assoc t1 [_] t2 : t1 ++ _ :: t2 = _) in Hs. apply sound_prefix in Hs.
  apply on_engine_sent; [eapply sound_prefix, Hs|]. pose proof (Hs m) as H0. rewrite phase_snoc in H0. cbn [phase_step] in H0. rewrite decide_True in H0 by reflexivity.
  destruct (phase_of t1 m) eqn:P; try congruence. destruct (decide (e = e0)) as [->|]; congruence.
Qed.
Lemma replied_stays t u m : phase_of t m = Replied -> sound (t ++ u) -> forall e k, ObsResult m e k ∉ u.
Proof.
  intros P Hs e k X. apply elem_of_list_split in X as (u1 & u2 & ->). rewrite app_assoc, (app_assoc _ [_] u2 : _ ++ _ :: u2 = _) in Hs. apply sound_prefix in Hs.
  pose proof (Hs m) as H1. rewrite phase_snoc, phase_app, P in H1. cbn [phase_step] in H1. rewrite decide_True in H1 by reflexivity.
  destruct (replied_or_broken u1 m Replied (or_introl eq_refl)) as [E|E]; rewrite E in H1; congruence.
Qed.
Definition failing (t : list obs) (m : nat) : list nat := omap (fun o => match o with ObsResult m' e RErr => if decide (m = m') then Some e else None | _ => None end) t.
Lemma failing_elem t m e : e ∈ failing t m <-> ObsResult m e RErr ∈ t.
Proof.
  unfold failing. rewrite elem_of_list_omap. split.
  - intros ([| | | |m' e' []|] & X & Y); try discriminate. destruct (decide (m = m')) as [->|]; [|discriminate]. injection Y as ->. exact X.
  - intros X. eexists. split; [exact X|]. cbn. rewrite decide_True by reflexivity. reflexivity.
Qed.
Lemma failing_length t m : length (failing t m) = errors t m.
Proof.
  unfold failing, errors. induction t as [|o t IH]; [reflexivity|]. destruct o as [| | | |m' e' []|]; cbn; rewrite ?andb_false_r; try exact IH.
  destruct (decide (m = m')) as [->|N]; [rewrite bool_decide_eq_true_2 by reflexivity; cbn; rewrite IH; reflexivity|rewrite bool_decide_eq_false_2 by exact N; exact IH].
Qed.
Lemma failing_nodup t m : sound t -> no_repeat t -> NoDup (failing t m).
Proof.
  intros Hs Hn. pose proof (answers_nodup t Hs Hn) as N. clear Hs Hn. induction t as [|o t IH]; [constructor|].
  assert (N' : NoDup (answers t)) by (destruct o; cbn in N; try exact N; apply NoDup_cons in N; apply N). specialize (IH N').
  destruct o as [| | | |m' e' []|]; cbn; try exact IH. destruct (decide (m = m')) as [->|]; [|exact IH].
  constructor; [|exact IH]. cbn in N. apply NoDup_cons in N as [N _]. intros X. apply N. apply failing_elem in X. apply answers_elem. eauto.
Qed.
Lemma split_unique {A} (x : A) (l1 : list A) : forall l2 r1 r2, NoDup (l1 ++ x :: r1) -> l1 ++ x :: r1 = l2 ++ x :: r2 -> l1 = l2.
Proof.
  induction l1 as [|y l1 IH]; intros [|z l2] r1 r2 N E.
  - reflexivity.
  - cbn in E. injection E as <- E. cbn in N. apply NoDup_cons in N as [N _]. exfalso. apply N. rewrite E. apply elem_of_app. right. left.
  - cbn in E. injection E as -> E. cbn in N. apply NoDup_cons in N as [N _]. exfalso. apply N. apply elem_of_app. right. left.
  - cbn in E. injection E as -> E. cbn in N. apply NoDup_cons in N as [_ N]. f_equal. eapply IH; eauto.
Qed.

(** The client of task m has got the reply x to it. *)
Definition got (s : sys) (m : nat) (x : Client_Model.reply) : Prop := exists c, (m, x) ∈ received (events_of c s).
Definition arrived (s : sys) (m : nat) : Prop := exists c, m ∈ (received (events_of c s)).*1.
Lemma got_arrived s m x : got s m x -> arrived s m.
Proof. intros [c X]. exists c. apply elem_of_list_fmap. exists (m, x). auto. Qed.
Lemma arrived_got s m : arrived s m -> exists x, got s m x.
Proof. intros [c X]. apply elem_of_list_fmap in X as ([m' x] & E & X). cbn in E. subst m'. exists x, c. exact X. Qed.
(** The result y is what the scheduler replied. *)
Definition as_replied (s : sys) (x : nat) (r : reply) (y : Client_Model.result) : Prop :=
  match r with
  | FromEngine e true => exists v, y = Client_Model.Value v /\ (x, e, Returned v) ∈ ended s
  | FromEngine e false => (forall v, y <> Client_Model.Value v) /\ from_engine s x e y
  | Unreachable w => y = Client_Model.Failure (code w)
  end.

Section Facts.
Context (scheme : nat -> list Z -> nat) (allowed : sys -> nat -> taskmd -> Prop) (enum : gset Client_Model.mid -> list Client_Model.mid) (Henum : Client_Steps.enumerates enum).
Notation reach := (reachable scheme allowed).

Lemma future_is s m c : reach s -> client_of s m = Some c -> future enum s m = Some (Client_Spec.res (Client_Spec.seen (events_of c s)) !! Client_Model.Plain m).
Proof.
  intros R Hc. pose proof (v_client _ (told_reachable scheme allowed s R) c) as V. unfold future. rewrite Hc. cbn [mbind option_bind].
  destruct (Client_Props.C37_client enum (events_of c s) Henum (k_genuine _ _ V)) as (_ & F & _). apply F.
  unfold Client_Spec.used. rewrite elem_of_union. left. apply (k_tasks _ _ V). eauto.
Qed.
Lemma result_received s m r : reach s -> has_result enum s m r <-> exists x, got s m x /\ Client_Spec.outcome x = Some r.
Proof.
  intros R. unfold has_result. pose proof (told_reachable scheme allowed s R) as V. split.
  - intros H. destruct (client_of s m) as [c|] eqn:Hc; [|unfold future in H; rewrite Hc in H; discriminate]. rewrite (future_is s m c R Hc) in H. injection H as H.
    apply (k_res _ _ (v_client _ V c)) in H as (x & X & Y). exists x. split; [exists c; exact X|exact Y].
  - intros (x & [c X] & Y). assert (Hc : client_of s m = Some c) by (apply (received_own s c m V), elem_of_list_fmap; exists (m, x); auto).
    rewrite (future_is s m c R Hc). f_equal. apply (k_res _ _ (v_client _ V c)). eauto.
Qed.
Lemma submitted_known s m : reach s -> submitted (log s) m -> m < next_id s.
Proof.
  intros R Hsub. pose proof (core_reachable scheme allowed s R) as C. apply submits_elem in Hsub.
  apply (ids_lt scheme s m C), elem_of_app. auto.
Qed.
Lemma log_sound s : reach s -> sound (log s).
Proof. intros R. apply (sreach_sound scheme), (core_reachable scheme allowed s R). Qed.
Lemma reply_known s m r : reach s -> ObsReply m r ∈ log s -> submitted (log s) m.
Proof.
  intros R X. apply phase_submitted; [apply (log_sound s R)|]. rewrite (reply_replied _ _ r); [discriminate|apply (log_sound s R)|exact X].
Qed.
Lemma received_reply s m x : reach s -> got s m x -> m < next_id s /\ true_reply s m x /\ exists r, ObsReply m r ∈ log s.
Proof.
  intros R X. pose proof (told_reachable scheme allowed s R) as V. pose proof (core_reachable scheme allowed s R) as C.
  assert (T : true_reply s m x) by (apply (v_true _ V); right; exact X). destruct (true_logged _ _ _ T) as [r Y]. split; [|split; [exact T|eauto]].
  eapply submitted_known, reply_known; eauto.
Qed.

(** What the scheduler replied is what the client sees. *)
Lemma reply_is s x p r : reach s -> true_reply s x p -> ObsReply x r ∈ log s -> exists y, Client_Spec.outcome p = Some y /\ as_replied s x r y.
Proof.
  intros R Ht Y. pose proof (log_sound s R x) as Hs.
  destruct p as [v| |[v|c|e'|] b| |]; cbn [true_reply Client_Spec.outcome] in *; try contradiction; (eexists; split; [reflexivity|]).
  - destruct Ht as (e & A & B). assert (r = FromEngine e true) as -> by (eapply reply_unique; eauto). exists v. auto.
  - destruct Ht as [(e & y & -> & A & B)|(w & -> & B)].
    + assert (r = FromEngine e false) as -> by (eapply reply_unique; eauto). split; [discriminate|]. right. left. exists y. auto.
    + assert (r = Unreachable w) as -> by (eapply reply_unique; eauto). reflexivity.
  - destruct Ht as (A & B). assert (r = FromEngine e' false) as -> by (eapply reply_unique; eauto). split; [discriminate|]. right. right. right. auto.
  - destruct Ht as (e & A & B). assert (r = FromEngine e false) as -> by (eapply reply_unique; eauto). split; [discriminate|]. right. right. left. auto.
Qed.
Lemma reply_matches s x r : reach s -> arrived s x -> ObsReply x r ∈ log s -> exists y, has_result enum s x y /\ as_replied s x r y.
Proof.
  intros R X Y. apply arrived_got in X as [p X]. destruct (received_reply s x p R X) as (Hlt & Ht & _).
  destruct (reply_is s x p r R Ht Y) as (y & A & B). exists y. split; [|exact B]. apply result_received; eauto.
Qed.

(** Replies to a client arrive in order; those to others are at least on their way. *)
Lemma in_order s t m r t' x r' : reach s -> log s = t ++ ObsReply m r :: t' -> arrived s m -> ObsReply x r' ∈ t ->
  arrived s x \/ (client_of s x <> client_of s m /\ exists p, (x, p) ∈ replies s).
Proof.
  intros R E [c Hm] Hx. pose proof (told_reachable scheme allowed s R) as V. pose proof (core_reachable scheme allowed s R) as C.
  assert (Hc : client_of s m = Some c) by (apply (received_own s c m V Hm)).
  assert (Hxl : x ∈ replied (log s)) by (apply replied_elem; exists r'; rewrite E; apply elem_of_app; auto).
  assert (Hlt : x < next_id s) by (eapply replied_known; eauto). apply (ids_client scheme s x C) in Hlt as [cx Hcx].
  destruct (decide (cx = c)) as [->|Hne].
  - left. pose proof (NoDup_filter (mine s c) _ (replied_nodup _ (log_sound s R))) as N.
    pose proof (v_replies _ V c) as EV. rewrite E in N, EV. rewrite replied_app, filter_app in N, EV. change (replied (ObsReply m r :: t')) with (m :: replied t') in N, EV.
    rewrite filter_cons_True in N, EV by exact Hc. exists c.
    apply elem_of_list_split in Hm as (c1 & c2 & Ec). rewrite Ec in EV |- *. rewrite <- app_assoc in EV. cbn [app] in EV.
    pose proof (split_unique m _ _ _ _ N EV) as Hcc. apply elem_of_app. left. rewrite <- Hcc. apply elem_of_list_filter. split; [exact Hcx|]. apply replied_elem. eauto.
  - assert (X : x ∈ filter (mine s cx) (replied (log s))) by (apply elem_of_list_filter; auto). rewrite (v_replies _ V cx) in X. apply elem_of_app in X as [X|X]; [left; exists cx; exact X|].
    right. split; [congruence|]. apply elem_of_list_filter in X as [_ X]. apply elem_of_list_fmap in X as ([x' p] & Ex & X). cbn in Ex. subst x'. eauto.
Qed.
Lemma earlier_known s t m r t' x r' : reach s -> log s = t ++ ObsReply m r :: t' -> arrived s m -> ObsReply x r' ∈ t ->
  exists y, known enum s m x y /\ as_replied s x r' y.
Proof.
  intros R E Hm Hx. assert (Y : ObsReply x r' ∈ log s) by (rewrite E; apply elem_of_app; auto).
  destruct (in_order s t m r t' x r' R E Hm Hx) as [X|(Hne & p & X)].
  - destruct (reply_matches s x r' R X Y) as (y & A & B). exists y. split; [left; exact A|exact B].
  - destruct (reply_is s x p r' R) as (y & A & B); [apply (v_true _ (told_reachable scheme allowed s R)); left; exact X|exact Y|]. exists y. split; [right; eauto|exact B].
Qed.

Lemma given_back s m e k : reach s -> ObsResult m e k ∈ log s -> (exists o, k = kind_of o /\ (m, e, o) ∈ ended s) \/ (k = RErr /\ e ∈ dead s).
Proof. intros R. apply (y_result _ _ _ _ _ _ _ (hist_reachable scheme allowed s R)). Qed.
Lemma fails s m e : reach s -> ObsResult m e RErr ∈ log s -> failed_on s m e.
Proof.
  intros R X. destruct (given_back s m e RErr R X) as [(o & A & B)|(_ & B)].
  - destruct o; cbn in A; try discriminate; [left|right; left; exact B]. eexists. split; [|exact B]. eapply (y_before _ _ _ _ _ _ _ (hist_reachable scheme allowed s R)); [exact B|discriminate].
  - right. right. split; [exact B|]. eapply result_sent; [apply log_sound, R|exact X].
Qed.
Lemma all_failed s m e : reach s -> ObsReply m (FromEngine e false) ∈ log s -> gave_up s m e.
Proof.
  intros R X. pose proof (log_sound s R) as Hs. pose proof (core_reachable scheme allowed s R) as C.
  pose proof (relayed_reachable 1 scheme genuine _ (c_sched _ _ C) m e false X) as (k & Hk1 & Hk2 & Hk3). assert (k = RErr) as -> by (destruct k; try discriminate; congruence).
  apply elem_of_list_split in X as (t & t' & E).
  assert (H16 := sane_reachable scheme _ (c_sched _ _ C)).
  destruct (r_reply _ _ _ _ H16 t m e false t' E) as (md & Hmd & Herr). cbn in Herr.
  assert (Ht' : forall e' k', ObsResult m e' k' ∉ t').
  { pose proof Hs as Hs'. rewrite E in Hs'. rewrite (app_assoc t [_] t' : t ++ _ :: t' = _) in Hs'.
    intros e' k' Y. eapply replied_stays; [|exact Hs'|exact Y]. apply (reply_replied _ _ (FromEngine e false)); [eapply sound_prefix, Hs'|]. apply elem_of_app. right. left. }
  assert (Hf : failing (log s) m = failing t m).
  { rewrite E. unfold failing. rewrite omap_app. fold (failing t m). replace (omap _ (ObsReply m (FromEngine e false) :: t')) with (@nil nat); [apply app_nil_r|]. symmetry.
    change (failing t' m = []). destruct (failing t' m) as [|y l] eqn:F; [reflexivity|]. exfalso. apply (Ht' y RErr). apply failing_elem. rewrite F. left. }
  exists md, (failing (log s) m). split; [right; fold (log s); rewrite E; apply elem_of_app; auto|].
  split; [apply failing_nodup; [exact Hs|exact (never_back scheme _ (c_sched _ _ C))]|].
  split; [rewrite Hf, failing_length; exact Herr|]. split; [apply failing_elem; exact Hk3|].
  intros e' Y. apply failing_elem in Y. apply fails; assumption.
Qed.

Lemma told_bad_failed s t m w t' x : reach s -> log s = t ++ ObsReply m (Unreachable w) :: t' -> arrived s m -> x ∈ told_bad t ->
  exists r, known enum s m x r /\ forall v, r <> Client_Model.Value v.
Proof.
  intros R E Hm X. apply told_bad_elem in X as (r & X & Hne). destruct (earlier_known s t m _ t' x r R E Hm X) as (y & A & B). exists y. split; [exact A|].
  destruct r as [e []|w']; [exfalso; eapply Hne; reflexivity|apply B|]. cbn in B. rewrite B. discriminate.
Qed.
Lemma told_ok_succeeded s t m w t' x : reach s -> log s = t ++ ObsReply m (Unreachable w) :: t' -> arrived s m -> x ∈ told_ok t -> exists v, known enum s m x (Client_Model.Value v).
Proof.
  intros R E Hm X. apply told_ok_elem in X as (e & X). destruct (earlier_known s t m _ t' x _ R E Hm X) as (y & A & (v & -> & _)). exists v. exact A.
Qed.
Lemma hopeless_impossible s t m w t' d : reach s -> log s = t ++ ObsReply m (Unreachable w) :: t' -> arrived s m -> hopeless d (hist_of t) -> impossible enum s m d.
Proof.
  intros R E Hm [A B]. split; [exact A|]. cbv zeta in B.
  assert (W : forall x, default true (k_success d) = false /\ x ∈ told_ok t \/ default false (k_failure d) = false /\ x ∈ told_bad t ->
    default true (k_success d) = false /\ (exists v, known enum s m x (Client_Model.Value v)) \/ default false (k_failure d) = false /\ exists r, known enum s m x r /\ forall v, r <> Client_Model.Value v).
  { intros x [[X Y]|[X Y]]; [left|right]; (split; [exact X|]); [eapply told_ok_succeeded|eapply told_bad_failed]; eauto. }
  destruct (default true (k_all d)).
  - destruct B as (x & X & Y). exists x. split; [exact X|]. apply W, Y.
  - intros x X. apply W, (B x X).
Qed.
Lemma answer s t m w t' x e b : reach s -> log s = t ++ ObsReply m (Unreachable w) :: t' -> arrived s m -> ObsReply x (FromEngine e b) ∈ t ->
  exists r, known enum s m x r /\ from_engine s x e r.
Proof.
  intros R E Hm X. destruct (earlier_known s t m _ t' x _ R E Hm X) as (y & A & B). exists y. split; [exact A|].
  destruct b; [|apply B]. destruct B as (v & -> & B). left. eauto.
Qed.

Lemma unregistered_dead s t t' e : reach s -> log s = t ++ t' -> registered t e = false -> ObsRegister e ∈ t -> e ∈ dead s.
Proof.
  intros R E Hr Hin. pose proof (core_reachable scheme allowed s R) as C. pose proof (c_hub _ _ C) as P. rewrite E, ann_app, <- app_assoc in P.
  apply (c_nd _ _ C). destruct (decide (e ∈ noticed s)) as [|N]; [assumption|]. exfalso.
  assert (Hu : ObsUnregister e ∈ t).
  { destruct (decide ((false, e) ∈ ann t)) as [Hu|Hu]; [apply ann_unreg, Hu|]. rewrite ann_unreg in Hu. exfalso. revert Hr Hin Hu. clear. induction t as [|o t IH] using rev_ind; [intros _ X; inversion X|].
    rewrite registered_snoc, !elem_of_app, !elem_of_list_singleton. intros Hr [X|<-] Hu.
    - assert (IH' := IH). destruct o; try (apply IH'; tauto); destruct (decide (e = e0)); try discriminate; try (apply IH'; tauto). subst. tauto.
    - rewrite decide_True in Hr by reflexivity. discriminate. }
  apply N. apply (h_dead _ _ _ P). apply elem_of_app. left. apply ann_unreg, Hu.
Qed.

Lemma ids_in_order s t m md t' x : reach s -> log s = t ++ t' -> ObsSubmit m md ∈ t -> client_of s x = client_of s m -> x = m \/ ~ submitted t x -> m <= x.
Proof.
  intros R E Hm Hc [->|Hx]; [lia|]. destruct (decide (m <= x)) as [|Hgt]; [assumption|]. exfalso. apply Hx. pose proof (core_reachable scheme allowed s R) as C.
  assert (Hm' : m ∈ submits t) by (apply submits_elem; exists md; exact Hm).
  assert (Hlt : m < next_id s) by (apply (ids_lt scheme s m C); rewrite E, submits_app, !elem_of_app; auto).
  apply (ids_client scheme s m C) in Hlt as [c Hcm]. pose proof (c_order _ _ C c) as I.
  rewrite E, submits_app, <- app_assoc, filter_app in I. apply elem_of_list_split in Hm' as (a1 & a2 & Ea). rewrite Ea, filter_app, <- app_assoc, filter_cons_True in I by exact Hcm. cbn [app] in I.
  assert (Eseq : seq 0 (next_id s) = seq 0 m ++ m :: seq (S m) (next_id s - S m)).
  { assert (Hlt : m < next_id s) by (apply (ids_client scheme s m C); eauto). replace (next_id s) with (m + S (next_id s - S m)) at 1 by lia. rewrite seq_app. reflexivity. }
  assert (N : NoDup (filter (mine s c) (seq 0 (next_id s)))) by (apply NoDup_filter, NoDup_ListNoDup, seq_NoDup).
  assert (Ef : filter (mine s c) (seq 0 (next_id s)) = filter (mine s c) (seq 0 m) ++ m :: filter (mine s c) (seq (S m) (next_id s - S m))) by (rewrite Eseq, filter_app, filter_cons_True by exact Hcm; reflexivity).
  rewrite Ef in I, N.
  pose proof (split_unique m _ _ _ _ N (eq_sym I)) as S.
  assert (X : x ∈ filter (mine s c) (seq 0 m)) by (apply elem_of_list_filter; split; [rewrite Hc; exact Hcm|apply elem_of_seq; lia]).
  rewrite S in X. apply elem_of_list_filter in X as [_ X]. apply submits_elem. rewrite Ea. apply elem_of_app. auto.
Qed.

Lemma blamed s m w : reach s -> arrived s m -> ObsReply m (Unreachable w) ∈ log s -> reason enum s m w.
Proof.
  intros R Hm X. apply elem_of_list_split in X as (t & t' & E). pose proof (core_reachable scheme allowed s R) as C.
  assert (Ha : Sched_Base.reachable 1 scheme anything (sch s)).
  { pose proof (c_sched _ _ C) as Q. clear -Q. induction Q as [|a ev b fuel Q IH Hok St]; [constructor|]. econstructor; [exact IH|exact I|exact St]. }
  destruct (Sched_Props.C14_failures_justified 1 scheme _ Ha t m w t' E) as (md & Hmd & J).
  exists md. split; [right; fold (log s); rewrite E; apply elem_of_app; auto|]. destruct w.
  - destruct J as [J|[J|[J|J]]].
    + left. eapply hopeless_impossible; eauto.
    + right. left. eapply hopeless_impossible; eauto.
    + right. right. left. destruct J as (J1 & m1 & m2 & e1 & e2 & b1 & b2 & A & B & D & F & G). split; [exact J1|].
      destruct (answer s t m _ t' m1 e1 b1 R E Hm F) as (r1 & R1 & R2). destruct (answer s t m _ t' m2 e2 b2 R E Hm G) as (r2 & R3 & R4).
      exists m1, m2, e1, e2, r1, r2. repeat split; assumption.
    + right. right. right. destruct J as (J1 & J2). split; [exact J1|]. intros e He. destruct (J2 e He) as [Y|(k & Hk & Y)].
      * destruct (decide ((true, e) ∈ ann t)) as [Z|Z]; rewrite ann_reg in Z; [left; eapply unregistered_dead; eauto|]. right. right. exists t, t', ImpossibleDep. split; [exact E|exact Z].
      * assert (Y' : ObsResult m e k ∈ log s) by (rewrite E; apply elem_of_app; auto). destruct (given_back s m e k R Y') as [(o & -> & B)|(_ & B)]; [|left; exact B].
        right. left. exists o. split; [exact B|]. intros v ->. apply Hk. reflexivity.
  - destruct J as (x & Hx & Y). exists x. split; [exact Hx|]. destruct (decide (client_of s x = client_of s m)) as [Hc|Hc]; [left|right]; (split; [exact Hc|]).
    + eapply ids_in_order; eauto.
    + exists t, t'. split; [exact E|]. intros md' X. destruct Y as [->|Y]; [congruence|]. apply Y. exists md'. exact X.
  - exact J.
Qed.

Lemma results_deserved s m r : reach s -> has_result enum s m r -> deserved enum s m r.
Proof.
  intros R H. apply result_received in H as (x & X & E); [|assumption..]. pose proof (hist_reachable scheme allowed s R) as Y.
  destruct (received_reply s m x R X) as (_ & Ht & _). pose proof (got_arrived _ _ _ X) as Hm.
  destruct x as [v| |[v|c|e|] b| |]; cbn [true_reply Client_Spec.outcome] in *; try discriminate; try contradiction; injection E as <-; cbn [deserved].
  - destruct Ht as (e & A & _). exists e. split; [|exact A]. eapply (y_before _ _ _ _ _ _ _ Y); [exact A|discriminate].
  - destruct Ht as [(e & x & -> & A & B)|(w & -> & B)]; [left|right].
    + exists x, e. split; [reflexivity|]. split; [eapply (y_before _ _ _ _ _ _ _ Y); [exact A|discriminate]|]. split; [exact A|]. apply all_failed; assumption.
    + exists w. split; [reflexivity|]. apply blamed; assumption.
  - destruct Ht as (A & B). split; [exact A|]. apply all_failed; assumption.
  - destruct Ht as (e & A & B). exists e. split; [exact A|]. apply all_failed; assumption.
Qed.
Lemma future_known s m : reach s -> m < next_id s -> future enum s m = Some None \/ exists r, has_result enum s m r.
Proof. intros R Hm. unfold has_result. apply (ids_client scheme s m (core_reachable scheme allowed s R)) in Hm as [c Hc]. rewrite (future_is s m c R Hc). destruct (_ !! _) as [r|]; eauto. Qed.
End Facts.
