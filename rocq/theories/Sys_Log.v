(** What the scheduler puts into its log while it handles one event (any high-water mark). *)
From stdpp Require Import base gmap sets list.
From Verif Require Import Dependency_Model Sched_Trace Sched_Spec Sched_Model Sched_Env Sched_Base Sched_Traverse Sched_Frame.
From Verif Require Prelude.
From Coq Require Import ZArith Lia.

(** Tasks sent out, and failures of tasks that cannot run. *)
Definition own (o : obs) : Prop := match o with ObsSend _ _ | ObsReply _ (Unreachable _) => True | _ => False end.

Section Log.
Context (hwm : nat) (scheme : nat -> list Z -> nat).

Definition grows (ok : obs -> Prop) (l : list obs) (tm : list nat) (s : sched) : Prop :=
  s_strand_timers s = tm /\ exists u, s_log s = l ++ u /\ Forall ok u.
Lemma grows_one (ok : obs -> Prop) l tm s o : grows ok l tm s -> ok o -> grows ok l tm (set_log (fun l => l ++ [o]) s).
Proof.
  intros (A & u & B & C) Ho. split; [exact A|]. exists (u ++ [o]). cbn [s_log set_log]. rewrite B, app_assoc. split; [reflexivity|].
  apply Forall_app. auto.
Qed.
Lemma grows_start ok s : grows ok (s_log s) (s_strand_timers s) s.
Proof. split; [reflexivity|]. exists []. rewrite app_nil_r. auto. Qed.
Lemma grows_weak (ok ok' : obs -> Prop) l tm s : (forall o, ok o -> ok' o) -> grows ok l tm s -> grows ok' l tm s.
Proof. intros H (A & u & B & C). split; [exact A|]. exists u. split; [exact B|]. eapply Forall_impl; eauto. Qed.
Lemma grows_after (ok : obs -> Prop) l tm s o : ok o -> grows ok (l ++ [o]) tm s -> grows ok l tm s.
Proof. intros H (A & u & B & C). split; [exact A|]. exists (o :: u). split; [rewrite B, <- app_assoc; reflexivity|]. constructor; auto. Qed.

Section Keep.
Context (ok : obs -> Prop) (Hok : forall o, own o -> ok o) (l : list obs) (tm : list nat).
Notation I := (grows ok l tm).
Lemma kept_grows : kept hwm (fun _ _ => True) any_reason I.
Proof.
  split; try (intros s g H; exact H); try (intros s j n H _; exact H); try (intros; exact Logic.I).
  - intros s j jb H _ _. exact H.
  - intros s m w H _. apply (grows_one ok l tm (set_all_failed _ (set_all_done _ s))); [exact H|]. apply Hok. exact Logic.I.
  - intros s j jb idx target H _ _.
    assert (H' : I (sent (j_msg jb) idx target s)).
    { apply (grows_one ok l tm (set_draws S s)); [exact H|]. apply Hok. exact Logic.I. }
    destruct (s_pending s !! target); exact H'.
Qed.

Lemma unmet_grows fuel e m s : I s -> wp (handle_unmet_dependency hwm scheme fuel e m) (fun _ => I) I s.
Proof.
  intros HI. unfold handle_unmet_dependency. apply wp_bind, wp_get, wp_bind, wp_of_option; [|intros _; exact HI]. intros l0 _.
  apply wp_bind, wp_of_option; [|intros _; exact HI]. intros j Hj. apply wp_bind, wp_upd, wp_bind, wp_upd.
  set (s2 := set_jobs _ _). assert (H2 : I s2) by exact HI.
  apply wp_bind, wp_get_job; [|intros _; exact H2]. intros jb Hjb.
  apply wp_bind. eapply wp_mono with (Q := fun _ => I) (E := I);
    [|intros [] s' Hs'; apply (unmet_tail_keeps _ _ _ _ _ kept_grows); exact Hs'|auto].
  destruct (decide _).
  - apply (fail_now_keeps _ _ _ _ _ kept_grows); [exact H2|exact Logic.I].
  - apply (run_or_save_keeps _ _ _ _ _ kept_grows) with (jb := jb); auto.
Qed.
Lemma result_grows fuel e m b s : ok (ObsReply m (FromEngine e b)) -> I s -> wp (handle_result hwm scheme fuel e m b) (fun _ => I) I s.
Proof.
  intros Ho H. unfold handle_result. apply wp_bind, wp_upd. set (s1 := set_log _ _). assert (H1 : I s1) by (apply grows_one; assumption).
  apply wp_bind, wp_get, wp_bind, wp_of_option; [|intros _; exact H1]. intros l0 _.
  apply wp_bind, wp_of_option; [|intros _; exact H1]. intros j Hj. apply wp_bind, wp_upd. set (s2 := set_pending _ _). assert (H2 : I s2) by exact H1.
  apply wp_bind. eapply wp_mono with (Q := fun _ => I) (E := I); [| |auto].
  - destruct b; (apply wp_bind, wp_get, wp_bind, wp_of_option; [|intros _; exact H2]); intros Y HY; apply wp_bind, wp_upd, wp_upd; exact H2.
  - intros [] s' Hs'. apply wp_bind, wp_upd, wp_bind, wp_upd. apply (update_graph_keeps _ _ _ _ _ kept_grows). exact Hs'.
Qed.
Definition okb (k : rkind) : bool := match k with ROk => true | _ => false end.
(** after the first entry *)
Lemma dispatch_result_rest fuel e m k s : (k <> RUnmet -> ok (ObsReply m (FromEngine e (okb k)))) -> 
  I (set_log (fun l => l ++ [ObsResult m e k]) s) -> wp (dispatch_result hwm scheme fuel e m k) (fun _ => I) I s.
Proof.
  intros Ho H. unfold dispatch_result. apply wp_bind, wp_upd. set (s1 := set_log _ _) in *. apply wp_bind, wp_get, wp_bind.
  eapply wp_mono with (Q := fun _ => I) (E := I); [| |auto].
  { destruct (index_of _ _); [|apply wp_ret; exact H]. apply wp_upd. exact H. }
  intros [] s' H'. destruct k; [| |apply unmet_grows; exact H'].
  all: cbv zeta; apply wp_bind, wp_get, wp_bind, wp_of_option; [|intros _; exact H']; intros r Hr; destruct (decide _).
  all: apply wp_bind, wp_upd; first [apply unmet_grows; exact H' | apply result_grows; [apply Ho; discriminate|exact H']].
Qed.
End Keep.

Lemma dispatch_result_grows fuel e m k s :
  let Q := grows (fun o => own o \/ (k <> RUnmet /\ o = ObsReply m (FromEngine e (okb k)))) (s_log s ++ [ObsResult m e k]) (s_strand_timers s) in
  wp (dispatch_result hwm scheme fuel e m k) (fun _ => Q) Q s.
Proof. intros Q. apply dispatch_result_rest; [tauto|tauto|]. exact (grows_start _ (set_log (fun l => l ++ [ObsResult m e k]) s)). Qed.

Lemma register_grows fuel e s :
  let Q := grows own (s_log s ++ [ObsRegister e]) (s_strand_timers s) in wp (register_engine hwm scheme fuel e) (fun _ => Q) Q s.
Proof.
  intros Q. unfold register_engine. do 6 apply wp_bind, wp_upd. apply (update_graph_keeps _ _ _ _ _ (kept_grows own (fun o H => H) _ _)). exact (grows_start own (set_log (fun l => l ++ [ObsRegister e]) s)).
Qed.

Lemma unregister_grows e s :
  let Q s' := s_log s' = s_log s ++ [ObsUnregister e] /\ (s_strand_timers s' = s_strand_timers s \/ s_strand_timers s' = s_strand_timers s ++ [e]) in
  wp (unregister_engine e) (fun _ => Q) Q s.
Proof.
  intros Q. unfold unregister_engine. apply wp_bind, wp_upd. set (s1 := set_log _ _). assert (H1 : Q s1) by (split; [reflexivity|left; reflexivity]).
  apply wp_bind, wp_get, wp_bind, wp_of_option; [|intros _; exact H1]. intros i _. apply wp_bind, wp_upd, wp_bind, wp_upd.
  apply wp_bind, wp_get, wp_bind, wp_of_option; [|intros _; exact H1]. intros l _. destruct (decide _).
  - apply wp_bind, wp_upd, wp_upd. exact H1.
  - apply wp_upd. split; [reflexivity|right; reflexivity].
Qed.

Lemma submission_grows fuel m md s :
  let Q := grows own (s_log s ++ [ObsSubmit m md]) (s_strand_timers s) in wp (dispatch_submission hwm scheme fuel m md) (fun _ => Q) Q s.
Proof.
  intros Q. pose (K := kept_grows own (fun o H => H) (s_log s ++ [ObsSubmit m md]) (s_strand_timers s)).
  unfold dispatch_submission. apply wp_bind, wp_upd, wp_bind, wp_upd, wp_bind, wp_upd.
  match goal with |- wp _ _ _ ?x => set (s1 := x) end. assert (H1 : Q s1) by apply (grows_start own (set_log (fun l => l ++ [ObsSubmit m md]) s)).
  apply wp_bind. destruct (from_dict (t_after md)); [|apply wp_raise; exact H1..]. apply wp_ret.
  apply wp_bind, wp_get, wp_bind, wp_get. cbv zeta. apply wp_bind.
  destruct (from_dict (t_follow md)); [|apply wp_raise; exact H1..]. apply wp_ret. apply wp_bind, wp_get, wp_bind, wp_upd, wp_bind, wp_upd, wp_bind, wp_get.
  match goal with |- wp _ _ _ ?x => set (s2 := x) end. assert (H2 : Q s2) by exact H1.
  repeat match goal with |- context[if ?b then _ else _] => destruct b end.
  all: try (apply (fail_now_keeps _ _ _ _ _ K); [exact H2|exact Logic.I]).
  all: try (apply (save_unmet_keeps _ _ _ _ K); exact H2).
  all: eapply (run_or_save_keeps _ _ _ _ _ K); [exact H2| |exact Logic.I]; cbn; apply lookup_insert.
Qed.

Lemma job_timer_grows fuel j tid s :
  let Q := grows own (s_log s) (s_strand_timers s) in wp (handle hwm scheme fuel (EvJobTimer j tid)) (fun _ => Q) Q s.
Proof.
  intros Q. cbn [handle]. apply wp_bind, wp_get. destruct (decide _); [|apply wp_ret, grows_start]. apply wp_bind, wp_upd.
  apply (job_timeout_keeps _ _ _ _ _ (kept_grows own (fun o H => H) _ _)); [exact (grows_start own s)|]. intros; exact Logic.I.
Qed.

Definition for_dead (e : nat) (o : obs) : Prop :=
  own o \/ (exists m, o = ObsResult m e RErr) \/ exists m, o = ObsReply m (FromEngine e false).
Lemma stranded_grows fuel e l tm s : grows (for_dead e) l tm s ->
  wp (handle_stranded_tasks hwm scheme fuel e) (fun _ => grows (for_dead e) l tm) (grows (for_dead e) l tm) s.
Proof.
  intros H. set (Q := grows _ _ _) in *. unfold handle_stranded_tasks. apply wp_bind, wp_get, wp_bind, wp_of_option; [|intros _; exact H].
  intros ms _. apply wp_bind. eapply wp_mono; [apply wp_for_each with (I := Q); [exact H|]| |intros s' Hs'; exact Hs'].
  - intros m s' _ H'. apply wp_bind, wp_get, wp_bind, wp_of_option; [|intros _; exact H']. intros l' _.
    destruct (al_lookup m l'); [|apply wp_ret; exact H']. apply wp_swallow.
    apply (dispatch_result_rest (for_dead e)); [unfold for_dead; tauto|intros _; right; right; eauto|]. apply grows_one; [exact H'|]. right. left. eauto.
  - intros [] s' H'. apply wp_bind, wp_get, wp_bind, wp_of_option; [|intros _; exact H']. intros ? _. apply wp_bind, wp_upd.
    apply wp_bind, wp_get, wp_bind, wp_of_option; [|intros _; exact H']. intros ? _. apply wp_upd. exact H'.
Qed.
Lemma strand_timer_grows fuel e s : e ∈ s_strand_timers s ->
  let Q s' := S (length (s_strand_timers s')) = length (s_strand_timers s) /\ exists u, s_log s' = s_log s ++ u /\ Forall (for_dead e) u in
  wp (handle hwm scheme fuel (EvStrandTimer e)) (fun _ => Q) Q s.
Proof.
  intros Hin Q. cbn [handle]. apply wp_bind, wp_get. destruct (index_of e (s_strand_timers s)) as [i|] eqn:E; [|apply index_of_none in E; contradiction].
  apply index_of_spec in E. apply lookup_lt_Some in E. apply wp_bind, wp_upd. set (s1 := set_strand_timers _ _).
  assert (HQ : forall s', grows (for_dead e) (s_log s1) (s_strand_timers s1) s' -> Q s').
  { intros s' (A & B). split; [|exact B]. rewrite A. unfold s1. cbn [s_strand_timers set_strand_timers]. unfold list_pop. rewrite app_length, take_length, drop_length. lia. }
  eapply wp_mono; [apply stranded_grows; apply grows_start|intros [] s' H; apply HQ, H|intros s' H; apply HQ, H].
Qed.

(** As statements about steps *)
Lemma step_wp fuel s ev s' (Q : sched -> Prop) : wp (handle hwm scheme fuel ev) (fun _ => Q) Q s -> step hwm scheme fuel s ev = Some s' -> Q s'.
Proof. unfold step, swallow, wp. destruct (handle hwm scheme fuel ev s); intros H E; [injection E as <-; exact H..|discriminate]. Qed.

Lemma step_submit fuel s m md s' : step hwm scheme fuel s (EvSubmit m md) = Some s' ->
  s_strand_timers s' = s_strand_timers s /\ exists u, s_log s' = s_log s ++ ObsSubmit m md :: u /\ Forall own u.
Proof.
  intros H. pose proof (step_wp fuel s (EvSubmit m md) s' _ (submission_grows fuel m md s) H) as (A & u & B & C). split; [exact A|]. exists u. split; [|exact C].
  rewrite B, <- app_assoc. reflexivity.
Qed.
Lemma step_result fuel s m e k s' : step hwm scheme fuel s (EvResult m e k) = Some s' ->
  s_strand_timers s' = s_strand_timers s /\ exists u, s_log s' = s_log s ++ ObsResult m e k :: u /\
  Forall (fun o => own o \/ (k <> RUnmet /\ o = ObsReply m (FromEngine e (okb k)))) u.
Proof.
  intros H. pose proof (step_wp fuel s (EvResult m e k) s' _ (dispatch_result_grows fuel e m k s) H) as (A & u & B & C). split; [exact A|]. exists u. split; [|exact C].
  rewrite B, <- app_assoc. reflexivity.
Qed.
Lemma step_register fuel s e s' : step hwm scheme fuel s (EvRegister e) = Some s' ->
  s_strand_timers s' = s_strand_timers s /\ exists u, s_log s' = s_log s ++ ObsRegister e :: u /\ Forall own u.
Proof.
  intros H. pose proof (step_wp fuel s (EvRegister e) s' _ (register_grows fuel e s) H) as (A & u & B & C). split; [exact A|]. exists u. split; [|exact C].
  rewrite B, <- app_assoc. reflexivity.
Qed.
Lemma step_unregister fuel s e s' : step hwm scheme fuel s (EvUnregister e) = Some s' ->
  length (s_strand_timers s') <= S (length (s_strand_timers s)) /\ s_log s' = s_log s ++ [ObsUnregister e].
Proof.
  intros H. pose proof (step_wp fuel s (EvUnregister e) s' _ (unregister_grows e s) H) as (A & B). split; [|exact A].
  destruct B as [-> | ->]; [|rewrite app_length; simpl]; lia.
Qed.
Lemma step_job_timer fuel s j tid s' : step hwm scheme fuel s (EvJobTimer j tid) = Some s' ->
  s_strand_timers s' = s_strand_timers s /\ exists u, s_log s' = s_log s ++ u /\ Forall own u.
Proof. intros H. exact (step_wp _ _ _ _ _ (job_timer_grows fuel j tid s) H). Qed.
Lemma step_strand fuel s e s' : e ∈ s_strand_timers s -> step hwm scheme fuel s (EvStrandTimer e) = Some s' ->
  S (length (s_strand_timers s')) = length (s_strand_timers s) /\ exists u, s_log s' = s_log s ++ u /\ Forall (for_dead e) u.
Proof. intros Hin H. exact (step_wp _ _ _ _ _ (strand_timer_grows fuel e s Hin) H). Qed.
End Log.
