(** A reusable proof rule: an invariant kept by the elementary actions of the scheduler is kept by
    maybe_run, fail_unreachable, save_unmet and update_graph. *)
From stdpp Require Import base gmap sets list.
From Verif Require Import Dependency_Model Dependency_Spec Dependency_Proofs Sched_Trace Sched_Spec Sched_Model Sched_Base.
From Verif Require Prelude.
From Coq Require Import ZArith Lia.

(** No requirement. *)
Definition any_reason (t : list obs) (m : nat) (w : why) : Prop := True.

Section Traverse.
Context (hwm : nat) (scheme : nat -> list Z -> nat).

(** State after line 591 of submit_task. *)
Definition sent (m idx target : nat) (s : sched) : sched :=
  set_loads (rotate idx) (set_targets (rotate idx) (set_loads (alter (fun x => (x + 1)%Z) idx)
    (set_log (fun l => l ++ [ObsSend m target]) (set_draws S s)))).

(** What is known about a job that may be sent: chosen for each invariant. *)
Context (G : sched -> job -> Prop).

(** What is known when a task is sent. *)
Definition sendable (s : sched) (j : nat) (jb : job) (idx : nat) : Prop :=
  s_jobs s !! j = Some jb /\ G s jb /\
  ((hwm = 0 /\ d_ids (j_follow jb) = ∅ /\ j_targets jb = ∅ /\ j_blacklist jb = ∅) \/
   (idx ∈ available_engines hwm s /\ can_run hwm s jb idx = Some true)).

(** The final states of fail_unreachable before it calls update_graph. *)
Definition failed_state (m : nat) (w : why) (s : sched) : sched :=
  set_log (fun l => l ++ [ObsReply m (Unreachable w)])
    (set_all_failed (fun X => {[m]} ∪ X) (set_all_done (fun X => {[m]} ∪ X) s)).

Definition shrink (x : job) : job := set_jtargets (j_targets x ∖ j_blacklist x) x.

(** Why the scheduler gives up on a task: what is known at each call of fail_unreachable. *)
Definition bad_dep (m : nat) (ids : gset nat) (d : dep) : Prop := d_ids d <> ∅ /\ (m ∈ d_ids d \/ ~ d_ids d ⊆ ids).
Definition reason (s : sched) (m : nat) (w : why) : Prop :=
  exists j jb, s_jobs s !! j = Some jb /\ j_msg jb = m /\
  match w with
  | TaskTimeout => j_timeout_id jb <> 0
  | InvalidDep => bad_dep m (s_all_ids s) (j_after jb) \/ bad_dep m (s_all_ids s) (j_follow jb)
  | ImpossibleDep =>
      unreachable (j_after jb) (s_all_completed s) (s_all_failed s) = true \/
      unreachable (j_follow jb) (s_all_completed s) (s_all_failed s) = true \/
      (d_all (j_follow jb) = true /\ exists X, follow_dests s jb = Some X /\ 1 < size X) \/
      (j_targets jb <> ∅ /\ (j_targets jb ∖ j_blacklist jb) ∩ list_to_set (s_targets s) = ∅)
  end.
(** What an invariant wants to know about the failures reported so far. *)
Context (R : list obs -> nat -> why -> Prop).

Context (I : sched -> Prop).
Record kept := Kept {
  k_graph : forall s g, I s -> I (set_graph g s);
  k_qmap : forall s g, I s -> I (set_qmap g s);
  k_queue : forall s g, I s -> I (set_queue g s);
  k_jtimers : forall s j n, I s -> n <> 0 -> I (set_job_timers (fun l => l ++ [(j, n)]) s);
  k_draws : forall s g, I s -> I (set_draws g s);
  k_guard : forall s j jb, I s -> s_jobs s !! j = Some jb -> j_removed jb = false ->
     check (j_after jb) (s_all_completed s) (s_all_failed s) = true -> G s jb;
  k_remove : forall s j, I s -> I (set_jobs (alter set_removed j) s);
  k_timeout_id : forall s j n, I s -> (forall jb, s_jobs s !! j = Some jb -> j_timeout jb = true) ->
     I (set_jobs (alter (fun x => set_timeout_id (n x) x) j) s);
  k_shrink : forall s j jb, I s -> s_jobs s !! j = Some jb ->
     j_targets jb ∖ j_blacklist jb <> ∅ -> I (set_jobs (alter shrink j) s);
  k_shrink_remove : forall s j jb, I s -> s_jobs s !! j = Some jb ->
     I (set_jobs (alter set_removed j) (set_jobs (alter shrink j) s));
  k_reason : forall s m w, I s -> reason s m w -> R (s_log s) m w;
  k_fail : forall s m w, I s -> R (s_log s) m w -> I (failed_state m w s);
  k_send : forall s j jb idx target, I s -> sendable s j jb idx -> s_targets s !! idx = Some target ->
     match s_pending s !! target with
     | None => I (sent (j_msg jb) idx target s)
     | Some l => I (set_pending (<[target := al_insert (j_msg jb) j l]>) (sent (j_msg jb) idx target s))
     end }.
Context (K : kept).

Definition keeps {A} (m : M A) : Prop := forall s, I s -> wp m (fun _ => I) I s.

Lemma submit_task_keeps j jb ix s :
  I s -> s_jobs s !! j = Some jb ->
  (match ix with
   | Some l => forall i, i ∈ l -> sendable s j jb i
   | None => forall i, sendable s j jb i end) ->
  wp (submit_task scheme j ix) (fun _ => I) I s.
Proof.
  intros HI Hj Hix. unfold submit_task.
  apply wp_bind, wp_get_job; [|intros _; exact HI].
  intros jb' Hjb'. rewrite Hj in Hjb'. injection Hjb' as <-.
  apply wp_bind, wp_get. apply wp_bind, wp_get. cbv zeta.
  apply wp_bind, wp_upd.
  set (loads := match ix with Some l => omap (fun i => s_loads s !! i) l | None => s_loads s end).
  set (k := scheme (s_draws s) loads).
  assert (HId : I (set_draws S s)) by (apply (k_draws K), HI).
  assert (Hfin : forall idx, sendable s j jb idx ->
    wp (do tg <- get s_targets; do target <- of_option (tg !! idx);
        emit (ObsSend (j_msg jb) target);; add_job idx;;
        (do pd <- get s_pending; do l <- of_option (pd !! target);
         upd (set_pending <[target:=al_insert (j_msg jb) j l]>))) (fun _ => I) I (set_draws S s)).
  { intros idx Hs. apply wp_bind, wp_get. apply wp_bind, wp_of_option; [|intros _; exact HId].
    intros target Ht. simpl in Ht. pose proof (k_send K s j jb idx target HI Hs Ht) as Hk.
    apply wp_bind, wp_upd. apply wp_bind. unfold add_job.
    apply wp_bind, wp_upd. apply wp_bind, wp_upd. apply wp_upd.
    apply wp_bind, wp_get. apply wp_bind, wp_of_option; simpl.
    - intros l Hl. rewrite Hl in Hk. apply wp_upd. exact Hk.
    - intros Hl. rewrite Hl in Hk. exact Hk. }
  destruct ix as [l|].
  - apply wp_bind, wp_of_option; [|intros _; exact HId]. intros idx Hidx.
    apply Hfin. apply Hix. eapply elem_of_list_lookup_2; eauto.
  - apply wp_bind, wp_ret. apply Hfin. apply Hix.
Qed.

Lemma filter_can_run_spec s jb l l' :
  filter_can_run hwm s jb l = Some l' -> forall i, i ∈ l' -> i ∈ l /\ can_run hwm s jb i = Some true.
Proof.
  revert l'; induction l as [|x l IH]; simpl; intros l' H i Hi.
  - injection H as <-. inversion Hi.
  - destruct (can_run hwm s jb x) as [b|] eqn:Eb; [|discriminate].
    destruct (filter_can_run hwm s jb l) as [r|]; [|discriminate]. injection H as <-.
    destruct b.
    + apply elem_of_cons in Hi as [->|Hi]; [split; [left|exact Eb]|].
      destruct (IH r eq_refl i Hi); split; [right|]; assumption.
    + destruct (IH r eq_refl i Hi); split; [right|]; assumption.
Qed.

(** fail_unreachable, from a state where the job becomes fine once removed. *)
Lemma fail_unreachable_keeps ug m w s :
  (forall d, keeps (ug d)) ->
  R (s_log s) m w ->
  match s_qmap s !! m with None => I s | Some j => I (set_jobs (alter set_removed j) s) end ->
  wp (fail_unreachable ug m w) (fun _ => I) I s.
Proof.
  intros Hug HR HI. unfold fail_unreachable. apply wp_bind, wp_get.
  destruct (s_qmap s !! m) as [j|]; [|apply wp_ret; exact HI].
  apply wp_bind, wp_upd. apply wp_bind, wp_upd.
  set (s1 := set_jobs (alter set_removed j) (set_qmap (delete m) s)).
  assert (HI1 : I s1) by exact (k_qmap K _ (delete m) HI).
  apply wp_bind, wp_get_job; [|intros _; exact HI1]. intros jb Hjb.
  apply wp_bind, wp_graph_remove; intros g; [|apply (k_graph K), HI1].
  apply wp_bind, wp_upd. apply wp_bind, wp_upd. apply wp_bind, wp_upd.
  apply Hug. apply (k_fail K (set_graph (fun _ => g) s1) m w); [|exact HR]. apply (k_graph K), HI1.
Qed.

Lemma check_targets_keeps ug j s :
  (forall d, keeps (ug d)) -> I s -> wp (check_targets ug j) (fun _ => I) I s.
Proof.
  intros Hug HI. unfold check_targets.
  apply wp_bind, wp_get_job; [|intros _; exact HI]. intros jb Hjb.
  destruct (decide (j_targets jb = ∅)); [apply wp_ret; exact HI|].
  apply wp_bind, wp_upd.
  set (s1 := set_jobs (alter (fun x => set_jtargets (j_targets x ∖ j_blacklist x) x) j) s).
  assert (Hj1 : s_jobs s1 !! j = Some (shrink jb)).
  { simpl. rewrite lookup_alter, Hjb. reflexivity. }
  apply wp_bind, wp_get_job; [|intros E; congruence]. intros jb1 Hjb1.
  rewrite Hj1 in Hjb1. injection Hjb1 as <-.
  apply wp_bind, wp_get.
  destruct (decide _) as [Hd|Hd].
  - apply wp_bind, wp_upd. apply wp_bind.
    eapply wp_mono; [apply fail_unreachable_keeps; [exact Hug| |]| |auto].
    + apply (k_reason K s (j_msg jb) ImpossibleDep HI). exists j, jb. split; [exact Hjb|]. split; [reflexivity|].
      right. right. right. split; [assumption|]. simpl in Hd. destruct Hd as [Hd|Hd]; [|exact Hd]. rewrite Hd. set_solver.
    + simpl. rewrite lookup_insert.
      exact (k_qmap K _ (insert (j_msg jb) j) (k_shrink_remove K s j jb HI Hjb)).
    + intros a s' H. exact H.
  - apply wp_ret. apply (k_shrink K s j jb HI Hjb). intros E. apply Hd. left. exact E.
Qed.

Lemma maybe_run_keeps ug j jb s :
  (forall d, keeps (ug d)) -> I s -> s_jobs s !! j = Some jb -> G s jb ->
  wp (maybe_run hwm scheme ug j) (fun _ => I) I s.
Proof.
  intros Hug HI Hj Hc. unfold maybe_run.
  apply wp_bind, wp_get_job; [|intros _; exact HI]. intros jb' Hjb'.
  rewrite Hj in Hjb'. injection Hjb' as <-.
  apply wp_bind, wp_get.
  destruct (decide (available_engines hwm s = [])); [apply wp_ret; exact HI|].
  destruct (decide (d_ids (j_follow jb) <> ∅ \/ _)) as [Hd|Hd].
  - apply wp_bind, wp_get. apply wp_bind, wp_of_option; [|intros _; exact HI].
    intros ix Hix. destruct (decide (ix = [])).
    + destruct (d_all (j_follow jb)) eqn:Eall.
      * apply wp_bind, wp_get. apply wp_bind, wp_of_option; [|intros _; exact HI].
        intros dests Hdests. destruct (decide (1 < size dests)); [|apply check_targets_keeps; assumption].
        apply wp_bind, wp_upd. apply wp_bind.
        eapply wp_mono; [apply fail_unreachable_keeps; [exact Hug| |]| |auto].
        -- apply (k_reason K s (j_msg jb) ImpossibleDep HI). exists j, jb. split; [exact Hj|]. split; [reflexivity|].
           right. right. left. split; [assumption|]. eauto.
        -- simpl. rewrite lookup_insert.
           exact (k_qmap K _ (insert (j_msg jb) j) (k_remove K s j HI)).
        -- intros a s' H. exact H.
      * apply check_targets_keeps; assumption.
    + apply wp_bind. eapply wp_mono; [eapply submit_task_keeps; [exact HI|exact Hj|]| |auto].
      * intros i Hi. destruct (filter_can_run_spec _ _ _ _ Hix i Hi).
        split; [exact Hj|]. split; [exact Hc|]. right. split; assumption.
      * intros a s' H. exact H.
  - apply wp_bind. eapply wp_mono; [eapply submit_task_keeps; [exact HI|exact Hj|]| |auto].
    + intros i. split; [exact Hj|]. split; [exact Hc|]. left.
      repeat split; apply dec_stable; tauto.
    + intros a s' H. exact H.
Qed.

Lemma save_unmet_keeps j : keeps (save_unmet j).
Proof.
  intros s HI. unfold save_unmet.
  apply wp_bind, wp_get_job; [|intros _; exact HI]. intros jb Hj.
  apply wp_bind, wp_upd. apply wp_bind, wp_upd. apply wp_bind, wp_get. apply wp_bind, wp_save_graph.
  intros g. set (s1 := set_graph _ _).
  assert (HI1 : I s1) by (apply (k_graph K), (k_queue K), (k_qmap K), HI).
  destruct (j_timeout jb) eqn:Et; [|apply wp_ret; exact HI1].
  apply wp_bind, wp_upd. apply wp_upd. apply (k_jtimers K); [|lia]. apply (k_timeout_id K); [exact HI1|].
  intros jb' Hjb'. simpl in Hjb'. congruence.
Qed.

Lemma ug_body_keeps ug j jb s :
  (forall d, keeps (ug d)) -> I s -> s_jobs s !! j = Some jb -> j_removed jb = false ->
  wp (ug_body hwm scheme ug j) (fun _ => I) I s.
Proof.
  intros Hug HI Hj Hr. unfold ug_body.
  apply wp_bind, wp_get_job; [|intros _; exact HI]. intros jb' Hjb'.
  rewrite Hj in Hjb'. injection Hjb' as <-.
  apply wp_bind, wp_get. apply wp_bind, wp_get.
  destruct (_ || _) eqn:Eunr.
  - apply wp_bind. eapply wp_mono; [apply fail_unreachable_keeps; [exact Hug| |]| |auto].
    + apply (k_reason K s (j_msg jb) ImpossibleDep HI). exists j, jb. split; [exact Hj|]. split; [reflexivity|].
      apply orb_true_iff in Eunr as [?|?]; auto.
    + destruct (s_qmap s !! j_msg jb) as [j'|]; [|exact HI]. apply (k_remove K), HI.
    + intros a s' H. exact H.
  - destruct (check (j_after jb) _ _) eqn:Ec; [|apply wp_ret; exact HI].
    apply wp_bind. eapply wp_mono; [eapply maybe_run_keeps; eauto| |auto].
    + eapply (k_guard K); eauto.
    + intros ran s' HI'. cbv beta. destruct ran; [|apply wp_ret; exact HI'].
      apply wp_bind, wp_get. destruct (decide _); [|apply wp_raise; exact HI'].
      apply wp_bind, wp_upd. assert (HI2 := k_qmap K s' (delete (j_msg jb)) HI').
      apply wp_bind, wp_get_job; [|intros _; exact HI2]. intros jb2 _.
      apply wp_bind, wp_graph_remove; intros g; [|apply (k_graph K), HI2].
      apply wp_bind, wp_get, wp_ret. apply (k_graph K), HI2.
Qed.

Lemma queue_loop_keeps ug fuel back : (forall d, keeps (ug d)) -> keeps (queue_loop hwm scheme ug fuel back).
Proof.
  intros Hug. revert back. induction fuel as [|fuel IH]; intros back s HI; [exact Logic.I|].
  simpl. apply wp_bind, wp_get. destruct (s_queue s) as [|j q]; [apply wp_ret; exact HI|].
  apply wp_bind, wp_upd. assert (HI1 := k_queue K s (fun _ => q) HI).
  apply wp_bind, wp_get_job; [|intros _; exact HI1]. intros jb Hj.
  destruct (j_removed jb) eqn:Er; [apply IH; exact HI1|].
  apply wp_bind. eapply wp_mono; [eapply ug_body_keeps; eauto| |auto].
  intros [b1 b2] s' HI'. cbv beta zeta. simpl. destruct b2; [apply wp_ret; exact HI'|]. apply IH. exact HI'.
Qed.

Lemma list_loop_keeps ug js : (forall d, keeps (ug d)) -> keeps (list_loop hwm scheme ug js).
Proof.
  intros Hug. induction js as [|j js IH]; intros s HI; simpl; [apply wp_ret; exact HI|].
  apply wp_bind, wp_get_job; [|intros _; exact HI]. intros jb Hj.
  destruct (j_removed jb) eqn:Er; [apply IH; exact HI|].
  apply wp_bind. eapply wp_mono; [eapply ug_body_keeps; eauto| |auto].
  intros [b1 b2] s' HI'. cbv beta zeta. simpl. destruct b2; [apply wp_ret; exact HI'|]. apply IH. exact HI'.
Qed.

Lemma update_graph_keeps fuel d : keeps (update_graph hwm scheme fuel d).
Proof.
  revert d. induction fuel as [|n IH]; intros d s HI; [exact Logic.I|].
  cbn [update_graph]. apply wp_bind, wp_get. cbv zeta. apply wp_bind, wp_upd.
  set (s1 := set_graph _ s). assert (HI1 : I s1) by (apply (k_graph K), HI).
  apply wp_bind, wp_get. destruct (decide _).
  - apply wp_bind. eapply wp_mono; [apply queue_loop_keeps; [exact IH|exact HI1]| |auto].
    intros back s' HI'. apply wp_upd. apply (k_queue K), HI'.
  - apply wp_bind, wp_get. destruct (mapM _ _) as [js|]; [|apply wp_raise; exact HI1].
    apply list_loop_keeps; [exact IH|exact HI1].
Qed.

(** Line 673-680 and 410-432 use these parts as follows. *)
Lemma fail_now_keeps fuel j m w s :
  I s -> R (s_log s) m w ->
  wp (upd (set_qmap (<[m := j]>)) ;; fail_unreachable (update_graph hwm scheme fuel) m w) (fun _ => I) I s.
Proof.
  intros HI HR. apply wp_bind, wp_upd. apply fail_unreachable_keeps; [apply update_graph_keeps|exact HR|].
  simpl. rewrite lookup_insert. exact (k_qmap K _ (insert m j) (k_remove K s j HI)).
Qed.

Lemma job_timeout_keeps fuel j tid s : I s -> 
  (forall jb, s_jobs s !! j = Some jb -> j_timeout_id jb = tid -> R (s_log s) (j_msg jb) TaskTimeout) ->
  wp (job_timeout hwm scheme fuel j tid) (fun _ => I) I s.
Proof.
  intros HI HR. unfold job_timeout. apply wp_bind, wp_get_job; [|intros _; exact HI]. intros jb Hj.
  destruct (decide _); [|apply wp_ret; exact HI]. apply wp_bind, wp_get.
  destruct (decide _); [|apply wp_ret; exact HI].
  apply fail_unreachable_keeps; [apply update_graph_keeps|auto|].
  destruct (s_qmap s !! _); [apply (k_remove K)|]; exact HI.
Qed.

Lemma run_or_save_keeps fuel j jb m s :
  I s -> s_jobs s !! j = Some jb -> G s jb ->
  wp (do ran <- maybe_run hwm scheme (update_graph hwm scheme fuel) j;
      if (ran : bool) then ret tt
      else do fl <- get s_all_failed; if decide (m ∈ fl) then ret tt else save_unmet j)
     (fun _ => I) I s.
Proof.
  intros HI Hj Hc. apply wp_bind.
  eapply wp_mono; [eapply maybe_run_keeps; eauto; apply update_graph_keeps| |auto].
  intros ran s' HI'. cbv beta. destruct ran; [apply wp_ret; exact HI'|].
  apply wp_bind, wp_get. destruct (decide _); [apply wp_ret; exact HI'|]. apply save_unmet_keeps; exact HI'.
Qed.

Lemma unmet_tail_keeps fuel e s : I s -> 
  wp (if decide (hwm = 0) then ret tt
  else
    do tg <- get s_targets;
    match index_of e tg with
    | None => ret tt
    | Some idx =>
        do lds <- get s_loads;
        if decide (lds !! idx = Some (Z.of_nat hwm - 1)%Z) then update_graph hwm scheme fuel None
        else ret tt
    end) (fun _ => I) I s.
Proof.
  intros HI. destruct (decide _); [apply wp_ret; exact HI|].
  apply wp_bind, wp_get. destruct (index_of _ _); [|apply wp_ret; exact HI].
  apply wp_bind, wp_get. destruct (decide _); [apply update_graph_keeps; exact HI|apply wp_ret; exact HI].
Qed.
End Traverse.
