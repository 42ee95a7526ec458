(** C84: a launcher notices the end of its process, once, and stop() ends it. *)
From Coq Require Import List Bool Arith Lia.
From Verif Require Import Watch_Model Watch_Proofs.
Import ListNotations.

(** The end is announced at most once, and only after the process has ended; until then the launcher counts as running. *)
Theorem C84_safe (remote : bool) (ls : list label) (s : launcher) : run remote started ls s ->
  notified s <= 1 /\ (notified s = 1 -> alive s = false) /\ (running s = false <-> notified s = 1).
Proof.
  intros R. destruct (reach _ _ _ R) as (H1 & H2 & _ & H4 & _). split; [destruct (waiter s); lia|]. split; [|exact H4]. intros N. apply H2. destruct (waiter s); auto; lia.
Qed.
Print Assumptions C84_safe.

Lemma no_fail_run remote s ls t : run remote s ls t -> (remote = false \/ ~ In PollFails ls) -> waiter s <> Crashed -> waiter t <> Crashed.
Proof.
  induction 1 as [s|s l t ls u ST _ IH]; auto. intros H W. apply IH.
  - destruct H as [H|H]; [now left|right]. intros X. apply H. now right.
  - destruct ST; cbn [waiter]; auto; try discriminate. destruct H as [H|H]; [congruence|]. exfalso. apply H. now left.
Qed.
Lemma local_no_fail remote s ls t : run remote s ls t -> remote = false -> ~ In PollFails ls.
Proof. induction 1 as [s|s l t ls u ST _ IH]; intros E; [intros []|]. intros [->|X]; [inversion ST; congruence|now apply IH]. Qed.
(** Once the process has ended, three steps of the thread are enough (a poll that began before, a check, another poll), unless a poll fails, which only one over ssh can. *)
Theorem C84_noticed (remote : bool) (ls ls' : list label) (s t : launcher) :
  run remote started ls s -> alive s = false -> run remote s ls' t -> remote = false \/ ~ In PollFails (ls ++ ls') ->
  length (filter of_thread ls') >= 3 \/ waiter t = Finished -> queued t + notified t = 1.
Proof.
  intros R A R' NF T. assert (I := reach _ _ _ R). assert (I' := inv_run _ _ _ _ R' I).
  assert (NF1 : remote = false \/ ~ In PollFails ls) by (destruct NF as [X|X]; [now left|right; intros Y; apply X, in_or_app; now left]).
  assert (W : waiter s <> Crashed) by (apply (no_fail_run _ _ _ _ R NF1); discriminate).
  assert (NF2 : ~ In PollFails ls') by (destruct NF as [X|X]; [eapply local_no_fail; eauto|intros Y; apply X, in_or_app; now right]).
  destruct (progress _ _ _ _ R' I A NF2 W) as [WC L]. destruct I' as (H1 & _).
  destruct T as [T|T]; [|rewrite T in H1; exact H1]. assert (L3 := left_3 (waiter s)). assert (E : waiter t = Finished) by (apply left_0; [lia|exact WC]). rewrite E in H1. exact H1.
Qed.
Print Assumptions C84_noticed.
(** Nothing waits for ever: as long as the end of a process that has ended has not been announced, the thread, the event loop or stop() can go on without a failure. *)
Theorem C84_not_stuck (remote : bool) (ls : list label) (s : launcher) : run remote started ls s -> alive s = false -> remote = false \/ ~ In PollFails ls -> notified s = 0 ->
  exists l t, step remote s l t /\ (of_thread l = true /\ l <> PollFails \/ l = Callback \/ l = JoinEnds \/ l = ThreadJoined).
Proof.
  intros R A NF N. assert (I := reach _ _ _ R). assert (W : waiter s <> Crashed) by (apply (no_fail_run _ _ _ _ R NF); discriminate).
  destruct (thread_done (waiter s)) eqn:D.
  - assert (F : waiter s = Finished) by (destruct (waiter s); try discriminate D; congruence). assert (Q : queued s = 1) by (destruct I as (H1 & _); rewrite F in H1; lia).
    destruct (blocked remote (stop s)) eqn:B; [|exists Callback; eexists; split; [eapply S_callback; [exact Q|rewrite ?S; exact B]|auto]].
    destruct (stop s) as [|b a| | |] eqn:S; try discriminate B.
    + destruct remote; [discriminate B|]. exists JoinEnds. eexists. split; [eapply S_join_local; eauto|auto].
    + exists ThreadJoined. eexists. split; [now apply S_thread_joined|auto].
  - destruct (enabled remote s I D A) as (l & t & O & NL & ST). exists l, t. auto.
Qed.
Print Assumptions C84_not_stuck.

(** When stop() has returned, the process has ended, and its end has been announced or is about to be (unless a poll failed). *)
Theorem C84_stop (remote : bool) (ls : list label) (s : launcher) : run remote started ls s -> stop s = Returned ->
  alive s = false /\ (remote = false \/ ~ In PollFails ls -> queued s + notified s = 1).
Proof.
  intros R S. assert (I := reach _ _ _ R). destruct I as (H1 & _ & _ & _ & _ & _ & H7 & _). destruct (H7 S) as [A D]. split; auto. intros NF.
  assert (W : waiter s <> Crashed) by (apply (no_fail_run _ _ _ _ R NF); discriminate). destruct (waiter s); try discriminate D; [exact H1|congruence].
Qed.
Print Assumptions C84_stop.
(** stop() takes at most three steps after the first signal, and can always take one, or the thread it waits for can. *)
Theorem C84_stop_ends (remote : bool) (ls ls' : list label) (s t : launcher) : run remote started ls s -> can_stop (stop s) = false -> run remote s ls' t ->
  (forall d, ~ In (StopCalled d) ls') ->
  length (filter of_stop ls') <= 3 /\
  exists l u, step remote s l u /\ (of_stop l = true /\ l <> JoinFails \/ of_thread l = true /\ l <> PollFails /\ alive s = false).
Proof.
  intros R C R' NS. assert (I := reach _ _ _ R). split.
  - assert (X : can_stop (stop s) = false \/ stage (stop s) = 0) by now left. clear C R I.
    assert (Y : length (filter of_stop ls') <= stage (stop s)); [|destruct (stop s) as [|[|] ?| | |]; cbn [stage] in Y; lia].
    revert X. induction R' as [s|s l t ls' u ST _ IH]; intros X; cbn [filter length]; [lia|].
    assert (NS' : forall d, ~ In (StopCalled d) ls') by (intros d Y; apply (NS d); now right). specialize (IH NS').
    destruct (of_stop l) eqn:O; cbn [length].
    + assert (NL : forall d, l <> StopCalled d) by (intros d ->; apply (NS d); now left).
      assert (CS : can_stop (stop s) = false). { destruct ST; cbn [of_stop] in O; try discriminate O; try (rewrite H0; reflexivity); try (rewrite H; reflexivity). now destruct (NL delivered). }
      assert (M := stop_moves _ _ _ _ ST CS O). assert (Z : can_stop (stop t) = false \/ stage (stop t) = 0) by (destruct (stop t) as [|[|] ?| | |]; cbn; auto). specialize (IH Z). lia.
    + rewrite (stop_others _ _ _ _ ST O) in IH. auto.
  - destruct (stop s) as [|b a| | |] eqn:S; try discriminate C.
    + destruct remote.
      * destruct (alive s) eqn:A; [|exists JoinEnds; eexists; split; [eapply S_join_remote; eauto|left; split; [reflexivity|discriminate]]].
        assert (T : a = true) by (destruct a; auto; destruct I as (_ & _ & _ & _ & _ & _ & _ & _ & H9); specialize (H9 b S); congruence).
        exists (JoinTimesOut true). destruct b; eexists; (split; [|left; split; [reflexivity|discriminate]]); [eapply S_timeout_again; eauto|eapply S_timeout; eauto].
      * destruct (thread_done (waiter s)) eqn:D; [exists JoinEnds; eexists; split; [eapply S_join_local; eauto|left; split; [reflexivity|discriminate]]|].
        exists (JoinTimesOut true). destruct b; eexists; (split; [|left; split; [reflexivity|discriminate]]); [eapply S_timeout_again; eauto|eapply S_timeout; eauto].
    + destruct (thread_done (waiter s)) eqn:D; [exists ThreadJoined; eexists; split; [now apply S_thread_joined|left; split; [reflexivity|discriminate]]|].
      assert (A : alive s = false) by (destruct I as (_ & _ & _ & _ & _ & H6 & _); now apply H6).
      destruct (enabled remote s I D A) as (l & u & O & NL & ST). exists l, u. auto.
Qed.
Print Assumptions C84_stop_ends.
(** No signal is sent once the end has been announced; KILL is sent only after a wait for the end has timed out, TERM only by stop(). *)
Theorem C84_signals (remote : bool) (ls ls' : list label) (s t : launcher) : run remote started ls s ->
  (In Kill (sent s) -> exists d, In (JoinTimesOut d) ls) /\ (In Term (sent s) -> In (StopCalled true) ls) /\
  (notified s = 1 -> run remote s ls' t -> sent t = sent s).
Proof.
  intros R. split; [|split].
  - assert (G : forall s0 ls s, run remote s0 ls s -> In Kill (sent s) -> In Kill (sent s0) \/ exists d, In (JoinTimesOut d) ls).
    { clear. induction 1 as [s|s l t ls u ST _ IH]; auto. intros H. destruct (IH H) as [X|(d & X)]; [|right; exists d; now right].
      destruct ST; cbn [sent] in X; auto; unfold signalled in X; destruct (running s && delivered); auto; destruct X as [X|X]; auto; try discriminate X. right. exists delivered. now left. }
    intros H. destruct (G _ _ _ R H) as [[]|X]. exact X.
  - assert (G : forall s0 ls s, run remote s0 ls s -> In Term (sent s) -> In Term (sent s0) \/ In (StopCalled true) ls).
    { clear. induction 1 as [s|s l t ls u ST _ IH]; auto. intros H. destruct (IH H) as [X|X]; [|right; now right].
      destruct ST; cbn [sent] in X; auto; unfold signalled in X; destruct (running s && delivered) eqn:E; auto; destruct X as [X|X]; auto; try discriminate X.
      right. left. apply andb_true_iff in E. destruct E as [_ ->]. reflexivity. }
    intros H. destruct (G _ _ _ R H) as [[]|X]. exact X.
  - intros N R'. destruct (C84_safe _ _ _ R) as (_ & _ & Q). apply Q in N. now apply (silent _ _ _ _ R' N).
Qed.
Print Assumptions C84_signals.

(** stop() gives up only after KILL has been sent, unless the end was announced, or sending it or waiting failed. *)
Theorem C84_kill (remote : bool) (ls : list label) (s : launcher) : run remote started ls s -> stop s = Raised -> ~ In JoinFails ls -> ~ In (JoinTimesOut false) ls ->
  In Kill (sent s) \/ notified s = 1.
Proof.
  intros R S N1 N2. assert (Q := proj2 (proj2 (C84_safe _ _ _ R))). rewrite <- Q. clear Q.
  assert (G : forall s0 ls s, run remote s0 ls s -> ~ In JoinFails ls -> ~ In (JoinTimesOut false) ls ->
     (match stop s0 with Joining true _ | Raised => In Kill (sent s0) \/ running s0 = false | _ => True end) ->
     match stop s with Joining true _ | Raised => In Kill (sent s) \/ running s = false | _ => True end).
  { clear. induction 1 as [s|s l t ls u ST _ IH]; auto. intros N1 N2 H. apply IH; [intros X; apply N1; now right|intros X; apply N2; now right|].
    destruct ST; cbn [stop sent running]; auto.
    - destruct (stop s) as [|[|] ?| | |]; tauto.
    - destruct delivered; [|exfalso; apply N2; now left]. unfold signalled. destruct (running s); cbn [andb]; [left; now left|now right].
    - rewrite H0 in H. exact H.
    - exfalso. apply N1. now left. }
  specialize (G _ _ _ R N1 N2 I). now rewrite S in G.
Qed.
Print Assumptions C84_kill.

Ltac tidy := cbv beta iota delta [alive running stop_waiting waiter queued notified sent stop signalled started andb].
Ltac go c := eapply Run_cons; [eapply c; reflexivity|]; tidy.
(** A process that ignores TERM: stop() sends KILL, returns, and the end is announced. *)
Example C84_ex_stop : exists s, run true started [Check; StopCalled true; PollSaysRunning; Check; JoinTimesOut true; Ends; JoinEnds; PollSaysEnded; ThreadJoined; Callback] s /\
  stop s = Returned /\ sent s = [Kill; Term] /\ notified s = 1.
Proof.
  eexists. split; [|split; [|split]].
  - tidy. go S_poll. go S_stop. go S_running. go S_poll.
    go S_timeout. go S_ends. go S_join_remote.
    go S_ended. go S_thread_joined. go S_callback. apply Run_nil.
  - reflexivity.
  - reflexivity.
  - reflexivity.
Qed.
(** A local process that ends by itself *)
Example C84_ex_local : exists s, run false started [Check; Ends; PollSaysEnded; Callback] s /\ notified s = 1.
Proof.
  eexists. split.
  - go S_poll. go S_ends. go S_ended.
    go S_callback. apply Run_nil.
  - reflexivity.
Qed.
(** One poll over ssh that fails, and the end is never announced, whatever happens: the launcher counts as running for ever, also after stop() has returned. *)
Theorem C84_failed_poll_refuted : exists s, run true started [Check; PollFails; Ends] s /\
  (forall ls t, run true s ls t -> notified t = 0 /\ running t = true) /\ exists ls t, run true s ls t /\ stop t = Returned.
Proof.
  eexists. split; [|split].
  - go S_poll. go S_fails. go S_ends. apply Run_nil.
  - intros ls t R. assert (I0 : inv true (Launcher false true false Crashed 0 0 [] Idle)) by (unfold inv; cbn; repeat split; intros; try discriminate; auto; lia).
    assert (I := inv_run _ _ _ _ R I0). assert (W : waiter t = Crashed) by (eapply crashed_stays; eauto). destruct I as (H1 & _ & _ & H4 & _). rewrite W in H1. split; [lia|].
    destruct (running t) eqn:E; auto. destruct H4 as [H4 _]. specialize (H4 eq_refl). lia.
  - exists [StopCalled false; JoinEnds; ThreadJoined]. eexists. split.
    + go S_stop. go S_join_remote. go S_thread_joined. apply Run_nil.
    + reflexivity.
Qed.
(** If the connection fails while stop() waits after TERM, it raises and KILL is not sent, though the process may go on. *)
Theorem C84_stop_fails_refuted : exists s, run true started [StopCalled true; JoinFails] s /\ stop s = Raised /\ alive s = true /\ sent s = [Term].
Proof.
  eexists. split; [|repeat split].
  - go S_stop. go S_join_fails. apply Run_nil.
  - reflexivity.
  - reflexivity.
  - reflexivity.
Qed.
