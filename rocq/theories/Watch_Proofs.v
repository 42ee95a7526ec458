(** Lemmas for C84. *)
From Coq Require Import List Bool Arith Lia.
From Verif Require Import Watch_Model.
Import ListNotations.

Definition inv (remote : bool) (s : launcher) : Prop :=
  queued s + notified s = (match waiter s with Finished => 1 | _ => 0 end) /\
  (waiter s = Finished -> alive s = false) /\ (stop_waiting s = true -> alive s = false) /\
  (running s = false <-> notified s = 1) /\
  (waiter s = Polling false -> alive s = false) /\
  (stop s = Joined -> alive s = false /\ stop_waiting s = true /\ remote = true) /\
  (stop s = Returned -> alive s = false /\ thread_done (waiter s) = true) /\
  (waiter s = Crashed -> remote = true) /\
  (forall b, stop s = Joining b false -> alive s = false).
Lemma inv_started remote : inv remote started.
Proof. unfold inv, started. cbn. repeat split; try discriminate; auto; lia. Qed.
Lemma inv_step remote s l t : inv remote s -> step remote s l t -> inv remote t.
Proof.
  intros (H1 & H2 & H3 & H4 & H5 & H6 & H7 & H8 & H9) ST.
  assert (H10 : running s = false -> waiter s = Finished).
  { intros R. apply H4 in R. destruct (waiter s); auto; lia. }
  destruct ST as [s A|s W SW R|s W C|s a W A|s W|s a RM W|s n Q B|s d C|s b a RM S T|s b a RM S A|s S T|s a d S C|s a d S C|s b a RM S];
    unfold inv; cbn [alive running stop_waiting waiter queued notified sent stop thread_done].
  all: repeat split; intros; subst; try discriminate; try (apply H4; assumption); auto.
  all: try match goal with X : waiter ?s = _, Y : context [waiter ?s] |- _ => rewrite X in * end.
  all: cbn [thread_done] in *.
  all: try match goal with X : stop ?s = Returned, Y : stop ?s = Returned -> _ |- _ => destruct (Y X) as [? ?]; clear Y end; try discriminate; auto.
  all: try match goal with X : stop ?s = Joined, Y : stop ?s = Joined -> _ |- _ => destruct (Y X) as (? & ? & ?); clear Y end; try discriminate; auto.
  all: try (match goal with X : Polling _ = Polling _ |- _ => injection X; auto; fail end).
  all: try (match goal with X : Joining _ _ = Joining _ _ |- _ => injection X; auto; fail end).
  all: try (match goal with X : _ \/ _ |- _ => destruct X as [X|X]; [now auto|specialize (H10 X); congruence] end).
  all: try lia.
  all: try (destruct (waiter s) eqn:W; try discriminate; try lia; auto; fail).
  all: try (eapply H9; eauto; fail).
  destruct (waiter s) eqn:W; try discriminate T; [now apply H2|]. discriminate (H8 eq_refl).
Qed.
Lemma inv_run remote s ls t : run remote s ls t -> inv remote s -> inv remote t.
Proof. induction 1 as [s|s l t ls u ST _ IH]; auto. intros I. apply IH. eapply inv_step; eauto. Qed.
Lemma reach remote ls s : run remote started ls s -> inv remote s.
Proof. intros R. eapply inv_run; eauto using inv_started. Qed.

Lemma dead_stays remote s ls t : run remote s ls t -> alive s = false -> alive t = false.
Proof. induction 1 as [s|s l t ls u ST _ IH]; auto. intros A. apply IH. destruct ST; cbn [alive]; auto. Qed.
(** how far the thread is from its end, once the process is dead *)
Definition left (t : thread) : nat := match t with Polling true => 3 | Head => 2 | Polling false => 1 | _ => 0 end.
Lemma progress remote s ls t : run remote s ls t -> inv remote s -> alive s = false -> ~ In PollFails ls -> waiter s <> Crashed ->
  waiter t <> Crashed /\ left (waiter t) + length (filter of_thread ls) <= left (waiter s).
Proof.
  induction 1 as [s|s l t ls u ST _ IH]; intros I A N W; [cbn [filter length]; split; [exact W|lia]|].
  assert (NL : l <> PollFails) by (intros ->; apply N; now left). assert (NS : ~ In PollFails ls) by (intros X; apply N; now right).
  assert (I' := inv_step _ _ _ _ I ST). destruct I as (_ & I2 & _).
  assert (X : alive t = false /\ waiter t <> Crashed /\ left (waiter t) + (if of_thread l then 1 else 0) <= left (waiter s)).
  { destruct ST; cbn [alive waiter of_thread]; rewrite ?A; repeat split; auto; try discriminate; try congruence; try lia;
      match goal with H : waiter s = _ |- _ => rewrite H end; cbn [left]; try lia; try (destruct a; cbn [left]; lia). }
  destruct X as (A' & W' & L). destruct (IH I' A' NS W') as [X Y]. split; auto. cbn [filter]. destruct (of_thread l); cbn [length]; lia.
Qed.
Lemma left_0 t : left t = 0 -> t <> Crashed -> t = Finished.
Proof. destruct t as [|[|]| |]; cbn [left]; congruence. Qed.
Lemma left_3 t : left t <= 3.
Proof. destruct t as [|[|]| |]; cbn [left]; lia. Qed.
Lemma enabled remote s : inv remote s -> thread_done (waiter s) = false -> alive s = false -> exists l t, of_thread l = true /\ l <> PollFails /\ step remote s l t.
Proof.
  intros I D A. destruct (waiter s) as [|a| |] eqn:W; try discriminate D.
  - destruct (stop_waiting s) eqn:SW; [eexists Check, _; split; [reflexivity|]; split; [discriminate|]; apply S_leave; auto|].
    destruct (running s) eqn:R; eexists Check, _; (split; [reflexivity|]); (split; [discriminate|]); [apply S_poll|apply S_leave]; auto.
  - eexists PollSaysEnded, _. split; [reflexivity|]. split; [discriminate|]. eapply S_ended; eauto.
Qed.
Lemma crashed_stays remote s ls t : run remote s ls t -> waiter s = Crashed -> waiter t = Crashed.
Proof. induction 1 as [s|s l t ls u ST _ IH]; auto. intros W. apply IH. destruct ST; cbn [waiter]; auto; congruence. Qed.
Lemma silent remote s ls t : run remote s ls t -> running s = false -> sent t = sent s /\ running t = false.
Proof.
  induction 1 as [s|s l t ls u ST _ IH]; auto. intros R. assert (X : sent t = sent s /\ running t = false).
  { destruct ST; cbn [sent running]; auto; unfold signalled; rewrite R; auto. }
  destruct X as [X Y]. destruct (IH Y) as [Z W]. split; [congruence|exact W].
Qed.
(** how far stop() is *)
Definition stage (s : stopping) : nat := match s with Joining false _ => 3 | Joining true _ => 2 | Joined => 1 | _ => 0 end.
Lemma stop_moves remote s l t : step remote s l t -> can_stop (stop s) = false -> of_stop l = true -> stage (stop t) < stage (stop s).
Proof.
  intros ST C O. destruct ST; cbn [stop of_stop] in *; try discriminate O; try congruence; try (rewrite H0; destruct b; cbn [stage]; lia); try (rewrite H; cbn [stage]; lia).
Qed.
Lemma stop_others remote s l t : step remote s l t -> of_stop l = false -> stop t = stop s.
Proof. intros ST O. destruct ST; cbn [stop of_stop] in *; auto; discriminate O. Qed.
