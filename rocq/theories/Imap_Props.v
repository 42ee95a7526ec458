(** Property theorem C32: LoadBalancedView.imap (client/view.py). *)
From Coq Require Import List Arith String Bool Permutation Lia.
From Verif Require Import Async_Spec Async_Model Async_Proofs Imap_Spec Imap_Model Imap_Proofs.
Import ListNotations.

(** [reached es s]: the imap was started and the steps [es] of the threads happened. *)
Notation reached ordered limit ret inputs outcome_of es s := (run ordered limit ret inputs outcome_of (start limit) es = Some s).

(** ordered=True: at any time what has been yielded is the results of the first inputs, in order, each after it had arrived. *)
Theorem C32_ordered : forall (V : Type) limit ret inputs (outcome_of : nat -> outcome V) es s,
  reached true limit ret inputs outcome_of es s ->
  exists n, yielded s = map outcome_of (seq 0 n) /\ n <= pos s /\ forall k, k < n -> In k (finished s).
Proof.
  intros V limit ret inputs outcome_of es s H. destruct (reach _ _ _ _ _ _ _ H) as (_ & _ & given & hold & B).
  pose proof (b_order _ _ _ _ _ _ _ _ B eq_refl) as Eo. exists (List.length given).
  assert (List.length given <= pos s) by (rewrite <- (seq_length (pos s) 0), <- Eo, app_length; lia).
  pose proof (seq_prefix _ _ _ _ Eo) as Eg.
  split; [rewrite <- Eg; exact (b_yielded _ _ _ _ _ _ _ _ B)|]. split; [assumption|]. intros k Hk.
  apply (b_given _ _ _ _ _ _ _ _ B). rewrite Eg. apply in_seq. lia.
Qed.
Print Assumptions C32_ordered.

(** In any case: results of different inputs, each after it had arrived. *)
Theorem C32_unordered : forall (V : Type) ordered limit ret inputs (outcome_of : nat -> outcome V) es s,
  reached ordered limit ret inputs outcome_of es s ->
  exists ks, NoDup ks /\ yielded s = map outcome_of ks /\ forall k, In k ks -> k < pos s /\ In k (finished s).
Proof.
  intros V ordered limit ret inputs outcome_of es s H. destruct (reach _ _ _ _ _ _ _ H) as (_ & _ & given & hold & B).
  exists given. pose proof (b_perm _ _ _ _ _ _ _ _ B) as Hp.
  split; [|split].
  - symmetry in Hp. apply Permutation_NoDup in Hp; [|apply seq_NoDup]. apply NoDup_app_l in Hp. exact Hp.
  - exact (b_yielded _ _ _ _ _ _ _ _ B).
  - intros k Hk. split; [|apply (b_given _ _ _ _ _ _ _ _ B), Hk]. assert (In k (seq 0 (pos s))); [|apply in_seq in H0; lia].
    eapply Permutation_in; [exact Hp|]. apply in_or_app. auto.
Qed.
Print Assumptions C32_unordered.

(** When the iteration is over (StopIteration), and nobody cancelled: the inputs have ended and each has given exactly one result;
    with ordered=True in order. *)
Theorem C32_complete : forall (V : Type) ordered limit ret inputs (outcome_of : nat -> outcome V) es s,
  reached ordered limit ret inputs outcome_of es s -> at_user s = Over -> ~ In Cancel es ->
  exists n ks, ends_after inputs n /\ Permutation ks (seq 0 n) /\ yielded s = map outcome_of ks /\ (ordered = true -> ks = seq 0 n).
Proof.
  intros V ordered limit ret inputs outcome_of es s H Hu Hc. destruct (reach _ _ _ _ _ _ _ H) as (_ & A & given & hold & B).
  assert (Ec : existsb cancels es = false).
  { destruct (existsb cancels es) eqn:E; [|reflexivity]. apply existsb_exists in E as (x & Hx & Ex). destruct x; try discriminate. contradiction. }
  rewrite Ec in B. destruct (a_rest _ _ A) as (_ & Hd & _ & Hw); [rewrite Hu; reflexivity|].
  destruct B as [B1 B2 B3 B4 B5 B6 B7 B8 B9 B10]. rewrite Hu, Hw in *. specialize (B5 eq_refl). cbn [held in_work] in *. subst hold.
  assert (Hout : outstanding s = []).
  { apply (over_empty _ _ _ _ _ _ _ H Hu). }
  rewrite Hout in *. cbn [app] in *. rewrite app_nil_r in *. destruct (B10 Hd) as [|(Hs & _)]; [discriminate|].
  destruct Hs as [Hs|(k & Ek & Hf)].
  - exists (pos s), given. auto.
  - exfalso. destruct (B2 k) as (_ & G). { eapply Permutation_in; [symmetry; exact B3|]. apply in_seq. lia. }
    unfold get_result in G. destruct Hf as (Hf & _). rewrite Hf in G. discriminate.
Qed.
Print Assumptions C32_complete.

(** After cancel(), the results of the inputs taken so far still come; at most one more input is taken. *)
Theorem C32_cancel : forall (V : Type) ordered limit ret inputs (outcome_of : nat -> outcome V) es es' s0 s,
  reached ordered limit ret inputs outcome_of es s0 -> run ordered limit ret inputs outcome_of s0 (Cancel :: es') = Some s ->
  pos s <= S (pos s0) /\
  (at_user s = Over -> exists ks, Permutation ks (seq 0 (pos s)) /\ yielded s = map outcome_of ks /\ (ordered = true -> ks = seq 0 (pos s))).
Proof.
  intros V ordered limit ret inputs outcome_of es es' s0 s H0 H1. split.
  - cbn in H1. unfold cancel in H1. destruct (iterator_done s0); [discriminate|]. apply committed_run in H1; [|reflexivity].
    unfold committed in H1. cbn [signal_done pos work] in H1. destruct (work s0), (work s); lia.
  - intros Hu. assert (H : reached ordered limit ret inputs outcome_of (es ++ Cancel :: es') s) by (rewrite run_app, H0; exact H1).
    destruct (reach _ _ _ _ _ _ _ H) as (_ & A & given & hold & B). destruct (a_rest _ _ A) as (_ & Hd & _ & Hw); [rewrite Hu; reflexivity|].
    destruct B as [B1 B2 B3 B4 B5 B6 B7 B8 B9 B10]. rewrite Hu, Hw, (over_empty _ _ _ _ _ _ _ H Hu) in *. specialize (B5 eq_refl). cbn [held in_work app] in *. subst hold.
    cbn [app] in *. rewrite app_nil_r in *. exists given. auto.
Qed.
Print Assumptions C32_cancel.

(** Without return_exceptions the error of a task is never yielded as if it were a result. *)
Theorem C32_values : forall (V : Type) ordered limit inputs (outcome_of : nat -> outcome V) es s r,
  reached ordered limit false inputs outcome_of es s -> In r (yielded s) -> exists v, r = Val v.
Proof.
  intros V ordered limit inputs outcome_of es s r H Hr. destruct (reach _ _ _ _ _ _ _ H) as (_ & _ & given & hold & B).
  rewrite (b_yielded _ _ _ _ _ _ _ _ B) in Hr. apply in_map_iff in Hr as (k & <- & Hk).
  destruct (b_given _ _ _ _ _ _ _ _ B k Hk) as (_ & G). unfold get_result in G.
  destruct (inputs k); try discriminate; destruct (outcome_of k) as [v|en a|n]; try discriminate; exists v; reflexivity.
Qed.
Print Assumptions C32_values.

(** If an exception comes out it is that of an input or task that failed (never with return_exceptions=True, unless the argument iterator
    fails); with ordered=True all results before it have been yielded, in order. *)
Theorem C32_errors : forall (V : Type) ordered limit ret inputs (outcome_of : nat -> outcome V) es s e,
  reached ordered limit ret inputs outcome_of es s -> at_user s = Raised e ->
  exists k, k < pos s /\ In k (finished s) /\ (ordered = true -> yielded s = map outcome_of (seq 0 k)) /\
    (inputs k = Args /\ ret = false /\
      (e = match outcome_of k with Remote en a => RemoteError en a | Other n => OtherError n | Val _ => e end) /\ ~ fine outcome_of k \/
     fails_after inputs k /\ e = TypeError).
Proof.
  intros V ordered limit ret inputs outcome_of es s e H Hu. destruct (reach _ _ _ _ _ _ _ H) as (_ & A & given & hold & B).
  destruct B as [B1 B2 B3 B4 B5 B6 B7 B8 B9 B10]. destruct (B6 e Hu) as (k & r & -> & Hf & G).
  assert (Hk : k < pos s). { assert (In k (seq 0 (pos s))); [|apply in_seq in H0; lia]. eapply Permutation_in; [exact B3|]. apply in_or_app. right. left. reflexivity. }
  exists k. split; [exact Hk|]. split; [exact Hf|]. split.
  - intros Eo. specialize (B4 Eo). rewrite B1. f_equal. pose proof (seq_prefix _ _ _ _ B4) as Eg.
    assert (Ek : nth_error (given ++ (k :: r) ++ outstanding s ++ in_work (work s)) (List.length given) = Some k) by (rewrite nth_error_app2, Nat.sub_diag by lia; reflexivity).
    rewrite B4 in Ek. assert (List.length given < pos s) by (rewrite <- (seq_length (pos s) 0); apply nth_error_Some; congruence).
    rewrite (nth_error_nth' _ 0), seq_nth in Ek by (rewrite ?seq_length; assumption). injection Ek as <-. exact Eg.
  - unfold get_result in G. destruct (inputs k) eqn:Ei.
    + left. split; [reflexivity|]. destruct (outcome_of k) as [v|en a|n] eqn:Eo, ret; cbn in G; try discriminate; injection G as <-;
        (split; [reflexivity|split; [reflexivity|intros (v & Ev); congruence]]).
    + exfalso. destruct B7 as [B7|((j & Ej & Hj & Hj2) & _)]; [rewrite B7 in Ei by exact Hk; discriminate|].
      destruct (Nat.eq_dec k j) as [->|]; [congruence|]. rewrite Hj2 in Ei by lia. discriminate.
    + right. injection G as <-. split; [|reflexivity]. destruct B7 as [B7|((j & Ej & Hj) & _)]; [rewrite B7 in Ei by exact Hk; discriminate|].
      destruct (Nat.eq_dec k j) as [->|]; [exact Hj|]. destruct Hj as (_ & Hj). rewrite Hj in Ei by lia. discriminate.
Qed.
Print Assumptions C32_errors.

(** With max_outstanding > 0, never more than that many tasks have been sent and not finished. *)
Theorem C32_max_outstanding : forall (V : Type) ordered limit ret inputs (outcome_of : nat -> outcome V) es s l,
  reached ordered limit ret inputs outcome_of es s -> limit > 0 -> NoDup l -> (forall k, In k l -> k < pos s /\ ~ In k (finished s)) ->
  List.length l <= limit.
Proof. exact (fun V => @bounded V). Qed.
Print Assumptions C32_max_outstanding.

(** It never hangs: when nothing can happen any more (all sent tasks have finished, ...), the iteration is over. *)
Theorem C32_no_deadlock : forall (V : Type) ordered limit ret inputs (outcome_of : nat -> outcome V) es s,
  reached ordered limit ret inputs outcome_of es s ->
  (forall e, e <> Cancel -> step ordered limit ret inputs outcome_of s e = None) ->
  at_user s = Over \/ exists e, at_user s = Raised e.
Proof. exact (fun V => @no_deadlock V). Qed.
Print Assumptions C32_no_deadlock.

(** With finitely many inputs everything ends, after a number of steps that depends only on their number and on max_outstanding. *)
Theorem C32_ends : forall (V : Type) ordered limit ret inputs (outcome_of : nat -> outcome V) es s n,
  reached ordered limit ret inputs outcome_of es s -> inputs n <> Args ->
  List.length es <= 30 * n + 22 * Nat.max 1 limit + 23.
Proof.
  intros V ordered limit ret inputs outcome_of es s n H Hn. pose proof (all_end ordered limit ret inputs outcome_of n Hn es s H) as L.
  rewrite (measure_start limit inputs outcome_of) in L. lia.
Qed.
Print Assumptions C32_ends.

(** So: finitely many inputs, no failures, no cancel: when nothing can happen any more, the user has got everything, once, in order if ordered. *)
Theorem C32_delivers : forall (V : Type) ordered limit ret inputs (outcome_of : nat -> outcome V) es s n,
  reached ordered limit ret inputs outcome_of es s -> ends_after inputs n -> ~ In Cancel es -> (ret = true \/ forall k, k < n -> fine outcome_of k) ->
  (forall e, e <> Cancel -> step ordered limit ret inputs outcome_of s e = None) ->
  exists ks, Permutation ks (seq 0 n) /\ yielded s = map outcome_of ks /\ (ordered = true -> ks = seq 0 n).
Proof.
  intros V ordered limit ret inputs outcome_of es s n H He Hc Hf Hno.
  assert (Hlen : forall m, ends_after inputs m -> m = n).
  { intros m (M1 & M2). destruct He as (N1 & N2). destruct (lt_eq_lt_dec m n) as [[L|E]|L]; [|exact E|]; [specialize (N2 _ L)|specialize (M2 _ L)]; congruence. }
  destruct (C32_no_deadlock V ordered limit ret inputs outcome_of es s H Hno) as [Hu|(e & Hu)].
  - destruct (C32_complete V ordered limit ret inputs outcome_of es s H Hu Hc) as (m & ks & Hm & K). rewrite (Hlen _ Hm) in *. exists ks. exact K.
  - exfalso. destruct (C32_errors V ordered limit ret inputs outcome_of es s e H Hu) as (k & Hk & _ & _ & [(Ha & Er & _ & Hn)|((Hff & Hfa) & _)]).
    + destruct Hf as [|Hf]; [congruence|]. apply Hn, Hf. destruct (le_lt_dec n k) as [L|L]; [|exact L]. exfalso.
      destruct (reach _ _ _ _ _ _ _ H) as (_ & _ & g & h & B). destruct (b_args _ _ _ _ _ _ _ _ B) as [Hall|((j & Ej & Hj1 & Hj2) & _)].
      * destruct He as (N1 & _). rewrite Hall in N1 by lia. discriminate.
      * destruct He as (N1 & N2). destruct (Nat.eq_dec n j) as [->|]; [congruence|]. destruct (le_lt_dec n j); [|lia]. rewrite Hj2 in N1 by lia. discriminate.
    + destruct He as (N1 & N2). destruct (lt_eq_lt_dec k n) as [[L|E]|L]; [rewrite N2 in Hff by exact L; discriminate|congruence|].
      rewrite Hfa in N1 by exact L. discriminate.
Qed.
Print Assumptions C32_delivers.

(** Two inputs, max_outstanding=1, ordered. *)
Definition two : nat -> input := fun k => nth k [Args; Args] Stop.
Definition out : nat -> outcome nat := fun k => Val (10 * k).
Definition a_run : list event :=
  [Worker; Worker; Worker; Worker; Worker; User []; Finish 0; User []; User []; CbCheck; CbSubmit; User [];
   Worker; Worker; Worker; Worker; Finish 1; Worker; CbCheck; CbSubmit; User []; User []; User []; User []; User [];
   Worker; Worker; Worker; Worker; User []; User []; User []; User []].
Example C32_example : exists s, reached true 1 false two out a_run s /\ at_user s = Over /\ yielded s = [Val 0; Val 10] /\ ends_after two 2 /\ ~ In Cancel a_run.
Proof.
  eexists. split; [vm_compute; reflexivity|]. split; [reflexivity|]. split; [reflexivity|]. split.
  - split; [reflexivity|]. intros [|[|k]] Hk; [reflexivity|reflexivity|lia].
  - cbn. intuition discriminate.
Qed.
(** Unordered, max_outstanding=2: the second input's result first. *)
Example C32_example_unordered : exists es s, reached false 2 false two out es s /\ yielded s = [Val 10; Val 0].
Proof.
  exists [Worker; Worker; Worker; Worker; Worker; Worker; Worker; Worker; Worker; Worker; User []; Finish 1; User [1]; User [1]; User []; User []; Finish 0; User [0]; User [0]].
  eexists. split; [vm_compute; reflexivity|]. reflexivity.
Qed.

(** Refuted: "an exception of the argument iterator comes out of imap": a TypeError comes out instead of it. *)
Theorem C32_input_error_refuted : exists es s, reached true 1 false (fun _ => Fail) out es s /\ at_user s = Raised TypeError.
Proof. exists [Worker; Worker; Worker; Worker; User []; User []; User []]. eexists. split; [vm_compute; reflexivity|]. reflexivity. Qed.
Print Assumptions C32_input_error_refuted.
(** Refuted: "an imap that is over is no longer recorded as outstanding": after the error of a task came out, nothing ever removes it
    (Executor.shutdown(wait=True) waits forever). *)
Theorem C32_error_recorded_refuted : exists es s,
  reached true 1 false (fun _ => Args) (fun _ => Remote "ValueError"%string 3 : outcome nat) es s /\
  at_user s = Raised (RemoteError "ValueError" 3) /\ recorded s = true /\
  forall e, e <> Cancel -> (forall k, e <> Finish k) -> step true 1 false (fun _ => Args) (fun _ => Remote "ValueError"%string 3 : outcome nat) s e = None.
Proof.
  exists [Worker; Worker; Worker; Worker; Worker; Finish 0; User []; User []; User []; CbCheck; CbSubmit]. eexists.
  split; [vm_compute; reflexivity|]. split; [reflexivity|]. split; [reflexivity|].
  intros [|k| | |ks|] H1 H2; try reflexivity; [destruct (H2 k eq_refl)|destruct (H1 eq_refl)].
Qed.
Print Assumptions C32_error_recorded_refuted.
