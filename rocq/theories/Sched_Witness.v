(** Executing concrete histories, to show that hypotheses are met and that stronger claims fail. *)
From stdpp Require Import base gmap sets list.
From Verif Require Import Dependency_Model Sched_Trace Sched_Spec Sched_Model Sched_Env Sched_Base Chooser_Model.
From Coq Require Import ZArith.

(** leastload as a scheme function. *)
Definition ll (k : nat) (l : list Z) : nat := match leastload l with Some i => i | None => 0 end.
Definition no_dep := DepDict None None None None.
Definition plain := TaskMd [] 0 no_dep no_dep false.
Definition retrying r := TaskMd [] r no_dep no_dep false.
Definition after l := TaskMd [] 0 (DepDict (Some l) None None None) no_dep false.
Definition follow l := TaskMd [] 0 no_dep (DepDict (Some l) None None None) false.
Definition targeted l := TaskMd l 0 no_dep no_dep false.

Definition submittedb (t : list obs) (m : nat) : bool :=
  existsb (fun o => match o with ObsSubmit m' _ => bool_decide (m = m') | _ => false end) t.
Definition knownb (t : list obs) (e : nat) : bool :=
  existsb (fun o => match o with ObsRegister e' => bool_decide (e = e') | _ => false end) t.
Definition genuineb (t : list obs) (ev : event) : bool :=
  match ev with
  | EvSubmit m _ => negb (submittedb t m)
  | EvRegister e => negb (knownb t e)
  | EvResult m e _ => match phase_of t m with OnEngine e' => bool_decide (e = e') | _ => false end
  | _ => true
  end.
Lemma genuineb_ok t ev : genuineb t ev = true -> genuine t ev.
Proof.
  destruct ev as [m md|m e k|e|e|e|j tid]; simpl; try (intros _; exact I).
  - intros H [md' Hin]. apply negb_true_iff in H. assert (submittedb t m = true) as E; [|congruence].
    apply existsb_exists. exists (ObsSubmit m md'). split; [apply elem_of_list_In; exact Hin|]. apply bool_decide_eq_true_2. reflexivity.
  - destruct (phase_of t m); try discriminate. intros H. apply bool_decide_eq_true_1 in H. congruence.
  - intros H Hin. apply negb_true_iff in H. assert (knownb t e = true) as E; [|congruence].
    apply existsb_exists. exists (ObsRegister e). split; [apply elem_of_list_In; exact Hin|]. apply bool_decide_eq_true_2. reflexivity.
Qed.

(** Run a history, checking the environment before each event. *)
Fixpoint runb (okb : list obs -> event -> bool) (hwm : nat) (s : sched) (evs : list event) : option sched :=
  match evs with
  | [] => Some s
  | ev :: r => if okb (s_log s) ev then match step hwm ll 50 s ev with Some s' => runb okb hwm s' r | None => None end else None
  end.
Lemma runb_reachable (ok : list obs -> event -> Prop) okb hwm :
  (forall t ev, okb t ev = true -> ok t ev) ->
  forall evs s s', reachable hwm ll ok s -> runb okb hwm s evs = Some s' -> reachable hwm ll ok s'.
Proof.
  intros Hok evs. induction evs as [|ev evs IH]; simpl; intros s s' Hr H; [congruence|].
  destruct (okb (s_log s) ev) eqn:E; [|discriminate].
  destruct (step hwm ll 50 s ev) as [s1|] eqn:E1; [|discriminate].
  apply (IH s1); [|exact H]. econstructor; eauto.
Qed.

(** The trace of a history. *)
Definition trace_with (okb : list obs -> event -> bool) (hwm : nat) (evs : list event) : option (list obs) :=
  match runb okb hwm init evs with Some s => Some (s_log s) | None => None end.
Lemma trace_with_reachable (ok : list obs -> event -> Prop) okb hwm evs t :
  (forall t ev, okb t ev = true -> ok t ev) -> trace_with okb hwm evs = Some t ->
  exists s, reachable hwm ll ok s /\ s_log s = t.
Proof.
  intros Hok. unfold trace_with. destruct (runb okb hwm init evs) as [s|] eqn:E; [|discriminate].
  intros H. injection H as <-. exists s. split; [|reflexivity].
  eapply runb_reachable; [exact Hok|constructor|exact E].
Qed.
Definition trace_of := trace_with genuineb.
Lemma trace_of_reachable hwm evs t : trace_of hwm evs = Some t ->
  exists s, reachable hwm ll genuine s /\ s_log s = t.
Proof. apply trace_with_reachable. exact genuineb_ok. Qed.

(** The same, followed by one more event. *)
Lemma trace_step_reachable hwm evs ev t t' : trace_of hwm evs = Some t -> trace_of hwm (evs ++ [ev]) = Some t' ->
  exists s s', reachable hwm ll genuine s /\ s_log s = t /\ step hwm ll 50 s ev = Some s' /\ s_log s' = t'.
Proof.
  unfold trace_of, trace_with. intros H1 H2.
  assert (Happ : forall s, runb genuineb hwm s (evs ++ [ev]) =
     match runb genuineb hwm s evs with Some s1 => runb genuineb hwm s1 [ev] | None => None end).
  { clear. induction evs as [|x evs IH]; intros s; [reflexivity|]. simpl. destruct (genuineb _ _); [|reflexivity].
    destruct (step _ _ _ _ _); [apply IH|reflexivity]. }
  rewrite Happ in H2. destruct (runb genuineb hwm init evs) as [s|] eqn:E; [|discriminate]. injection H1 as <-.
  simpl in H2. destruct (genuineb _ _); [|discriminate]. destruct (step hwm ll 50 s ev) as [s'|] eqn:E'; [|discriminate].
  injection H2 as <-. exists s, s'. split; [|auto]. eapply runb_reachable; [apply genuineb_ok|constructor|exact E].
Qed.
