From stdpp Require Import base gmap sets.
From Verif Require Import Dependency_Spec Dependency_Model.
From Verif Require Prelude.

Lemma mk_dep_ok ids all s f d :
  mk_dep ids all s f = Prelude.Ok d ->
  d = Dep (list_to_set ids) all s f /\ (s = true \/ f = true).
Proof.
  unfold mk_dep. destruct s, f; simpl; intros H; inversion H; auto.
Qed.

Lemma mk_dep_rejects ids all s f :
  mk_dep ids all s f = Prelude.Raise Prelude.ValueError <-> s = false /\ f = false.
Proof. unfold mk_dep. destruct s, f; simpl; split; try discriminate; intros [? ?] || intros; try discriminate; auto. Qed.

Lemma not_disjoint (X Y : gset nat) : ~ (X ## Y) <-> exists m, m ∈ X /\ m ∈ Y.
Proof.
  split.
  - intros H. destruct (set_choose_or_empty (X ∩ Y)) as [[m Hm]|He].
    + exists m. set_solver.
    + exfalso. apply H. set_solver.
  - set_solver.
Qed.

Lemma check_iff d h :
  check d (h_ok h) (h_bad h) = true <-> met (d_ids d) (d_all d) (d_success d) (d_failure d) h.
Proof.
  destruct d as [ids all s f]; unfold check, met, accepted; simpl.
  destruct (decide (ids = ∅)) as [->|Hne].
  - split; [|auto]. intros _. destruct all; [set_solver|left; reflexivity].
  - destruct all.
    + rewrite bool_decide_eq_true. destruct s, f; split; intros H.
      all: try (intros m Hm; specialize (H m Hm); set_solver).
    + rewrite negb_true_iff, bool_decide_eq_false, not_disjoint.
      destruct s, f; split; intros H.
      all: try (destruct H as [m [H1 H2]]; right; exists m; split; [assumption|];
                try apply elem_of_union in H2; set_solver).
      all: destruct H as [H|[m [H1 H2]]]; [contradiction|exists m; split; [assumption|]; set_solver].
Qed.

Lemma met_mono ids all s f h h' : later h h' -> met ids all s f h -> met ids all s f h'.
Proof.
  intros [H1 H2]. unfold met, accepted. destruct all.
  - intros H m Hm. destruct (H m Hm) as [[? ?]|[? ?]]; [left|right]; split; auto.
  - intros [H|[m [Hm Ha]]]; [left; assumption|right; exists m; split; [assumption|]].
    destruct Ha as [[? ?]|[? ?]]; [left|right]; split; auto.
Qed.

Lemma check_mono d h h' :
  later h h' -> check d (h_ok h) (h_bad h) = true -> check d (h_ok h') (h_bad h') = true.
Proof. intros Hl. rewrite !check_iff. apply met_mono; assumption. Qed.

Lemma unreachable_iff d h :
  unreachable d (h_ok h) (h_bad h) = true <->
  d_ids d <> ∅ /\
  if d_all d then exists m, m ∈ d_ids d /\ ((d_success d = false /\ m ∈ h_ok h) \/ (d_failure d = false /\ m ∈ h_bad h))
  else forall m, m ∈ d_ids d -> (d_success d = false /\ m ∈ h_ok h) \/ (d_failure d = false /\ m ∈ h_bad h).
Proof.
  destruct d as [ids all s f]; unfold unreachable; simpl.
  destruct (decide (ids = ∅)) as [->|Hne].
  - split; [discriminate|intros [? ?]; congruence].
  - destruct all.
    + rewrite negb_true_iff, bool_decide_eq_false, not_disjoint.
      destruct s, f; split; (intros [m [H1 H2]] || intros [_ [m [H1 H2]]]);
        try (split; [assumption|]); try (exists m; split; [assumption|]); set_solver.
    + rewrite bool_decide_eq_true.
      destruct s, f; split; (intros [_ H] || intros H); try (split; [assumption|]);
        intros m Hm; specialize (H m Hm); set_solver.
Qed.

(** Soundness: an unreachable dependency is met in no coherent continuation. *)
Lemma unreachable_sound d h h' :
  unreachable d (h_ok h) (h_bad h) = true -> later h h' -> coherent h' ->
  check d (h_ok h') (h_bad h') = false.
Proof.
  intros Hu [Hl1 Hl2] Hc. apply not_true_is_false. rewrite check_iff. intros Hm.
  apply unreachable_iff in Hu as [Hne Hu]. unfold coherent in Hc. unfold met, accepted in Hm.
  destruct (d_all d).
  - destruct Hu as [m [Hin Hu]]. specialize (Hm m Hin).
    destruct Hu as [[E ?]|[E ?]], Hm as [[? ?]|[? ?]]; try congruence; set_solver.
  - destruct Hm as [He|[m [Hin Hm]]]; [contradiction|]. specialize (Hu m Hin).
    destruct Hu as [[E ?]|[E ?]], Hm as [[? ?]|[? ?]]; try congruence; set_solver.
Qed.

(** Once every listed task has finished, exactly one of check / unreachable holds. *)
Lemma decided_when_finished d h :
  (d_success d = true \/ d_failure d = true) ->
  coherent h -> (forall m, m ∈ d_ids d -> finished h m) ->
  unreachable d (h_ok h) (h_bad h) = negb (check d (h_ok h) (h_bad h)).
Proof.
  intros Hsf Hc Hf.
  destruct (check d (h_ok h) (h_bad h)) eqn:Ec; simpl.
  - destruct (unreachable d (h_ok h) (h_bad h)) eqn:Eu; [|reflexivity].
    exfalso. rewrite (unreachable_sound d h h) in Ec; auto; try discriminate.
    split; reflexivity.
  - apply not_true_iff_false in Ec. rewrite check_iff in Ec. apply unreachable_iff.
    destruct (decide (d_ids d = ∅)) as [He|Hne].
    { exfalso. apply Ec. unfold met. rewrite He. destruct (d_all d); [set_solver|left; reflexivity]. }
    split; [assumption|]. unfold met, accepted, finished in *.
    destruct (d_all d).
    + destruct (decide (Exists (fun m => ~ ((d_success d = true /\ m ∈ h_ok h) \/ (d_failure d = true /\ m ∈ h_bad h)))
                               (elements (d_ids d)))) as [Hex|Hnex].
      * apply Exists_exists in Hex as [m [Hm Hn]]. apply elem_of_elements in Hm.
        exists m. split; [assumption|]. specialize (Hf m Hm).
        destruct (d_success d), (d_failure d), Hf; naive_solver.
      * exfalso. apply Ec. intros m Hm.
        destruct (decide ((d_success d = true /\ m ∈ h_ok h) \/ (d_failure d = true /\ m ∈ h_bad h))); [assumption|].
        exfalso. apply Hnex. apply Exists_exists. exists m. split; [apply elem_of_elements; assumption|assumption].
    + intros m Hm. specialize (Hf m Hm).
      assert (~ ((d_success d = true /\ m ∈ h_ok h) \/ (d_failure d = true /\ m ∈ h_bad h))) as Hn.
      { intros Ha. apply Ec. right. exists m. auto. }
      destruct (d_success d), (d_failure d), Hf; naive_solver.
Qed.

(** dict round trip *)
Lemma dict_roundtrip d :
  (d_success d = true \/ d_failure d = true) -> from_dict (as_dict d) = Prelude.Ok d.
Proof.
  destruct d as [ids all s f]; unfold from_dict, as_dict, mk_dep; simpl. intros H.
  rewrite list_to_set_elements_L. destruct s, f; simpl; try reflexivity. destruct H; discriminate.
Qed.

(** Dropping from an "all" dependency the tasks already finished in an accepted way changes
    neither answer in any coherent continuation (dispatch_submission, task_scheduler.py 370-384). *)
Lemma reduce_all ids s f (X : gset nat) h h' :
  (forall m, m ∈ X -> accepted s f h m) -> later h h' -> coherent h' ->
  check (Dep (ids ∖ X) true s f) (h_ok h') (h_bad h') = check (Dep ids true s f) (h_ok h') (h_bad h') /\
  unreachable (Dep (ids ∖ X) true s f) (h_ok h') (h_bad h') = unreachable (Dep ids true s f) (h_ok h') (h_bad h').
Proof.
  intros HX Hl Hc.
  assert (forall m, m ∈ X -> accepted s f h' m) as HX'.
  { intros m Hm. destruct Hl as [H1 H2]. destruct (HX m Hm) as [[? ?]|[? ?]]; [left|right]; split; auto. }
  split.
  - apply eq_bool_prop_intro. rewrite !Is_true_true, !check_iff. unfold met; simpl. split; intros H m Hm.
    + destruct (decide (m ∈ X)); [auto|]. apply H. set_solver.
    + apply H. set_solver.
  - apply eq_bool_prop_intro. rewrite !Is_true_true, !unreachable_iff. simpl. split.
    + intros [Hne [m [Hm Hd]]]. split; [set_solver|]. exists m. split; [set_solver|assumption].
    + intros [Hne [m [Hm Hd]]]. assert (m ∉ X) as Hx.
      { intros Hx. unfold coherent in Hc. destruct (HX' m Hx) as [[? ?]|[? ?]], Hd as [[? ?]|[? ?]]; try congruence; set_solver. }
      split; [set_solver|]. exists m. split; [set_solver|assumption].
Qed.
