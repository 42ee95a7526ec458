(** What handling one stranded task of a dead engine leaves alone (any high-water mark). *)
From stdpp Require Import base gmap sets list.
From Verif Require Import Dependency_Model Sched_Trace Sched_Spec Sched_Model Sched_Base Sched_Traverse.
From Coq Require Import ZArith Lia.

Lemma wp_and {A} (m : M A) Q Q' E E' s :
  wp m Q E s -> wp m Q' E' s -> wp m (fun a s' => Q a s' /\ Q' a s') (fun s' => E s' /\ E' s') s.
Proof. unfold wp. destruct (m s); auto. Qed.

Section Frame.
Context (hwm : nat) (scheme : nat -> list Z -> nat).

(** What handling one stranded task leaves alone. *)
Definition frame (e : nat) (l : list (nat * nat)) (P : gmap nat nat -> Prop) (os : list obs) (s : sched) : Prop :=
  e ∉ s_targets s /\ s_pending s !! e = Some l /\ P (s_retries s) /\ forall o, o ∈ os -> o ∈ s_log s.

Lemma kept_frame e l P os : kept hwm (fun _ _ => True) any_reason (frame e l P os).
Proof.
  split; try (intros s g H; exact H); try (intros s j n H _; exact H).
  - intros; exact Logic.I.
  - intros s j jb H _ _. exact H.
  - intros; exact Logic.I.
  - intros s m w (H1 & H2 & H3 & H4) _. split; [exact H1|]. split; [exact H2|]. split; [exact H3|].
    intros o Ho. apply elem_of_app. left. exact (H4 o Ho).
  - intros s j jb idx target (H1 & H2 & H3 & H4) _ Htg.
    assert (Hne : target <> e) by (intros ->; apply H1; eapply elem_of_list_lookup_2; eauto).
    assert (Ht : e ∉ rotate idx (s_targets s)) by (rewrite rotate_elem; exact H1).
    assert (Hlog : forall o, o ∈ os -> o ∈ s_log s ++ [ObsSend (j_msg jb) target]) by (intros o Ho; apply elem_of_app; auto).
    destruct (s_pending s !! target) as [l'|] eqn:E.
    + split; [exact Ht|]. split; [|split; [exact H3|exact Hlog]]. simpl. rewrite lookup_insert_ne by exact Hne. exact H2.
    + split; [exact Ht|]. split; [exact H2|]. split; [exact H3|exact Hlog].
Qed.

Lemma unmet_frame fuel e m l j jb P os s :
  frame e l P os s -> al_lookup m l = Some j -> s_jobs s !! j = Some jb ->
  wp (handle_unmet_dependency hwm scheme fuel e m) (fun _ => frame e (al_remove m l) P os) (frame e (al_remove m l) P os) s.
Proof.
  intros (H1 & H2 & H3 & H4) Hal Hj. unfold handle_unmet_dependency.
  apply wp_bind, wp_get. rewrite H2. apply wp_bind, wp_ret. rewrite Hal. apply wp_bind, wp_ret.
  apply wp_bind, wp_upd. apply wp_bind, wp_upd.
  set (s2 := set_jobs _ _). assert (HJ : frame e (al_remove m l) P os s2).
  { split; [exact H1|]. split; [|split; assumption]. simpl. apply lookup_insert. }
  apply wp_bind, wp_get_job; [|intros _; exact HJ]. intros jb2 Hjb2.
  apply wp_bind. eapply wp_mono with (Q := fun _ => frame e (al_remove m l) P os) (E := frame e (al_remove m l) P os);
    [|intros [] s' Hs'; apply (unmet_tail_keeps _ _ _ _ _ (kept_frame _ _ _ _)); exact Hs'|auto].
  destruct (decide _) as [Hd|Hd].
  - apply (fail_now_keeps _ _ _ _ _ (kept_frame _ _ _ _)); [exact HJ|exact Logic.I].
  - apply (run_or_save_keeps _ _ _ _ _ (kept_frame _ _ _ _)) with (jb := jb2); auto.
Qed.

Lemma result_frame fuel e m b l j P os s :
  frame e l P os s -> al_lookup m l = Some j ->
  wp (handle_result hwm scheme fuel e m b)
     (fun _ => frame e (al_remove m l) P (ObsReply m (FromEngine e b) :: os))
     (frame e (al_remove m l) P (ObsReply m (FromEngine e b) :: os)) s.
Proof.
  intros (H1 & H2 & H3 & H4) Hal. unfold handle_result. set (F := frame _ _ _ _).
  apply wp_bind, wp_upd. apply wp_bind, wp_get. simpl. rewrite H2. apply wp_bind, wp_ret. rewrite Hal.
  apply wp_bind, wp_ret. apply wp_bind, wp_upd. set (s2 := set_pending _ _).
  assert (HJ : F s2).
  { split; [exact H1|]. split; [simpl; apply lookup_insert|]. split; [exact H3|]. simpl. intros o Ho.
    apply elem_of_cons in Ho as [->|Ho]; apply elem_of_app; [right; left|left; auto]. }
  apply wp_bind. eapply wp_mono with (Q := fun _ => F) (E := F); [| |auto].
  - destruct b; (apply wp_bind, wp_get, wp_bind, wp_of_option; [|intros _; exact HJ]); intros Y HY;
      apply wp_bind, wp_upd, wp_upd; exact HJ.
  - intros [] s' Hs'. apply wp_bind, wp_upd. apply wp_bind, wp_upd.
    apply (update_graph_keeps _ _ _ _ _ (kept_frame _ _ _ _)). exact Hs'.
Qed.

Definition settled_as (e m : nat) (r : nat) : list obs :=
  ObsResult m e RErr :: match r with O => [ObsReply m (FromEngine e false)] | _ => [] end.

Lemma strand_one fuel e m l j jb r os s :
  e ∉ s_targets s -> s_pending s !! e = Some l -> al_lookup m l = Some j -> s_jobs s !! j = Some jb ->
  s_retries s !! m = Some r -> (forall o, o ∈ os -> o ∈ s_log s) ->
  let F := frame e (al_remove m l) (fun rt => forall x, x <> m -> rt !! x = s_retries s !! x) (settled_as e m r ++ os) in
  wp (dispatch_result hwm scheme fuel e m RErr) (fun _ => F) F s.
Proof.
  intros H1 H2 Hal Hj Hr Hos F. unfold dispatch_result.
  apply wp_bind, wp_upd. apply wp_bind, wp_get. cbn [s_targets set_log].
  destruct (index_of e (s_targets s)) eqn:Ei; [exfalso; apply H1; apply index_of_spec in Ei; eapply elem_of_list_lookup_2; eauto|].
  apply wp_bind, wp_ret. cbv zeta. apply wp_bind, wp_get. cbn [s_retries set_log]. rewrite Hr. apply wp_bind, wp_ret.
  set (P := fun rt : gmap nat nat => forall x, x <> m -> rt !! x = s_retries s !! x) in *.
  assert (Hlog : forall o, o ∈ ObsResult m e RErr :: os -> o ∈ s_log s ++ [ObsResult m e RErr]).
  { intros o Ho. apply elem_of_cons in Ho as [->|Ho]; apply elem_of_app; [right; left|left; auto]. }
  destruct r as [|r].
  - rewrite decide_False by (intros [_ ?]; lia). apply wp_bind, wp_upd.
    eapply wp_mono; [apply (result_frame fuel e m false l j P (ObsResult m e RErr :: os)); [|exact Hal]| |].
    + split; [exact H1|]. split; [exact H2|]. split; [|exact Hlog]. intros x Hx. apply lookup_delete_ne. congruence.
    + intros [] s' (A & B & C & D). repeat split; auto. intros o Ho. apply D. set_solver.
    + intros s' (A & B & C & D). repeat split; auto. intros o Ho. apply D. set_solver.
  - rewrite decide_True by (split; [reflexivity|lia]). apply wp_bind, wp_upd.
    apply (unmet_frame fuel e m l j jb P (ObsResult m e RErr :: os)); [|exact Hal|exact Hj].
    split; [exact H1|]. split; [exact H2|]. split; [|exact Hlog]. intros x Hx. apply lookup_insert_ne. congruence.
Qed.

End Frame.
