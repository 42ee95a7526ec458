(** Property theorems C37: the client's bookkeeping of tasks. *)
From stdpp Require Import base gmap list sorting.
From Verif Require Import RDict_Model Client_Model Client_Spec Client_Proofs Client_Steps.

Definition start := empty_client.

(** In every genuine history (any interleaving of submissions, broadcasts, replies - also duplicated or
    unreadable -, engines coming and going, purges), the client agrees with the specification: which
    tasks are outstanding, and what every future has been resolved with. *)
Theorem C37_client : forall enum l, enumerates enum -> genuine l ->
  outstanding (run enum start l) = out (seen l) /\
  (forall m, m ∈ used (seen l) -> msg_future (run enum start l) !! m = Some (res (seen l) !! m)) /\
  (forall e, e ∈ eids (run enum start l) <-> is_Some (live (seen l) !! e)).
Proof.
  intros enum l He Hg. pose proof (rel_run enum l He _ _ rel_empty Hg) as R. fold (seen l) in R.
  split; [apply outstanding_out, R |]. split; [apply (r_fut _ _ R) | apply (r_eids _ _ R)].
Qed.
Print Assumptions C37_client.

(** Splitting histories *)
Lemma genuine_app l1 l2 : forall w, genuine_from w (l1 ++ l2) <-> genuine_from w l1 /\ genuine_from (fold_left happens l1 w) l2.
Proof. induction l1 as [| e l1 IH]; intros w; cbn [app genuine_from fold_left]; [tauto |]. rewrite IH. tauto. Qed.
Lemma seen_app l1 l2 : seen (l1 ++ l2) = fold_left happens l2 (seen l1).
Proof. apply fold_left_app. Qed.
Lemma rel_seen enum l : enumerates enum -> genuine l -> rel (seen l) (run enum start l).
Proof. intros He Hg. exact (rel_run enum l He _ _ rel_empty Hg). Qed.

(** The events that end task [m]: a reply to it, or the death of an engine it was sent to. *)
Definition ends (w : world) (m : mid) (e : event) : Prop :=
  match e with
  | Reply _ m' _ _ => m' = m
  | Unregister e => exists u, live w !! e = Some u /\ u ∈ routes w m
  | _ => False
  end.

Lemma out_issued us w m y : y ∈ out w -> y ∈ out (issued us w m).
Proof. intros H. apply elem_of_union_r, H. Qed.
Lemma out_issued_fold n us : forall w y, y ∈ out w -> y ∈ out (fold_left (fun w u => issued [u] w (Derived n u)) us w).
Proof. induction us as [| u us IH]; intros w y H; [exact H |]. apply IH, out_issued, H. Qed.
Lemma res_issued_fold n us : forall w, res (fold_left (fun w u => issued [u] w (Derived n u)) us w) = res w.
Proof. induction us as [| u us IH]; intros w; [reflexivity |]. cbn [fold_left]. rewrite IH. reflexivity. Qed.
Lemma tasks_issued_fold n us : forall w y, y ∈ tasks w -> y ∈ tasks (fold_left (fun w u => issued [u] w (Derived n u)) us w).
Proof. induction us as [| u us IH]; intros w y H; [exact H |]. apply IH. apply elem_of_union_r, H. Qed.

Lemma out_step w e m : m ∈ out w -> (m ∈ out (happens w e) <-> ~ ends w m e).
Proof.
  intros Ho. destruct e as [m' i | m' | n us c | x m' us r | m' v | m' | e u | e | ids |]; cbn [happens ends].
  - split; [auto | intros _; apply out_issued, Ho].
  - split; auto.
  - destruct c; (split; [auto | intros _]); [apply out_issued, Ho | apply out_issued_fold, out_issued, Ho].
  - destruct (bool_decide (m' ∈ out w)) eqn:E.
    + cbn [answered out]. rewrite elem_of_difference, elem_of_singleton. intuition congruence.
    + apply bool_decide_eq_false in E. split; [intros _ ->; contradiction | auto].
  - destruct (res w !! m'); [split; auto |]. destruct (bool_decide _); split; auto.
  - split; auto.
  - split; auto.
  - destruct (live w !! e) as [u |] eqn:E.
    + cbn [out]. rewrite elem_of_difference, elem_of_filter. split.
      * intros [_ H] (u' & [= <-] & Hin). apply H. auto.
      * intros H. split; [exact Ho |]. intros [Hin _]. apply H. eauto.
    + split; [| auto]. intros _ (u & ? & _). congruence.
  - destruct (decide _); split; auto.
  - destruct (decide _); split; auto.
Qed.

(** A dead task does not come back *)
Lemma out_gone w e m : may w e -> m ∈ used w -> m ∉ out w -> m ∉ out (happens w e).
Proof.
  intros Hm Hu Ho. destruct e as [m' i | m' | n us c | x m' us r | m' v | m' | e u | e | ids |]; cbn [happens].
  - destruct Hm as (n & -> & Hf & _). cbn [issued out]. rewrite elem_of_union, elem_of_singleton. intros [-> | ?]; contradiction.
  - exact Ho.
  - destruct Hm as [[Hp Hd] _].
    assert (X : m ∉ out (issued [] w (Plain n))).
    { cbn [issued out]. rewrite elem_of_union, elem_of_singleton. intros [-> | ?]; contradiction. }
    destruct c; [exact X |]. assert (Hne : forall u, m <> Derived n u) by (intros u ->; apply (Hd u), Hu).
    revert X. generalize (issued [] w (Plain n)). clear - Hne. induction us as [| u us IH]; intros w X; [exact X |].
    cbn [fold_left]. apply IH. cbn [issued out]. rewrite elem_of_union, elem_of_singleton. intros [? | ?]; [| contradiction].
    apply (Hne u). assumption.
  - destruct (bool_decide _); [| exact Ho]. cbn [answered out]. rewrite elem_of_difference. tauto.
  - destruct (res w !! m'); [exact Ho |]. destruct (bool_decide _); exact Ho.
  - exact Ho.
  - exact Ho.
  - destruct (live w !! e); [| exact Ho]. cbn [out]. rewrite elem_of_difference. tauto.
  - destruct (decide _); exact Ho.
  - destruct (decide _); exact Ho.
Qed.
Lemma used_step w e m : m ∈ used w -> m ∈ used (happens w e).
Proof.
  assert (I : forall us w m', m ∈ used w -> m ∈ used (issued us w m')).
  { intros us w0 m' H. unfold used in *. cbn [issued tasks requests]. rewrite !elem_of_union in *. tauto. }
  intros Hu. destruct e as [m' i | m' | n us c | x m' us r | m' v | m' | e u | e | ids |]; cbn [happens].
  - apply I, Hu.
  - unfold used in *. cbn [tasks requests]. rewrite !elem_of_union in *. tauto.
  - destruct c; [apply I, Hu |]. apply I with (us := []) (m' := Plain n) in Hu. revert Hu. generalize (issued [] w (Plain n)).
    clear - I. induction us as [| u us IH]; intros w Hu; [exact Hu |]. apply IH, I, Hu.
  - destruct (bool_decide _); exact Hu.
  - destruct (res w !! m'); [exact Hu |]. destruct (bool_decide _); exact Hu.
  - exact Hu.
  - exact Hu.
  - destruct (live w !! e); exact Hu.
  - destruct (decide _); exact Hu.
  - destruct (decide _); exact Hu.
Qed.
Lemma used_fold l m : forall w, m ∈ used w -> m ∈ used (fold_left happens l w).
Proof. induction l as [| e l IH]; intros w H; [exact H |]. apply IH, used_step, H. Qed.

(** A task is outstanding from its submission on ... *)
Theorem C37_submitted : forall enum l m ident, enumerates enum -> genuine (l ++ [Send m ident]) ->
  m ∈ outstanding (run enum start (l ++ [Send m ident])) /\
  msg_future (run enum start (l ++ [Send m ident])) !! m = Some None.
Proof.
  intros enum l m ident He Hg. pose proof (rel_seen enum _ He Hg) as R. rewrite seen_app in R. cbn [fold_left] in R.
  assert (Ho : m ∈ out (happens (seen l) (Send m ident))) by (apply elem_of_union_l, elem_of_singleton_2; reflexivity).
  destruct (r_pend _ _ R m Ho) as (Ht & _ & _ & Hr & _). split; [apply (r_out _ _ R), Ho |].
  rewrite (r_fut _ _ R); [rewrite Hr; reflexivity | apply elem_of_union_l, Ht].
Qed.
Print Assumptions C37_submitted.

(** ... until the first event that ends it, and never again afterwards. *)
Theorem C37_outstanding : forall enum l l' m, enumerates enum -> genuine (l ++ l') ->
  m ∈ outstanding (run enum start l) ->
  (m ∈ outstanding (run enum start (l ++ l')) <->
   forall l1 e l2, l' = l1 ++ e :: l2 -> ~ ends (seen (l ++ l1)) m e).
Proof.
  intros enum l l' m He Hg Hm.
  pose proof (rel_seen enum _ He Hg) as R'. rewrite (r_out _ _ R').
  apply genuine_app in Hg. destruct Hg as [Hg1 Hg2]. pose proof (rel_seen enum _ He Hg1) as R.
  rewrite (r_out _ _ R) in Hm. assert (Hu : m ∈ used (seen l)) by (apply elem_of_union_l, (r_pend _ _ R m Hm)).
  rewrite seen_app. fold (seen l) in Hg2. assert (E : forall l1, seen (l ++ l1) = fold_left happens l1 (seen l)) by (intros; apply seen_app).
  setoid_rewrite E. revert Hg2 Hu Hm. generalize (seen l). clear.
  assert (G : forall l w, genuine_from w l -> m ∈ used w -> m ∉ out w -> m ∉ out (fold_left happens l w)).
  { induction l as [| e l IH]; intros w Hg Hu Ho; [exact Ho |]. destruct Hg as [Hm Hg]. cbn [fold_left].
    apply IH; [exact Hg | apply used_step, Hu | apply out_gone; assumption]. }
  induction l' as [| e l' IH]; intros w Hg Hu Ho.
  - split; [| intros _; exact Ho]. intros _ l1 e l2 X. destruct l1; discriminate.
  - destruct Hg as [Hmay Hg]. cbn [fold_left]. pose proof (out_step w e m Ho) as S.
    destruct (decide (m ∈ out (happens w e))) as [Y | N].
    + rewrite (IH _ Hg (used_step _ _ _ Hu) Y). split.
      * intros H l1 e' l2 X. destruct l1 as [| e1 l1]; cbn [app fold_left] in *.
        -- injection X as <- <-. apply S, Y.
        -- injection X as <- ->. apply (H l1 e' l2). reflexivity.
      * intros H l1 e' l2 ->. apply (H (e :: l1) e' l2). reflexivity.
    + split.
      * intros X. destruct (G _ _ Hg (used_step _ _ _ Hu) N X).
      * intros H. exfalso. apply N, S. exact (H [] e l' eq_refl).
Qed.
Print Assumptions C37_outstanding.

(** The first reply gives the result; ... *)
Theorem C37_reply : forall enum l x m us r, enumerates enum -> genuine (l ++ [Reply x m us r]) ->
  m ∈ outstanding (run enum start l) ->
  m ∉ outstanding (run enum start (l ++ [Reply x m us r])) /\
  msg_future (run enum start (l ++ [Reply x m us r])) !! m = Some (outcome r).
Proof.
  intros enum l x m us r He Hg Hm. pose proof (rel_seen enum _ He Hg) as R'.
  apply genuine_app in Hg. destruct Hg as [Hg _]. pose proof (rel_seen enum _ He Hg) as R.
  rewrite (r_out _ _ R) in Hm. destruct (r_pend _ _ R m Hm) as (Ht & _ & _ & Hr & _).
  rewrite seen_app in R'. cbn [fold_left happens] in R'. rewrite (bool_decide_eq_true_2 _ Hm) in R'.
  rewrite (r_out _ _ R'), (r_fut _ _ R') by (apply elem_of_union_l, Ht). cbn [answered out res]. split; [set_solver |].
  destruct (outcome r); [rewrite lookup_insert; reflexivity | rewrite Hr; reflexivity].
Qed.
Print Assumptions C37_reply.

(** ... and once a future has a result, nothing changes it. *)
Theorem C37_result_final : forall enum l l' m r, enumerates enum -> genuine (l ++ l') -> m ∈ used (seen l) ->
  msg_future (run enum start l) !! m = Some (Some r) ->
  msg_future (run enum start (l ++ l')) !! m = Some (Some r).
Proof.
  intros enum l l' m r He Hg Hu Hm.
  pose proof (rel_seen enum _ He Hg) as R'. pose proof Hg as Hg0. apply genuine_app in Hg. destruct Hg as [Hg1 Hg2].
  pose proof (rel_seen enum _ He Hg1) as R. rewrite (r_fut _ _ R) in Hm by exact Hu. injection Hm as Hm.
  rewrite (r_fut _ _ R') by (rewrite seen_app; apply used_fold, Hu). f_equal.
  (* a result is only added for tasks without one *)
  assert (P : forall l3 w s, rel w s -> genuine_from w l3 -> res w !! m = Some r -> res (fold_left happens l3 w) !! m = Some r).
  { clear - He. induction l3 as [| e l3 IH]; intros w s R Hg Hr; [exact Hr |]. destruct Hg as [Hmay Hg]. cbn [fold_left].
    apply (IH _ (fst (step enum s e))); [apply rel_step; assumption | exact Hg |].
    assert (No : m ∉ out w) by (intros X; destruct (r_pend _ _ R m X) as (_ & _ & _ & ? & _); congruence).
    destruct e as [m' i | m' | n us c | x m' us r' | m' v | m' | e u | e | ids |]; cbn [happens]; try exact Hr.
    - destruct c; [exact Hr |]. rewrite res_issued_fold. exact Hr.
    - destruct (bool_decide (m' ∈ out w)) eqn:E; [| exact Hr]. apply bool_decide_eq_true in E. cbn [answered res].
      destruct (outcome r'); [| exact Hr]. rewrite lookup_insert_ne; [exact Hr |]. intros ->. contradiction.
    - destruct (res w !! m') eqn:E; [exact Hr |]. destruct (bool_decide _); [exact Hr |]. cbn [res].
      rewrite lookup_insert_ne; [exact Hr |]. intros ->. congruence.
    - destruct (live w !! e) as [u |]; [| exact Hr]. cbn [res]. rewrite lookup_union_r; [exact Hr |].
      rewrite lookup_gset_to_gmap, option_guard_False; [reflexivity |]. rewrite elem_of_filter. tauto.
    - destruct (decide _); exact Hr.
    - destruct (decide _); exact Hr. }
  rewrite seen_app. apply (P l' _ _ R Hg2 Hm).
Qed.
Print Assumptions C37_result_final.

(** When an engine dies, exactly the outstanding tasks sent to it fail at once with EngineError, their
    outputs are complete, and no exception is raised. *)
Theorem C37_engine_death : forall enum l e u m, enumerates enum -> genuine l -> live (seen l) !! e = Some u ->
  m ∈ outstanding (run enum start l) ->
  let s' := fst (step enum (run enum start l) (Unregister e)) in
  snd (step enum (run enum start l) (Unregister e)) = None /\ e ∉ eids s' /\
  (u ∈ routes (seen l) m ->
     m ∉ outstanding s' /\ msg_future s' !! m = Some (Some (EngineDied u)) /\ out_future s' !! m = Some true) /\
  (u ∉ routes (seen l) m -> m ∈ outstanding s' /\ msg_future s' !! m = Some None).
Proof.
  intros enum l e u m He Hg Hl Hm. pose proof (rel_seen enum _ He Hg) as R. rewrite (r_out _ _ R) in Hm.
  cbn [step]. destruct (rel_unregister enum _ _ e He R) as (R' & S & O & _). cbv zeta.
  destruct (r_pend _ _ R m Hm) as (Ht & _ & _ & Hr & _).
  cbn [happens] in R'. rewrite Hl in R'. split; [exact S |]. split.
  - rewrite (r_eids _ _ R'). cbn [live]. rewrite lookup_delete. intros [? ?]; discriminate.
  - rewrite (r_out _ _ R'), (r_fut _ _ R') by (apply elem_of_union_l, Ht). cbn [out res].
    rewrite elem_of_difference, elem_of_filter, lookup_union, lookup_gset_to_gmap, Hr. split; intros Hu.
    + split; [tauto |]. split; [| apply (O u); assumption]. rewrite option_guard_True by (apply elem_of_filter; tauto). reflexivity.
    + split; [tauto |]. rewrite option_guard_False by (rewrite elem_of_filter; tauto). reflexivity.
Qed.
Print Assumptions C37_engine_death.

(** The idle message of the engine completes the outputs of a task the user has not purged. *)
Theorem C37_output : forall enum l m, enumerates enum -> genuine l -> m ∈ tasks (seen l) -> m ∉ purged (seen l) ->
  out_future (run enum start (l ++ [Idle m])) !! m = Some true.
Proof.
  intros enum l m He Hg Ht Hp. pose proof (rel_seen enum _ He Hg) as R. unfold run. rewrite fold_left_app.
  fold (run enum start l). cbn [fold_left step fst]. unfold idle.
  destruct (r_isout _ _ R m Ht) as [[] E].
  - destruct (bool_decide _); [| exact E].
    destruct (output_done_fields m (run enum start l)) as (_ & _ & _ & _ & F5 & _). apply F5, E.
  - destruct (r_outp _ _ R m Ht Hp E) as [A B]. rewrite (bool_decide_eq_true_2 _ B).
    destruct (output_done_fields m (run enum start l)) as (_ & _ & _ & F4 & _).
    destruct (F4 A) as [? | ?]; [congruence | assumption].
Qed.
Print Assumptions C37_output.

(** If every reply could be read, every task is outstanding or has its result. *)
Definition readable (l : list event) : Prop := forall x m us r, Reply x m us r ∈ l -> outcome r <> None.
Lemma settled l : forall w, readable l -> (forall m, m ∈ tasks w -> m ∈ out w \/ is_Some (res w !! m)) ->
  forall m, m ∈ tasks (fold_left happens l w) -> m ∈ out (fold_left happens l w) \/ is_Some (res (fold_left happens l w) !! m).
Proof.
  assert (I : forall us w m', (forall m, m ∈ tasks w -> m ∈ out w \/ is_Some (res w !! m)) ->
    forall m, m ∈ tasks (issued us w m') -> m ∈ out (issued us w m') \/ is_Some (res (issued us w m') !! m)).
  { intros us w m' H m. cbn [issued tasks out res]. rewrite !elem_of_union. intros [? | Hm]; [auto |]. destruct (H m Hm); auto. }
  induction l as [| e l IH]; intros w Hr H; [exact H |]. cbn [fold_left]. apply IH.
  { intros x m us r Hin. apply (Hr x m us r). right. exact Hin. }
  destruct e as [m' i | m' | n us c | x m' us r' | m' v | m' | e u | e | ids |]; cbn [happens]; try exact H.
  - apply I, H.
  - destruct c; [apply I, H |]. assert (H1 := I [] w (Plain n) H). revert H1. generalize (issued [] w (Plain n)).
    clear - I. induction us as [| u us IH]; intros w H; [exact H |]. apply IH, I, H.
  - destruct (bool_decide _); [| exact H]. intros m Hm. cbn [answered tasks out res] in *.
    destruct (outcome r') as [v |] eqn:E; [| destruct (Hr x m' us r' (elem_of_list_here _ _) E)].
    destruct (decide (m = m')) as [-> | Hne]; [rewrite lookup_insert; eauto |].
    rewrite lookup_insert_ne by congruence. rewrite elem_of_difference, elem_of_singleton. destruct (H m Hm); auto.
  - destruct (res w !! m') eqn:E; [exact H |]. destruct (bool_decide _); [exact H |]. intros m Hm. cbn [tasks out res] in *.
    destruct (decide (m = m')) as [-> | Hne]; [rewrite lookup_insert; eauto |]. rewrite lookup_insert_ne by congruence. apply H, Hm.
  - destruct (live w !! e) as [u |]; [| exact H]. intros m Hm. cbn [tasks out res] in *.
    rewrite elem_of_difference, elem_of_filter, lookup_union, lookup_gset_to_gmap.
    destruct (decide (u ∈ routes w m)) as [Y | N].
    + destruct (H m Hm) as [Ho | [r Hx]].
      * right. rewrite option_guard_True by (apply elem_of_filter; auto). destruct (res w !! m); eauto.
      * right. rewrite Hx. destruct (guard _; _); eauto.
    + destruct (H m Hm) as [Ho | [r Hx]]; [left; tauto |]. right. rewrite Hx. destruct (guard _; _); eauto.
  - destruct (decide _); exact H.
  - destruct (decide _); exact H.
Qed.
Theorem C37_settled : forall enum l m, enumerates enum -> genuine l -> readable l -> m ∈ tasks (seen l) ->
  (m ∈ outstanding (run enum start l) <-> msg_future (run enum start l) !! m = Some None) /\
  (m ∉ outstanding (run enum start l) <-> exists r, msg_future (run enum start l) !! m = Some (Some r)).
Proof.
  intros enum l m He Hg Hr Ht. pose proof (rel_seen enum _ He Hg) as R.
  rewrite (r_out _ _ R), (r_fut _ _ R) by (apply elem_of_union_l, Ht).
  pose proof (settled l new_world Hr ltac:(intros x X; cbn in X; set_solver) m Ht) as [Ho | [r Hx]]; fold (seen l) in *.
  - destruct (r_pend _ _ R m Ho) as (_ & _ & _ & -> & _). split; [tauto |]. split; [tauto |]. intros [? ?]; discriminate.
  - rewrite Hx. assert (m ∉ out (seen l)) by (intros X; destruct (r_pend _ _ R m X) as (_ & _ & _ & ? & _); congruence).
    split; [split; [tauto | discriminate] |]. split; [eauto | auto].
Qed.
Print Assumptions C37_settled.

(** client.wait(ids) for submitted tasks: it returns True at once exactly if none is outstanding;
    otherwise it waits for futures which are all done exactly when none is outstanding. *)
Theorem C37_wait : forall enum l l' ids, enumerates enum -> genuine (l ++ l') -> readable (l ++ l') ->
  ids ⊆ tasks (seen l) ->
  let s := run enum start l in let s' := run enum start (l ++ l') in
  match wait ids s with
  | None => ids ∩ outstanding s = ∅
  | Some F => ids ∩ outstanding s <> ∅ /\
              ((forall m, m ∈ F -> exists r, msg_future s' !! m = Some (Some r)) <-> ids ∩ outstanding s' = ∅)
  end.
Proof.
  intros enum l l' ids He Hg Hr Hids. cbv zeta. unfold wait.
  destruct (decide (ids ∩ outstanding (run enum start l) = ∅)) as [E | E]; [exact E |]. split; [exact E |].
  pose proof (rel_seen enum _ He Hg) as R'. pose proof Hg as Hg0. apply genuine_app in Hg0. destruct Hg0 as [Hg1 Hg2].
  pose proof (rel_seen enum _ He Hg1) as R. fold (seen l) in Hg2.
  assert (Ht : forall m, m ∈ ids -> m ∈ tasks (seen (l ++ l'))).
  { intros m Hm. apply Hids in Hm. rewrite seen_app. revert Hm. generalize (seen l). clear.
    induction l' as [| e l' IH]; intros w Hm; [exact Hm |]. cbn [fold_left]. apply IH.
    destruct e as [m' i | m' | n us c | x m' us r' | m' v | m' | e u | e | ids |]; cbn [happens]; try exact Hm.
    - apply elem_of_union_r, Hm.
    - destruct c; [apply elem_of_union_r, Hm |]. apply tasks_issued_fold, elem_of_union_r, Hm.
    - destruct (bool_decide _); exact Hm.
    - destruct (res w !! m'); [exact Hm |]. destruct (bool_decide _); exact Hm.
    - destruct (live w !! e); exact Hm.
    - destruct (decide _); exact Hm.
    - destruct (decide _); exact Hm. }
  split.
  - intros H. apply set_eq. intros m. rewrite elem_of_intersection. split; [| set_solver]. intros [Hi Ho]. exfalso.
    assert (Ho1 : m ∈ outstanding (run enum start l)).
    { destruct (decide (m ∈ outstanding (run enum start l))) as [Y | N]; [exact Y |]. exfalso.
      rewrite (r_out _ _ R) in N. rewrite (r_out _ _ R'), seen_app in Ho.
      assert (Hu : m ∈ used (seen l)) by (apply elem_of_union_l, Hids, Hi).
      revert Hg2 N Hu Ho. generalize (seen l). clear. induction l' as [| e l' IH]; intros w Hg N Hu Ho; [contradiction |].
      destruct Hg as [Hm Hg]. apply (IH _ Hg); [apply out_gone; assumption | apply used_step, Hu | exact Ho]. }
    assert (HF : m ∈ ids ∩ futures (run enum start l)).
    { apply elem_of_intersection. split; [exact Hi |]. apply (r_pend _ _ R). apply (r_out _ _ R), Ho1. }
    destruct (H m HF) as [r X]. destruct (C37_settled enum _ m He Hg Hr (Ht m Hi)) as [_ S]. apply S; [eauto | exact Ho].
  - intros H m Hm. apply elem_of_intersection in Hm. destruct Hm as [Hi _].
    apply (C37_settled enum _ m He Hg Hr (Ht m Hi)). intros X.
    assert (m ∈ ids ∩ outstanding (run enum start (l ++ l'))) by (apply elem_of_intersection; auto). rewrite H in *. set_solver.
Qed.
Print Assumptions C37_wait.

(** ** Example: two engines; one task on engine 0, one for any engine, and a broadcast to both; the second
    is answered, twice; engine 0 dies. *)
Definition sample : list event :=
  [Register 0 10; Register 1 11; Send (Plain 1) (Some 10); Send (Plain 2) None; Broadcast 3 [10; 11] true;
   Broadcast 4 [11; 10] false;
   Reply false (Plain 2) [11] (ROk 7); Reply false (Plain 2) [11] (ROk 8); Idle (Plain 2);
   Reply false (Derived 4 11) [11] (RError (Failure 3) true)].
Ltac is_fresh :=
  split; [apply (bool_decide_unpack _); vm_compute; exact I |
    intros u H; apply elem_of_elements in H;
    match type of H with _ ∈ elements ?X => let E := fresh in eassert (E : elements X = _) by (vm_compute; reflexivity); rewrite E in H; clear E end;
    repeat (apply elem_of_cons in H; destruct H as [H | H]; [discriminate |]); inversion H ].
Ltac routed := intros; match goal with H : ?u ∈ routes ?w ?m |- _ =>
  let E := fresh in eassert (E : routes w m = _) by (vm_compute; reflexivity); rewrite E in H; first [exact H | solve [inversion H]] end.
Lemma enum_elements : enumerates elements.
Proof. intros X. reflexivity. Qed.
Example C37_example : genuine (sample ++ [Unregister 0]) /\ readable (sample ++ [Unregister 0]) /\
  outstanding (run elements start sample) = {[Plain 1; Plain 3; Plain 4; Derived 4 10]} /\
  outstanding (run elements start (sample ++ [Unregister 0])) = {[Plain 4]} /\
  msg_future (run elements start (sample ++ [Unregister 0])) !! Plain 2 = Some (Some (Value 7)) /\
  msg_future (run elements start (sample ++ [Unregister 0])) !! Plain 3 = Some (Some (EngineDied 10)).
Proof.
  split; [| split; [| split; [| split; [| split]]]].
  - unfold genuine, sample. cbn [app genuine_from may]. repeat split.
    all: try (apply (bool_decide_unpack _); vm_compute; exact I); try routed.
    + right. split; [reflexivity |]. intros e'. cbn. rewrite lookup_empty. discriminate.
    + right. split; [reflexivity |]. intros e' H. cbn [happens live] in H. apply lookup_insert_Some in H.
      destruct H as [[_ H] | [_ H]]; [discriminate |]. cbn in H. rewrite lookup_empty in H. discriminate.
    + exists 1. split; [reflexivity | is_fresh].
    + exists 2. split; [reflexivity | is_fresh].
    + match goal with |- forall u, Derived 3 u ∉ used ?w => assert (fresh w 3) by is_fresh end. apply H.
    + match goal with |- forall u, Derived 4 u ∉ used ?w => assert (fresh w 4) by is_fresh end. apply H.
  - intros x m us r H. unfold sample in H. cbn [app] in H.
    repeat (apply elem_of_cons in H; destruct H as [H | H]; [try discriminate; injection H as -> -> -> ->; discriminate |]).
    inversion H.
  - apply (bool_decide_unpack _); vm_compute; exact I.
  - apply (bool_decide_unpack _); vm_compute; exact I.
  - vm_compute. reflexivity.
  - vm_compute. reflexivity.
Qed.

(** ** Refuted: what one might expect but does not hold *)
(** A reply the client cannot turn into a result (it does not deserialize, or it is an error of an engine
    which is gone): the task is no longer outstanding, wait() returns True, but its future is never done. *)
Theorem C37_unreadable_refuted : exists l m, genuine l /\ m ∈ tasks (seen l) /\
  wait {[m]} (run elements start l) = None /\ msg_future (run elements start l) !! m = Some None.
Proof.
  exists [Send (Plain 1) None; Reply false (Plain 1) [] RUnreadable], (Plain 1). split; [| vm_compute; auto].
  unfold genuine. cbn [genuine_from may]. repeat split; try (apply (bool_decide_unpack _); vm_compute; exact I); try routed.
  exists 1. split; [reflexivity | is_fresh].
Qed.
Print Assumptions C37_unreadable_refuted.

(** A broadcast that is not coalescing leaves the id of the broadcast itself outstanding for ever, also
    when every engine has answered: client.wait() does not return any more. *)
Theorem C37_broadcast_refuted : exists l n (us : list nat), genuine l /\
  (forall u, u ∈ us -> msg_future (run elements start l) !! Derived n u = Some (Some (Value u))) /\
  outstanding (run elements start l) = {[Plain n]} /\
  wait (outstanding (run elements start l)) (run elements start l) = Some {[Plain n]} /\
  snd (purge_all (run elements start l)) = Some RuntimeErr.
Proof.
  exists [Broadcast 1 [10; 11] false; Reply false (Derived 1 10) [10] (ROk 10); Reply false (Derived 1 11) [11] (ROk 11)], 1, [10; 11].
  split.
  { unfold genuine. cbn [genuine_from may]. repeat split; try (apply (bool_decide_unpack _); vm_compute; exact I); try routed.
    - match goal with |- forall u, Derived 1 u ∉ used ?w => assert (fresh w 1) by is_fresh end. apply H. }
  split. { intros u Hu. repeat (apply elem_of_cons in Hu; destruct Hu as [-> | Hu]; [vm_compute; reflexivity |]). inversion Hu. }
  split; [apply (bool_decide_unpack _); vm_compute; exact I |].
  split; [apply (bool_decide_unpack _); vm_compute; exact I |]. vm_compute. reflexivity.
Qed.
Print Assumptions C37_broadcast_refuted.

(** A duplicated reply is not ignored silently: the handler raises. *)
Theorem C37_duplicate_refuted : exists l x m us r, genuine (l ++ [Reply x m us r]) /\
  snd (step elements (run elements start l) (Reply x m us r)) = Some InvalidState /\
  results (run elements start l) !! m <> results (run elements start (l ++ [Reply x m us r])) !! m.
Proof.
  exists [Send (Plain 1) None; Reply false (Plain 1) [] (ROk 5)], false, (Plain 1), [], (ROk 6).
  split; [| vm_compute; split; [reflexivity | discriminate]].
  unfold genuine. cbn [app genuine_from may]. repeat split; try (apply (bool_decide_unpack _); vm_compute; exact I); try routed.
  - exists 1. split; [reflexivity | is_fresh].
Qed.
Print Assumptions C37_duplicate_refuted.
