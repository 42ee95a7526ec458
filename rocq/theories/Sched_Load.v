(** The high-water mark: loads are the numbers of unanswered deliveries and stay below it. *)
From stdpp Require Import base gmap sets list.
From Verif Require Import Dependency_Model Sched_Trace Sched_Spec Sched_Model Sched_Env Sched_Base Sched_Traverse.
From Verif Require Prelude.
From Coq Require Import ZArith Lia.

Section C10.
Context (hwm : nat) (scheme : nat -> list Z -> nat).

Definition sends_fit (log : list obs) : Prop :=
  forall t m e t', log = t ++ ObsSend m e :: t' ->
    registered t e = true /\ (hwm <> 0 -> (outstanding t e < Z.of_nat hwm)%Z).

Record inv10 (targets : list nat) (loads : list Z) (log : list obs) : Prop := Inv10 {
  l_nodup : NoDup targets;
  l_len : length loads = length targets;
  l_reg : forall e, e ∈ targets <-> registered log e = true;
  l_load : forall i e, targets !! i = Some e -> loads !! i = Some (outstanding log e);
  l_sends : sends_fit log }.
Definition I10 (s : sched) : Prop := inv10 (s_targets s) (s_loads s) (s_log s).

Lemma registered_snoc t o e : registered (t ++ [o]) e =
  match o with
  | ObsRegister e' => if decide (e = e') then true else registered t e
  | ObsUnregister e' => if decide (e = e') then false else registered t e
  | _ => registered t e end.
Proof. unfold registered. rewrite foldl_app. simpl. destruct o; reflexivity. Qed.
Lemma outstanding_snoc t o e : outstanding (t ++ [o]) e =
  match o with
  | ObsRegister e' => if decide (e = e') then 0%Z else outstanding t e
  | ObsSend _ e' => if decide (e = e') then (outstanding t e + 1)%Z else outstanding t e
  | ObsResult _ e' _ => if decide (e = e') then (outstanding t e - 1)%Z else outstanding t e
  | _ => outstanding t e end.
Proof. unfold outstanding. rewrite foldl_app. simpl. destruct o; reflexivity. Qed.

Lemma sends_fit_app log o :
  sends_fit log ->
  (forall m e, o = ObsSend m e -> registered log e = true /\ (hwm <> 0 -> (outstanding log e < Z.of_nat hwm)%Z)) ->
  sends_fit (log ++ [o]).
Proof.
  intros H Ho t m e t' Heq.
  destruct t' as [|o' t'] using rev_ind.
  - apply app_inj_tail in Heq as [-> ->]. apply (Ho m e). reflexivity.
  - clear IHt'. rewrite app_comm_cons, app_assoc in Heq. apply app_inj_tail in Heq as [-> ->].
    eapply H. reflexivity.
Qed.

Definition quiet (o : obs) : Prop :=
  match o with ObsSubmit _ _ | ObsReply _ _ => True | _ => False end.
Lemma inv10_quiet tg ld log o : inv10 tg ld log -> quiet o -> inv10 tg ld (log ++ [o]).
Proof.
  intros [H1 H2 H3 H4 H5] Hq. split; auto.
  - intros e. rewrite registered_snoc. destruct o; try contradiction; apply H3.
  - intros i e He. rewrite outstanding_snoc. destruct o; try contradiction; apply H4; exact He.
  - apply sends_fit_app; [exact H5|]. intros m e ->. contradiction.
Qed.

Lemma rotate_lookup_other {A} i (l : list A) k x y :
  rotate i l !! k = Some y -> l !! i = Some x ->
  exists k', l !! k' = Some y /\ (k' = i <-> k = length l - 1) /\
    forall B (l2 : list B), length l2 = length l -> rotate i l2 !! k = l2 !! k'.
Proof.
  intros Hk Hi. pose proof (lookup_lt_Some _ _ _ Hi) as Hlt.
  assert (Hrot : forall B (l2 : list B), length l2 = length l ->
    forall k, k < length l ->
    rotate i l2 !! k = l2 !! (if decide (k < i) then k else if decide (k = length l - 1) then i else S k)).
  { intros B l2 Hl k0 Hk0. unfold rotate.
    destruct (lookup_lt_is_Some_2 l2 i) as [z Hz]; [lia|]. rewrite Hz. unfold list_pop.
    destruct (decide (k0 < i)).
    - rewrite <- app_assoc, lookup_app_l by (rewrite take_length; lia). apply lookup_take. lia.
    - destruct (decide (k0 = length l - 1)) as [E|E].
      + rewrite lookup_app_r by (rewrite app_length, take_length, drop_length; lia).
        rewrite app_length, take_length, drop_length.
        replace (k0 - _) with 0 by lia. simpl. congruence.
      + rewrite <- app_assoc, lookup_app_r by (rewrite take_length; lia). rewrite take_length.
        rewrite lookup_app_l by (rewrite drop_length; lia). rewrite lookup_drop. f_equal. lia. }
  assert (Hkl : k < length l).
  { apply lookup_lt_Some in Hk. rewrite (Permutation_length (rotate_perm i l)) in Hk. exact Hk. }
  exists (if decide (k < i) then k else if decide (k = length l - 1) then i else S k).
  split; [rewrite <- (Hrot A l eq_refl k Hkl); exact Hk|]. split.
  - destruct (decide (k < i)); [lia|]. destruct (decide (k = length l - 1)); lia.
  - intros B l2 Hl. apply Hrot; assumption.
Qed.

Lemma kept10 : kept hwm (fun _ _ => True) any_reason I10.
Proof.
  split; try (intros s g H; exact H); try (intros s j n H _; exact H).
  - intros; exact Logic.I.
  - intros s j jb H _ _. exact H.
  - intros; exact Logic.I.
  - intros s m w H _. apply inv10_quiet; [exact H|exact Logic.I].
  - intros s j jb idx target H (Hj & _ & Hrun) Htg.
    assert (Hs : I10 (sent (j_msg jb) idx target s)).
    { unfold I10, sent; simpl. destruct H as [H1 H2 H3 H4 H5].
      assert (Htin : target ∈ s_targets s) by (eapply elem_of_list_lookup_2; eauto).
      set (log' := s_log s ++ [ObsSend (j_msg jb) target]).
      assert (Hload : forall i e, s_targets s !! i = Some e ->
        alter (fun x => (x + 1)%Z) idx (s_loads s) !! i = Some (outstanding log' e)).
      { intros i e He. unfold log'. rewrite outstanding_snoc. destruct (decide (i = idx)) as [->|Hne].
        - rewrite list_lookup_alter, (H4 _ _ He). rewrite Htg in He. injection He as ->.
          rewrite decide_True by reflexivity. reflexivity.
        - rewrite list_lookup_alter_ne by congruence. rewrite (H4 _ _ He).
          destruct (decide (e = target)) as [->|]; [|reflexivity].
          exfalso. apply Hne. eapply NoDup_lookup; eauto. }
      split.
      - rewrite rotate_perm. exact H1.
      - rewrite !(Permutation_length (rotate_perm idx _)), alter_length. exact H2.
      - intros e. rewrite rotate_elem. unfold log'. rewrite registered_snoc. apply H3.
      - intros i e He. destruct (rotate_lookup_other _ _ _ _ _ He Htg) as (k' & Hk' & _ & Hall).
        rewrite Hall by (rewrite alter_length; exact H2). apply Hload. exact Hk'.
      - apply sends_fit_app; [exact H5|]. intros m e E. injection E as <- <-.
        split; [apply H3; exact Htin|]. intros Hh.
        destruct Hrun as [(Hz & _)|(Hav & _)]; [congruence|].
        unfold available_engines in Hav. rewrite decide_False in Hav by exact Hh.
        apply elem_of_list_In, filter_In in Hav as [_ Hlt].
        rewrite (H4 _ _ Htg) in Hlt. apply bool_decide_eq_true in Hlt. exact Hlt. }
    destruct (s_pending s !! target); exact Hs.
Qed.

Local Notation keep := (keeps I10).

Lemma handle_unmet_keeps10 fuel e m : keep (handle_unmet_dependency hwm scheme fuel e m).
Proof.
  intros s HI. unfold handle_unmet_dependency.
  apply wp_bind, wp_get. apply wp_bind, wp_of_option; [|intros _; exact HI]. intros l Hl.
  apply wp_bind, wp_of_option; [|intros _; exact HI]. intros j Hj.
  apply wp_bind, wp_upd. apply wp_bind, wp_upd.
  apply wp_bind, wp_get_job; [|intros _; exact HI]. intros jb2 Hjb2.
  apply wp_bind. eapply wp_mono with (Q := fun _ => I10) (E := I10); [|intros [] s' Hs'; apply (unmet_tail_keeps _ _ _ _ _ kept10); exact Hs'|auto].
  destruct (decide _) as [Hd|Hd].
  - apply (fail_now_keeps _ _ _ _ _ kept10); [exact HI|exact Logic.I].
  - apply (run_or_save_keeps _ _ _ _ _ kept10) with (jb := jb2); auto.
Qed.

Lemma handle_result_keeps10 fuel e m b : keep (handle_result hwm scheme fuel e m b).
Proof.
  intros s HI. unfold handle_result. apply wp_bind, wp_upd.
  set (s1 := set_log _ s).
  assert (H1 : I10 s1) by (apply inv10_quiet; [exact HI|exact Logic.I]).
  apply wp_bind, wp_get. apply wp_bind, wp_of_option; [|intros _; exact H1]. intros l Hl.
  apply wp_bind, wp_of_option; [|intros _; exact H1]. intros j Hj.
  apply wp_bind, wp_upd.
  apply wp_bind. eapply wp_mono with (Q := fun _ => I10) (E := I10); [| |auto].
  - destruct b; (apply wp_bind, wp_get, wp_bind, wp_of_option; [|intros _; exact H1]); intros X HX;
      apply wp_bind, wp_upd, wp_upd; exact H1.
  - intros [] s' Hs'. apply wp_bind, wp_upd. apply wp_bind, wp_upd.
    apply (update_graph_keeps _ _ _ _ _ kept10). exact Hs'.
Qed.

Lemma dispatch_result_keeps10 fuel e m k : keep (dispatch_result hwm scheme fuel e m k).
Proof.
  intros s HI. unfold dispatch_result. apply wp_bind, wp_upd.
  apply wp_bind, wp_get. apply wp_bind. simpl.
  eapply wp_mono with (Q := fun _ => I10) (E := I10); [| |auto].
  - destruct HI as [H1 H2 H3 H4 H5].
    assert (Hreg : forall e', e' ∈ s_targets s <-> registered (s_log s ++ [ObsResult m e k]) e' = true).
    { intros e'. rewrite registered_snoc. apply H3. }
    assert (Hsf : sends_fit (s_log s ++ [ObsResult m e k])) by (apply sends_fit_app; [exact H5|discriminate]).
    destruct (index_of e (s_targets s)) as [i|] eqn:Ei.
    + apply index_of_spec in Ei. apply wp_upd. split; auto; simpl.
      * rewrite alter_length. exact H2.
      * intros i' e' He'. rewrite outstanding_snoc. destruct (decide (i' = i)) as [->|Hne].
        -- rewrite list_lookup_alter, (H4 _ _ He'). rewrite Ei in He'. injection He' as ->.
           rewrite decide_True by reflexivity. reflexivity.
        -- rewrite list_lookup_alter_ne by congruence. rewrite (H4 _ _ He').
           destruct (decide (e' = e)) as [->|]; [|reflexivity].
           exfalso. apply Hne. eapply NoDup_lookup; eauto.
    + apply index_of_none in Ei. apply wp_ret. split; auto; simpl.
      intros i' e' He'. rewrite outstanding_snoc, decide_False; [apply H4; exact He'|].
      intros ->. apply Ei. eapply elem_of_list_lookup_2; eauto.
  - intros [] s2 H2.
    assert (Hmain : forall b, wp (do rt <- get s_retries; do retries <- of_option (rt !! m);
        if decide (b = false /\ 0 < retries) then
          upd (set_retries (<[m := retries - 1]>)) ;; handle_unmet_dependency hwm scheme fuel e m
        else upd (set_retries (delete m)) ;; handle_result hwm scheme fuel e m b) (fun _ => I10) I10 s2).
    { intros b. apply wp_bind, wp_get, wp_bind, wp_of_option; [|intros _; exact H2]. intros r _.
      destruct (decide _); apply wp_bind, wp_upd; [apply handle_unmet_keeps10|apply handle_result_keeps10]; exact H2. }
    destruct k; [apply (Hmain true)|apply (Hmain false)|apply handle_unmet_keeps10; exact H2].
Qed.

Lemma stranded_keeps10 fuel e : keep (handle_stranded_tasks hwm scheme fuel e).
Proof.
  intros s HI. unfold handle_stranded_tasks.
  apply wp_bind, wp_get, wp_bind, wp_of_option; [|intros _; exact HI]. intros lost _.
  apply wp_bind. eapply wp_mono; [apply wp_for_each with (I := I10) (E := I10); [exact HI|]| |auto].
  - intros m s' _ H'. apply wp_bind, wp_get, wp_bind, wp_of_option; [|intros _; exact H']. intros l _.
    destruct (al_lookup m l); [|apply wp_ret; exact H']. apply wp_swallow, dispatch_result_keeps10, H'.
  - intros [] s' H'. apply wp_bind, wp_get, wp_bind, wp_of_option; [|intros _; exact H']. intros X _.
    apply wp_bind, wp_upd.
    apply wp_bind, wp_get, wp_bind, wp_of_option; [|intros _; exact H']. intros Y _.
    apply wp_upd. exact H'.
Qed.

Lemma list_pop_lookup {A} i (l : list A) k : i < length l ->
  list_pop i l !! k = l !! (if decide (k < i) then k else S k).
Proof.
  intros Hi. unfold list_pop. destruct (decide (k < i)).
  - rewrite lookup_app_l by (rewrite take_length; lia). apply lookup_take. lia.
  - rewrite lookup_app_r by (rewrite take_length; lia). rewrite take_length, lookup_drop. f_equal. lia.
Qed.
Lemma list_pop_length {A} i (l : list A) : i < length l -> length (list_pop i l) = length l - 1.
Proof. intros Hi. unfold list_pop. rewrite app_length, take_length, drop_length. lia. Qed.

Lemma unregister_keeps10 e : keep (unregister_engine e).
Proof.
  intros s HI. unfold unregister_engine. apply wp_bind, wp_upd.
  apply wp_bind, wp_get, wp_bind. simpl.
  destruct HI as [H1 H2 H3 H4 H5].
  assert (Hsf : sends_fit (s_log s ++ [ObsUnregister e])) by (apply sends_fit_app; [exact H5|discriminate]).
  assert (Hld : forall i e', s_targets s !! i = Some e' -> s_loads s !! i = Some (outstanding (s_log s ++ [ObsUnregister e]) e')).
  { intros i e' He'. rewrite outstanding_snoc. apply H4. exact He'. }
  apply wp_of_option; intros i.
  - rename i into idx. intros Hidx. apply index_of_spec in Hidx.
    assert (Hlt := lookup_lt_Some _ _ _ Hidx).
    apply wp_bind, wp_upd, wp_bind, wp_upd.
    set (s2 := set_loads _ _). assert (HI2 : I10 s2).
    { assert (Hperm : s_targets s ≡ₚ e :: list_pop idx (s_targets s)).
      { unfold list_pop. rewrite <- (take_drop_middle _ _ _ Hidx) at 1.
        rewrite <- Permutation_middle. reflexivity. }
      pose proof H1 as Hnd. rewrite Hperm in Hnd. apply NoDup_cons in Hnd as [Hnin Hnd].
      split; simpl; auto.
      - rewrite !list_pop_length by lia. lia.
      - intros e'. rewrite registered_snoc. destruct (decide (e' = e)) as [->|Hne].
        + split; [intros; contradiction|discriminate].
        + rewrite <- H3. rewrite Hperm at 2. rewrite elem_of_cons. split; [auto|]. intros [?|?]; [contradiction|auto].
      - intros i e' He'. rewrite list_pop_lookup in He' by lia. rewrite list_pop_lookup by lia. auto. }
    apply wp_bind, wp_get, wp_bind, wp_of_option; [|intros _; exact HI2]. intros l _.
    destruct (decide _); [|apply wp_upd; exact HI2].
    apply wp_bind, wp_upd, wp_upd. exact HI2.
  - apply index_of_none in i. split; simpl; auto.
    intros e'. rewrite registered_snoc. destruct (decide (e' = e)) as [->|Hne]; [|apply H3].
    split; [intros; contradiction|discriminate].
Qed.

Lemma register_keeps10 fuel e s : registered (s_log s) e = false -> I10 s ->
  wp (register_engine hwm scheme fuel e) (fun _ => I10) I10 s.
Proof.
  intros Hreg [H1 H2 H3 H4 H5]. unfold register_engine.
  do 6 (apply wp_bind, wp_upd). apply (update_graph_keeps _ _ _ _ _ kept10).
  split; simpl.
  - apply NoDup_cons. split; [|exact H1]. rewrite H3. congruence.
  - rewrite H2. reflexivity.
  - intros e'. rewrite registered_snoc, elem_of_cons, H3. destruct (decide (e' = e)) as [->|Hne]; [tauto|].
    split; [intros [?|?]; [contradiction|assumption]|auto].
  - intros [|i] e'; simpl.
    + intros E. injection E as <-. rewrite outstanding_snoc, decide_True by reflexivity. reflexivity.
    + intros He'. rewrite outstanding_snoc, decide_False; [apply H4; exact He'|].
      intros ->. assert (Hin : e ∈ s_targets s) by (eapply elem_of_list_lookup_2; eauto).
      apply H3 in Hin. congruence.
  - apply sends_fit_app; [exact H5|discriminate].
Qed.

Lemma dispatch_submission_keeps10 fuel m md : keep (dispatch_submission hwm scheme fuel m md).
Proof.
  intros s HI. unfold dispatch_submission. apply wp_bind, wp_upd, wp_bind, wp_upd, wp_bind, wp_upd.
  set (s1 := set_retries _ _).
  assert (H1 : I10 s1) by (apply inv10_quiet; [exact HI|exact Logic.I]).
  apply wp_bind. destruct (from_dict (t_after md)) as [a0|] eqn:Ea; [|apply wp_raise; exact H1]. apply wp_ret.
  apply wp_bind, wp_get, wp_bind, wp_get. cbv zeta.
  apply wp_bind. destruct (from_dict (t_follow md)) as [fo|] eqn:Ef; [|apply wp_raise; exact H1]. apply wp_ret.
  apply wp_bind, wp_get, wp_bind, wp_upd, wp_bind, wp_upd.
  set (s2 := set_jobs _ _).
  assert (H2 : I10 s2) by exact H1.
  assert (Hj2 : exists jb, s_jobs s2 !! s_next s1 = Some jb).
  { eexists. simpl. rewrite lookup_insert. reflexivity. }
  destruct Hj2 as [jb Hj2].
  apply wp_bind, wp_get. cbv zeta.
  destruct (bool_decide (d_ids (build_after a0 _ _) <> ∅ /\ _)); [apply (fail_now_keeps _ _ _ _ _ kept10); [exact H2|exact Logic.I]|].
  destruct (bool_decide _ && _); [apply (fail_now_keeps _ _ _ _ _ kept10); [exact H2|exact Logic.I]|].
  destruct (bool_decide (d_ids fo <> ∅ /\ _)); [apply (fail_now_keeps _ _ _ _ _ kept10); [exact H2|exact Logic.I]|].
  destruct (bool_decide _ && _); [apply (fail_now_keeps _ _ _ _ _ kept10); [exact H2|exact Logic.I]|].
  destruct (check (build_after a0 _ _) _ _) eqn:Ec; [|apply (save_unmet_keeps _ _ _ _ kept10); exact H2].
  apply (run_or_save_keeps _ _ _ _ _ kept10) with (jb := jb); auto.
Qed.

Lemma handle_keeps10 fuel ev s :
  no_double_registration (s_log s) ev -> I10 s -> wp (handle hwm scheme fuel ev) (fun _ => I10) I10 s.
Proof.
  intros Hok HI. destruct ev as [m md|m e k|e|e|e|j tid]; simpl.
  - apply dispatch_submission_keeps10, HI.
  - apply dispatch_result_keeps10, HI.
  - apply register_keeps10; [|exact HI]. apply Hok. reflexivity.
  - apply unregister_keeps10, HI.
  - apply wp_bind, wp_get. destruct (index_of _ _); [|apply wp_ret; exact HI].
    apply wp_bind, wp_upd. apply stranded_keeps10. exact HI.
  - apply wp_bind, wp_get. destruct (decide _); [|apply wp_ret; exact HI].
    apply wp_bind, wp_upd. apply (job_timeout_keeps _ _ _ _ _ kept10); [exact HI|intros; exact Logic.I].
Qed.

Lemma I10_init : I10 init.
Proof.
  split; simpl.
  - constructor.
  - reflexivity.
  - intros e. split; [inversion 1|discriminate].
  - intros i e H. rewrite lookup_nil in H. discriminate.
  - intros t m e t' H. destruct t; discriminate.
Qed.

Lemma I10_reachable (ok : list obs -> event -> Prop) s :
  (forall t ev, ok t ev -> no_double_registration t ev) -> reachable hwm scheme ok s -> I10 s.
Proof.
  intros Hok. apply reachable_inv; [apply I10_init|]. intros s' ev fuel HI H. apply handle_keeps10; auto.
Qed.

(** Every prefix of the trace respects the mark. *)
Lemma fit_bounded log : sends_fit log -> hwm <> 0 -> forall e, (outstanding log e <= Z.of_nat hwm)%Z.
Proof.
  intros H Hh. induction log as [|o log IH] using rev_ind; intros e; [unfold outstanding; simpl; lia|].
  assert (Hp : sends_fit log).
  { intros t m e' t' E. eapply (H t m e' (t' ++ [o])). rewrite E, <- app_assoc. reflexivity. }
  specialize (IH Hp). rewrite outstanding_snoc. specialize (IH e).
  destruct o as [| | |m e'| |]; try exact IH; destruct (decide (e = _)) as [E|]; try lia.
  subst e'. destruct (H log m e [] eq_refl) as [_ H2]. specialize (H2 Hh). lia.
Qed.
Lemma fit_prefix t t' : sends_fit (t ++ t') -> sends_fit t.
Proof.
  intros H t1 m e t2 E. eapply (H t1 m e (t2 ++ t')). rewrite E, <- app_assoc. reflexivity.
Qed.

Lemma hwm_respected s t t' :
  reachable hwm scheme no_double_registration s -> hwm <> 0 -> s_log s = t ++ t' ->
  forall e, (outstanding t e <= Z.of_nat hwm)%Z.
Proof.
  intros Hr Hh Hl. apply (I10_reachable _ _ (fun _ _ x => x)) in Hr. destruct Hr as [_ _ _ _ H5].
  rewrite Hl in H5. apply fit_prefix in H5. apply fit_bounded; assumption.
Qed.
Lemma sends_to_registered s :
  reachable hwm scheme no_double_registration s -> sends_fit (s_log s).
Proof. intros Hr. apply (I10_reachable _ _ (fun _ _ x => x)) in Hr. apply Hr. Qed.
End C10.
