(** The tasks of a dead engine (high-water mark 1), and the life-cycle invariant of all reachable
    states. *)
From stdpp Require Import base gmap sets list.
From Verif Require Import Dependency_Model Sched_Trace Sched_Spec Sched_Model Sched_Env Sched_Base Sched_Traverse Sched_Load Sched_Retry Sched_Frame Sched_Once Sched_Life.
From Verif Require Prelude.
From Coq Require Import ZArith Lia.


(** Reading the automaton. *)
Lemma phase_app t t' m : phase_of (t ++ t') m = foldl (phase_step m) (phase_of t m) t'.
Proof. unfold phase_of. apply foldl_app. Qed.
Lemma broken_forever t m : foldl (phase_step m) Broken t = Broken.
Proof.
  induction t as [|o t IH]; simpl; [reflexivity|].
  replace (phase_step m Broken o) with Broken; [exact IH|].
  destruct o; simpl; try reflexivity; destruct (decide _); reflexivity.
Qed.
Lemma replied_or_broken t m p : p = Replied \/ p = Broken ->
  foldl (phase_step m) p t = Replied \/ foldl (phase_step m) p t = Broken.
Proof.
  revert p. induction t as [|o t IH]; simpl; intros p Hp; [exact Hp|]. apply IH.
  destruct Hp as [-> | ->]; destruct o; simpl; auto; destruct (decide _); auto.
Qed.
Lemma phase_two_replies t1 t2 t3 m r1 r2 :
  phase_of (t1 ++ ObsReply m r1 :: t2 ++ ObsReply m r2 :: t3) m = Broken.
Proof.
  rewrite phase_app. cbn [foldl]. rewrite foldl_app. cbn [foldl].
  assert (Hp : phase_step m (phase_of t1 m) (ObsReply m r1) = Replied \/ phase_step m (phase_of t1 m) (ObsReply m r1) = Broken).
  { simpl. rewrite decide_True by reflexivity. destruct (phase_of t1 m); auto. }
  apply (replied_or_broken t2 m) in Hp.
  replace (phase_step m (foldl (phase_step m) (phase_step m (phase_of t1 m) (ObsReply m r1)) t2) (ObsReply m r2)) with Broken.
  - apply broken_forever.
  - destruct Hp as [-> | ->]; simpl; rewrite decide_True by reflexivity; reflexivity.
Qed.
Lemma on_engine_stays t m e : (forall k, ObsResult m e k ∉ t) ->
  foldl (phase_step m) (OnEngine e) t = OnEngine e \/ foldl (phase_step m) (OnEngine e) t = Broken.
Proof.
  induction t as [|o t IH]; intros H; [auto|]. cbn [foldl].
  assert (Ht : forall k, ObsResult m e k ∉ t) by (intros k Hin; apply (H k); right; exact Hin).
  assert (Hstep : phase_step m (OnEngine e) o = OnEngine e \/ phase_step m (OnEngine e) o = Broken).
  { destruct o as [| | | |m' e' k|]; simpl; auto; try (destruct (decide _); auto).
    subst m'. destruct (decide (e' = e)) as [->|]; [|auto]. exfalso. apply (H k). left. }
  destruct Hstep as [-> | ->]; [apply IH, Ht|right; apply broken_forever].
Qed.
Lemma phase_two_sends t1 t2 t3 m e1 e2 :
  phase_of (t1 ++ ObsSend m e1 :: t2 ++ ObsSend m e2 :: t3) m <> Broken -> exists k, ObsResult m e1 k ∈ t2.
Proof.
  intros H.
  destruct (existsb (fun o => match o with ObsResult m' e' _ => bool_decide (m = m' /\ e1 = e') | _ => false end) t2) eqn:E.
  - apply existsb_exists in E as (o & Ho & E). apply elem_of_list_In in Ho. destruct o as [| | | |m' e' k|]; try discriminate.
    apply bool_decide_eq_true_1 in E as [-> ->]. eauto.
  - exfalso. apply H. rewrite phase_app. cbn [foldl]. rewrite foldl_app. cbn [foldl].
    assert (Hno : forall k, ObsResult m e1 k ∉ t2).
    { intros k Hin. assert (existsb (fun o => match o with ObsResult m' e' _ => bool_decide (m = m' /\ e1 = e') | _ => false end) t2 = true); [|congruence].
      apply existsb_exists. exists (ObsResult m e1 k). split; [apply elem_of_list_In; exact Hin|]. apply bool_decide_eq_true_2. auto. }
    assert (Hs : phase_step m (phase_of t1 m) (ObsSend m e1) = OnEngine e1 \/ phase_step m (phase_of t1 m) (ObsSend m e1) = Broken).
    { simpl. rewrite decide_True by reflexivity. destruct (phase_of t1 m); auto. }
    replace (phase_step m (foldl (phase_step m) (phase_step m (phase_of t1 m) (ObsSend m e1)) t2) (ObsSend m e2)) with Broken;
      [apply broken_forever|].
    destruct Hs as [-> | ->]; [destruct (on_engine_stays t2 m e1 Hno) as [-> | ->]|rewrite broken_forever];
      simpl; rewrite decide_True by reflexivity; reflexivity.
Qed.

Section Strand.
Context (scheme : nat -> list Z -> nat).
Let hwm := 1.

Lemma strand_loop fuel e : forall (ms : list nat) (s : sched) (l : list (nat * nat)) (rt0 : gmap nat nat) (os : list obs),
  I11 ([e], None) [] s -> e ∉ s_targets s -> s_pending s !! e = Some l -> (forall x, x ∈ l.*1 -> x ∈ ms) -> NoDup ms ->
  (forall x, x ∈ l.*1 -> s_retries s !! x = rt0 !! x) -> (forall o, o ∈ os -> o ∈ s_log s) ->
  wp (for_each ms (fun m =>
        do pd <- get s_pending; do l <- of_option (pd !! e);
        match al_lookup m l with None => ret tt | Some _ => swallow (dispatch_result hwm scheme fuel e m RErr) end))
     (fun _ s' => I11 ([e], None) [] s' /\ e ∉ s_targets s' /\ s_pending s' !! e = Some [] /\
        (forall o, o ∈ os -> o ∈ s_log s') /\
        forall m r, m ∈ l.*1 -> rt0 !! m = Some r -> forall o, o ∈ settled_as e m r -> o ∈ s_log s')
     (fun _ => False) s.
Proof.
  induction ms as [|m ms IH]; intros s l rt0 os HI Htg Hl Hsub Hnd Hrt Hos; cbn [for_each].
  - apply wp_ret. assert (l = []) as ->. { destruct l as [|x l]; [reflexivity|]. exfalso. specialize (Hsub x.1). set_solver. }
    do 4 (split; [assumption|]). intros m r Hin. inversion Hin.
  - apply NoDup_cons in Hnd as [Hm Hnd]. apply wp_bind, wp_bind, wp_get. rewrite Hl. apply wp_bind, wp_ret.
    destruct (al_lookup m l) as [j|] eqn:Hal.
    + assert (Hin : (m, j) ∈ l) by (apply al_lookup_elem; exact Hal).
      assert (Hmin : m ∈ l.*1) by (apply elem_of_list_fmap; exists (m, j); auto).
      destruct (w_pd _ _ _ _ _ _ _ _ _ _ _ HI e l m j Hl Hin) as (jb & Hj & Hjm & Hjr & Hph & _).
      assert (Hsub' : submitted (s_log s) m).
      { apply phase_submitted; [apply (w_ok _ _ _ _ _ _ _ _ _ _ _ HI)|congruence]. }
      destruct Hsub' as [md Hmd].
      destruct (w_bud _ _ _ _ _ _ _ _ _ _ _ HI m md Hmd) as [_ HB]. destruct HB as [_ HB]; [discriminate|].
      destruct (HB e Hph) as (r & Hr & _). clear HB.
      apply wp_swallow.
      assert (Hand := wp_and _ _ _ _ _ _ (dispatch_result_good scheme [e] fuel e m RErr s HI Hph)
                                       (strand_one hwm scheme fuel e m l j jb r os s Htg Hl Hal Hj Hr Hos)).
      assert (Hkeys := w_keys _ _ _ _ _ _ _ _ _ _ _ HI e l Hl).
      assert (Hcont : forall s1, I11 ([e], None) [] s1 /\
          frame e (al_remove m l) (fun rt => forall x, x <> m -> rt !! x = s_retries s !! x) (settled_as e m r ++ os) s1 ->
        wp (for_each ms (fun m =>
          do pd <- get s_pending; do l <- of_option (pd !! e);
          match al_lookup m l with None => ret tt | Some _ => swallow (dispatch_result hwm scheme fuel e m RErr) end))
         (fun _ s' => I11 ([e], None) [] s' /\ e ∉ s_targets s' /\ s_pending s' !! e = Some [] /\
            (forall o, o ∈ os -> o ∈ s_log s') /\
            forall m r, m ∈ l.*1 -> rt0 !! m = Some r -> forall o, o ∈ settled_as e m r -> o ∈ s_log s')
         (fun _ => False) s1).
      { intros s1 (HI1 & F1 & F2 & F3 & F4).
        destruct (al_remove_nodup m l Hkeys) as [_ Hgone].
        eapply wp_mono; [apply (IH s1 (al_remove m l) rt0 (settled_as e m r ++ os)); auto| |auto].
        - intros x Hx. assert (x <> m) by congruence. assert (Hx' := al_remove_keys _ _ _ Hx).
          specialize (Hsub x Hx'). apply elem_of_cons in Hsub as [?|?]; [contradiction|assumption].
        - intros x Hx. assert (x <> m) by congruence. rewrite F3 by assumption. apply Hrt. eapply al_remove_keys; eauto.
        - intros [] s' (A & B & C & D & E). do 3 (split; [assumption|]). split.
          + intros o Ho. apply D, elem_of_app. auto.
          + intros m' r' Hm' Hr' o Ho. destruct (decide (m' = m)) as [->|Hne].
            * apply D, elem_of_app. left. rewrite <- Hrt, Hr in Hr' by exact Hmin. injection Hr' as <-. exact Ho.
            * apply (E m' r'); auto. apply elem_of_list_fmap in Hm' as ([m2 j2] & E2 & Hin2). simpl in E2. subst m2.
              apply elem_of_list_fmap. exists (m', j2). split; [reflexivity|]. apply al_remove_other; assumption. }
      eapply wp_mono; [exact Hand| |]; cbv beta; intros; apply Hcont; assumption.
    + apply wp_ret. apply IH; auto. intros x Hx. specialize (Hsub x Hx). apply elem_of_cons in Hsub as [->|?]; [|assumption].
      exfalso. apply elem_of_list_fmap in Hx as ([m2 j2] & E2 & Hin2). simpl in E2. subst m2.
      eapply al_lookup_none; eauto.
Qed.

(** While the stranded tasks of [e] are handled, its timer is gone. *)
Lemma strand_begin_I11 e i s : I11 ([], None) [] s -> s_strand_timers s !! i = Some e ->
  I11 ([e], None) [] (set_strand_timers (list_pop i) s).
Proof.
  intros HI Ei. assert (Hin : e ∈ s_strand_timers s) by (eapply elem_of_list_lookup_2; eauto).
  destruct (w_tm _ _ _ _ _ _ _ _ _ _ _ HI e (or_introl Hin)) as [Htg Hreg].
  destruct HI as [L1 L2 L3 L4 L5 L6 L7 L8 L9 L10 L11 L12 L13 L14 L15 L16 L17 L18 L19]. unfold I11; simpl in *. split; auto.
  - simpl. intros e' [He'|He']; [apply L15; left; eapply list_pop_elem; exact He'|].
    apply elem_of_list_singleton in He'. subst e'. auto.
  - simpl. intros e' l Hl Hnn. destruct (L17 e' l Hl Hnn) as [A|[A|A]]; [auto| |inversion A].
    destruct (list_pop_cover scheme _ _ _ _ Ei A) as [->|B]; [right; right; left|auto].
Qed.
Lemma strand_end_I11 e s' : I11 ([e], None) [] s' -> s_pending s' !! e = Some [] -> I11 ([], None) [] s'.
Proof.
  intros [L1 L2 L3 L4 L5 L6 L7 L8 L9 L10 L11 L12 L13 L14 L15 L16 L17 L18 L19] Hnil. split; auto.
  - simpl in *. intros e' [He'|He']; [auto|inversion He'].
  - simpl in *. intros e' l Hl Hnn. destruct (L17 e' l Hl Hnn) as [A|[A|A]]; [auto|auto|].
    apply elem_of_list_singleton in A. subst e'. congruence.
Qed.

(** The timer armed for a dead engine fires. *)
Lemma strand_timer_good fuel e s :
  I11 ([], None) [] s ->
  let Q s' := I11 ([], None) [] s' /\
     (e ∈ s_strand_timers s -> forall m r, phase_of (s_log s) m = OnEngine e -> s_retries s !! m = Some r ->
        s_pending s' !! e = Some [] /\ forall o, o ∈ settled_as e m r -> o ∈ s_log s') in
  wp (handle hwm scheme fuel (EvStrandTimer e)) (fun _ => Q) Q s.
Proof.
  intros HI Q. simpl. apply wp_bind, wp_get.
  destruct (index_of e (s_strand_timers s)) as [i|] eqn:Ei.
  2:{ apply wp_ret. split; [exact HI|]. intros Hin. apply index_of_none in Ei. contradiction. }
  apply index_of_spec in Ei. assert (Hin : e ∈ s_strand_timers s) by (eapply elem_of_list_lookup_2; eauto).
  apply wp_bind, wp_upd. set (s1 := set_strand_timers _ s).
  destruct (w_tm _ _ _ _ _ _ _ _ _ _ _ HI e (or_introl Hin)) as [Htg Hreg].
  assert (HI1 : I11 ([e], None) [] s1) by (apply strand_begin_I11; assumption).
  pose proof (strand_end_I11 e) as Hwk.
  unfold handle_stranded_tasks. apply wp_bind, wp_get. apply wp_bind, wp_of_option.
  2:{ intros Hnone. simpl in Hnone. split.
      - destruct HI as [L1 L2 L3 L4 L5 L6 L7 L8 L9 L10 L11 L12 L13 L14 L15 L16 L17 L18 L19]. unfold I11; simpl in *. split; auto.
        + simpl. intros e' [He'|He']; [apply L15; left; eapply list_pop_elem; exact He'|inversion He'].
        + simpl. intros e' l Hl Hnn. destruct (L17 e' l Hl Hnn) as [A|[A|A]]; [auto| |inversion A].
          destruct (list_pop_cover scheme _ _ _ _ Ei A) as [->|B]; [congruence|auto].
      - intros _ m r Hph. destruct (w_on _ _ _ _ _ _ _ _ _ _ _ HI m e Hph) as (l & Hl & _). congruence. }
  intros l Hl. apply wp_bind.
  assert (Hkeys := w_keys _ _ _ _ _ _ _ _ _ _ _ HI e l Hl).
  eapply wp_mono; [apply (strand_loop fuel e (map fst l) s1 l (s_retries s) []); auto; intros o Ho; inversion Ho| |intros s' []].
  - intros [] s' (A & B & C & _ & D).
    assert (HQ : forall s2, s_jobs s2 = s_jobs s' -> s2 = set_completed (fun _ => s_completed s2) (set_failed (fun _ => s_failed s2) s') -> Q s2).
    { intros s2 _ ->. split; [apply (Hwk _ A C)|]. intros _ m r Hph Hr. split; [exact C|].
      destruct (w_on _ _ _ _ _ _ _ _ _ _ _ HI m e Hph) as (l' & Hl' & Hm).
      simpl in Hl. rewrite Hl in Hl'. injection Hl' as <-. exact (D m r Hm Hr). }
    apply wp_bind, wp_get, wp_bind, wp_of_option; [|intros _; apply HQ; destruct s'; reflexivity]. intros Y _.
    apply wp_bind, wp_upd.
    apply wp_bind, wp_get, wp_bind, wp_of_option; [|intros _; apply HQ; destruct s'; reflexivity]. intros Z _.
    apply wp_upd. apply HQ; destruct s'; reflexivity.
Qed.

Lemma handle_good fuel ev s :
  genuine (s_log s) ev -> I11 ([], None) [] s ->
  wp (handle hwm scheme fuel ev) (fun _ => I11 ([], None) []) (I11 ([], None) []) s.
Proof.
  intros Hok HI. destruct ev as [m md|m e k|e|e|e|j tid].
  - apply (dispatch_submission_good scheme []); assumption.
  - apply (dispatch_result_good scheme []); assumption.
  - apply (register_good scheme []); assumption.
  - apply (unregister_good []); assumption.
  - eapply wp_mono; [apply strand_timer_good; exact HI| |]; cbv beta; [intros _ s' [A _]|intros s' [A _]]; exact A.
  - simpl. apply wp_bind, wp_get. destruct (decide _); [|apply wp_ret; exact HI].
    apply wp_bind, wp_upd. apply (job_timeout_good scheme []). exact HI.
Qed.

Lemma I11_init : I11 ([], None) [] init.
Proof.
  unfold I11; apply Inv11; simpl.
  - intros j _. reflexivity.
  - intros j1 j2 b1 b2 H. discriminate H.
  - intros j jb H. discriminate H.
  - apply NoDup_nil_2.
  - intros j H. inversion H.
  - intros m j H. discriminate H.
  - intros e l H. discriminate H.
  - intros e l m j H. discriminate H.
  - intros m e H. discriminate H.
  - intros m H. discriminate H.
  - apply NoDup_nil_2.
  - reflexivity.
  - intros i e H. discriminate H.
  - intros m md H. inversion H.
  - intros e [H|H]; inversion H.
  - intros e l H. discriminate H.
  - intros e l H. discriminate H.
  - intros m e k H. inversion H.
  - intros t m e t' H. destruct t; discriminate H.
Qed.

Lemma I11_reachable s : reachable hwm scheme genuine s -> I11 ([], None) [] s.
Proof.
  apply reachable_inv; [apply I11_init|]. intros s' ev fuel HI H. apply handle_good; auto.
Qed.

Lemma genuine_registration t ev : genuine t ev -> no_double_registration t ev.
Proof.
  intros H e ->. simpl in H. revert H. induction t as [|o t IH] using rev_ind; intros H; [reflexivity|].
  rewrite registered_snoc. assert (Ht : ObsRegister e ∉ t) by (intros ?; apply H, elem_of_app; auto).
  destruct o as [| e'|e'| | |]; auto.
  - destruct (decide (e = e')) as [->|]; [|auto]. exfalso. apply H, elem_of_app. right. left.
  - destruct (decide _); auto.
Qed.
Lemma genuine_sane s ev : I11 ([], None) [] s -> genuine (s_log s) ev -> sane_ids (s_log s) ev.
Proof.
  intros HI H. destruct ev; simpl in *; auto. apply phase_submitted; [apply (w_ok _ _ _ _ _ _ _ _ _ _ _ HI)|congruence].
Qed.

(** * Results *)
Lemma life_cycle s m : reachable hwm scheme genuine s -> phase_of (s_log s) m <> Broken.
Proof. intros H. apply (w_ok _ _ _ _ _ _ _ _ _ _ _ (I11_reachable s H)). Qed.
Lemma never_back s : reachable hwm scheme genuine s -> no_repeat (s_log s).
Proof. intros H. apply (w_norepeat _ _ _ _ _ _ _ _ _ _ _ (I11_reachable s H)). Qed.
Lemma sends_bounded s m md : reachable hwm scheme genuine s -> ObsSubmit m md ∈ s_log s ->
  sends (s_log s) m <= S (t_retries md + refusals (s_log s) m).
Proof. intros H. apply (w_bud _ _ _ _ _ _ _ _ _ _ _ (I11_reachable s H)). Qed.

Lemma sane_reachable s : reachable hwm scheme genuine s -> I16 s.
Proof.
  intros Hr. assert (reachable hwm scheme sane_ids s) as Hs.
  { induction Hr as [|s ev s' fuel Hr IH Hok Hst]; [constructor|].
    econstructor; [exact IH|apply genuine_sane; [apply I11_reachable, Hr|exact Hok]|exact Hst]. }
  eapply I16_reachable; eauto.
Qed.

Lemma strand_recovered s s' fuel e m md :
  reachable hwm scheme genuine s -> registered (s_log s) e = false -> phase_of (s_log s) m = OnEngine e ->
  ObsSubmit m md ∈ s_log s ->
  step hwm scheme fuel s (EvStrandTimer e) = Some s' ->
  ObsResult m e RErr ∈ s_log s' /\ phase_of (s_log s') m <> OnEngine e /\
  (errors (s_log s) m = t_retries md -> ObsReply m (FromEngine e false) ∈ s_log s').
Proof.
  intros Hr Hreg Hph Hmd Hst.
  assert (HI := I11_reachable s Hr).
  assert (H10 : I10 hwm s) by (eapply (I10_reachable hwm scheme genuine); [apply genuine_registration|exact Hr]).
  destruct (w_on _ _ _ _ _ _ _ _ _ _ _ HI m e Hph) as (l & Hl & Hm).
  assert (Hin : e ∈ s_strand_timers s).
  { destruct (w_strand _ _ _ _ _ _ _ _ _ _ _ HI e l Hl) as [A|[A|A]]; [intros ->; inversion Hm| |exact A|inversion A].
    exfalso. apply (l_reg _ _ _ _ H10) in A. congruence. }
  destruct (w_bud _ _ _ _ _ _ _ _ _ _ _ HI m md Hmd) as [_ HB]. destruct HB as [_ HB]; [discriminate|].
  destruct (HB e Hph) as (r & Hret & _). clear HB.
  assert (H16 := sane_reachable s Hr).
  destruct (r_count _ _ _ _ H16 m r Hret) as (md' & Hmd' & Hcnt).
  assert (md' = md) by (eapply (r_once _ _ _ _ H16); eauto). subst md'.
  assert (HQ : I11 ([], None) [] s' /\ s_pending s' !! e = Some [] /\ forall o, o ∈ settled_as e m r -> o ∈ s_log s').
  { pose proof (strand_timer_good fuel e s HI) as Hw. unfold step, swallow in Hst. unfold wp in Hw. fold hwm in Hst.
    destruct (handle hwm scheme fuel (EvStrandTimer e) s); [| |discriminate]; injection Hst as <-;
      destruct Hw as [A B]; specialize (B Hin m r Hph Hret); tauto. }
  destruct HQ as (HI' & Hnil & Hset). split; [apply Hset; left|]. split.
  - intros Hon. destruct (w_on _ _ _ _ _ _ _ _ _ _ _ HI' m e Hon) as (l' & Hl' & Hm'). rewrite Hnil in Hl'. injection Hl' as <-. inversion Hm'.
  - intros He. assert (r = 0) as -> by lia. apply Hset. right. left.
Qed.

Lemma one_reply s m r1 r2 t1 t2 t3 :
  reachable hwm scheme genuine s -> s_log s <> t1 ++ ObsReply m r1 :: t2 ++ ObsReply m r2 :: t3.
Proof.
  intros Hr E. apply (life_cycle s m Hr). rewrite E. apply phase_two_replies.
Qed.
Lemma no_double_send s m e1 e2 t1 t2 t3 :
  reachable hwm scheme genuine s -> s_log s = t1 ++ ObsSend m e1 :: t2 ++ ObsSend m e2 :: t3 ->
  exists k, ObsResult m e1 k ∈ t2.
Proof.
  intros Hr E. apply phase_two_sends with (t1 := t1) (e2 := e2) (t3 := t3). rewrite <- E. apply life_cycle, Hr.
Qed.
End Strand.
