(** Retry counting: for all configurations, when ids are fresh and results belong to submitted tasks. *)
From stdpp Require Import base gmap sets list.
From Verif Require Import Dependency_Model Sched_Trace Sched_Spec Sched_Model Sched_Env Sched_Base Sched_Traverse.
From Verif Require Prelude.
From Coq Require Import ZArith Lia.

Section C16.
Context (hwm : nat) (scheme : nat -> list Z -> nat).

Definition replies_ok (log : list obs) : Prop :=
  forall t m e b t', log = t ++ ObsReply m (FromEngine e b) :: t' ->
    exists md, ObsSubmit m md ∈ t /\
      if b : bool then errors t m <= t_retries md else errors t m = S (t_retries md).

Record inv16 (jobs : gmap nat job) (retries : gmap nat nat) (pending : gmap nat (list (nat * nat)))
  (log : list obs) : Prop := Inv16 {
  r_once : forall m md md', ObsSubmit m md ∈ log -> ObsSubmit m md' ∈ log -> md = md';
  r_jobs : forall j jb, jobs !! j = Some jb -> submitted log (j_msg jb);
  r_pend : forall e l x, pending !! e = Some l -> x ∈ l -> submitted log x.1;
  r_none : forall m, ~ submitted log m -> errors log m = 0;
  r_count : forall m k, retries !! m = Some k -> exists md, ObsSubmit m md ∈ log /\ k + errors log m = t_retries md;
  r_reply : replies_ok log }.
Definition I16 (s : sched) : Prop := inv16 (s_jobs s) (s_retries s) (s_pending s) (s_log s).

Lemma errors_snoc t o m : errors (t ++ [o]) m = errors t m + if is_result m RErr o then 1 else 0.
Proof. unfold errors. rewrite List.filter_app, app_length. simpl. destruct (is_result m RErr o); reflexivity. Qed.
Lemma submitted_snoc t o m : submitted t m -> submitted (t ++ [o]) m.
Proof. intros [md H]. exists md. apply elem_of_app. auto. Qed.

Lemma replies_ok_app log o :
  replies_ok log ->
  (forall m e b, o = ObsReply m (FromEngine e b) -> exists md, ObsSubmit m md ∈ log /\
      if b : bool then errors log m <= t_retries md else errors log m = S (t_retries md)) ->
  replies_ok (log ++ [o]).
Proof.
  intros H Ho t m e b t' Heq.
  destruct t' as [|o' t'] using rev_ind.
  - apply app_inj_tail in Heq as [-> ->]. apply (Ho m e). reflexivity.
  - clear IHt'. rewrite app_comm_cons, app_assoc in Heq. apply app_inj_tail in Heq as [-> ->].
    eapply H. reflexivity.
Qed.

Definition neutral (o : obs) : Prop :=
  match o with ObsSubmit _ _ | ObsResult _ _ _ | ObsReply _ (FromEngine _ _) => False | _ => True end.
Lemma in_snoc_other (log : list obs) (o x : obs) : o <> x -> x ∈ log ++ [o] -> x ∈ log.
Proof. rewrite elem_of_app, elem_of_list_singleton. intros Hne [?|?]; [assumption|congruence]. Qed.

Lemma inv16_log jobs rt pd log o :
  inv16 jobs rt pd log ->
  (forall m md, o <> ObsSubmit m md) -> (forall m, is_result m RErr o = false) ->
  (forall m e b, o = ObsReply m (FromEngine e b) -> exists md, ObsSubmit m md ∈ log /\
      if b : bool then errors log m <= t_retries md else errors log m = S (t_retries md)) ->
  inv16 jobs rt pd (log ++ [o]).
Proof.
  intros [H1 H2 H3 H4 H5 H6] N1 N2 N3. split.
  - intros m md md' Ha Hb. apply (H1 m); eapply in_snoc_other; eauto.
  - intros j jb Hj. apply submitted_snoc. eauto.
  - intros e l x Hl Hx. apply submitted_snoc. eauto.
  - intros m Hn. rewrite errors_snoc, N2, H4; [reflexivity|]. intros Hs. apply Hn, submitted_snoc, Hs.
  - intros m k Hk. destruct (H5 m k Hk) as (md & Ha & Hb). exists md. split; [apply elem_of_app; auto|].
    rewrite errors_snoc, N2. lia.
  - apply replies_ok_app; assumption.
Qed.

Lemma inv16_alter jobs rt pd log f j :
  (forall jb, j_msg (f jb) = j_msg jb) -> inv16 jobs rt pd log -> inv16 (alter f j jobs) rt pd log.
Proof.
  intros Hf [H1 H2 H3 H4 H5 H6]. split; auto. intros j' jb'. rewrite lookup_alter_Some.
  intros [(-> & jb & Hj & ->)|(Hne & Hj)]; [rewrite Hf|]; eauto.
Qed.

Lemma kept16 : kept hwm (fun _ _ => True) any_reason I16.
Proof.
  split; try (intros s g H; exact H); try (intros s j n H _; exact H).
  - intros; exact Logic.I.
  - intros s j H. apply inv16_alter; [reflexivity|exact H].
  - intros s j n H _. apply inv16_alter; [reflexivity|exact H].
  - intros s j jb H _ _. apply inv16_alter; [reflexivity|exact H].
  - intros s j jb H _. apply inv16_alter; [reflexivity|]. apply inv16_alter; [reflexivity|exact H].
  - intros; exact Logic.I.
  - intros s m w H _. apply inv16_log; [exact H|discriminate|reflexivity|discriminate].
  - intros s j jb idx target H (Hj & _) Htg.
    assert (Hs : I16 (sent (j_msg jb) idx target s)).
    { apply inv16_log; [exact H|discriminate|reflexivity|discriminate]. }
    destruct (s_pending s !! target) as [l|] eqn:El; [|exact Hs].
    destruct Hs as [L1 L2 L3 L4 L5 L6]. split; auto. simpl in *.
    intros e l' x. rewrite lookup_insert_Some. intros [(-> & <-)|(Hne & Hl)] Hx; [|eauto].
    apply al_insert_elem in Hx as [->|Hx]; [simpl; eauto|eauto].
Qed.

Local Notation keep := (keeps I16).
Lemma inv16_remove jobs rt pd log e m l :
  inv16 jobs rt pd log -> pd !! e = Some l -> inv16 jobs rt (<[e := al_remove m l]> pd) log.
Proof.
  intros [H1 H2 H3 H4 H5 H6] He. split; auto.
  intros e' l' x. rewrite lookup_insert_Some. intros [(-> & <-)|(Hne & Hl)] Hx; [|eauto].
  apply al_remove_elem in Hx. eauto.
Qed.

Lemma handle_unmet_keeps16 fuel e m : keep (handle_unmet_dependency hwm scheme fuel e m).
Proof.
  intros s HI. unfold handle_unmet_dependency.
  apply wp_bind, wp_get. apply wp_bind, wp_of_option; [|intros _; exact HI]. intros l Hl.
  apply wp_bind, wp_of_option; [|intros _; exact HI]. intros j Hj.
  apply wp_bind, wp_upd. apply wp_bind, wp_upd. set (s2 := set_jobs _ _).
  assert (H2 : I16 s2).
  { apply inv16_alter; [reflexivity|]. apply inv16_remove; assumption. }
  apply wp_bind, wp_get_job; [|intros _; exact H2]. intros jb2 Hjb2.
  apply wp_bind. eapply wp_mono with (Q := fun _ => I16) (E := I16); [|intros [] s' Hs'; apply (unmet_tail_keeps _ _ _ _ _ kept16); exact Hs'|auto].
  destruct (decide _) as [Hd|Hd].
  - apply (fail_now_keeps _ _ _ _ _ kept16); [exact H2|exact Logic.I].
  - apply (run_or_save_keeps _ _ _ _ _ kept16) with (jb := jb2); auto.
Qed.

Lemma handle_result_keeps16 fuel e m b md s :
  I16 s -> ObsSubmit m md ∈ s_log s ->
  (if b : bool then errors (s_log s) m <= t_retries md else errors (s_log s) m = S (t_retries md)) ->
  wp (handle_result hwm scheme fuel e m b) (fun _ => I16) I16 s.
Proof.
  intros HI Hmd Hb. unfold handle_result. apply wp_bind, wp_upd.
  set (s1 := set_log _ s).
  assert (H1 : I16 s1).
  { apply inv16_log; [exact HI|discriminate|reflexivity|]. intros m' e' b' E. injection E as <- <- <-. eauto. }
  apply wp_bind, wp_get. apply wp_bind, wp_of_option; [|intros _; exact H1]. intros l Hl.
  apply wp_bind, wp_of_option; [|intros _; exact H1]. intros j Hj.
  apply wp_bind, wp_upd. set (s2 := set_pending _ s1).
  assert (H2 : I16 s2) by (apply inv16_remove; assumption).
  apply wp_bind. eapply wp_mono with (Q := fun _ => I16) (E := I16); [| |auto].
  - destruct b; (apply wp_bind, wp_get, wp_bind, wp_of_option; [|intros _; exact H2]); intros X HX;
      apply wp_bind, wp_upd, wp_upd; exact H2.
  - intros [] s' Hs'. apply wp_bind, wp_upd. apply wp_bind, wp_upd.
    apply (update_graph_keeps _ _ _ _ _ kept16). exact Hs'.
Qed.

Lemma dispatch_result_keeps16 fuel e m k s : submitted (s_log s) m -> I16 s ->
  wp (dispatch_result hwm scheme fuel e m k) (fun _ => I16) I16 s.
Proof.
  intros Hsub HI. unfold dispatch_result. apply wp_bind, wp_upd.
  set (s1 := set_log _ s).
  apply wp_bind, wp_get. apply wp_bind.
  assert (Hskip : forall (Q : unit -> sched -> Prop) (E : sched -> Prop), (forall f, Q tt (set_loads f s1)) -> Q tt s1 ->
    wp (match index_of e (s_targets s1) with Some idx => finish_job idx | None => ret tt end) Q E s1).
  { intros Q E Ha Hb. destruct (index_of _ _); [apply wp_upd; apply Ha|apply wp_ret; exact Hb]. }
  assert (Hgo : forall s2, s_jobs s2 = s_jobs s1 -> s_retries s2 = s_retries s1 -> s_pending s2 = s_pending s1 ->
    s_log s2 = s_log s1 ->
    wp match k with
       | RUnmet => handle_unmet_dependency hwm scheme fuel e m
       | _ => let success := match k with ROk => true | _ => false end in
              do rt <- get s_retries; do retries <- of_option (rt !! m);
              if decide (success = false /\ 0 < retries)
              then upd (set_retries (<[m := retries - 1]>)) ;; handle_unmet_dependency hwm scheme fuel e m
              else upd (set_retries (delete m)) ;; handle_result hwm scheme fuel e m success
       end (fun _ => I16) I16 s2).
  { intros s2 E1 E2 E3 E4.
    destruct HI as [H1 H2 H3 H4 H5 H6].
    (* everything but the count survives the new observation *)
    assert (Hbase : forall rt, (forall m' k', rt !! m' = Some k' -> exists md, ObsSubmit m' md ∈ s_log s1 /\ k' + errors (s_log s1) m' = t_retries md) ->
      inv16 (s_jobs s) rt (s_pending s) (s_log s1)).
    { intros rt Hrt. simpl in *. split; auto.
      - intros m' md md' Ha Hb. apply (H1 m'); eapply in_snoc_other; eauto; discriminate.
      - intros j jb Hj. apply submitted_snoc. eauto.
      - intros e' l x Hl Hx. apply submitted_snoc. eauto.
      - intros m' Hn. rewrite errors_snoc, H4.
        + simpl. destruct (decide (m' = m)) as [->|Hne]; [|rewrite bool_decide_eq_false_2 by exact Hne; reflexivity].
          exfalso. apply Hn, submitted_snoc, Hsub.
        + intros Hs. apply Hn, submitted_snoc, Hs.
      - apply replies_ok_app; [exact H6|discriminate]. }
    assert (Hcount : forall m' k', s_retries s !! m' = Some k' -> is_result m' RErr (ObsResult m e k) = false ->
      exists md, ObsSubmit m' md ∈ s_log s1 /\ k' + errors (s_log s1) m' = t_retries md).
    { intros m' k' Hk Hz. destruct (H5 m' k' Hk) as (md & Ha & Hb). exists md. split; [apply elem_of_app; auto|].
      simpl s_log. rewrite errors_snoc, Hz. lia. }
    destruct k.
    - (* ok *) cbv zeta. apply wp_bind, wp_get.
      assert (HB : inv16 (s_jobs s) (s_retries s) (s_pending s) (s_log s1)).
      { apply Hbase. intros m' k' Hk. apply (Hcount m' k' Hk). simpl. apply andb_false_r. }
      assert (HI2 : I16 s2) by (unfold I16; rewrite E1, E2, E3, E4; exact HB).
      apply wp_bind, wp_of_option; [|intros _; exact HI2]. intros r Hr. rewrite E2 in Hr. simpl in Hr.
      rewrite decide_False by (intros [? _]; discriminate).
      apply wp_bind, wp_upd. destruct (r_count _ _ _ _ HB m r Hr) as (md & Ha & Hb).
      apply handle_result_keeps16 with (md := md).
      + unfold I16. simpl. rewrite E1, E2, E3, E4. apply Hbase. intros m' k'. rewrite lookup_delete_Some.
        intros [_ Hk]. apply (r_count _ _ _ _ HB m' k' Hk).
      + simpl. rewrite E4. exact Ha.
      + simpl. rewrite E4. lia.
    - (* error *) cbv zeta. apply wp_bind, wp_get.
      apply wp_bind, wp_of_option; intros r.
      + intros Hr. rewrite E2 in Hr. simpl in Hr.
        destruct (H5 m r Hr) as (md & Ha & Hb).
        assert (Herr : errors (s_log s1) m = S (errors (s_log s) m)).
        { simpl. rewrite errors_snoc. simpl. rewrite bool_decide_eq_true_2 by reflexivity. simpl. lia. }
        assert (Hother : forall rt, (forall m' k', rt !! m' = Some k' -> m' <> m -> s_retries s !! m' = Some k') ->
          (forall k', rt !! m = Some k' -> k' + errors (s_log s1) m = t_retries md) ->
          inv16 (s_jobs s) rt (s_pending s) (s_log s1)).
        { intros rt Ho Hm. apply Hbase. intros m' k' Hk. destruct (decide (m' = m)) as [->|Hne].
          - exists md. split; [apply elem_of_app; auto|]. apply Hm, Hk.
          - apply (Hcount m' k'); [apply Ho; assumption|]. simpl. rewrite bool_decide_eq_false_2 by exact Hne. reflexivity. }
        destruct (decide _) as [[_ Hd]|Hd].
        * apply wp_bind, wp_upd. apply handle_unmet_keeps16. unfold I16. simpl. rewrite E1, E2, E3, E4.
          apply Hother.
          -- intros m' k' Hk Hne. rewrite lookup_insert_ne in Hk by congruence. exact Hk.
          -- intros k' Hk. rewrite lookup_insert in Hk. injection Hk as <-. rewrite Herr. lia.
        * apply wp_bind, wp_upd. apply handle_result_keeps16 with (md := md).
          -- unfold I16. simpl. rewrite E1, E2, E3, E4. apply Hother.
             ++ intros m' k' Hk _. apply lookup_delete_Some in Hk as [_ Hk]. exact Hk.
             ++ intros k' Hk. rewrite lookup_delete in Hk. discriminate.
          -- simpl. rewrite E4. apply elem_of_app. auto.
          -- simpl. rewrite E4. rewrite Herr. assert (r = 0); [|lia]. destruct r; [reflexivity|]. exfalso. apply Hd. split; [reflexivity|lia].
      + rewrite E2 in r. simpl in r. unfold I16. rewrite E1, E2, E3, E4. apply Hbase. intros m' k' Hk.
        apply (Hcount m' k' Hk). simpl. rewrite bool_decide_eq_false_2; [reflexivity|]. intros ->.
        simpl in Hk. congruence.
    - (* unmet *) apply handle_unmet_keeps16. unfold I16. rewrite E1, E2, E3, E4. apply Hbase.
      intros m' k' Hk. apply (Hcount m' k' Hk). simpl. apply andb_false_r. }
  apply Hskip; [intros f|]; apply Hgo; reflexivity.
Qed.

Lemma stranded_keeps16 fuel e : keep (handle_stranded_tasks hwm scheme fuel e).
Proof.
  intros s HI. unfold handle_stranded_tasks.
  apply wp_bind, wp_get, wp_bind, wp_of_option; [|intros _; exact HI]. intros lost _.
  apply wp_bind. eapply wp_mono; [apply wp_for_each with (I := I16) (E := I16); [exact HI|]| |auto].
  - intros m s' _ H'. apply wp_bind, wp_get, wp_bind, wp_of_option; [|intros _; exact H']. intros l Hl.
    destruct (al_lookup m l) as [j|] eqn:Ej; [|apply wp_ret; exact H']. apply wp_swallow, dispatch_result_keeps16; [|exact H'].
    apply (r_pend _ _ _ _ H' e l (m, j) Hl). apply al_lookup_elem, Ej.
  - intros [] s' H'. apply wp_bind, wp_get, wp_bind, wp_of_option; [|intros _; exact H']. intros X _.
    apply wp_bind, wp_upd.
    apply wp_bind, wp_get, wp_bind, wp_of_option; [|intros _; exact H']. intros Y _.
    apply wp_upd. exact H'.
Qed.

Lemma unregister_keeps16 e : keep (unregister_engine e).
Proof.
  intros s HI. unfold unregister_engine. apply wp_bind, wp_upd.
  assert (H1 : I16 (set_log (fun l => l ++ [ObsUnregister e]) s)).
  { apply inv16_log; [exact HI|discriminate|reflexivity|discriminate]. }
  apply wp_bind, wp_get, wp_bind, wp_of_option; [|intros _; exact H1]. intros i _.
  apply wp_bind, wp_upd, wp_bind, wp_upd.
  apply wp_bind, wp_get, wp_bind, wp_of_option; [|intros _; exact H1]. intros l _.
  destruct (decide _); [|apply wp_upd; exact H1].
  apply wp_bind, wp_upd, wp_upd. exact H1.
Qed.

Lemma register_keeps16 fuel e : keep (register_engine hwm scheme fuel e).
Proof.
  intros s HI. unfold register_engine.
  do 6 (apply wp_bind, wp_upd). apply (update_graph_keeps _ _ _ _ _ kept16).
  assert (H1 : I16 (set_log (fun l => l ++ [ObsRegister e]) s)).
  { apply inv16_log; [exact HI|discriminate|reflexivity|discriminate]. }
  destruct H1 as [L1 L2 L3 L4 L5 L6]. split; auto.
  simpl. intros e' l x. rewrite lookup_insert_Some. intros [(-> & <-)|(Hne & Hl)] Hx; [inversion Hx|eauto].
Qed.

Lemma dispatch_submission_keeps16 fuel m md s : ~ submitted (s_log s) m -> I16 s ->
  wp (dispatch_submission hwm scheme fuel m md) (fun _ => I16) I16 s.
Proof.
  intros Hfresh HI. unfold dispatch_submission. apply wp_bind, wp_upd, wp_bind, wp_upd, wp_bind, wp_upd.
  set (s1 := set_retries _ _).
  assert (H1 : I16 s1).
  { destruct HI as [L1 L2 L3 L4 L5 L6]. split; simpl.
    - intros m' md1 md2 Ha Hb. destruct (decide (m' = m)) as [->|Hne].
      + apply elem_of_app in Ha as [Ha|Ha]; [exfalso; apply Hfresh; eexists; eauto|].
        apply elem_of_app in Hb as [Hb|Hb]; [exfalso; apply Hfresh; eexists; eauto|].
        apply elem_of_list_singleton in Ha, Hb. congruence.
      + apply (L1 m'); eapply in_snoc_other; eauto; congruence.
    - intros j jb Hj. apply submitted_snoc. eauto.
    - intros e l x Hl Hx. apply submitted_snoc. eauto.
    - intros m' Hn. rewrite errors_snoc. simpl. rewrite L4; [reflexivity|]. intros Hs. apply Hn, submitted_snoc, Hs.
    - intros m' k. rewrite lookup_insert_Some. rewrite errors_snoc. simpl.
      intros [(-> & <-)|(Hne & Hk)].
      + exists md. split; [apply elem_of_app; right; left|]. rewrite (L4 m' Hfresh). lia.
      + destruct (L5 m' k Hk) as (md' & Ha & Hb). exists md'. split; [apply elem_of_app; auto|]. lia.
    - apply replies_ok_app; [exact L6|discriminate]. }
  apply wp_bind. destruct (from_dict (t_after md)) as [a0|] eqn:Ea; [|apply wp_raise; exact H1]. apply wp_ret.
  apply wp_bind, wp_get, wp_bind, wp_get. cbv zeta.
  apply wp_bind. destruct (from_dict (t_follow md)) as [fo|] eqn:Ef; [|apply wp_raise; exact H1]. apply wp_ret.
  apply wp_bind, wp_get, wp_bind, wp_upd, wp_bind, wp_upd.
  set (s2 := set_jobs _ _).
  assert (H2 : I16 s2).
  { destruct H1 as [L1 L2 L3 L4 L5 L6]. split; auto. simpl in *.
    intros j jb. rewrite lookup_insert_Some. intros [(<- & <-)|(Hne & Hj)]; [|eauto].
    exists md. simpl. apply elem_of_app; right; left. }
  assert (Hj2 : exists jb, s_jobs s2 !! s_next s1 = Some jb).
  { eexists. simpl. rewrite lookup_insert. reflexivity. }
  destruct Hj2 as [jb Hj2].
  apply wp_bind, wp_get. cbv zeta.
  destruct (bool_decide (d_ids (build_after a0 _ _) <> ∅ /\ _)); [apply (fail_now_keeps _ _ _ _ _ kept16); [exact H2|exact Logic.I]|].
  destruct (bool_decide _ && _); [apply (fail_now_keeps _ _ _ _ _ kept16); [exact H2|exact Logic.I]|].
  destruct (bool_decide (d_ids fo <> ∅ /\ _)); [apply (fail_now_keeps _ _ _ _ _ kept16); [exact H2|exact Logic.I]|].
  destruct (bool_decide _ && _); [apply (fail_now_keeps _ _ _ _ _ kept16); [exact H2|exact Logic.I]|].
  destruct (check (build_after a0 _ _) _ _) eqn:Ec; [|apply (save_unmet_keeps _ _ _ _ kept16); exact H2].
  apply (run_or_save_keeps _ _ _ _ _ kept16) with (jb := jb); auto.
Qed.

Lemma handle_keeps16 fuel ev s :
  sane_ids (s_log s) ev -> I16 s -> wp (handle hwm scheme fuel ev) (fun _ => I16) I16 s.
Proof.
  intros Hok HI. destruct ev as [m md|m e k|e|e|e|j tid]; simpl in *.
  - apply dispatch_submission_keeps16; assumption.
  - apply dispatch_result_keeps16; assumption.
  - apply register_keeps16, HI.
  - apply unregister_keeps16, HI.
  - apply wp_bind, wp_get. destruct (index_of _ _); [|apply wp_ret; exact HI].
    apply wp_bind, wp_upd. apply stranded_keeps16. exact HI.
  - apply wp_bind, wp_get. destruct (decide _); [|apply wp_ret; exact HI].
    apply wp_bind, wp_upd. apply (job_timeout_keeps _ _ _ _ _ kept16); [exact HI|intros; exact Logic.I].
Qed.

Lemma I16_init : I16 init.
Proof.
  split; simpl.
  - intros m md md' H. inversion H.
  - intros j jb. rewrite lookup_empty. discriminate.
  - intros e l x. rewrite lookup_empty. discriminate.
  - reflexivity.
  - intros m k. rewrite lookup_empty. discriminate.
  - intros t m e b t' H. destruct t; discriminate.
Qed.

Lemma I16_reachable (ok : list obs -> event -> Prop) s :
  (forall t ev, ok t ev -> sane_ids t ev) -> reachable hwm scheme ok s -> I16 s.
Proof.
  intros Hok. apply reachable_inv; [apply I16_init|]. intros s' ev fuel HI H. apply handle_keeps16; auto.
Qed.
Lemma retries_honoured s : reachable hwm scheme sane_ids s -> replies_ok (s_log s).
Proof. intros Hr. apply (I16_reachable _ _ (fun _ _ x => x)) in Hr. apply Hr. Qed.
End C16.
