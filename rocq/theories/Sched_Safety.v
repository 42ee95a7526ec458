(** Every send respects the constraints of the task: for all configurations and all events. *)
From stdpp Require Import base gmap sets list.
From Verif Require Import Dependency_Model Dependency_Spec Dependency_Proofs Sched_Trace Sched_Spec Sched_Model Sched_Base Sched_Traverse.
From Verif Require Prelude.
From Coq Require Import ZArith.

(** * Traces only grow *)
Lemma told_ok_app t o : told_ok t ⊆ told_ok (t ++ o).
Proof. unfold told_ok. rewrite omap_app, list_to_set_app_L. set_solver. Qed.
Lemma told_bad_app t o : told_bad t ⊆ told_bad (t ++ o).
Proof. unfold told_bad. rewrite omap_app, list_to_set_app_L. set_solver. Qed.
Lemma told_on_app e b t o : told_on e b t ⊆ told_on e b (t ++ o).
Proof. unfold told_on. rewrite omap_app, list_to_set_app_L. set_solver. Qed.
Lemma told_ok_reply t m e : m ∈ told_ok (t ++ [ObsReply m (FromEngine e true)]).
Proof. unfold told_ok. rewrite omap_app, list_to_set_app_L. simpl. set_solver. Qed.
Lemma told_bad_reply t m r :
  (forall e, r <> FromEngine e true) -> m ∈ told_bad (t ++ [ObsReply m r]).
Proof.
  intros H. unfold told_bad. rewrite omap_app, list_to_set_app_L.
  destruct r as [e []|w]; simpl; [destruct (H e eq_refl)| |]; set_solver.
Qed.
Lemma told_on_reply t m e b : m ∈ told_on e b (t ++ [ObsReply m (FromEngine e b)]).
Proof.
  unfold told_on. rewrite omap_app, list_to_set_app_L. simpl.
  destruct (decide _) as [_|n]; [set_solver|]. exfalso; apply n; auto.
Qed.

(** * The invariant *)
Section C09.
Context (hwm : nat) (scheme : nat -> list Z -> nat).

Definition job_ok (ac af : gset nat) (log : list obs) (jb : job) : Prop :=
  ObsSubmit (j_msg jb) (j_md jb) ∈ log /\
  from_dict (t_follow (j_md jb)) = Prelude.Ok (j_follow jb) /\
  (exists a0, from_dict (t_after (j_md jb)) = Prelude.Ok a0 /\
     forall c f, ac ⊆ c -> af ⊆ f -> check (j_after jb) c f = true -> check a0 c f = true) /\
  (forall e, e ∈ j_targets jb -> e ∈ t_targets (j_md jb)) /\
  (t_targets (j_md jb) <> [] -> j_targets jb = ∅ -> j_removed jb = true).

Definition pend_ok (jobs : gmap nat job) (ac af : gset nat) (e : nat) (x : nat * nat) : Prop :=
  exists jb, jobs !! x.2 = Some jb /\ j_msg jb = x.1 /\ e ∉ j_blacklist jb /\
    (t_targets (j_md jb) <> [] -> e ∈ j_targets jb) /\ check (j_after jb) ac af = true.

Definition sends_ok (log : list obs) : Prop :=
  forall t m e t', log = t ++ ObsSend m e :: t' -> may_send t m e.

Record inv (jobs : gmap nat job) (next : nat) (targets : list nat)
  (pending : gmap nat (list (nat * nat))) (completed failed : gmap nat (gset nat))
  (ac af : gset nat) (log : list obs) : Prop := Inv {
  i_ok : ac ⊆ told_ok log;
  i_bad : af ⊆ told_bad log;
  i_completed : forall e X, completed !! e = Some X -> X ⊆ told_on e true log;
  i_failed : forall e X, failed !! e = Some X -> X ⊆ told_on e false log;
  i_jobs : forall j jb, jobs !! j = Some jb -> job_ok ac af log jb;
  i_next : forall j, next <= j -> jobs !! j = None;
  i_targets : forall e, e ∈ targets -> ObsRegister e ∈ log;
  i_keys : forall e l, pending !! e = Some l -> NoDup l.*1;
  i_pending : forall e l x, pending !! e = Some l -> x ∈ l -> pend_ok jobs ac af e x;
  i_sends : sends_ok log }.

Definition I09 (s : sched) : Prop :=
  inv (s_jobs s) (s_next s) (s_targets s) (s_pending s) (s_completed s) (s_failed s)
      (s_all_completed s) (s_all_failed s) (s_log s).

(** Growing the log with something that is not a send. *)
Lemma sends_ok_app log o :
  sends_ok log -> (forall m e, o = ObsSend m e -> may_send log m e) -> sends_ok (log ++ [o]).
Proof.
  intros H Ho t m e t' Heq.
  destruct t' as [|o' t'] using rev_ind.
  - apply app_inj_tail in Heq as [-> ->]. apply Ho. reflexivity.
  - clear IHt'. rewrite app_comm_cons, app_assoc in Heq. apply app_inj_tail in Heq as [-> ->].
    eapply H. reflexivity.
Qed.

Lemma job_ok_mono ac af log ac' af' log' jb :
  ac ⊆ ac' -> af ⊆ af' -> (forall o, o ∈ log -> o ∈ log') -> job_ok ac af log jb -> job_ok ac' af' log' jb.
Proof.
  intros Ha Hf Hl (H1 & H2 & (a0 & Ha0 & Hc) & H4 & H5).
  split; [apply Hl, H1|]. split; [exact H2|]. split; [|split; assumption].
  exists a0. split; [exact Ha0|]. intros c f Hac Haf. apply Hc; set_solver.
Qed.

Lemma check_grow d c f c' f' : c ⊆ c' -> f ⊆ f' -> check d c f = true -> check d c' f' = true.
Proof. intros H1 H2. apply (check_mono d (Hist c f) (Hist c' f')). split; assumption. Qed.

Lemma pend_ok_mono jobs ac af ac' af' e x :
  ac ⊆ ac' -> af ⊆ af' -> pend_ok jobs ac af e x -> pend_ok jobs ac' af' e x.
Proof.
  intros Ha Hf (jb & H1 & H2 & H3 & H4 & H5). exists jb. repeat split; auto.
  eapply check_grow; eauto.
Qed.

(** The generic growth step: new observations, larger sets. *)
Lemma inv_grow jobs next tg pd co fa ac af log o ac' af' :
  inv jobs next tg pd co fa ac af log ->
  (forall m e, o = ObsSend m e -> may_send log m e) ->
  ac ⊆ ac' -> af ⊆ af' -> ac' ⊆ told_ok (log ++ [o]) -> af' ⊆ told_bad (log ++ [o]) ->
  inv jobs next tg pd co fa ac' af' (log ++ [o]).
Proof.
  intros [H1 H2 H3 H4 H5 H6 H7 H7b H8 H9] Ho Ha Hf Hok Hbad. split; auto.
  - intros e X HX. etrans; [eapply H3; eauto|apply told_on_app].
  - intros e X HX. etrans; [eapply H4; eauto|apply told_on_app].
  - intros j jb Hj. eapply job_ok_mono; [exact Ha|exact Hf| |eapply H5; eauto].
    intros x Hx. apply elem_of_app. auto.
  - intros e He. apply elem_of_app. auto.
  - intros e l x Hl Hx. eapply pend_ok_mono; eauto.
  - apply sends_ok_app; assumption.
Qed.
Lemma inv_log jobs next tg pd co fa ac af log o :
  inv jobs next tg pd co fa ac af log ->
  (forall m e, o = ObsSend m e -> may_send log m e) ->
  inv jobs next tg pd co fa ac af (log ++ [o]).
Proof.
  intros H Ho. eapply inv_grow; eauto.
  - etrans; [apply H|apply told_ok_app].
  - etrans; [apply H|apply told_bad_app].
Qed.

(** Changing one job in a harmless way. *)
Lemma inv_alter jobs next tg pd co fa ac af log j f :
  inv jobs next tg pd co fa ac af log ->
  (forall jb, jobs !! j = Some jb -> job_ok ac af log jb -> job_ok ac af log (f jb)) ->
  (forall jb, j_msg (f jb) = j_msg jb /\ j_md (f jb) = j_md jb /\ j_after (f jb) = j_after jb) ->
  (forall e l x jb, pd !! e = Some l -> x ∈ l -> x.2 = j -> jobs !! j = Some jb -> e ∉ j_blacklist jb ->
     (t_targets (j_md jb) <> [] -> e ∈ j_targets jb) ->
     e ∉ j_blacklist (f jb) /\ (t_targets (j_md jb) <> [] -> e ∈ j_targets (f jb))) ->
  inv (alter f j jobs) next tg pd co fa ac af log.
Proof.
  intros [H1 H2 H3 H4 H5 H6 H7 H7b H8 H9] Hjob Hf Hp. split; auto.
  - intros j' jb'. rewrite lookup_alter_Some. intros [(-> & jb & Hj & ->)|(Hne & Hj)].
    + apply Hjob; eauto.
    + eapply H5; eauto.
  - intros j' Hle. rewrite lookup_alter_None. auto.
  - intros e l x Hl Hx. destruct (H8 e l x Hl Hx) as (jb & E1 & E2 & E3 & E4 & E5).
    destruct (decide (x.2 = j)) as [E|E].
    + exists (f jb). rewrite E, lookup_alter, <- E, E1. destruct (Hf jb) as (F1 & F2 & F3).
      rewrite E in E1. destruct (Hp e l x jb Hl Hx E E1 E3 E4) as [G1 G2].
      rewrite F1, F2, F3. repeat split; auto.
    + exists jb. rewrite lookup_alter_ne by congruence. auto 6.
Qed.

Lemma met_of_check d e (c f : gset nat) (t : list obs) :
  check d c f = true -> c ⊆ told_on e true t -> f ⊆ told_on e false t ->
  met (d_ids d) (d_all d) (d_success d) (d_failure d) (hist_on e t).
Proof. intros H Hc Hf. apply check_iff. simpl. eapply check_grow; eauto. Qed.

Lemma dict_met_of d x h :
  from_dict d = Prelude.Ok x -> check x (h_ok h) (h_bad h) = true -> dict_met d h.
Proof.
  unfold from_dict. intros Hd Hc. apply mk_dep_ok in Hd as [-> _]. apply check_iff in Hc. exact Hc.
Qed.

Definition G09 (s : sched) (jb : job) : Prop :=
  check (j_after jb) (s_all_completed s) (s_all_failed s) = true /\
  (t_targets (j_md jb) <> [] -> j_targets jb <> ∅).

Lemma kept09 : kept hwm G09 any_reason I09.
Proof.
  split.
  - intros s g H. exact H.
  - intros s g H. exact H.
  - intros s g H. exact H.
  - intros s j n H _. exact H.
  - intros s g H. exact H.
  - intros s j jb H Hj Hr Hc. split; [exact Hc|]. intros Ht He. destruct (i_jobs _ _ _ _ _ _ _ _ _ H j jb Hj) as (_ & _ & _ & _ & H5).
    rewrite H5 in Hr; congruence.
  - intros s j H. apply inv_alter; [exact H| | |].
    + intros jb _ (? & ? & ? & ? & ?). repeat split; assumption || (intros; reflexivity).
    + intros jb. auto.
    + intros e l x jb _ _ _ _ ? ?. auto.
  - intros s j n H _. apply inv_alter; [exact H| | |].
    + intros jb _ (? & ? & ? & ? & ?). repeat split; assumption.
    + intros jb. auto.
    + intros e l x jb _ _ _ _ ? ?. auto.
  - intros s j jb H Hj Hne. apply inv_alter; [exact H| | |].
    + intros jb' Hj' (H1 & H2 & H3 & H4 & H5). rewrite Hj in Hj'. injection Hj' as <-.
      repeat split; try assumption; simpl.
      * intros e He. apply H4. set_solver.
      * intros _ E. contradiction.
    + intros jb'. auto.
    + intros e l x jb' _ _ _ _ ? Ht. simpl. split; [assumption|]. intros Hn. specialize (Ht Hn). set_solver.
  - intros s j jb H Hj. 
    assert (E : I09 (set_jobs (alter (fun x => set_removed (shrink x)) j) s)).
    { apply inv_alter; [exact H| | |].
      + intros jb' _ (H1 & H2 & H3 & H4 & H5).
        repeat split; try assumption; simpl.
        intros e He. apply H4. set_solver.
      + intros jb'. auto.
      + intros e l x jb' _ _ _ _ ? Ht. simpl. split; [assumption|]. intros Hn. specialize (Ht Hn). set_solver. }
    unfold I09 in *. simpl in *. rewrite <- alter_compose. exact E.
  - intros; exact Logic.I.
  - intros s m w H _. unfold I09, failed_state; simpl. eapply inv_grow; [exact H|discriminate|set_solver|set_solver| |].
    + etrans; [apply H|apply told_ok_app].
    + apply union_subseteq. split; [|etrans; [apply H|apply told_bad_app]].
      apply singleton_subseteq_l, told_bad_reply. discriminate.
  - intros s j jb idx target H (Hj & (Hc & Ht) & Hrun) Htg.
    pose proof (i_jobs _ _ _ _ _ _ _ _ _ H j jb Hj) as (J1 & J2 & (a0 & J3 & J4) & J5 & J6).
    assert (Htin : target ∈ s_targets s) by (eapply elem_of_list_lookup_2; eauto).
    assert (Hrun' : target ∉ j_blacklist jb /\ (t_targets (j_md jb) <> [] -> target ∈ j_targets jb) /\
                    dict_met (t_follow (j_md jb)) (hist_on target (s_log s))).
    { destruct Hrun as [(_ & Hf & He & Hb)|(_ & Hcr)].
      - split; [rewrite Hb; set_solver|]. split; [intros Hn; destruct (Ht Hn He)|].
        eapply dict_met_of; [exact J2|]. unfold check. rewrite decide_True by exact Hf. reflexivity.
      - unfold can_run in Hcr. rewrite Htg in Hcr.
        destruct (s_loads s !! idx) as [ld|]; [|discriminate].
        destruct (decide (hwm <> 0 /\ _)); [discriminate|].
        destruct (decide (target ∈ j_blacklist jb)) as [|Hnb]; [discriminate|].
        destruct (decide (j_targets jb <> ∅ /\ target ∉ j_targets jb)) as [|Hnt]; [discriminate|].
        destruct (s_completed s !! target) as [c|] eqn:Ec; [|discriminate].
        destruct (s_failed s !! target) as [f|] eqn:Ef; [|discriminate].
        injection Hcr as Hcr. split; [exact Hnb|]. split.
        + intros Hn. destruct (decide (target ∈ j_targets jb)); [assumption|]. exfalso. apply Hnt. auto.
        + eapply dict_met_of; [exact J2|].
          eapply check_grow; [| |exact Hcr]; simpl;
            [eapply (i_completed _ _ _ _ _ _ _ _ _ H)|eapply (i_failed _ _ _ _ _ _ _ _ _ H)]; eauto. }
    destruct Hrun' as (Hnb & Hnt & Hfollow).
    assert (Hmay : may_send (s_log s) (j_msg jb) target).
    { exists (j_md jb). split; [exact J1|]. split; [eapply (i_targets _ _ _ _ _ _ _ _ _ H); eauto|].
      split; [|split; [|exact Hfollow]].
      - eapply dict_met_of; [exact J3|]. apply J4; [apply H|apply H|].
        eapply check_grow; [| |exact Hc]; apply H.
      - destruct (t_targets (j_md jb)) as [|x tl] eqn:E; [auto|right]. apply J5, Hnt. congruence. }
    assert (Hsent : I09 (sent (j_msg jb) idx target s)).
    { unfold I09, sent; simpl.
      pose proof (inv_log _ _ _ _ _ _ _ _ _ (ObsSend (j_msg jb) target) H) as Hl.
      destruct Hl as [L1 L2 L3 L4 L5 L6 L7 L7b L8 L9].
      { intros m e E. injection E as <- <-. exact Hmay. }
      split; auto. intros e He. apply rotate_elem in He. auto. }
    destruct (s_pending s !! target) as [l|] eqn:El; [|exact Hsent].
    destruct Hsent as [L1 L2 L3 L4 L5 L6 L7 L7b L8 L9]. unfold I09. simpl. simpl in L8, L7b.
    split; auto.
    + intros e l'. rewrite lookup_insert_Some. intros [(-> & <-)|(Hne & Hl)]; [|eauto].
      apply al_insert_nodup. eauto.
    + intros e l' x. rewrite lookup_insert_Some. intros [(-> & <-)|(Hne & Hl)] Hx; [|eauto].
      apply al_insert_elem in Hx as [->|Hx]; [|eauto].
      exists jb. simpl. auto.
Qed.

(** * The event handlers *)
Lemma inv_pending_remove jobs next tg pd co fa ac af log e m l :
  inv jobs next tg pd co fa ac af log -> pd !! e = Some l ->
  inv jobs next tg (<[e := al_remove m l]> pd) co fa ac af log.
Proof.
  intros [H1 H2 H3 H4 H5 H6 H7 H7b H8 H9] He. split; auto.
  - intros e' l'. rewrite lookup_insert_Some. intros [(-> & <-)|(Hne & Hl)]; [|eauto].
    apply al_remove_nodup. eauto.
  - intros e' l' x. rewrite lookup_insert_Some. intros [(-> & <-)|(Hne & Hl)] Hx; [|eauto].
    apply al_remove_elem in Hx. eauto.
Qed.

(** Taking a task off the engine that refused it and marking that engine as refusing. *)
Lemma blacklist_ok e m l j jb s : I09 s -> s_pending s !! e = Some l -> al_lookup m l = Some j -> s_jobs s !! j = Some jb -> j_msg jb = m ->
  I09 (set_jobs (alter (add_blacklist e) j) (set_pending (<[e := al_remove m l]>) s)).
Proof.
  intros HI Hl Hj E1 E2. apply inv_alter; [apply inv_pending_remove; assumption| | |].
    - intros jb' Hjb' (? & ? & ? & ? & ?). repeat split; assumption.
    - intros jb'. auto.
    - intros e' l' [m' j'] jb' Hl' Hx Hj' Hjb' Hnb Ht'. simpl in Hj'. subst j'. simpl. split; [|exact Ht'].
      simpl in Hjb'. rewrite E1 in Hjb'. injection Hjb' as <-.
      assert (e' <> e); [|set_solver]. intros ->.
      simpl in Hl'. rewrite lookup_insert in Hl'. injection Hl' as <-.
      pose proof (al_remove_nodup m l (i_keys _ _ _ _ _ _ _ _ _ HI e l Hl)) as [_ Hk].
      apply Hk. apply elem_of_list_fmap. exists (m', j). split; [|exact Hx].
      apply al_remove_elem in Hx.
      destruct (i_pending _ _ _ _ _ _ _ _ _ HI e l (m', j) Hl Hx) as (jb' & G1 & G2 & _).
      simpl in *. congruence.
Qed.

Lemma handle_unmet_keeps fuel e m : keeps I09 (handle_unmet_dependency hwm scheme fuel e m).
Proof.
  intros s HI. unfold handle_unmet_dependency.
  apply wp_bind, wp_get. apply wp_bind, wp_of_option; [|intros _; exact HI]. intros l Hl.
  apply wp_bind, wp_of_option; [|intros _; exact HI]. intros j Hj.
  apply wp_bind, wp_upd.
  pose proof (al_lookup_elem _ _ _ Hj) as Hin.
  destruct (i_pending _ _ _ _ _ _ _ _ _ HI e l (m, j) Hl Hin) as (jb & E1 & E2 & E3 & E4 & E5).
  simpl in E1, E2.
  assert (H1 : I09 (set_pending (<[e := al_remove m l]>) s)) by (apply inv_pending_remove; assumption).
  apply wp_bind, wp_upd.
  set (s2 := set_jobs (alter (add_blacklist e) j) (set_pending (<[e := al_remove m l]>) s)).
  assert (H2 : I09 s2).
  { eapply blacklist_ok; eauto. }
  assert (Hj2 : s_jobs s2 !! j = Some (add_blacklist e jb)).
  { simpl. rewrite lookup_alter, E1. reflexivity. }
  apply wp_bind, wp_get_job; [|intros _; exact H2]. intros jb2 Hjb2.
  rewrite Hj2 in Hjb2. injection Hjb2 as <-.
  apply wp_bind. eapply wp_mono with (Q := fun _ => I09) (E := I09); [|intros [] s' Hs'; apply (unmet_tail_keeps _ _ _ _ _ kept09); exact Hs'|auto].
  destruct (decide _) as [Hd|Hd].
  - apply (fail_now_keeps _ _ _ _ _ kept09); [exact H2|exact Logic.I].
  - apply (run_or_save_keeps _ _ _ _ _ kept09) with (jb := add_blacklist e jb); auto.
    split; [exact E5|]. intros Hn. specialize (E4 Hn). simpl. set_solver.
Qed.

Lemma handle_result_keeps fuel e m b : keeps I09 (handle_result hwm scheme fuel e m b).
Proof.
  intros s HI. unfold handle_result. apply wp_bind, wp_upd.
  set (o := ObsReply m (FromEngine e b)).
  assert (H1 : I09 (set_log (fun l => l ++ [o]) s)) by (apply inv_log; [exact HI|discriminate]).
  apply wp_bind, wp_get. apply wp_bind, wp_of_option; [|intros _; exact H1]. intros l Hl.
  apply wp_bind, wp_of_option; [|intros _; exact H1]. intros j Hj.
  apply wp_bind, wp_upd.
  set (s2 := set_pending (<[e := al_remove m l]>) (set_log (fun l => l ++ [o]) s)).
  assert (H2 : I09 s2) by (apply inv_pending_remove; assumption).
  assert (Hlog : s_log s2 = s_log s ++ [o]) by reflexivity.
  assert (Hok : m ∈ (if b then told_ok (s_log s2) else told_bad (s_log s2))).
  { rewrite Hlog. destruct b; [apply told_ok_reply|apply told_bad_reply; discriminate]. }
  assert (Hon : m ∈ told_on e b (s_log s2)) by (rewrite Hlog; apply told_on_reply).
  apply wp_bind. eapply wp_mono with (Q := fun _ => I09) (E := I09); [| |auto].
  - destruct b.
    + apply wp_bind, wp_get, wp_bind, wp_of_option; [|intros _; exact H2]. intros X HX.
      apply wp_bind, wp_upd, wp_upd. unfold I09; simpl.
      destruct H2 as [L1 L2 L3 L4 L5 L6 L7 L7b L8 L9]. split; auto.
      * apply union_subseteq. split; [apply singleton_subseteq_l; exact Hok|exact L1].
      * intros e' X'. rewrite lookup_insert_Some. intros [(-> & <-)|(Hne & HX')]; [|eauto].
        apply union_subseteq. split; [apply singleton_subseteq_l; exact Hon|]. eapply L3; eauto.
      * intros j' jb' Hj'. eapply job_ok_mono; [| |auto|eapply L5; eauto]; set_solver.
      * intros e' l' x Hl' Hx. eapply pend_ok_mono; [| |eapply L8; eauto]; set_solver.
    + apply wp_bind, wp_get, wp_bind, wp_of_option; [|intros _; exact H2]. intros X HX.
      apply wp_bind, wp_upd, wp_upd. unfold I09; simpl.
      destruct H2 as [L1 L2 L3 L4 L5 L6 L7 L7b L8 L9]. split; auto.
      * apply union_subseteq. split; [apply singleton_subseteq_l; exact Hok|exact L2].
      * intros e' X'. rewrite lookup_insert_Some. intros [(-> & <-)|(Hne & HX')]; [|eauto].
        apply union_subseteq. split; [apply singleton_subseteq_l; exact Hon|]. eapply L4; eauto.
      * intros j' jb' Hj'. eapply job_ok_mono; [| |auto|eapply L5; eauto]; set_solver.
      * intros e' l' x Hl' Hx. eapply pend_ok_mono; [| |eapply L8; eauto]; set_solver.
  - intros [] s' Hs'. apply wp_bind, wp_upd. apply wp_bind, wp_upd.
    apply (update_graph_keeps _ _ _ _ _ kept09). exact Hs'.
Qed.

Lemma dispatch_result_keeps fuel e m k : keeps I09 (dispatch_result hwm scheme fuel e m k).
Proof.
  intros s HI. unfold dispatch_result. apply wp_bind, wp_upd.
  set (s1 := set_log _ s). assert (H1 : I09 s1) by (apply inv_log; [exact HI|discriminate]).
  apply wp_bind, wp_get. apply wp_bind.
  eapply wp_mono with (Q := fun _ => I09) (E := I09); [| |auto].
  - destruct (index_of e _); [|apply wp_ret; exact H1]. apply wp_upd. exact H1.
  - intros [] s2 H2.
    assert (Hmain : forall b, wp (do rt <- get s_retries; do retries <- of_option (rt !! m);
        if decide (b = false /\ 0 < retries) then
          upd (set_retries (<[m := retries - 1]>)) ;; handle_unmet_dependency hwm scheme fuel e m
        else upd (set_retries (delete m)) ;; handle_result hwm scheme fuel e m b) (fun _ => I09) I09 s2).
    { intros b. apply wp_bind, wp_get, wp_bind, wp_of_option; [|intros _; exact H2]. intros r _.
      destruct (decide _); apply wp_bind, wp_upd; [apply handle_unmet_keeps|apply handle_result_keeps]; exact H2. }
    destruct k; [apply (Hmain true)|apply (Hmain false)|apply handle_unmet_keeps; exact H2].
Qed.

Lemma stranded_keeps fuel e : keeps I09 (handle_stranded_tasks hwm scheme fuel e).
Proof.
  intros s HI. unfold handle_stranded_tasks.
  apply wp_bind, wp_get, wp_bind, wp_of_option; [|intros _; exact HI]. intros lost _.
  apply wp_bind. eapply wp_mono; [apply wp_for_each with (I := I09) (E := I09); [exact HI|]| |auto].
  - intros m s' _ H'. apply wp_bind, wp_get, wp_bind, wp_of_option; [|intros _; exact H']. intros l _.
    destruct (al_lookup m l); [|apply wp_ret; exact H']. apply wp_swallow, dispatch_result_keeps, H'.
  - intros [] s' H'. apply wp_bind, wp_get, wp_bind, wp_of_option; [|intros _; exact H']. intros X _.
    apply wp_bind, wp_upd.
    assert (H2 : I09 (set_completed (delete e) s')).
    { destruct H' as [L1 L2 L3 L4 L5 L6 L7 L7b L8 L9]. split; auto. simpl. intros e' Y.
      rewrite lookup_delete_Some. intros [_ ?]. eauto. }
    apply wp_bind, wp_get, wp_bind, wp_of_option; [|intros _; exact H2]. intros Y _.
    apply wp_upd. destruct H2 as [L1 L2 L3 L4 L5 L6 L7 L7b L8 L9]. split; auto. simpl. intros e' Z.
    rewrite lookup_delete_Some. intros [_ ?]. eauto.
Qed.

Lemma unregister_keeps e : keeps I09 (unregister_engine e).
Proof.
  intros s HI. unfold unregister_engine. apply wp_bind, wp_upd.
  set (s1 := set_log _ s). assert (H1 : I09 s1) by (apply inv_log; [exact HI|discriminate]).
  apply wp_bind, wp_get, wp_bind, wp_of_option; [|intros _; exact H1]. intros idx _.
  apply wp_bind, wp_upd, wp_bind, wp_upd.
  set (s2 := set_loads _ _). assert (H2 : I09 s2).
  { destruct H1 as [L1 L2 L3 L4 L5 L6 L7 L7b L8 L9]. split; auto.
    simpl. intros e' He'. apply list_pop_elem in He'. auto. }
  apply wp_bind, wp_get, wp_bind, wp_of_option; [|intros _; exact H2]. intros l _.
  destruct (decide _); [|apply wp_upd; exact H2].
  apply wp_bind, wp_upd, wp_upd.
  destruct H2 as [L1 L2 L3 L4 L5 L6 L7 L7b L8 L9].
  split; auto; simpl; intros e' Z; rewrite lookup_delete_Some; intros [_ ?]; eauto.
Qed.

Lemma register_keeps fuel e : keeps I09 (register_engine hwm scheme fuel e).
Proof.
  intros s HI. unfold register_engine.
  do 6 (apply wp_bind, wp_upd). apply (update_graph_keeps _ _ _ _ _ kept09).
  assert (H1 : I09 (set_log (fun l => l ++ [ObsRegister e]) s)) by (apply inv_log; [exact HI|discriminate]).
  destruct H1 as [L1 L2 L3 L4 L5 L6 L7 L7b L8 L9]. split; auto; simpl.
  - intros e' X. rewrite lookup_insert_Some. intros [(-> & <-)|(Hne & HX)]; [set_solver|eauto].
  - intros e' X. rewrite lookup_insert_Some. intros [(-> & <-)|(Hne & HX)]; [set_solver|eauto].
  - intros e' He'. apply elem_of_cons in He' as [->|He']; [|auto]. apply elem_of_app. right. left.
  - intros e' l. rewrite lookup_insert_Some. intros [(-> & <-)|(Hne & Hl)]; [constructor|eauto].
  - intros e' l x. rewrite lookup_insert_Some. intros [(-> & <-)|(Hne & Hl)] Hx; [inversion Hx|eauto].
Qed.

Lemma check_met_dep c f : check (Dep ∅ true true false) c f = true.
Proof. reflexivity. Qed.

Lemma check_minus ids s f0 c f X :
  (forall m, m ∈ X -> (s = true /\ m ∈ c) \/ (f0 = true /\ m ∈ f)) ->
  check (Dep (ids ∖ X) true s f0) c f = true -> check (Dep ids true s f0) c f = true.
Proof.
  intros HX H. apply (check_iff _ (Hist c f)) in H. apply (check_iff _ (Hist c f)).
  unfold met in *. simpl in *. intros m Hm. unfold accepted in *. simpl in *.
  destruct (decide (m ∈ X)) as [Hin|Hn]; [auto|]. apply H. set_solver.
Qed.

Lemma build_after_ok a0 ac af c f :
  ac ⊆ c -> af ⊆ f -> check (build_after a0 ac af) c f = true -> check a0 c f = true.
Proof.
  intros Hc Hf. unfold build_after.
  set (red := if d_all a0 then _ else a0).
  assert (Hred : forall c f, ac ⊆ c -> af ⊆ f -> check red c f = true -> check a0 c f = true).
  { clear c f Hc Hf. intros c f Hc Hf. unfold red. destruct a0 as [ids al su fa]; simpl. destruct al; [|auto].
    destruct su; simpl; destruct fa; simpl; auto.
    - intros H. eapply check_minus with (X := ac); [set_solver|].
      eapply check_minus with (X := af); [set_solver|]. exact H.
    - intros H. eapply check_minus with (X := ac); [set_solver|exact H].
    - intros H. eapply check_minus with (X := af); [set_solver|exact H]. }
  destruct (check red ac af) eqn:E.
  - intros _. apply (Hred c f Hc Hf). eapply check_grow; eauto.
  - apply Hred; assumption.
Qed.

Lemma dispatch_submission_keeps fuel m md : keeps I09 (dispatch_submission hwm scheme fuel m md).
Proof.
  intros s HI. unfold dispatch_submission. apply wp_bind, wp_upd, wp_bind, wp_upd, wp_bind, wp_upd.
  set (s1 := set_retries _ _).
  assert (H1 : I09 s1) by (apply inv_log; [exact HI|discriminate]).
  apply wp_bind. destruct (from_dict (t_after md)) as [a0|] eqn:Ea; [|apply wp_raise; exact H1]. apply wp_ret.
  apply wp_bind, wp_get, wp_bind, wp_get. cbv zeta.
  apply wp_bind. destruct (from_dict (t_follow md)) as [fo|] eqn:Ef; [|apply wp_raise; exact H1]. apply wp_ret.
  apply wp_bind, wp_get, wp_bind, wp_upd, wp_bind, wp_upd.
  set (ac := s_all_completed s1). set (af := s_all_failed s1).
  set (jb := Job m md (list_to_set (t_targets md)) (build_after a0 ac af) fo (t_timeout md) false 0 ∅).
  set (s2 := set_jobs _ _).
  assert (Htne : t_targets md <> [] -> j_targets jb <> ∅).
  { simpl. destruct (t_targets md) as [|x l]; [congruence|]. intros _. simpl. set_solver. }
  assert (Hjb : job_ok ac af (s_log s1) jb).
  { split; [simpl; apply elem_of_app; right; left|]. split; [exact Ef|]. split.
    - exists a0. split; [exact Ea|]. intros c f Hc Hf. simpl. apply build_after_ok; assumption.
    - split; [simpl; intros e; rewrite elem_of_list_to_set; auto|].
      simpl in *. intros Hn E. destruct (Htne Hn E). }
  assert (H2 : I09 s2).
  { destruct H1 as [L1 L2 L3 L4 L5 L6 L7 L7b L8 L9]. split; auto.
    - intros j' jb'. simpl. rewrite lookup_insert_Some. intros [(<- & <-)|(Hne & Hj')]; [exact Hjb|].
      eapply L5; eauto.
    - simpl. intros j' Hle. rewrite lookup_insert_ne by lia. apply L6. simpl. lia.
    - intros e l x Hl Hx. destruct (L8 e l x Hl Hx) as (jb' & F1 & F). exists jb'. split; [|exact F].
      simpl. rewrite lookup_insert_ne; [exact F1|]. intros E.
      pose proof (L6 (s_next s1) (le_n _)) as F2. simpl in F1, F2. rewrite <- E in F1. simpl in F1. congruence. }
  assert (Hj2 : s_jobs s2 !! s_next s1 = Some jb).
  { simpl. rewrite lookup_insert. reflexivity. }
  apply wp_bind, wp_get. cbv zeta.
  destruct (bool_decide (d_ids (build_after a0 _ _) <> ∅ /\ _)); [apply (fail_now_keeps _ _ _ _ _ kept09); [exact H2|exact Logic.I]|].
  destruct (bool_decide _ && _); [apply (fail_now_keeps _ _ _ _ _ kept09); [exact H2|exact Logic.I]|].
  destruct (bool_decide (d_ids fo <> ∅ /\ _)); [apply (fail_now_keeps _ _ _ _ _ kept09); [exact H2|exact Logic.I]|].
  destruct (bool_decide _ && _); [apply (fail_now_keeps _ _ _ _ _ kept09); [exact H2|exact Logic.I]|].
  destruct (check (build_after a0 _ _) _ _) eqn:Ec; [|apply (save_unmet_keeps _ _ _ _ kept09); exact H2].
  apply (run_or_save_keeps _ _ _ _ _ kept09) with (jb := jb); auto. split; assumption.
Qed.

Lemma handle_keeps09 fuel ev : keeps I09 (handle hwm scheme fuel ev).
Proof.
  intros s HI. destruct ev as [m md|m e k|e|e|e|j tid]; simpl.
  - apply dispatch_submission_keeps, HI.
  - apply dispatch_result_keeps, HI.
  - apply register_keeps, HI.
  - apply unregister_keeps, HI.
  - apply wp_bind, wp_get. destruct (index_of _ _); [|apply wp_ret; exact HI].
    apply wp_bind, wp_upd. apply stranded_keeps. exact HI.
  - apply wp_bind, wp_get. destruct (decide _); [|apply wp_ret; exact HI].
    apply wp_bind, wp_upd. apply (job_timeout_keeps _ _ _ _ _ kept09); [exact HI|intros; exact Logic.I].
Qed.

Lemma I09_init : I09 init.
Proof.
  split; simpl.
  - apply empty_subseteq.
  - apply empty_subseteq.
  - intros e X. rewrite lookup_empty. discriminate.
  - intros e X. rewrite lookup_empty. discriminate.
  - intros e X. rewrite lookup_empty. discriminate.
  - intros j _. apply lookup_empty.
  - intros e He. inversion He.
  - intros e X. rewrite lookup_empty. discriminate.
  - intros e X x. rewrite lookup_empty. discriminate.
  - intros t m e t' Heq. destruct t; discriminate.
Qed.

Lemma I09_reachable ok s : reachable hwm scheme ok s -> I09 s.
Proof.
  apply reachable_inv; [apply I09_init|]. intros s' ev fuel HI _. apply handle_keeps09. exact HI.
Qed.

Lemma safety s : reachable hwm scheme (fun _ _ => True) s -> sends_ok (s_log s).
Proof. intros Hr. apply I09_reachable in Hr. apply Hr. Qed.
End C09.
