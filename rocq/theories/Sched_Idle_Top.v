(** Work conservation with dependencies: the event handlers. *)
From stdpp Require Import base gmap sets list.
From Verif Require Import Dependency_Model Dependency_Spec Dependency_Proofs Sched_Trace Sched_Spec Sched_Model Sched_Env
  Sched_Base Sched_Traverse Sched_Safety Sched_Load Sched_Once Sched_Frame Sched_Life Sched_Blame Sched_Strand
  Sched_Idle_Spec Sched_Idle_Inv Sched_Idle Sched_Idle_Steps.
From Verif Require Prelude.
From Coq Require Import ZArith Lia.

Lemma save_graph_exact m l (Q : unit -> sched -> Prop) (E : sched -> Prop) s :
  (forall g' : gmap nat (gset nat), (forall d, g' !! d = if decide (d ∈ l) then Some ({[m]} ∪ default ∅ (s_graph s !! d)) else s_graph s !! d) ->
     Q tt (set_graph (fun _ => g') s)) ->
  wp (for_each l (fun d => upd (set_graph (fun g => <[d := {[m]} ∪ default ∅ (g !! d)]> g)))) Q E s.
Proof.
  revert s. induction l as [|d l IH]; intros s HQ; cbn [for_each].
  - apply wp_ret. rewrite <- (set_graph_same s). apply HQ. intros d. rewrite decide_False by (intros H; inversion H). reflexivity.
  - apply wp_bind, wp_upd. apply IH. intros g' Hg'.
    change (Q tt (set_graph (fun _ => g') s)). apply HQ. intros d'. rewrite Hg'. cbn [s_graph set_graph].
    destruct (decide (d' = d)) as [->|Hne].
    + rewrite lookup_insert, (decide_True _ _ (elem_of_list_here d l)). destruct (decide _); [|reflexivity]. cbn. f_equal. set_solver.
    + rewrite lookup_insert_ne by congruence. destruct (decide (d' ∈ l)) as [Hi|Hi].
      * rewrite decide_True by (right; exact Hi). reflexivity.
      * rewrite decide_False; [reflexivity|]. intros H. apply elem_of_cons in H as [?|?]; contradiction.
Qed.

Lemma J_dropY X1 j jb s : J X1 [j] [] None s -> s_jobs s !! j = Some jb ->
  phase_of (s_log s) (j_msg jb) <> Waiting \/ dead (s_log s) (j_msg jb) -> J X1 [] [] None s.
Proof.
  intros [HI HN] Hj H. split.
  - eapply (I11_frame (fun _ _ => 0)); [|exact HI]. apply submseteq_nil_l.
  - eapply invN_Y; [| |exact HN].
    + intros j' Hj'. inversion Hj'.
    + intros j' jb' Hin Hj'. apply elem_of_list_singleton in Hin as ->. rewrite Hj in Hj'. injection Hj' as <-. right. exact H.
Qed.
Lemma J_replied X1 Y F D s m : J X1 Y F D s -> m ∈ s_all_failed s -> phase_of (s_log s) m <> Waiting.
Proof.
  intros [HI HN] Hm. apply (n_bad _ _ _ _ _ _ _ _ _ _ _ _ _ _ _ _ HN) in Hm. apply told_bad_elem in Hm as (r & Hr & _).
  rewrite (reply_replied _ _ _ (w_ok _ _ _ _ _ _ _ _ _ _ _ HI m) Hr). discriminate.
Qed.

Section Top.
Context (scheme : nat -> list Z -> nat).
Context (Hscheme : forall k l, l <> [] -> scheme k l < length l).
Let hwm := 1.
Context (X1 : list nat).
Local Notation X := (X1, (None : option nat)).
Let HX : snd X = None := eq_refl.

(** Every waiting job that is ready is ready only for the engines in [P]. *)
Definition only (P : nat -> Prop) (s : sched) : Prop := forall j e, j ∈ s_queue s -> ready s j e -> P e.
Definition Wx (P : nat -> Prop) (s : sched) : Prop := J X1 [] [] None s /\ only P s.

Lemma only_later P s s' : later_state s s' -> only P s -> only P s'.
Proof. intros (_ & _ & A & B & _) H j e Hj Hr. eapply H; [apply A, Hj|apply B, Hr]. Qed.

Lemma save_unmetN j jb P s :
  J X1 [j] [] None s -> s_jobs s !! j = Some jb -> j_removed jb = false -> only P s -> (forall e, ~ ready s j e) ->
  wp (save_unmet j) (fun _ => Wx P) (fun _ => False) s.
Proof.
  intros HJ Hj Hr HP Hn. pose proof HJ as [HI HN].
  eapply wp_mono; [apply (wp_and _ _ (fun _ s' => NS [] [] None s' /\ only P s') _ (fun _ => False) _
     (save_unmet_good scheme X j jb s HI Hj Hr))| |intros s' [_ []]].
  2:{ intros [] s' (A & B & C). split; [split; assumption|exact C]. }
  unfold save_unmet. apply wp_bind, wp_get_job; [|intros E; congruence]. intros jb' E. rewrite Hj in E. injection E as <-.
  apply wp_bind, wp_upd. apply wp_bind, wp_upd. apply wp_bind, wp_get. apply wp_bind, save_graph_exact.
  intros g' Hg'. cbn [s_graph set_queue set_qmap s_all_done] in Hg'. set (s1 := set_graph _ _).
  assert (H1 : NS [] [] None s1).
  { unfold NS in *. cbn. eapply invN_save; [exact HN|exact Hj|exact Hr| |].
    - intros d. rewrite Hg'. unfold dependents. rewrite (union_comm_L (d_ids (j_after jb))).
      destruct (decide _) as [A|A].
      + rewrite decide_True by (apply elem_of_elements in A; exact A). reflexivity.
      + rewrite decide_False by (rewrite elem_of_elements in A; exact A). reflexivity.
    - intros j' jb' A B. eapply J_inj; [exact HJ|exact Hj|exact A|exact B]. }
  assert (Hr1 : only P s1).
  { intros j' e Hj' Hrd. change (j' ∈ s_queue s ++ [j]) in Hj'. assert (Hrd' : ready s j' e) by exact Hrd.
    apply elem_of_app in Hj' as [Hj'|Hj']; [eauto|]. apply elem_of_list_singleton in Hj' as ->. destruct (Hn e Hrd'). }
  destruct (j_timeout jb); [|apply wp_ret; auto].
  apply wp_bind, wp_upd. apply wp_upd. split.
  - unfold NS. cbn. eapply invN_alter; [exact H1|exact Hj| |reflexivity]. repeat split; auto.
  - set (f := fun x => set_timeout_id (S (j_timeout_id x)) x).
    assert (Hl : later_state s1 (set_jobs (alter f j) s1)) by (apply later_alter; cbn; auto).
    exact (only_later P s1 _ Hl Hr1).
Qed.

Lemma run_or_saveN fuel j jb P s :
  J X1 [j] [] None s -> s_jobs s !! j = Some jb -> j_removed jb = false -> only P s -> d_ids (j_after jb) ⊆ s_all_done s ->
  wp (do ran <- maybe_run hwm scheme (update_graph hwm scheme fuel) j;
      if (ran : bool) then ret tt
      else do fl <- get s_all_failed; if decide (j_msg jb ∈ fl) then ret tt else save_unmet j)
     (fun _ => Wx P) (fun s' => ~ strict s jb /\ Wx P s') s.
Proof.
  intros HJ Hj Hr HP Had. pose proof HJ as [HI HN].
  assert (Hq : s_qmap s !! j_msg jb = None) by (apply (n_y _ _ _ _ _ _ _ _ _ _ _ _ _ _ _ _ HN j jb); [left|exact Hj]).
  apply wp_bind. eapply wp_mono; [eapply (maybe_runN scheme Hscheme X1 _ j jb [j] [] [] [] s); eauto| |].
  - apply (update_graphN scheme Hscheme).
  - right. left.
  - left. auto.
  - intros ran s' [Hlat H]. cbv beta. destruct ran.
    + destruct H as (A & B & C & E & HJ'). apply wp_ret. split; [|eapply only_later; eassumption].
      replace s' with (set_graph (fun _ => forget (j_msg jb) (s_graph s)) (set_qmap (delete (j_msg jb)) s')); [exact HJ'|].
      rewrite forget_id.
      2:{ intros d Z HZ Hin. destruct (n_graph _ _ _ _ _ _ _ _ _ _ _ _ _ _ _ _ HN d Z _ HZ Hin) as (j' & jb' & A' & _). congruence. }
      destruct s' as [a1 a2 a3 a4 a5 a6 a7 a8 a9 a10 a11 a12 a13 a14 a15 a16 a17 a18 a19 a20]. unfold set_graph, set_qmap.
      cbn [s_jobs s_next s_targets s_loads s_queue s_qmap s_graph s_retries s_pending s_completed s_failed s_dest s_all_ids s_all_done s_all_completed s_all_failed s_draws s_strand_timers s_job_timers s_log] in *.
      subst. rewrite delete_notin by exact Hq. reflexivity.
    + destruct H as [(HJ' & Hlat' & Hset) Hnr]. apply wp_bind, wp_get.
      destruct (decide _) as [Hd|Hd].
      * apply wp_ret. split; [|eapply only_later; eassumption].
        destruct Hlat as (_ & _ & _ & _ & Hl5). destruct (Hl5 j jb Hj) as (jb' & Hj' & Em & _).
        eapply J_dropY; [exact HJ'|exact Hj'|]. left. rewrite Em. eapply J_replied; eassumption.
      * destruct Hset as [[H _]|(_ & _ & _ & _ & _ & jb0 & jb' & E0 & Ej' & Hsame & Hr')]; [contradiction|].
        eapply wp_mono; [eapply (save_unmetN j jb' P s'); eauto| auto |intros s2 []].
        eapply only_later; eassumption.
  - intros s' (A & B & C & E). split; [exact A|]. split; [|eapply only_later; eassumption].
    destruct C as (_ & _ & _ & _ & Hl5). destruct (Hl5 j jb Hj) as (jb' & Hj' & Em & _).
    eapply J_dropY; [exact B|exact Hj'|]. right. rewrite Em. exact E.
Qed.

Lemma fail_nowN fuel j jb w P s :
  J X1 [j] [] None s -> s_jobs s !! j = Some jb -> j_removed jb = false -> only P s ->
  strict s jb \/ dead (s_log s) (j_msg jb) ->
  wp (upd (set_qmap (<[j_msg jb := j]>)) ;; fail_unreachable (update_graph hwm scheme fuel) (j_msg jb) w)
     (fun _ => Wx P) (fun s' => ~ strict s jb /\ Wx P s') s.
Proof.
  intros HJ Hj Hr HP Hcase. apply wp_bind, wp_upd.
  replace (set_qmap (<[j_msg jb := j]>) s) with (set_qmap (<[j_msg jb := j]>) (set_jobs (fun _ => s_jobs s) s)) by (destruct s; reflexivity).
  eapply wp_mono; [apply (fail_hereN scheme Hscheme X1 (update_graph hwm scheme fuel) j jb (s_jobs s) set_removed w [j] [] s)| |]; try assumption; try reflexivity.
  - apply (update_graphN scheme Hscheme).
  - left.
  - repeat split; auto.
  - cbn. auto.
  - destruct Hcase; [auto|right; split; [left|assumption]].
  - intros [] s' (A & B & C & E). split; [|eapply only_later; eassumption].
    destruct B as (_ & _ & _ & _ & Hl5). destruct (Hl5 j jb Hj) as (jb' & Hj' & Em & _).
    eapply J_dropY; [exact A|exact Hj'|]. left. rewrite Em. eapply J_replied; eassumption.
  - intros s' (A & B & C & E). split; [exact A|]. split; [|eapply only_later; eassumption].
    destruct C as (_ & _ & _ & _ & Hl5). destruct (Hl5 j jb Hj) as (jb' & Hj' & Em & _).
    eapply J_dropY; [exact B|exact Hj'|]. right. rewrite Em. exact E.
Qed.

Definition W (s : sched) : Prop := Wx (fun _ => False) s.

Lemma ugN fuel d s : J X1 [] [] d s -> wp (update_graph hwm scheme fuel d) (fun _ => W) (fun _ => False) s.
Proof.
  intros HJ. eapply wp_mono; [apply (update_graphN scheme Hscheme X1 fuel d [] [] s HJ)| |auto].
  intros [] s' (A & _ & B). split; [exact A|]. intros j e Hj Hr. exact (B j e Hj Hr).
Qed.

Lemma registerN fuel e s : W s -> ObsRegister e ∉ s_log s ->
  wp (register_engine hwm scheme fuel e) (fun _ => W) W s.
Proof.
  intros [[HI HN] _] Hfresh. unfold register_engine. do 6 (apply wp_bind, wp_upd).
  eapply wp_mono; [apply (ugN fuel None)|auto|intros s' []].
  split; [apply (announced_I11 X1 e s); assumption|]. unfold NS in *. cbn. apply invN_register; assumption.
Qed.

Lemma job_timeoutN fuel j tid s : W s -> wp (job_timeout hwm scheme fuel j tid) (fun _ => W) W s.
Proof.
  intros [HJ HP]. unfold job_timeout. apply wp_bind, wp_get_job; [|intros _; split; assumption]. intros jb Hj.
  destruct (decide _); [|apply wp_ret; split; assumption]. apply wp_bind, wp_get.
  destruct (decide _); [|apply wp_ret; split; assumption].
  eapply wp_mono; [eapply (failN_any scheme Hscheme X1 _ _ _ [] [] s); [apply (update_graphN scheme Hscheme)|exact HJ]| |intros s' []].
  intros [] s' [A B]. split; [exact A|]. eapply only_later; eassumption.
Qed.

Lemma unregisterN e s : W s -> wp (unregister_engine e) (fun _ => W) W s.
Proof.
  intros [[HI HN] HP]. 
  eapply wp_mono; [apply (wp_and _ _ (fun _ s' => NS [] [] None s' /\ only (fun _ => False) s') _ (fun s' => NS [] [] None s' /\ only (fun _ => False) s') _
     (unregister_good X1 e s HI))| |].
  2:{ intros [] s' (A & B & C). split; [split; assumption|exact C]. }
  2:{ intros s' (A & B & C). split; [split; assumption|exact C]. }
  unfold unregister_engine. apply wp_bind, wp_upd.
  apply wp_bind, wp_get, wp_bind, wp_of_option.
  2:{ intros E. cbn [s_targets set_log] in E. split.
      - unfold NS in *. cbn. eapply invN_unregister; [exact HN|auto|auto].
      - exact HP. }
  intros idx Hidx. cbn [s_targets set_log] in Hidx. apply index_of_spec in Hidx.
  assert (Hlt := lookup_lt_Some _ _ _ Hidx).
  destruct (w_load _ _ _ _ _ _ _ _ _ _ _ HI idx e Hidx) as (l & Hl & _).
  assert (Hperm : s_targets s ≡ₚ e :: list_pop idx (s_targets s)).
  { unfold list_pop. rewrite <- (take_drop_middle _ _ _ Hidx) at 1. rewrite <- Permutation_middle. reflexivity. }
  pose proof (w_tg _ _ _ _ _ _ _ _ _ _ _ HI) as Hnd. rewrite Hperm in Hnd. apply NoDup_cons in Hnd as [Hnin Hnd].
  pose proof (w_len _ _ _ _ _ _ _ _ _ _ _ HI) as Hlen.
  apply wp_bind, wp_upd, wp_bind, wp_upd. apply wp_bind, wp_get. cbn [s_pending set_loads set_targets set_log]. rewrite Hl. apply wp_bind, wp_ret.
  assert (HN1 : invN [] None (s_jobs s) (list_pop idx (s_targets s)) ([] ++ s_queue s) (s_qmap s) (s_graph s) (s_pending s) (s_completed s) (s_failed s)
    (s_all_ids s) (s_all_completed s) (s_all_failed s) (s_all_done s) (s_dest s) (s_log s ++ [ObsUnregister e])).
  { eapply invN_unregister; [exact HN| |].
    - intros e' He'. rewrite Hperm. right. exact He'.
    - intros e' He' Hne. rewrite Hperm in He'. apply elem_of_cons in He' as [?|?]; [contradiction|assumption]. }
  assert (Hrd : forall s', s_jobs s' = s_jobs s -> s_all_completed s' = s_all_completed s -> s_all_failed s' = s_all_failed s ->
     s_targets s' = list_pop idx (s_targets s) -> s_loads s' = list_pop idx (s_loads s) -> s_queue s' = s_queue s ->
     (forall e' c, s_completed s' !! e' = Some c -> s_completed s !! e' = Some c) ->
     (forall e' c, s_failed s' !! e' = Some c -> s_failed s !! e' = Some c) -> only (fun _ => False) s').
  { intros s' E1 E2 E3 E4 E5 E6 E7 E8 j' e' Hj' (b & i & ld & c & f & A1 & A2 & A3 & A4 & A5 & A6 & A7 & A8 & A9 & A10 & A11).
    rewrite E6 in Hj'. apply (HP j' e' Hj').
    rewrite E4, list_pop_lookup in A4 by exact Hlt. rewrite E5, list_pop_lookup in A5 by (rewrite Hlen; exact Hlt).
    rewrite E1 in A1. rewrite E2, E3 in A3.
    exists b, (if decide (i < idx) then i else S i), ld, c, f. repeat (split; [assumption|]). auto. }
  destruct (decide (l = [])) as [->|El].
  - apply wp_bind, wp_upd, wp_upd. split.
    + unfold NS. cbn. eapply invN_forget; [exact HN1|exact Hnin|exact Hl|right; reflexivity|right; reflexivity].
    + apply Hrd; try reflexivity; cbn; intros e' c; rewrite lookup_delete_Some; tauto.
  - apply wp_upd. split; [exact HN1|]. apply Hrd; try reflexivity; auto.
Qed.

Lemma build_after_dflt a0 c f : dflt a0 -> dflt (build_after a0 c f) /\ d_ids (build_after a0 c f) ⊆ d_ids a0.
Proof.
  intros (A & B & C). unfold build_after. rewrite A, B. cbn [d_failure]. rewrite C.
  destruct (check _ _ _); cbn; (split; [repeat split; cbn; auto|set_solver]).
Qed.

Lemma submissionN fuel m md s : W s -> ordinary (s_log s) (EvSubmit m md) ->
  wp (dispatch_submission hwm scheme fuel m md) (fun _ => W) W s.
Proof.
  intros [[HI HN] HP] (Hfresh & Ho1 & Ho2 & Hdeps & Htgs). cbn in Hfresh.
  unfold dispatch_submission. apply wp_bind, wp_upd, wp_bind, wp_upd, wp_bind, wp_upd.
  change (set_retries (<[m := t_retries md]>) (set_all_ids (fun X => {[m]} ∪ X) (set_log (fun l => l ++ [ObsSubmit m md]) s)))
    with (noted m md s).
  set (s1 := noted m md s). destruct (noted_I11 X1 m md s HI Hfresh) as (H1 & Hu & Hm). fold s1 in H1, Hm.
  assert (Hfd : forall d, ordinary_dep d -> exists x, from_dict d = Prelude.Ok x /\ dflt x /\ d_ids x = deps d).
  { intros d (A & B & C). unfold from_dict, mk_dep. rewrite A, B, C. cbn. eexists. split; [reflexivity|]. repeat split. }
  destruct (Hfd _ Ho1) as (a0 & Ea & Da & Ia). destruct (Hfd _ Ho2) as (fo & Ef & Df & If). clear Hfd.
  rewrite Ea, Ef. apply wp_bind, wp_ret.
  apply wp_bind, wp_get, wp_bind, wp_get. cbv zeta. apply wp_bind, wp_ret.
  apply wp_bind, wp_get, wp_bind, wp_upd, wp_bind, wp_upd.
  set (ac := s_all_completed s1). set (af := s_all_failed s1). set (after := build_after a0 ac af).
  destruct (build_after_dflt a0 ac af Da) as [Db Ib]. fold after in Db, Ib.
  set (jb := Job m md (list_to_set (t_targets md)) after fo (t_timeout md) false 0 ∅).
  set (j := s_next s1). set (s2 := set_jobs _ _).
  assert (Hnone : forall j' jb', s_jobs s !! j' = Some jb' -> j_msg jb' <> m).
  { intros j' jb' Hj' E. apply (w_sub _ _ _ _ _ _ _ _ _ _ _ HI j' jb' Hj'). rewrite E. exact Hu. }
  assert (Hj2 : s_jobs s2 !! j = Some jb) by (cbn; apply lookup_insert).
  assert (Hq2 : s_qmap s !! m = None).
  { destruct (s_qmap s !! m) as [j'|] eqn:E; [|reflexivity].
    destruct (w_qm _ _ _ _ _ _ _ _ _ _ _ HI m j' E) as (_ & _ & _ & E'). congruence. }
  assert (Hfreshj : s_jobs s !! j = None) by (apply (w_next _ _ _ _ _ _ _ _ _ _ _ HI); reflexivity).
  assert (HJ2 : J X1 [j] [] None s2).
  { split.
    - apply (created_I11 X1 jb s1); [exact H1|exact Hm|exact Hnone].
    - unfold NS in *. cbn. apply (invN_submit _ _ _ _ _ _ _ _ _ _ _ _ _ _ j jb md); try assumption.
      + intros j' Hj'. destruct (w_live _ _ _ _ _ _ _ _ _ _ _ HI j' Hj') as (b & B & _). eauto.
      + exists md. cbn. split; [apply elem_of_app; right; left|]. split; [exact Db|]. split; [exact Df|].
        split; [rewrite <- Ia; exact Ib|]. split; [rewrite <- If; reflexivity|]. split; [intros ->; reflexivity|].
        split; [intros e He; left; apply elem_of_list_to_set; exact He|]. intros e He. set_solver. }
  assert (HP2 : only (fun _ => False) s2).
  { intros j' e Hj' (b & i & ld & c & f & A1 & A2). cbn in Hj'.
    assert (Hne : j' <> j).
    { intros ->. destruct (w_live _ _ _ _ _ _ _ _ _ _ _ HI j Hj') as (b' & B' & _). congruence. }
    cbn in A1. rewrite lookup_insert_ne in A1 by (intros E; apply Hne; symmetry; exact E). apply (HP j' e Hj'). exists b, i, ld, c, f. split; [exact A1|exact A2]. }
  assert (Hsubd : forall x, x ∈ deps (t_after md) \/ x ∈ deps (t_follow md) -> submitted (s_log s) x).
  { intros x Hx. apply Hdeps. unfold deps in Hx. rewrite !elem_of_list_to_set in Hx. exact Hx. }
  assert (Hnotbad : forall d : dep, (forall x, x ∈ d_ids d -> x ∈ deps (t_after md) \/ x ∈ deps (t_follow md)) ->
    bool_decide (d_ids d <> ∅ /\ (m ∈ d_ids d \/ ~ d_ids d ⊆ s_all_ids s2)) = false).
  { intros d Hd. apply bool_decide_eq_false. intros [_ [A|A]].
    - apply Hfresh. apply Hsubd. auto.
    - apply A. intros x Hx. cbn. apply elem_of_union. right. apply (n_ids _ _ _ _ _ _ _ _ _ _ _ _ _ _ _ _ HN). auto. }
  assert (Hdead : forall d, dflt d -> (forall x, x ∈ d_ids d -> x ∈ deps (t_after md) \/ x ∈ deps (t_follow md)) ->
    unreachable d ac af = true -> dead (s_log s2) m).
  { intros d Dd Hd Hun. apply (unreachable_dflt d ac af Dd) in Hun as (x & Hx & Hf).
    exists md. split; [cbn; apply elem_of_app; right; left|]. left. exists x. split; [auto|].
    change (x ∈ told_bad (s_log s ++ [ObsSubmit m md])). rewrite told_bad_snoc. apply elem_of_union. left. apply (n_bad _ _ _ _ _ _ _ _ _ _ _ _ _ _ _ _ HN). exact Hf. }
  assert (Hin1 : forall x, x ∈ d_ids after -> x ∈ deps (t_after md) \/ x ∈ deps (t_follow md)).
  { intros x Hx. left. rewrite <- Ia. apply Ib, Hx. }
  assert (Hin2 : forall x, x ∈ d_ids fo -> x ∈ deps (t_after md) \/ x ∈ deps (t_follow md)).
  { intros x Hx. right. rewrite <- If. exact Hx. }
  apply wp_bind, wp_get. cbv zeta.
  assert (Hfail : dead (s_log s2) m -> forall w, wp (upd (set_qmap (<[m := j]>)) ;; fail_unreachable (update_graph hwm scheme fuel) m w) (fun _ => W) W s2).
  { intros Hd w. eapply wp_mono; [apply (fail_nowN fuel j jb w (fun _ => False) s2); auto|auto|]. intros s' [_ H]. exact H. }
  rewrite (Hnotbad after Hin1).
  destruct (bool_decide (d_ids after <> ∅) && _) eqn:Eu.
  { apply andb_true_iff in Eu as [_ Eu]. apply Hfail, (Hdead after); assumption. }
  rewrite (Hnotbad fo Hin2).
  destruct (bool_decide (d_ids fo <> ∅) && _) eqn:Eu2.
  { apply andb_true_iff in Eu2 as [_ Eu2]. apply Hfail, (Hdead fo); assumption. }
  destruct (check after ac af) eqn:Ec.
  - eapply wp_mono; [apply (run_or_saveN fuel j jb (fun _ => False) s2); auto|auto|intros s' [_ H]; exact H].
    cbn. apply (check_dflt _ _ _ Db) in Ec. pose proof (n_acd _ _ _ _ _ _ _ _ _ _ _ _ _ _ _ _ HN). intros x Hx. apply H, Ec, Hx.
  - eapply wp_mono; [apply (save_unmetN j jb (fun _ => False) s2); auto|auto|intros s' []].
    intros e (b & i & ld & c & f & A1 & A2 & A3 & _). rewrite Hj2 in A1. injection A1 as <-. change (check after ac af = true) in A3. congruence.
Qed.

Lemma handle_unmetN fuel e m l j jb s :
  s_pending s !! e = Some l -> al_lookup m l = Some j -> s_jobs s !! j = Some jb -> j_msg jb = m -> j_removed jb = false ->
  dependents jb ⊆ s_all_done s ->
  let s2 := set_jobs (alter (add_blacklist e) j) (set_pending (<[e := al_remove m l]>) s) in
  J X1 [j] [] None s2 -> only (eq e) s2 ->
  wp (handle_unmet_dependency hwm scheme fuel e m) (fun _ => W) W s.
Proof.
  intros Hl Hal Hj Hjm Hjr Hdep s2 HJ HP. unfold handle_unmet_dependency.
  apply wp_bind, wp_get. rewrite Hl. apply wp_bind, wp_ret. rewrite Hal. apply wp_bind, wp_ret.
  apply wp_bind, wp_upd. apply wp_bind, wp_upd. fold s2.
  assert (Hj2 : s_jobs s2 !! j = Some (add_blacklist e jb)) by (cbn; rewrite lookup_alter, Hj; reflexivity).
  apply wp_bind, wp_get_job; [|intros E; congruence]. intros jb2 Hjb2. rewrite Hj2 in Hjb2. injection Hjb2 as <-.
  assert (Hst : strict s2 (add_blacklist e jb)).
  { intros d Z Hd HZ. exfalso. destruct HJ as [_ HN]. destruct (n_gdone _ _ _ _ _ _ _ _ _ _ _ _ _ _ _ _ HN d) as [A|A]; [eauto| |discriminate].
    apply A. apply Hdep. exact Hd. }
  apply wp_bind. eapply wp_mono with (Q := fun _ => Wx (eq e)) (E := fun _ => False); [| |intros s' []].
  - destruct (decide _).
    + subst m. eapply wp_mono; [apply (fail_nowN fuel j (add_blacklist e jb) ImpossibleDep (eq e) s2); auto|auto|intros s' [H _]; contradiction].
    + subst m. eapply wp_mono; [apply (run_or_saveN fuel j (add_blacklist e jb) (eq e) s2); auto|auto|intros s' [H _]; contradiction].
      cbn. intros x Hx. apply Hdep. unfold dependents. apply elem_of_union. right. exact Hx.
  - intros [] s' [HJ' HP']. rewrite decide_False by discriminate. apply wp_bind, wp_get.
    assert (Hstop : (forall i ld, s_targets s' !! i = Some e -> s_loads s' !! i = Some ld -> ~ (ld < 1)%Z) -> W s').
    { intros H. split; [exact HJ'|]. intros j' e' Hj' Hrd. pose proof (HP' j' e' Hj' Hrd) as <-.
      destruct Hrd as (b & i & ld & c & f & _ & _ & _ & A4 & A5 & A6 & _). exact (H i ld A4 A5 A6). }
    destruct (index_of e (s_targets s')) as [idx|] eqn:Ei.
    2:{ apply wp_ret. apply Hstop. intros i ld A. exfalso. apply (index_of_none _ _ Ei). eapply elem_of_list_lookup_2; eauto. }
    apply index_of_spec in Ei. apply wp_bind, wp_get. destruct (decide _) as [Hd|Hd].
    + eapply wp_mono; [apply (ugN fuel None s' HJ')|auto|intros s3 []].
    + apply wp_ret. apply Hstop. intros i ld A1 A2 A3. destruct HJ' as [HI' _].
      pose proof (NoDup_lookup _ _ _ _ (w_tg _ _ _ _ _ _ _ _ _ _ _ HI') A1 Ei) as ->.
      destruct (w_load _ _ _ _ _ _ _ _ _ _ _ HI' idx e Ei) as (l' & _ & E'). rewrite A2 in E'. injection E' as ->.
      apply Hd. rewrite A2. f_equal. change (Z.of_nat hwm) with 1%Z. lia.
Qed.

Lemma resultN fuel e m k s :
  W s -> phase_of (s_log s) m = OnEngine e -> wp (dispatch_result hwm scheme fuel e m k) (fun _ => W) W s.
Proof.
  intros [[HI HN] HP] Hph.
  destruct (w_on _ _ _ _ _ _ _ _ _ _ _ HI m e Hph) as (l & Hl & Hkey).
  destruct (al_lookup m l) as [j|] eqn:Hal.
  2:{ exfalso. apply elem_of_list_fmap in Hkey as ([m' j'] & E & Hin). simpl in E. subst m'. eapply al_lookup_none; eauto. }
  destruct (w_pd _ _ _ _ _ _ _ _ _ _ _ HI e l m j Hl (al_lookup_elem _ _ _ Hal)) as (jb & Hj & Hjm & Hjr & _ & Hnb).
  assert (Hq : s_qmap s !! m = None).
  { destruct (s_qmap s !! m) as [j'|] eqn:E; [|reflexivity].
    destruct (w_qm _ _ _ _ _ _ _ _ _ _ _ HI m j' E) as (_ & _ & _ & E'). congruence. }
  assert (Hsub : submitted (s_log s) m).
  { apply phase_submitted; [apply (w_ok _ _ _ _ _ _ _ _ _ _ _ HI)|congruence]. }
  destruct Hsub as [md Hmd].
  destruct (w_bud _ _ _ _ _ _ _ _ _ _ _ HI m md Hmd) as [_ HB]. destruct HB as [_ HB]; [discriminate|].
  destruct (HB e Hph) as (r & Hr & _). clear HB.
  assert (Hu : forall j' jb', s_jobs s !! j' = Some jb' -> j_msg jb' = m -> j' = j).
  { intros j' jb' A B. apply (w_inj _ _ _ _ _ _ _ _ _ _ _ HI j' j jb' jb A Hj). congruence. }
  assert (HjL : j ∈ [] ++ s_queue s -> False).
  { intros Hin. destruct (w_live _ _ _ _ _ _ _ _ _ _ _ HI j Hin) as (b2 & B1 & B2).
    rewrite Hj in B1. injection B1 as <-. rewrite Hjm in B2. rewrite (B2 Hjr) in Hph. discriminate. }
  assert (Hdep : dependents jb ⊆ s_all_done s) by exact (n_eng _ _ _ _ _ _ _ _ _ _ _ _ _ _ _ _ HN m e j jb Hph Hj Hjm).
  set (ld' := freed e s).
  unfold dispatch_result. apply wp_bind, wp_upd. apply wp_bind, wp_get. apply wp_bind.
  assert (Hgo : forall s2, s2 = set_loads (fun _ => ld') (set_log (fun t => t ++ [ObsResult m e k]) s) ->
    wp match k with
       | RUnmet => handle_unmet_dependency hwm scheme fuel e m
       | _ => let success := match k with ROk => true | _ => false end in
              do rt <- get s_retries; do retries <- of_option (rt !! m);
              if decide (success = false /\ 0 < retries)
              then upd (set_retries (<[m := retries - 1]>)) ;; handle_unmet_dependency hwm scheme fuel e m
              else upd (set_retries (delete m)) ;; handle_result hwm scheme fuel e m success
       end (fun _ => W) W s2).
  { intros s2 ->.
    assert (Hunmet : forall rt', budget None rt' (s_log s ++ [ObsResult m e k]) ->
      wp (handle_unmet_dependency hwm scheme fuel e m) (fun _ => W) W
         (set_retries (fun _ => rt') (set_loads (fun _ => ld') (set_log (fun t => t ++ [ObsResult m e k]) s)))).
    { intros rt' Hb'. apply handle_unmetN with (l := l) (j := j) (jb := jb); auto.
      - split.
        + unfold I11. cbn.
          eapply (inv11_result X) with (jb := jb); [exact HI|exact Hph|exact Hl|exact Hal|exact Hj|exact Hjm|exact Hjr|reflexivity|exact Hb'].
        + unfold NS in *. cbn. subst m. eapply invN_giveback; try eassumption.
      - intros j' e' Hj' (b & i & ld & c & f & A1 & A2 & A3 & A4 & A5 & A6 & A7 & A8 & A9 & A10 & A11).
        cbn in Hj', A1, A3, A4, A5, A9, A10.
        destruct (decide (e' = e)) as [->|Hne]; [reflexivity|]. exfalso. apply (HP j' e' Hj').
        rewrite lookup_alter_ne in A1 by (intros ->; apply HjL; exact Hj').
        exists b, i, ld, c, f. split; [exact A1|]. split; [exact A2|]. split; [exact A3|]. split; [exact A4|].
        split; [|auto 10]. unfold ld', freed in A5. destruct (index_of e (s_targets s)) as [i'|] eqn:Ei; [|exact A5].
        apply index_of_spec in Ei. rewrite list_lookup_alter_ne in A5; [exact A5|]. intros ->. congruence. }
    assert (Hres : forall b, wp (handle_result hwm scheme fuel e m b) (fun _ => W) W
         (set_retries (delete m) (set_loads (fun _ => ld') (set_log (fun t => t ++ [ObsResult m e k]) s)))).
    { intros b. destruct (n_cf _ _ _ _ _ _ _ _ _ _ _ _ _ _ _ _ HN e) as [[c Hc] [f Hf]].
      { right. exists l. split; [exact Hl|]. intros ->. discriminate. }
      assert (Hfin := invN_final _ _ _ _ _ _ _ _ _ _ _ _ _ _ m e l k b c f HN Hph (w_ok _ _ _ _ _ _ _ _ _ _ _ HI) Hl
        (w_regpd _ _ _ _ _ _ _ _ _ _ _ HI e l Hl) Hc Hf).
      assert (HI' : I11 X [] (finished e m k b l s)) by (apply (finished_I11 scheme X1 e m k b l j jb s); assumption).
      unfold handle_result. apply wp_bind, wp_upd. apply wp_bind, wp_get. cbn [s_pending set_log set_retries set_loads]. rewrite Hl. apply wp_bind, wp_ret. rewrite Hal.
      apply wp_bind, wp_ret. apply wp_bind, wp_upd. apply wp_bind.
      destruct b; apply wp_bind, wp_get; cbn [s_completed s_failed set_pending set_log set_retries set_loads];
        rewrite ?Hc, ?Hf; apply wp_bind, wp_ret; apply wp_bind, wp_upd, wp_upd; apply wp_bind, wp_upd; apply wp_bind, wp_upd;
        (eapply wp_mono; [apply (ugN fuel (Some m))|auto|intros s' []]); (split; [exact HI'|exact Hfin]). }
    destruct k.
    - cbv zeta. apply wp_bind, wp_get. cbn [s_retries set_loads set_log]. rewrite Hr. apply wp_bind, wp_ret.
      rewrite decide_False by (intros [? _]; discriminate). apply wp_bind, wp_upd. apply (Hres true).
    - cbv zeta. apply wp_bind, wp_get. cbn [s_retries set_loads set_log]. rewrite Hr. apply wp_bind, wp_ret.
      destruct (decide _) as [[_ Hd]|Hd]; apply wp_bind, wp_upd; [|apply (Hres false)].
      apply (Hunmet (<[m := r - 1]> (s_retries s))).
      eapply budget_result; [apply (w_bud _ _ _ _ _ _ _ _ _ _ _ HI)|exact Hph|reflexivity| |].
      + intros m' Hne. apply lookup_insert_ne. congruence.
      + intros k0 Hk0. exists (r - 1). rewrite lookup_insert. split; [reflexivity|]. rewrite Hr in Hk0. injection Hk0 as <-. lia.
    - apply (Hunmet (s_retries s)).
      eapply budget_result; [apply (w_bud _ _ _ _ _ _ _ _ _ _ _ HI)|exact Hph|reflexivity|auto|]. eauto. }
  cbn [s_targets set_log]. unfold ld', freed in Hgo.
  destruct (index_of e (s_targets s)) as [i|]; [apply wp_upd|apply wp_ret]; apply Hgo; destruct s; reflexivity.
Qed.

Lemma strand_loopN fuel e : forall ms s, W s ->
  wp (for_each ms (fun m =>
        do pd <- get s_pending; do l <- of_option (pd !! e);
        match al_lookup m l with None => ret tt | Some _ => swallow (dispatch_result hwm scheme fuel e m RErr) end))
     (fun _ => W) W s.
Proof.
  intros ms s HW. apply wp_for_each with (I := W); [exact HW|]. clear s HW. intros m s _ HW.
  apply wp_bind, wp_get, wp_bind, wp_of_option; [|intros _; exact HW]. intros l Hl.
  destruct (al_lookup m l) as [j|] eqn:Hal; [|apply wp_ret; exact HW].
  apply wp_swallow. apply resultN; [exact HW|]. destruct HW as [[HI _] _].
  destruct (w_pd _ _ _ _ _ _ _ _ _ _ _ HI e l m j Hl (al_lookup_elem _ _ _ Hal)) as (jb & _ & _ & _ & A & _). exact A.
Qed.
End Top.

Section Handle.
Context (scheme : nat -> list Z -> nat).
Context (Hscheme : forall k l, l <> [] -> scheme k l < length l).
Let hwm := 1.

(** The part of [W] that does not mention [X1]. *)
Definition V (s : sched) : Prop := NS [] [] None s /\ only (fun _ => False) s.
Lemma W_V X1 s : W X1 s -> V s.
Proof. intros [[_ A] B]. split; assumption. Qed.

Lemma strand_timerV fuel e s : W [] s -> wp (handle hwm scheme fuel (EvStrandTimer e)) (fun _ => V) V s.
Proof.
  intros HW. pose proof HW as [[HI HN] HP]. cbn [handle]. apply wp_bind, wp_get.
  destruct (index_of e (s_strand_timers s)) as [i|] eqn:Ei; [|apply wp_ret; eapply W_V; exact HW].
  apply index_of_spec in Ei. assert (Hin : e ∈ s_strand_timers s) by (eapply elem_of_list_lookup_2; eauto).
  apply wp_bind, wp_upd. set (s1 := set_strand_timers _ s).
  destruct (w_tm _ _ _ _ _ _ _ _ _ _ _ HI e (or_introl Hin)) as [Htg Hreg].
  assert (HI1 : I11 ([e], None) [] s1) by (apply (strand_begin_I11 scheme); assumption).
  assert (HW1 : W [e] s1) by (split; [split; [exact HI1|exact HN]|exact HP]).
  unfold handle_stranded_tasks. apply wp_bind, wp_get. apply wp_bind, wp_of_option; [|intros _; split; assumption].
  intros l Hl. apply wp_bind.
  assert (Hkeys := w_keys _ _ _ _ _ _ _ _ _ _ _ HI e l Hl).
  assert (Hl1 : wp (for_each (map fst l) (fun m =>
        do pd <- get s_pending; do l <- of_option (pd !! e);
        match al_lookup m l with None => ret tt | Some _ => swallow (dispatch_result hwm scheme fuel e m RErr) end))
      (fun _ s' => e ∉ s_targets s' /\ s_pending s' !! e = Some []) (fun _ => False) s1).
  { eapply wp_mono; [apply (strand_loop scheme fuel e (map fst l) s1 l (s_retries s) []); auto; intros o Ho; inversion Ho| |intros s' []].
    intros [] s' (_ & A & B & _). auto. }
  eapply wp_mono; [apply (wp_and _ _ _ _ _ _ (strand_loopN scheme Hscheme [e] fuel e (map fst l) s1 HW1) Hl1)| |intros s' [_ []]].
  intros [] s' ([[HI' HN'] HP'] & A & B).
  assert (HV : forall s2, s2 = set_completed (fun _ => s_completed s2) (set_failed (fun _ => s_failed s2) s') ->
     (s_completed s2 = s_completed s' \/ s_completed s2 = delete e (s_completed s')) ->
     (s_failed s2 = s_failed s' \/ s_failed s2 = delete e (s_failed s')) -> V s2).
  { intros s2 -> Hc Hf. cbn in Hc, Hf. split.
    - unfold NS in *. cbn. eapply invN_forget; [exact HN'|exact A|exact B|exact Hc|exact Hf].
    - intros j' e' Hj' (b & i' & ld & c & f & A1 & A2 & A3 & A4 & A5 & A6 & A7 & A8 & A9 & A10 & A11).
      cbn in Hj', A1, A3, A4, A5, A9, A10. apply (HP' j' e' Hj'). exists b, i', ld, c, f.
      repeat (split; [assumption|]). split; [|split; [|exact A11]].
      + destruct Hc as [E|E]; rewrite E in A9; [exact A9|]. apply lookup_delete_Some in A9. tauto.
      + destruct Hf as [E|E]; rewrite E in A10; [exact A10|]. apply lookup_delete_Some in A10. tauto. }
  apply wp_bind, wp_get, wp_bind, wp_of_option; [|intros _; apply HV; [destruct s'; reflexivity|auto|auto]]. intros Y _.
  apply wp_bind, wp_upd.
  apply wp_bind, wp_get, wp_bind, wp_of_option; [|intros _; apply HV; [destruct s'; reflexivity|auto|auto]]. intros Z _.
  apply wp_upd. apply HV; [destruct s'; reflexivity|auto|auto].
Qed.

Lemma handleN fuel ev s : ordinary (s_log s) ev -> W [] s -> wp (handle hwm scheme fuel ev) (fun _ => W []) (W []) s.
Proof.
  intros Hok HW. assert (HV : wp (handle hwm scheme fuel ev) (fun _ => V) V s).
  { destruct ev as [m md|m e k|e|e|e|j tid].
    - eapply wp_mono; [apply (submissionN scheme Hscheme [] fuel m md s HW Hok)|intros [] s' H; exact (W_V [] s' H)|intros s' H; exact (W_V [] s' H)].
    - eapply wp_mono; [apply (resultN scheme Hscheme [] fuel e m k s HW (proj1 Hok))|intros [] s' H; exact (W_V [] s' H)|intros s' H; exact (W_V [] s' H)].
    - eapply wp_mono; [apply (registerN scheme Hscheme [] fuel e s HW (proj1 Hok))|intros [] s' H; exact (W_V [] s' H)|intros s' H; exact (W_V [] s' H)].
    - eapply wp_mono; [apply (unregisterN [] e s HW)|intros [] s' H; exact (W_V [] s' H)|intros s' H; exact (W_V [] s' H)].
    - apply strand_timerV. exact HW.
    - cbn [handle]. apply wp_bind, wp_get. destruct (decide _); [|apply wp_ret; eapply W_V; exact HW].
      apply wp_bind, wp_upd.
      eapply wp_mono; [apply (job_timeoutN scheme Hscheme [] fuel j tid (set_job_timers _ s) HW)|intros [] s' H; exact (W_V [] s' H)|intros s' H; exact (W_V [] s' H)]. }
  eapply wp_mono; [apply (wp_and _ _ _ _ _ _ (handle_good scheme fuel ev s (proj1 Hok) (proj1 (proj1 HW))) HV)| |].
  - intros [] s' (A & B & C). split; [split; assumption|exact C].
  - intros s' (A & B & C). split; [split; assumption|exact C].
Qed.

Lemma W_init : W [] init.
Proof.
  split; [split; [apply I11_init|]|intros j e H; inversion H].
  unfold NS. split.
  - intros j jb H. discriminate H.
  - intros m md H. inversion H.
  - intros x [md H]. inversion H.
  - intros j jb H. inversion H.
  - intros j jb H. inversion H.
  - intros m j H. discriminate H.
  - intros d Z m H. discriminate H.
  - intros d [x H]. discriminate H.
  - intros m H. discriminate H.
  - intros e [H|(l & H & _)]; [inversion H|discriminate H].
  - intros e c H. discriminate H.
  - intros m e b H. inversion H.
  - intros e H. discriminate H.
  - intros x H. inversion H.
  - intros x H. cbn in H. set_solver.
  - intros m H. cbn in H. set_solver.
  - intros x H. cbn in H. set_solver.
  - intros m e j jb H. discriminate H.
  - intros e c H. discriminate H.
  - intros m j jb d H. discriminate H.
  - intros d H. discriminate H.
Qed.

Lemma W_reachable s : reachable hwm scheme ordinary s -> W [] s.
Proof. apply reachable_inv; [apply W_init|]. intros s' ev fuel HI H. apply handleN; assumption. Qed.

Lemma met_ordinary d h : ordinary_dep d -> dict_met d h -> deps d ⊆ h_ok h.
Proof.
  intros (A & B & C) H x Hx. unfold dict_met, met in H. rewrite A, B, C in H.
  destruct (H x Hx) as [[_ E]|[E _]]; [exact E|discriminate].
Qed.

Lemma no_idle s m e : reachable hwm scheme ordinary s -> phase_of (s_log s) m = Waiting ->
  registered (s_log s) e = true -> outstanding (s_log s) e = 0%Z -> ~ could_run (s_log s) m e.
Proof.
  intros Hre Hw Hreg Hout ((md & Hmd & _ & Haf & Htg & Hfo) & Hnr).
  pose proof (W_reachable s Hre) as [[HI HN] HP].
  assert (HI10 : I10 hwm s).
  { eapply (I10_reachable hwm scheme ordinary); [|exact Hre]. intros t ev H. apply genuine_registration, H. }
  set (log := s_log s) in *.
  pose proof (w_ok _ _ _ _ _ _ _ _ _ _ _ HI) as Hok.
  destruct (n_targets _ _ _ _ _ _ _ _ _ _ _ _ _ _ _ _ HN m md Hmd) as (Ho1 & Ho2 & _).
  apply (met_ordinary _ _ Ho1) in Haf. apply (met_ordinary _ _ Ho2) in Hfo. cbn in Haf, Hfo.
  assert (Hon : told_on e true log ⊆ told_ok log).
  { intros x Hx. apply told_on_elem in Hx. apply told_ok_elem. eauto. }
  destruct (n_wait _ _ _ _ _ _ _ _ _ _ _ _ _ _ _ _ HN m Hw) as [Hd|[[j Hq]|(j & jb & A & _)]]; [| |inversion A].
  - destruct Hd as (md' & Hmd' & Hd). pose proof (submit_unique _ _ _ _ (Hok m) Hmd Hmd') as <-.
    destruct Hd as [(x & Hx & Hb)|[(m1 & m2 & e1 & e2 & b1 & b2 & A1 & A2 & A3 & A4 & A5)|[Hne Hall]]].
    + assert (Hxo : x ∈ told_ok log) by (destruct Hx; set_solver). apply told_ok_elem in Hxo as (e' & He').
      apply told_bad_elem in Hb as (r & Hr & Hrn). apply (Hrn e'). eapply reply_unique; eauto.
    + apply Hfo, told_on_elem in A1, A2. apply A3.
      pose proof (reply_unique _ _ _ _ (Hok m1) A1 A4) as E1. pose proof (reply_unique _ _ _ _ (Hok m2) A2 A5) as E2. congruence.
    + destruct Htg as [?|Htg]; [contradiction|]. destruct (Hall e Htg) as [[_ B]|[k B]]; [change (registered log e = false) in B; congruence|exact (Hnr k B)].
  - destruct (n_qm _ _ _ _ _ _ _ _ _ _ _ _ _ _ _ _ HN m j Hq) as (jb & Hj & Hm & HL & Hr & _).
    destruct (n_job _ _ _ _ _ _ _ _ _ _ _ _ _ _ _ _ HN j jb Hj) as (md' & Hmd' & Da & Df & Ia & If & T1 & T2 & T3).
    rewrite Hm in *. pose proof (submit_unique _ _ _ _ (Hok m) Hmd Hmd') as <-.
    pose proof (n_reg _ _ _ _ _ _ _ _ _ _ _ _ _ _ _ _ HN e Hreg) as Hin.
    destruct (n_cf _ _ _ _ _ _ _ _ _ _ _ _ _ _ _ _ HN e (or_introl Hin)) as [[c Hc] [f Hf]].
    pose proof (n_on _ _ _ _ _ _ _ _ _ _ _ _ _ _ _ _ HN e c Hc) as Hcon.
    pose proof (n_ok _ _ _ _ _ _ _ _ _ _ _ _ _ _ _ _ HN) as Hac.
    assert (Hbl : e ∉ j_blacklist jb) by (intros H; destruct (T3 e H) as [k Hk]; exact (Hnr k Hk)).
    apply elem_of_list_lookup in Hin as [i Hi].
    pose proof (l_load _ _ _ _ HI10 i e Hi) as Hld. fold log in Hld. rewrite Hout in Hld.
    apply (HP j e HL). exists jb, i, 0%Z, c, f. split; [exact Hj|]. split; [exact Hr|].
    split; [apply (check_dflt _ _ _ Da); fold log in Hac; set_solver|]. split; [exact Hi|]. split; [exact Hld|]. split; [lia|].
    split; [exact Hbl|]. split.
    + destruct Htg as [Htg|Htg]; [left; auto|]. destruct (T2 e Htg); [auto|contradiction].
    + split; [exact Hc|]. split; [exact Hf|]. apply (check_dflt _ _ _ Df). fold log in Hcon. set_solver.
Qed.
End Handle.
