(** Independent tasks: first come, first served, and no engine idles while a task waits. *)
From stdpp Require Import base gmap sets list.
From Verif Require Import Dependency_Model Sched_Trace Sched_Spec Sched_Model Sched_Env Sched_Base Sched_Traverse Sched_Load Sched_Frame Sched_Once Sched_Life Sched_Strand.
From Verif Require Prelude.
From Coq Require Import ZArith Lia.

Section Fifo.
Context (hwm : nat) (scheme : nat -> list Z -> nat).
Context (Hscheme : forall k l, l <> [] -> scheme k l < length l).

Record easy (jb : job) : Prop := Easy {
  z_after : d_ids (j_after jb) = ∅; z_follow : d_ids (j_follow jb) = ∅; z_targets : j_targets jb = ∅;
  z_black : j_blacklist jb = ∅; z_timeout : j_timeout jb = false; z_removed : j_removed jb = false }.

Record inv12 (L : list nat) (jobs : gmap nat job) (next : nat) (tg : list nat) (ld : list Z) (q : list nat)
  (qm : gmap nat nat) (g : gmap nat (gset nat)) (rt : gmap nat nat) (pd : gmap nat (list (nat * nat)))
  (comp fail : gmap nat (gset nat)) (tm : list nat) (jt : list (nat * nat)) (af : gset nat) (log : list obs) : Prop := Inv12 {
  v_next : forall j, next <= j -> jobs !! j = None;
  v_easy : forall j jb, jobs !! j = Some jb -> easy jb;
  v_sub : forall j jb, jobs !! j = Some jb -> phase_of log (j_msg jb) <> Unknown;
  v_inj : forall j1 j2 b1 b2, jobs !! j1 = Some b1 -> jobs !! j2 = Some b2 -> j_msg b1 = j_msg b2 -> j1 = j2;
  v_nodup : NoDup L;
  v_live : forall j, j ∈ L -> exists jb, jobs !! j = Some jb /\ phase_of log (j_msg jb) = Waiting;
  v_all : forall m, phase_of log m = Waiting -> exists j jb, j ∈ L /\ jobs !! j = Some jb /\ j_msg jb = m;
  v_qm : forall j jb, j ∈ q -> jobs !! j = Some jb -> qm !! j_msg jb = Some j;
  v_order : submits log = deliveries log ++ omap (fun j => j_msg <$> jobs !! j) L;
  v_graph : g = ∅;
  v_jt : jt = [];
  v_keys : forall e l, pd !! e = Some l -> NoDup l.*1;
  v_pd : forall e l m j, pd !! e = Some l -> (m, j) ∈ l -> phase_of log m = OnEngine e /\ is_Some (jobs !! j);
  v_on : forall m e, phase_of log m = OnEngine e -> exists l, pd !! e = Some l /\ m ∈ l.*1;
  v_cf : forall e l, pd !! e = Some l -> e ∈ tg \/ l <> [] -> is_Some (comp !! e) /\ is_Some (fail !! e);
  v_ok : forall m, phase_of log m <> Broken;
  v_rt : forall m, phase_of log m = Waiting \/ (exists e, phase_of log m = OnEngine e) -> rt !! m = Some 0;
  v_tgpd : forall e, e ∈ tg -> is_Some (pd !! e);
  v_tg : NoDup tg;
  v_len : length ld = length tg;
  v_regpd : forall e l, pd !! e = Some l -> ObsRegister e ∈ log;
  v_tm : forall e, e ∈ tm -> e ∉ tg /\ ObsRegister e ∈ log;
  v_af : forall m, m ∈ af -> phase_of log m = Replied }.
Definition I12 (L : list nat) (s : sched) : Prop :=
  inv12 L (s_jobs s) (s_next s) (s_targets s) (s_loads s) (s_queue s) (s_qmap s) (s_graph s) (s_retries s)
    (s_pending s) (s_completed s) (s_failed s) (s_strand_timers s) (s_job_timers s) (s_all_failed s) (s_log s).
Definition avail (s : sched) : list nat := available_engines hwm s.
(** The state between two events. *)
Definition K12 (s : sched) : Prop := I12 (s_queue s) s /\ (s_queue s <> [] -> avail s = []).

Lemma submits_snoc t o : submits (t ++ [o]) = submits t ++ match o with ObsSubmit m _ => [m] | _ => [] end.
Proof. unfold submits. rewrite omap_app. destruct o; reflexivity. Qed.
Lemma deliveries_snoc t o : deliveries (t ++ [o]) = deliveries t ++ match o with ObsSend m _ => [m] | _ => [] end.
Proof. unfold deliveries. rewrite omap_app. destruct o; reflexivity. Qed.

Lemma check_easy d c f : d_ids d = ∅ -> check d c f = true.
Proof. intros H. unfold check. rewrite decide_True by exact H. reflexivity. Qed.
Lemma unreachable_easy d c f : d_ids d = ∅ -> unreachable d c f = false.
Proof. intros H. unfold unreachable. rewrite decide_True by exact H. reflexivity. Qed.

Lemma avail_spec s i : length (s_loads s) = length (s_targets s) -> i ∈ avail s ->
  exists e x, s_targets s !! i = Some e /\ s_loads s !! i = Some x /\ (hwm <> 0 -> (x < Z.of_nat hwm)%Z).
Proof.
  intros Hlen Hin. unfold avail, available_engines in Hin.
  assert (Hi : i < length (s_targets s) /\ (hwm <> 0 -> match s_loads s !! i with Some l => (l < Z.of_nat hwm)%Z | None => False end)).
  { destruct (decide (hwm = 0)).
    - apply elem_of_seq in Hin. split; [lia|congruence].
    - apply elem_of_list_In, filter_In in Hin as [A B]. apply in_seq in A. split; [lia|]. intros _.
      destruct (s_loads s !! i); [apply bool_decide_eq_true_1 in B; exact B|discriminate]. }
  destruct Hi as [Hi Hx].
  destruct (lookup_lt_is_Some_2 (s_targets s) i Hi) as [e He].
  destruct (lookup_lt_is_Some_2 (s_loads s) i) as [x Hxl]; [lia|]. rewrite Hxl in Hx. eauto.
Qed.

Lemma filter_all s jb l : (forall i, i ∈ l -> can_run hwm s jb i = Some true) -> filter_can_run hwm s jb l = Some l.
Proof.
  induction l as [|i l IH]; simpl; intros H; [reflexivity|].
  rewrite (H i) by left. rewrite IH; [reflexivity|]. intros i' Hi'. apply H. right. exact Hi'.
Qed.

Lemma omap_loads s l : (forall i, i ∈ l -> is_Some (s_loads s !! i)) ->
  length (omap (fun i => s_loads s !! i) l) = length l.
Proof.
  induction l as [|i l IH]; simpl; intros H; [reflexivity|].
  destruct (H i) as [x ->]; [left|]. simpl. f_equal. apply IH. intros i' Hi'. apply H. right. exact Hi'.
Qed.

(** A waiting independent task is sent when an engine is available: it is the first in line. *)
Lemma maybe_run_easy ug j L s :
  I12 (j :: L) s -> avail s <> [] ->
  wp (maybe_run hwm scheme ug j) (fun b s' => b = true /\ I12 L s' /\ s_queue s' = s_queue s /\ s_qmap s' = s_qmap s /\ s_jobs s' = s_jobs s)
     (fun _ => False) s.
Proof.
  intros HI Hav.
  destruct (v_live _ _ _ _ _ _ _ _ _ _ _ _ _ _ _ _ HI j) as (jb & Hj & Hw); [left|].
  destruct (v_easy _ _ _ _ _ _ _ _ _ _ _ _ _ _ _ _ HI j jb Hj) as [Ez1 Ez2 Ez3 Ez4 Ez5 Ez6].
  pose proof (v_len _ _ _ _ _ _ _ _ _ _ _ _ _ _ _ _ HI) as Hlen.
  unfold maybe_run. apply wp_bind, wp_get_job; [|intros E; congruence]. intros jb' Hjb'. rewrite Hj in Hjb'. injection Hjb' as <-.
  apply wp_bind, wp_get. fold (avail s). rewrite decide_False by exact Hav.
  (* sending to position idx *)
  assert (Hsend : forall idx target, s_targets s !! idx = Some target ->
    wp (emit (ObsSend (j_msg jb) target) ;; add_job idx ;; do pd <- get s_pending; do l <- of_option (pd !! target);
        upd (set_pending (<[target := al_insert (j_msg jb) j l]>)))
       (fun _ s' => I12 L s' /\ s_queue s' = s_queue s /\ s_qmap s' = s_qmap s /\ s_jobs s' = s_jobs s) (fun _ => False) (set_draws S s)).
  { intros idx target Htg. unfold emit, add_job.
    apply wp_bind, wp_upd. apply wp_bind. apply wp_bind, wp_upd, wp_bind, wp_upd, wp_upd.
    apply wp_bind, wp_get.
    assert (Htin : target ∈ s_targets s) by (eapply elem_of_list_lookup_2; eauto).
    destruct HI as [L1 L2 L3 L4 L5 L6 L7 L8 L9 L10 L11 L12 L13 L14 L15 L16 L17 L18 L19 L20 L21 L22 L23].
    destruct (L18 target Htin) as [l Hl].
    apply wp_bind, wp_of_option; [|intros E; simpl in E; congruence]. simpl. intros l' Hl'. rewrite Hl in Hl'. injection Hl' as <-.
    apply wp_upd. simpl. split; [|auto].
    set (m := j_msg jb) in *. set (o := ObsSend m target).
    assert (Hm : phase_of (s_log s ++ [o]) m = OnEngine target) by (apply phase_send; exact Hw).
    assert (Hp : forall m', m' <> m -> phase_of (s_log s ++ [o]) m' = phase_of (s_log s) m').
    { intros m' Hne. apply phase_other. simpl. congruence. }
    assert (Hnl : m ∉ l.*1).
    { intros Hin. apply elem_of_list_fmap in Hin as ([m2 j2] & E & Hin). simpl in E. subst m2.
      destruct (L13 _ _ _ _ Hl Hin). congruence. }
    apply NoDup_cons in L5 as [HjL HndL].
    assert (HjL' : forall j' jb', j' ∈ L -> s_jobs s !! j' = Some jb' -> j_msg jb' <> m).
    { intros j' jb' Hin Hj' E. apply HjL. replace j with j'; [exact Hin|]. eapply L4; eauto. }
    unfold I12; simpl; fold o. split; auto.
    - intros j' jb' Hj'. destruct (decide (j_msg jb' = m)) as [->|Hne]; [rewrite Hm; discriminate|rewrite Hp by exact Hne; eauto].
    - intros j' Hin. destruct (L6 j') as (jb' & A & B); [right; exact Hin|]. exists jb'. split; [exact A|].
      rewrite Hp; [exact B|]. eapply HjL'; eauto.
    - intros m' Hm'. destruct (decide (m' = m)) as [->|Hne]; [congruence|]. rewrite Hp in Hm' by exact Hne.
      destruct (L7 m' Hm') as (j' & jb' & A & B & C). exists j', jb'. split; [|auto].
      apply elem_of_cons in A as [->|A]; [|exact A]. rewrite Hj in B. injection B as <-. unfold m in Hne. congruence.
    - rewrite submits_snoc, deliveries_snoc, app_nil_r, L9. simpl. rewrite Hj. simpl. rewrite <- app_assoc. reflexivity.
    - intros e l0. rewrite lookup_insert_Some. intros [(<- & <-)|(Hne & Hl0)]; [apply al_insert_nodup; eauto|eauto].
    - intros e l0 m' j' Hl0 Hin. apply lookup_insert_Some in Hl0 as [(<- & <-)|(Hne & Hl0)].
      + apply al_insert_elem in Hin as [E|Hin]; [injection E as -> ->; split; [exact Hm|rewrite Hj; eauto]|].
        destruct (L13 _ _ _ _ Hl Hin) as [A B]. split; [|exact B]. rewrite Hp; [exact A|]. intros ->. congruence.
      + destruct (L13 _ _ _ _ Hl0 Hin) as [A B]. split; [|exact B]. rewrite Hp; [exact A|]. intros ->. congruence.
    - intros m' e Hon. destruct (decide (m' = m)) as [->|Hne].
      + assert (e = target) by congruence. subst e. exists (al_insert m j l). rewrite lookup_insert. split; [reflexivity|].
        apply al_insert_keys. auto.
      + rewrite Hp in Hon by exact Hne. destruct (L14 m' e Hon) as (l0 & A & B). destruct (decide (e = target)) as [->|Hne'].
        * exists (al_insert m j l). rewrite lookup_insert. split; [reflexivity|]. apply al_insert_keys. right. congruence.
        * exists l0. rewrite lookup_insert_ne by congruence. auto.
    - intros e l0. rewrite lookup_insert_Some. intros [(<- & <-)|(Hne & Hl0)] Hor.
      + apply (L15 target l Hl). auto.
      + rewrite rotate_elem in Hor. eauto.
    - intros m'. destruct (decide (m' = m)) as [->|Hne]; [rewrite Hm; discriminate|rewrite Hp by exact Hne; auto].
    - intros m'. destruct (decide (m' = m)) as [->|Hne]; [intros _; apply L17; auto|rewrite Hp by exact Hne; auto].
    - intros e. rewrite rotate_elem. intros He. destruct (L18 e He) as [l0 Hl0].
      destruct (decide (e = target)) as [->|Hne]; [rewrite lookup_insert; eauto|rewrite lookup_insert_ne by congruence; eauto].
    - rewrite rotate_perm. exact L19.
    - rewrite !(Permutation_length (rotate_perm _ _)), alter_length. exact L20.
    - intros e l0. rewrite lookup_insert_Some. intros [(<- & <-)|(Hne & Hl0)]; apply elem_of_app; eauto.
    - intros e He. rewrite rotate_elem. destruct (L22 e He). split; [assumption|]. apply elem_of_app. auto.
    - intros m' Hin. rewrite Hp; [auto|]. intros ->. specialize (L23 m Hin). congruence. }
  destruct (decide _) as [Hd|Hd].
  - assert (Hrun : forall i, i ∈ avail s -> can_run hwm s jb i = Some true).
    { intros i Hi. destruct (avail_spec s i Hlen Hi) as (e & x & He & Hx & Hlt). unfold can_run. rewrite Hx, He.
      rewrite decide_False by (intros [A B]; specialize (Hlt A); lia).
      rewrite decide_False by (rewrite Ez4; set_solver). rewrite decide_False by (rewrite Ez3; set_solver).
      assert (Hin : e ∈ s_targets s) by (eapply elem_of_list_lookup_2; eauto).
      destruct (v_tgpd _ _ _ _ _ _ _ _ _ _ _ _ _ _ _ _ HI e Hin) as [l Hl].
      destruct (v_cf _ _ _ _ _ _ _ _ _ _ _ _ _ _ _ _ HI e l Hl (or_introl Hin)) as [[c Hc] [f Hf]].
      rewrite Hc, Hf, check_easy by exact Ez2. reflexivity. }
    apply wp_bind, wp_get. rewrite filter_all by exact Hrun. apply wp_bind, wp_ret.
    rewrite decide_False by exact Hav. unfold submit_task. apply wp_bind.
    apply wp_bind, wp_get_job; [|intros E; congruence]. intros jb' Hjb'. rewrite Hj in Hjb'. injection Hjb' as <-.
    apply wp_bind, wp_get, wp_bind, wp_get. cbv zeta. apply wp_bind, wp_upd.
    set (k := scheme _ _).
    assert (Hk : k < length (avail s)).
    { unfold k. rewrite <- (omap_loads s (avail s)).
      - apply Hscheme. intros E. apply (f_equal length) in E. rewrite omap_loads in E.
        + destruct (avail s); [congruence|discriminate].
        + intros i Hi. destruct (avail_spec s i Hlen Hi) as (e & x & _ & -> & _). eauto.
      - intros i Hi. destruct (avail_spec s i Hlen Hi) as (e & x & _ & -> & _). eauto. }
    destruct (lookup_lt_is_Some_2 _ _ Hk) as [idx Hidx]. rewrite Hidx. apply wp_bind, wp_ret. apply wp_bind, wp_get.
    destruct (avail_spec s idx Hlen) as (target & x & Htg & _); [eapply elem_of_list_lookup_2; exact Hidx|].
    cbn [s_targets set_draws]. rewrite Htg. apply wp_bind, wp_ret.
    eapply wp_mono; [apply Hsend; exact Htg| |auto]. intros [] s' A. apply wp_ret. auto.
  - assert (hwm = 0) by lia.
    unfold submit_task. apply wp_bind.
    apply wp_bind, wp_get_job; [|intros E; congruence]. intros jb' Hjb'. rewrite Hj in Hjb'. injection Hjb' as <-.
    apply wp_bind, wp_get, wp_bind, wp_get. cbv zeta. apply wp_bind, wp_upd. apply wp_bind, wp_ret.
    set (k := scheme _ _).
    assert (Hk : k < length (s_targets s)).
    { rewrite <- Hlen. apply Hscheme. intros E. rewrite E in Hlen. apply Hav. unfold avail, available_engines.
      destruct (s_targets s); [|discriminate]. destruct (decide _); reflexivity. }
    destruct (lookup_lt_is_Some_2 _ _ Hk) as [target Htg]. apply wp_bind, wp_get.
    cbn [s_targets set_draws]. rewrite Htg. apply wp_bind, wp_ret.
    eapply wp_mono; [apply Hsend; exact Htg| |auto]. intros [] s' A. apply wp_ret. auto.
Qed.

(** graph_remove of a task without dependencies does nothing. *)
Lemma graph_remove_easy jb (Q : unit -> sched -> Prop) E s : easy jb -> Q tt s -> wp (graph_remove jb) Q E s.
Proof.
  intros [E1 E2 _ _ _ _] HQ. unfold graph_remove, dependents. rewrite E1, E2.
  replace (elements (∅ ∪ ∅)) with (@nil nat); [exact HQ|]. rewrite union_empty_l_L, elements_empty. reflexivity.
Qed.

Lemma queue_loop_easy ug fuel : forall s, I12 (s_queue s) s -> avail s <> [] ->
  wp (queue_loop hwm scheme ug fuel [])
     (fun back s' => back = [] /\ K12 s') (fun _ => False) s.
Proof.
  induction fuel as [|fuel IH]; intros s HI Hav; [exact Logic.I|].
  cbn [queue_loop]. apply wp_bind, wp_get. destruct (s_queue s) as [|j q] eqn:Eq.
  { apply wp_ret. split; [reflexivity|]. split; [rewrite Eq; exact HI|]. rewrite Eq. congruence. }
  apply wp_bind, wp_upd. set (s1 := set_queue (fun _ => q) s).
  assert (HI1 : I12 (j :: q) s1).
  { destruct HI as [L1 L2 L3 L4 L5 L6 L7 L8 L9 L10 L11 L12 L13 L14 L15 L16 L17 L18 L19 L20 L21 L22 L23]. unfold I12; simpl. split; auto.
    intros j' jb Hin. apply L8. rewrite Eq. right. exact Hin. }
  assert (Hqm : forall jb, s_jobs s1 !! j = Some jb -> s_qmap s1 !! j_msg jb = Some j).
  { intros jb Hj. apply (v_qm _ _ _ _ _ _ _ _ _ _ _ _ _ _ _ _ HI); [rewrite Eq; left|exact Hj]. }
  destruct (v_live _ _ _ _ _ _ _ _ _ _ _ _ _ _ _ _ HI1 j) as (jb & Hj & Hw); [left|].
  assert (Hez := v_easy _ _ _ _ _ _ _ _ _ _ _ _ _ _ _ _ HI1 j jb Hj).
  specialize (Hqm jb Hj).
  apply wp_bind, wp_get_job; [|intros E; congruence]. intros jb' Hjb'. rewrite Hj in Hjb'. injection Hjb' as <-.
  rewrite (z_removed _ Hez). apply wp_bind. unfold ug_body.
  apply wp_bind, wp_get_job; [|intros E; congruence]. intros jb' Hjb'. rewrite Hj in Hjb'. injection Hjb' as <-.
  apply wp_bind, wp_get, wp_bind, wp_get.
  rewrite unreachable_easy by apply Hez. rewrite unreachable_easy by apply Hez. cbn [orb].
  rewrite check_easy by apply Hez. apply wp_bind.
  eapply wp_mono; [apply maybe_run_easy; [exact HI1|exact Hav]| |auto].
  intros ran s2 (-> & HI2 & Q1 & Q2 & Q3). cbv beta. apply wp_bind, wp_get.
  rewrite decide_True by (rewrite Q2, Hqm; eauto). apply wp_bind, wp_upd.
  set (s3 := set_qmap _ s2).
  assert (HI3 : I12 q s3).
  { destruct HI2 as [L1 L2 L3 L4 L5 L6 L7 L8 L9 L10 L11 L12 L13 L14 L15 L16 L17 L18 L19 L20 L21 L22 L23]. unfold I12; simpl. split; auto.
    intros j' jb' Hin Hj'. rewrite lookup_delete_ne; [apply L8; assumption|].
    intros E. rewrite Q1 in Hin. simpl in Hin.
    assert (j = j'). { eapply L4; [|exact Hj'|exact E]. rewrite Q3. exact Hj. } subst j'.
    pose proof (v_nodup _ _ _ _ _ _ _ _ _ _ _ _ _ _ _ _ HI1) as Hnd. apply NoDup_cons in Hnd as [Hn _]. apply Hn, Hin. }
  apply wp_bind, wp_get_job; [|intros E; simpl in E; rewrite Q3 in E; congruence]. intros jb' Hjb'.
  simpl in Hjb'. rewrite Q3 in Hjb'. rewrite Hj in Hjb'. injection Hjb' as <-.
  apply wp_bind, graph_remove_easy; [exact Hez|]. apply wp_bind, wp_get. apply wp_ret. cbn [fst snd].
  assert (Hq3 : s_queue s3 = q) by exact Q1.
  destruct (bool_decide _) eqn:Eb.
  - apply bool_decide_eq_true_1 in Eb. apply wp_ret. split; [reflexivity|]. split; [rewrite Hq3; exact HI3|auto].
  - apply bool_decide_eq_false_1 in Eb. apply IH; [rewrite Hq3; exact HI3|exact Eb].
Qed.

(** update_graph: everything stays in order, whatever triggers it. *)
Lemma update_graph_easy fuel d s :
  I12 (s_queue s) s ->
  (d = None -> avail s <> []) ->
  (forall x, d = Some x -> s_queue s <> [] -> avail s <> [] -> hwm <> 0 /\ (Z.of_nat hwm - 1)%Z ∈ s_loads s) ->
  wp (update_graph hwm scheme fuel d) (fun _ => K12) (fun _ => False) s.
Proof.
  intros HI Hn Hs. destruct fuel as [|fuel]; [exact Logic.I|]. cbn [update_graph].
  apply wp_bind, wp_get. cbv zeta. apply wp_bind, wp_upd.
  assert (Hg := v_graph _ _ _ _ _ _ _ _ _ _ _ _ _ _ _ _ HI).
  set (s1 := set_graph _ s).
  assert (HI1 : I12 (s_queue s1) s1).
  { destruct HI as [L1 L2 L3 L4 L5 L6 L7 L8 L9 L10 L11 L12 L13 L14 L15 L16 L17 L18 L19 L20 L21 L22 L23]. unfold I12; simpl. split; auto.
    rewrite Hg. destruct d; [apply delete_empty|reflexivity]. }
  apply wp_bind, wp_get. destruct (decide _) as [Hd|Hd].
  - apply wp_bind. eapply wp_mono; [apply queue_loop_easy; [exact HI1|]| |auto].
    + destruct Hd as [Hd|[Hh Hl]]; [apply Hn; exact Hd|].
      apply elem_of_list_lookup in Hl as [i Hi]. intros E.
      assert (i ∈ avail s1); [|rewrite E in *; inversion H].
      unfold avail, available_engines. rewrite decide_False by exact Hh. apply elem_of_list_In, filter_In.
      split; [apply in_seq; apply lookup_lt_Some in Hi; rewrite (v_len _ _ _ _ _ _ _ _ _ _ _ _ _ _ _ _ HI1) in Hi; lia|].
      rewrite Hi. apply bool_decide_eq_true_2. lia.
    + intros back s' [-> [A B]]. apply wp_upd. split; [exact A|exact B].
  - apply wp_bind, wp_get. rewrite Hg. destruct d as [x|]; [|exfalso; apply Hd; left; reflexivity].
    rewrite lookup_empty. cbn [default]. rewrite elements_empty. cbn [mapM]. apply wp_ret.
    split; [exact HI1|]. intros Hq. destruct (decide (avail s1 = [])) as [E|E]; [exact E|].
    exfalso. apply Hd. right. apply (Hs x eq_refl Hq E).
Qed.

(** ** Events *)
Lemma submit_easy fuel m md s :
  K12 s -> ~ submitted (s_log s) m -> independent md ->
  wp (dispatch_submission hwm scheme fuel m md) (fun _ => K12) (fun _ => False) s.
Proof.
  intros [HI Hwork] Hfresh (T1 & T2 & T3 & T4 & T5 & T6 & T7). unfold dispatch_submission.
  apply wp_bind, wp_upd, wp_bind, wp_upd, wp_bind, wp_upd.
  set (s1 := set_retries _ _). set (o := ObsSubmit m md).
  assert (Hu : phase_of (s_log s) m = Unknown).
  { destruct (phase_of (s_log s) m) eqn:E; try reflexivity; exfalso; apply Hfresh, phase_submitted;
      try (apply (v_ok _ _ _ _ _ _ _ _ _ _ _ _ _ _ _ _ HI)); congruence. }
  assert (Hm : phase_of (s_log s ++ [o]) m = Waiting) by (apply phase_submit; exact Hu).
  assert (Hp : forall m', m' <> m -> phase_of (s_log s ++ [o]) m' = phase_of (s_log s) m').
  { intros m' Hne. apply phase_other. simpl. congruence. }
  apply wp_bind. unfold from_dict, mk_dep. rewrite T4, T6. cbn [negb]. apply wp_ret.
  apply wp_bind, wp_get, wp_bind, wp_get. cbv zeta. apply wp_bind. rewrite T5, T7. cbn [negb]. apply wp_ret.
  apply wp_bind, wp_get, wp_bind, wp_upd, wp_bind, wp_upd.
  set (af := build_after _ _ _). set (fo := Dep _ _ _ _).
  assert (Haf : d_ids af = ∅).
  { unfold af, build_after. match goal with |- d_ids (if check ?x _ _ then _ else _) = _ => destruct (check x _ _) eqn:E end; [reflexivity|].
    rewrite check_easy in E; [discriminate|]. simpl. destruct (default true (k_all (t_after md))); [|reflexivity].
    destruct (default true (k_success (t_after md))), (default false (k_failure (t_after md))); simpl; set_solver. }
  assert (Hfo : d_ids fo = ∅) by reflexivity.
  set (jb := Job _ _ _ _ _ _ _ _ _). set (j := s_next s1). set (s2 := set_jobs _ _).
  assert (Hez : easy jb).
  { split; simpl; auto. rewrite T1. reflexivity. }
  assert (Hnew : s_jobs s !! j = None) by (apply (v_next _ _ _ _ _ _ _ _ _ _ _ _ _ _ _ _ HI); reflexivity).
  assert (HI2 : I12 (s_queue s ++ [j]) s2).
  { destruct HI as [L1 L2 L3 L4 L5 L6 L7 L8 L9 L10 L11 L12 L13 L14 L15 L16 L17 L18 L19 L20 L21 L22 L23].
    assert (Hkeep : forall j' b, s_jobs s !! j' = Some b -> <[j := jb]> (s_jobs s) !! j' = Some b).
    { intros j' b Hb. rewrite lookup_insert_ne; [exact Hb|]. congruence. }
    assert (Hmsg : forall j' b, s_jobs s !! j' = Some b -> j_msg b <> m).
    { intros j' b Hb E. apply (L3 j' b Hb). rewrite E. exact Hu. }
    unfold I12.
    change (inv12 (s_queue s ++ [j]) (<[j := jb]> (s_jobs s)) (S (s_next s)) (s_targets s) (s_loads s) (s_queue s) (s_qmap s) (s_graph s)
       (<[m := t_retries md]> (s_retries s)) (s_pending s) (s_completed s) (s_failed s) (s_strand_timers s) (s_job_timers s) (s_all_failed s) (s_log s ++ [o])).
    split; auto.
    - intros j' Hle. rewrite lookup_insert_ne by (change j with (s_next s); lia). apply L1. lia.
    - intros j' b. rewrite lookup_insert_Some. intros [(<- & <-)|(Hne & Hb)]; [exact Hez|eauto].
    - intros j' b. rewrite lookup_insert_Some. intros [(<- & <-)|(Hne & Hb)].
      + change (j_msg jb) with m. rewrite Hm. discriminate.
      + rewrite Hp by eauto. eauto.
    - intros j1 j2 b1 b2. rewrite !lookup_insert_Some.
      intros [(<- & <-)|(N1 & B1)] [(<- & <-)|(N2 & B2)] E; [reflexivity| | |eapply L4; eauto].
      + exfalso. eapply Hmsg; [exact B2|]. rewrite <- E. reflexivity.
      + exfalso. eapply Hmsg; [exact B1|]. exact E.
    - apply NoDup_app. split; [exact L5|]. split; [|apply NoDup_singleton]. intros j' Hin E. apply elem_of_list_singleton in E. subst j'.
      destruct (L6 j Hin) as (b & B & _). congruence.
    - intros j' Hin. apply elem_of_app in Hin as [Hin|Hin].
      + destruct (L6 j' Hin) as (b & B & C). exists b. split; [auto|]. rewrite Hp by eauto. exact C.
      + apply elem_of_list_singleton in Hin. subst j'. exists jb. rewrite lookup_insert. split; [reflexivity|exact Hm].
    - intros m' Hm'. destruct (decide (m' = m)) as [->|Hne].
      + exists j, jb. split; [apply elem_of_app; right; left|]. rewrite lookup_insert. auto.
      + rewrite Hp in Hm' by exact Hne. destruct (L7 m' Hm') as (j' & b & A & B & C). exists j', b. split; [apply elem_of_app; auto|]. auto.
    - intros j' b Hin. rewrite lookup_insert_Some. intros [(<- & <-)|(Hne & Hb)]; [|eauto].
      exfalso. destruct (L6 j Hin) as (b & B & _). congruence.
    - rewrite submits_snoc, deliveries_snoc, app_nil_r, L9, omap_app, app_assoc. simpl. rewrite lookup_insert. simpl. f_equal. f_equal.
      clear -L6 Hnew. assert (Hall : forall j', j' ∈ s_queue s -> j' <> j).
      { intros j' Hin ->. destruct (L6 j Hin) as (b & B & _). congruence. }
      clear L6. induction (s_queue s) as [|j' q IH]; [reflexivity|].
      assert (IH' := IH (fun j2 Hin => Hall j2 (elem_of_list_further j2 j' q Hin))).
      cbn [omap list_omap]. rewrite lookup_insert_ne by (apply not_eq_sym, Hall; left).
      destruct (j_msg <$> s_jobs s !! j'); [f_equal|]; exact IH'.
    - intros e l m' j' Hl Hin. destruct (L13 e l m' j' Hl Hin) as [A [b B]]. split; [rewrite Hp; [exact A|intros ->; congruence]|].
      exists b. auto.
    - intros m' e Hon. apply L14. rewrite Hp in Hon; [exact Hon|]. intros ->. congruence.
    - intros m'. destruct (decide (m' = m)) as [->|Hne]; [rewrite Hm; discriminate|rewrite Hp by exact Hne; auto].
    - intros m'. destruct (decide (m' = m)) as [->|Hne]; [intros _; rewrite lookup_insert, T2; reflexivity|].
      rewrite Hp, lookup_insert_ne by congruence. auto.
    - intros e l Hl. apply elem_of_app. eauto.
    - intros e He. destruct (L22 e He). split; [assumption|]. apply elem_of_app. auto.
    - intros m' Hin. rewrite Hp; [auto|]. intros ->. specialize (L23 m Hin). congruence. }
  assert (Hj2 : s_jobs s2 !! j = Some jb) by (simpl; apply lookup_insert).
  apply wp_bind, wp_get. cbv zeta.
  assert (Hbad : forall d (P : Prop) (D : Decision (d_ids d <> ∅ /\ P)), d_ids d = ∅ -> bool_decide (d_ids d <> ∅ /\ P) = false).
  { intros d P D H. apply bool_decide_eq_false_2. intros [? _]. contradiction. }
  rewrite (Hbad af) by exact Haf. rewrite (Hbad fo) by exact Hfo.
  assert (Hunr : forall d c f, d_ids d = ∅ -> bool_decide (d_ids d <> ∅) && unreachable d c f = false).
  { intros d c f H. rewrite unreachable_easy by exact H. apply andb_false_r. }
  rewrite (Hunr af) by exact Haf. rewrite (Hunr fo) by exact Hfo. rewrite check_easy by exact Haf.
  apply wp_bind. destruct (decide (avail s2 = [])) as [Ea|Ea].
  - unfold maybe_run. apply wp_bind, wp_get_job; [|intros E; congruence]. intros b Hb. rewrite Hj2 in Hb. injection Hb as <-.
    apply wp_bind, wp_get. fold (avail s2). rewrite decide_True by exact Ea. apply wp_ret.
    apply wp_bind, wp_get.
    assert (Hsave : wp (save_unmet j) (fun _ => K12) (fun _ => False) s2).
    { unfold save_unmet. apply wp_bind, wp_get_job; [|intros E; congruence]. intros b Hb. rewrite Hj2 in Hb. injection Hb as <-.
      apply wp_bind, wp_upd, wp_bind, wp_upd, wp_bind, wp_get.
      rewrite (z_after _ Hez), (z_follow _ Hez).
      match goal with |- context [elements ?X] => replace (elements X) with (@nil nat) by (symmetry; apply elements_empty_iff; set_solver) end.
      cbn [for_each]. apply wp_bind, wp_ret. rewrite (z_timeout _ Hez). apply wp_ret.
      split; [|intros _; exact Ea].
      destruct HI2 as [L1 L2 L3 L4 L5 L6 L7 L8 L9 L10 L11 L12 L13 L14 L15 L16 L17 L18 L19 L20 L21 L22 L23].
      change (inv12 (s_queue s ++ [j]) (s_jobs s2) (s_next s2) (s_targets s2) (s_loads s2) (s_queue s ++ [j]) (<[m := j]> (s_qmap s)) (s_graph s2)
       (s_retries s2) (s_pending s2) (s_completed s2) (s_failed s2) (s_strand_timers s2) (s_job_timers s2) (s_all_failed s2) (s_log s2)).
      split; auto. intros j' b' Hin Hb'. apply elem_of_app in Hin as [Hin|Hin].
      - rewrite lookup_insert_ne; [apply L8; assumption|]. intros E.
        assert (j = j') as <-. { eapply (L4 j j' jb b'); [exact Hj2|exact Hb'|exact E]. }
        apply NoDup_app in L5 as (_ & L5 & _). apply (L5 j Hin). left.
      - apply elem_of_list_singleton in Hin. subst j'. rewrite Hj2 in Hb'. injection Hb' as <-. apply lookup_insert. }
    rewrite decide_False; [exact Hsave|]. intros Hin.
    pose proof (v_af _ _ _ _ _ _ _ _ _ _ _ _ _ _ _ _ HI m Hin). congruence.
  - assert (Hq : s_queue s = []). { destruct (s_queue s) eqn:E; [reflexivity|]. exfalso. apply Ea. apply Hwork. discriminate. }
    rewrite Hq in HI2. eapply wp_mono; [apply maybe_run_easy; [exact HI2|exact Ea]| |auto].
    intros ran s3 (-> & HI3 & Q1 & Q2 & Q3). apply wp_ret. split; [rewrite Q1; simpl; rewrite Hq; exact HI3|].
    rewrite Q1. simpl. rewrite Hq. congruence.
Qed.

(** An engine gives back a task: result processing up to update_graph. *)
Lemma result_easy fuel e m k s :
  K12 s -> (hwm <> 0 -> forall i x, s_loads s !! i = Some x -> (x <= Z.of_nat hwm)%Z) ->
  phase_of (s_log s) m = OnEngine e -> k <> RUnmet ->
  wp (dispatch_result hwm scheme fuel e m k) (fun _ => K12) (fun _ => False) s.
Proof.
  intros [HI Hwork] Hcap Hph Hk.
  destruct (v_on _ _ _ _ _ _ _ _ _ _ _ _ _ _ _ _ HI m e Hph) as (l & Hl & Hkey).
  destruct (al_lookup m l) as [j|] eqn:Hal.
  2:{ exfalso. apply elem_of_list_fmap in Hkey as ([m' j'] & E & Hin). simpl in E. subst m'. eapply al_lookup_none; eauto. }
  assert (Hr := v_rt _ _ _ _ _ _ _ _ _ _ _ _ _ _ _ _ HI m (or_intror (ex_intro _ e Hph))).
  set (ld' := match index_of e (s_targets s) with Some i => alter (fun x => (x - 1)%Z) i (s_loads s) | None => s_loads s end).
  unfold dispatch_result. apply wp_bind, wp_upd. apply wp_bind, wp_get. apply wp_bind.
  assert (Hgo : forall s2, s2 = set_loads (fun _ => ld') (set_log (fun t => t ++ [ObsResult m e k]) s) ->
    wp match k with
       | RUnmet => handle_unmet_dependency hwm scheme fuel e m
       | _ => let success := match k with ROk => true | _ => false end in
              do rt <- get s_retries; do retries <- of_option (rt !! m);
              if decide (success = false /\ 0 < retries)
              then upd (set_retries (<[m := retries - 1]>)) ;; handle_unmet_dependency hwm scheme fuel e m
              else upd (set_retries (delete m)) ;; handle_result hwm scheme fuel e m success
       end (fun _ => K12) (fun _ => False) s2).
  { intros s2 ->.
    assert (Hres : forall b, wp (handle_result hwm scheme fuel e m b) (fun _ => K12) (fun _ => False)
         (set_retries (delete m) (set_loads (fun _ => ld') (set_log (fun t => t ++ [ObsResult m e k]) s)))).
    { intros b. unfold handle_result.
      apply wp_bind, wp_upd, wp_bind, wp_get. cbn [s_pending set_log set_retries set_loads]. rewrite Hl. apply wp_bind, wp_ret.
      rewrite Hal. apply wp_bind, wp_ret. apply wp_bind, wp_upd. set (s3 := set_pending _ _).
      set (log' := (s_log s ++ [ObsResult m e k]) ++ [ObsReply m (FromEngine e b)]).
      assert (Hm : phase_of log' m = Replied) by (apply phase_reply, phase_result, Hph).
      assert (Hp : forall m', m' <> m -> phase_of log' m' = phase_of (s_log s) m').
      { intros m' Hne. unfold log'. rewrite phase_other by (simpl; congruence). apply phase_other. simpl. congruence. }
      destruct (v_cf _ _ _ _ _ _ _ _ _ _ _ _ _ _ _ _ HI e l Hl) as [[c Hc] [f Hf]].
      { right. intros ->. inversion Hkey. }
      (* the invariant for whatever sets are recorded *)
      assert (Hinv : forall comp' fail' af', (forall e', is_Some (s_completed s !! e') -> is_Some (comp' !! e')) ->
          (forall e', is_Some (s_failed s !! e') -> is_Some (fail' !! e')) -> (forall x, x ∈ af' -> x = m \/ x ∈ s_all_failed s) ->
          inv12 (s_queue s) (s_jobs s) (s_next s) (s_targets s) ld' (s_queue s) (s_qmap s) (s_graph s) (delete m (s_retries s))
            (<[e := al_remove m l]> (s_pending s)) comp' fail' (s_strand_timers s) (s_job_timers s) af' log').
      { intros comp' fail' af' Hcomp Hfail Haf.
        destruct HI as [L1 L2 L3 L4 L5 L6 L7 L8 L9 L10 L11 L12 L13 L14 L15 L16 L17 L18 L19 L20 L21 L22 L23].
        assert (Hcase : forall e' l', <[e := al_remove m l]> (s_pending s) !! e' = Some l' ->
           exists l0, s_pending s !! e' = Some l0 /\ (forall x, x ∈ l' -> x ∈ l0 /\ x.1 <> m) /\ (l' <> [] -> l0 <> [])).
        { intros e' l'. rewrite lookup_insert_Some. intros [(<- & <-)|(Hne & Hl')].
          - exists l. split; [exact Hl|]. split; [|intros _ ->; discriminate]. intros x Hx. split; [eapply al_remove_elem; eauto|].
            intros E. destruct (al_remove_nodup m l (L12 _ _ Hl)) as [_ Hn]. apply Hn. apply elem_of_list_fmap. exists x. auto.
          - exists l'. split; [exact Hl'|]. split; [|auto]. intros [m' j'] Hx. split; [exact Hx|]. simpl. intros ->.
            destruct (L13 _ _ _ _ Hl' Hx) as [A _]. congruence. }
        split; auto.
        - intros j' jb Hj'. destruct (decide (j_msg jb = m)) as [->|Hne]; [rewrite Hm; discriminate|rewrite Hp by exact Hne; eauto].
        - intros j' Hin. destruct (L6 j' Hin) as (jb & A & B). exists jb. split; [exact A|]. rewrite Hp; [exact B|]. intros E. congruence.
        - intros m' Hm'. destruct (decide (m' = m)) as [->|Hne]; [congruence|]. rewrite Hp in Hm' by exact Hne. auto.
        - unfold log'. rewrite !submits_snoc, !deliveries_snoc, !app_nil_r. exact L9.
        - intros e' l'. rewrite lookup_insert_Some. intros [(<- & <-)|(Hne & Hl')]; [apply al_remove_nodup; eauto|eauto].
        - intros e' l' m' j' Hl' Hin. destruct (Hcase e' l' Hl') as (l0 & A & B & _). destruct (B _ Hin) as [B1 B2]. simpl in B2.
          destruct (L13 _ _ _ _ A B1) as [C D]. rewrite Hp by exact B2. auto.
        - intros m' e' Hon. destruct (decide (m' = m)) as [->|Hne]; [congruence|]. rewrite Hp in Hon by exact Hne.
          destruct (L14 m' e' Hon) as (l0 & A & B). destruct (decide (e' = e)) as [->|Hne'].
          + exists (al_remove m l). rewrite lookup_insert. split; [reflexivity|]. rewrite Hl in A. injection A as <-.
            apply elem_of_list_fmap in B as ([m2 j2] & E & Hin). simpl in E. subst m2.
            apply elem_of_list_fmap. exists (m', j2). split; [reflexivity|]. apply al_remove_other; assumption.
          + exists l0. rewrite lookup_insert_ne by congruence. auto.
        - intros e' l' Hl' Hor. destruct (Hcase e' l' Hl') as (l0 & A & B & C). destruct (L15 e' l0 A) as [D E]; [tauto|]. auto.
        - intros m'. destruct (decide (m' = m)) as [->|Hne]; [rewrite Hm; discriminate|rewrite Hp by exact Hne; auto].
        - intros m'. destruct (decide (m' = m)) as [->|Hne]; [rewrite Hm; intros [?|[? ?]]; discriminate|].
          rewrite Hp, lookup_delete_ne by congruence. auto.
        - intros e' He'. destruct (decide (e' = e)) as [->|Hne]; [rewrite lookup_insert; eauto|rewrite lookup_insert_ne by congruence; auto].
        - unfold ld'. destruct (index_of _ _); [rewrite alter_length|]; exact L20.
        - intros e' l' Hl'. destruct (Hcase e' l' Hl') as (l0 & A & _). unfold log'. apply elem_of_app. left. apply elem_of_app. eauto.
        - intros e' He'. destruct (L22 e' He'). split; [assumption|]. unfold log'. apply elem_of_app. left. apply elem_of_app. auto.
        - intros m' Hin. destruct (decide (m' = m)) as [->|Hne]; [exact Hm|]. rewrite Hp by exact Hne.
          destruct (Haf m' Hin); [contradiction|auto]. }
      (* line 715: if anything waits and an engine became free, it is the one at hwm - 1 *)
      assert (Hfull : s_queue s <> [] -> forall s4, s_targets s4 = s_targets s -> s_loads s4 = ld' -> avail s4 <> [] ->
         hwm <> 0 /\ (Z.of_nat hwm - 1)%Z ∈ ld').
      { intros Hq s4 Ht4 Hl4 Ha4. specialize (Hwork Hq).
        unfold ld' in *. destruct (index_of e (s_targets s)) as [i|] eqn:Ei.
        - apply index_of_spec in Ei. assert (Hlt := lookup_lt_Some _ _ _ Ei).
          assert (Hh : hwm <> 0).
          { intros Hh. unfold avail, available_engines in Hwork. rewrite decide_True in Hwork by exact Hh.
            destruct (s_targets s); [simpl in Hlt; lia|discriminate]. }
          split; [exact Hh|]. destruct (lookup_lt_is_Some_2 (s_loads s) i) as [x Hx].
          { rewrite (v_len _ _ _ _ _ _ _ _ _ _ _ _ _ _ _ _ HI). exact Hlt. }
          apply elem_of_list_lookup. exists i. rewrite list_lookup_alter, Hx. simpl. f_equal.
          specialize (Hcap Hh i x Hx).
          assert (~ (x < Z.of_nat hwm)%Z); [|lia]. intros Hx2.
          assert (i ∈ avail s); [|rewrite Hwork in *; inversion H].
          unfold avail, available_engines. rewrite decide_False by exact Hh. apply elem_of_list_In, filter_In.
          split; [apply in_seq; lia|]. rewrite Hx. apply bool_decide_eq_true_2. exact Hx2.
        - exfalso. apply Ha4. unfold avail, available_engines in *. rewrite Ht4, Hl4. exact Hwork. }
      apply wp_bind.
      assert (Hend : forall comp' fail' ac' af', (forall e', is_Some (s_completed s !! e') -> is_Some (comp' !! e')) ->
          (forall e', is_Some (s_failed s !! e') -> is_Some (fail' !! e')) -> (forall x, x ∈ af' -> x = m \/ x ∈ s_all_failed s) ->
          wp (upd (set_all_done (fun X => {[m]} ∪ X)) ;; upd (set_dest (<[m := e]>)) ;; update_graph hwm scheme fuel (Some m)) (fun _ => K12) (fun _ => False)
             (set_all_failed (fun _ => af') (set_failed (fun _ => fail') (set_all_completed (fun _ => ac') (set_completed (fun _ => comp') s3))))).
      { intros comp' fail' ac' af' H1 H2 H3. apply wp_bind, wp_upd, wp_bind, wp_upd. apply update_graph_easy.
        - apply (Hinv comp' fail' af' H1 H2 H3).
        - discriminate.
        - intros x _ Hq Ha. eapply Hfull; [exact Hq| | |exact Ha]; reflexivity. }
      assert (Hsome : forall (mp : gmap nat (gset nat)) (X : gset nat) e', is_Some (mp !! e') -> is_Some (<[e := X]> mp !! e')).
      { intros mp X e' [y Hy]. destruct (decide (e' = e)) as [->|Hne]; [rewrite lookup_insert; eauto|rewrite lookup_insert_ne by congruence; eauto]. }
      destruct b.
      - apply wp_bind, wp_get. change (s_completed s3) with (s_completed s). rewrite Hc. apply wp_bind, wp_ret.
        apply wp_bind, wp_upd, wp_upd.
        apply (Hend (<[e := {[m]} ∪ c]> (s_completed s)) (s_failed s) ({[m]} ∪ s_all_completed s) (s_all_failed s)); auto.
      - apply wp_bind, wp_get. change (s_failed s3) with (s_failed s). rewrite Hf. apply wp_bind, wp_ret.
        apply wp_bind, wp_upd, wp_upd.
        apply (Hend (s_completed s) (<[e := {[m]} ∪ f]> (s_failed s)) (s_all_completed s) ({[m]} ∪ s_all_failed s)); auto.
        intros x Hx. apply elem_of_union in Hx as [Hx|Hx]; [left; apply elem_of_singleton in Hx; exact Hx|auto]. }
    destruct k; [| |congruence]; cbv zeta; apply wp_bind, wp_get; cbn [s_retries set_loads set_log]; rewrite Hr; apply wp_bind, wp_ret;
      rewrite decide_False by (intros [_ ?]; lia); apply wp_bind, wp_upd; apply Hres. }
  cbn [s_targets set_log]. unfold ld' in Hgo. destruct (index_of e (s_targets s)) as [i|]; [apply wp_upd|apply wp_ret];
    apply Hgo; destruct s; reflexivity.
Qed.

Lemma cap s : I10 hwm s -> hwm <> 0 -> forall i x, s_loads s !! i = Some x -> (x <= Z.of_nat hwm)%Z.
Proof.
  intros H Hh i x Hx. destruct (lookup_lt_is_Some_2 (s_targets s) i) as [e He].
  { apply lookup_lt_Some in Hx. rewrite <- (l_len _ _ _ _ H). exact Hx. }
  pose proof (l_load _ _ _ _ H i e He) as E. rewrite Hx in E. injection E as ->. eapply fit_bounded; [apply (l_sends _ _ _ _ H)|exact Hh].
Qed.

Lemma register_easy fuel e s : K12 s -> ObsRegister e ∉ s_log s ->
  wp (register_engine hwm scheme fuel e) (fun _ => K12) (fun _ => False) s.
Proof.
  intros [HI _] Hfresh. unfold register_engine. do 6 (apply wp_bind, wp_upd). apply update_graph_easy; [|intros _|discriminate].
  - assert (Hpd : s_pending s !! e = None).
    { destruct (s_pending s !! e) eqn:E; [|reflexivity]. exfalso. apply Hfresh. eapply (v_regpd _ _ _ _ _ _ _ _ _ _ _ _ _ _ _ _ HI); eauto. }
    assert (Htg : e ∉ s_targets s).
    { intros Hin. destruct (v_tgpd _ _ _ _ _ _ _ _ _ _ _ _ _ _ _ _ HI e Hin). congruence. }
    assert (Htm := v_tm _ _ _ _ _ _ _ _ _ _ _ _ _ _ _ _ HI).
    destruct HI as [L1 L2 L3 L4 L5 L6 L7 L8 L9 L10 L11 L12 L13 L14 L15 L16 L17 L18 L19 L20 L21 L22 L23].
    assert (Hp : forall m, phase_of (s_log s ++ [ObsRegister e]) m = phase_of (s_log s) m).
    { intros m. apply phase_other. discriminate. }
    set (o := ObsRegister e) in *.
    unfold I12; simpl; fold o. split; auto.
    + intros j jb Hj. rewrite Hp. eauto.
    + intros j Hj. destruct (L6 j Hj) as (jb & A & B). exists jb. rewrite Hp. auto.
    + intros m. rewrite Hp. auto.
    + rewrite submits_snoc, deliveries_snoc, !app_nil_r. exact L9.
    + intros e' l. rewrite lookup_insert_Some. intros [(-> & <-)|(Hne & Hl)]; [constructor|eauto].
    + intros e' l m j. rewrite lookup_insert_Some. intros [(-> & <-)|(Hne & Hl)] Hin; [inversion Hin|rewrite Hp; eauto].
    + intros m e' Hon. rewrite Hp in Hon. destruct (L14 m e' Hon) as (l & A & B). exists l. rewrite lookup_insert_ne; [auto|]. congruence.
    + intros e' l. rewrite lookup_insert_Some. intros [(-> & <-)|(Hne & Hl)] Hor; [rewrite !lookup_insert; eauto|].
      rewrite !lookup_insert_ne by congruence. apply (L15 e' l Hl). destruct Hor as [A|A]; [|auto].
      apply elem_of_cons in A as [->|A]; [contradiction|auto].
    + intros m. rewrite Hp. auto.
    + intros m. rewrite Hp. auto.
    + intros e' He'. apply elem_of_cons in He' as [->|He']; [rewrite lookup_insert; eauto|].
      rewrite lookup_insert_ne by congruence. auto.
    + apply NoDup_cons. auto.
    + cbn [length]. congruence.
    + intros e' l. rewrite lookup_insert_Some. intros [(-> & <-)|(Hne & Hl)]; apply elem_of_app; [right; left|left; eauto].
    + intros e' He'. destruct (Htm e' He') as [A B]. split; [|apply elem_of_app; auto]. rewrite elem_of_cons. intros [->|C]; contradiction.
    + intros m Hm. rewrite Hp. auto.
  - unfold avail, available_engines. simpl. destruct (decide (hwm = 0)) as [Hh|Hh]; [discriminate|].
    rewrite bool_decide_eq_true_2 by lia. discriminate.
Qed.

Lemma avail_nil s : length (s_loads s) = length (s_targets s) ->
  (avail s = [] <-> forall i x, s_loads s !! i = Some x -> hwm <> 0 /\ (Z.of_nat hwm <= x)%Z).
Proof.
  intros Hlen. unfold avail, available_engines. split.
  - intros H i x Hx. assert (Hlt := lookup_lt_Some _ _ _ Hx). destruct (decide (hwm = 0)) as [Hh|Hh].
    + destruct (s_targets s); [simpl in Hlen; lia|discriminate].
    + split; [exact Hh|]. destruct (decide (Z.of_nat hwm <= x)%Z) as [|Hn]; [assumption|]. exfalso.
      assert (Hin : In i (List.filter (fun idx => match s_loads s !! idx with Some l => bool_decide (l < Z.of_nat hwm)%Z | None => false end) (seq 0 (length (s_targets s))))).
      { apply filter_In. split; [apply in_seq; lia|]. rewrite Hx. apply bool_decide_eq_true_2. lia. }
      rewrite H in Hin. exact Hin.
  - intros H. destruct (decide (hwm = 0)) as [Hh|Hh].
    + destruct (s_targets s) as [|e tg]; [reflexivity|]. destruct (s_loads s) as [|x ld]; [discriminate|].
      destruct (H 0 x eq_refl). contradiction.
    + match goal with |- ?l = [] => destruct l as [|i l'] eqn:E; [reflexivity|] end. exfalso.
      assert (Hin : In i (i :: l')) by (left; reflexivity). rewrite <- E in Hin. apply filter_In in Hin as [_ Hin].
      destruct (s_loads s !! i) as [x|] eqn:Hx; [|discriminate]. apply bool_decide_eq_true_1 in Hin. destruct (H i x Hx). lia.
Qed.

Lemma unregister_easy e s : K12 s -> wp (unregister_engine e) (fun _ => K12) K12 s.
Proof.
  intros [HI Hwork]. unfold unregister_engine. apply wp_bind, wp_upd. set (o := ObsUnregister e).
  assert (Hp : forall m, phase_of (s_log s ++ [o]) m = phase_of (s_log s) m) by (intros m; apply phase_other; discriminate).
  set (s1 := set_log _ s).
  assert (HI1 : I12 (s_queue s1) s1).
  { destruct HI as [L1 L2 L3 L4 L5 L6 L7 L8 L9 L10 L11 L12 L13 L14 L15 L16 L17 L18 L19 L20 L21 L22 L23]. unfold I12; simpl; fold o. split; auto.
    - intros j jb Hj. rewrite Hp. eauto.
    - intros j Hj. destruct (L6 j Hj) as (jb & A & B). exists jb. rewrite Hp. auto.
    - intros m. rewrite Hp. auto.
    - rewrite submits_snoc, deliveries_snoc, !app_nil_r. exact L9.
    - intros e' l m j. rewrite Hp. eauto.
    - intros m e'. rewrite Hp. auto.
    - intros m. rewrite Hp. auto.
    - intros m. rewrite Hp. auto.
    - intros e' l Hl. apply elem_of_app. left. eauto.
    - intros e' He'. destruct (L22 e' He') as [A B]. split; [exact A|apply elem_of_app; auto].
    - intros m Hm. rewrite Hp. auto. }
  apply wp_bind, wp_get, wp_bind, wp_of_option; [|intros _; split; [exact HI1|exact Hwork]]. intros idx Hidx. apply index_of_spec in Hidx.
  simpl in Hidx. assert (Hlt := lookup_lt_Some _ _ _ Hidx).
  apply wp_bind, wp_upd, wp_bind, wp_upd.
  assert (Hin : e ∈ s_targets s) by (eapply elem_of_list_lookup_2; eauto).
  destruct (v_tgpd _ _ _ _ _ _ _ _ _ _ _ _ _ _ _ _ HI e Hin) as [l Hl].
  assert (Hreg := v_regpd _ _ _ _ _ _ _ _ _ _ _ _ _ _ _ _ HI1 e l Hl).
  assert (Hperm : s_targets s ≡ₚ e :: list_pop idx (s_targets s)).
  { unfold list_pop. rewrite <- (take_drop_middle _ _ _ Hidx) at 1. rewrite <- Permutation_middle. reflexivity. }
  pose proof (v_tg _ _ _ _ _ _ _ _ _ _ _ _ _ _ _ _ HI) as Hnd. rewrite Hperm in Hnd. apply NoDup_cons in Hnd as [Hnin Hnd].
  pose proof (v_len _ _ _ _ _ _ _ _ _ _ _ _ _ _ _ _ HI) as Hlen.
  assert (Hsub : forall e', e' ∈ list_pop idx (s_targets s) -> e' ∈ s_targets s) by (intros e' He'; rewrite Hperm; right; exact He').
  assert (Hmk : forall s2, s2 = set_strand_timers (fun _ => s_strand_timers s2) (set_failed (fun _ => s_failed s2) (set_completed (fun _ => s_completed s2)
        (set_loads (list_pop idx) (set_targets (list_pop idx) s1)))) ->
      (forall x, x ∈ s_strand_timers s2 -> x ∈ s_strand_timers s \/ x = e) ->
      (forall e', (e' <> e \/ l <> []) -> s_completed s2 !! e' = s_completed s !! e' /\ s_failed s2 !! e' = s_failed s !! e') -> K12 s2).
  { intros s2 E2 Htm Hcf. split.
    - destruct HI1 as [L1 L2 L3 L4 L5 L6 L7 L8 L9 L10 L11 L12 L13 L14 L15 L16 L17 L18 L19 L20 L21 L22 L23].
      rewrite E2. unfold I12; simpl in *. split; auto.
      + intros e' l' Hl' Hor. assert (Hc : e' <> e \/ l <> []).
        { destruct (decide (e' = e)) as [->|]; [|auto]. destruct Hor as [?|?]; [contradiction|]. right. congruence. }
        destruct (Hcf e' Hc) as [-> ->]. apply (L15 e' l' Hl'). destruct Hor; auto.
      + rewrite !list_pop_length by lia. lia.
      + intros e' He'. destruct (Htm e' He') as [A| ->]; [|split; [exact Hnin|exact Hreg]].
        destruct (L22 e' A) as [B C]. split; [|exact C]. auto.
    - rewrite E2. simpl. intros Hq. specialize (Hwork Hq). rewrite avail_nil in Hwork by exact Hlen. apply avail_nil; simpl.
      + rewrite !list_pop_length by lia. lia.
      + intros i x Hx. rewrite list_pop_lookup in Hx by lia. eapply Hwork. exact Hx. }
  apply wp_bind, wp_get. simpl. rewrite Hl. apply wp_bind, wp_ret.
  destruct (decide (l = [])) as [El|El].
  - apply wp_bind, wp_upd, wp_upd. apply Hmk; [reflexivity|auto|]. simpl.
    intros e' [Hne|?]; [|contradiction]. rewrite !lookup_delete_ne by congruence. auto.
  - apply wp_upd. apply Hmk; [reflexivity| |auto]. simpl.
    intros x Hx. apply elem_of_app in Hx as [Hx|Hx]; [auto|]. apply elem_of_list_singleton in Hx. auto.
Qed.

(** The stranded tasks of a dead engine. *)
Lemma strand_loop_easy fuel e : forall ms s l,
  K12 s -> I10 hwm s -> e ∉ s_targets s -> s_pending s !! e = Some l -> (forall x, x ∈ l.*1 -> x ∈ ms) -> NoDup ms ->
  wp (for_each ms (fun m =>
        do pd <- get s_pending; do l <- of_option (pd !! e);
        match al_lookup m l with None => ret tt | Some _ => swallow (dispatch_result hwm scheme fuel e m RErr) end))
     (fun _ s' => K12 s' /\ e ∉ s_targets s' /\ s_pending s' !! e = Some []) (fun _ => False) s.
Proof.
  induction ms as [|m ms IH]; intros s l HI H10 Htg Hl Hsub Hnd; cbn [for_each].
  - apply wp_ret. assert (l = []) as ->. { destruct l as [|x l]; [reflexivity|]. exfalso. specialize (Hsub x.1). set_solver. } auto.
  - apply NoDup_cons in Hnd as [Hm Hnd]. apply wp_bind, wp_bind, wp_get. rewrite Hl. apply wp_bind, wp_ret.
    destruct (al_lookup m l) as [j|] eqn:Hal.
    + assert (Hin : (m, j) ∈ l) by (apply al_lookup_elem; exact Hal).
      destruct HI as [HI Hwork].
      destruct (v_pd _ _ _ _ _ _ _ _ _ _ _ _ _ _ _ _ HI e l m j Hl Hin) as (Hph & jb & Hj).
      assert (Hr := v_rt _ _ _ _ _ _ _ _ _ _ _ _ _ _ _ _ HI m (or_intror (ex_intro _ e Hph))).
      assert (Hkeys := v_keys _ _ _ _ _ _ _ _ _ _ _ _ _ _ _ _ HI e l Hl).
      apply wp_swallow.
      assert (Hno : forall o : obs, o ∈ [] -> o ∈ s_log s) by (intros o Ho; inversion Ho).
      assert (Hand := wp_and _ _ _ _ _ _ (dispatch_result_keeps10 hwm scheme fuel e m RErr s H10)
        (wp_and _ _ _ _ _ _ (result_easy fuel e m RErr s (conj HI Hwork) (cap s H10) Hph ltac:(discriminate))
           (strand_one hwm scheme fuel e m l j jb 0 [] s Htg Hl Hal Hj Hr Hno))).
      eapply wp_mono; [exact Hand| |intros s' (_ & [] & _)]. cbv beta.
      intros [] s1 (A10 & AK & F1 & F2 & _). apply (IH s1 (al_remove m l)); auto.
      intros x Hx. destruct (al_remove_nodup m l Hkeys) as [_ Hgone]. assert (x <> m) by congruence.
      assert (Hx' := al_remove_keys _ _ _ Hx). specialize (Hsub x Hx'). apply elem_of_cons in Hsub as [?|?]; [contradiction|assumption].
    + apply wp_ret. apply (IH s l); auto. intros x Hx. specialize (Hsub x Hx). apply elem_of_cons in Hsub as [->|?]; [|assumption].
      exfalso. apply elem_of_list_fmap in Hx as ([m2 j2] & E2 & Hin2). simpl in E2. subst m2. eapply al_lookup_none; eauto.
Qed.

Lemma strand_timer_easy fuel e s : K12 s -> I10 hwm s ->
  wp (handle hwm scheme fuel (EvStrandTimer e)) (fun _ => K12) K12 s.
Proof.
  intros [HI Hwork] H10. simpl. apply wp_bind, wp_get.
  destruct (index_of e (s_strand_timers s)) as [i|] eqn:Ei; [|apply wp_ret; split; assumption].
  apply index_of_spec in Ei. assert (Hin : e ∈ s_strand_timers s) by (eapply elem_of_list_lookup_2; eauto).
  apply wp_bind, wp_upd. set (s1 := set_strand_timers _ s).
  assert (HK1 : K12 s1).
  { split; [|exact Hwork]. destruct HI as [L1 L2 L3 L4 L5 L6 L7 L8 L9 L10 L11 L12 L13 L14 L15 L16 L17 L18 L19 L20 L21 L22 L23].
    unfold I12; simpl. split; auto. intros e' He'. apply L22. eapply list_pop_elem; exact He'. }
  destruct (v_tm _ _ _ _ _ _ _ _ _ _ _ _ _ _ _ _ HI e Hin) as [Htg _].
  unfold handle_stranded_tasks. apply wp_bind, wp_get. apply wp_bind, wp_of_option; [|intros _; exact HK1].
  intros l Hl. simpl in Hl. apply wp_bind.
  assert (Hkeys := v_keys _ _ _ _ _ _ _ _ _ _ _ _ _ _ _ _ HI e l Hl).
  eapply wp_mono; [apply (strand_loop_easy fuel e (map fst l) s1 l); auto| |intros s' []].
  intros [] s' ([A A'] & B & C).
  assert (HQ : forall s2, s2 = set_completed (fun _ => s_completed s2) (set_failed (fun _ => s_failed s2) s') ->
     (forall e', e' <> e -> s_completed s2 !! e' = s_completed s' !! e' /\ s_failed s2 !! e' = s_failed s' !! e') -> K12 s2).
  { intros s2 -> Hcf. split; [|exact A'].
    destruct A as [L1 L2 L3 L4 L5 L6 L7 L8 L9 L10 L11 L12 L13 L14 L15 L16 L17 L18 L19 L20 L21 L22 L23]. unfold I12; simpl in *. split; auto.
    intros e' l' Hl' Hor. assert (Hne : e' <> e).
    { intros ->. destruct Hor as [?|Hn]; [contradiction|]. apply Hn. congruence. }
    destruct (Hcf e' Hne) as [-> ->]. eauto. }
  apply wp_bind, wp_get, wp_bind, wp_of_option; [|intros _; apply HQ; [destruct s'; reflexivity|auto]]. intros Y _.
  apply wp_bind, wp_upd.
  apply wp_bind, wp_get, wp_bind, wp_of_option.
  2:{ intros _; apply HQ; [destruct s'; reflexivity|]. simpl. intros e' Hne. rewrite lookup_delete_ne by congruence. auto. }
  intros Z _. apply wp_upd. apply HQ; [destruct s'; reflexivity|]. simpl. intros e' Hne. rewrite !lookup_delete_ne by congruence. auto.
Qed.

Lemma handle_easy fuel ev s : independent_tasks (s_log s) ev -> K12 s -> I10 hwm s ->
  wp (handle hwm scheme fuel ev) (fun _ => K12) K12 s.
Proof.
  intros [Hg Hi] HK H10. destruct ev as [m md|m e k|e|e|e|j tid].
  - eapply wp_mono; [apply submit_easy; assumption|auto|intros s' []].
  - eapply wp_mono; [apply result_easy; [exact HK|apply cap; exact H10|exact Hg|exact Hi]|auto|intros s' []].
  - eapply wp_mono; [apply register_easy; assumption|auto|intros s' []].
  - apply unregister_easy. exact HK.
  - apply strand_timer_easy; assumption.
  - simpl. apply wp_bind, wp_get. rewrite (v_jt _ _ _ _ _ _ _ _ _ _ _ _ _ _ _ _ (proj1 HK)).
    rewrite decide_False by apply not_elem_of_nil. apply wp_ret. exact HK.
Qed.

Lemma K12_init : K12 init.
Proof.
  split; [|intros H; contradiction H; reflexivity]. unfold I12; apply Inv12; simpl.
  all: try reflexivity; try apply NoDup_nil_2.
  all: try (intros; match goal with H : _ = Some _ |- _ => discriminate H | H : _ ∈ [] |- _ => inversion H | H : phase_of [] _ = _ |- _ => discriminate H end).
  - intros m H. discriminate H.
  - intros m [H|[e H]]; discriminate H.
  - intros m H. exfalso. revert H. apply not_elem_of_empty.
Qed.

Lemma K12_reachable s : reachable hwm scheme independent_tasks s -> K12 s /\ I10 hwm s.
Proof.
  apply (reachable_inv hwm scheme independent_tasks (fun s => K12 s /\ I10 hwm s)); [split; [apply K12_init|apply I10_init]|]. intros s' ev fuel [HK H10] Hok.
  apply wp_and; [apply handle_easy; assumption|].
  apply handle_keeps10; [|exact H10]. apply genuine_registration, Hok.
Qed.

(** * Results *)
Lemma fifo s : reachable hwm scheme independent_tasks s ->
  exists rest, submits (s_log s) = deliveries (s_log s) ++ rest.
Proof.
  intros Hr. destruct (K12_reachable s Hr) as [[HI _] _]. eexists. apply (v_order _ _ _ _ _ _ _ _ _ _ _ _ _ _ _ _ HI).
Qed.
Lemma work_conserving s m e : reachable hwm scheme independent_tasks s ->
  phase_of (s_log s) m = Waiting -> registered (s_log s) e = true ->
  hwm <> 0 /\ outstanding (s_log s) e = Z.of_nat hwm.
Proof.
  intros Hr Hw He. destruct (K12_reachable s Hr) as [[HI Hwork] H10].
  destruct (v_all _ _ _ _ _ _ _ _ _ _ _ _ _ _ _ _ HI m Hw) as (j & jb & Hj & _).
  assert (Hq : s_queue s <> []) by (intros E; rewrite E in Hj; inversion Hj).
  specialize (Hwork Hq). rewrite avail_nil in Hwork by apply (v_len _ _ _ _ _ _ _ _ _ _ _ _ _ _ _ _ HI).
  apply (l_reg _ _ _ _ H10) in He. apply elem_of_list_lookup in He as [i Hi].
  pose proof (l_load _ _ _ _ H10 i e Hi) as Hload. destruct (Hwork i _ Hload) as [A B]. split; [exact A|].
  pose proof (fit_bounded hwm (s_log s) (l_sends _ _ _ _ H10) A e). lia.
Qed.
End Fifo.
