(** Failures reported by the scheduler itself always have a reason in the history. *)
From stdpp Require Import base gmap sets list.
From Verif Require Import Dependency_Model Dependency_Spec Dependency_Proofs Sched_Trace Sched_Spec Sched_Model Sched_Base
  Sched_Traverse Sched_Safety Sched_Load.
From Verif Require Prelude.
From Coq Require Import ZArith Lia.

Section Blame.
Context (hwm : nat) (scheme : nat -> list Z -> nat).

(** [d] is what is left to wait for of the dependency [a0]. *)
Definition rest_of (a0 d : dep) : Prop :=
  d_ids d = ∅ \/
  (d_all d = d_all a0 /\ d_success d = d_success a0 /\ d_failure d = d_failure a0 /\ d_ids d ⊆ d_ids a0 /\
   (d_all d = false -> d_ids d = d_ids a0)).

Record job14 (log : list obs) (jb : job) : Prop := Job14 {
  b_black : forall e, e ∈ j_blacklist jb -> exists k, k <> ROk /\ ObsResult (j_msg jb) e k ∈ log;
  b_timeout : j_timeout jb = t_timeout (j_md jb);
  b_tid : j_timeout_id jb <> 0 -> j_timeout jb = true;
  b_after : exists a0, from_dict (t_after (j_md jb)) = Prelude.Ok a0 /\ rest_of a0 (j_after jb);
  b_targets : forall e, e ∈ t_targets (j_md jb) -> e ∈ j_targets jb \/ e ∈ j_blacklist jb }.

Record inv14 (jobs : gmap nat job) (ids : gset nat) (dest : gmap nat nat) (tg : list nat) (jt : list (nat * nat)) (log : list obs) : Prop := Inv14 {
  x_ids : forall d, submitted log d -> d ∈ ids;
  x_dest : forall m e, dest !! m = Some e -> exists b, ObsReply m (FromEngine e b) ∈ log;
  x_reg : forall e, registered log e = true -> e ∈ tg;
  x_jobs : forall j jb, jobs !! j = Some jb -> job14 log jb;
  x_jt : forall j n, (j, n) ∈ jt -> n <> 0;
  x_just : forall t m w t', log = t ++ ObsReply m (Unreachable w) :: t' -> justified t m w }.
Definition X14 (s : sched) : Prop := inv14 (s_jobs s) (s_all_ids s) (s_dest s) (s_targets s) (s_job_timers s) (s_log s).
Definition I14 (s : sched) : Prop := I09 s /\ X14 s.

Lemma job14_mono log o jb : job14 log jb -> job14 (log ++ [o]) jb.
Proof.
  intros [B1 B2 B3 B4 B5]. split; auto. intros e He. destruct (B1 e He) as (k & A & B). exists k. split; [exact A|]. apply elem_of_app. auto.
Qed.

(** A new observation. *)
Lemma inv14_log jobs ids dest tg jt log o :
  inv14 jobs ids dest tg jt log ->
  match o with
  | ObsSubmit m _ => m ∈ ids
  | ObsRegister e => e ∈ tg
  | ObsReply m (Unreachable w) => justified log m w
  | _ => True end ->
  inv14 jobs ids dest tg jt (log ++ [o]).
Proof.
  intros [X1 X2 X3 X4 X5 X6] Ho. split; auto.
  - intros d [md Hd]. apply elem_of_app in Hd as [Hd|Hd]; [apply X1; exists md; exact Hd|].
    apply elem_of_list_singleton in Hd. subst o. exact Ho.
  - intros m e Hm. destruct (X2 m e Hm) as [b Hb]. exists b. apply elem_of_app. auto.
  - intros e. rewrite registered_snoc. destruct o as [|e'|e'| | |]; auto.
    + destruct (decide (e = e')) as [->|]; auto.
    + destruct (decide (e = e')); [discriminate|auto].
  - intros j jb Hj. apply job14_mono. eauto.
  - intros t m w t' Heq. destruct t' as [|o' t'] using rev_ind.
    + apply app_inj_tail in Heq as [-> ->]. exact Ho.
    + clear IHt'. rewrite app_comm_cons, app_assoc in Heq. apply app_inj_tail in Heq as [-> ->]. eapply X6. reflexivity.
Qed.

Lemma inv14_alter jobs ids dest tg jt log j f :
  inv14 jobs ids dest tg jt log ->
  (forall jb, jobs !! j = Some jb -> job14 log jb -> job14 log (f jb)) ->
  inv14 (alter f j jobs) ids dest tg jt log.
Proof.
  intros [X1 X2 X3 X4 X5 X6] Hf. split; auto.
  intros j' jb'. rewrite lookup_alter_Some. intros [(-> & jb & Hj & ->)|(Hne & Hj)]; [apply Hf; eauto|eauto].
Qed.

Lemma from_dict_ok d x : from_dict d = Prelude.Ok x ->
  x = Dep (list_to_set (default [] (k_dependencies d))) (default true (k_all d)) (default true (k_success d)) (default false (k_failure d)).
Proof. unfold from_dict. intros H. apply mk_dep_ok in H as [-> _]. reflexivity. Qed.

Lemma list_to_set_nil (l : list nat) : (list_to_set l : gset nat) <> ∅ -> l <> [].
Proof. intros H ->. apply H. reflexivity. Qed.

(** unreachable says something about the dependency as submitted. *)
Lemma unreachable_hopeless d a0 x ac af t :
  from_dict d = Prelude.Ok a0 -> rest_of a0 x -> ac ⊆ told_ok t -> af ⊆ told_bad t ->
  unreachable x ac af = true -> hopeless d (hist_of t).
Proof.
  intros Hd Hrest Hac Haf Hu. apply (unreachable_iff x (Hist ac af)) in Hu as [Hne Hu]. simpl in Hu.
  destruct Hrest as [E|(E1 & E2 & E3 & E4 & E5)]; [contradiction|].
  apply from_dict_ok in Hd. subst a0. simpl in *. rewrite E2, E3 in Hu.
  split; [apply list_to_set_nil; intros E; rewrite E in E4; set_solver|]. rewrite <- E1. simpl.
  destruct (d_all x) eqn:Ea.
  - destruct Hu as (m & Hm & Hw). exists m. split; [apply E4 in Hm; apply elem_of_list_to_set in Hm; exact Hm|].
    destruct Hw as [[? ?]|[? ?]]; [left|right]; split; auto.
  - intros m Hm. specialize (E5 eq_refl). destruct (Hu m) as [[? ?]|[? ?]]; [rewrite E5; apply elem_of_list_to_set; exact Hm|left|right]; split; auto.
Qed.

Lemma follow_dests_spec s jb X e : follow_dests s jb = Some X -> e ∈ X -> exists m, m ∈ d_ids (j_follow jb) /\ s_dest s !! m = Some e.
Proof.
  unfold follow_dests. set (rel := d_ids (j_follow jb) ∩ _).
  assert (Hrel : forall m, m ∈ elements rel -> m ∈ d_ids (j_follow jb)) by (intros m Hm; apply elem_of_elements in Hm; unfold rel in Hm; set_solver).
  revert X. induction (elements rel) as [|m l IH]; simpl; intros X HX He; [injection HX as <-; set_solver|].
  destruct (foldr _ _ l) as [Y|]; [|discriminate]. destruct (s_dest s !! m) as [e'|] eqn:Em; [|discriminate]. injection HX as <-.
  apply elem_of_union in He as [He|He].
  - apply elem_of_singleton in He as ->. exists m. split; [apply Hrel; left|exact Em].
  - apply (IH (fun x Hx => Hrel x (elem_of_list_further x m l Hx)) Y eq_refl He).
Qed.

Lemma two_elements (X : gset nat) : 1 < size X -> exists e1 e2, e1 ∈ X /\ e2 ∈ X /\ e1 <> e2.
Proof.
  intros H. unfold size, set_size in H. pose proof (NoDup_elements X) as Hnd.
  assert (He : forall x, x ∈ elements X -> x ∈ X) by (intros x; apply elem_of_elements).
  simpl in H. destruct (elements X) as [|e1 [|e2 l]]; simpl in H; [lia|lia|].
  exists e1, e2. split; [apply He; left|]. split; [apply He; right; left|]. apply NoDup_cons in Hnd as [Hn _]. set_solver.
Qed.

Lemma reason_justified s m w : I14 s -> reason s m w -> justified (s_log s) m w.
Proof.
  intros [H9 H14] (j & jb & Hj & Hm & Hw).
  destruct (i_jobs _ _ _ _ _ _ _ _ _ H9 j jb Hj) as (J1 & J2 & _ & J4 & _).
  destruct (x_jobs _ _ _ _ _ _ H14 j jb Hj) as [B1 B2 B3 (a0 & B4 & B4') B5].
  pose proof (i_ok _ _ _ _ _ _ _ _ _ H9) as Hok. pose proof (i_bad _ _ _ _ _ _ _ _ _ H9) as Hbad.
  assert (Hfo : rest_of (j_follow jb) (j_follow jb)) by (right; auto 6).
  exists (j_md jb). rewrite <- Hm. split; [exact J1|]. destruct w.
  - destruct Hw as [Hw|[Hw|[[Hall (X & HX & Hsz)]|[Hne Hw]]]].
    + left. eapply unreachable_hopeless; eauto.
    + right. left. eapply unreachable_hopeless; eauto.
    + right. right. left. apply from_dict_ok in J2.
      destruct (two_elements X Hsz) as (e1 & e2 & He1 & He2 & Hne).
      destruct (follow_dests_spec s jb X e1 HX He1) as (m1 & Hm1 & Hd1).
      destruct (follow_dests_spec s jb X e2 HX He2) as (m2 & Hm2 & Hd2).
      destruct (x_dest _ _ _ _ _ _ H14 m1 e1 Hd1) as [b1 Hb1]. destruct (x_dest _ _ _ _ _ _ H14 m2 e2 Hd2) as [b2 Hb2].
      rewrite J2 in Hall, Hm1, Hm2. simpl in *. apply elem_of_list_to_set in Hm1, Hm2.
      split; [exact Hall|]. exists m1, m2, e1, e2, b1, b2. auto 6.
    + right. right. right. split.
      * destruct (set_choose_L _ Hne) as [e He]. apply J4 in He. intros E. rewrite E in He. inversion He.
      * intros e He. destruct (B5 e He) as [Ht|Hb]; [|right; auto].
        destruct (decide (e ∈ j_blacklist jb)) as [Hb|Hb]; [right; auto|]. left.
        destruct (registered (s_log s) e) eqn:Er; [|reflexivity]. exfalso.
        apply (x_reg _ _ _ _ _ _ H14) in Er. assert (Hin : e ∈ (j_targets jb ∖ j_blacklist jb) ∩ list_to_set (s_targets s)); [|rewrite Hw in Hin; set_solver].
        apply elem_of_intersection. split; [set_solver|]. apply elem_of_list_to_set. exact Er.
  - destruct Hw as [Hw|Hw].
    + destruct B4' as [E|(E1 & E2 & E3 & E4 & E5)]; [destruct Hw as [Hn _]; contradiction|].
      apply from_dict_ok in B4. subst a0. simpl in E4.
      assert (Hx : exists x, x ∈ d_ids (j_after jb) /\ (x = m \/ x ∉ s_all_ids s)).
      { destruct Hw as [_ [Hw|Hw]]; [exists m; auto|].
        destruct (set_choose_or_empty (d_ids (j_after jb) ∖ s_all_ids s)) as [[x Hx]|Hx]; [exists x; set_solver|].
        exfalso. apply Hw. intros x Hin. destruct (decide (x ∈ s_all_ids s)); [assumption|set_solver]. }
      destruct Hx as (x & Hx & Hcase). exists x. split; [left; apply E4 in Hx; apply elem_of_list_to_set in Hx; exact Hx|].
      destruct Hcase as [->|Hn]; [left; congruence|right]. intros Hs. apply Hn, (x_ids _ _ _ _ _ _ H14), Hs.
    + apply from_dict_ok in J2.
      assert (Hx : exists x, x ∈ d_ids (j_follow jb) /\ (x = m \/ x ∉ s_all_ids s)).
      { destruct Hw as [_ [Hw|Hw]]; [exists m; auto|].
        destruct (set_choose_or_empty (d_ids (j_follow jb) ∖ s_all_ids s)) as [[x Hx]|Hx]; [exists x; set_solver|].
        exfalso. apply Hw. intros x Hin. destruct (decide (x ∈ s_all_ids s)); [assumption|set_solver]. }
      destruct Hx as (x & Hx & Hcase). exists x. split; [right; rewrite J2 in Hx; apply elem_of_list_to_set in Hx; exact Hx|].
      destruct Hcase as [->|Hn]; [left; congruence|right]. intros Hs. apply Hn, (x_ids _ _ _ _ _ _ H14), Hs.
  - rewrite <- B2. auto.
Qed.

Lemma kept14 : kept hwm G09 justified I14.
Proof.
  pose proof (kept09 hwm scheme) as K.
  split.
  - intros s g [H H']. split; [apply (k_graph _ _ _ _ K), H|exact H'].
  - intros s g [H H']. split; [apply (k_qmap _ _ _ _ K), H|exact H'].
  - intros s g [H H']. split; [apply (k_queue _ _ _ _ K), H|exact H'].
  - intros s j n [H H'] Hn. split; [apply (k_jtimers _ _ _ _ K); assumption|].
    destruct H' as [X1 X2 X3 X4 X5 X6]. split; auto. simpl. intros j' n' Hin. apply elem_of_app in Hin as [Hin|Hin]; [eauto|].
    apply elem_of_list_singleton in Hin. congruence.
  - intros s g [H H']. split; [apply (k_draws _ _ _ _ K), H|exact H'].
  - intros s j jb [H _]. apply (k_guard _ _ _ _ K); exact H.
  - intros s j [H H']. split; [apply (k_remove _ _ _ _ K), H|]. apply inv14_alter; [exact H'|]. intros jb _ [B1 B2 B3 B4 B5]. split; auto.
  - intros s j n [H H'] Ht. split; [apply (k_timeout_id _ _ _ _ K); assumption|]. apply inv14_alter; [exact H'|].
    intros jb Hj [B1 B2 B3 B4 B5]. split; auto. simpl. intros _. auto.
  - intros s j jb [H H'] Hj Hne. split; [eapply (k_shrink _ _ _ _ K); eauto|]. apply inv14_alter; [exact H'|].
    intros jb' _ [B1 B2 B3 B4 B5]. split; auto. simpl. intros e He. destruct (B5 e He) as [A|A]; [|auto].
    destruct (decide (e ∈ j_blacklist jb')); [auto|]. left. set_solver.
  - intros s j jb [H H'] Hj. split; [eapply (k_shrink_remove _ _ _ _ K); eauto|]. apply inv14_alter; [apply inv14_alter; [exact H'|]|].
    + intros jb' _ [B1 B2 B3 B4 B5]. split; auto. simpl. intros e He. destruct (B5 e He) as [A|A]; [|auto].
      destruct (decide (e ∈ j_blacklist jb')); [auto|]. left. set_solver.
    + intros jb' _ [B1 B2 B3 B4 B5]. split; auto.
  - apply reason_justified.
  - intros s m w [H H'] HR. split; [apply (k_fail _ _ _ _ K); [exact H|exact Logic.I]|].
    unfold X14. simpl. apply inv14_log; [exact H'|exact HR].
  - intros s j jb idx target [H H'] Hs Htg. pose proof (k_send _ _ _ _ K s j jb idx target H Hs Htg) as Hk.
    assert (H2 : X14 (sent (j_msg jb) idx target s)).
    { unfold X14, sent; simpl. destruct (inv14_log _ _ _ _ _ _ (ObsSend (j_msg jb) target) H' Logic.I) as [X1 X2 X3 X4 X5 X6].
      split; auto. intros e He. apply rotate_elem. auto. }
    destruct (s_pending s !! target); (split; [exact Hk|exact H2]).
Qed.

Definition keep14 {A} (m : M A) := forall s, I14 s -> wp m (fun _ => I14) I14 s.

Lemma handle_unmet14 fuel e m k s : I14 s -> k <> ROk -> ObsResult m e k ∈ s_log s ->
  wp (handle_unmet_dependency hwm scheme fuel e m) (fun _ => I14) I14 s.
Proof.
  intros [HI HX] Hk Hres. unfold handle_unmet_dependency.
  apply wp_bind, wp_get. apply wp_bind, wp_of_option; [|intros _; split; assumption]. intros l Hl.
  apply wp_bind, wp_of_option; [|intros _; split; assumption]. intros j Hj.
  apply wp_bind, wp_upd.
  pose proof (al_lookup_elem _ _ _ Hj) as Hin.
  destruct (i_pending _ _ _ _ _ _ _ _ _ HI e l (m, j) Hl Hin) as (jb & E1 & E2 & E3 & E4 & E5).
  simpl in E1, E2.
  apply wp_bind, wp_upd.
  set (s2 := set_jobs (alter (add_blacklist e) j) (set_pending (<[e := al_remove m l]>) s)).
  assert (H2 : I14 s2).
  { split.
    - apply (blacklist_ok scheme e m l j jb s HI Hl Hj E1 E2).
    - apply inv14_alter; [exact HX|]. intros jb' Hjb' [B1 B2 B3 B4 B5]. simpl in Hjb'. rewrite E1 in Hjb'. injection Hjb' as <-.
      split; auto; simpl.
      + intros e'. rewrite elem_of_union, elem_of_singleton. intros [->|He']; [|auto]. exists k. rewrite E2. auto.
      + intros e' He'. destruct (B5 e' He'); [auto|]. right. set_solver. }
  assert (Hj2 : s_jobs s2 !! j = Some (add_blacklist e jb)).
  { simpl. rewrite lookup_alter, E1. reflexivity. }
  apply wp_bind, wp_get_job; [|intros _; exact H2]. intros jb2 Hjb2.
  rewrite Hj2 in Hjb2. injection Hjb2 as <-.
  apply wp_bind. eapply wp_mono with (Q := fun _ => I14) (E := I14); [|intros [] s' Hs'; apply (unmet_tail_keeps _ _ _ _ _ kept14); exact Hs'|auto].
  destruct (decide _) as [Hd|Hd].
  - apply (fail_now_keeps _ _ _ _ _ kept14); [exact H2|]. apply reason_justified; [exact H2|].
    exists j, (add_blacklist e jb). split; [exact Hj2|]. split; [exact E2|]. right. right. right.
    rewrite <- Hd. split; [simpl; set_solver|]. rewrite difference_diag_L. set_solver.
  - apply (run_or_save_keeps _ _ _ _ _ kept14) with (jb := add_blacklist e jb); auto.
    split; [exact E5|]. intros Hn. specialize (E4 Hn). simpl. set_solver.
Qed.

Lemma handle_result14 fuel e m b s : I14 s -> wp (handle_result hwm scheme fuel e m b) (fun _ => I14) I14 s.
Proof.
  intros [HI HX]. unfold handle_result. apply wp_bind, wp_upd.
  set (o := ObsReply m (FromEngine e b)).
  assert (H1 : I09 (set_log (fun l => l ++ [o]) s)) by (apply (inv_log scheme); [exact HI|discriminate]).
  assert (X1 : X14 (set_log (fun l => l ++ [o]) s)) by (apply inv14_log; [exact HX|exact Logic.I]).
  apply wp_bind, wp_get. apply wp_bind, wp_of_option; [|intros _; split; assumption]. intros l Hl.
  apply wp_bind, wp_of_option; [|intros _; split; assumption]. intros j Hj.
  apply wp_bind, wp_upd.
  set (s2 := set_pending (<[e := al_remove m l]>) (set_log (fun l => l ++ [o]) s)).
  assert (H2 : I09 s2) by (apply inv_pending_remove; assumption).
  assert (X2 : X14 s2) by exact X1.
  assert (Hlog : s_log s2 = s_log s ++ [o]) by reflexivity.
  assert (Hok : m ∈ (if b then told_ok (s_log s2) else told_bad (s_log s2))).
  { rewrite Hlog. destruct b; [apply told_ok_reply|apply told_bad_reply; discriminate]. }
  assert (Hon : m ∈ told_on e b (s_log s2)) by (rewrite Hlog; apply told_on_reply).
  apply wp_bind. eapply wp_mono with (Q := fun _ s' => I14 s' /\ s_log s' = s_log s2) (E := I14); [| |auto].
  - destruct b.
    + apply wp_bind, wp_get, wp_bind, wp_of_option; [|intros _; split; assumption]. intros X HX'.
      apply wp_bind, wp_upd, wp_upd. split; [|reflexivity]. split; [|exact X2]. unfold I09; simpl.
      destruct H2 as [L1 L2 L3 L4 L5 L6 L7 L7b L8 L9]. split; auto.
      * apply union_subseteq. split; [apply singleton_subseteq_l; exact Hok|exact L1].
      * intros e' X'. rewrite lookup_insert_Some. intros [(-> & <-)|(Hne & HX'')]; [|eauto].
        apply union_subseteq. split; [apply singleton_subseteq_l; exact Hon|]. eapply L3; eauto.
      * intros j' jb' Hj'. eapply (job_ok_mono scheme); [| |auto|eapply L5; eauto]; set_solver.
      * intros e' l' x Hl' Hx. eapply pend_ok_mono; [| |eapply L8; eauto]; set_solver.
    + apply wp_bind, wp_get, wp_bind, wp_of_option; [|intros _; split; assumption]. intros X HX'.
      apply wp_bind, wp_upd, wp_upd. split; [|reflexivity]. split; [|exact X2]. unfold I09; simpl.
      destruct H2 as [L1 L2 L3 L4 L5 L6 L7 L7b L8 L9]. split; auto.
      * apply union_subseteq. split; [apply singleton_subseteq_l; exact Hok|exact L2].
      * intros e' X'. rewrite lookup_insert_Some. intros [(-> & <-)|(Hne & HX'')]; [|eauto].
        apply union_subseteq. split; [apply singleton_subseteq_l; exact Hon|]. eapply L4; eauto.
      * intros j' jb' Hj'. eapply (job_ok_mono scheme); [| |auto|eapply L5; eauto]; set_solver.
      * intros e' l' x Hl' Hx. eapply pend_ok_mono; [| |eapply L8; eauto]; set_solver.
  - intros [] s' [[Ha Hb] Hlog']. apply wp_bind, wp_upd. apply wp_bind, wp_upd.
    apply (update_graph_keeps _ _ _ _ _ kept14). split; [exact Ha|].
    destruct Hb as [Y1 Y2 Y3 Y4 Y5 Y6]. split; auto. simpl. intros m' e'. rewrite lookup_insert_Some.
    intros [(<- & <-)|(Hne & Hd)]; [|eauto]. exists b. rewrite Hlog', Hlog. apply elem_of_app. right. left.
Qed.

Lemma dispatch_result14 fuel e m k s : I14 s -> wp (dispatch_result hwm scheme fuel e m k) (fun _ => I14) I14 s.
Proof.
  intros [HI HX]. unfold dispatch_result. apply wp_bind, wp_upd.
  set (s1 := set_log _ s). assert (H1 : I14 s1).
  { split; [apply (inv_log scheme); [exact HI|discriminate]|apply inv14_log; [exact HX|exact Logic.I]]. }
  assert (Hin : ObsResult m e k ∈ s_log s1) by (simpl; apply elem_of_app; right; left).
  apply wp_bind, wp_get. apply wp_bind.
  eapply wp_mono with (Q := fun _ s' => I14 s' /\ ObsResult m e k ∈ s_log s') (E := I14); [| |auto].
  - destruct (index_of e _); [|apply wp_ret; auto]. apply wp_upd. split; [|exact Hin]. exact H1.
  - intros [] s2 [H2 Hin2].
    assert (Hmain : forall b, (b = false -> k <> ROk) -> wp (do rt <- get s_retries; do retries <- of_option (rt !! m);
        if decide (b = false /\ 0 < retries) then
          upd (set_retries (<[m := retries - 1]>)) ;; handle_unmet_dependency hwm scheme fuel e m
        else upd (set_retries (delete m)) ;; handle_result hwm scheme fuel e m b) (fun _ => I14) I14 s2).
    { intros b Hbk. apply wp_bind, wp_get, wp_bind, wp_of_option; [|intros _; exact H2]. intros r _.
      destruct (decide _) as [[Hb _]|_]; apply wp_bind, wp_upd; [eapply handle_unmet14; [exact H2|exact (Hbk Hb)|exact Hin2]|apply handle_result14; exact H2]. }
    destruct k; [apply (Hmain true); discriminate|apply (Hmain false); discriminate|eapply handle_unmet14; [exact H2| |exact Hin2]; discriminate].
Qed.

Lemma stranded14 fuel e s : I14 s -> wp (handle_stranded_tasks hwm scheme fuel e) (fun _ => I14) I14 s.
Proof.
  intros HI. unfold handle_stranded_tasks.
  apply wp_bind, wp_get, wp_bind, wp_of_option; [|intros _; exact HI]. intros lost _.
  apply wp_bind. eapply wp_mono; [apply wp_for_each with (I := I14) (E := I14); [exact HI|]| |auto].
  - intros m s' _ H'. apply wp_bind, wp_get, wp_bind, wp_of_option; [|intros _; exact H']. intros l _.
    destruct (al_lookup m l); [|apply wp_ret; exact H']. apply wp_swallow, dispatch_result14, H'.
  - intros [] s' [H' HX]. apply wp_bind, wp_get, wp_bind, wp_of_option; [|intros _; split; assumption]. intros X _.
    apply wp_bind, wp_upd.
    assert (H2 : I09 (set_completed (delete e) s')).
    { destruct H' as [L1 L2 L3 L4 L5 L6 L7 L7b L8 L9]. split; auto. simpl. intros e' Y.
      rewrite lookup_delete_Some. intros [_ ?]. eauto. }
    apply wp_bind, wp_get, wp_bind, wp_of_option; [|intros _; split; assumption]. intros Y _.
    apply wp_upd. split; [|exact HX]. destruct H2 as [L1 L2 L3 L4 L5 L6 L7 L7b L8 L9]. split; auto. simpl. intros e' Z.
    rewrite lookup_delete_Some. intros [_ ?]. eauto.
Qed.

Lemma list_pop_others x y i (l : list nat) : index_of x l = Some i -> y ∈ l -> y <> x -> y ∈ list_pop i l.
Proof.
  intros Hi Hy Hne. apply index_of_spec in Hi. unfold list_pop.
  rewrite <- (take_drop_middle l i x Hi) in Hy. apply elem_of_app in Hy as [Hy|Hy]; [apply elem_of_app; auto|].
  apply elem_of_cons in Hy as [->|Hy]; [contradiction|]. apply elem_of_app. auto.
Qed.

Lemma unregister14 e s : I14 s -> wp (unregister_engine e) (fun _ => I14) I14 s.
Proof.
  intros [HI HX]. unfold unregister_engine. apply wp_bind, wp_upd.
  set (s1 := set_log _ s). assert (H1 : I09 s1) by (apply (inv_log scheme); [exact HI|discriminate]).
  assert (X1 : X14 s1) by (apply inv14_log; [exact HX|exact Logic.I]).
  apply wp_bind, wp_get, wp_bind, wp_of_option; [|intros _; split; assumption]. intros idx Hidx.
  apply wp_bind, wp_upd, wp_bind, wp_upd.
  set (s2 := set_loads _ _). assert (H2 : I09 s2).
  { destruct H1 as [L1 L2 L3 L4 L5 L6 L7 L7b L8 L9]. split; auto.
    simpl. intros e' He'. apply list_pop_elem in He'. auto. }
  assert (X2 : X14 s2).
  { destruct X1 as [Y1 Y2 Y3 Y4 Y5 Y6]. split; auto. simpl. intros e' He'.
    eapply list_pop_others; [exact Hidx|apply Y3; exact He'|]. intros ->.
    simpl in He'. rewrite registered_snoc in He'. rewrite decide_True in He' by reflexivity. discriminate. }
  apply wp_bind, wp_get, wp_bind, wp_of_option; [|intros _; split; assumption]. intros l _.
  destruct (decide _); [|apply wp_upd; split; [exact H2|exact X2]].
  apply wp_bind, wp_upd, wp_upd. split; [|exact X2].
  destruct H2 as [L1 L2 L3 L4 L5 L6 L7 L7b L8 L9].
  split; auto; simpl; intros e' Z; rewrite lookup_delete_Some; intros [_ ?]; eauto.
Qed.

Lemma register14 fuel e s : I14 s -> wp (register_engine hwm scheme fuel e) (fun _ => I14) I14 s.
Proof.
  intros [HI HX]. unfold register_engine.
  do 6 (apply wp_bind, wp_upd). apply (update_graph_keeps _ _ _ _ _ kept14).
  assert (H1 : I09 (set_log (fun l => l ++ [ObsRegister e]) s)) by (apply (inv_log scheme); [exact HI|discriminate]).
  split.
  - destruct H1 as [L1 L2 L3 L4 L5 L6 L7 L7b L8 L9]. split; auto; simpl.
    + intros e' X. rewrite lookup_insert_Some. intros [(-> & <-)|(Hne & HX')]; [set_solver|eauto].
    + intros e' X. rewrite lookup_insert_Some. intros [(-> & <-)|(Hne & HX')]; [set_solver|eauto].
    + intros e' He'. apply elem_of_cons in He' as [->|He']; [|auto]. apply elem_of_app. right. left.
    + intros e' l. rewrite lookup_insert_Some. intros [(-> & <-)|(Hne & Hl)]; [constructor|eauto].
    + intros e' l x. rewrite lookup_insert_Some. intros [(-> & <-)|(Hne & Hl)] Hx; [inversion Hx|eauto].
  - unfold X14. simpl. apply (inv14_log _ _ _ _ _ _ (ObsRegister e)); [|left].
    destruct HX as [Y1 Y2 Y3 Y4 Y5 Y6]. split; auto. intros e' He'. right. auto.
Qed.

Lemma rest_of_build a0 ac af : rest_of a0 (build_after a0 ac af).
Proof.
  unfold build_after. destruct (check _ ac af); [left; reflexivity|right].
  destruct a0 as [ids al su fa]; simpl. destruct al, su, fa; simpl; repeat split; auto; try discriminate; set_solver.
Qed.

Lemma dispatch_submission14 fuel m md s : I14 s -> wp (dispatch_submission hwm scheme fuel m md) (fun _ => I14) I14 s.
Proof.
  intros [HI HX]. unfold dispatch_submission. apply wp_bind, wp_upd, wp_bind, wp_upd, wp_bind, wp_upd.
  set (s1 := set_retries _ _).
  assert (H1 : I09 s1) by (apply (inv_log scheme); [exact HI|discriminate]).
  assert (X1 : X14 s1).
  { unfold X14. simpl. apply (inv14_log _ _ _ _ _ _ (ObsSubmit m md)); [|set_solver].
    destruct HX as [Y1 Y2 Y3 Y4 Y5 Y6]. split; auto. set_solver. }
  apply wp_bind. destruct (from_dict (t_after md)) as [a0|] eqn:Ea; [|apply wp_raise; split; assumption]. apply wp_ret.
  apply wp_bind, wp_get, wp_bind, wp_get. cbv zeta.
  apply wp_bind. destruct (from_dict (t_follow md)) as [fo|] eqn:Ef; [|apply wp_raise; split; assumption]. apply wp_ret.
  apply wp_bind, wp_get, wp_bind, wp_upd, wp_bind, wp_upd.
  set (ac := s_all_completed s1). set (af := s_all_failed s1).
  set (jb := Job m md (list_to_set (t_targets md)) (build_after a0 ac af) fo (t_timeout md) false 0 ∅).
  set (s2 := set_jobs _ _).
  assert (Htne : t_targets md <> [] -> j_targets jb <> ∅).
  { simpl. destruct (t_targets md) as [|x l]; [congruence|]. intros _. simpl. set_solver. }
  assert (Hjb : job_ok ac af (s_log s1) jb).
  { split; [simpl; apply elem_of_app; right; left|]. split; [exact Ef|]. split.
    - exists a0. split; [exact Ea|]. intros c f Hc Hf. simpl. apply build_after_ok; assumption.
    - split; [simpl; intros e; rewrite elem_of_list_to_set; auto|].
      simpl in *. intros Hn E. destruct (Htne Hn E). }
  assert (H2 : I09 s2).
  { destruct H1 as [L1 L2 L3 L4 L5 L6 L7 L7b L8 L9]. split; auto.
    - intros j' jb'. simpl. rewrite lookup_insert_Some. intros [(<- & <-)|(Hne & Hj')]; [exact Hjb|].
      eapply L5; eauto.
    - simpl. intros j' Hle. rewrite lookup_insert_ne by lia. apply L6. simpl. lia.
    - intros e l x Hl Hx. destruct (L8 e l x Hl Hx) as (jb' & F1 & F). exists jb'. split; [|exact F].
      simpl. rewrite lookup_insert_ne; [exact F1|]. intros E.
      pose proof (L6 (s_next s1) (le_n _)) as F2. simpl in F1, F2. rewrite <- E in F1. simpl in F1. congruence. }
  assert (X2 : X14 s2).
  { destruct X1 as [Y1 Y2 Y3 Y4 Y5 Y6]. split; auto. simpl. intros j' jb'. rewrite lookup_insert_Some.
    intros [(<- & <-)|(Hne & Hj')]; [|apply (Y4 _ _ Hj')]. split; simpl; auto.
    - set_solver.
    - exists a0. split; [exact Ea|apply rest_of_build].
    - intros e He. left. apply elem_of_list_to_set. exact He. }
  assert (Hj2 : s_jobs s2 !! s_next s1 = Some jb).
  { simpl. rewrite lookup_insert. reflexivity. }
  assert (HI2 : I14 s2) by (split; assumption).
  assert (HR : forall w, reason s2 m w -> justified (s_log s2) m w) by (intros w; apply reason_justified; exact HI2).
  apply wp_bind, wp_get. cbv zeta.
  destruct (bool_decide (d_ids (build_after a0 _ _) <> ∅ /\ _)) eqn:D1.
  { apply (fail_now_keeps _ _ _ _ _ kept14); [exact HI2|]. apply HR. exists (s_next s1), jb. split; [exact Hj2|]. split; [reflexivity|].
    left. apply bool_decide_eq_true in D1. exact D1. }
  destruct (bool_decide _ && _) eqn:D2.
  { apply (fail_now_keeps _ _ _ _ _ kept14); [exact HI2|]. apply HR. exists (s_next s1), jb. split; [exact Hj2|]. split; [reflexivity|].
    left. apply andb_true_iff in D2 as [_ D2]. exact D2. }
  destruct (bool_decide (d_ids fo <> ∅ /\ _)) eqn:D3.
  { apply (fail_now_keeps _ _ _ _ _ kept14); [exact HI2|]. apply HR. exists (s_next s1), jb. split; [exact Hj2|]. split; [reflexivity|].
    right. apply bool_decide_eq_true in D3. exact D3. }
  destruct (bool_decide (d_ids fo <> ∅) && _) eqn:D4.
  { apply (fail_now_keeps _ _ _ _ _ kept14); [exact HI2|]. apply HR. exists (s_next s1), jb. split; [exact Hj2|]. split; [reflexivity|].
    right. left. apply andb_true_iff in D4 as [_ D4]. exact D4. }
  destruct (check (build_after a0 _ _) _ _) eqn:Ec; [|apply (save_unmet_keeps _ _ _ _ kept14); exact HI2].
  apply (run_or_save_keeps _ _ _ _ _ kept14) with (jb := jb); auto. split; assumption.
Qed.

Lemma handle14 fuel ev s : I14 s -> wp (handle hwm scheme fuel ev) (fun _ => I14) I14 s.
Proof.
  intros HI. destruct ev as [m md|m e k|e|e|e|j tid]; simpl.
  - apply dispatch_submission14, HI.
  - apply dispatch_result14, HI.
  - apply register14, HI.
  - apply unregister14, HI.
  - apply wp_bind, wp_get. destruct (index_of _ _); [|apply wp_ret; exact HI].
    apply wp_bind, wp_upd. apply stranded14. exact HI.
  - apply wp_bind, wp_get. destruct (decide _) as [Hin|_]; [|apply wp_ret; exact HI].
    apply wp_bind, wp_upd. apply (job_timeout_keeps _ _ _ _ _ kept14).
    + destruct HI as [HI [Y1 Y2 Y3 Y4 Y5 Y6]]. split; [exact HI|]. split; auto. simpl. intros j' n'. rewrite elem_of_list_filter. intros [_ ?]. eauto.
    + simpl. intros jb Hj Htid. apply reason_justified; [exact HI|]. exists j, jb. split; [exact Hj|]. split; [reflexivity|].
      rewrite Htid. destruct HI as [_ HX]. eapply (x_jt _ _ _ _ _ _ HX). exact Hin.
Qed.

Lemma I14_init : I14 init.
Proof.
  split; [apply I09_init|]. split; simpl.
  - intros d [md Hd]. inversion Hd.
  - intros m e. rewrite lookup_empty. discriminate.
  - intros e. discriminate.
  - intros j jb. rewrite lookup_empty. discriminate.
  - intros j n Hin. inversion Hin.
  - intros t m w t' Heq. destruct t; discriminate.
Qed.

Lemma blame ok s : reachable hwm scheme ok s ->
  forall t m w t', s_log s = t ++ ObsReply m (Unreachable w) :: t' -> justified t m w.
Proof.
  intros Hr. assert (I14 s) as [_ HX]; [|apply HX].
  revert Hr. apply reachable_inv; [apply I14_init|]. intros s' ev fuel HI _. apply handle14. exact HI.
Qed.
End Blame.
