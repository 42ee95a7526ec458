(** The default high-water mark (1): every task follows its life cycle - one delivery at a time,
    one reply, never back to an engine that gave it back. *)
From stdpp Require Import base gmap sets list.
From Verif Require Import Dependency_Model Sched_Trace Sched_Spec Sched_Model Sched_Env Sched_Base Sched_Traverse Sched_Load.
From Verif Require Prelude.
From Coq Require Import ZArith Lia.

(** * Phases *)
Lemma phase_snoc t o m : phase_of (t ++ [o]) m = phase_step m (phase_of t m) o.
Proof. unfold phase_of. rewrite foldl_app. reflexivity. Qed.

Definition about (o : obs) : option nat :=
  match o with ObsSubmit m _ | ObsSend m _ | ObsResult m _ _ | ObsReply m _ => Some m | _ => None end.
Lemma phase_other t o m : about o <> Some m -> phase_of (t ++ [o]) m = phase_of t m.
Proof.
  intros H. rewrite phase_snoc. destruct o; simpl in *; try reflexivity;
    (destruct (decide (m = _)) as [->|]; [congruence|reflexivity]).
Qed.
Lemma phase_submit t m md : phase_of t m = Unknown -> phase_of (t ++ [ObsSubmit m md]) m = Waiting.
Proof. intros H. rewrite phase_snoc, H. simpl. rewrite decide_True by reflexivity. reflexivity. Qed.
Lemma phase_send t m e : phase_of t m = Waiting -> phase_of (t ++ [ObsSend m e]) m = OnEngine e.
Proof. intros H. rewrite phase_snoc, H. simpl. rewrite decide_True by reflexivity. reflexivity. Qed.
Lemma phase_result t m e k : phase_of t m = OnEngine e -> phase_of (t ++ [ObsResult m e k]) m = Waiting.
Proof. intros H. rewrite phase_snoc, H. simpl. rewrite !decide_True by reflexivity. reflexivity. Qed.
Lemma phase_reply t m r : phase_of t m = Waiting -> phase_of (t ++ [ObsReply m r]) m = Replied.
Proof. intros H. rewrite phase_snoc, H. simpl. rewrite decide_True by reflexivity. reflexivity. Qed.

Lemma phase_submitted t m : phase_of t m <> Broken -> phase_of t m <> Unknown -> submitted t m.
Proof.
  induction t as [|o t IH] using rev_ind; intros Hb Hu; [destruct (Hu eq_refl)|].
  destruct (decide (about o = Some m)) as [Ha|Ha].
  - rewrite phase_snoc in Hb, Hu.
    destruct o as [m' md| | |m' e|m' e k|m' r]; simpl in Ha; try discriminate; injection Ha as ->.
    + exists md. apply elem_of_app. right. left.
    + simpl in *. rewrite decide_True in Hb, Hu by reflexivity.
      destruct IH as [md H]; [destruct (phase_of t m); congruence|destruct (phase_of t m); congruence|].
      exists md. apply elem_of_app. auto.
    + simpl in *. rewrite decide_True in Hb, Hu by reflexivity.
      destruct IH as [md H]; [destruct (phase_of t m); congruence|destruct (phase_of t m); congruence|].
      exists md. apply elem_of_app. auto.
    + simpl in *. rewrite decide_True in Hb, Hu by reflexivity.
      destruct IH as [md H]; [destruct (phase_of t m); congruence|destruct (phase_of t m); congruence|].
      exists md. apply elem_of_app. auto.
  - rewrite phase_other in Hb, Hu by exact Ha. destruct IH as [md H]; auto.
    exists md. apply elem_of_app. auto.
Qed.

Section Once.
Context (scheme : nat -> list Z -> nat).
Let hwm := 1.

Definition no_repeat (log : list obs) : Prop :=
  forall t m e t', log = t ++ ObsSend m e :: t' -> forall k, ObsResult m e k ∉ t.

(** Retry budget: sends so far, and what is left, except for the task [y] being settled. *)
Definition budget (y : option nat) (rt : gmap nat nat) (log : list obs) : Prop :=
  forall m md, ObsSubmit m md ∈ log ->
    sends log m <= S (t_retries md + refusals log m) /\
    (y <> Some m ->
      (phase_of log m = Waiting -> exists k, rt !! m = Some k /\ sends log m + k <= t_retries md + refusals log m) /\
      (forall e, phase_of log m = OnEngine e ->
         exists k, rt !! m = Some k /\ sends log m + k <= S (t_retries md + refusals log m))).

Lemma sends_snoc t o m : sends (t ++ [o]) m = sends t m + if is_send m o then 1 else 0.
Proof. unfold sends. rewrite List.filter_app, app_length. simpl. destruct (is_send m o); reflexivity. Qed.
Lemma refusals_snoc t o m : refusals (t ++ [o]) m = refusals t m + if is_result m RUnmet o then 1 else 0.
Proof. unfold refusals. rewrite List.filter_app, app_length. simpl. destruct (is_result m RUnmet o); reflexivity. Qed.

(** Observations about other tasks do not touch the budget of [m]. *)
Lemma not_about_counts o m : about o <> Some m -> is_send m o = false /\ is_result m RUnmet o = false.
Proof.
  destruct o; simpl; intros H; auto; rewrite bool_decide_eq_false_2 by congruence; auto.
Qed.

(** [X]: engines whose stranded tasks are being handled; a task being settled. *)
Record inv11 (X : list nat * option nat) (jobs : gmap nat job) (next : nat) (tg : list nat) (ld : list Z) (L : list nat)
  (qm : gmap nat nat) (rt : gmap nat nat) (pd : gmap nat (list (nat * nat))) (tm : list nat)
  (log : list obs) : Prop := Inv11 {
  w_next : forall j, next <= j -> jobs !! j = None;
  w_inj : forall j1 j2 b1 b2, jobs !! j1 = Some b1 -> jobs !! j2 = Some b2 -> j_msg b1 = j_msg b2 -> j1 = j2;
  w_sub : forall j jb, jobs !! j = Some jb -> phase_of log (j_msg jb) <> Unknown;
  w_nodup : NoDup L;
  w_live : forall j, j ∈ L -> exists jb, jobs !! j = Some jb /\
      (j_removed jb = false -> phase_of log (j_msg jb) = Waiting);
  w_qm : forall m j, qm !! m = Some j -> exists jb, jobs !! j = Some jb /\ j_msg jb = m /\ phase_of log m = Waiting;
  w_keys : forall e l, pd !! e = Some l -> NoDup l.*1;
  w_pd : forall e l m j, pd !! e = Some l -> (m, j) ∈ l -> exists jb, jobs !! j = Some jb /\ j_msg jb = m /\
      j_removed jb = false /\ phase_of log m = OnEngine e /\ e ∉ j_blacklist jb;
  w_on : forall m e, phase_of log m = OnEngine e -> exists l, pd !! e = Some l /\ m ∈ l.*1;
  w_ok : forall m, phase_of log m <> Broken;
  w_tg : NoDup tg;
  w_len : length ld = length tg;
  w_load : forall i e, tg !! i = Some e -> exists l, pd !! e = Some l /\ ld !! i = Some (Z.of_nat (length l));
  w_bud : budget X.2 rt log;
  w_tm : forall e, e ∈ tm \/ e ∈ X.1 -> e ∉ tg /\ ObsRegister e ∈ log;
  w_regpd : forall e l, pd !! e = Some l -> ObsRegister e ∈ log;
  w_strand : forall e l, pd !! e = Some l -> l <> [] -> e ∈ tg \/ e ∈ tm \/ e ∈ X.1;
  w_black : forall m e k, ObsResult m e k ∈ log -> phase_of log m = Replied \/
      exists j jb, jobs !! j = Some jb /\ j_msg jb = m /\ e ∈ j_blacklist jb;
  w_norepeat : no_repeat log }.

Definition I11 (X : list nat * option nat) (F : list nat) (s : sched) : Prop :=
  inv11 X (s_jobs s) (s_next s) (s_targets s) (s_loads s) (F ++ s_queue s) (s_qmap s) (s_retries s)
        (s_pending s) (s_strand_timers s) (s_log s).

(** ** Elementary changes *)
Lemma inv11_L X jobs next tg ld L L' qm rt pd tm log :
  L' ⊆+ L -> inv11 X jobs next tg ld L qm rt pd tm log -> inv11 X jobs next tg ld L' qm rt pd tm log.
Proof.
  intros Hs [H1 H2 H3 H4 H5 H6 H7 H8 H9 H10 H11 H12 H13 H14 H15 H16 H17 H18 H19]. split; auto.
  - apply submseteq_Permutation in Hs as [k Hs]. rewrite Hs in H4. apply NoDup_app in H4. tauto.
  - intros j Hj. apply H5. eapply elem_of_submseteq; eauto.
Qed.
Lemma I11_frame X F F' s : F' ⊆+ F -> I11 X F s -> I11 X F' s.
Proof. intros Hs. apply inv11_L. apply submseteq_app; [exact Hs|reflexivity]. Qed.
Lemma I11_drop X F s : I11 X F s -> I11 X [] s.
Proof. apply I11_frame, submseteq_nil_l. Qed.

Lemma inv11_qm_delete X jobs next tg ld L qm rt pd tm log m :
  inv11 X jobs next tg ld L qm rt pd tm log -> inv11 X jobs next tg ld L (delete m qm) rt pd tm log.
Proof.
  intros [H1 H2 H3 H4 H5 H6 H7 H8 H9 H10 H11 H12 H13 H14 H15 H16 H17 H18 H19]. split; auto.
  intros m' j. rewrite lookup_delete_Some. intros [_ ?]. auto.
Qed.
Lemma inv11_qm_insert X jobs next tg ld L qm rt pd tm log j jb :
  inv11 X jobs next tg ld L qm rt pd tm log -> jobs !! j = Some jb -> phase_of log (j_msg jb) = Waiting ->
  inv11 X jobs next tg ld L (<[j_msg jb := j]> qm) rt pd tm log.
Proof.
  intros [H1 H2 H3 H4 H5 H6 H7 H8 H9 H10 H11 H12 H13 H14 H15 H16 H17 H18 H19] Hj Hp. split; auto.
  intros m' j'. rewrite lookup_insert_Some. intros [(<- & <-)|(Hne & ?)]; [|auto].
  exists jb. auto.
Qed.

(** Changing a job that is not on an engine, or changing it in a way that does not matter there. *)
Lemma inv11_alter X jobs next tg ld L qm rt pd tm log j f :
  inv11 X jobs next tg ld L qm rt pd tm log ->
  (forall jb, j_msg (f jb) = j_msg jb /\ j_blacklist jb ⊆ j_blacklist (f jb) /\
              (j_removed jb = true -> j_removed (f jb) = true)) ->
  (forall jb e, jobs !! j = Some jb -> phase_of log (j_msg jb) = OnEngine e -> 
      j_removed (f jb) = j_removed jb /\ j_blacklist (f jb) = j_blacklist jb) ->
  inv11 X (alter f j jobs) next tg ld L qm rt pd tm log.
Proof.
  intros [H1 H2 H3 H4 H5 H6 H7 H8 H9 H10 H11 H12 H13 H14 H15 H16 H17 H18 H19] Hf Hon.
  assert (Hlk : forall j' jb', jobs !! j' = Some jb' -> exists jb2, alter f j jobs !! j' = Some jb2 /\
     j_msg jb2 = j_msg jb' /\ j_blacklist jb' ⊆ j_blacklist jb2 /\ (j_removed jb' = true -> j_removed jb2 = true) /\
     (forall e, phase_of log (j_msg jb') = OnEngine e -> j_removed jb2 = j_removed jb' /\ j_blacklist jb2 = j_blacklist jb')).
  { intros j' jb' Hj'. destruct (decide (j' = j)) as [->|Hne].
    - exists (f jb'). rewrite lookup_alter, Hj'. destruct (Hf jb') as (? & ? & ?). repeat split; auto; eapply Hon; eauto.
    - exists jb'. rewrite lookup_alter_ne by congruence. auto 10. }
  assert (Hlk' : forall j' jb2, alter f j jobs !! j' = Some jb2 -> exists jb', jobs !! j' = Some jb' /\ j_msg jb2 = j_msg jb').
  { intros j' jb2. rewrite lookup_alter_Some. intros [(-> & jb & Hj & ->)|(Hne & Hj)]; [|eauto].
    exists jb. split; [exact Hj|]. apply Hf. }
  split; auto.
  - intros j' Hle. rewrite lookup_alter_None. auto.
  - intros j1 j2 b1 b2 Hb1 Hb2 E. apply Hlk' in Hb1 as (c1 & Hc1 & E1). apply Hlk' in Hb2 as (c2 & Hc2 & E2).
    eapply H2; eauto. congruence.
  - intros j' jb2 Hj'. apply Hlk' in Hj' as (jb' & Hj' & ->). eauto.
  - intros j' Hj'. destruct (H5 j' Hj') as (jb' & E1 & E2). destruct (Hlk j' jb' E1) as (jb2 & F1 & F2 & F3 & F4 & F5).
    exists jb2. split; [exact F1|]. intros Hr. rewrite F2. apply E2. destruct (j_removed jb'); [|reflexivity].
    rewrite F4 in Hr by reflexivity. discriminate.
  - intros m' j' Hq. destruct (H6 m' j' Hq) as (jb' & E1 & E2 & E3). destruct (Hlk j' jb' E1) as (jb2 & F1 & F2 & _).
    exists jb2. rewrite F2. auto.
  - intros e l m' j' Hl Hin. destruct (H8 e l m' j' Hl Hin) as (jb' & E1 & E2 & E3 & E4 & E5).
    destruct (Hlk j' jb' E1) as (jb2 & F1 & F2 & F3 & F4 & F5).
    destruct (F5 e) as [G1 G2]; [congruence|]. exists jb2. rewrite F2, G1, G2. auto.
  - intros m' e k Hin. destruct (H18 m' e k Hin) as [?|(j' & jb' & E1 & E2 & E3)]; [auto|right].
    destruct (Hlk j' jb' E1) as (jb2 & F1 & F2 & F3 & _). exists j', jb2. rewrite F2. set_solver.
Qed.

(** Adding an observation: what has to be checked. *)
Lemma no_repeat_app log o :
  no_repeat log -> (forall m e, o = ObsSend m e -> forall k, ObsResult m e k ∉ log) -> no_repeat (log ++ [o]).
Proof.
  intros H Ho t m e t' Heq.
  destruct t' as [|o' t'] using rev_ind.
  - apply app_inj_tail in Heq as [-> ->]. apply (Ho m e). reflexivity.
  - clear IHt'. rewrite app_comm_cons, app_assoc in Heq. apply app_inj_tail in Heq as [-> ->].
    eapply H. reflexivity.
Qed.

(** An observation about no task. *)
Lemma inv11_quiet X jobs next tg ld L qm rt pd tm log o :
  about o = None -> inv11 X jobs next tg ld L qm rt pd tm log ->
  inv11 X jobs next tg ld L qm rt pd tm (log ++ [o]).
Proof.
  intros Ha [H1 H2 H3 H4 H5 H6 H7 H8 H9 H10 H11 H12 H13 H14 H15 H16 H17 H18 H19].
  assert (Hp : forall m, phase_of (log ++ [o]) m = phase_of log m) by (intros m; apply phase_other; congruence).
  split; auto.
  - intros j jb Hj. rewrite Hp. eauto.
  - intros j Hj. destruct (H5 j Hj) as (jb & ? & ?). exists jb. rewrite Hp. auto.
  - intros m j Hj. rewrite Hp. auto.
  - intros e l m j Hl Hin. rewrite Hp. eauto.
  - intros m e. rewrite Hp. auto.
  - intros m. rewrite Hp. auto.
  - intros m md Hin. destruct (not_about_counts o m) as [C1 C2]; [congruence|].
    rewrite sends_snoc, refusals_snoc, C1, C2, !Nat.add_0_r, Hp. apply H14.
    apply elem_of_app in Hin as [Hin|Hin]; [exact Hin|]. apply elem_of_list_singleton in Hin. subst o. discriminate.
  - intros e He. destruct (H15 e He). split; [assumption|]. apply elem_of_app; auto.
  - intros e l Hl. apply elem_of_app. eauto.
  - intros m e k Hin. rewrite Hp. eapply H18. apply elem_of_app in Hin as [Hin|Hin]; [exact Hin|].
    apply elem_of_list_singleton in Hin; subst o; discriminate.
  - apply no_repeat_app; [exact H19|]. intros m e ->. discriminate.
Qed.

(** The final reply of a waiting task that is nowhere any more. *)
Lemma inv11_reply X jobs next tg ld L qm rt pd tm log m r :
  phase_of log m = Waiting -> qm !! m = None ->
  (forall j jb, jobs !! j = Some jb -> j_msg jb = m -> j ∈ L -> j_removed jb = true) ->
  inv11 X jobs next tg ld L qm rt pd tm log ->
  inv11 X jobs next tg ld L qm rt pd tm (log ++ [ObsReply m r]).
Proof.
  intros Hw Hq Hrem [H1 H2 H3 H4 H5 H6 H7 H8 H9 H10 H11 H12 H13 H14 H15 H16 H17 H18 H19].
  set (o := ObsReply m r).
  assert (Hm : phase_of (log ++ [o]) m = Replied) by (apply phase_reply; exact Hw).
  assert (Hp : forall m', m' <> m -> phase_of (log ++ [o]) m' = phase_of log m').
  { intros m' Hne. apply phase_other. simpl. congruence. }
  split; auto.
  - intros j jb Hj. destruct (decide (j_msg jb = m)) as [->|Hne]; [rewrite Hm; discriminate|rewrite Hp by exact Hne; eauto].
  - intros j Hj. destruct (H5 j Hj) as (jb & E1 & E2). exists jb. split; [exact E1|]. intros Hr.
    destruct (decide (j_msg jb = m)) as [E|Hne]; [rewrite (Hrem j jb E1 E Hj) in Hr; discriminate|].
    rewrite Hp by exact Hne. auto.
  - intros m' j Hj. destruct (decide (m' = m)) as [->|Hne]; [congruence|]. rewrite Hp by exact Hne. auto.
  - intros e l m' j Hl Hin. destruct (H8 e l m' j Hl Hin) as (jb & E1 & E2 & E3 & E4 & E5).
    exists jb. rewrite Hp; [auto|]. intros ->. congruence.
  - intros m' e Hon. destruct (decide (m' = m)) as [->|Hne]; [congruence|]. rewrite Hp in Hon by exact Hne. auto.
  - intros m'. destruct (decide (m' = m)) as [->|Hne]; [rewrite Hm; discriminate|]. rewrite Hp by exact Hne. auto.
  - intros m' md Hin. apply elem_of_app in Hin as [Hin|Hin]; [|apply elem_of_list_singleton in Hin; discriminate].
    rewrite sends_snoc, refusals_snoc. simpl. rewrite !Nat.add_0_r. destruct (H14 m' md Hin) as [A B].
    split; [exact A|]. intros Hy. destruct (decide (m' = m)) as [->|Hne].
    + rewrite Hm. split; [|intros e]; discriminate.
    + rewrite Hp by exact Hne. auto.
  - intros e He. destruct (H15 e He). split; [assumption|]. apply elem_of_app; auto.
  - intros e l Hl. apply elem_of_app. eauto.
  - intros m' e k Hin. apply elem_of_app in Hin as [Hin|Hin]; [|apply elem_of_list_singleton in Hin; discriminate].
    destruct (decide (m' = m)) as [->|Hne]; [auto|]. rewrite Hp by exact Hne. eauto.
  - apply no_repeat_app; [exact H19|]. discriminate.
Qed.

(** ** What the inner functions guarantee *)
Definition full (s : sched) : Prop := available_engines hwm s = [].
Definition ext (s s' : sched) : Prop := s_all_failed s ⊆ s_all_failed s' /\ (full s -> full s').
Lemma ext_refl s : ext s s.
Proof. split; auto. Qed.
Lemma ext_trans s1 s2 s3 : ext s1 s2 -> ext s2 s3 -> ext s1 s3.
Proof. intros [A B] [C D]. split; [set_solver|auto]. Qed.

Context (X : list nat * option nat) (HX : X.2 = None).
Definition good (ug : option nat -> M unit) : Prop :=
  forall d F s, I11 X F s -> wp (ug d) (fun _ s' => I11 X F s' /\ ext s s') (I11 X []) s.

Lemma fail_unreachable_good ug m w F s :
  good ug -> I11 X F s ->
  wp (fail_unreachable ug m w)
     (fun _ s' => I11 X F s' /\ ext s s' /\ (is_Some (s_qmap s !! m) -> m ∈ s_all_failed s')) (I11 X []) s.
Proof.
  intros Hug HI. unfold fail_unreachable. apply wp_bind, wp_get.
  destruct (s_qmap s !! m) as [j|] eqn:Eq.
  2:{ apply wp_ret. split; [exact HI|]. split; [apply ext_refl|]. intros [? ?]. discriminate. }
  destruct (w_qm _ _ _ _ _ _ _ _ _ _ _ HI m j Eq) as (jb & Ej & Em & Ep).
  apply wp_bind, wp_upd. apply wp_bind, wp_upd.
  set (s1 := set_jobs (alter set_removed j) (set_qmap (delete m) s)).
  assert (HI1 : I11 X F s1).
  { apply inv11_alter.
    - apply inv11_qm_delete. exact HI.
    - intros jb'. simpl. auto.
    - intros jb' e Hj' Hon. simpl in Hj'. rewrite Ej in Hj'. injection Hj' as <-. simpl in Hon. congruence. }
  assert (Hj1 : s_jobs s1 !! j = Some (set_removed jb)).
  { simpl. rewrite lookup_alter, Ej. reflexivity. }
  apply wp_bind, wp_get_job; [|intros E; congruence]. intros jb1 Hjb1.
  rewrite Hj1 in Hjb1. injection Hjb1 as <-.
  apply wp_bind, wp_graph_remove; intros g; [|eapply I11_drop; exact HI1].
  apply wp_bind, wp_upd. apply wp_bind, wp_upd. apply wp_bind, wp_upd.
  set (s2 := set_log _ _).
  assert (HI2 : I11 X F s2).
  { apply inv11_reply; [exact Ep| | |exact HI1].
    - simpl. apply lookup_delete.
    - intros j' jb' Hj' Hm' _. simpl in Hj'.
      assert (j' = j).
      { eapply (w_inj _ _ _ _ _ _ _ _ _ _ _ HI1); [exact Hj'|exact Hj1|]. simpl. congruence. }
      subst j'. rewrite lookup_alter, Ej in Hj'. injection Hj' as <-. reflexivity. }
  eapply wp_mono; [apply Hug; exact HI2| |auto].
  intros [] s' [HI' [He1 He2]]. split; [exact HI'|].
  assert (Hex : ext s s2).
  { split; [simpl; set_solver|]. intros Hf. exact Hf. }
  split; [eapply ext_trans; [exact Hex|split; assumption]|].
  intros _. apply He1. simpl. set_solver.
Qed.

(** The job just looked at is kept in the frame, last. *)
Definition settled (F : list nat) (j m : nat) (s s' : sched) : Prop :=
  I11 X (F ++ [j]) s' /\ ext s s' /\
  (m ∈ s_all_failed s' \/ exists jb, s_jobs s' !! j = Some jb /\ j_msg jb = m /\ j_removed jb = false).

Lemma fail_here ug j jb w F s :
  good ug -> I11 X (F ++ [j]) s -> s_jobs s !! j = Some jb -> phase_of (s_log s) (j_msg jb) = Waiting ->
  wp (upd (set_qmap (<[j_msg jb := j]>)) ;; fail_unreachable ug (j_msg jb) w)
     (fun _ s' => settled F j (j_msg jb) s s') (I11 X []) s.
Proof.
  intros Hug HI Hj Hp. apply wp_bind, wp_upd.
  set (s1 := set_qmap _ s).
  assert (HI1 : I11 X (F ++ [j]) s1) by (apply inv11_qm_insert; assumption).
  eapply wp_mono; [apply fail_unreachable_good; [exact Hug|exact HI1]| |auto].
  intros [] s' (H1 & H2 & H3). split; [exact H1|]. split; [exact H2|]. left. apply H3.
  simpl. rewrite lookup_insert. eauto.
Qed.

Lemma live_waiting F s j jb :
  I11 X (F ++ [j]) s -> s_jobs s !! j = Some jb -> j_removed jb = false ->
  phase_of (s_log s) (j_msg jb) = Waiting.
Proof.
  intros HI Hj Hr. destruct (w_live _ _ _ _ _ _ _ _ _ _ _ HI j) as (jb' & E1 & E2).
  - rewrite <- app_assoc. apply elem_of_app. right. left.
  - rewrite Hj in E1. injection E1 as <-. auto.
Qed.

Lemma check_targets_good ug j jb F s :
  good ug -> I11 X (F ++ [j]) s -> s_jobs s !! j = Some jb -> j_removed jb = false ->
  wp (check_targets ug j) (fun b s' => b = false /\ settled F j (j_msg jb) s s') (I11 X []) s.
Proof.
  intros Hug HI Hj Hr. pose proof (live_waiting _ _ _ _ HI Hj Hr) as Hp. unfold check_targets.
  apply wp_bind, wp_get_job; [|intros E; congruence]. intros jb' E. rewrite Hj in E. injection E as <-.
  destruct (decide (j_targets jb = ∅)).
  { apply wp_ret. split; [reflexivity|]. split; [exact HI|]. split; [apply ext_refl|]. eauto. }
  apply wp_bind, wp_upd.
  set (s1 := set_jobs (alter (fun x => set_jtargets (j_targets x ∖ j_blacklist x) x) j) s).
  assert (Hj1 : s_jobs s1 !! j = Some (shrink jb)).
  { simpl. rewrite lookup_alter, Hj. reflexivity. }
  assert (HI1 : I11 X (F ++ [j]) s1).
  { apply inv11_alter; [exact HI|intros; simpl; auto|intros; simpl; auto]. }
  apply wp_bind, wp_get_job; [|intros E; congruence]. intros jb1 Hjb1.
  rewrite Hj1 in Hjb1. injection Hjb1 as <-.
  apply wp_bind, wp_get.
  destruct (decide _) as [Hd|Hd].
  - change (wp ((upd (set_qmap (<[j_msg (shrink jb) := j]>)) ;; (fail_unreachable ug (j_msg (shrink jb)) ImpossibleDep ;; ret false)))
      (fun b s' => b = false /\ settled F j (j_msg jb) s s') (I11 X []) s1).
    apply wp_bind, wp_upd, wp_bind.
    pose proof (fail_here ug j (shrink jb) ImpossibleDep F s1 Hug HI1 Hj1 Hp) as Hf.
    apply wp_bind_inv in Hf.
    eapply wp_mono; [exact Hf| |auto].
    intros [] s' (A & B & C). apply wp_ret. split; [reflexivity|]. split; [exact A|]. split; [exact B|exact C].
  - apply wp_ret. split; [reflexivity|]. split; [exact HI1|]. split; [split; auto|]. right. eexists; split; [exact Hj1|]. auto.
Qed.

Lemma available_spec s i : i ∈ available_engines hwm s ->
  exists ld e, s_loads s !! i = Some ld /\ s_targets s !! i = Some e /\ (ld < 1)%Z.
Proof.
  unfold available_engines. rewrite decide_False by discriminate. intros Hin.
  apply elem_of_list_In, filter_In in Hin as [Hin Hlt].
  apply in_seq in Hin. destruct (lookup_lt_is_Some_2 (s_targets s) i) as [e He]; [lia|].
  destruct (s_loads s !! i) as [ld|]; [|discriminate]. apply bool_decide_eq_true in Hlt.
  exists ld, e. auto.
Qed.

Lemma can_run_black s jb i e : s_targets s !! i = Some e -> can_run hwm s jb i = Some true -> e ∉ j_blacklist jb.
Proof.
  intros He. unfold can_run. rewrite He. destruct (s_loads s !! i); [|discriminate].
  destruct (decide _); [discriminate|]. destruct (decide (e ∈ j_blacklist jb)); [discriminate|auto].
Qed.

Lemma inv11_send jobs next tg ld F q qm rt pd tm log j jb idx target l :
  inv11 X jobs next tg ld ((F ++ [j]) ++ q) qm rt pd tm log ->
  jobs !! j = Some jb -> j_removed jb = false -> phase_of log (j_msg jb) = Waiting ->
  tg !! idx = Some target -> target ∉ j_blacklist jb -> pd !! target = Some l -> X.2 <> Some (j_msg jb) ->
  inv11 X jobs next (rotate idx tg) (rotate idx (alter (fun x => (x + 1)%Z) idx ld)) (F ++ q)
    (delete (j_msg jb) qm) rt (<[target := al_insert (j_msg jb) j l]> pd) tm (log ++ [ObsSend (j_msg jb) target]).
Proof.
  intros HI Hj Hr Hw Htg Hnb Hl Hy. set (m := j_msg jb). set (o := ObsSend m target).
  assert (Hm : phase_of (log ++ [o]) m = OnEngine target) by (apply phase_send; exact Hw).
  assert (Hp : forall m', m' <> m -> phase_of (log ++ [o]) m' = phase_of log m').
  { intros m' Hne. apply phase_other. simpl. congruence. }
  destruct HI as [H1 H2 H3 H4 H5 H6 H7 H8 H9 H10 H11 H12 H13 H14 H15 H16 H17 H18 H19].
  assert (Hnotin : forall e l' j', pd !! e = Some l' -> (m, j') ∉ l').
  { intros e l' j' Hl' Hin. destruct (H8 e l' m j' Hl' Hin) as (jb' & _ & _ & _ & E & _). unfold m in *. congruence. }
  assert (Hmk : m ∉ l.*1).
  { rewrite elem_of_list_fmap. intros ([m' j'] & E & Hin). simpl in E. subst m'. eapply Hnotin; eauto. }
  assert (Hsub : F ++ q ⊆+ (F ++ [j]) ++ q).
  { rewrite <- app_assoc. apply submseteq_app; [reflexivity|]. simpl. apply submseteq_cons. reflexivity. }
  split; auto.
  - intros j' jb' Hj'. destruct (decide (j_msg jb' = m)) as [->|Hne]; [rewrite Hm; discriminate|rewrite Hp by exact Hne; eauto].
  - apply submseteq_Permutation in Hsub as [k Hs]. rewrite Hs in H4. apply NoDup_app in H4. tauto.
  - intros j' Hj'. destruct (H5 j') as (jb' & E1 & E2); [eapply elem_of_submseteq; eauto|].
    exists jb'. split; [exact E1|]. intros Hr'. destruct (decide (j_msg jb' = m)) as [E|Hne]; [|rewrite Hp by exact Hne; auto].
    exfalso. assert (j' = j) by (eapply H2; eauto). subst j'.
    rewrite <- app_assoc in H4. change ([j] ++ q) with (j :: q) in H4. rewrite <- Permutation_middle in H4. apply NoDup_cons in H4 as [Hn _].
    apply Hn. exact Hj'.
  - intros m' j'. rewrite lookup_delete_Some. intros [Hne Hq]. rewrite Hp by congruence. auto.
  - intros e l'. rewrite lookup_insert_Some. intros [(-> & <-)|(Hne & Hl')]; [|eauto].
    apply al_insert_nodup. eauto.
  - intros e l' m' j'. rewrite lookup_insert_Some. intros [(-> & <-)|(Hne & Hl')] Hin.
    + apply al_insert_elem in Hin as [Hin|Hin].
      * injection Hin as -> ->. exists jb. auto.
      * rewrite Hp; [eauto|]. intros ->. eapply Hnotin; eauto.
    + rewrite Hp; [eauto|]. intros ->. eapply Hnotin; eauto.
  - intros m' e Hon. destruct (decide (m' = m)) as [->|Hne].
    + rewrite Hm in Hon. injection Hon as <-. exists (al_insert m j l). rewrite lookup_insert. split; [reflexivity|].
      apply al_insert_keys. auto.
    + rewrite Hp in Hon by exact Hne. destruct (H9 m' e Hon) as (l' & E1 & E2).
      destruct (decide (e = target)) as [->|Hne'].
      * exists (al_insert m j l). rewrite lookup_insert. split; [reflexivity|]. apply al_insert_keys. right. congruence.
      * exists l'. rewrite lookup_insert_ne by congruence. auto.
  - intros m'. destruct (decide (m' = m)) as [->|Hne]; [rewrite Hm; discriminate|rewrite Hp by exact Hne; auto].
  - rewrite rotate_perm. exact H11.
  - rewrite !(Permutation_length (rotate_perm idx _)), alter_length. exact H12.
  - intros i e He. destruct (rotate_lookup_other _ _ _ _ _ He Htg) as (k' & Hk' & _ & Hall).
    rewrite Hall by (rewrite alter_length; exact H12).
    destruct (H13 k' e Hk') as (l' & E1 & E2).
    destruct (decide (k' = idx)) as [->|Hne].
    + rewrite Htg in Hk'. injection Hk' as <-. exists (al_insert m j l). rewrite lookup_insert. split; [reflexivity|].
      rewrite Hl in E1. injection E1 as <-. rewrite list_lookup_alter, E2. simpl. f_equal.
      rewrite al_insert_length by exact Hmk. lia.
    + exists l'. rewrite list_lookup_alter_ne by congruence. split; [|exact E2].
      rewrite lookup_insert_ne; [exact E1|]. intros ->. apply Hne. eapply NoDup_lookup; eauto.
  - intros m' md Hin. apply elem_of_app in Hin as [Hin|Hin]; [|apply elem_of_list_singleton in Hin; discriminate].
    destruct (H14 m' md Hin) as [A B]. destruct (decide (m' = m)) as [->|Hne].
    + rewrite sends_snoc, refusals_snoc. simpl. rewrite bool_decide_eq_true_2 by reflexivity.
      destruct (B Hy) as [B1 _]. destruct (B1 Hw) as (k & K1 & K2).
      split; [lia|]. intros _. rewrite Hm. split; [discriminate|]. intros e _. exists k. split; [exact K1|lia].
    + destruct (not_about_counts o m') as [C1 C2]; [simpl; congruence|].
      rewrite sends_snoc, refusals_snoc, C1, C2, !Nat.add_0_r, Hp by exact Hne. auto.
  - intros e He. destruct (H15 e He) as [A B]. split; [rewrite rotate_elem; exact A|apply elem_of_app; auto].
  - intros e l'. rewrite lookup_insert_Some. intros [(-> & <-)|(Hne & Hl')]; apply elem_of_app; eauto.
  - intros e l'. rewrite lookup_insert_Some, rotate_elem. intros [(-> & <-)|(Hne & Hl')] Hnn; [|eauto].
    left. eapply elem_of_list_lookup_2; eauto.
  - intros m' e k Hin. apply elem_of_app in Hin as [Hin|Hin]; [|apply elem_of_list_singleton in Hin; discriminate].
    destruct (H18 m' e k Hin) as [E|E]; [|auto]. destruct (decide (m' = m)) as [->|Hne]; [unfold m in E; congruence|].
    rewrite Hp by exact Hne. auto.
  - apply no_repeat_app; [exact H19|]. intros m' e' E k Hin. injection E as <- <-.
    destruct (H18 m target k Hin) as [E|(j' & jb' & E1 & E2 & E3)]; [unfold m in E; congruence|].
    assert (j' = j) by (eapply H2; eauto). subst j'. congruence.
Qed.

Lemma submit_task_good j jb ix F s :
  I11 X (F ++ [j]) s -> s_jobs s !! j = Some jb -> j_removed jb = false ->
  (forall i, i ∈ ix -> can_run hwm s jb i = Some true) ->
  wp (submit_task scheme j (Some ix))
     (fun _ s' => s_qmap s' = s_qmap s /\ s_all_failed s' = s_all_failed s /\
                  I11 X F (set_qmap (delete (j_msg jb)) s')) (I11 X []) s.
Proof.
  intros HI Hj Hr Hix. pose proof (live_waiting _ _ _ _ HI Hj Hr) as Hp. unfold submit_task.
  apply wp_bind, wp_get_job; [|intros E; congruence]. intros jb' E. rewrite Hj in E. injection E as <-.
  apply wp_bind, wp_get. apply wp_bind, wp_get. cbv zeta.
  apply wp_bind, wp_upd.
  assert (HId : I11 X [] (set_draws S s)) by (apply (I11_drop X (F ++ [j])); exact HI).
  apply wp_bind, wp_of_option; [|intros _; exact HId]. intros idx Hidx.
  apply elem_of_list_lookup_2, Hix in Hidx.
  apply wp_bind, wp_get. apply wp_bind, wp_of_option; [|intros _; exact HId]. intros target Ht. simpl in Ht.
  destruct (w_load _ _ _ _ _ _ _ _ _ _ _ HI idx target Ht) as (l & Hl & _).
  assert (Hk : I11 X F (set_qmap (delete (j_msg jb)) (set_pending (<[target := al_insert (j_msg jb) j l]>) (sent (j_msg jb) idx target s)))).
  { unfold I11, sent. simpl. apply inv11_send; try assumption; [eapply can_run_black; eauto|rewrite HX; discriminate]. }
  apply wp_bind, wp_upd. apply wp_bind. unfold add_job.
  apply wp_bind, wp_upd. apply wp_bind, wp_upd. apply wp_upd.
  apply wp_bind, wp_get. apply wp_bind, wp_of_option.
  - intros l' E. change (s_pending s !! target = Some l') in E. rewrite Hl in E. injection E as <-.
    apply wp_upd. split; [reflexivity|]. split; [reflexivity|]. exact Hk.
  - intros E. change (s_pending s !! target = None) in E. rewrite Hl in E. discriminate.
Qed.

Lemma maybe_run_good ug j jb F s :
  good ug -> I11 X (F ++ [j]) s -> s_jobs s !! j = Some jb -> j_removed jb = false ->
  wp (maybe_run hwm scheme ug j)
     (fun b s' => if b : bool then s_qmap s' = s_qmap s /\ ext s s' /\ I11 X F (set_qmap (delete (j_msg jb)) s')
                  else settled F j (j_msg jb) s s') (I11 X []) s.
Proof.
  intros Hug HI Hj Hr. pose proof (live_waiting _ _ _ _ HI Hj Hr) as Hp. unfold maybe_run.
  assert (Hstay : settled F j (j_msg jb) s s).
  { split; [exact HI|]. split; [apply ext_refl|]. eauto. }
  apply wp_bind, wp_get_job; [|intros E; congruence]. intros jb' E. rewrite Hj in E. injection E as <-.
  apply wp_bind, wp_get.
  destruct (decide (available_engines hwm s = [])) as [Hav|Hav]; [apply wp_ret; exact Hstay|].
  rewrite decide_True by (right; right; right; discriminate).
  apply wp_bind, wp_get. apply wp_bind, wp_of_option; [|intros _; eapply I11_drop; exact HI].
  intros ix Hix. destruct (decide (ix = [])).
  - assert (Hct : wp (check_targets ug j) (fun b s' => if b : bool then s_qmap s' = s_qmap s /\ ext s s' /\ I11 X F (set_qmap (delete (j_msg jb)) s') else settled F j (j_msg jb) s s') (I11 X []) s).
    { eapply wp_mono; [eapply check_targets_good; eauto| |auto]. intros b s' [-> H]. exact H. }
    destruct (d_all (j_follow jb)); [|exact Hct].
    apply wp_bind, wp_get. apply wp_bind, wp_of_option; [|intros _; eapply I11_drop; exact HI].
    intros dests _. destruct (decide (1 < size dests)); [|exact Hct].
    apply wp_bind, wp_upd, wp_bind.
    pose proof (fail_here ug j jb ImpossibleDep F s Hug HI Hj Hp) as Hf. apply wp_bind_inv in Hf.
    eapply wp_mono; [exact Hf| |auto]. intros [] s' H. apply wp_ret. exact H.
  - apply wp_bind. eapply wp_mono; [eapply submit_task_good; eauto| |auto].
    + intros i Hi. eapply filter_can_run_spec in Hix; [|exact Hi]. apply Hix.
    + intros [] s' (A & B & C). apply wp_ret. split; [exact A|]. split; [|exact C].
      split; [rewrite B; reflexivity|]. intros Hf. destruct (Hav Hf).
Qed.

Lemma wp_ext {A} (m : M A) (Q : A -> sched -> Prop) E s0 s :
  ext s0 s -> wp m (fun a s' => Q a s' /\ ext s s') E s -> wp m (fun a s' => Q a s' /\ ext s0 s') E s.
Proof. intros He H. eapply wp_mono; [exact H| |auto]. intros a s' [A1 A2]. split; [exact A1|]. eapply ext_trans; eauto. Qed.

Lemma I11_app_drop F j s : I11 X (F ++ [j]) s -> I11 X F s.
Proof. apply I11_frame. apply submseteq_inserts_r. reflexivity. Qed.

(** One round of the queue loop; the job is in the frame. *)
Lemma ug_body_good ug j jb F s :
  good ug -> I11 X (F ++ [j]) s -> s_jobs s !! j = Some jb -> j_removed jb = false ->
  wp (ug_body hwm scheme ug j)
     (fun r s' => (if fst r then I11 X (F ++ [j]) s' else I11 X F s') /\ ext s s') (I11 X []) s.
Proof.
  intros Hug HI Hj Hr. unfold ug_body.
  apply wp_bind, wp_get_job; [|intros E; congruence]. intros jb' E. rewrite Hj in E. injection E as <-.
  apply wp_bind, wp_get. apply wp_bind, wp_get.
  destruct (_ || _).
  - apply wp_bind. eapply wp_mono; [eapply fail_unreachable_good; [exact Hug|exact HI]| |auto].
    intros [] s' (A & B & _). apply wp_ret. simpl. split; [apply I11_app_drop in A; exact A|exact B].
  - destruct (check (j_after jb) _ _); [|apply wp_ret; simpl; split; [exact HI|apply ext_refl]].
    apply wp_bind. eapply wp_mono; [eapply maybe_run_good; eauto| |auto].
    intros ran s' H. cbv beta. destruct ran.
    + destruct H as (Eq & He & HI'). apply wp_bind, wp_get.
      destruct (decide (is_Some (s_qmap s' !! j_msg jb))) as [Hs|Hs].
      * apply wp_bind, wp_upd. apply wp_bind, wp_get_job; [|intros _; eapply I11_drop; exact HI']. intros jb2 _.
        apply wp_bind, wp_graph_remove; intros g; [|eapply I11_drop; exact HI'].
        apply wp_bind, wp_get, wp_ret. simpl. split; [exact HI'|exact He].
      * apply wp_raise. apply (I11_drop X F). unfold I11 in *. simpl in HI'.
        rewrite delete_notin in HI'; [exact HI'|]. destruct (s_qmap s' !! j_msg jb); [destruct Hs; eauto|reflexivity].
    + destruct H as (A & B & _). apply wp_ret. simpl. auto.
Qed.

Lemma queue_loop_good ug fuel : good ug -> forall F back s, I11 X (F ++ back) s ->
  wp (queue_loop hwm scheme ug fuel back) (fun back' s' => I11 X (F ++ back') s' /\ ext s s') (I11 X []) s.
Proof.
  intros Hug. induction fuel as [|fuel IH]; intros F back s HI; [exact Logic.I|].
  simpl. apply wp_bind, wp_get. destruct (s_queue s) as [|j q] eqn:Eq.
  { apply wp_ret. split; [exact HI|apply ext_refl]. }
  apply wp_bind, wp_upd. set (s1 := set_queue (fun _ => q) s).
  assert (HI1 : I11 X ((F ++ back) ++ [j]) s1).
  { unfold I11 in *. simpl. rewrite Eq in HI. rewrite <- app_assoc. exact HI. }
  assert (He1 : ext s s1) by (split; auto).
  apply wp_bind, wp_get_job; [|intros _; eapply I11_drop; exact HI1]. intros jb Hj.
  destruct (j_removed jb) eqn:Er.
  - eapply wp_ext; [exact He1|]. apply IH. apply I11_app_drop in HI1. exact HI1.
  - apply wp_bind. eapply wp_mono; [eapply ug_body_good; eauto| |auto].
    intros [b1 b2] s' [HI' He']. cbv beta zeta. simpl in *.
    assert (HI2 : I11 X (F ++ (if b1 then back ++ [j] else back)) s').
    { destruct b1; [rewrite app_assoc|]; exact HI'. }
    assert (He2 : ext s s') by exact (ext_trans _ _ _ He1 He').
    destruct b2; [apply wp_ret; split; assumption|].
    eapply wp_ext; [exact He2|]. apply IH. exact HI2.
Qed.

Lemma list_loop_good ug js : good ug -> forall F s, I11 X F s -> full s ->
  wp (list_loop hwm scheme ug js) (fun _ s' => I11 X F s' /\ ext s s') (I11 X []) s.
Proof.
  intros Hug. induction js as [|j js IH]; intros F s HI Hf; simpl; [apply wp_ret; split; [exact HI|apply ext_refl]|].
  apply wp_bind, wp_get_job; [|intros _; eapply I11_drop; exact HI]. intros jb Hj.
  destruct (j_removed jb) eqn:Er; [apply IH; assumption|].
  apply wp_bind. eapply wp_mono with (Q := fun b s' => I11 X F s' /\ ext s s') (E := I11 X []); [| |auto].
  - unfold ug_body. apply wp_bind, wp_get_job; [|intros E; congruence]. intros jb' E. rewrite Hj in E. injection E as <-.
    apply wp_bind, wp_get. apply wp_bind, wp_get.
    destruct (_ || _).
    + apply wp_bind. eapply wp_mono; [eapply fail_unreachable_good; [exact Hug|exact HI]| |auto].
      intros [] s' (A & B & _). apply wp_ret. split; assumption.
    + destruct (check (j_after jb) _ _); [|apply wp_ret; split; [exact HI|apply ext_refl]].
      apply wp_bind. unfold maybe_run. apply wp_bind, wp_get_job; [|intros E; congruence]. intros jb' _.
      apply wp_bind, wp_get. rewrite decide_True by exact Hf. apply wp_ret, wp_ret. split; [exact HI|apply ext_refl].
  - intros b s' [HI' He']. cbv beta. destruct (snd b); [apply wp_ret; auto|].
    eapply wp_ext; [exact He'|]. apply IH; [exact HI'|]. apply He', Hf.
Qed.

Lemma update_graph_good fuel : good (update_graph hwm scheme fuel).
Proof.
  induction fuel as [|n IH]; intros d F s HI; [exact Logic.I|].
  cbn [update_graph]. apply wp_bind, wp_get. cbv zeta. apply wp_bind, wp_upd.
  set (s1 := set_graph _ s). assert (HI1 : I11 X F s1) by exact HI.
  assert (He1 : ext s s1) by (split; auto).
  apply wp_bind, wp_get. destruct (decide _) as [Hd|Hd].
  - apply wp_bind.
    eapply wp_mono; [apply (queue_loop_good _ _ IH F []); rewrite app_nil_r; exact HI1| |auto].
    intros back s' [HI' He']. apply wp_upd. split; [|eapply ext_trans; [exact He1|]; exact He'].
    unfold I11 in *. simpl. eapply inv11_L; [|exact HI']. rewrite <- app_assoc.
    apply submseteq_app; [reflexivity|]. apply submseteq_app; [|reflexivity].
    rewrite reverse_Permutation. reflexivity.
  - eapply wp_ext; [exact He1|].
    apply wp_bind, wp_get. destruct (mapM _ _) as [js|]; [|apply wp_raise; eapply I11_drop; exact HI1].
    apply list_loop_good; [exact IH|exact HI1|].
    (* no engine with load 0 *)
    unfold full. destruct (available_engines hwm s1) as [|i r] eqn:Ea; [reflexivity|exfalso].
    destruct (available_spec s1 i) as (ld & e & E1 & E2 & E3); [rewrite Ea; left|].
    destruct (w_load _ _ _ _ _ _ _ _ _ _ _ HI1 i e E2) as (l & _ & E4).
    rewrite E1 in E4. injection E4 as ->. apply Hd. right. split; [discriminate|].
    assert (E5 : Z.of_nat (length l) = 0%Z) by lia. rewrite E5 in E1. change (Z.of_nat hwm - 1)%Z with 0%Z.
    eapply elem_of_list_lookup_2; eauto.
Qed.

(** ** Handlers *)
Lemma save_unmet_good j jb s :
  I11 X [j] s -> s_jobs s !! j = Some jb -> j_removed jb = false ->
  wp (save_unmet j) (fun _ => I11 X []) (I11 X []) s.
Proof.
  intros HI Hj Hr. pose proof (live_waiting [] _ _ _ HI Hj Hr) as Hp. unfold save_unmet.
  apply wp_bind, wp_get_job; [|intros E; congruence]. intros jb' E. rewrite Hj in E. injection E as <-.
  apply wp_bind, wp_upd. apply wp_bind, wp_upd. apply wp_bind, wp_get. apply wp_bind, wp_save_graph.
  intros g. set (s1 := set_graph _ _).
  assert (HI1 : I11 X [] s1).
  { unfold I11 in *. simpl. apply inv11_qm_insert; [|exact Hj|exact Hp].
    eapply inv11_L; [|exact HI]. simpl. rewrite (Permutation_app_comm (s_queue s) [j]). reflexivity. }
  destruct (j_timeout jb); [|apply wp_ret; exact HI1].
  apply wp_bind, wp_upd. apply wp_upd.
  apply inv11_alter; [exact HI1|intros; simpl; auto|intros; simpl; auto].
Qed.

Lemma run_or_save_good fuel j jb s :
  I11 X [j] s -> s_jobs s !! j = Some jb -> j_removed jb = false -> s_qmap s !! j_msg jb = None ->
  wp (do ran <- maybe_run hwm scheme (update_graph hwm scheme fuel) j;
      if (ran : bool) then ret tt
      else do fl <- get s_all_failed; if decide (j_msg jb ∈ fl) then ret tt else save_unmet j)
     (fun _ => I11 X []) (I11 X []) s.
Proof.
  intros HI Hj Hr Hq. apply wp_bind.
  eapply wp_mono; [eapply (maybe_run_good _ j jb []); eauto; apply update_graph_good| |auto].
  intros ran s' H. cbv beta. destruct ran.
  - destruct H as (Eq & _ & HI'). apply wp_ret. unfold I11 in *. simpl in HI'.
    rewrite delete_notin in HI'; [exact HI'|]. rewrite Eq. exact Hq.
  - destruct H as (HI' & _ & H). apply wp_bind, wp_get.
    destruct (decide _) as [Hd|Hd]; [apply wp_ret; eapply I11_drop; exact HI'|].
    destruct H as [H|(jb' & E1 & E2 & E3)]; [contradiction|]. eapply save_unmet_good; eauto.
Qed.

Lemma fail_now_good fuel j jb w s :
  I11 X [j] s -> s_jobs s !! j = Some jb -> j_removed jb = false ->
  wp (upd (set_qmap (<[j_msg jb := j]>)) ;; fail_unreachable (update_graph hwm scheme fuel) (j_msg jb) w)
     (fun _ => I11 X []) (I11 X []) s.
Proof.
  intros HI Hj Hr. eapply wp_mono; [eapply (fail_here _ j jb w []); eauto| |auto].
  - apply update_graph_good.
  - apply (live_waiting [] _ _ _ HI Hj Hr).
  - intros [] s' (A & _). eapply I11_drop. exact A.
Qed.

Lemma ug_top fuel d s : I11 X [] s -> wp (update_graph hwm scheme fuel d) (fun _ => I11 X []) (I11 X []) s.
Proof. intros HI. eapply wp_mono; [apply update_graph_good; exact HI| |auto]. intros [] s' [A _]. exact A. Qed.

End Once.

(** Engine [e] gives back [m]: everything except the job and the loads. *)
Lemma inv11_result X jobs next tg ld L qm rt rt' pd tm log m e k j jb l ld' :
  inv11 X jobs next tg ld L qm rt pd tm log ->
  phase_of log m = OnEngine e -> pd !! e = Some l -> al_lookup m l = Some j -> jobs !! j = Some jb -> j_msg jb = m ->
  j_removed jb = false ->
  ld' = match index_of e tg with Some i => alter (fun x => (x - 1)%Z) i ld | None => ld end ->
  budget X.2 rt' (log ++ [ObsResult m e k]) ->
  inv11 X (alter (add_blacklist e) j jobs) next tg ld' (j :: L) qm rt' (<[e := al_remove m l]> pd) tm (log ++ [ObsResult m e k]).
Proof.
  intros [H1 H2 H3 H4 H5 H6 H7 H8 H9 H10 H11 H12 H13 H14 H15 H16 H17 H18 H19] Hph Hl Hal Hj Hjm Hjr Hld Hrt.
  set (o := ObsResult m e k).
  assert (Hm : phase_of (log ++ [o]) m = Waiting) by (apply phase_result; exact Hph).
  assert (Hp : forall m', m' <> m -> phase_of (log ++ [o]) m' = phase_of log m').
  { intros m' Hne. apply phase_other. simpl. congruence. }
  assert (Hlk : forall j' jb', jobs !! j' = Some jb' -> j' <> j -> alter (add_blacklist e) j jobs !! j' = Some jb').
  { intros j' jb' Hj' Hne. rewrite lookup_alter_ne by congruence. exact Hj'. }
  assert (Hlj : alter (add_blacklist e) j jobs !! j = Some (add_blacklist e jb)) by (rewrite lookup_alter, Hj; reflexivity).
  assert (Hlk' : forall j' jb2, alter (add_blacklist e) j jobs !! j' = Some jb2 -> exists jb', jobs !! j' = Some jb' /\ j_msg jb2 = j_msg jb').
  { intros j' jb2. rewrite lookup_alter_Some. intros [(-> & b & Hb & ->)|(Hne & Hb)]; eauto. }
  assert (HjL : j ∉ L).
  { intros Hin. destruct (H5 j Hin) as (jb' & E1 & E2). rewrite Hj in E1. injection E1 as <-.
    rewrite Hjm in E2. rewrite (E2 Hjr) in Hph. discriminate. }
  assert (Hother : forall j' jb', jobs !! j' = Some jb' -> j' <> j -> j_msg jb' <> m).
  { intros j' jb' Hj' Hne E. apply Hne. eapply H2; eauto. congruence. }
  assert (Hrem : m ∉ (al_remove m l).*1) by (apply (al_remove_nodup m l); eauto).
  split; auto.
  - intros j' Hle. rewrite lookup_alter_None. auto.
  - intros j1 j2 b1 b2 Hb1 Hb2 E. apply Hlk' in Hb1 as (c1 & Hc1 & E1). apply Hlk' in Hb2 as (c2 & Hc2 & E2).
    eapply H2; eauto. congruence.
  - intros j' jb2 Hj'. apply Hlk' in Hj' as (jb' & Hj' & ->).
    destruct (decide (j_msg jb' = m)) as [->|Hne]; [rewrite Hm; discriminate|rewrite Hp by exact Hne; eauto].
  - apply NoDup_cons. auto.
  - intros j' Hj'. destruct (decide (j' = j)) as [->|Hne].
    + exists (add_blacklist e jb). split; [exact Hlj|]. intros _. simpl. rewrite Hjm. exact Hm.
    + apply elem_of_cons in Hj' as [?|Hj']; [contradiction|]. destruct (H5 j' Hj') as (jb' & E1 & E2).
      exists jb'. split; [auto|]. intros Hr. rewrite Hp by (eapply Hother; eauto). auto.
  - intros m' j' Hq. destruct (H6 m' j' Hq) as (jb' & E1 & E2 & E3).
    assert (m' <> m) by (intros ->; congruence).
    assert (j' <> j) by (intros ->; congruence).
    exists jb'. rewrite Hp by assumption. auto.
  - intros e' l'. rewrite lookup_insert_Some. intros [(-> & <-)|(Hne & Hl')]; [|eauto]. apply al_remove_nodup. eauto.
  - intros e' l' m' j' Hl' Hin.
    assert (Hold : exists l0, pd !! e' = Some l0 /\ (m', j') ∈ l0 /\ m' <> m).
    { apply lookup_insert_Some in Hl' as [(<- & <-)|(Hne & Hl')].
      - exists l. split; [exact Hl|]. split; [eapply al_remove_elem; eauto|]. intros ->. apply Hrem.
        apply elem_of_list_fmap. exists (m, j'). auto.
      - exists l'. split; [exact Hl'|]. split; [exact Hin|]. intros ->.
        destruct (H8 e' l' m j' Hl' Hin) as (jb' & _ & _ & _ & E & _). congruence. }
    destruct Hold as (l0 & A1 & A2 & A3). destruct (H8 e' l0 m' j' A1 A2) as (jb' & E1 & E2 & E3 & E4 & E5).
    exists jb'. rewrite Hp by exact A3. split; [apply Hlk; [exact E1|]|auto]. intros ->. congruence.
  - intros m' e' Hon. destruct (decide (m' = m)) as [->|Hne]; [congruence|]. rewrite Hp in Hon by exact Hne.
    destruct (H9 m' e' Hon) as (l' & E1 & E2). destruct (decide (e' = e)) as [->|Hne'].
    + exists (al_remove m l). rewrite lookup_insert. split; [reflexivity|]. rewrite Hl in E1. injection E1 as <-.
      apply elem_of_list_fmap in E2 as ([m2 j2] & E & Hin). simpl in E. subst m2.
      apply elem_of_list_fmap. exists (m', j2). split; [reflexivity|]. apply al_remove_other; assumption.
    + exists l'. rewrite lookup_insert_ne by congruence. auto.
  - intros m'. destruct (decide (m' = m)) as [->|Hne]; [rewrite Hm; discriminate|rewrite Hp by exact Hne; auto].
  - subst ld'. destruct (index_of e tg); [rewrite alter_length|]; exact H12.
  - intros i e' He'. destruct (H13 i e' He') as (l' & E1 & E2). subst ld'.
    destruct (decide (e' = e)) as [->|Hne].
    + exists (al_remove m l). rewrite lookup_insert. split; [reflexivity|]. rewrite Hl in E1. injection E1 as <-.
      destruct (index_of e tg) as [i'|] eqn:Ei.
      * apply index_of_spec in Ei. assert (i' = i) by (eapply NoDup_lookup; eauto). subst i'.
        rewrite list_lookup_alter, E2. simpl. f_equal. rewrite <- (al_remove_length _ _ _ Hal). lia.
      * apply index_of_none in Ei. exfalso. apply Ei. eapply elem_of_list_lookup_2; eauto.
    + exists l'. rewrite lookup_insert_ne by congruence. split; [exact E1|].
      destruct (index_of e tg) as [i'|] eqn:Ei; [|exact E2]. apply index_of_spec in Ei.
      rewrite list_lookup_alter_ne; [exact E2|]. intros ->. congruence.
  - intros e' He'. destruct (H15 e' He'). split; [assumption|]. apply elem_of_app; auto.
  - intros e' l'. rewrite lookup_insert_Some. intros [(-> & <-)|(Hne & Hl')]; apply elem_of_app; eauto.
  - intros e' l'. rewrite lookup_insert_Some. intros [(-> & <-)|(Hne & Hl')] Hnn; [|eauto].
    eapply H17; [exact Hl|]. intros ->. discriminate.
  - intros m' e' k' Hin. apply elem_of_app in Hin as [Hin|Hin].
    + destruct (H18 m' e' k' Hin) as [E|(j' & jb' & E1 & E2 & E3)].
      * left. rewrite Hp; [exact E|]. intros ->. congruence.
      * right. destruct (decide (j' = j)) as [->|Hne].
        -- exists j, (add_blacklist e jb). rewrite Hj in E1. injection E1 as <-. split; [exact Hlj|]. simpl. set_solver.
        -- exists j', jb'. auto.
    + apply elem_of_list_singleton in Hin. injection Hin as -> -> ->. right. exists j, (add_blacklist e jb).
      split; [exact Hlj|]. simpl. set_solver.
  - apply no_repeat_app; [exact H19|]. discriminate.
Qed.
