(** Event handlers keep the life-cycle invariant of Sched_Once (high-water mark 1). *)
From stdpp Require Import base gmap sets list.
From Verif Require Import Dependency_Model Sched_Trace Sched_Spec Sched_Model Sched_Env Sched_Base Sched_Traverse Sched_Load Sched_Once.
From Verif Require Prelude.
From Coq Require Import ZArith Lia.

Section Life.
Context (scheme : nat -> list Z -> nat).
Let hwm := 1.

(** Forgetting the blacklist entry of a task that has its reply. *)
Lemma inv11_unblack X jobs next tg ld L qm rt pd tm log j jb e :
  jobs !! j = Some jb -> phase_of log (j_msg jb) = Replied ->
  inv11 X (alter (add_blacklist e) j jobs) next tg ld L qm rt pd tm log ->
  inv11 X jobs next tg ld L qm rt pd tm log.
Proof.
  intros Hj Hrep [H1 H2 H3 H4 H5 H6 H7 H8 H9 H10 H11 H12 H13 H14 H15 H16 H17 H18 H19].
  assert (Hto : forall j' b, alter (add_blacklist e) j jobs !! j' = Some b -> exists b0, jobs !! j' = Some b0 /\
     j_msg b = j_msg b0 /\ j_removed b = j_removed b0 /\ (j' <> j -> b = b0) /\ j_blacklist b0 ⊆ j_blacklist b).
  { intros j' b. rewrite lookup_alter_Some. intros [(-> & b0 & Hb0 & ->)|(Hne & Hb)].
    - exists b0. simpl. split; [exact Hb0|]. repeat split; [congruence|set_solver].
    - exists b. auto. }
  assert (Hfrom : forall j' b0, jobs !! j' = Some b0 -> exists b, alter (add_blacklist e) j jobs !! j' = Some b /\ j_msg b = j_msg b0).
  { intros j' b0 Hb0. destruct (decide (j' = j)) as [->|Hne].
    - rewrite lookup_alter, Hb0. eexists. split; [reflexivity|reflexivity].
    - rewrite lookup_alter_ne by congruence. eauto. }
  split; auto.
  - intros j' Hle. specialize (H1 j' Hle). apply lookup_alter_None in H1. exact H1.
  - intros j1 j2 b1 b2 Hb1 Hb2 E. destruct (Hfrom _ _ Hb1) as (c1 & C1 & C1'). destruct (Hfrom _ _ Hb2) as (c2 & C2 & C2').
    eapply H2; eauto. congruence.
  - intros j' b Hb. destruct (Hfrom _ _ Hb) as (c & C & C'). rewrite <- C'. eauto.
  - intros j' Hj'. destruct (H5 j' Hj') as (b & B1 & B2). destruct (Hto _ _ B1) as (b0 & A1 & A2 & A3 & _).
    exists b0. split; [exact A1|]. rewrite <- A2, <- A3. exact B2.
  - intros m' j' Hq. destruct (H6 m' j' Hq) as (b & B1 & B2 & B3). destruct (Hto _ _ B1) as (b0 & A1 & A2 & A3 & _).
    exists b0. rewrite <- A2. auto.
  - intros e' l m' j' Hl Hin. destruct (H8 e' l m' j' Hl Hin) as (b & B1 & B2 & B3 & B4 & B5).
    destruct (Hto _ _ B1) as (b0 & A1 & A2 & A3 & _ & A4). exists b0. rewrite <- A2, <- A3. set_solver.
  - intros m' e' k Hin. destruct (H18 m' e' k Hin) as [?|(j' & b & B1 & B2 & B3)]; [auto|].
    destruct (decide (j' = j)) as [->|Hne].
    + left. destruct (Hto _ _ B1) as (b0 & A1 & A2 & _). congruence.
    + right. destruct (Hto _ _ B1) as (b0 & A1 & A2 & _ & A3 & _). rewrite (A3 Hne) in *. eauto.
Qed.

(** Once its reply is out, the task needs no retry record. *)
Lemma inv11_settle X1 jobs next tg ld L qm rt rt' pd tm log m :
  phase_of log m = Replied -> (forall m', m' <> m -> rt' !! m' = rt !! m') ->
  inv11 (X1, Some m) jobs next tg ld L qm rt pd tm log ->
  inv11 (X1, None) jobs next tg ld L qm rt' pd tm log.
Proof.
  intros Hrep Hrt [H1 H2 H3 H4 H5 H6 H7 H8 H9 H10 H11 H12 H13 H14 H15 H16 H17 H18 H19]. split; auto.
  intros m' md Hin. destruct (H14 m' md Hin) as [A B]. split; [exact A|]. intros _.
  destruct (decide (m' = m)) as [->|Hne].
  - rewrite Hrep. split; [|intros e]; discriminate.
  - rewrite Hrt by exact Hne. apply B. simpl. congruence.
Qed.

(** What happens to the budgets when a result arrives. *)
Lemma budget_result y rt rt' log m e k :
  budget y rt log -> phase_of log m = OnEngine e -> y = None ->
  (forall m', m' <> m -> rt' !! m' = rt !! m') ->
  (forall k0, rt !! m = Some k0 -> exists k1, rt' !! m = Some k1 /\
      match k with RUnmet => k1 = k0 | _ => S k1 = k0 end) ->
  budget y rt' (log ++ [ObsResult m e k]).
Proof.
  intros Hb Hph Hy Ho Hm m' md Hin. apply elem_of_app in Hin as [Hin|Hin]; [|apply elem_of_list_singleton in Hin; discriminate].
  destruct (Hb m' md Hin) as [A B]. destruct (decide (m' = m)) as [->|Hne].
  - rewrite sends_snoc, refusals_snoc. simpl. rewrite bool_decide_eq_true_2 by reflexivity.
    destruct B as [_ B2]; [congruence|]. destruct (B2 e Hph) as (k0 & K1 & K2).
    split; [destruct k; simpl; lia|]. intros _. rewrite (phase_result _ _ _ _ Hph). split; [|intros ?; discriminate].
    intros _. destruct (Hm k0 K1) as (k1 & K3 & K4). exists k1. split; [exact K3|]. destruct k; simpl; lia.
  - destruct (not_about_counts (ObsResult m e k) m') as [C1 C2]; [simpl; congruence|].
    rewrite sends_snoc, refusals_snoc, C1, C2, !Nat.add_0_r, phase_other by (simpl; congruence).
    rewrite Ho by exact Hne. auto.
Qed.
Lemma budget_exempt rt log m e k :
  budget None rt log -> budget (Some m) rt (log ++ [ObsResult m e k]).
Proof.
  intros Hb m' md Hin. apply elem_of_app in Hin as [Hin|Hin]; [|apply elem_of_list_singleton in Hin; discriminate].
  destruct (Hb m' md Hin) as [A B]. rewrite sends_snoc, refusals_snoc. split; [simpl; lia|].
  intros Hne. destruct (not_about_counts (ObsResult m e k) m') as [C1 C2]; [simpl; congruence|].
  rewrite C1, C2, !Nat.add_0_r, phase_other by (simpl; congruence). apply B. discriminate.
Qed.

Context (X1 : list nat).
Local Notation X := (X1, (None : option nat)).
Let HX : snd X = None := eq_refl.

Lemma handle_unmet_good fuel e m l j jb s :
  s_pending s !! e = Some l -> al_lookup m l = Some j -> s_jobs s !! j = Some jb -> j_msg jb = m -> j_removed jb = false ->
  s_qmap s !! m = None ->
  I11 X [j] (set_jobs (alter (add_blacklist e) j) (set_pending (<[e := al_remove m l]>) s)) ->
  wp (handle_unmet_dependency hwm scheme fuel e m) (fun _ => I11 X []) (I11 X []) s.
Proof.
  intros Hl Hal Hj Hjm Hjr Hq HI. unfold handle_unmet_dependency.
  apply wp_bind, wp_get. rewrite Hl. apply wp_bind, wp_ret. rewrite Hal. apply wp_bind, wp_ret.
  apply wp_bind, wp_upd. apply wp_bind, wp_upd.
  set (s2 := set_jobs _ _). fold s2 in HI.
  assert (Hj2 : s_jobs s2 !! j = Some (add_blacklist e jb)).
  { simpl. rewrite lookup_alter, Hj. reflexivity. }
  apply wp_bind, wp_get_job; [|intros E; congruence]. intros jb2 Hjb2.
  rewrite Hj2 in Hjb2. injection Hjb2 as <-.
  apply wp_bind. eapply wp_mono with (Q := fun _ => I11 X []) (E := I11 X []); [| |auto].
  - destruct (decide _).
    + subst m. apply (fail_now_good _ _ HX _ j (add_blacklist e jb)); auto.
    + subst m. apply (run_or_save_good _ _ HX _ j (add_blacklist e jb)); auto.
  - intros [] s' HI'. rewrite decide_False by discriminate. apply wp_bind, wp_get.
    destruct (index_of _ _); [|apply wp_ret; exact HI']. apply wp_bind, wp_get.
    destruct (decide _); [|apply wp_ret; exact HI']. apply (ug_top _ _ HX). exact HI'.
Qed.

Lemma handle_result_good fuel e m b l j s :
  s_pending s !! e = Some l -> al_lookup m l = Some j ->
  I11 X [] (set_pending (<[e := al_remove m l]>) (set_log (fun t => t ++ [ObsReply m (FromEngine e b)]) s)) ->
  wp (handle_result hwm scheme fuel e m b) (fun _ => I11 X []) (I11 X []) s.
Proof.
  intros Hl Hal HI. unfold handle_result.
  apply wp_bind, wp_upd. apply wp_bind, wp_get. simpl. rewrite Hl. apply wp_bind, wp_ret. rewrite Hal.
  apply wp_bind, wp_ret. apply wp_bind, wp_upd.
  apply wp_bind. eapply wp_mono with (Q := fun _ => I11 X []) (E := I11 X []); [| |auto].
  - destruct b; (apply wp_bind, wp_get, wp_bind, wp_of_option; [|intros _; exact HI]); intros Y HY;
      apply wp_bind, wp_upd, wp_upd; exact HI.
  - intros [] s' Hs'. apply wp_bind, wp_upd. apply wp_bind, wp_upd. apply (ug_top _ _ HX). exact Hs'.
Qed.

(** Loads after line 618 of dispatch_result. *)
Definition freed (e : nat) (s : sched) : list Z :=
  match index_of e (s_targets s) with Some i => alter (fun x => (x - 1)%Z) i (s_loads s) | None => s_loads s end.
(** State after line 653 of handle_result. *)
Definition finished (e m : nat) (k : rkind) (b : bool) (l : list (nat * nat)) (s : sched) : sched :=
  set_pending (<[e := al_remove m l]>) (set_log (fun t => t ++ [ObsReply m (FromEngine e b)])
    (set_retries (delete m) (set_loads (fun _ => freed e s) (set_log (fun t => t ++ [ObsResult m e k]) s)))).
Lemma finished_I11 e m k b l j jb s :
  I11 X [] s -> phase_of (s_log s) m = OnEngine e -> s_pending s !! e = Some l -> al_lookup m l = Some j ->
  s_jobs s !! j = Some jb -> j_msg jb = m -> j_removed jb = false -> s_qmap s !! m = None ->
  I11 X [] (finished e m k b l s).
Proof.
  intros HI Hph Hl Hal Hj Hjm Hjr Hq. unfold I11, finished. simpl.
  assert (Hrep : phase_of ((s_log s ++ [ObsResult m e k]) ++ [ObsReply m (FromEngine e b)]) m = Replied).
  { apply phase_reply, phase_result, Hph. }
  eapply inv11_settle with (rt := s_retries s); [exact Hrep|intros m' Hne; apply lookup_delete_ne; congruence|].
  eapply inv11_unblack with (j := j) (jb := jb) (e := e); [exact Hj|rewrite Hjm; exact Hrep|].
  apply inv11_reply; [apply phase_result, Hph|exact Hq| |].
  - intros j' jb' Hj' Hm' Hin. exfalso.
    assert (Hall : exists b', s_jobs s !! j' = Some b' /\ j_msg b' = m).
    { apply lookup_alter_Some in Hj' as [(-> & b0 & Hb0 & ->)|(Hne & Hb0)]; eauto. }
    destruct Hall as (b' & Hb' & Hbm).
    assert (j' = j) by (eapply (w_inj _ _ _ _ _ _ _ _ _ _ _ HI); eauto; congruence). subst j'.
    rewrite Hj in Hb'. injection Hb' as <-.
    destruct (w_live _ _ _ _ _ _ _ _ _ _ _ HI j Hin) as (b2 & B1 & B2).
    rewrite Hj in B1. injection B1 as <-. rewrite Hjm in B2. rewrite (B2 Hjr) in Hph. discriminate.
  - eapply (inv11_L scheme) with (L := j :: s_queue s); [apply submseteq_cons; reflexivity|].
    eapply (inv11_result (X1, Some m)) with (jb := jb) (rt := s_retries s) (ld := s_loads s);
      [|exact Hph|exact Hl|exact Hal|exact Hj|exact Hjm|exact Hjr|reflexivity|].
    + destruct HI as [H1 H2 H3 H4 H5 H6 H7 H8 H9 H10 H11 H12 H13 H14 H15 H16 H17 H18 H19]. split; auto.
      intros m' md' Hin. destruct (H14 m' md' Hin) as [A B]. split; [exact A|]. intros _. apply B. discriminate.
    + simpl. apply budget_exempt. apply (w_bud _ _ _ _ _ _ _ _ _ _ _ HI).
Qed.

Lemma dispatch_result_good fuel e m k s :
  I11 X [] s -> phase_of (s_log s) m = OnEngine e ->
  wp (dispatch_result hwm scheme fuel e m k) (fun _ => I11 X []) (I11 X []) s.
Proof.
  intros HI Hph.
  destruct (w_on _ _ _ _ _ _ _ _ _ _ _ HI m e Hph) as (l & Hl & Hkey).
  destruct (al_lookup m l) as [j|] eqn:Hal.
  2:{ exfalso. apply elem_of_list_fmap in Hkey as ([m' j'] & E & Hin). simpl in E. subst m'.
      eapply al_lookup_none; eauto. }
  destruct (w_pd _ _ _ _ _ _ _ _ _ _ _ HI e l m j Hl (al_lookup_elem _ _ _ Hal)) as (jb & Hj & Hjm & Hjr & _ & Hnb).
  assert (Hq : s_qmap s !! m = None).
  { destruct (s_qmap s !! m) as [j'|] eqn:E; [|reflexivity].
    destruct (w_qm _ _ _ _ _ _ _ _ _ _ _ HI m j' E) as (_ & _ & _ & E'). congruence. }
  assert (Hsub : submitted (s_log s) m).
  { apply phase_submitted; [apply (w_ok _ _ _ _ _ _ _ _ _ _ _ HI)|congruence]. }
  destruct Hsub as [md Hmd].
  destruct (w_bud _ _ _ _ _ _ _ _ _ _ _ HI m md Hmd) as [_ HB]. destruct HB as [_ HB]; [discriminate|].
  destruct (HB e Hph) as (r & Hr & _). clear HB.
  set (ld' := freed e s).
  unfold dispatch_result. apply wp_bind, wp_upd. apply wp_bind, wp_get. apply wp_bind.
  (* state after lines 607-618 *)
  assert (Hgo : forall s2, s2 = set_loads (fun _ => ld') (set_log (fun t => t ++ [ObsResult m e k]) s) ->
    wp match k with
       | RUnmet => handle_unmet_dependency hwm scheme fuel e m
       | _ => let success := match k with ROk => true | _ => false end in
              do rt <- get s_retries; do retries <- of_option (rt !! m);
              if decide (success = false /\ 0 < retries)
              then upd (set_retries (<[m := retries - 1]>)) ;; handle_unmet_dependency hwm scheme fuel e m
              else upd (set_retries (delete m)) ;; handle_result hwm scheme fuel e m success
       end (fun _ => I11 X []) (I11 X []) s2).
  { intros s2 ->.
    assert (Hunmet : forall rt', budget None rt' (s_log s ++ [ObsResult m e k]) ->
      wp (handle_unmet_dependency hwm scheme fuel e m) (fun _ => I11 X []) (I11 X [])
         (set_retries (fun _ => rt') (set_loads (fun _ => ld') (set_log (fun t => t ++ [ObsResult m e k]) s)))).
    { intros rt' Hb'. apply handle_unmet_good with (l := l) (j := j) (jb := jb); auto.
      unfold I11. simpl.
      eapply (inv11_result X) with (jb := jb); [exact HI|exact Hph|exact Hl|exact Hal|exact Hj|exact Hjm|exact Hjr|reflexivity|exact Hb']. }
    assert (Hres : forall b, wp (handle_result hwm scheme fuel e m b) (fun _ => I11 X []) (I11 X [])
         (set_retries (delete m) (set_loads (fun _ => ld') (set_log (fun t => t ++ [ObsResult m e k]) s)))).
    { intros b. apply handle_result_good with (l := l) (j := j); auto.
      apply (finished_I11 e m k b l j jb s); assumption. }
    destruct k.
    - cbv zeta. apply wp_bind, wp_get. cbn [s_retries set_loads set_log]. rewrite Hr. apply wp_bind, wp_ret.
      rewrite decide_False by (intros [? _]; discriminate). apply wp_bind, wp_upd. apply (Hres true).
    - cbv zeta. apply wp_bind, wp_get. cbn [s_retries set_loads set_log]. rewrite Hr. apply wp_bind, wp_ret.
      destruct (decide _) as [[_ Hd]|Hd]; apply wp_bind, wp_upd; [|apply (Hres false)].
      apply (Hunmet (<[m := r - 1]> (s_retries s))).
      eapply budget_result; [apply (w_bud _ _ _ _ _ _ _ _ _ _ _ HI)|exact Hph|reflexivity| |].
      + intros m' Hne. apply lookup_insert_ne. congruence.
      + intros k0 Hk0. exists (r - 1). rewrite lookup_insert. split; [reflexivity|]. rewrite Hr in Hk0. injection Hk0 as <-. lia.
    - apply (Hunmet (s_retries s)).
      eapply budget_result; [apply (w_bud _ _ _ _ _ _ _ _ _ _ _ HI)|exact Hph|reflexivity|auto|]. eauto. }
  simpl. unfold ld', freed in Hgo. destruct (index_of e (s_targets s)) as [i|]; [apply wp_upd|apply wp_ret]; apply Hgo; destruct s; reflexivity.
Qed.

(** State in which register_engine calls update_graph. *)
Definition announced (e : nat) (s : sched) : sched :=
  set_pending (<[e := []]>) (set_failed (<[e := ∅]>) (set_completed (<[e := ∅]>) (set_loads (cons 0%Z) (set_targets (cons e)
    (set_log (fun l => l ++ [ObsRegister e]) s))))).
Lemma announced_I11 e s : I11 X [] s -> ObsRegister e ∉ s_log s -> I11 X [] (announced e s).
Proof.
  intros HI Hfresh.
  assert (H1 : I11 X [] (set_log (fun l => l ++ [ObsRegister e]) s)) by (apply inv11_quiet; [reflexivity|exact HI]).
  assert (Hpd : s_pending s !! e = None).
  { destruct (s_pending s !! e) eqn:E; [|reflexivity]. exfalso. apply Hfresh. eapply (w_regpd _ _ _ _ _ _ _ _ _ _ _ HI); eauto. }
  assert (Htg : e ∉ s_targets s).
  { intros Hin. apply elem_of_list_lookup in Hin as [i Hi].
    destruct (w_load _ _ _ _ _ _ _ _ _ _ _ HI i e Hi) as (l & Hl & _). congruence. }
  assert (Htm : forall e', e' ∈ s_strand_timers s \/ e' ∈ X1 -> e' <> e).
  { intros e' He' ->. destruct (w_tm _ _ _ _ _ _ _ _ _ _ _ HI e He'). contradiction. }
  destruct H1 as [L1 L2 L3 L4 L5 L6 L7 L8 L9 L10 L11 L12 L13 L14 L15 L16 L17 L18 L19]. unfold I11. simpl in *.
  split; auto.
  - intros e' l. rewrite lookup_insert_Some. intros [(-> & <-)|(Hne & Hl)]; [constructor|eauto].
  - intros e' l m j. rewrite lookup_insert_Some. intros [(-> & <-)|(Hne & Hl)] Hin; [inversion Hin|eauto].
  - intros m e' Hon. destruct (L9 m e' Hon) as (l & A & B). exists l. rewrite lookup_insert_ne; [auto|]. congruence.
  - apply NoDup_cons. auto.
  - cbn [length]. congruence.
  - intros [|i] e'; simpl.
    + intros E. injection E as <-. exists []. rewrite lookup_insert. auto.
    + intros He'. destruct (L13 i e' He') as (l & A & B). exists l. rewrite lookup_insert_ne; [auto|]. congruence.
  - intros e' He'. destruct (L15 e' He') as [A B]. split; [|exact B]. rewrite elem_of_cons.
    intros [E|?]; [|contradiction]. apply (Htm e' He' E).
  - intros e' l. rewrite lookup_insert_Some. intros [(-> & <-)|(Hne & Hl)]; [apply elem_of_app; right; left|eauto].
  - intros e' l. rewrite lookup_insert_Some. intros [(-> & <-)|(Hne & Hl)] Hnn; [congruence|].
    destruct (L17 e' l Hl Hnn) as [A|A]; [left; right; exact A|auto].
Qed.

Lemma register_good fuel e s :
  I11 X [] s -> ObsRegister e ∉ s_log s ->
  wp (register_engine hwm scheme fuel e) (fun _ => I11 X []) (I11 X []) s.
Proof.
  intros HI Hfresh. unfold register_engine.
  do 6 (apply wp_bind, wp_upd). apply (ug_top _ _ HX). apply (announced_I11 e s); assumption.
Qed.

Lemma list_pop_cover {A} i (l : list A) x y : l !! i = Some x -> y ∈ l -> y = x \/ y ∈ list_pop i l.
Proof.
  intros Hi Hy. rewrite <- (take_drop_middle _ _ _ Hi) in Hy. unfold list_pop. set_solver.
Qed.

(** unregister_engine after the pops, with the timers [tm']. *)
Lemma removed_I11 e idx l tm' s :
  I11 X [] s -> s_targets s !! idx = Some e -> s_pending s !! e = Some l ->
  (forall x, x ∈ tm' -> x ∈ s_strand_timers s \/ x = e) -> (forall x, x ∈ s_strand_timers s -> x ∈ tm') ->
  (l <> [] -> e ∈ tm') ->
  inv11 X (s_jobs s) (s_next s) (list_pop idx (s_targets s)) (list_pop idx (s_loads s)) ([] ++ s_queue s) (s_qmap s)
      (s_retries s) (s_pending s) tm' (s_log s ++ [ObsUnregister e]).
Proof.
  intros HI Hidx Hl Htm1 Htm2 Htm3. assert (Hlt := lookup_lt_Some _ _ _ Hidx).
  assert (H1 : I11 X [] (set_log (fun l => l ++ [ObsUnregister e]) s)) by (apply inv11_quiet; [reflexivity|exact HI]).
  assert (Hperm : s_targets s ≡ₚ e :: list_pop idx (s_targets s)).
  { unfold list_pop. rewrite <- (take_drop_middle _ _ _ Hidx) at 1. rewrite <- Permutation_middle. reflexivity. }
  pose proof (w_tg _ _ _ _ _ _ _ _ _ _ _ HI) as Hnd. rewrite Hperm in Hnd. apply NoDup_cons in Hnd as [Hnin Hnd].
  pose proof (w_len _ _ _ _ _ _ _ _ _ _ _ HI) as Hlen.
  destruct H1 as [L1 L2 L3 L4 L5 L6 L7 L8 L9 L10 L11 L12 L13 L14 L15 L16 L17 L18 L19]. simpl in *.
  split; auto.
  - rewrite !list_pop_length by lia. lia.
  - intros i e' He'. rewrite list_pop_lookup in He' by lia. rewrite list_pop_lookup by lia. auto.
  - intros e' He'. assert (He2 : e' = e \/ (e' ∈ s_strand_timers s \/ e' ∈ X1)).
    { destruct He' as [He'|He']; [destruct (Htm1 e' He'); auto|auto]. }
    destruct He2 as [->|He2].
    + split; [exact Hnin|]. apply (L16 e l). exact Hl.
    + destruct (L15 e' He2) as [A B]. split; [|exact B]. intros C. apply A. rewrite Hperm. right. exact C.
  - intros e' l' Hl' Hnn. destruct (L17 e' l' Hl' Hnn) as [A|[A|A]]; auto.
    rewrite Hperm in A. apply elem_of_cons in A as [->|A]; [|auto]. right. left. apply Htm3.
    rewrite Hl in Hl'. congruence.
Qed.

Lemma unregister_good e s : I11 X [] s -> wp (unregister_engine e) (fun _ => I11 X []) (I11 X []) s.
Proof.
  intros HI. unfold unregister_engine. apply wp_bind, wp_upd.
  set (s1 := set_log _ s).
  assert (H1 : I11 X [] s1) by (apply inv11_quiet; [reflexivity|exact HI]).
  apply wp_bind, wp_get, wp_bind, wp_of_option; [|intros _; exact H1]. intros idx Hidx. apply index_of_spec in Hidx.
  simpl in Hidx. assert (Hlt := lookup_lt_Some _ _ _ Hidx).
  apply wp_bind, wp_upd, wp_bind, wp_upd.
  destruct (w_load _ _ _ _ _ _ _ _ _ _ _ HI idx e Hidx) as (l & Hl & _).
  apply wp_bind, wp_get. simpl. rewrite Hl. apply wp_bind, wp_ret.
  destruct (decide (l = [])) as [El|El].
  - apply wp_bind, wp_upd, wp_upd. unfold I11. simpl. apply (removed_I11 e idx l); auto; congruence.
  - apply wp_upd. unfold I11. simpl. apply (removed_I11 e idx l); auto.
    + intros x Hx. apply elem_of_app in Hx as [Hx|Hx]; [auto|]. apply elem_of_list_singleton in Hx. auto.
    + intros x Hx. apply elem_of_app. auto.
    + intros _. apply elem_of_app. right. left.
Qed.

Lemma job_timeout_good fuel j tid s : I11 X [] s ->
  wp (job_timeout hwm scheme fuel j tid) (fun _ => I11 X []) (I11 X []) s.
Proof.
  intros HI. unfold job_timeout. apply wp_bind, wp_get_job; [|intros _; exact HI]. intros jb Hj.
  destruct (decide _); [|apply wp_ret; exact HI]. apply wp_bind, wp_get.
  destruct (decide _); [|apply wp_ret; exact HI].
  eapply wp_mono; [eapply (fail_unreachable_good scheme _ HX _ _ _ []); [apply (update_graph_good _ _ HX)|exact HI]| |auto].
  intros [] s' (A & _). exact A.
Qed.

(** State after line 364 of dispatch_submission, and after the Job object is made (406). *)
Definition noted (m : nat) (md : taskmd) (s : sched) : sched :=
  set_retries (<[m := t_retries md]>) (set_all_ids (fun X => {[m]} ∪ X) (set_log (fun l => l ++ [ObsSubmit m md]) s)).
Definition created (jb : job) (s : sched) : sched := set_jobs (<[s_next s := jb]>) (set_next S s).
Lemma noted_I11 m md s : I11 X [] s -> ~ submitted (s_log s) m ->
  I11 X [] (noted m md s) /\ phase_of (s_log s) m = Unknown /\ phase_of (s_log (noted m md s)) m = Waiting.
Proof.
  intros HI Hfresh. set (o := ObsSubmit m md).
  assert (Hu : phase_of (s_log s) m = Unknown).
  { destruct (phase_of (s_log s) m) eqn:E; try reflexivity; exfalso; apply Hfresh, phase_submitted;
      try (apply (w_ok _ _ _ _ _ _ _ _ _ _ _ HI)); congruence. }
  assert (Hm : phase_of (s_log s ++ [o]) m = Waiting) by (apply phase_submit; exact Hu).
  assert (Hp : forall m', m' <> m -> phase_of (s_log s ++ [o]) m' = phase_of (s_log s) m').
  { intros m' Hne. apply phase_other. simpl. congruence. }
  assert (Hzero : sends (s_log s) m = 0).
  { clear -Hu. remember (s_log s) as t. clear Heqt s. induction t as [|o t IH] using rev_ind; [reflexivity|].
    destruct (decide (about o = Some m)) as [Ha|Ha].
    - exfalso. rewrite phase_snoc in Hu.
      destruct o; simpl in Ha; try discriminate; injection Ha as ->; simpl in Hu;
        rewrite decide_True in Hu by reflexivity; destruct (phase_of t m); try discriminate;
        destruct (decide _); discriminate.
    - rewrite phase_other in Hu by exact Ha. rewrite sends_snoc, IH by exact Hu.
      destruct (not_about_counts o m Ha) as [-> _]. reflexivity. }
  split; [|split; [exact Hu|exact Hm]].
  destruct HI as [L1 L2 L3 L4 L5 L6 L7 L8 L9 L10 L11 L12 L13 L14 L15 L16 L17 L18 L19]. unfold I11. simpl in *. fold o.
    split; auto.
    - intros j jb Hj. destruct (decide (j_msg jb = m)) as [->|Hne]; [rewrite Hm; discriminate|rewrite Hp by exact Hne; eauto].
    - intros j Hj. destruct (L5 j Hj) as (jb & A & B). exists jb. split; [exact A|]. intros C.
      rewrite Hp; [auto|]. intros E. apply (L3 j jb A). rewrite E. exact Hu.
    - intros m' j Hq. destruct (L6 m' j Hq) as (jb & A & B & C). exists jb. rewrite Hp; [auto|]. intros ->. congruence.
    - intros e l m' j Hl Hin. destruct (L8 e l m' j Hl Hin) as (jb & A & B & C & D & E). exists jb.
      rewrite Hp; [auto|]. intros ->. congruence.
    - intros m' e Hon. apply L9. rewrite Hp in Hon; [exact Hon|]. intros ->. congruence.
    - intros m'. destruct (decide (m' = m)) as [->|Hne]; [rewrite Hm; discriminate|rewrite Hp by exact Hne; auto].
    - intros m' md' Hin. destruct (decide (m' = m)) as [->|Hne].
      + apply elem_of_app in Hin as [Hin|Hin]; [exfalso; apply Hfresh; eexists; eauto|].
        apply elem_of_list_singleton in Hin. injection Hin as ->.
        rewrite sends_snoc. simpl. rewrite Hzero. split; [lia|]. intros _. rewrite Hm. split; [|intros ?; discriminate].
        intros _. exists (t_retries md). rewrite lookup_insert. split; [reflexivity|lia].
      + destruct (not_about_counts o m') as [C1 C2]; [simpl; congruence|].
        rewrite sends_snoc, refusals_snoc, C1, C2, !Nat.add_0_r, Hp, lookup_insert_ne by congruence. apply L14.
        apply elem_of_app in Hin as [Hin|Hin]; [exact Hin|]. apply elem_of_list_singleton in Hin. injection Hin as -> ->. congruence.
    - intros e He. destruct (L15 e He). split; [assumption|]. apply elem_of_app; auto.
    - intros e l Hl. apply elem_of_app. eauto.
    - intros m' e k Hin. apply elem_of_app in Hin as [Hin|Hin]; [|apply elem_of_list_singleton in Hin; discriminate].
      destruct (L18 m' e k Hin) as [A|A]; [|auto]. left. rewrite Hp; [exact A|]. intros ->. congruence.
    - apply no_repeat_app; [exact L19|discriminate].
Qed.
Lemma created_I11 jb s1 : let m := j_msg jb in I11 X [] s1 -> phase_of (s_log s1) m = Waiting ->
  (forall j' jb', s_jobs s1 !! j' = Some jb' -> j_msg jb' <> m) ->
  I11 X [s_next s1] (created jb s1).
Proof.
  intros m H1 Hm Hnone. set (j := s_next s1). assert (Hjm : j_msg jb = m) by reflexivity.
  assert (Hnew : s_jobs s1 !! j = None) by (apply (w_next _ _ _ _ _ _ _ _ _ _ _ H1); reflexivity).
  assert (Hnomsg : forall j' jb', s_jobs s1 !! j' = Some jb' -> j_msg jb' <> m).
  { intros j' jb' Hj' E. eapply Hnone; eauto. }
  destruct H1 as [L1 L2 L3 L4 L5 L6 L7 L8 L9 L10 L11 L12 L13 L14 L15 L16 L17 L18 L19]. unfold I11.
    change (inv11 X (<[j := jb]> (s_jobs s1)) (S (s_next s1)) (s_targets s1) (s_loads s1) (j :: s_queue s1) (s_qmap s1)
       (s_retries s1) (s_pending s1) (s_strand_timers s1) (s_log s1)).
    assert (Hkeep : forall j' b, s_jobs s1 !! j' = Some b -> <[j := jb]> (s_jobs s1) !! j' = Some b).
    { intros j' b Hb. rewrite lookup_insert_ne; [exact Hb|]. congruence. }
    split; auto.
    - intros j' Hle. rewrite lookup_insert_ne by (unfold j; lia). apply L1. lia.
    - intros j1 j2 b1 b2. rewrite !lookup_insert_Some.
      intros [(<- & <-)|(N1 & B1)] [(<- & <-)|(N2 & B2)] E; [reflexivity| | |eapply L2; eauto].
      + exfalso. eapply Hnomsg; [exact B2|]. rewrite <- E. exact Hjm.
      + exfalso. eapply Hnomsg; [exact B1|]. rewrite E. exact Hjm.
    - intros j' b. rewrite lookup_insert_Some. intros [(<- & <-)|(N1 & B1)]; [|eauto].
      rewrite Hjm, Hm. discriminate.
    - apply NoDup_cons. split; [|exact L4]. intros Hin. destruct (L5 j Hin) as (b & B & _). congruence.
    - intros j' Hj'. apply elem_of_cons in Hj' as [->|Hj'].
      + exists jb. rewrite lookup_insert. split; [reflexivity|]. intros _. rewrite Hjm. exact Hm.
      + destruct (L5 j' Hj') as (b & B & C). eauto.
    - intros m' j' Hq. destruct (L6 m' j' Hq) as (b & B & C). eauto.
    - intros e l m' j' Hl Hin. destruct (L8 e l m' j' Hl Hin) as (b & B & C). eauto.
    - intros m' e k Hin. destruct (L18 m' e k Hin) as [A|(j' & b & B & C)]; [auto|]. right. eauto.
Qed.

Lemma dispatch_submission_good fuel m md s :
  I11 X [] s -> ~ submitted (s_log s) m ->
  wp (dispatch_submission hwm scheme fuel m md) (fun _ => I11 X []) (I11 X []) s.
Proof.
  intros HI Hfresh. unfold dispatch_submission. apply wp_bind, wp_upd, wp_bind, wp_upd, wp_bind, wp_upd.
  change (set_retries (<[m := t_retries md]>) (set_all_ids (fun X => {[m]} ∪ X) (set_log (fun l => l ++ [ObsSubmit m md]) s)))
    with (noted m md s).
  set (s1 := noted m md s). destruct (noted_I11 m md s HI Hfresh) as (H1 & Hu & Hm). fold s1 in H1, Hm.
  apply wp_bind. destruct (from_dict (t_after md)) as [a0|] eqn:Ea; [|apply wp_raise; exact H1]. apply wp_ret.
  apply wp_bind, wp_get, wp_bind, wp_get. cbv zeta.
  apply wp_bind. destruct (from_dict (t_follow md)) as [fo|] eqn:Ef; [|apply wp_raise; exact H1]. apply wp_ret.
  apply wp_bind, wp_get, wp_bind, wp_upd, wp_bind, wp_upd.
  set (ac := s_all_completed s1). set (af := s_all_failed s1).
  set (jb := Job m md (list_to_set (t_targets md)) (build_after a0 ac af) fo (t_timeout md) false 0 ∅).
  set (j := s_next s1).
  set (s2 := set_jobs _ _).
  assert (H2 : I11 X [j] s2).
  { apply (created_I11 jb s1); [exact H1|exact Hm|].
    intros j' jb' Hj' E. apply (w_sub _ _ _ _ _ _ _ _ _ _ _ HI j' jb' Hj'). rewrite E. exact Hu. }
  assert (Hj2 : s_jobs s2 !! j = Some jb) by (simpl; apply lookup_insert).
  assert (Hq2 : s_qmap s2 !! m = None).
  { change (s_qmap s !! m = None). destruct (s_qmap s !! m) as [j'|] eqn:E; [|reflexivity].
    destruct (w_qm _ _ _ _ _ _ _ _ _ _ _ HI m j' E) as (_ & _ & _ & E'). congruence. }
  apply wp_bind, wp_get. cbv zeta.
  assert (Hfail : forall w, wp (upd (set_qmap (<[m := j]>)) ;; fail_unreachable (update_graph hwm scheme fuel) m w) (fun _ => I11 X []) (I11 X []) s2).
  { intros w. apply (fail_now_good _ _ HX _ j jb); auto. }
  destruct (bool_decide (d_ids (build_after a0 _ _) <> ∅ /\ _)); [apply Hfail|].
  destruct (bool_decide _ && _); [apply Hfail|].
  destruct (bool_decide (d_ids fo <> ∅ /\ _)); [apply Hfail|].
  destruct (bool_decide _ && _); [apply Hfail|].
  destruct (check (build_after a0 _ _) _ _) eqn:Ec.
  - apply (run_or_save_good _ _ HX _ j jb); auto.
  - apply (save_unmet_good scheme _ j jb); auto.
Qed.
End Life.
