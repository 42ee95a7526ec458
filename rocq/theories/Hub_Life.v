(** What each event does to each message, and the answers to requests. *)
From Coq Require Import List Arith Bool Lia Permutation.
From Verif Require Import Hub_Spec Hub_Model Hub_Reg Hub_Tasks Hub_Steps.
Import ListNotations.

(** What a client is told about one message *)
Definition status_of (s : hub) (m : nat) : status :=
  match get_results s [m] true with
  | Reply [] [_] _ => Done
  | Reply [_] [] _ => Pending
  | _ => Unknown
  end.
Lemma status_of_spec s m : status_of s m = if mem m (pending s) then Pending else if mem m (all_completed s) then Done else Unknown.
Proof.
  unfold status_of, get_results. cbn. destruct (mem m (pending s)); [reflexivity|]. destruct (mem m (all_completed s)); reflexivity.
Qed.

Lemma existsb_app {A} (f : A -> bool) l l' : existsb f (l ++ l') = existsb f l || existsb f l'.
Proof. induction l; simpl; [reflexivity|]. rewrite IHl. apply orb_assoc. Qed.
Lemma mem_add x y l : mem x (add y l) = Nat.eqb x y || mem x l.
Proof.
  apply eq_true_iff_eq. rewrite orb_true_iff, !mem_In, In_add, Nat.eqb_eq. reflexivity.
Qed.
Lemma mem_discard x y l : mem x (discard y l) = negb (Nat.eqb x y) && mem x l.
Proof.
  apply eq_true_iff_eq. rewrite andb_true_iff, negb_true_iff, !mem_In, In_discard, Nat.eqb_neq. reflexivity.
Qed.
Lemma registered_spec s u : rinv s -> is_registered (notices s) u = is_some (get u (by_ident s)).
Proof.
  intros J. apply eq_true_iff_eq. rewrite is_some_get, (ri_ident s J), map_map. unfold is_registered. rewrite <- (ri_present s J), existsb_exists. split.
  - intros (e & He & E). apply Nat.eqb_eq in E. subst u. apply in_map_iff. exists e. auto.
  - intros H. apply in_map_iff in H as (e & E & He). exists e. split; [exact He|]. apply Nat.eqb_eq. symmetry. exact E.
Qed.
Lemma sent_to_spec past u m : sent_to past u m = true <-> In (QueueRequest u m) past.
Proof.
  unfold sent_to. rewrite existsb_exists. split.
  - intros (e & He & E). destruct e; try discriminate. apply andb_true_iff in E as [E1 E2]. apply Nat.eqb_eq in E1, E2. subst. exact He.
  - intros H. exists (QueueRequest u m). split; [exact H|]. rewrite !Nat.eqb_refl. reflexivity.
Qed.
Lemma has_left_spec ns i u : has_left ns i u = true <-> In (i, u) (gone ns).
Proof.
  unfold has_left. rewrite existsb_exists. split.
  - intros ([j v] & He & E). apply andb_true_iff in E as [E1 E2]. apply Nat.eqb_eq in E1, E2. simpl in *. subst. exact He.
  - intros H. exists (i, u). split; [exact H|]. simpl. rewrite !Nat.eqb_refl. reflexivity.
Qed.

Lemma same_sets s e : (match e with Register _ _ | NewHeart _ | StoppedHeart _ | Unregister _ | Stalled _ | TaskDestination _ _ | Purge _ => True | _ => False end) ->
  pending (step s e) = pending s /\ all_completed (step s e) = all_completed s.
Proof.
  assert (Hu : forall s i, pending (unregister_engine s i) = pending s /\ all_completed (unregister_engine s i) = all_completed s).
  { intros s0 i. unfold unregister_engine. destruct (get i (engines s0)); [auto|]. destruct (find _ (incoming s0)) as [[? ?]|]; auto. }
  destruct e; intros H; try destruct H; cbn [step].
  - unfold register_engine. destruct (new_engine_id s id) as [[s1 eid] c] eqn:E.
    assert (E' : pending s1 = pending s /\ all_completed s1 = all_completed s) by (unfold new_engine_id in E; destruct id as [i|]; [destruct (is_some _); [|destruct (mem _ _)]|]; injection E as <- <- <-; auto).
    destruct (is_some _); [exact E'|]. destruct (is_some _); exact E'.
  - unfold handle_new_heart, finish_registration. destruct (is_some _); [|auto]. destruct (get u (incoming s)); auto.
  - unfold handle_stopped_heart. destruct (get u (hearts s)); [|auto]. destruct (is_some _); auto.
  - apply Hu.
  - unfold purge_stalled. destruct (is_some _); auto.
  - unfold save_task_destination. destruct (get u (by_ident s)); [|auto]. cbn [tasks with_sets]. destruct (tasks s n); [|auto].
    set (s1 := with_tables _ _ _ _). destruct (update_spec s1 m (fun r => Rec (Some u) (r_result r) (r_completed r))) as (_ & _ & -> & -> & _). auto.
  - unfold purge_results. destruct (existsb _ _); auto.
Qed.
Lemma status_same s s' m : pending s' = pending s -> all_completed s' = all_completed s -> status_of s' m = status_of s m.
Proof. intros E1 E2. rewrite !status_of_spec, E1, E2. reflexivity. Qed.
Lemma status_request s s' m x : pending s' = add m (pending s) -> all_completed s' = all_completed s -> ~ In m (all_completed s) ->
  status_of s' x = match status_of s x with Unknown => if Nat.eqb x m then Pending else Unknown | st => st end.
Proof.
  intros E1 E2 Hn. rewrite !status_of_spec, E1, E2, mem_add. destruct (Nat.eqb_spec x m) as [->|]; simpl.
  - rewrite (proj2 (mem_false _ _) Hn). destruct (mem m (pending s)); reflexivity.
  - destruct (mem x (pending s)); [reflexivity|]. destruct (mem x (all_completed s)); reflexivity.
Qed.
Lemma status_result s s' m x : pending s' = discard m (pending s) -> all_completed s' = add m (all_completed s) -> In m (pending s) ->
  status_of s' x = match status_of s x with Pending => if Nat.eqb x m then Done else Pending | st => st end.
Proof.
  intros E1 E2 Hn. rewrite !status_of_spec, E1, E2, mem_add, mem_discard. destruct (Nat.eqb_spec x m) as [->|]; simpl.
  - rewrite (proj2 (mem_In _ _) Hn). reflexivity.
  - destruct (mem x (pending s)); [reflexivity|]. destruct (mem x (all_completed s)); reflexivity.
Qed.
Lemma status_quiet st (b : bool) : match st with Unknown => Unknown | Pending => Pending | Done => Done end = st.
Proof. destruct st; reflexivity. Qed.

Lemma life_step past s e m : rinv s -> ginv s -> uniq past -> kinv past s -> plausible past (notices s) e -> status_of (step s e) m = next past (notices s) e m (status_of s m).
Proof.
  intros J I U K P.
  assert (Hdone : forall st : status, next past (notices s) e m st = st -> forall s', pending s' = pending s -> all_completed s' = all_completed s -> status_of s m = st -> status_of s' m = next past (notices s) e m st).
  { intros st E s' E1 E2 E3. rewrite E, <- E3. apply status_same; assumption. }
  destruct e; try (destruct P; fail);
    try (match goal with |- status_of (step s ?e) m = _ => destruct (same_sets s e Logic.I) as [E1 E2]; rewrite (status_same _ _ _ E1 E2); destruct (status_of s m); reflexivity end).
  - (* DeathTimer *) cbn [step]; unfold next. destruct (has_left (notices s) id u && sent_to past u m) eqn:Hl.
    + apply andb_true_iff in Hl as [Hl Hs]. apply has_left_spec in Hl. apply sent_to_spec in Hs.
      destruct (existsb _ (timers s)) eqn:Et.
      * destruct (k_queue _ _ K id u) as (q & Q1 & Q2 & Q3).
        { apply existsb_exists in Et as ([j v] & Ht & E). apply andb_true_iff in E as [E1 E2]. apply Nat.eqb_eq in E1, E2. simpl in *. subst. apply in_app_iff. auto. }
        unfold handle_stranded_msgs. cbn [queues with_timers]. rewrite Q1.
        match goal with |- context [strand ?x u q] => destruct (strand_spec u q x Q2) as (_ & _ & _ & _ & _ & _ & S6 & S7 & _); [intros y Hy; apply Q3 in Hy; apply Hy|]; set (s' := strand x u q) in * end.
        cbn [pending all_completed with_timers] in *.
        rewrite !status_of_spec. destruct (mem m (pending s)) eqn:Ep.
        -- apply mem_In in Ep. assert (Hq : In m q) by (apply Q3; auto). rewrite (proj2 (mem_false m (pending s'))) by (rewrite S6; tauto). rewrite (proj2 (mem_In m (all_completed s'))) by (apply S7; auto). reflexivity.
        -- apply mem_false in Ep. rewrite (proj2 (mem_false m (pending s'))) by (rewrite S6; tauto).
           assert (E : mem m (all_completed s') = mem m (all_completed s)). { apply eq_true_iff_eq. rewrite !mem_In, S7, Q3. tauto. }
           rewrite E. destruct (mem m (all_completed s)); reflexivity.
      * rewrite status_of_spec. destruct (mem m (pending s)) eqn:Ep; [|destruct (mem m (all_completed s)); reflexivity]. exfalso.
        apply mem_In in Ep. pose proof (k_mux _ _ K _ _ Hs Ep) as H. rewrite map_app, in_app_iff in H. destruct H as [H|H].
        -- pose proof (g_uuids s I) as G. apply (NoDup_app_disj _ _ u G); [change u with (snd (id, u)); apply in_map; exact Hl|]. apply in_app_iff. auto.
        -- apply in_map_iff in H as ([j v] & Ev & H). simpl in Ev. subst v.
           assert (j = id) as ->.
           { pose proof (g_uuids s I) as G. apply NoDup_app_l in G. apply (g_timers s I) in H.
             assert (X : forall k, In (k, u) (gone (notices s)) -> get u (map swap (gone (notices s))) = Some k).
             { intros k Hk. apply in_get; [rewrite map_map; exact G|]. apply in_map_iff. exists (k, u). auto. }
             apply X in H, Hl. congruence. }
           rewrite <- not_true_iff_false in Et. apply Et. apply existsb_exists. exists (id, u). split; [exact H|]. simpl. rewrite !Nat.eqb_refl. reflexivity.
    + transitivity (status_of s m); [|destruct (status_of s m); reflexivity].
      destruct (existsb _ (timers s)) eqn:Et; [|reflexivity].
      apply existsb_exists in Et as ([j v] & Ht & E). apply andb_true_iff in E as [E1 E2]. apply Nat.eqb_eq in E1, E2. simpl in *. subst j v.
      destruct (k_queue _ _ K id u) as (q & Q1 & Q2 & Q3); [apply in_app_iff; auto|].
      unfold handle_stranded_msgs. cbn [queues with_timers]. rewrite Q1.
      match goal with |- context [strand ?x u q] => destruct (strand_spec u q x Q2) as (_ & _ & _ & _ & _ & _ & S6 & S7 & _); [intros y Hy; apply Q3 in Hy; apply Hy|]; set (s' := strand x u q) in * end.
      cbn [pending all_completed with_timers] in *.
      assert (Nq : ~ In m q).
      { intros H. apply Q3 in H as [_ H]. apply sent_to_spec in H. apply (g_timers s I) in Ht. apply has_left_spec in Ht. rewrite H, Ht in Hl. discriminate. }
      rewrite !status_of_spec. assert (E1 : mem m (pending s') = mem m (pending s)) by (apply eq_true_iff_eq; rewrite !mem_In, S6; tauto).
      assert (E2 : mem m (all_completed s') = mem m (all_completed s)) by (apply eq_true_iff_eq; rewrite !mem_In, S7; tauto). rewrite E1, E2. reflexivity.
  - (* QueueRequest *) simpl in P. destruct (new_pending _ _ _ K P) as (N1 & N2 & N3). cbn [step]; unfold next. rewrite (registered_spec s u J). unfold save_queue_request.
    destruct (get u (by_ident s)) as [eid|] eqn:Eu; cbn [is_some]; [|rewrite andb_false_r; destruct (status_of s m); reflexivity]. rewrite andb_true_r.
    erewrite status_request with (s := s) (m := m0); [destruct (status_of s m); reflexivity| | |exact N2].
    + cbn [queues with_sets]. unfold save_request. rewrite N3. cbn [queues with_db]. destruct (queues s eid); reflexivity.
    + cbn [queues with_sets]. unfold save_request. rewrite N3. cbn [queues with_db]. destruct (queues s eid); reflexivity.
  - (* QueueResult *) simpl in P. cbn [step]; unfold next. rewrite (registered_spec s u J). unfold save_queue_result. destruct (get u (by_ident s)) as [eid|] eqn:Eu; cbn [is_some]; [|rewrite andb_false_r; destruct (status_of s m); reflexivity].
    rewrite andb_true_r. apply (ident_spec s u eid J) in Eu. assert (Eu' : In (eid, u) (engines s ++ timers s)) by (apply in_app_iff; auto).
    destruct (mem m0 (pending s)) eqn:Ep.
    + pose proof Ep as Ep'. apply mem_In in Ep. destruct (k_queue _ _ K _ _ Eu') as (q & Q1 & Q2 & Q3). destruct (k_tables _ _ K _ _ Eu) as (c & C1). cbn [queues completed with_sets]. rewrite Q1, C1.
      rewrite (proj2 (mem_In m0 q)) by (apply Q3; auto). set (s1 := with_tables _ _ _ _).
      destruct (update_spec s1 m0 (fun r => Rec (r_engine r) (Some (Value v)) true)) as (_ & _ & S2 & S3 & _). rewrite (status_result s _ m0 m S2 S3 Ep). destruct (status_of s m); reflexivity.
    + transitivity (status_of s m).
      * destruct (mem m0 (all_completed s)); [|reflexivity]. destruct (update_spec s m0 (fun r => Rec (r_engine r) (Some (Value v)) true)) as (_ & _ & S2 & S3 & _). apply status_same; assumption.
      * rewrite status_of_spec. destruct (Nat.eqb_spec m m0) as [<-|]; [rewrite Ep; destruct (mem m (all_completed s)); reflexivity|]; destruct (mem m (pending s)); try reflexivity; destruct (mem _ (all_completed s)); reflexivity.
  - (* TaskRequest *) destruct P as [H1 H2]. cbn [step]; unfold next. assert (Nd : ~ In m0 (all_completed s)).
    { intros H. apply (k_done _ _ K) in H as [H|(u & H)]; [contradiction|specialize (H1 _ H eq_refl); discriminate]. }
    unfold save_task_request. erewrite status_request with (s := s) (m := m0); [destruct (status_of s m); reflexivity| | |exact Nd]; unfold save_request; cbn [db with_sets]; destruct (get m0 (db s)); reflexivity.
  - (* TaskResult *) cbn [step]; unfold next. unfold save_task_result. cbn [pending with_sets]. destruct (mem m0 (pending s)) eqn:Ep.
    + match goal with |- status_of (update_record ?x _ ?f) _ = _ => set (s1 := x); destruct (update_spec s1 m0 f) as (_ & _ & S2 & S3 & _) end.
      assert (E : pending s1 = discard m0 (pending s) /\ all_completed s1 = add m0 (all_completed s)).
      { unfold s1. cbn [by_ident completed tasks with_sets]. destruct (get u (by_ident s)) as [eid|]; [destruct (completed s eid); [destruct (tasks s eid)|]|]; auto. }
      destruct E as [E1 E2]. rewrite E1 in S2. rewrite E2 in S3. rewrite (status_result s _ m0 m S2 S3) by (apply mem_In, Ep). destruct (status_of s m); reflexivity.
    + transitivity (status_of s m); [reflexivity|]. rewrite status_of_spec. destruct (Nat.eqb_spec m m0) as [<-|]; [rewrite Ep; destruct (mem m (all_completed s)); reflexivity|]; destruct (mem m (pending s)); try reflexivity; destruct (mem _ (all_completed s)); reflexivity.
  - (* BroadcastRequest *) simpl in P. destruct (new_pending _ _ _ K P) as (N1 & N2 & N3). cbn [step]; unfold next. unfold save_broadcast_request. cbn [db with_sets]. rewrite N3.
    erewrite status_request with (s := s) (m := m0); [destruct (status_of s m); reflexivity|reflexivity|reflexivity|exact N2].
  - (* BroadcastResult *) cbn [step]; unfold next. unfold save_broadcast_result. destruct (mem m0 (pending s)) eqn:Ep.
    + match goal with |- status_of (update_record ?x _ ?f) _ = _ => set (s1 := x); destruct (update_spec s1 m0 f) as (_ & _ & S2 & S3 & _) end.
      assert (E : pending s1 = discard m0 (pending s) /\ all_completed s1 = add m0 (all_completed s)).
      { unfold s1. cbn [by_ident completed tasks with_sets]. destruct (get u (by_ident s)) as [eid|]; [destruct (completed s eid)|]; auto. }
      destruct E as [E1 E2]. rewrite E1 in S2. rewrite E2 in S3. rewrite (status_result s _ m0 m S2 S3) by (apply mem_In, Ep). destruct (status_of s m); reflexivity.
    + transitivity (status_of s m); [reflexivity|]. rewrite status_of_spec. destruct (Nat.eqb_spec m m0) as [<-|]; [rewrite Ep; destruct (mem m (all_completed s)); reflexivity|]; destruct (mem m (pending s)); try reflexivity; destruct (mem _ (all_completed s)); reflexivity.
  - (* Resubmit *) simpl in P. destruct (new_pending _ _ _ K P) as (N1 & N2 & N3). cbn [step]; unfold next. unfold resubmit. cbn [db with_sets]. rewrite N3.
    erewrite status_request with (s := s) (m := m0); [destruct (status_of s m); reflexivity|reflexivity|reflexivity|exact N2].
Qed.

(* ---------------------------------------------------------------- the lists of an engine *)
Lemma remove_same m l : remove1 m l = remove_one m l.
Proof. induction l as [|x l IH]; simpl; [reflexivity|]. rewrite IH. reflexivity. Qed.
Lemma status_pending s m : is_pending (status_of s m) = mem m (pending s).
Proof. rewrite status_of_spec. destruct (mem m (pending s)); [reflexivity|]. destruct (mem m (all_completed s)); reflexivity. Qed.
Lemma queue_status_same s s' i : queues s' = queues s -> completed s' = completed s -> tasks s' = tasks s -> queue_status s' i = queue_status s i.
Proof. intros E1 E2 E3. unfold queue_status. rewrite E1, E2, E3. reflexivity. Qed.
Lemma tables_unregister s i : queues (unregister_engine s i) = queues s /\ completed (unregister_engine s i) = completed s /\ tasks (unregister_engine s i) = tasks s.
Proof. unfold unregister_engine. destruct (get i (engines s)); [auto|]. destruct (find _ (incoming s)) as [[? ?]|]; auto. Qed.

Lemma lists_step past s e i u l : rinv s -> ginv s -> uniq past -> kinv past s -> plausible past (notices s) e -> In (i, u) (engines s) -> queue_status s i = Some l ->
  queue_status (step s e) i = Some (lists_next u e (status_of s) l).
Proof.
  intros J I U K P Hi Hl. destruct l as [[q c] t].
  assert (Htab : queues s i = Some q /\ completed s i = Some c /\ tasks s i = Some t).
  { unfold queue_status in Hl. destruct (queues s i), (completed s i), (tasks s i); try discriminate. injection Hl as <- <- <-. auto. }
  destruct Htab as (Q1 & C1 & T1).
  assert (Hid : forall u' eid, get u' (by_ident s) = Some eid -> Nat.eqb u u' = Nat.eqb i eid).
  { intros u' eid H. apply (ident_spec s u' eid J) in H. apply eq_true_iff_eq. rewrite !Nat.eqb_eq. split.
    - intros <-. eapply both_inj; [exact I|apply in_app_iff; left; exact Hi|apply in_app_iff; left; exact H].
    - intros <-. eapply engines_fun; eassumption. }
  assert (Hnone : forall u', get u' (by_ident s) = None -> Nat.eqb u u' = false).
  { intros u' H. apply Nat.eqb_neq. intros <-. apply (ident_spec s u i J) in Hi. congruence. }
  destruct e; cbn [step lists_next].
  - (* Register *) rewrite <- Hl. unfold register_engine. destruct (new_engine_id s id) as [[s1 eid] c0] eqn:E.
    assert (E' : queues s1 = queues s /\ completed s1 = completed s /\ tasks s1 = tasks s) by (unfold new_engine_id in E; destruct id as [j|]; [destruct (is_some _); [|destruct (mem _ _)]|]; injection E as <- <- <-; auto).
    destruct E' as (E1 & E2 & E3). destruct (is_some _); [|destruct (is_some _)]; apply queue_status_same; assumption.
  - (* NewHeart *) rewrite <- Hl. unfold handle_new_heart, finish_registration. destruct (is_some _); [|reflexivity]. destruct (get u0 (incoming s)) as [eid|] eqn:E; [|reflexivity].
    assert (N : i <> eid).
    { intros <-. apply get_in in E. pose proof (ri_ids s J) as G. apply (NoDup_app_disj _ _ i G); [change i with (fst (i, u)); apply in_map; exact Hi|change i with (snd (u0, i)); apply in_map; exact E]. }
    unfold queue_status. cbn [queues completed tasks save_engine_state with_file tell with_tables with_reg]. rewrite !put_other by exact N. reflexivity.
  - (* StoppedHeart *) rewrite <- Hl. unfold handle_stopped_heart. destruct (get u0 (hearts s)) as [eid|]; [|reflexivity]. destruct (is_some _); [|reflexivity].
    destruct (tables_unregister s eid) as (E1 & E2 & E3). apply queue_status_same; assumption.
  - (* Unregister *) rewrite <- Hl. destruct (tables_unregister s id) as (E1 & E2 & E3). apply queue_status_same; assumption.
  - (* Stalled *) rewrite <- Hl. unfold purge_stalled. destruct (is_some _); reflexivity.
  - (* DeathTimer *) rewrite <- Hl. destruct (existsb _ (timers s)) eqn:Et; [|reflexivity].
    apply existsb_exists in Et as ([j v] & Ht & E). apply andb_true_iff in E as [E1 E2]. apply Nat.eqb_eq in E1, E2. simpl in *. subst j v.
    destruct (k_queue _ _ K id u0) as (q' & Q1' & Q2 & Q3); [apply in_app_iff; auto|]. unfold handle_stranded_msgs. cbn [queues with_timers]. rewrite Q1'.
    match goal with |- context [strand ?x u0 q'] => destruct (strand_spec u0 q' x Q2) as (_ & S1 & S2 & S3 & _); [intros y Hy; apply Q3 in Hy; apply Hy|] end. apply queue_status_same; assumption.
  - destruct P.
  - (* QueueRequest *) simpl in P. destruct (new_pending _ _ _ K P) as (N1 & N2 & N3). unfold save_queue_request. destruct (get u0 (by_ident s)) as [eid|] eqn:Eu; [|rewrite (Hnone _ Eu); exact Hl].
    rewrite (Hid _ _ Eu). cbn [queues with_sets]. unfold save_request. rewrite N3. cbn [queues with_db]. apply (ident_spec s u0 eid J) in Eu. destruct (k_queue _ _ K eid u0) as (q' & Q1' & _); [apply in_app_iff; auto|]. rewrite Q1'.
    unfold queue_status. cbn [queues completed tasks with_tables with_sets with_db]. rewrite C1, T1. destruct (Nat.eqb_spec i eid) as [->|N].
    + rewrite put_same. assert (q' = q) as -> by congruence. reflexivity.
    + rewrite put_other by exact N. rewrite Q1. reflexivity.
  - (* QueueResult *) simpl in P. rewrite status_pending. unfold save_queue_result. destruct (get u0 (by_ident s)) as [eid|] eqn:Eu; [|rewrite (Hnone _ Eu); exact Hl]. rewrite (Hid _ _ Eu).
    apply (ident_spec s u0 eid J) in Eu. destruct (mem m (pending s)) eqn:Ep.
    + rewrite andb_true_r. destruct (k_queue _ _ K eid u0) as (q' & Q1' & Q2 & Q3); [apply in_app_iff; auto|]. destruct (k_tables _ _ K _ _ Eu) as (c' & C1'). cbn [queues completed with_sets]. rewrite Q1', C1'.
      rewrite (proj2 (mem_In m q')) by (apply Q3; split; [apply mem_In, Ep|exact P]). set (s1 := with_tables _ _ _ _).
      destruct (update_spec s1 m (fun r => Rec (r_engine r) (Some (Value v)) true)) as (_ & _ & _ & _ & _ & S5 & S6 & S7 & _). rewrite (queue_status_same s1 _ i S5 S6 S7).
      unfold s1, queue_status. cbn [queues completed tasks with_tables with_sets]. rewrite T1. destruct (Nat.eqb_spec i eid) as [->|N].
      * rewrite !put_same. assert (q' = q) as -> by congruence. assert (c' = c) as -> by congruence. rewrite remove_same. reflexivity.
      * rewrite !put_other by exact N. rewrite Q1, C1. reflexivity.
    + rewrite andb_false_r, <- Hl. destruct (mem m (all_completed s)); [|reflexivity].
      destruct (update_spec s m (fun r => Rec (r_engine r) (Some (Value v)) true)) as (_ & _ & _ & _ & _ & S5 & S6 & S7 & _). apply queue_status_same; assumption.
  - (* TaskRequest *) rewrite <- Hl. unfold save_task_request, save_request. cbn [db with_sets]. destruct (get m (db s)); reflexivity.
  - (* TaskDestination *) unfold save_task_destination. destruct (get u0 (by_ident s)) as [eid|] eqn:Eu; [|rewrite (Hnone _ Eu); exact Hl]. rewrite (Hid _ _ Eu). cbn [tasks with_sets].
    apply (ident_spec s u0 eid J) in Eu. destruct (k_tasks _ _ K _ _ Eu) as (t' & T1' & _). rewrite T1'. set (s1 := with_tables _ _ _ _).
    destruct (update_spec s1 m (fun r => Rec (Some u0) (r_result r) (r_completed r))) as (_ & _ & _ & _ & _ & S5 & S6 & S7 & _). rewrite (queue_status_same s1 _ i S5 S6 S7).
    unfold s1, queue_status. cbn [queues completed tasks with_tables with_sets]. rewrite Q1, C1. destruct (Nat.eqb_spec i eid) as [->|N].
    + rewrite put_same. assert (t' = t) as -> by congruence. reflexivity.
    + rewrite put_other by exact N. rewrite T1. reflexivity.
  - (* TaskResult *) rewrite status_pending. unfold save_task_result. cbn [pending with_sets]. destruct (mem m (pending s)) eqn:Ep; [|rewrite andb_false_r; exact Hl]. rewrite andb_true_r.
    cbn [by_ident completed tasks with_sets].
    match goal with |- queue_status (update_record ?x _ ?f) _ = _ => set (s1 := x); destruct (update_spec s1 m f) as (_ & _ & _ & _ & _ & S5 & S6 & S7 & _) end. rewrite (queue_status_same s1 _ i S5 S6 S7).
    unfold s1. destruct (get u0 (by_ident s)) as [eid|] eqn:Eu; [|rewrite (Hnone _ Eu); exact Hl]. rewrite (Hid _ _ Eu). apply (ident_spec s u0 eid J) in Eu.
    destruct (k_tasks _ _ K _ _ Eu) as (t' & T1' & _). destruct (k_tables _ _ K _ _ Eu) as (c' & C1'). rewrite C1', T1'.
    unfold queue_status. cbn [queues completed tasks with_tables with_sets]. rewrite Q1. destruct (Nat.eqb_spec i eid) as [->|N].
    + rewrite !put_same. assert (t' = t) as -> by congruence. assert (c' = c) as -> by congruence. rewrite remove_same. reflexivity.
    + rewrite !put_other by exact N. rewrite T1, C1. reflexivity.
  - (* BroadcastRequest *) rewrite <- Hl. unfold save_broadcast_request. cbn [db with_sets]. destruct (get m (db s)); reflexivity.
  - (* BroadcastResult *) rewrite status_pending. unfold save_broadcast_result. destruct (mem m (pending s)) eqn:Ep; [|rewrite andb_false_r; exact Hl]. rewrite andb_true_r.
    cbn [by_ident completed tasks with_sets].
    match goal with |- queue_status (update_record ?x _ ?f) _ = _ => set (s1 := x); destruct (update_spec s1 m f) as (_ & _ & _ & _ & _ & S5 & S6 & S7 & _) end. rewrite (queue_status_same s1 _ i S5 S6 S7).
    unfold s1. destruct (get u0 (by_ident s)) as [eid|] eqn:Eu; [|rewrite (Hnone _ Eu); exact Hl]. rewrite (Hid _ _ Eu). apply (ident_spec s u0 eid J) in Eu.
    destruct (k_tables _ _ K _ _ Eu) as (c' & C1'). rewrite C1'.
    unfold queue_status. cbn [queues completed tasks with_tables with_sets]. rewrite Q1. destruct (Nat.eqb_spec i eid) as [->|N].
    + rewrite !put_same. assert (c' = c) as -> by congruence. rewrite T1. reflexivity.
    + rewrite !put_other by exact N. rewrite T1, C1. reflexivity.
  - (* Resubmit *) rewrite <- Hl. unfold resubmit. cbn [db with_sets]. destruct (get m (db s)); reflexivity.
  - (* Purge *) rewrite <- Hl. unfold purge_results. destruct (existsb _ ms); reflexivity.
Qed.
(** A newly registered engine starts with empty lists. *)
Lemma lists_new past s e i u : rinv s -> kinv past s -> ~ In (i, u) (engines s) -> In (i, u) (engines (step s e)) -> e <> Restart -> queue_status (step s e) i = Some ([], [], []).
Proof.
  intros J K Hn Hi Hr.
  assert (Hs : forall s', engines s' = engines s -> In (i, u) (engines s') -> queue_status s' i = Some ([], [], [])) by (intros s' E H; rewrite E in H; contradiction).
  destruct (is_message e) eqn:Em.
  - destruct (same_step s e Em) as (_ & E & _). auto.
  - destruct e; try discriminate; try congruence; cbn [step] in *.
    + unfold register_engine in *. destruct (new_engine_id s id) as [[s1 eid] c0] eqn:E.
      assert (E1 : engines s1 = engines s) by (unfold new_engine_id in E; destruct id as [j|]; [destruct (is_some _); [|destruct (mem _ _)]|]; injection E as <- <- <-; auto).
      destruct (is_some _); [|destruct (is_some _)]; apply Hs; auto.
    + unfold handle_new_heart, finish_registration in *. destruct (is_some _); [|contradiction]. destruct (get u0 (incoming s)) as [eid|] eqn:E; [|contradiction].
      apply get_in in E. destruct (finish_new _ _ _ E (ri_ids s J) (ri_uuids s J) (ri_ident s J) (ri_hearts s J)) as (E1 & _ & _).
      cbn [engines save_engine_state with_file tell with_tables with_reg] in Hi. rewrite E1 in Hi. apply In_snoc in Hi as [Hi|Hi]; [contradiction|]. injection Hi as -> ->.
      unfold queue_status. cbn [queues completed tasks save_engine_state with_file tell with_tables with_reg]. rewrite !put_same. reflexivity.
    + exfalso. apply Hn. unfold handle_stopped_heart in Hi. destruct (get u0 (hearts s)) as [eid|]; [|exact Hi]. destruct (is_some _); [|exact Hi].
      unfold unregister_engine in Hi. destruct (get eid (engines s)); [cbn [engines tell save_engine_state with_file with_reg with_timers] in Hi; apply in_pop in Hi; tauto|]. destruct (find _ (incoming s)) as [[? ?]|]; exact Hi.
    + exfalso. apply Hn. unfold unregister_engine in Hi. destruct (get id (engines s)); [cbn [engines tell save_engine_state with_file with_reg with_timers] in Hi; apply in_pop in Hi; tauto|]. destruct (find _ (incoming s)) as [[? ?]|]; exact Hi.
    + exfalso. apply Hn. unfold purge_stalled in Hi. destruct (is_some _); exact Hi.
Qed.
Lemma status_exists past s i u : kinv past s -> In (i, u) (engines s) -> exists l, queue_status s i = Some l.
Proof.
  intros K H. destruct (k_tasks _ _ K _ _ H) as (t & T & _). destruct (k_tables _ _ K _ _ H) as (c & C). destruct (k_queue _ _ K i u) as (q & Q & _); [apply in_app_iff; auto|].
  unfold queue_status. rewrite T, C, Q. eauto.
Qed.
