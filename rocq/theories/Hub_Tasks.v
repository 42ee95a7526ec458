(** Proofs about the tables of messages. *)
From Coq Require Import List Arith Bool Lia Permutation.
From Verif Require Import Hub_Spec Hub_Model Hub_Reg.
Import ListNotations.

Lemma plausible_snoc es e : plausible_history (es ++ [e]) -> plausible_history es /\ plausible es (notices (exec es)) e.
Proof.
  intros H. split; [|apply (H es e []); reflexivity]. intros pre e' post E. apply (H pre e' (post ++ [e])). rewrite E, <- app_assoc. reflexivity.
Qed.
Lemma plausible_no_restart es : plausible_history es -> restarts_ok es.
Proof. intros H pre post E. destruct (H _ _ _ E). Qed.

(* ---------------------------------------------------------------- sets *)
Lemma In_add x y l : In x (add y l) <-> x = y \/ In x l.
Proof.
  unfold add. destruct (mem y l) eqn:E; [|rewrite in_app_iff; simpl; intuition]. apply mem_In in E. split; [auto|intros [->|H]; auto].
Qed.
Lemma In_discard x y l : In x (discard y l) <-> x <> y /\ In x l.
Proof. unfold discard. rewrite filter_In, negb_true_iff, Nat.eqb_neq. intuition. Qed.
Lemma In_remove1 x y l : NoDup l -> (In x (remove1 y l) <-> x <> y /\ In x l).
Proof.
  induction l as [|z l IH]; simpl; intros H; [tauto|]. inversion H as [|? ? H1 H2]; subst. destruct (Nat.eqb_spec y z) as [->|N].
  - split; [intros Hx; split; [intros ->; contradiction|auto]|intros [Hn [->|Hx]]; [congruence|exact Hx]].
  - simpl. rewrite IH by exact H2. split; [intros [->|[Hn Hx]]; auto|tauto].
Qed.
Lemma remove1_incl x y l : In x (remove1 y l) -> In x l.
Proof. induction l as [|z l IH]; simpl; [tauto|]. destruct (y =? z); simpl; tauto. Qed.
Lemma remove1_other x y l : x <> y -> In x l -> In x (remove1 y l).
Proof. intros N. induction l as [|z l IH]; simpl; [tauto|]. destruct (Nat.eqb_spec y z) as [->|]; simpl; [intros [->|H]; [congruence|exact H]|tauto]. Qed.
Lemma NoDup_remove1 y l : NoDup l -> NoDup (remove1 y l).
Proof.
  induction l as [|z l IH]; simpl; intros H; [constructor|]. inversion H as [|? ? H1 H2]; subst. destruct (y =? z); [exact H2|]. constructor; [|auto]. intros Hx. apply H1, (remove1_incl _ _ _ Hx).
Qed.
Lemma put_same {A} (f : nat -> A) k v : put f k v k = v.
Proof. unfold put. rewrite Nat.eqb_refl. reflexivity. Qed.
Lemma put_other {A} (f : nat -> A) k v k' : k' <> k -> put f k v k' = f k'.
Proof. intros N. unfold put. destruct (Nat.eqb_spec k k'); congruence. Qed.

(* ---------------------------------------------------------------- engines that have left *)
Record ginv (s : hub) : Prop := {
  g_timers : incl (timers s) (gone (notices s));
  g_once : NoDup (timers s);
  g_ids : NoDup (map fst (gone (notices s)) ++ map fst (engines s) ++ map snd (incoming s));
  g_uuids : NoDup (map snd (gone (notices s)) ++ map snd (engines s) ++ map fst (incoming s));
  g_counter : Forall (fun e => fst e < counter s) (gone (notices s));
  g_been : forall u, In u (map snd (been (notices s))) -> In u (map snd (engines s ++ gone (notices s))) }.

Lemma rinv_of es : plausible_history es -> rinv (exec es).
Proof. intros H. apply rinv_exec, plausible_no_restart, H. Qed.

Lemma ginv_same s s' : same_reg s s' -> incl (timers s') (timers s) -> NoDup (timers s') -> ginv s -> ginv s'.
Proof.
  intros (E1 & E2 & E3 & E4 & E5 & E6 & E7) H1 H2 []. constructor; rewrite ?E1, ?E2, ?E3, ?E7; auto. eapply incl_tran; eassumption.
Qed.
Lemma timers_strand u ms : forall s, timers (strand s u ms) = timers s.
Proof. induction ms as [|m ms IH]; intros s; simpl; [reflexivity|]. destruct (mem m (pending s)); [|reflexivity]. rewrite IH. unfold update_record. destruct (get m _); reflexivity. Qed.
Lemma timers_update s m f : timers (update_record s m f) = timers s.
Proof. unfold update_record. destruct (get m (db s)); reflexivity. Qed.
Lemma timers_message s e : is_message e = true -> match e with DeathTimer _ _ => True | _ => timers (step s e) = timers s end.
Proof.
  destruct e; intros H; try discriminate; simpl; auto.
  - unfold save_queue_request, save_request. destruct (get u (by_ident s)); [|reflexivity]. destruct (get m (db s)); cbn [queues with_sets with_db]; destruct (queues s n); reflexivity.
  - unfold save_queue_result. destruct (get u (by_ident s)); [|reflexivity]. destruct (mem m (pending s)).
    + cbn [queues completed with_sets]. destruct (queues s n), (completed s n); try reflexivity. destruct (mem m l); [|reflexivity]. rewrite timers_update. reflexivity.
    + destruct (mem m (all_completed s)); [rewrite timers_update|]; reflexivity.
  - unfold save_task_request, save_request. destruct (get m _); reflexivity.
  - unfold save_task_destination. destruct (get u (by_ident s)); [|reflexivity]. cbn [tasks with_sets]. destruct (tasks s n); [rewrite timers_update|]; reflexivity.
  - unfold save_task_result. cbn [pending with_sets]. destruct (mem m (pending s)); [|reflexivity]. rewrite timers_update. cbn [by_ident with_sets]. destruct (get u (by_ident s)); [|reflexivity].
    cbn [completed tasks with_sets]. destruct (completed s n), (tasks s n); reflexivity.
  - unfold save_broadcast_request. destruct (get m _); reflexivity.
  - unfold save_broadcast_result. destruct (mem m (pending s)); [|reflexivity]. rewrite timers_update. cbn [by_ident with_sets]. destruct (get u (by_ident s)); [|reflexivity].
    cbn [completed with_sets]. destruct (completed s n); reflexivity.
  - unfold resubmit. destruct (get m _); reflexivity.
  - unfold purge_results. destruct (existsb _ _); reflexivity.
Qed.
Lemma NoDup_app_assoc {A} (a b c : list A) : NoDup (a ++ b ++ c) <-> NoDup ((a ++ b) ++ c).
Proof. rewrite app_assoc. tauto. Qed.
Lemma ginv_pop s u : ginv s -> ginv (with_reg s (counter s) (engines s) (pop u (incoming s)) (by_ident s) (hearts s)).
Proof.
  intros [G1 G2 G3 G4 G5 G6]. constructor; cbn [engines incoming timers notices counter with_reg]; auto; rewrite app_assoc; apply NoDup_pop; rewrite <- app_assoc; assumption.
Qed.
Lemma in_pop_map {A} (f : nat * A -> nat) k (d : list (nat * A)) x : In x (map f (pop k d)) -> In x (map f d).
Proof. intros H. apply in_map_iff in H as (e & E & He). apply in_pop in He as [He _]. apply in_map_iff. eauto. Qed.
Lemma ginv_unregister s eid : rinv s -> ginv s -> ginv (unregister_engine s eid).
Proof.
  intros J I. unfold unregister_engine. destruct (get eid (engines s)) as [u|] eqn:E.
  - destruct I as [G1 G2 G3 G4 G5 G6]. apply get_in in E.
    assert (P1 : Permutation (map fst (engines s)) (eid :: map fst (pop eid (engines s))) /\ Permutation (map snd (engines s)) (u :: map snd (pop eid (engines s)))).
    { pose proof (NoDup_app_l _ _ (ri_ids s J)) as Hn. assert (P : Permutation (engines s) ((eid, u) :: pop eid (engines s))).
      { apply in_split in E as (l1 & l2 & El). rewrite El in *. rewrite map_app in Hn. simpl in Hn. apply NoDup_remove_2 in Hn. rewrite in_app_iff in Hn.
        unfold pop. rewrite filter_app. simpl. rewrite Nat.eqb_refl. simpl.
        assert (F : forall l, ~ In eid (map fst l) -> filter (fun e : nat * nat => negb (eid =? fst e)) l = l).
        { induction l as [|e l IH]; simpl; intros H; [reflexivity|]. destruct (Nat.eqb_spec eid (fst e)); [exfalso; apply H; auto|]. simpl. rewrite IH by tauto. reflexivity. }
        rewrite !F by tauto. symmetry. apply Permutation_middle. }
      split; [apply (Permutation_map fst P)|apply (Permutation_map snd P)]. }
    assert (Hlt : eid < counter s).
    { pose proof (ri_counter s J) as Hc. apply Forall_app in Hc as [Hc _]. rewrite Forall_forall in Hc. apply Hc. change eid with (fst (eid, u)). apply in_map. exact E. }
    constructor; cbn [engines incoming timers notices counter tell with_reg save_engine_state with_file with_timers]; rewrite ?gone_snoc, ?been_snoc, ?app_nil_r.
    + apply incl_app; [eapply incl_tran; [exact G1|apply incl_appl, incl_refl]|apply incl_appr, incl_refl].
    + apply NoDup_snoc; [exact G2|]. intros Hi. apply G1 in Hi. apply (NoDup_app_disj _ _ eid G3); [change eid with (fst (eid, u)); apply in_map; exact Hi|].
      apply in_or_app. left. change eid with (fst (eid, u)); apply in_map; exact E.
    + rewrite map_app. simpl. rewrite <- app_assoc. eapply Permutation_NoDup; [|exact G3]. apply Permutation_app_head.
      etransitivity; [apply Permutation_app_tail; apply P1|]. reflexivity.
    + rewrite map_app. simpl. rewrite <- app_assoc. eapply Permutation_NoDup; [|exact G4]. apply Permutation_app_head.
      etransitivity; [apply Permutation_app_tail; apply P1|]. reflexivity.
    + apply Forall_app. split; [exact G5|]. repeat constructor. exact Hlt.
    + intros v Hv. apply G6 in Hv. rewrite map_app, in_app_iff in *. rewrite map_app, in_app_iff. simpl. destruct Hv as [Hv|Hv]; [|tauto].
      apply (Permutation_in _ (proj2 P1)) in Hv as [->|Hv]; tauto.
  - destruct (find _ (incoming s)) as [[u i]|]; [apply ginv_pop|]; exact I.
Qed.
Lemma ginv_finish s u : rinv s -> ginv s -> ginv (finish_registration true s u).
Proof.
  intros J I; unfold finish_registration. destruct (get u (incoming s)) as [eid|] eqn:E; [|exact I]. apply get_in in E.
  destruct (finish_new _ _ _ E (ri_ids s J) (ri_uuids s J) (ri_ident s J) (ri_hearts s J)) as (E1 & _ & _). destruct I as [G1 G2 G3 G4 G5 G6].
  constructor; cbn [engines incoming timers notices counter tell with_reg with_tables save_engine_state with_file]; rewrite ?gone_snoc, ?been_snoc, ?app_nil_r, ?E1; auto.
  - rewrite map_app. rewrite app_assoc in *. simpl. rewrite (app_assoc (map fst (gone _))). apply (NoDup_move _ (map snd (incoming s))); [exact G3| | |].
    + change eid with (snd (u, eid)). apply in_map. exact E.
    + apply in_map_pop_snd; [apply (NoDup_app_r _ _ G3)|exact E].
    + apply NoDup_pop. exact G3.
  - rewrite map_app. rewrite app_assoc in *. simpl. rewrite (app_assoc (map snd (gone _))). apply (NoDup_move _ (map fst (incoming s))); [exact G4| | |].
    + change u with (fst (u, eid)). apply in_map. exact E.
    + rewrite pop_map, filter_In, Nat.eqb_refl. simpl. intuition discriminate.
    + apply NoDup_pop. exact G4.
  - intros v Hv. rewrite map_app, in_app_iff in Hv. rewrite !map_app, !in_app_iff. simpl in *. destruct Hv as [Hv|[->|[]]]; [|tauto].
    apply G6 in Hv. rewrite map_app, in_app_iff in Hv. tauto.
Qed.
Lemma ginv_register s u r : rinv s -> ginv s -> ~ In u (map snd (gone (notices s))) -> (forall i, r = Some i -> ~ In i (map fst (gone (notices s)))) -> ginv (register_engine s u r).
Proof.
  intros J I Pu Pi. unfold register_engine. destruct (new_engine_id s r) as [[s1 eid] c] eqn:E.
  destruct (new_id_spec _ _ _ _ _ E J) as (E1 & E2 & E3 & E4 & E5 & E6 & L & Le & Hn & Hc).
  assert (Et : timers s1 = timers s).
  { unfold new_engine_id in E. destruct r as [i|]; [destruct (is_some _); [|destruct (mem _ _)]|]; injection E as <- <- <-; reflexivity. }
  assert (Hg : ~ In eid (map fst (gone (notices s)))).
  { intros Hi. unfold new_engine_id in E.
    assert (Hfr : eid = counter s \/ r = Some eid) by (destruct r as [i|]; [destruct (is_some _); [|destruct (mem _ _)]|]; injection E as <- <- <-; auto).
    destruct Hfr as [-> | ->]; [|apply (Pi eid eq_refl Hi)]. apply in_map_iff in Hi as (e & Ee & He). pose proof (g_counter s I) as Gc. rewrite Forall_forall in Gc. apply Gc in He. lia. }
  destruct I as [G1 G2 G3 G4 G5 G6].
  assert (Fc : Forall (fun e : nat * nat => fst e < counter s1) (gone (notices s))) by (eapply Forall_impl; [|exact G5]; simpl; intros; lia).
  destruct (is_some (get u (by_ident s1))) eqn:F1; [|destruct (is_some (get u (incoming s1))) eqn:F2].
  1, 2: constructor; cbn [engines incoming timers notices counter tell]; rewrite ?E1, ?E2, ?E6, ?Et, ?gone_snoc, ?been_snoc; cbn beta iota; rewrite ?app_nil_r; auto.
  assert (Hu : ~ In u (map fst (incoming s))) by (rewrite <- is_some_get; rewrite E2 in F2; congruence).
  constructor; cbn [engines incoming timers notices counter tell with_reg]; rewrite ?E1, ?E2, ?E6, ?Et, ?gone_snoc, ?been_snoc; cbn beta iota; rewrite ?app_nil_r; auto.
  - rewrite set_new by exact Hu. rewrite map_app, !app_assoc. simpl. apply NoDup_snoc; [rewrite <- app_assoc; exact G3|]. rewrite <- app_assoc, in_app_iff. tauto.
  - rewrite set_new by exact Hu. rewrite map_app, !app_assoc. simpl. apply NoDup_snoc; [rewrite <- app_assoc; exact G4|]. rewrite <- app_assoc, !in_app_iff. intros [H|[H|H]]; [tauto| |tauto].
    rewrite E3 in F1. assert (is_some (get u (by_ident s)) = true); [|congruence]. apply is_some_get. rewrite (ri_ident s J), map_map. exact H.
Qed.
Lemma ginv_step s e : rinv s -> ginv s -> (exists past, plausible past (notices s) e) -> ginv (step s e).
Proof.
  intros J I (past & Hp). destruct (is_message e) eqn:Em.
  - pose proof (same_step s e Em) as Hs. pose proof (timers_message s e Em) as Ht. destruct e; try discriminate; try (eapply ginv_same; [exact Hs|rewrite Ht; apply incl_refl|rewrite Ht; apply (g_once s I)|exact I]).
    simpl in *. assert (G : incl (timers (step s (DeathTimer id u))) (timers s) /\ NoDup (timers (step s (DeathTimer id u)))).
    { simpl. destruct (existsb _ _); [|split; [apply incl_refl|apply (g_once s I)]]. unfold handle_stranded_msgs. cbn [queues with_timers].
      destruct (queues s id); [rewrite timers_strand|]; cbn [timers with_timers]; (split; [intros x Hx; apply filter_In in Hx; tauto|apply NoDup_filter, (g_once s I)]). }
    eapply ginv_same; [exact Hs|apply G|apply G|exact I].
  - destruct e; try discriminate; simpl.
    + apply ginv_register; auto; apply Hp.
    + unfold handle_new_heart. destruct (is_some _); [apply ginv_finish|]; assumption.
    + unfold handle_stopped_heart. destruct (get u (hearts s)) as [eid|]; [|exact I]. destruct (is_some _); [apply ginv_unregister|]; assumption.
    + apply ginv_unregister; assumption.
    + unfold purge_stalled. destruct (is_some _); [apply ginv_pop|]; assumption.
    + destruct Hp.
Qed.
Lemma ginv_exec es : plausible_history es -> ginv (exec es).
Proof.
  induction es as [|e es IH] using rev_ind; intros H; [constructor; simpl; try constructor; try tauto; intros x []|]. apply plausible_snoc in H as [H He]. rewrite exec_snoc.
  apply ginv_step; [apply rinv_of, H|apply IH, H|eauto].
Qed.

(* ---------------------------------------------------------------- messages *)
Definition req (past : list event) (m : nat) : Prop := exists e, In e past /\ request_of e = [m].
Lemma req_in past m : req past m <-> In m (flat_map request_of past).
Proof.
  unfold req. rewrite in_flat_map. split.
  - intros (e & He & E). exists e. split; [exact He|]. rewrite E. left; reflexivity.
  - intros (e & He & Hm). exists e. split; [exact He|]. destruct e; simpl in Hm; try tauto; destruct Hm as [->|[]]; reflexivity.
Qed.
Definition has_result (past : list event) (m : nat) : Prop := In m (flat_map result_of past).

(** Requests of one number are of one kind. *)
Record uniq (past : list event) : Prop := {
  u_mux : forall u u' m, In (QueueRequest u m) past -> In (QueueRequest u' m) past -> u = u';
  u_mux_task : forall u m, In (QueueRequest u m) past -> ~ In (TaskRequest m) past;
  u_mux_bc : forall u m, In (QueueRequest u m) past -> ~ In (BroadcastRequest m) past;
  u_task_bc : forall m, In (TaskRequest m) past -> ~ In (BroadcastRequest m) past }.
Lemma req_intro past e m : In e past -> request_of e = [m] -> In m (flat_map request_of past).
Proof. intros H E. apply req_in. exists e. auto. Qed.
Lemma uniq_history es : plausible_history es -> uniq es.
Proof.
  induction es as [|e es IH] using rev_ind; intros H; [constructor; simpl; tauto|]. apply plausible_snoc in H as [H He]. specialize (IH H). destruct IH as [U1 U2 U3 U4].
  constructor.
  - intros u u' m H1 H2. apply in_app_iff in H1 as [H1|[->|[]]]; apply in_app_iff in H2 as [H2|[E|[]]].
    + eauto.
    + subst e. simpl in He. destruct He. eapply req_intro; [exact H1|reflexivity].
    + simpl in He. destruct He. eapply req_intro; [exact H2|reflexivity].
    + congruence.
  - intros u m H1 H2. apply in_app_iff in H1 as [H1|[->|[]]]; apply in_app_iff in H2 as [H2|[E|[]]].
    + eapply U2; eassumption.
    + subst e. simpl in He. destruct He as [He _]. specialize (He _ H1 eq_refl). discriminate.
    + simpl in He. destruct He. eapply req_intro; [exact H2|reflexivity].
    + discriminate.
  - intros u m H1 H2. apply in_app_iff in H1 as [H1|[->|[]]]; apply in_app_iff in H2 as [H2|[E|[]]].
    + eapply U3; eassumption.
    + subst e. simpl in He. destruct He. eapply req_intro; [exact H1|reflexivity].
    + simpl in He. destruct He. eapply req_intro; [exact H2|reflexivity].
    + discriminate.
  - intros m H1 H2. apply in_app_iff in H1 as [H1|[->|[]]]; apply in_app_iff in H2 as [H2|[E|[]]].
    + eapply U4; eassumption.
    + subst e. simpl in He. destruct He. eapply req_intro; [exact H1|reflexivity].
    + simpl in He. destruct He as [He _]. specialize (He _ H2 eq_refl). discriminate.
    + discriminate.
Qed.

Record kinv (past : list event) (s : hub) : Prop := {
  k_known : forall m, In m (pending s) \/ In m (all_completed s) -> req past m;
  k_disj : forall m, In m (pending s) -> In m (all_completed s) -> False;
  k_done : forall m, In m (all_completed s) -> has_result past m \/ exists u, In (QueueRequest u m) past;
  k_queue : forall i u, In (i, u) (engines s ++ timers s) -> exists q, queues s i = Some q /\ NoDup q /\ forall m, In m q <-> In m (pending s) /\ In (QueueRequest u m) past;
  k_mux : forall u m, In (QueueRequest u m) past -> In m (pending s) -> In u (map snd (engines s ++ timers s));
  k_compl : forall i c, completed s i = Some c -> NoDup c /\ incl c (all_completed s);
  k_compl2 : forall i j c d m, completed s i = Some c -> completed s j = Some d -> In m c -> In m d -> i = j;
  k_tables : forall i u, In (i, u) (engines s) -> exists c, completed s i = Some c;
  k_tasks : forall i u, In (i, u) (engines s) -> exists t, tasks s i = Some t /\
     (forall m, In m t -> In (TaskDestination m u) past) /\ (forall m, In (TaskDestination m u) past -> In m t \/ In m (all_completed s));
  k_dest : forall m u, In (TaskDestination m u) past -> In u (map snd (been (notices s)));
  k_un : forall m, In m (unassigned s) -> In m (pending s) /\ In (TaskRequest m) past;
  k_un2 : forall m, In (TaskRequest m) past -> In m (pending s) -> (forall u, ~ In (TaskDestination m u) past) -> In m (unassigned s);
  k_db : forall m, In m (pending s) -> exists r, get m (db s) = Some r /\ r_completed r = false;
  k_db2 : forall m r, get m (db s) = Some r -> In m (pending s) \/ In m (all_completed s);
  k_db3 : forall m r, In m (all_completed s) -> get m (db s) = Some r -> r_completed r = true /\
     match r_result r with
     | Some (Value v) => exists e, In e past /\ (exists u, e = QueueResult u m v) \/ In e past /\ (exists u a, e = TaskResult m u a v \/ e = BroadcastResult m u a v)
     | Some EngineDied => exists u, In (QueueRequest u m) past /\ In u (map snd (gone (notices s)))
     | None => False
     end }.

(** The engine behind a uuid *)
Lemma ident_spec s u eid : rinv s -> (get u (by_ident s) = Some eid <-> In (eid, u) (engines s)).
Proof.
  intros J. rewrite (ri_ident s J). split.
  - intros H. apply get_in in H. apply in_map_iff in H as ([i v] & E & H). unfold swap in E. simpl in E. injection E as -> ->. exact H.
  - intros H. apply in_get; [rewrite map_map; apply (NoDup_app_l _ _ (ri_uuids s J))|]. apply in_map_iff. exists (eid, u). auto.
Qed.
Lemma engines_fun s i u u' : rinv s -> In (i, u) (engines s) -> In (i, u') (engines s) -> u = u'.
Proof. intros J H H'. apply (in_get _ _ _ (NoDup_app_l _ _ (ri_ids s J))) in H, H'. congruence. Qed.
Lemma both_fun s i u u' : ginv s -> In (i, u) (engines s ++ timers s) -> In (i, u') (engines s ++ timers s) -> u = u'.
Proof.
  intros I H H'. assert (Hn : NoDup (map fst (gone (notices s) ++ engines s))).
  { rewrite map_app. pose proof (g_ids s I) as G. rewrite app_assoc in G. apply (NoDup_app_l _ _ G). }
  assert (Hin : forall v, In (i, v) (engines s ++ timers s) -> In (i, v) (gone (notices s) ++ engines s)).
  { intros v Hv. apply in_app_iff in Hv as [Hv|Hv]; apply in_app_iff; [auto|left; apply (g_timers s I), Hv]. }
  apply Hin, (in_get _ _ _ Hn) in H. apply Hin, (in_get _ _ _ Hn) in H'. congruence.
Qed.
Lemma both_inj s i i' u : ginv s -> In (i, u) (engines s ++ timers s) -> In (i', u) (engines s ++ timers s) -> i = i'.
Proof.
  intros I H H'. assert (Hn : NoDup (map snd (gone (notices s) ++ engines s))).
  { rewrite map_app. pose proof (g_uuids s I) as G. rewrite app_assoc in G. apply (NoDup_app_l _ _ G). }
  assert (Hin : forall v, In (v, u) (engines s ++ timers s) -> get u (map swap (gone (notices s) ++ engines s)) = Some v).
  { intros v Hv. apply in_get; [rewrite map_map; exact Hn|]. apply in_map_iff. exists (v, u). split; [reflexivity|].
    apply in_app_iff in Hv as [Hv|Hv]; apply in_app_iff; [auto|left; apply (g_timers s I), Hv]. }
  apply Hin in H, H'. congruence.
Qed.

(** Stranded messages *)
Lemma strand_spec u ms : forall s, NoDup ms -> incl ms (pending s) ->
  let s' := strand s u ms in
  same_reg s s' /\ queues s' = queues s /\ tasks s' = tasks s /\ completed s' = completed s /\ unassigned s' = unassigned s /\ timers s' = timers s /\
  (forall m, In m (pending s') <-> In m (pending s) /\ ~ In m ms) /\ (forall m, In m (all_completed s') <-> In m (all_completed s) \/ In m ms) /\
  (forall m, get m (db s') = match get m (db s) with Some r => Some (if mem m ms then Rec (Some u) (Some EngineDied) true else r) | None => None end).
Proof.
  induction ms as [|m ms IH]; intros s Hn Hi; simpl.
  - repeat split; auto; try tauto. intros m. destruct (get m (db s)); reflexivity.
  - inversion Hn as [|? ? H1 H2]; subst. rewrite (proj2 (mem_In m (pending s))) by (apply Hi; left; reflexivity).
    set (s1 := update_record _ _ _).
    assert (E : same_reg s s1 /\ queues s1 = queues s /\ tasks s1 = tasks s /\ completed s1 = completed s /\ unassigned s1 = unassigned s /\ timers s1 = timers s /\
      pending s1 = discard m (pending s) /\ all_completed s1 = add m (all_completed s) /\
      (forall m', get m' (db s1) = match get m' (db s) with Some r => Some (if Nat.eqb m m' then Rec (Some u) (Some EngineDied) true else r) | None => None end)).
    { unfold s1, update_record. cbn [db with_sets]. destruct (get m (db s)) as [r|] eqn:Eg; (split; [repeat split|]); repeat (split; [reflexivity|]); cbn [db with_db with_sets]; intros m'.
      - destruct (Nat.eqb_spec m m') as [<-|N]; [rewrite get_set_same, Eg; reflexivity|]. rewrite get_set_other by congruence. destruct (get m' (db s)); reflexivity.
      - destruct (Nat.eqb_spec m m') as [<-|N]; [rewrite Eg; reflexivity|]. destruct (get m' (db s)); reflexivity. }
    destruct E as (Es & E1 & E2 & E3 & E4 & E5 & E6 & E7 & E8).
    destruct (IH s1 H2) as (F0 & F1 & F2 & F3 & F4 & F5 & F6 & F7 & F8).
    { rewrite E6. intros x Hx. apply In_discard. split; [intros ->; contradiction|]. apply Hi. right. exact Hx. }
    split; [eapply same_trans; eassumption|]. rewrite F1, F2, F3, F4, F5. do 5 (split; [assumption|]). split; [|split].
    + intros m'. rewrite F6, E6, In_discard. intuition.
    + intros m'. rewrite F7, E7, In_add. intuition.
    + intros m'. rewrite F8, E8. destruct (get m' (db s)) as [r|]; [|reflexivity]. unfold mem. simpl. rewrite (Nat.eqb_sym m' m). destruct (m =? m'), (existsb (Nat.eqb m') ms); reflexivity.
Qed.

(** Events that do not concern messages *)
Lemma kinv_reg past s s' e : kinv past s -> request_of e = [] -> result_of e = [] -> (forall m u, e <> TaskDestination m u) ->
  pending s' = pending s -> all_completed s' = all_completed s -> unassigned s' = unassigned s -> db s' = db s ->
  incl (been (notices s)) (been (notices s')) -> incl (gone (notices s)) (gone (notices s')) ->
  (forall i u, In (i, u) (engines s' ++ timers s') -> exists q, queues s' i = Some q /\ NoDup q /\ forall m, In m q <-> In m (pending s) /\ In (QueueRequest u m) past) ->
  (forall u, In u (map snd (engines s ++ timers s)) -> In u (map snd (engines s' ++ timers s'))) ->
  (forall i c, completed s' i = Some c -> NoDup c /\ incl c (all_completed s)) ->
  (forall i j c d m, completed s' i = Some c -> completed s' j = Some d -> In m c -> In m d -> i = j) ->
  (forall i u, In (i, u) (engines s') -> exists c, completed s' i = Some c) ->
  (forall i u, In (i, u) (engines s') -> exists t, tasks s' i = Some t /\ (forall m, In m t -> In (TaskDestination m u) past) /\ (forall m, In (TaskDestination m u) past -> In m t \/ In m (all_completed s))) ->
  kinv (past ++ [e]) s'.
Proof.
  intros K Er Es Et E1 E2 E3 E4 Hb Hg Hq Hm Hc Hc2 Hta Hta2.
  assert (Hin : forall x, In x (past ++ [e]) <-> In x past \/ x = e) by (intros x; rewrite in_app_iff; simpl; intuition).
  assert (Nq : forall u m, QueueRequest u m <> e) by (intros u m <-; discriminate).
  assert (Nt : forall m, TaskRequest m <> e) by (intros m <-; discriminate).
  constructor; rewrite ?E1, ?E2, ?E3, ?E4.
  - intros m H. apply (k_known _ _ K) in H as (x & Hx & Ex). exists x. split; [apply Hin; auto|exact Ex].
  - apply (k_disj _ _ K).
  - intros m H. apply (k_done _ _ K) in H as [H|(u & H)]; [left; unfold has_result; rewrite flat_map_app; apply in_or_app; auto|right; exists u; apply Hin; auto].
  - intros i u H. destruct (Hq i u H) as (q & Q1 & Q2 & Q3). exists q. split; [exact Q1|]. split; [exact Q2|]. intros m. rewrite Q3, Hin. split; [tauto|]. intros [H1 [H2|H2]]; [auto|]. destruct (Nq _ _ H2).
  - intros u m H H'. apply Hin in H as [H|H]; [|destruct (Nq _ _ H)]. apply Hm. eapply (k_mux _ _ K); eassumption.
  - exact Hc.
  - exact Hc2.
  - exact Hta.
  - intros i u H. destruct (Hta2 i u H) as (t & T1 & T2 & T3). exists t. split; [exact T1|]. split; [intros m Hx; apply Hin; auto|]. intros m Hx. apply Hin in Hx as [Hx|Hx]; [auto|]. destruct (Et m u). auto.
  - intros m u Hx. apply Hin in Hx as [Hx|Hx]; [|destruct (Et m u); auto]. pose proof (k_dest _ _ K _ _ Hx) as Hd. apply in_map_iff in Hd as (x & Ex & Hd). apply in_map_iff. exists x. auto.
  - intros m Hx. apply (k_un _ _ K) in Hx as [H1 H2]. split; [exact H1|]. apply Hin; auto.
  - intros m H1 H2 H3. apply Hin in H1 as [H1|H1]; [|destruct (Nt _ H1)]. apply (k_un2 _ _ K); auto. intros u Hu. apply (H3 u). apply Hin. auto.
  - apply (k_db _ _ K).
  - apply (k_db2 _ _ K).
  - intros m r Hd Hr. destruct (k_db3 _ _ K m r Hd Hr) as [R1 R2]. split; [exact R1|]. destruct (r_result r) as [[v|]|]; [| |exact R2].
    + destruct R2 as (x & [[H1 H2]|[H1 H2]]); exists x; [left|right]; (split; [apply Hin; auto|exact H2]).
    + destruct R2 as (u & H1 & H2). exists u. split; [apply Hin; auto|]. apply in_map_iff in H2 as (x & Ex & H2). apply in_map_iff. exists x. auto.
Qed.
Lemma kinv_quiet past s s' e : kinv past s -> request_of e = [] -> result_of e = [] -> (forall m u, e <> TaskDestination m u) ->
  pending s' = pending s -> all_completed s' = all_completed s -> unassigned s' = unassigned s -> db s' = db s ->
  incl (been (notices s)) (been (notices s')) -> incl (gone (notices s)) (gone (notices s')) ->
  queues s' = queues s -> completed s' = completed s -> tasks s' = tasks s -> incl (engines s') (engines s) -> Permutation (engines s' ++ timers s') (engines s ++ timers s) ->
  kinv (past ++ [e]) s'.
Proof.
  intros K Er Es Et E1 E2 E3 E4 Hb Hg Eq Ec Eta Hi Hp. apply (kinv_reg past s); auto; rewrite ?Eq, ?Ec, ?Eta.
  - intros i u H. apply (k_queue _ _ K). apply (Permutation_in _ Hp). exact H.
  - intros u H. apply (Permutation_in _ (Permutation_map snd (Permutation_sym Hp))). exact H.
  - apply (k_compl _ _ K).
  - apply (k_compl2 _ _ K).
  - intros i u H. apply (k_tables _ _ K i u). auto.
  - intros i u H. apply (k_tasks _ _ K). auto.
Qed.

Lemma In_snoc {A} (x y : A) l : In x (l ++ [y]) <-> In x l \/ x = y.
Proof. rewrite in_app_iff. simpl. intuition. Qed.
Lemma result_more past e m v : (exists x, In x past /\ (exists u, x = QueueResult u m v) \/ In x past /\ (exists u a, x = TaskResult m u a v \/ x = BroadcastResult m u a v)) ->
  exists x, In x (past ++ [e]) /\ (exists u, x = QueueResult u m v) \/ In x (past ++ [e]) /\ (exists u a, x = TaskResult m u a v \/ x = BroadcastResult m u a v).
Proof. intros (x & [[H1 H2]|[H1 H2]]); exists x; [left|right]; (split; [apply In_snoc; auto|exact H2]). Qed.

(** A request *)
Lemma kinv_add past s s' e m : kinv past s -> request_of e = [m] -> result_of e = [] -> ~ In m (all_completed s) -> (forall u, ~ In (QueueRequest u m) past) ->
  (In (TaskRequest m) past -> e = TaskRequest m) -> (forall x u, e <> TaskDestination x u) ->
  same_reg s s' -> timers s' = timers s -> (forall x, In x (pending s') <-> x = m \/ In x (pending s)) -> all_completed s' = all_completed s -> completed s' = completed s -> tasks s' = tasks s ->
  (forall x, In x (unassigned s') <-> In x (unassigned s) \/ x = m /\ e = TaskRequest m) ->
  (exists r, get m (db s') = Some r /\ r_completed r = false) -> (forall x, x <> m -> get x (db s') = get x (db s)) ->
  (forall i u, In (i, u) (engines s ++ timers s) -> exists q, queues s' i = Some q /\ NoDup q /\ forall x, In x q <-> In x (pending s') /\ In (QueueRequest u x) (past ++ [e])) ->
  (forall u, e = QueueRequest u m -> In u (map snd (engines s ++ timers s))) ->
  kinv (past ++ [e]) s'.
Proof.
  intros K Er Es Hnd Hnq Hnt Hnd' (S1 & S2 & S3 & S4 & S5 & S6 & S7) St Hp Ha Hc Hta Hu Hd1 Hd2 Hq Hqm.
  constructor; rewrite ?S2, ?S7, ?St, ?Ha, ?Hc, ?Hta.
  - intros x [H|H]; [apply Hp in H as [->|H]; [exists e; split; [apply In_snoc; auto|exact Er]|]|].
    + destruct (k_known _ _ K x (or_introl H)) as (y & Hy & Ey). exists y. split; [apply In_snoc; auto|exact Ey].
    + destruct (k_known _ _ K x (or_intror H)) as (y & Hy & Ey). exists y. split; [apply In_snoc; auto|exact Ey].
  - intros x H1 H2. apply Hp in H1 as [->|H1]; [contradiction|]. eapply (k_disj _ _ K); eassumption.
  - intros x H. apply (k_done _ _ K) in H as [H|(u & H)]; [left; unfold has_result; rewrite flat_map_app; apply in_or_app; auto|right; exists u; apply In_snoc; auto].
  - exact Hq.
  - intros u x H1 H2. apply In_snoc in H1 as [H1|H1].
    + apply Hp in H2 as [->|H2]; [destruct (Hnq _ H1)|]. eapply (k_mux _ _ K); eassumption.
    + subst e. simpl in Er. injection Er as ->. apply Hqm. reflexivity.
  - apply (k_compl _ _ K).
  - apply (k_compl2 _ _ K).
  - apply (k_tables _ _ K).
  - intros i u H. destruct (k_tasks _ _ K i u H) as (t & T1 & T2 & T3). exists t. split; [exact T1|]. split; [intros x Hx; apply In_snoc; auto|].
    intros x Hx. apply In_snoc in Hx as [Hx|Hx]; [auto|]. destruct (Hnd' x u); auto.
  - intros x u H. apply In_snoc in H as [H|H]; [|destruct (Hnd' x u); auto]. eapply (k_dest _ _ K); eassumption.
  - intros x H. apply Hu in H as [H|[-> ->]]; [|split; [apply Hp; auto|apply In_snoc; auto]]. apply (k_un _ _ K) in H as [H1 H2]. split; [apply Hp; auto|apply In_snoc; auto].
  - intros x H1 H2 H3. apply Hu. apply In_snoc in H1 as [H1|H1].
    + apply Hp in H2 as [->|H2]; [right; auto|]. left. apply (k_un2 _ _ K); auto. intros u Hx. apply (H3 u). apply In_snoc; auto.
    + subst e. simpl in Er. injection Er as ->. auto.
  - intros x H. destruct (Nat.eq_dec x m) as [->|N]; [exact Hd1|]. rewrite Hd2 by exact N. apply Hp in H as [->|H]; [congruence|]. apply (k_db _ _ K). exact H.
  - intros x r H. destruct (Nat.eq_dec x m) as [->|N]; [left; apply Hp; auto|]. rewrite Hd2 in H by exact N. apply (k_db2 _ _ K) in H as [H|H]; [left; apply Hp; auto|auto].
  - intros x r H1 H2. destruct (Nat.eq_dec x m) as [->|N]; [contradiction|]. rewrite Hd2 in H2 by exact N. destruct (k_db3 _ _ K x r H1 H2) as [R1 R2]. split; [exact R1|].
    destruct (r_result r) as [[v|]|]; [apply result_more, R2| |exact R2]. destruct R2 as (u & R2 & R3). exists u. split; [apply In_snoc; auto|exact R3].
Qed.

(** A result *)
Lemma kinv_result past s s' e m v : kinv past s -> request_of e = [] -> result_of e = [m] -> (exists u, e = QueueResult u m v) \/ (exists u a, e = TaskResult m u a v \/ e = BroadcastResult m u a v) ->
  In m (pending s) -> same_reg s s' -> timers s' = timers s ->
  (forall x, In x (pending s') <-> x <> m /\ In x (pending s)) -> (forall x, In x (all_completed s') <-> x = m \/ In x (all_completed s)) ->
  (forall x, In x (unassigned s') <-> x <> m /\ In x (unassigned s)) ->
  (exists r, get m (db s') = Some r /\ r_completed r = true /\ r_result r = Some (Value v)) -> (forall x, x <> m -> get x (db s') = get x (db s)) ->
  (forall i u, In (i, u) (engines s ++ timers s) -> exists q, queues s' i = Some q /\ NoDup q /\ forall x, In x q <-> In x (pending s') /\ In (QueueRequest u x) past) ->
  (forall i, completed s' i = completed s i \/ exists c, completed s i = Some c /\ completed s' i = Some (c ++ [m])) ->
  (forall i j, i <> j -> completed s' i = completed s i \/ completed s' j = completed s j) ->
  (forall i, tasks s' i = tasks s i \/ exists t, tasks s i = Some t /\ tasks s' i = Some (remove1 m t)) ->
  kinv (past ++ [e]) s'.
Proof.
  intros K Er Es Ev Hm (S1 & S2 & S3 & S4 & S5 & S6 & S7) St Hp Ha Hu (r0 & D1 & D2 & D3) Hd2 Hq Hc Hc2 Hta.
  assert (Nq : forall u x, QueueRequest u x <> e) by (intros u x <-; discriminate).
  assert (Nt : forall x, TaskRequest x <> e) by (intros x <-; discriminate).
  assert (Nd : forall x u, TaskDestination x u <> e) by (intros x u <-; discriminate).
  assert (Hnc : forall i c, completed s i = Some c -> ~ In m c).
  { intros i c H Hi. apply (k_compl _ _ K) in H as [_ H]. apply H in Hi. eapply (k_disj _ _ K); eassumption. }
  constructor; rewrite ?S2, ?S7, ?St.
  - intros x H. assert (Hx : In x (pending s) \/ In x (all_completed s)) by (destruct H as [H|H]; [apply Hp in H|apply Ha in H as [->|H]]; tauto).
    destruct (k_known _ _ K x Hx) as (y & Hy & Ey). exists y. split; [apply In_snoc; auto|exact Ey].
  - intros x H1 H2. apply Hp in H1 as [N H1]. apply Ha in H2 as [H2|H2]; [contradiction|]. eapply (k_disj _ _ K); eassumption.
  - intros x H. apply Ha in H as [->|H].
    + left. unfold has_result. rewrite flat_map_app. apply in_or_app. right. simpl. rewrite Es. left; reflexivity.
    + apply (k_done _ _ K) in H as [H|(u & H)]; [left; unfold has_result; rewrite flat_map_app; apply in_or_app; auto|right; exists u; apply In_snoc; auto].
  - intros i u H. destruct (Hq i u H) as (q & Q1 & Q2 & Q3). exists q. split; [exact Q1|]. split; [exact Q2|]. intros x. rewrite Q3, In_snoc. split; [tauto|]. intros [H1 [H2|H2]]; [auto|destruct (Nq _ _ H2)].
  - intros u x H1 H2. apply In_snoc in H1 as [H1|H1]; [|destruct (Nq _ _ H1)]. apply Hp in H2 as [_ H2]. eapply (k_mux _ _ K); eassumption.
  - intros i c H. destruct (Hc i) as [E|(c0 & E0 & E)]; rewrite E in H.
    + apply (k_compl _ _ K) in H as [H1 H2]. split; [exact H1|]. intros x Hx. apply Ha. right. apply H2, Hx.
    + injection H as <-. pose proof (k_compl _ _ K _ _ E0) as [H1 H2]. split; [apply NoDup_snoc; eauto|].
      intros x Hx. apply Ha. apply In_snoc in Hx as [Hx| ->]; [right; apply H2, Hx|auto].
  - intros i j c d x H1 H2 H3 H4. destruct (Nat.eq_dec i j) as [|N]; [assumption|].
    assert (G : forall i j c d, completed s' i = completed s i -> completed s' i = Some c -> completed s' j = Some d -> In x c -> In x d -> i = j).
    { intros i' j' c' d' E F1 F2 F3 F4. rewrite E in F1. destruct (Hc j') as [E'|(c0 & E0 & E')]; rewrite E' in F2; [eapply (k_compl2 _ _ K); eassumption|].
      injection F2 as <-. apply In_snoc in F4 as [F4| ->]; [eapply (k_compl2 _ _ K); eassumption|]. destruct (Hnc _ _ F1 F3). }
    destruct (Hc2 i j N) as [E|E]; [eapply G; eassumption|symmetry; eapply G; eassumption].
  - intros i u H. destruct (k_tables _ _ K i u H) as (c & Ec). destruct (Hc i) as [E|(c0 & E0 & E)]; rewrite E; eauto.
  - intros i u H. destruct (k_tasks _ _ K i u H) as (t & T1 & T2 & T3). destruct (Hta i) as [E|(t0 & E0 & E)]; rewrite E.
    + exists t. split; [exact T1|]. split; [intros x Hx; apply In_snoc; auto|]. intros x Hx. apply In_snoc in Hx as [Hx|Hx]; [|destruct (Nd _ _ Hx)].
      destruct (T3 x Hx); [auto|right; apply Ha; auto].
    + exists (remove1 m t0). rewrite T1 in E0. injection E0 as <-. split; [reflexivity|]. split; [intros x Hx; apply In_snoc; left; apply T2, (remove1_incl _ _ _ Hx)|].
      intros x Hx. apply In_snoc in Hx as [Hx|Hx]; [|destruct (Nd _ _ Hx)]. destruct (Nat.eq_dec x m) as [->|N]; [right; apply Ha; auto|].
      destruct (T3 x Hx); [left; apply remove1_other; auto|right; apply Ha; auto].
  - intros x u H. apply In_snoc in H as [H|H]; [|destruct (Nd _ _ H)]. eapply (k_dest _ _ K); eassumption.
  - intros x H. apply Hu in H as [N H]. apply (k_un _ _ K) in H as [H1 H2]. split; [apply Hp; auto|apply In_snoc; auto].
  - intros x H1 H2 H3. apply In_snoc in H1 as [H1|H1]; [|destruct (Nt _ H1)]. apply Hp in H2 as [N H2]. apply Hu. split; [exact N|]. apply (k_un2 _ _ K); auto. intros u Hx. apply (H3 u). apply In_snoc; auto.
  - intros x H. apply Hp in H as [N H]. rewrite Hd2 by exact N. apply (k_db _ _ K). exact H.
  - intros x r H. destruct (Nat.eq_dec x m) as [->|N]; [right; apply Ha; auto|]. rewrite Hd2 in H by exact N. apply (k_db2 _ _ K) in H as [H|H]; [left; apply Hp; auto|right; apply Ha; auto].
  - intros x r H1 H2. destruct (Nat.eq_dec x m) as [->|N].
    + rewrite D1 in H2. injection H2 as <-. split; [exact D2|]. rewrite D3. exists e. destruct Ev as [Ev|Ev]; [left|right]; (split; [apply In_snoc; auto|exact Ev]).
    + rewrite Hd2 in H2 by exact N. apply Ha in H1 as [->|H1]; [congruence|]. destruct (k_db3 _ _ K x r H1 H2) as [R1 R2]. split; [exact R1|].
      destruct (r_result r) as [[w|]|]; [apply result_more, R2| |exact R2]. destruct R2 as (u & R2 & R3). exists u. split; [apply In_snoc; auto|exact R3].
Qed.

(** A result that is not expected (any more) *)
Lemma kinv_late past s s' e m v : kinv past s -> request_of e = [] -> result_of e = [m] -> (exists u, e = QueueResult u m v) \/ (exists u a, e = TaskResult m u a v \/ e = BroadcastResult m u a v) ->
  ~ In m (pending s) -> same_reg s s' -> timers s' = timers s -> pending s' = pending s -> all_completed s' = all_completed s -> queues s' = queues s -> completed s' = completed s -> tasks s' = tasks s ->
  (forall x, In x (unassigned s') <-> In x (unassigned s)) ->
  (forall x, x <> m -> get x (db s') = get x (db s)) ->
  (get m (db s') = get m (db s) \/ exists r, get m (db s) <> None /\ get m (db s') = Some r /\ r_completed r = true /\ r_result r = Some (Value v)) ->
  kinv (past ++ [e]) s'.
Proof.
  intros K Er Es Ev Hm (S1 & S2 & S3 & S4 & S5 & S6 & S7) St Hp Ha Hq Hc Hta Hu Hd2 Hd.
  assert (Nq : forall u x, QueueRequest u x <> e) by (intros u x <-; discriminate).
  assert (Nt : forall x, TaskRequest x <> e) by (intros x <-; discriminate).
  assert (Nd : forall x u, TaskDestination x u <> e) by (intros x u <-; discriminate).
  constructor; rewrite ?S2, ?S7, ?St, ?Hp, ?Ha, ?Hq, ?Hc, ?Hta.
  - intros x H. destruct (k_known _ _ K x H) as (y & Hy & Ey). exists y. split; [apply In_snoc; auto|exact Ey].
  - apply (k_disj _ _ K).
  - intros x H. apply (k_done _ _ K) in H as [H|(u & H)]; [left; unfold has_result; rewrite flat_map_app; apply in_or_app; auto|right; exists u; apply In_snoc; auto].
  - intros i u H. destruct (k_queue _ _ K i u H) as (q & Q1 & Q2 & Q3). exists q. split; [exact Q1|]. split; [exact Q2|]. intros x. rewrite Q3, In_snoc. split; [tauto|]. intros [H1 [H2|H2]]; [auto|destruct (Nq _ _ H2)].
  - intros u x H1 H2. apply In_snoc in H1 as [H1|H1]; [|destruct (Nq _ _ H1)]. eapply (k_mux _ _ K); eassumption.
  - apply (k_compl _ _ K).
  - apply (k_compl2 _ _ K).
  - apply (k_tables _ _ K).
  - intros i u H. destruct (k_tasks _ _ K i u H) as (t & T1 & T2 & T3). exists t. split; [exact T1|]. split; [intros x Hx; apply In_snoc; auto|].
    intros x Hx. apply In_snoc in Hx as [Hx|Hx]; [auto|]. destruct (Nd _ _ Hx).
  - intros x u H. apply In_snoc in H as [H|H]; [|destruct (Nd _ _ H)]. eapply (k_dest _ _ K); eassumption.
  - intros x H. apply Hu in H. apply (k_un _ _ K) in H as [H1 H2]. split; [exact H1|apply In_snoc; auto].
  - intros x H1 H2 H3. apply In_snoc in H1 as [H1|H1]; [|destruct (Nt _ H1)]. apply Hu. apply (k_un2 _ _ K); auto. intros u Hx. apply (H3 u). apply In_snoc; auto.
  - intros x H. rewrite Hd2 by (intros ->; contradiction). apply (k_db _ _ K). exact H.
  - intros x r H. destruct (Nat.eq_dec x m) as [->|N]; [|rewrite Hd2 in H by exact N; apply (k_db2 _ _ K) in H; exact H].
    destruct Hd as [E|(r' & E & _)]; [rewrite E in H; apply (k_db2 _ _ K) in H; exact H|]. destruct (get m (db s)) as [r2|] eqn:E2; [|congruence]. apply (k_db2 _ _ K) in E2. exact E2.
  - intros x r H1 H2.
    assert (Hold : get x (db s) = Some r -> r_completed r = true /\ match r_result r with
     | Some (Value v) => exists y, In y (past ++ [e]) /\ (exists u, y = QueueResult u x v) \/ In y (past ++ [e]) /\ (exists u a, y = TaskResult x u a v \/ y = BroadcastResult x u a v)
     | Some EngineDied => exists u, In (QueueRequest u x) (past ++ [e]) /\ In u (map snd (gone (notices s)))
     | None => False end).
    { intros H. destruct (k_db3 _ _ K x r H1 H) as [R1 R2]. split; [exact R1|]. destruct (r_result r) as [[w|]|]; [apply result_more, R2| |exact R2].
      destruct R2 as (u & R2 & R3). exists u. split; [apply In_snoc; auto|exact R3]. }
    destruct (Nat.eq_dec x m) as [->|N]; [|rewrite Hd2 in H2 by exact N; auto].
    destruct Hd as [E|(r' & _ & E & R1 & R2)]; [rewrite E in H2; auto|]. rewrite E in H2. injection H2 as <-. split; [exact R1|]. rewrite R2.
    exists e. destruct Ev as [Ev|Ev]; [left|right]; (split; [apply In_snoc; auto|exact Ev]).
Qed.
