(** C27, C28, C29: the Hub. *)
From Coq Require Import List Arith Bool Lia Permutation Sorted.
From Verif Require Import Hub_Spec Hub_Model Hub_Reg Hub_Tasks Hub_Steps Hub_Life Hub_Answers.
Import ListNotations.

(* ================================================================ C27 *)
(** C27.  In every history in which the controller is not restarted twice without an engine coming or leaving in between:
    at any time no two engines (registered, or about to be: [incoming]) have the same id, nor the same uuid; the engines the Hub
    has are exactly those announced and not taken back. *)
Theorem C27_unique : forall es,
  (forall pre post, es = pre ++ Restart :: post -> changed_since_restart (notices (exec pre)) = true) ->
  let s := exec es in
  NoDup (map fst (present (notices s)) ++ map snd (incoming s)) /\ NoDup (map snd (present (notices s)) ++ map fst (incoming s)) /\
  engines s = present (notices s) /\
  (forall u i, get u (by_ident s) = Some i <-> In (i, u) (present (notices s))) /\ (forall u i, get u (hearts s) = Some i <-> In (i, u) (present (notices s))).
Proof.
  intros es H s. pose proof (rinv_exec es H) as J. fold s in J. rewrite <- (ri_present s J).
  split; [apply (ri_ids s J)|]. split; [apply (ri_uuids s J)|]. split; [reflexivity|]. split; intros u i; [apply (ident_spec s u i J)|].
  rewrite (ri_hearts s J), <- (ri_ident s J). apply (ident_spec s u i J).
Qed.
Print Assumptions C27_unique.

(** An id that the Hub chooses itself is the id of no engine that has ever been registered, in this or in an earlier life of the controller, and of none
    to which it has granted one since the last restart. *)
Theorem C27_fresh : forall es u r i,
  (forall pre post, es = pre ++ Restart :: post -> changed_since_restart (notices (exec pre)) = true) ->
  notices (exec (es ++ [Register u r])) = notices (exec es) ++ [Granted u i true] ->
  ~ In i (map fst (been (notices (exec es)))) /\ ~ In i (granted (notices (exec es))) /\ ~ In i (map fst (present (notices (exec es)))).
Proof.
  intros es u r i H. pose proof (rinv_exec es H) as J. rewrite exec_snoc. set (s := exec es) in *. cbn [step]. unfold register_engine.
  destruct (new_engine_id s r) as [[s1 eid] c] eqn:E. destruct (new_id_spec _ _ _ _ _ E J) as (E1 & E2 & E3 & E4 & E5 & E6 & L & Le & Hn & Hc).
  intros HN. assert (Hi : c = true /\ i = eid).
  { destruct (is_some _); [|destruct (is_some _)]; cbn [notices tell with_reg] in HN; rewrite E6 in HN; apply app_inv_head in HN; try discriminate. injection HN as -> ->. auto. }
  destruct Hi as [-> ->]. specialize (Hc eq_refl). subst eid. split; [|split].
  - intros Hi. apply in_map_iff in Hi as (e & Ee & He). pose proof (ri_been s J) as Hb. rewrite Forall_forall in Hb. apply Hb in He. lia.
  - intros Hi. pose proof (ri_granted s J) as Hb. rewrite Forall_forall in Hb. apply Hb in Hi. lia.
  - intros Hi. apply Hn. apply in_app_iff. left. rewrite (ri_present s J). exact Hi.
Qed.
Print Assumptions C27_fresh.
(** An id that is granted (on request, too) is that of no engine present or about to be registered. *)
Theorem C27_granted : forall es u r i c,
  (forall pre post, es = pre ++ Restart :: post -> changed_since_restart (notices (exec pre)) = true) ->
  notices (exec (es ++ [Register u r])) = notices (exec es) ++ [Granted u i c] ->
  (c = false -> r = Some i) /\ ~ In i (map fst (present (notices (exec es)))) /\ ~ In i (map snd (incoming (exec es))).
Proof.
  intros es u r i c H. pose proof (rinv_exec es H) as J. rewrite exec_snoc. set (s := exec es) in *. cbn [step]. unfold register_engine.
  destruct (new_engine_id s r) as [[s1 eid] c'] eqn:E. destruct (new_id_spec _ _ _ _ _ E J) as (E1 & E2 & E3 & E4 & E5 & E6 & L & Le & Hn & Hc).
  intros HN. assert (Hi : c = c' /\ i = eid).
  { destruct (is_some _); [|destruct (is_some _)]; cbn [notices tell with_reg] in HN; rewrite E6 in HN; apply app_inv_head in HN; try discriminate. injection HN as -> ->. auto. }
  destruct Hi as [-> ->]. rewrite <- (ri_present s J). rewrite in_app_iff in Hn. split; [|tauto]. intros ->.
  unfold new_engine_id in E. destruct r as [j|]; [destruct (is_some _); [|destruct (mem _ _)]|]; injection E as _ E; congruence.
Qed.
Print Assumptions C27_granted.

Definition reg u i := [Register u i; NewHeart u].
Example C27_case :
  let es := reg 10 None ++ reg 11 (Some 5) ++ [Unregister 0; Restart; Register 12 None] in
  (forall pre post, es = pre ++ Restart :: post -> changed_since_restart (notices (exec pre)) = true) /\
  present (notices (exec es)) = [(5, 11)] /\ notices (exec es) = notices (exec (reg 10 None ++ reg 11 (Some 5) ++ [Unregister 0; Restart])) ++ [Granted 12 6 true].
Proof.
  split; [|vm_compute; auto]. intros pre post E. cbn [reg app] in E.
  do 7 (destruct pre as [|? pre]; [(discriminate E) || (injection E as <-; vm_compute; reflexivity)|cbn [app] in E; injection E as <- E]).
  destruct pre; discriminate E.
Qed.

(** Two restarts with no change in between: the saved state of the second says that the next id is 0, so the id of a restored engine is granted
    to a new one, and the old one is lost. *)
Theorem C27_second_restart_refuted : exists es u, notices (exec (es ++ [Register u None])) = notices (exec es) ++ [Granted u 0 true] /\ In 0 (map fst (present (notices (exec es)))).
Proof. exists (reg 10 None ++ [Restart; Restart]), 11. vm_compute. auto. Qed.
(** Ids granted to engines that have not yet completed their registration are granted again after a restart. *)
Theorem C27_pending_grant_refuted : exists es u, In (Granted 11 1 true) (notices (exec es)) /\ notices (exec (es ++ [Register u None])) = notices (exec es) ++ [Granted u 1 true].
Proof. exists (reg 10 None ++ [Register 11 None; Restart]), 12. vm_compute. auto 10. Qed.

(* ================================================================ C28 *)
(** C28.  Each event changes the status of each message, as told to a client that asks for it, exactly as [next] says: a request makes it pending; its
    result, or the end of the waiting time for an engine that has left, makes it done; nothing else changes it, and done it remains. *)
Theorem C28_life : forall es e m, plausible_history (es ++ [e]) ->
  status_of (exec (es ++ [e])) m = next es (notices (exec es)) e m (status_of (exec es) m).
Proof.
  intros es e m H. apply plausible_snoc in H as [H He]. rewrite exec_snoc. apply life_step; [apply rinv_of, H|apply ginv_exec, H|apply uniq_history, H|apply kinv_exec, H|exact He].
Qed.
Print Assumptions C28_life.
Theorem C28_start : forall m, status_of (exec []) m = Unknown.
Proof. reflexivity. Qed.
(** The tables behind: no message is both pending and completed. *)
Theorem C28_partition : forall es m, plausible_history es -> In m (pending (exec es)) -> ~ In m (all_completed (exec es)).
Proof. intros es m H H1 H2. eapply (k_disj _ _ (kinv_exec es H)); eassumption. Qed.
Print Assumptions C28_partition.
(** A message is done only if a result has arrived for it, or the engine to which it was sent has left. *)
Theorem C28_done : forall es m, plausible_history es -> status_of (exec es) m = Done ->
  In m (flat_map result_of es) \/ exists u, In (QueueRequest u m) es /\ In u (map snd (gone (notices (exec es)))).
Proof.
  intros es. induction es as [|e es IH] using rev_ind; intros m H Hd; [discriminate|]. pose proof H as H0. apply plausible_snoc in H0 as [H0 He]. rewrite C28_life in Hd by exact H.
  assert (Hg : forall u, In u (map snd (gone (notices (exec es)))) -> In u (map snd (gone (notices (exec (es ++ [e])))))).
  { intros u Hu. rewrite exec_snoc. assert (Hn : exists ns, notices (step (exec es) e) = notices (exec es) ++ ns).
    { clear. set (s := exec es). destruct (is_message e) eqn:Em; [destruct (same_step s e Em) as (_ & _ & _ & _ & _ & _ & E); exists []; rewrite app_nil_r; exact E|].
      assert (Hu : forall i, exists ns, notices (unregister_engine s i) = notices s ++ ns).
      { intros i. unfold unregister_engine. destruct (get i (engines s)); [eexists; reflexivity|]. exists []. rewrite app_nil_r. destruct (find _ (incoming s)) as [[? ?]|]; reflexivity. }
      assert (H0 : exists ns, notices s = notices s ++ ns) by (exists []; rewrite app_nil_r; reflexivity).
      destruct e; try discriminate; cbn [step]; auto.
      - unfold register_engine. destruct (new_engine_id s id) as [[s1 eid] c] eqn:E.
        assert (E' : notices s1 = notices s) by (unfold new_engine_id in E; destruct id as [i|]; [destruct (is_some _); [|destruct (mem _ _)]|]; injection E as <- <- <-; auto).
        destruct (is_some _); [|destruct (is_some _)]; cbn [notices tell with_reg]; rewrite E'; eauto.
      - unfold handle_new_heart, finish_registration. destruct (is_some _); [|auto]. destruct (get u (incoming s)); [eexists; reflexivity|auto].
      - unfold handle_stopped_heart. destruct (get u (hearts s)); [|auto]. destruct (is_some _); auto.
      - unfold purge_stalled. destruct (is_some _); auto.
      - unfold restart, load_engine_state. cbn [file]. destruct (file s) as [[es' n]|]; [|eexists; reflexivity]. cbn [notices with_reg].
        match goal with |- exists ns, notices (fold_left ?f es' _) = _ => assert (G : forall l h, notices (fold_left f l h) = notices h) end.
        { clear. induction l as [|e l IH]; intros h; [reflexivity|]. cbn [fold_left]. rewrite IH. unfold finish_registration. destruct (get _ _); reflexivity. }
        rewrite G. eexists. reflexivity. }
    destruct Hn as (ns & ->). unfold gone. rewrite flat_map_app, map_app. apply in_app_iff. left. exact Hu. }
  rewrite flat_map_app, in_app_iff. destruct (status_of (exec es) m) eqn:Es.
  - destruct e; simpl in Hd; try discriminate; destruct (_ && _) eqn:E in Hd || destruct (Nat.eqb _ _) eqn:E in Hd; discriminate.
  - destruct e; simpl in Hd; try discriminate.
    + destruct (_ && _) eqn:E in Hd; [|discriminate]. apply andb_true_iff in E as [E1 E2]. apply has_left_spec in E1. apply sent_to_spec in E2. right. exists u. split; [apply in_app_iff; auto|].
      apply Hg. change u with (snd (id, u)). apply in_map. exact E1.
    + destruct (Nat.eqb_spec m m0) as [->|]; [|discriminate]. left. right. simpl. auto.
    + destruct (Nat.eqb_spec m m0) as [->|]; [|discriminate]. left. right. simpl. auto.
    + destruct (Nat.eqb_spec m m0) as [->|]; [|discriminate]. left. right. simpl. auto.
  - destruct (IH m H0 Es) as [Hr|(u & H1 & H2)]; [auto|]. right. exists u. split; [apply in_app_iff; auto|auto].
Qed.
Print Assumptions C28_done.

(** queue_status: for a registered engine, [queue] has each message that was sent to it and is pending, once. *)
Theorem C28_queue : forall es i u, plausible_history es -> In (i, u) (present (notices (exec es))) ->
  exists queue completed tasks, queue_status (exec es) i = Some (queue, completed, tasks) /\
  NoDup queue /\ (forall m, In m queue <-> status_of (exec es) m = Pending /\ In (QueueRequest u m) es) /\
  NoDup completed /\ (forall m, In m completed -> status_of (exec es) m = Done) /\
  (forall m, In m tasks -> In (TaskDestination m u) es) /\ (forall m, In (TaskDestination m u) es -> In m tasks \/ status_of (exec es) m = Done).
Proof.
  intros es i u H Hi. pose proof (rinv_of es H) as J. pose proof (kinv_exec es H) as K. rewrite <- (ri_present _ J) in Hi. set (s := exec es) in *.
  destruct (k_tasks _ _ K _ _ Hi) as (t & T1 & T2 & T3). destruct (k_tables _ _ K _ _ Hi) as (c & C1). destruct (k_queue _ _ K i u) as (q & Q1 & Q2 & Q3); [apply in_app_iff; auto|].
  destruct (k_compl _ _ K _ _ C1) as [C2 C3].
  assert (Hp : forall m, status_of s m = Pending <-> In m (pending s)).
  { intros m. rewrite status_of_spec, <- mem_In. destruct (mem m (pending s)); [tauto|]. destruct (mem m (all_completed s)); split; discriminate. }
  assert (Hd : forall m, In m (all_completed s) -> status_of s m = Done).
  { intros m Hm. rewrite status_of_spec. rewrite (proj2 (mem_false m (pending s))) by (intros Hx; apply (k_disj _ _ K m Hx Hm)). rewrite (proj2 (mem_In _ _) Hm). reflexivity. }
  exists q, c, t. unfold queue_status. rewrite Q1, C1, T1. split; [reflexivity|]. split; [exact Q2|]. split; [intros m; rewrite Q3, Hp; reflexivity|]. split; [exact C2|]. split; [auto|]. split; [exact T2|].
  intros m Hm. destruct (T3 m Hm); auto.
Qed.
Print Assumptions C28_queue.
(** A message is in the completed list of one engine only. *)
Theorem C28_completed_once : forall es i j q c t q' c' t' m, plausible_history es -> queue_status (exec es) i = Some (q, c, t) -> queue_status (exec es) j = Some (q', c', t') -> In m c -> In m c' -> i = j.
Proof.
  intros es i j q c t q' c' t' m H E E' Hm Hm'. unfold queue_status in *. destruct (queues (exec es) i), (completed (exec es) i) eqn:C, (tasks (exec es) i); try discriminate. injection E as <- <- <-.
  destruct (queues (exec es) j), (completed (exec es) j) eqn:C', (tasks (exec es) j); try discriminate. injection E' as <- <- <-. eapply (k_compl2 _ _ (kinv_exec es H)); eassumption.
Qed.
Print Assumptions C28_completed_once.
(** The lists of an engine start empty when it is registered, and each event changes them exactly as [lists_next] says. *)
Theorem C28_lists : forall es e i u l, plausible_history (es ++ [e]) -> In (i, u) (present (notices (exec es))) -> queue_status (exec es) i = Some l ->
  queue_status (exec (es ++ [e])) i = Some (lists_next u e (status_of (exec es)) l).
Proof.
  intros es e i u l H Hi Hl. apply plausible_snoc in H as [H He]. rewrite exec_snoc. pose proof (rinv_of es H) as J. rewrite <- (ri_present _ J) in Hi.
  apply lists_step with (past := es); auto; [apply ginv_exec, H|apply uniq_history, H|apply kinv_exec, H].
Qed.
Print Assumptions C28_lists.
Theorem C28_lists_new : forall es e i u, plausible_history (es ++ [e]) -> ~ In (i, u) (present (notices (exec es))) -> In (i, u) (present (notices (exec (es ++ [e])))) ->
  queue_status (exec (es ++ [e])) i = Some ([], [], []).
Proof.
  intros es e i u H Hn Hi. rewrite <- (ri_present _ (rinv_of _ H)) in Hi. apply plausible_snoc in H as [H He]. rewrite exec_snoc in *. rewrite <- (ri_present _ (rinv_of _ H)) in Hn.
  eapply lists_new; [apply rinv_of, H|apply kinv_exec, H|exact Hn|exact Hi|]. intros ->. destruct He.
Qed.
Print Assumptions C28_lists_new.
(** The tasks without an engine are those that are pending and were not (yet) sent to one; [unassigned] may still have one whose destination was not
    registered any more. *)
Theorem C28_unassigned : forall es m, plausible_history es ->
  (In m (unassigned (exec es)) -> status_of (exec es) m = Pending /\ In (TaskRequest m) es) /\
  (In (TaskRequest m) es -> status_of (exec es) m = Pending -> (forall u, ~ In (TaskDestination m u) es) -> In m (unassigned (exec es))).
Proof.
  intros es m H. pose proof (kinv_exec es H) as K. assert (Hp : status_of (exec es) m = Pending <-> In m (pending (exec es))).
  { rewrite status_of_spec, <- mem_In. destruct (mem m (pending (exec es))); [tauto|]. destruct (mem m (all_completed (exec es))); split; discriminate. }
  rewrite Hp. split; [apply (k_un _ _ K)|apply (k_un2 _ _ K)].
Qed.
Print Assumptions C28_unassigned.

Definition case28 := reg 10 None ++ reg 11 None ++
  [QueueRequest 10 20; TaskRequest 21; TaskDestination 21 11; BroadcastRequest 22; QueueRequest 11 23; QueueResult 11 23 7;
   TaskResult 21 11 false 8; Unregister 0; QueueRequest 10 24; DeathTimer 0 10; BroadcastResult 22 11 false 9; TaskRequest 25].
Ltac plausible_tac := vm_compute; repeat split; intros; auto 20; repeat match goal with X : _ \/ _ |- _ => destruct X | X : False |- _ => destruct X | X : _ /\ _ |- _ => destruct X end; subst; try discriminate; auto 20.
Ltac history := intros pre e post H; cbv [reg case28 app] in H;
  repeat (destruct pre as [|? pre]; [cbn [app] in H; first [discriminate H | injection H as <- <-; plausible_tac]|cbn [app] in H; first [discriminate H | injection H as <- H]]).
Example C28_case : plausible_history case28 /\ present (notices (exec case28)) = [(1, 11)] /\ queue_status (exec case28) 1 = Some ([], [23; 21; 22], []) /\
  map (status_of (exec case28)) [20; 21; 22; 23; 24; 25] = [Done; Done; Done; Done; Unknown; Pending] /\ unassigned (exec case28) = [25].
Proof.
  split; [|repeat split]. history.
Qed.
(** A task that is retried on a second engine stays in the tasks list of the first one. *)
Theorem C28_retry_refuted : exists es m i u, plausible_history es /\ In (i, u) (present (notices (exec es))) /\ status_of (exec es) m = Done /\ exists q c t, queue_status (exec es) i = Some (q, c, t) /\ In m t.
Proof.
  exists (reg 10 None ++ reg 11 None ++ [TaskRequest 21; TaskDestination 21 10; TaskDestination 21 11; TaskResult 21 11 false 1]), 21, 0, 10. split; [history|]. split; [vm_compute; auto|]. split; [reflexivity|]. exists [], [], [21]. split; [reflexivity|left; reflexivity].
Qed.
(** If a new engine asks for the id of one that has just left, the end of the waiting time for the old one hits the messages of the new one, which are then recorded as
    lost although the engine lives, and those of the old one remain pending for ever. *)
Theorem C28_id_reuse_refuted : exists es, status_of (exec es) 20 = Pending /\ status_of (exec es) 21 = Done /\ stored (exec es) 21 = Some EngineDied /\ present (notices (exec es)) = [(0, 11)] /\
  timers (exec es) = [] /\ In (QueueRequest 10 20) es /\ In (QueueRequest 11 21) es /\ In (0, 10) (gone (notices (exec es))).
Proof.
  exists (reg 10 (Some 0) ++ [QueueRequest 10 20; Unregister 0] ++ reg 11 (Some 0) ++ [QueueRequest 11 21; DeathTimer 0 10]). vm_compute. tauto.
Qed.
(** A result that arrives after its engine was unregistered is dropped, even before the waiting time is over. *)
Theorem C28_late_result_dropped : exists es, plausible_history es /\ In (QueueResult 10 20 7) es /\ status_of (exec es) 20 = Done /\ stored (exec es) 20 = Some EngineDied.
Proof.
  exists (reg 10 None ++ [QueueRequest 10 20; Unregister 0; QueueResult 10 20 7; DeathTimer 0 10]). split; [history|]. vm_compute. tauto.
Qed.

(* ================================================================ C29 *)
(** C29.  The answer to a status request for any list of messages, in any history: the messages are listed once each, in order, as pending or as completed
    according to their status; if one is not known, the answer says which. *)
Definition is_done (st : status) := match st with Done => true | _ => false end.
Lemma known_status s m : known s m = negb (match status_of s m with Unknown => true | _ => false end).
Proof. unfold known. rewrite status_of_spec. destruct (mem m (pending s)); [reflexivity|]. destruct (mem m (all_completed s)); reflexivity. Qed.
Lemma find_ext {A} (f g : A -> bool) l : (forall x, f x = g x) -> find f l = find g l.
Proof. intros H. induction l; simpl; [reflexivity|]. rewrite H, IHl. reflexivity. Qed.
Theorem C29_status : forall s ids, exists ms, StronglySorted lt ms /\ (forall m, In m ms <-> In m ids) /\
  get_results s ids true = match find (fun m => match status_of s m with Unknown => true | _ => false end) ms with
                           | Some m => NoSuchMessage m
                           | None => Reply (filter (fun m => is_pending (status_of s m)) ms) (filter (fun m => is_done (status_of s m)) ms) []
                           end.
Proof.
  intros s ids. exists (sorted_set ids). split; [apply sorted_set_sorted|]. split; [intros m; apply In_sorted_set|]. unfold get_results. set (ms := sorted_set ids). clearbody ms.
  assert (E : find (fun m => match status_of s m with Unknown => true | _ => false end) ms = find (fun m => negb (known s m)) ms).
  { apply find_ext. intros m. rewrite known_status, negb_involutive. reflexivity. }
  rewrite E. clear E. destruct (find _ ms) as [m|] eqn:F; [apply collect_unknown, F|].
  assert (Hk : forallb (known s) ms = true). { apply forallb_forall. intros m Hm. apply (find_none _ _ F) in Hm. apply negb_false_iff in Hm. exact Hm. }
  rewrite collect_known by (auto; discriminate). simpl. f_equal; apply filter_ext_in; intros m Hm.
  - rewrite status_pending. reflexivity.
  - rewrite forallb_forall in Hk. apply Hk in Hm. unfold known in Hm. rewrite status_of_spec. destruct (mem m (pending s)); [reflexivity|]. simpl in *. rewrite Hm. reflexivity.
Qed.
Print Assumptions C29_status.
(** The answer to a request for results: the same, with the stored results of the completed messages. *)
Theorem C29_results : forall s ids, (forall m, In m ids -> status_of s m <> Unknown) -> (forall m, In m ids -> status_of s m = Done -> stored s m <> None) ->
  exists ms, StronglySorted lt ms /\ (forall m, In m ms <-> In m ids) /\
  get_results s ids false = Reply (filter (fun m => is_pending (status_of s m)) ms) (filter (fun m => is_done (status_of s m)) ms)
                                  (map (fun m => (m, stored s m)) (filter (fun m => is_done (status_of s m)) ms)).
Proof.
  intros s ids Hk Hs. exists (sorted_set ids). split; [apply sorted_set_sorted|]. split; [intros m; apply In_sorted_set|].
  assert (Hk' : forall m, In m (sorted_set ids) -> known s m = true). { intros m Hm. apply In_sorted_set, Hk in Hm. rewrite known_status. destruct (status_of s m); [destruct (Hm eq_refl)|reflexivity..]. }
  assert (Hd : forall m, In m (sorted_set ids) -> negb (mem m (pending s)) = is_done (status_of s m)).
  { intros m Hm. apply Hk' in Hm. unfold known in Hm. rewrite status_of_spec. destruct (mem m (pending s)); [reflexivity|]. simpl in *. rewrite Hm. reflexivity. }
  unfold get_results. rewrite collect_known; [simpl|apply forallb_forall, Hk'|].
  - assert (E : filter (fun m => negb (mem m (pending s))) (sorted_set ids) = filter (fun m => is_done (status_of s m)) (sorted_set ids)) by (apply filter_ext_in, Hd). rewrite E. f_equal.
    + apply filter_ext. intros m. rewrite status_pending. reflexivity.
    + apply map_ext_in. intros m Hm. apply filter_In in Hm as [Hm _]. rewrite get_filter, (proj2 (mem_In _ _) Hm). reflexivity.
  - intros _ m Hm Hp. rewrite get_filter, (proj2 (mem_In _ _) Hm). intros E. apply (Hs m); [apply In_sorted_set, Hm| |unfold stored; rewrite E; reflexivity].
    apply Hd in Hm. rewrite Hp in Hm. destruct (status_of s m); try discriminate. reflexivity.
Qed.
Print Assumptions C29_results.
(** The result that is kept: each event changes it exactly as [stored_next] says; it is that of the result message that made the message done (or
    "engine died"); a result that comes too late from an engine that is registered replaces it, purging removes it. *)
Theorem C29_stored : forall es e m, plausible_history (es ++ [e]) ->
  stored (exec (es ++ [e])) m = stored_next es (notices (exec es)) e m (status_of (exec es)) (stored (exec es) m).
Proof.
  intros es e m H. apply plausible_snoc in H as [H He]. rewrite exec_snoc. apply stored_step; [apply rinv_of, H|apply ginv_exec, H|apply uniq_history, H|apply kinv_exec, H|exact He].
Qed.
Print Assumptions C29_stored.
(** A stored result is one that arrived for this message; "engine died" is stored only if the engine to which it was sent has left. *)
Theorem C29_true : forall es m r, plausible_history es -> status_of (exec es) m = Done -> stored (exec es) m = Some r ->
  match r with
  | Value v => (exists u, In (QueueResult u m v) es) \/ (exists u a, In (TaskResult m u a v) es \/ In (BroadcastResult m u a v) es)
  | EngineDied => exists u, In (QueueRequest u m) es /\ In u (map snd (gone (notices (exec es))))
  end.
Proof.
  intros es m r H Hd Hs. pose proof (kinv_exec es H) as K. rewrite status_of_spec in Hd. destruct (mem m (pending (exec es))); [discriminate|]. destruct (mem m (all_completed (exec es))) eqn:Ec; [|discriminate].
  apply mem_In in Ec. unfold stored in Hs. destruct (get m (db (exec es))) as [rec|] eqn:Er; [|discriminate]. destruct (k_db3 _ _ K m rec Ec Er) as [_ X]. rewrite Hs in X. destruct r as [v|]; [|exact X].
  destruct X as (e & [[X (u & ->)]|[X (u & a & [-> | ->])]]); eauto.
Qed.
Print Assumptions C29_true.
(** Also after a restart, when the tables are empty: the answer to a request for one message that is only in the database tells what is there. *)
Theorem C29_restarted : forall es m, let s := exec es in status_of s m = Unknown ->
  get_results s [m] false = match get m (db s) with
                            | None => NoSuchMessage m
                            | Some r => if r_completed r then Reply [] [m] [(m, stored s m)] else Reply [m] [] []
                            end.
Proof.
  intros es m s Hu. pose proof (db_ok_exec es) as Hd. fold s in Hd. unfold get_results. rewrite sorted_single, (filter_single m _ Hd). rewrite status_of_spec in Hu. cbn [collect].
  destruct (mem m (pending s)); [discriminate|]. destruct (mem m (all_completed s)); [discriminate|]. unfold stored.
  destruct (get m (db s)) as [r|]; [|reflexivity]. simpl. rewrite Nat.eqb_refl. destruct (r_completed r); reflexivity.
Qed.
Print Assumptions C29_restarted.

Example C29_case : plausible_history case28 /\ get_results (exec case28) [25; 23; 20; 23] true = Reply [25] [20; 23] [] /\
  get_results (exec case28) [25; 23; 20; 23] false = Reply [25] [20; 23] [(20, Some EngineDied); (23, Some (Value 7))] /\
  get_results (exec case28) [25; 24; 23] true = NoSuchMessage 24 /\
  get_results (exec (case28 ++ [Restart])) [21] false = Reply [] [21] [(21, Some (Value 8))].
Proof. split; [apply C28_case|]. repeat split. Qed.
(** After a restart, a request for several messages looks at the status of the wrong record (the last one) for all of them:
    a pending message is told to be completed, or a completed one to be pending. *)
Theorem C29_restart_two_refuted : exists es, (forall m, In m [20; 21] -> status_of (exec es) m = Unknown) /\
  option_map r_completed (get 20 (db (exec es))) = Some false /\ option_map r_completed (get 21 (db (exec es))) = Some true /\
  get_results (exec es) [20; 21] false = Reply [] [20; 21] [(20, None); (21, Some (Value 7))].
Proof.
  exists (reg 10 None ++ [QueueRequest 10 20; QueueRequest 10 21; QueueResult 10 21 7; Restart]). vm_compute. intuition congruence.
Qed.
Theorem C29_restart_two_refuted' : exists es, option_map r_completed (get 20 (db (exec es))) = Some true /\ get_results (exec es) [20; 21] false = Reply [20; 21] [] [].
Proof. exists (reg 10 None ++ [QueueRequest 10 20; QueueRequest 10 21; QueueResult 10 20 7; Restart]). vm_compute. auto. Qed.
(** After a restart a status request does not find messages that are in the database. *)
Theorem C29_restart_status_refuted : exists es, get_results (exec es) [20] true = NoSuchMessage 20 /\ get_results (exec es) [20] false = Reply [] [20] [(20, Some (Value 7))].
Proof. exists (reg 10 None ++ [QueueRequest 10 20; QueueResult 10 20 7; Restart]). vm_compute. auto. Qed.
(** One purged message among those asked for makes the request fail. *)
Theorem C29_purged_refuted : exists es, plausible_history es /\ status_of (exec es) 20 = Done /\ status_of (exec es) 21 = Done /\ get_results (exec es) [20; 21] false = HubError.
Proof.
  exists (reg 10 None ++ [QueueRequest 10 20; QueueRequest 10 21; QueueResult 10 20 7; QueueResult 10 21 8; Purge [20]]). split; [history|]. vm_compute. auto.
Qed.
