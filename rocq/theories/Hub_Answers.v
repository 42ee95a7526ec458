(** The results that are kept, and the answers to requests for results. *)
From Coq Require Import List Arith Bool Lia Permutation Sorted.
From Verif Require Import Hub_Spec Hub_Model Hub_Reg Hub_Tasks Hub_Steps Hub_Life.
Import ListNotations.

Definition stored (s : hub) (m : nat) : option result := match get m (db s) with Some r => r_result r | None => None end.
Lemma stored_same s s' m : db s' = db s -> stored s' m = stored s m.
Proof. unfold stored. intros ->. reflexivity. Qed.
Lemma stored_update s s1 m f x : db s1 = db s -> stored (update_record s1 m f) x = if Nat.eqb x m then match get m (db s) with Some r => r_result (f r) | None => None end else stored s x.
Proof.
  intros E. destruct (update_spec s1 m f) as (_ & _ & _ & _ & _ & _ & _ & _ & S8 & S9). unfold stored. destruct (Nat.eqb_spec x m) as [->|N].
  - rewrite S9, E. destruct (get m (db s)); reflexivity.
  - rewrite S8, E by exact N. reflexivity.
Qed.
Lemma same_db s e : (match e with Register _ _ | NewHeart _ | StoppedHeart _ | Unregister _ | Stalled _ => True | _ => False end) -> db (step s e) = db s.
Proof.
  assert (Hu : forall s i, db (unregister_engine s i) = db s).
  { intros s0 i. unfold unregister_engine. destruct (get i (engines s0)); [auto|]. destruct (find _ (incoming s0)) as [[? ?]|]; auto. }
  destruct e; intros H; try destruct H; cbn [step].
  - unfold register_engine. destruct (new_engine_id s id) as [[s1 eid] c] eqn:E.
    assert (E' : db s1 = db s) by (unfold new_engine_id in E; destruct id as [i|]; [destruct (is_some _); [|destruct (mem _ _)]|]; injection E as <- <- <-; auto).
    destruct (is_some _); [exact E'|]. destruct (is_some _); exact E'.
  - unfold handle_new_heart, finish_registration. destruct (is_some _); [|auto]. destruct (get u (incoming s)); auto.
  - unfold handle_stopped_heart. destruct (get u (hearts s)); [|auto]. destruct (is_some _); auto.
  - apply Hu.
  - unfold purge_stalled. destruct (is_some _); auto.
Qed.
(** The record of a request keeps the result *)
Lemma stored_request s m u x : stored (save_request s m u) x = stored s x.
Proof.
  unfold save_request, stored. destruct (get m (db s)) as [r|] eqn:E; cbn [db with_db]; (destruct (Nat.eq_dec x m) as [->|N]; [rewrite get_set_same, E; reflexivity|rewrite get_set_other by exact N; reflexivity]).
Qed.

Lemma stored_quiet past ns e m st r : (match e with QueueResult _ _ _ | TaskResult _ _ _ _ | BroadcastResult _ _ _ _ | DeathTimer _ _ | Purge _ => False | _ => True end) -> stored_next past ns e m st r = r.
Proof. destruct e; intros H; try destruct H; unfold stored_next; destruct (st m); reflexivity. Qed.

Lemma stored_step past s e m : rinv s -> ginv s -> uniq past -> kinv past s -> plausible past (notices s) e -> stored (step s e) m = stored_next past (notices s) e m (status_of s) (stored s m).
Proof.
  intros J I U K P.
  destruct e; try (destruct P; fail); try (rewrite stored_quiet by exact Logic.I);
    try (match goal with |- stored (step s ?e) m = _ => rewrite (stored_same s (step s e) m (same_db s e Logic.I)); reflexivity end).
  - (* DeathTimer *) pose proof (life_step past s _ m J I U K P) as HL. cbn [step] in *. unfold next in HL. unfold stored_next. rewrite !status_of_spec in *.
    destruct (existsb _ (timers s)) eqn:Et.
    + apply existsb_exists in Et as ([j v] & Ht & E). apply andb_true_iff in E as [E1 E2]. apply Nat.eqb_eq in E1, E2. simpl in E1, E2. subst j v.
      destruct (k_queue _ _ K id u) as (q & Q1 & Q2 & Q3); [apply in_app_iff; auto|]. unfold handle_stranded_msgs in *. cbn [queues with_timers] in *. rewrite Q1 in *.
      match goal with |- context [strand ?x u q] => destruct (strand_spec u q x Q2) as (_ & _ & _ & _ & _ & _ & S6 & S7 & S8); [intros y Hy; apply Q3 in Hy; apply Hy|]; set (s' := strand x u q) in * end.
      cbn [pending all_completed db with_timers] in *. unfold stored. rewrite S8. destruct (mem m (pending s)) eqn:Ep.
      * apply mem_In in Ep. destruct (k_db _ _ K m Ep) as (r & D1 & D2). rewrite D1.
        assert (E : mem m q = has_left (notices s) id u && sent_to past u m).
        { apply eq_true_iff_eq. rewrite andb_true_iff, mem_In, Q3, has_left_spec, sent_to_spec. split; [intros [_ H]; split; [apply (g_timers s I), Ht|exact H]|tauto]. }
        rewrite E. destruct (_ && _); reflexivity.
      * assert (Nq : mem m q = false) by (apply mem_false; rewrite Q3, <- mem_In; intros [H _]; congruence). rewrite Nq. destruct (get m (db s)), (mem m (all_completed s)); reflexivity.
    + destruct (mem m (pending s)) eqn:Ep; [|destruct (mem m (all_completed s)); reflexivity]. destruct (has_left _ _ _ && _); [discriminate|reflexivity].
  - (* QueueRequest *) cbn [step]. unfold save_queue_request. destruct (get u (by_ident s)) as [eid|]; [|reflexivity]. cbn [queues with_sets].
    destruct (queues _ eid); rewrite <- (stored_request s m0 (Some u) m); apply stored_same; reflexivity.
  - (* QueueResult *) simpl in P. cbn [step]. unfold stored_next. rewrite (registered_spec s u J), status_of_spec. unfold save_queue_result.
    destruct (get u (by_ident s)) as [eid|] eqn:Eu; cbn [is_some]; [|rewrite andb_false_r; destruct (mem m (pending s)), (mem m (all_completed s)); reflexivity]. rewrite andb_true_r.
    apply (ident_spec s u eid J) in Eu. destruct (mem m0 (pending s)) eqn:Ep.
    + destruct (k_queue _ _ K eid u) as (q & Q1 & Q2 & Q3); [apply in_app_iff; auto|]. destruct (k_tables _ _ K _ _ Eu) as (c & C1). cbn [queues completed with_sets]. rewrite Q1, C1.
      rewrite (proj2 (mem_In m0 q)) by (apply Q3; split; [apply mem_In, Ep|exact P]). rewrite (stored_update s) by reflexivity. destruct (Nat.eqb_spec m m0) as [<-|N].
      * rewrite Ep. apply mem_In in Ep. destruct (k_db _ _ K m Ep) as (r & D1 & D2). rewrite D1. reflexivity.
      * destruct (mem m (pending s)), (mem m (all_completed s)); reflexivity.
    + destruct (mem m0 (all_completed s)) eqn:Ec.
      * rewrite (stored_update s) by reflexivity. destruct (Nat.eqb_spec m m0) as [<-|N].
        -- rewrite Ep, Ec. unfold stored. destruct (get m (db s)) as [r|] eqn:Er; [|reflexivity]. apply mem_In in Ec. destruct (k_db3 _ _ K m r Ec Er) as [_ X]. destruct (r_result r); [reflexivity|destruct X].
        -- destruct (mem m (pending s)), (mem m (all_completed s)); reflexivity.
      * destruct (Nat.eqb_spec m m0) as [<-|N]; [rewrite Ep, Ec; reflexivity|]. destruct (mem m (pending s)), (mem m (all_completed s)); reflexivity.
  - (* TaskRequest *) cbn [step]. unfold save_task_request. rewrite stored_request. reflexivity.
  - (* TaskDestination *) cbn [step]. unfold save_task_destination. destruct (get u (by_ident s)) as [eid|]; [|reflexivity]. cbn [tasks with_sets]. destruct (tasks s eid); [|reflexivity].
    rewrite (stored_update s) by reflexivity. destruct (Nat.eqb_spec m m0) as [<-|N]; [|reflexivity]. unfold stored. destruct (get m (db s)); reflexivity.
  - (* TaskResult *) cbn [step]. unfold stored_next. rewrite status_of_spec. unfold save_task_result. cbn [pending with_sets]. destruct (mem m0 (pending s)) eqn:Ep.
    + rewrite (stored_update s).
      * destruct (Nat.eqb_spec m m0) as [<-|N]; [|destruct (mem m (pending s)), (mem m (all_completed s)); reflexivity]. rewrite Ep. apply mem_In in Ep. destruct (k_db _ _ K m Ep) as (r & D1 & D2). rewrite D1. reflexivity.
      * cbn [by_ident completed tasks with_sets]. destruct (get u (by_ident s)) as [eid|]; [destruct (completed s eid); [destruct (tasks s eid)|]|]; reflexivity.
    + destruct (Nat.eqb_spec m m0) as [<-|N]; [rewrite Ep; destruct (mem m (all_completed s)); reflexivity|]. destruct (mem m (pending s)), (mem m (all_completed s)); reflexivity.
  - (* BroadcastRequest *) cbn [step]. unfold save_broadcast_request. cbn [db with_sets]. destruct (get m0 (db s)) as [r|] eqn:E; [reflexivity|]. unfold stored. cbn [db with_db with_sets].
    destruct (Nat.eq_dec m m0) as [->|N]; [rewrite get_set_same, E; reflexivity|rewrite get_set_other by exact N; reflexivity].
  - (* BroadcastResult *) cbn [step]. unfold stored_next. rewrite status_of_spec. unfold save_broadcast_result. destruct (mem m0 (pending s)) eqn:Ep.
    + rewrite (stored_update s).
      * destruct (Nat.eqb_spec m m0) as [<-|N]; [|destruct (mem m (pending s)), (mem m (all_completed s)); reflexivity]. rewrite Ep. apply mem_In in Ep. destruct (k_db _ _ K m Ep) as (r & D1 & D2). rewrite D1. reflexivity.
      * cbn [by_ident completed tasks with_sets]. destruct (get u (by_ident s)) as [eid|]; [destruct (completed s eid)|]; reflexivity.
    + destruct (Nat.eqb_spec m m0) as [<-|N]; [rewrite Ep; destruct (mem m (all_completed s)); reflexivity|]. destruct (mem m (pending s)), (mem m (all_completed s)); reflexivity.
  - (* Resubmit *) cbn [step]. unfold resubmit. cbn [db with_sets]. destruct (get m0 (db s)) as [r|] eqn:E; [reflexivity|]. unfold stored. cbn [db with_db with_sets].
    destruct (Nat.eq_dec m m0) as [->|N]; [rewrite get_set_same, E; reflexivity|rewrite get_set_other by exact N; reflexivity].
  - (* Purge *) cbn [step]. unfold stored_next, purge_results.
    assert (E : forallb (fun m' => negb (is_pending (status_of s m'))) ms = negb (existsb (fun m => mem m (pending s)) ms)).
    { clear. induction ms as [|x ms IH]; simpl; [reflexivity|]. rewrite IH, status_pending, negb_orb. reflexivity. }
    rewrite E. destruct (existsb _ ms) eqn:Ex; cbn [negb].
    + rewrite andb_false_r. destruct (status_of s m); reflexivity.
    + rewrite andb_true_r. unfold stored. cbn [db with_db]. rewrite get_purge. change (existsb (Nat.eqb m) ms) with (mem m ms). rewrite status_of_spec. destruct (mem m ms) eqn:Em.
      * destruct (mem m (pending s)) eqn:Ep.
        -- exfalso. rewrite <- not_true_iff_false in Ex. apply Ex. apply existsb_exists. exists m. split; [apply mem_In, Em|exact Ep].
        -- destruct (mem m (all_completed s)) eqn:Ec; [reflexivity|]. destruct (get m (db s)) as [r|] eqn:Er; [|reflexivity]. apply (k_db2 _ _ K) in Er. rewrite <- !mem_In, Ep, Ec in Er. destruct Er; discriminate.
      * destruct (mem m (pending s)), (mem m (all_completed s)); reflexivity.
Qed.

(* ---------------------------------------------------------------- answers *)
Lemma In_insert x y l : In x (insert y l) <-> x = y \/ In x l.
Proof.
  induction l as [|z l IH]; simpl; [intuition|]. destruct (Nat.ltb y z); simpl; [intuition|]. destruct (Nat.eqb_spec y z) as [->|]; simpl; [intuition|]. rewrite IH. intuition.
Qed.
Lemma In_sorted_set x l : In x (sorted_set l) <-> In x l.
Proof. induction l as [|y l IH]; simpl; [tauto|]. rewrite In_insert, IH. intuition. Qed.
Lemma insert_sorted x l : StronglySorted lt l -> StronglySorted lt (insert x l).
Proof.
  induction l as [|y l IH]; simpl; intros H; [repeat constructor|]. inversion H as [|? ? H1 H2]; subst. destruct (Nat.ltb_spec x y) as [L|L].
  - constructor; [exact H|]. constructor; [exact L|]. eapply Forall_impl; [|exact H2]. intros; lia.
  - destruct (Nat.eqb_spec x y) as [->|N]; [exact H|]. constructor; [auto|]. rewrite Forall_forall in *. intros z Hz. apply In_insert in Hz as [->|Hz]; [lia|auto].
Qed.
Lemma sorted_set_sorted l : StronglySorted lt (sorted_set l).
Proof. induction l; simpl; [constructor|apply insert_sorted; assumption]. Qed.

Definition known (s : hub) (m : nat) : bool := mem m (pending s) || mem m (all_completed s).
(** the answer if every message is known *)
Lemma collect_known s so records last : forall ms p c cs, forallb (known s) ms = true ->
  (so = false -> forall m, In m ms -> mem m (pending s) = false -> get m records <> None) ->
  collect s so records last ms p c cs = Reply (p ++ filter (fun m => mem m (pending s)) ms) (c ++ filter (fun m => negb (mem m (pending s))) ms)
    (cs ++ if so then [] else map (fun m => (m, match get m records with Some r => r_result r | None => None end)) (filter (fun m => negb (mem m (pending s))) ms)).
Proof.
  induction ms as [|m ms IH]; intros p c cs Hk Hr.
  - simpl. destruct so; rewrite !app_nil_r; reflexivity.
  - cbn [forallb] in Hk. apply andb_true_iff in Hk as [Hm Hk]. unfold known in Hm. cbn [collect filter]. destruct (mem m (pending s)) eqn:Ep; cbn [negb].
    + rewrite IH by (auto; intros; apply Hr; simpl; auto). rewrite <- app_assoc. reflexivity.
    + simpl in Hm. rewrite Hm. destruct so.
      * rewrite IH by (auto; discriminate). rewrite <- app_assoc. reflexivity.
      * destruct (get m records) as [r|] eqn:Er; [|destruct (Hr eq_refl m (or_introl eq_refl) Ep Er)]. rewrite IH by (auto; intros; apply Hr; simpl; auto). cbn [map]. rewrite Er, <- !app_assoc. reflexivity.
Qed.
Lemma get_filter m ms (d : list (nat * record)) : get m (filter (fun e => mem (fst e) ms) d) = if mem m ms then get m d else None.
Proof.
  induction d as [|[k r] d IH]; simpl; [destruct (mem m ms); reflexivity|]. destruct (mem k ms) eqn:E; simpl.
  - destruct (Nat.eqb_spec m k) as [->|]; [rewrite E; reflexivity|exact IH].
  - rewrite IH. destruct (Nat.eqb_spec m k) as [->|]; [rewrite E|]; reflexivity.
Qed.
Lemma sorted_single m : sorted_set [m] = [m].
Proof. reflexivity. Qed.
(** a message that is not known, for a status request *)
Lemma collect_unknown s last : forall ms p c cs m, find (fun m => negb (known s m)) ms = Some m -> collect s true [] last ms p c cs = NoSuchMessage m.
Proof.
  induction ms as [|x ms IH]; intros p c cs m H; [discriminate|]. cbn [find] in H. cbn [collect]. unfold known in H at 1.
  destruct (mem x (pending s)); cbn in H; [eauto|]. destruct (mem x (all_completed s)); cbn in H; [eauto|]. injection H as <-. reflexivity.
Qed.

(** The database has one record for each message. *)
Lemma set_keys {A} k (v : A) d : map fst (set k v d) = if is_some (get k d) then map fst d else map fst d ++ [k].
Proof.
  induction d as [|[k' w] d IH]; simpl; [reflexivity|]. destruct (Nat.eqb_spec k k') as [->|N]; simpl; [reflexivity|]. rewrite IH. destruct (is_some (get k d)); reflexivity.
Qed.
Lemma NoDup_set {A} k (v : A) d : NoDup (map fst d) -> NoDup (map fst (set k v d)).
Proof. intros H. rewrite set_keys. destruct (is_some (get k d)) eqn:E; [exact H|]. apply NoDup_snoc; [exact H|]. rewrite <- is_some_get, E. discriminate. Qed.
Definition db_ok (s : hub) : Prop := NoDup (map fst (db s)).
Lemma db_ok_update s m f : db_ok s -> db_ok (update_record s m f).
Proof. intros H. unfold update_record, db_ok. destruct (get m (db s)); [apply NoDup_set, H|exact H]. Qed.
Lemma db_ok_strand u ms : forall s, db_ok s -> db_ok (strand s u ms).
Proof. induction ms as [|m ms IH]; intros s H; simpl; [exact H|]. destruct (mem m (pending s)); [|exact H]. apply IH, db_ok_update, H. Qed.
Lemma db_ok_request s m u : db_ok s -> db_ok (save_request s m u).
Proof. intros H. unfold save_request, db_ok. destruct (get m (db s)); apply NoDup_set, H. Qed.
Lemma db_finish b s u : db (finish_registration b s u) = db s.
Proof. unfold finish_registration. destruct (get u (incoming s)); [|reflexivity]. destruct b; reflexivity. Qed.
Lemma db_load s : db (load_engine_state s) = db s.
Proof.
  unfold load_engine_state. destruct (file s) as [[es n]|]; [|reflexivity]. cbn [db with_reg]. revert s. induction es as [|e es IH]; intros s; simpl; [reflexivity|]. rewrite IH, db_finish. reflexivity.
Qed.
Lemma NoDup_map_filter {A} (f : A -> nat) g (l : list A) : NoDup (map f l) -> NoDup (map f (filter g l)).
Proof.
  induction l as [|x l IH]; simpl; intros H; [constructor|]. inversion H as [|? ? H1 H2]; subst. destruct (g x); simpl; [|auto]. constructor; [|auto]. intros Hi. apply H1. apply in_map_iff in Hi as (y & E & Hy). apply filter_In in Hy. apply in_map_iff. exists y. tauto.
Qed.
Lemma db_ok_step s e : db_ok s -> db_ok (step s e).
Proof.
  intros H. destruct e; try (match goal with |- db_ok (step s ?e) => unfold db_ok; rewrite (same_db s e Logic.I); exact H end); cbn [step].
  - destruct (existsb _ _); [|exact H]. unfold handle_stranded_msgs. cbn [queues with_timers]. destruct (queues s id); [apply db_ok_strand|]; exact H.
  - unfold restart, db_ok. rewrite db_load. exact H.
  - unfold save_queue_request. destruct (get u (by_ident s)); [|exact H]. cbn [queues with_sets]. destruct (queues _ n); apply (db_ok_request s m (Some u) H).
  - unfold save_queue_result. destruct (get u (by_ident s)); [|exact H]. destruct (mem m (pending s)).
    + cbn [queues completed with_sets]. destruct (queues s n); [|exact H]. destruct (completed s n); [|exact H]. destruct (mem m l); [|exact H]. apply db_ok_update. exact H.
    + destruct (mem m (all_completed s)); [apply db_ok_update|]; exact H.
  - unfold save_task_request. apply db_ok_request. exact H.
  - unfold save_task_destination. destruct (get u (by_ident s)); [|exact H]. cbn [tasks with_sets]. destruct (tasks s n); [apply db_ok_update|]; exact H.
  - unfold save_task_result. cbn [pending with_sets]. destruct (mem m (pending s)); [|exact H]. apply db_ok_update. cbn [by_ident completed tasks with_sets].
    destruct (get u (by_ident s)) as [eid|]; [destruct (completed s eid); [destruct (tasks s eid)|]|]; exact H.
  - unfold save_broadcast_request. cbn [db with_sets]. destruct (get m (db s)); [exact H|]. apply NoDup_set, H.
  - unfold save_broadcast_result. destruct (mem m (pending s)); [|exact H]. apply db_ok_update. cbn [by_ident completed tasks with_sets].
    destruct (get u (by_ident s)) as [eid|]; [destruct (completed s eid)|]; exact H.
  - unfold resubmit. cbn [db with_sets]. destruct (get m (db s)); [exact H|]. apply NoDup_set, H.
  - unfold purge_results. destruct (existsb _ ms); [exact H|]. apply NoDup_map_filter, H.
Qed.
Lemma db_ok_exec es : db_ok (exec es).
Proof.
  induction es as [|e es IH] using rev_ind; [constructor|]. rewrite exec_snoc. apply db_ok_step, IH.
Qed.
(** The records for one message *)
Lemma filter_single m (d : list (nat * record)) : NoDup (map fst d) -> filter (fun e => mem (fst e) [m]) d = match get m d with Some r => [(m, r)] | None => [] end.
Proof.
  induction d as [|[k r] d IH]; intros H; [reflexivity|]. cbn [map fst] in H. inversion H as [|? ? H1 H2]; subst. cbn [filter get fst].
  assert (E : mem k [m] = Nat.eqb m k) by (unfold mem; simpl; rewrite orb_false_r; apply Nat.eqb_sym). rewrite E. destruct (Nat.eqb_spec m k) as [->|N]; [|apply IH, H2].
  rewrite IH by exact H2. rewrite (proj2 (get_none k d) H1). reflexivity.
Qed.
