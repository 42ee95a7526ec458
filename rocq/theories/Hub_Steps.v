(** The invariant of the tables of messages is kept by every event. *)
From Coq Require Import List Arith Bool Lia Permutation.
From Verif Require Import Hub_Spec Hub_Model Hub_Reg Hub_Tasks.
Import ListNotations.

(** Events that have no effect *)
Lemma kinv_noop past s e : kinv past s -> (forall u m, e = QueueRequest u m -> ~ In m (pending s)) -> (forall m, e <> TaskRequest m) ->
  (forall m u, e = TaskDestination m u -> In u (map snd (been (notices s))) /\ forall i, ~ In (i, u) (engines s)) -> kinv (past ++ [e]) s.
Proof.
  intros K Nq Nt Nd. constructor.
  - intros x H. destruct (k_known _ _ K x H) as (y & Hy & Ey). exists y. split; [apply In_snoc; auto|exact Ey].
  - apply (k_disj _ _ K).
  - intros x H. apply (k_done _ _ K) in H as [H|(u & H)]; [left; unfold has_result; rewrite flat_map_app; apply in_or_app; auto|right; exists u; apply In_snoc; auto].
  - intros i u H. destruct (k_queue _ _ K i u H) as (q & Q1 & Q2 & Q3). exists q. split; [exact Q1|]. split; [exact Q2|]. intros x. rewrite Q3, In_snoc. split; [tauto|].
    intros [H1 [H2|H2]]; [auto|destruct (Nq u x); auto].
  - intros u x H1 H2. apply In_snoc in H1 as [H1|H1]; [|destruct (Nq u x); auto]. eapply (k_mux _ _ K); eassumption.
  - apply (k_compl _ _ K).
  - apply (k_compl2 _ _ K).
  - apply (k_tables _ _ K).
  - intros i u H. destruct (k_tasks _ _ K i u H) as (t & T1 & T2 & T3). exists t. split; [exact T1|]. split; [intros x Hx; apply In_snoc; auto|].
    intros x Hx. apply In_snoc in Hx as [Hx|Hx]; [auto|]. destruct (Nd x u) as [_ N]; [auto|]. destruct (N i H).
  - intros x u H. apply In_snoc in H as [H|H]; [eapply (k_dest _ _ K); eassumption|]. apply (Nd x u). auto.
  - intros x H. apply (k_un _ _ K) in H as [H1 H2]. split; [exact H1|apply In_snoc; auto].
  - intros x H1 H2 H3. apply In_snoc in H1 as [H1|H1]; [|destruct (Nt x); auto]. apply (k_un2 _ _ K); auto. intros u Hx. apply (H3 u). apply In_snoc; auto.
  - apply (k_db _ _ K).
  - apply (k_db2 _ _ K).
  - intros x r H1 H2. destruct (k_db3 _ _ K x r H1 H2) as [R1 R2]. split; [exact R1|]. destruct (r_result r) as [[w|]|]; [apply result_more, R2| |exact R2].
    destruct R2 as (u & R2 & R3). exists u. split; [apply In_snoc; auto|exact R3].
Qed.

Lemma pop_perm (es : list (nat * nat)) eid u : NoDup (map fst es) -> In (eid, u) es -> Permutation es ((eid, u) :: pop eid es).
Proof.
  intros Hn E. apply in_split in E as (l1 & l2 & El). rewrite El in *. rewrite map_app in Hn. simpl in Hn. apply NoDup_remove_2 in Hn. rewrite in_app_iff in Hn.
  unfold pop. rewrite filter_app. simpl. rewrite Nat.eqb_refl. simpl.
  assert (F : forall l, ~ In eid (map fst l) -> filter (fun e : nat * nat => negb (eid =? fst e)) l = l).
  { induction l as [|e l IH]; simpl; intros H; [reflexivity|]. destruct (Nat.eqb_spec eid (fst e)); [exfalso; apply H; auto|]. simpl. rewrite IH by tauto. reflexivity. }
  rewrite !F by tauto. symmetry. apply Permutation_middle.
Qed.
Lemma kinv_unregister past s e eid : rinv s -> kinv past s -> request_of e = [] -> result_of e = [] -> (forall m u, e <> TaskDestination m u) -> kinv (past ++ [e]) (unregister_engine s eid).
Proof.
  intros J K E1 E2 E3. unfold unregister_engine. destruct (get eid (engines s)) as [u|] eqn:E.
  - apply get_in in E. eapply kinv_quiet; try eassumption; try reflexivity; cbn [notices tell save_engine_state with_file with_reg with_timers engines timers].
    + rewrite been_snoc, app_nil_r. apply incl_refl.
    + rewrite gone_snoc. apply incl_appl, incl_refl.
    + intros x Hx. apply in_pop in Hx. tauto.
    + rewrite app_assoc. etransitivity; [symmetry; apply Permutation_cons_append|]. apply (Permutation_app_tail (timers s) (l := (eid, u) :: pop eid (engines s))). symmetry.
      apply (pop_perm _ _ _ (NoDup_app_l _ _ (ri_ids s J)) E).
  - assert (Q : forall s', notices s' = notices s -> pending s' = pending s /\ all_completed s' = all_completed s /\ unassigned s' = unassigned s /\ db s' = db s /\ queues s' = queues s /\ completed s' = completed s /\
        tasks s' = tasks s /\ engines s' = engines s /\ timers s' = timers s -> kinv (past ++ [e]) s').
    { intros s' En (F1 & F2 & F3 & F4 & F5 & F6 & F7 & F8 & F9). apply (kinv_quiet past s); auto; rewrite ?En, ?F8, ?F9; try apply incl_refl; reflexivity. }
    destruct (find _ (incoming s)) as [[u i]|]; apply Q; repeat split.
Qed.
Lemma kinv_register past s u r : kinv past s -> kinv (past ++ [Register u r]) (register_engine s u r).
Proof.
  intros K. assert (Q : forall s', been (notices s') = been (notices s) -> gone (notices s') = gone (notices s) -> pending s' = pending s /\ all_completed s' = all_completed s /\ unassigned s' = unassigned s /\ db s' = db s /\ queues s' = queues s /\ completed s' = completed s /\
        tasks s' = tasks s /\ engines s' = engines s /\ timers s' = timers s -> kinv (past ++ [Register u r]) s').
  { intros s' En En' (F1 & F2 & F3 & F4 & F5 & F6 & F7 & F8 & F9). apply (kinv_quiet past s); auto; try discriminate; rewrite ?En, ?En', ?F8, ?F9; try apply incl_refl; reflexivity. }
  assert (N : forall s1 eid c, new_engine_id s r = (s1, eid, c) -> notices s1 = notices s /\ pending s1 = pending s /\ all_completed s1 = all_completed s /\ unassigned s1 = unassigned s /\ db s1 = db s /\ queues s1 = queues s /\ completed s1 = completed s /\
        tasks s1 = tasks s /\ engines s1 = engines s /\ timers s1 = timers s).
  { intros s1 eid c E. unfold new_engine_id in E. destruct r as [i|]; [destruct (is_some _); [|destruct (mem _ _)]|]; injection E as <- <- <-; repeat split. }
  unfold register_engine. destruct (new_engine_id s r) as [[s1 eid] c] eqn:E. destruct (N _ _ _ eq_refl) as (N0 & N1 & N2 & N3 & N4 & N5 & N6 & N7 & N8 & N9).
  destruct (is_some (get u (by_ident s1))); [|destruct (is_some (get u (incoming s1)))]; apply Q; cbn [notices tell with_reg pending all_completed unassigned db queues completed tasks engines timers];
    rewrite ?been_snoc, ?gone_snoc, ?app_nil_r, ?N0; auto; tauto.
Qed.
Lemma kinv_heart past s u : rinv s -> ginv s -> kinv past s -> kinv (past ++ [NewHeart u]) (handle_new_heart s u).
Proof.
  intros J I K. unfold handle_new_heart. destruct (is_some (get u (incoming s))); [|apply kinv_noop; [exact K|discriminate..]].
  unfold finish_registration. destruct (get u (incoming s)) as [eid|] eqn:E; [|apply kinv_noop; [exact K|discriminate..]]. apply get_in in E.
  destruct (finish_new _ _ _ E (ri_ids s J) (ri_uuids s J) (ri_ident s J) (ri_hearts s J)) as (E1 & _ & _).
  assert (Heid : forall v, ~ In (eid, v) (engines s ++ gone (notices s))).
  { intros v Hv. pose proof (g_ids s I) as G. assert (Hi : In eid (map snd (incoming s))) by (change eid with (snd (u, eid)); apply in_map; exact E).
    rewrite app_assoc in G. apply (NoDup_app_disj _ _ eid G); [|exact Hi]. rewrite <- map_app. change eid with (fst (eid, v)). apply in_map. apply in_app_iff in Hv. apply in_app_iff. tauto. }
  assert (Hu : ~ In u (map snd (engines s ++ gone (notices s)))).
  { intros Hv. pose proof (g_uuids s I) as G. assert (Hi : In u (map fst (incoming s))) by (change u with (fst (u, eid)); apply in_map; exact E).
    rewrite app_assoc in G. apply (NoDup_app_disj _ _ u G); [|exact Hi]. rewrite map_app in Hv. apply in_app_iff in Hv. apply in_app_iff. tauto. }
  assert (Hold : forall i v, In (i, v) (engines s ++ timers s) -> i <> eid /\ v <> u).
  { intros i v Hv. assert (Hv' : In (i, v) (engines s ++ gone (notices s))) by (apply in_app_iff in Hv as [Hv|Hv]; apply in_app_iff; [auto|right; apply (g_timers s I), Hv]).
    split; intros ->; [eapply Heid; eassumption|]. apply Hu. change u with (snd (i, u)). apply in_map. exact Hv'. }
  assert (Nm : forall m, In m (pending s) -> ~ In (QueueRequest u m) past).
  { intros m H1 H2. pose proof (k_mux _ _ K _ _ H2 H1) as H. apply in_map_iff in H as ([i v] & Ev & H). simpl in Ev. subst v. destruct (Hold _ _ H). congruence. }
  assert (Nd : forall m, ~ In (TaskDestination m u) past).
  { intros m H. apply (k_dest _ _ K) in H. apply (g_been s I) in H. contradiction. }
  eapply kinv_reg; try eassumption; try reflexivity; try discriminate;
    cbn [notices tell save_engine_state with_file with_reg with_tables engines timers queues tasks completed pending]; rewrite ?E1.
  - rewrite been_snoc. apply incl_appl, incl_refl.
  - rewrite gone_snoc, app_nil_r. apply incl_refl.
  - intros i v Hv. destruct (Nat.eq_dec i eid) as [->|N].
    + rewrite put_same. exists []. split; [reflexivity|]. split; [constructor|]. intros m. split; [intros []|].
      assert (v = u) as ->. { apply in_app_iff in Hv as [Hv|Hv]; [apply In_snoc in Hv as [Hv|Hv]; [|congruence]|]; (destruct (Hold eid v); [apply in_app_iff; auto|congruence]). }
      intros [H1 H2]. apply (Nm _ H1 H2).
    + rewrite put_other by exact N. apply (k_queue _ _ K). apply in_app_iff in Hv as [Hv|Hv]; apply in_app_iff; [apply In_snoc in Hv as [Hv|Hv]; [auto|congruence]|auto].
  - intros v Hv. rewrite map_app, in_app_iff in *. rewrite map_app, in_app_iff. tauto.
  - intros i c H. destruct (Nat.eq_dec i eid) as [->|N]; [rewrite put_same in H; injection H as <-; split; [constructor|intros x []]|]. rewrite put_other in H by exact N. apply (k_compl _ _ K _ _ H).
  - intros i j c d m H1 H2 H3 H4. destruct (Nat.eq_dec i eid) as [->|N1]; [rewrite put_same in H1; injection H1 as <-; destruct H3|]. destruct (Nat.eq_dec j eid) as [->|N2]; [rewrite put_same in H2; injection H2 as <-; destruct H4|].
    rewrite put_other in H1, H2 by assumption. eapply (k_compl2 _ _ K); eassumption.
  - intros i v Hv. destruct (Nat.eq_dec i eid) as [->|N]; [rewrite put_same; eauto|]. rewrite put_other by exact N. apply In_snoc in Hv as [Hv|Hv]; [|congruence]. apply (k_tables _ _ K _ _ Hv).
  - intros i v Hv. destruct (Nat.eq_dec i eid) as [->|N].
    + rewrite put_same. exists []. split; [reflexivity|]. split; [intros m []|]. intros m Hm. exfalso.
      assert (v = u) as ->. { apply In_snoc in Hv as [Hv|Hv]; [|congruence]. destruct (Hold eid v); [apply in_app_iff; auto|congruence]. }
      apply (Nd _ Hm).
    + rewrite put_other by exact N. apply In_snoc in Hv as [Hv|Hv]; [|congruence]. apply (k_tasks _ _ K _ _ Hv).
Qed.

Lemma kinv_death past s i u : ginv s -> uniq past -> kinv past s -> kinv (past ++ [DeathTimer i u]) (step s (DeathTimer i u)).
Proof.
  intros I U K. cbn [step]. destruct (existsb _ (timers s)) eqn:E; [|apply kinv_noop; [exact K|discriminate..]].
  apply existsb_exists in E as ([i0 u0] & Ht & E). apply andb_true_iff in E as [E1 E2]. apply Nat.eqb_eq in E1, E2. simpl in E1, E2. subst i0 u0.
  set (ts := filter _ (timers s)).
  assert (Hts : forall j v, In (j, v) ts <-> In (j, v) (timers s) /\ (j, v) <> (i, u)).
  { intros j v. unfold ts. rewrite filter_In, negb_true_iff, andb_false_iff, !Nat.eqb_neq. simpl. split; intros [H1 H2]; (split; [exact H1|]).
    - intros [= -> ->]. tauto.
    - destruct (Nat.eq_dec i j) as [->|N]; [|auto]. destruct (Nat.eq_dec u v) as [->|N]; [congruence|auto]. }
  destruct (k_queue _ _ K i u) as (q & Q1 & Q2 & Q3); [apply in_app_iff; auto|]. unfold handle_stranded_msgs. cbn [queues with_timers]. rewrite Q1.
  destruct (strand_spec u q (with_timers s ts) Q2) as (S0 & S1 & S2 & S3 & S4 & S5 & S6 & S7 & S8); [intros m Hm; apply Q3 in Hm; apply Hm|].
  set (s' := strand _ _ _) in *. clearbody s'. destruct S0 as (_ & R2 & _ & _ & _ & _ & R7). cbn [queues tasks completed unassigned timers pending all_completed db engines notices with_timers] in *.
  assert (Hdiff : forall j v, In (j, v) (engines s ++ ts) -> In (j, v) (engines s ++ timers s) /\ v <> u).
  { intros j v Hv. assert (Hv' : In (j, v) (engines s ++ timers s)) by (apply in_app_iff in Hv as [Hv|Hv]; apply in_app_iff; [auto|apply Hts in Hv; tauto]).
    split; [exact Hv'|]. intros ->. assert (j = i) as -> by (eapply both_inj; [exact I|exact Hv'|apply in_app_iff; auto]). apply in_app_iff in Hv as [Hv|Hv]; [|apply Hts in Hv; tauto].
    pose proof (g_ids s I) as G. apply (NoDup_app_disj _ _ i G); [|apply in_app_iff; left; change i with (fst (i, u)); apply in_map; exact Hv]. change i with (fst (i, u)). apply in_map. apply (g_timers s I), Ht. }
  constructor; rewrite ?R2, ?R7, ?S1, ?S2, ?S3, ?S4, ?S5.
  - intros m H. assert (Hx : In m (pending s) \/ In m (all_completed s)).
    { destruct H as [H|H]; [apply S6 in H; tauto|]. apply S7 in H as [H|H]; [auto|]. apply Q3 in H. tauto. }
    destruct (k_known _ _ K m Hx) as (y & Hy & Ey). exists y. split; [apply In_snoc; auto|exact Ey].
  - intros m H1 H2. apply S6 in H1 as [H1 N]. apply S7 in H2 as [H2|H2]; [|contradiction]. eapply (k_disj _ _ K); eassumption.
  - intros m H. apply S7 in H as [H|H].
    + apply (k_done _ _ K) in H as [H|(v & H)]; [left; unfold has_result; rewrite flat_map_app; apply in_or_app; auto|right; exists v; apply In_snoc; auto].
    + apply Q3 in H as [_ H]. right. exists u. apply In_snoc. auto.
  - intros j v Hv. destruct (Hdiff j v Hv) as [Hv' N]. destruct (k_queue _ _ K j v Hv') as (p & P1 & P2 & P3). exists p. split; [exact P1|]. split; [exact P2|].
    intros m. rewrite P3, In_snoc, S6. split.
    + intros [H1 H2]. split; [|auto]. split; [exact H1|]. intros Hq. apply Q3 in Hq as [_ Hq]. apply N. eapply (u_mux _ U); eassumption.
    + intros [[H1 H2] [H3|H3]]; [auto|discriminate].
  - intros v m H1 H2. apply In_snoc in H1 as [H1|H1]; [|discriminate]. apply S6 in H2 as [H2 H3]. pose proof (k_mux _ _ K _ _ H1 H2) as H. apply in_map_iff in H as ([j w] & Ew & H). simpl in Ew. subst w.
    apply in_map_iff. exists (j, v). split; [reflexivity|]. apply in_app_iff in H as [H|H]; apply in_app_iff; [auto|]. right. apply Hts. split; [exact H|]. intros [= -> ->]. apply H3. apply Q3. auto.
  - intros j c H. destruct (k_compl _ _ K _ _ H) as [H1 H2]. split; [exact H1|]. intros m Hm. apply S7. left. apply H2, Hm.
  - apply (k_compl2 _ _ K).
  - apply (k_tables _ _ K).
  - intros j v H. destruct (k_tasks _ _ K j v H) as (t & T1 & T2 & T3). exists t. split; [exact T1|]. split; [intros m Hm; apply In_snoc; auto|].
    intros m Hm. apply In_snoc in Hm as [Hm|Hm]; [|discriminate]. destruct (T3 m Hm); [auto|right; apply S7; auto].
  - intros m v H. apply In_snoc in H as [H|H]; [|discriminate]. apply (k_dest _ _ K _ _ H).
  - intros m H. apply (k_un _ _ K) in H as [H1 H2]. split; [|apply In_snoc; auto]. apply S6. split; [exact H1|]. intros Hq. apply Q3 in Hq as [_ Hq]. apply (u_mux_task _ U _ _ Hq H2).
  - intros m H1 H2 H3. apply In_snoc in H1 as [H1|H1]; [|discriminate]. apply S6 in H2 as [H2 _]. apply (k_un2 _ _ K); auto. intros v Hv. apply (H3 v). apply In_snoc; auto.
  - intros m H. apply S6 in H as [H Hn]. apply (k_db _ _ K) in H as (r & D1 & D2). exists r. rewrite S8, D1. rewrite (proj2 (mem_false m q) Hn). auto.
  - intros m r H. rewrite S8 in H. destruct (get m (db s)) as [r0|] eqn:E; [|discriminate]. apply (k_db2 _ _ K) in E as [E|E]; [|right; apply S7; auto].
    destruct (mem m q) eqn:Em; [right; apply S7; right; apply mem_In, Em|left; apply S6; split; [exact E|apply mem_false, Em]].
  - intros m r H1 H2. rewrite S8 in H2. destruct (get m (db s)) as [r0|] eqn:E; [|discriminate]. injection H2 as <-. destruct (mem m q) eqn:Em.
    + cbn [r_completed r_result]. split; [reflexivity|]. apply mem_In, Q3 in Em as [_ Em]. exists u. split; [apply In_snoc; auto|]. change u with (snd (i, u)). apply in_map. apply (g_timers s I), Ht.
    + apply S7 in H1 as [H1|H1]; [|apply mem_false in Em; contradiction]. destruct (k_db3 _ _ K m r0 H1 E) as [X1 X2]. split; [exact X1|]. destruct (r_result r0) as [[w|]|]; [apply result_more, X2| |exact X2].
      destruct X2 as (v & X2 & X3). exists v. split; [apply In_snoc; auto|exact X3].
Qed.

Lemma get_purge m ms (d : list (nat * record)) : get m (filter (fun e => negb (mem (fst e) ms)) d) = if mem m ms then None else get m d.
Proof.
  induction d as [|[k r] d IH]; simpl; [destruct (mem m ms); reflexivity|]. destruct (mem k ms) eqn:E; simpl.
  - rewrite IH. destruct (Nat.eqb_spec m k) as [->|]; [rewrite E|]; reflexivity.
  - destruct (Nat.eqb_spec m k) as [->|]; [rewrite E; reflexivity|exact IH].
Qed.
Lemma kinv_purge past s ms : kinv past s -> kinv (past ++ [Purge ms]) (purge_results s ms).
Proof.
  intros K. unfold purge_results. destruct (existsb _ ms) eqn:E; [apply kinv_noop; [exact K|discriminate..]|].
  assert (Np : forall m, In m (pending s) -> mem m ms = false).
  { intros m H. apply mem_false. intros Hm. rewrite <- not_true_iff_false in E. apply E. apply existsb_exists. exists m. split; [exact Hm|apply mem_In, H]. }
  pose proof (kinv_noop past s (Purge ms) K) as K'. destruct K' as [K1 K2 K3 K4 K5 K6 K7 K8 K9 K10 K11 K12 K13 K14 K15]; [discriminate..|].
  constructor; cbn [pending all_completed unassigned db queues completed tasks engines timers notices with_db]; auto; intros m.
  - intros H. rewrite get_purge, (Np m H). auto.
  - intros r. rewrite get_purge. destruct (mem m ms); [discriminate|]. apply K14.
  - intros r H. rewrite get_purge. destruct (mem m ms); [discriminate|]. apply K15, H.
Qed.

Lemma no_request past m : ~ In m (flat_map request_of past) -> (forall e, In e past -> request_of e <> [m]).
Proof. intros H e He E. apply H. eapply req_intro; eassumption. Qed.
Lemma new_pending past s m : kinv past s -> ~ In m (flat_map request_of past) -> ~ In m (pending s) /\ ~ In m (all_completed s) /\ get m (db s) = None.
Proof.
  intros K H. assert (H1 : ~ In m (pending s)) by (intros Hm; apply H, req_in, (k_known _ _ K); auto). assert (H2 : ~ In m (all_completed s)) by (intros Hm; apply H, req_in, (k_known _ _ K); auto).
  split; [exact H1|]. split; [exact H2|]. destruct (get m (db s)) as [r|] eqn:E; [|reflexivity]. apply (k_db2 _ _ K) in E. tauto.
Qed.
Lemma save_request_db s m u : (forall x, x <> m -> get x (db (save_request s m u)) = get x (db s)) /\ exists r, get m (db (save_request s m u)) = Some r /\ r_completed r = match get m (db s) with Some r => r_completed r | None => false end.
Proof.
  unfold save_request. destruct (get m (db s)) as [r|]; cbn [db with_db]; (split; [intros x N; apply get_set_other, N|]); rewrite get_set_same; eexists; split; reflexivity.
Qed.

Lemma kinv_queue_request past s u m : rinv s -> ginv s -> kinv past s -> ~ In m (flat_map request_of past) -> kinv (past ++ [QueueRequest u m]) (save_queue_request s u m).
Proof.
  intros J I K Hm. destruct (new_pending _ _ _ K Hm) as (N1 & N2 & N3). pose proof (no_request _ _ Hm) as N4. unfold save_queue_request.
  destruct (get u (by_ident s)) as [eid|] eqn:Eu; [|apply kinv_noop; [exact K| |discriminate..]; intros u' m' [= -> ->]; exact N1].
  apply (ident_spec s u eid J) in Eu. assert (Eu' : In (eid, u) (engines s ++ timers s)) by (apply in_app_iff; auto).
  destruct (k_queue _ _ K _ _ Eu') as (q & Q1 & Q2 & Q3). destruct (save_request_db s m (Some u)) as [D1 (r & D2 & D3)]. rewrite N3 in D3.
  assert (Eq : queues (with_sets (save_request s m (Some u)) (add m (pending (save_request s m (Some u)))) (all_completed (save_request s m (Some u))) (unassigned (save_request s m (Some u)))) eid = Some q).
  { unfold save_request. rewrite N3. exact Q1. }
  rewrite Eq. clear Eq.
  assert (F : forall X (f : hub -> X), (forall d, f (with_db s d) = f s) -> f (save_request s m (Some u)) = f s) by (intros X f H; unfold save_request; rewrite N3; apply H).
  eapply kinv_add; cbn [engines timers pending all_completed unassigned db queues tasks completed with_tables with_sets]; try eassumption; try reflexivity; try discriminate.
  - intros u' H. apply (N4 _ H). reflexivity.
  - intros H. destruct (N4 _ H). reflexivity.
  - repeat split; cbn [counter engines incoming by_ident hearts file notices with_tables with_sets]; unfold save_request; rewrite N3; reflexivity.
  - apply F. reflexivity.
  - intros x. rewrite In_add. rewrite (F _ pending) by reflexivity. reflexivity.
  - apply (F _ all_completed). reflexivity.
  - apply (F _ completed). reflexivity.
  - apply (F _ tasks). reflexivity.
  - intros x. rewrite (F _ unassigned) by reflexivity. split; [auto|]. intros [H|[_ H]]; [exact H|discriminate].
  - exists r. auto.
  - intros i v Hv. rewrite (F _ queues) by reflexivity. destruct (Nat.eq_dec i eid) as [->|N].
    + assert (v = u) as -> by (eapply both_fun; eassumption). rewrite put_same. exists (q ++ [m]). split; [reflexivity|].
      split; [apply NoDup_snoc; [exact Q2|]; intros H; apply Q3 in H; tauto|]. intros x. rewrite In_snoc, Q3, In_add, In_snoc, (F _ pending) by reflexivity. split.
      * intros [[H1 H2]| ->]; auto.
      * intros [H1 [H2|H2]]; [|injection H2 as ->; auto]. destruct H1 as [->|H1]; [auto|auto].
    + rewrite put_other by exact N. destruct (k_queue _ _ K _ _ Hv) as (p & P1 & P2 & P3). exists p. split; [exact P1|]. split; [exact P2|]. intros x. rewrite P3, In_add, In_snoc, (F _ pending) by reflexivity.
      split; [tauto|]. intros [H1 [H2|H2]].
      * destruct H1 as [->|H1]; [|auto]. destruct (N4 _ H2). reflexivity.
      * injection H2 as -> ->. destruct N. eapply both_inj; eassumption.
  - intros u' [= <-]. change u with (snd (eid, u)). apply in_map. exact Eu'.
Qed.

(** The other requests *)
Lemma kinv_simple_request past s s' e m : kinv past s -> request_of e = [m] -> (forall u, e <> QueueRequest u m) -> ~ In m (all_completed s) -> (forall u, ~ In (QueueRequest u m) past) ->
  (In (TaskRequest m) past -> e = TaskRequest m) -> same_reg s s' -> timers s' = timers s -> queues s' = queues s -> completed s' = completed s -> tasks s' = tasks s -> all_completed s' = all_completed s ->
  pending s' = add m (pending s) -> (forall x, In x (unassigned s') <-> In x (unassigned s) \/ x = m /\ e = TaskRequest m) ->
  (exists r, get m (db s') = Some r /\ r_completed r = false) -> (forall x, x <> m -> get x (db s') = get x (db s)) -> kinv (past ++ [e]) s'.
Proof.
  intros K Er Nq Nd Nm Nt S St Sq Sc Sta Sa Sp Su D1 D2. eapply kinv_add; try eassumption.
  - destruct e; try discriminate; reflexivity.
  - intros x u ->. discriminate.
  - intros x. rewrite Sp. apply In_add.
  - intros i u H. rewrite Sq. destruct (k_queue _ _ K _ _ H) as (p & P1 & P2 & P3). exists p. split; [exact P1|]. split; [exact P2|]. intros x. rewrite P3, Sp, In_add, In_snoc. split; [tauto|].
    intros [H1 [H2|H2]]; [|destruct e; try discriminate; injection H2 as -> ->; simpl in Er; injection Er as ->; destruct (Nq u0); reflexivity].
    destruct H1 as [->|H1]; [destruct (Nm _ H2)|auto].
  - intros u ->. destruct (Nq u). reflexivity.
Qed.
Lemma kinv_task_request past s m : kinv past s -> plausible past (notices s) (TaskRequest m) -> kinv (past ++ [TaskRequest m]) (save_task_request s m).
Proof.
  intros K [H1 H2]. assert (Nq : forall u, ~ In (QueueRequest u m) past) by (intros u H; specialize (H1 _ H eq_refl); discriminate).
  assert (Nd : ~ In m (all_completed s)). { intros H. apply (k_done _ _ K) in H as [H|(u & H)]; [contradiction|apply (Nq _ H)]. }
  unfold save_task_request. destruct (save_request_db (with_sets s (add m (pending s)) (all_completed s) (add m (unassigned s))) m None) as [D1 (r & D2 & D3)].
  eapply kinv_simple_request; try eassumption; try reflexivity; try discriminate.
  - unfold save_request; cbn [db with_sets]; destruct (get m (db s)); repeat split.
  - unfold save_request; cbn [db with_sets]; destruct (get m (db s)); reflexivity.
  - unfold save_request; cbn [db with_sets]; destruct (get m (db s)); reflexivity.
  - unfold save_request; cbn [db with_sets]; destruct (get m (db s)); reflexivity.
  - unfold save_request; cbn [db with_sets]; destruct (get m (db s)); reflexivity.
  - unfold save_request; cbn [db with_sets]; destruct (get m (db s)); reflexivity.
  - unfold save_request; cbn [db with_sets]; destruct (get m (db s)); reflexivity.
  - intros x. assert (E : unassigned (save_request (with_sets s (add m (pending s)) (all_completed s) (add m (unassigned s))) m None) = add m (unassigned s)) by (unfold save_request; cbn [db with_sets]; destruct (get m (db s)); reflexivity).
    rewrite E, In_add. tauto.
  - exists r. split; [exact D2|]. rewrite D3. cbn [db with_sets]. destruct (get m (db s)) as [r0|] eqn:E; [|reflexivity].
    pose proof (k_db2 _ _ K _ _ E) as [Hp|Hp]; [|contradiction]. apply (k_db _ _ K) in Hp as (r1 & E1 & E2). congruence.
Qed.
Lemma kinv_other_request past s e m : kinv past s -> ~ In m (flat_map request_of past) -> e = BroadcastRequest m \/ e = Resubmit m -> kinv (past ++ [e]) (step s e).
Proof.
  intros K Hm He. destruct (new_pending _ _ _ K Hm) as (N1 & N2 & N3). pose proof (no_request _ _ Hm) as N4.
  assert (Es : step s e = with_db (with_sets s (add m (pending s)) (all_completed s) (unassigned s)) (set m (Rec None None false) (db s))).
  { destruct He as [-> | ->]; cbn [step]; unfold save_broadcast_request, resubmit; cbn [db with_sets]; rewrite N3; reflexivity. }
  rewrite Es. apply (kinv_simple_request past s _ e m); auto; cbn [unassigned db with_db with_sets].
  - destruct He as [-> | ->]; reflexivity.
  - intros u ->. destruct He; discriminate.
  - intros u H. apply (N4 _ H). reflexivity.
  - intros H. destruct (N4 _ H). reflexivity.
  - repeat split.
  - intros x. split; [auto|]. intros [H|[_ H]]; [exact H|]. destruct He; congruence.
  - rewrite get_set_same. eexists. split; reflexivity.
  - intros x N. apply get_set_other, N.
Qed.

Lemma update_spec s m f : same_reg s (update_record s m f) /\ timers (update_record s m f) = timers s /\ pending (update_record s m f) = pending s /\ all_completed (update_record s m f) = all_completed s /\
  unassigned (update_record s m f) = unassigned s /\ queues (update_record s m f) = queues s /\ completed (update_record s m f) = completed s /\ tasks (update_record s m f) = tasks s /\
  (forall x, x <> m -> get x (db (update_record s m f)) = get x (db s)) /\ get m (db (update_record s m f)) = option_map f (get m (db s)).
Proof.
  unfold update_record. destruct (get m (db s)) as [r|] eqn:E; (split; [repeat split|]); repeat (split; [reflexivity|]); cbn [db with_db].
  - split; [intros x N; apply get_set_other, N|apply get_set_same].
  - exact E.
Qed.

Lemma kinv_queue_result past s u m v : rinv s -> ginv s -> uniq past -> kinv past s -> In (QueueRequest u m) past -> kinv (past ++ [QueueResult u m v]) (save_queue_result s u m v).
Proof.
  intros J I U K Hr. unfold save_queue_result. destruct (get u (by_ident s)) as [eid|] eqn:Eu; [|apply kinv_noop; [exact K|discriminate..]].
  apply (ident_spec s u eid J) in Eu. assert (Eu' : In (eid, u) (engines s ++ timers s)) by (apply in_app_iff; auto).
  destruct (mem m (pending s)) eqn:Ep.
  - apply mem_In in Ep. destruct (k_queue _ _ K _ _ Eu') as (q & Q1 & Q2 & Q3). destruct (k_tables _ _ K _ _ Eu) as (c & C1). cbn [queues completed with_sets]. rewrite Q1, C1.
    rewrite (proj2 (mem_In m q)) by (apply Q3; auto). set (s1 := with_tables _ _ _ _).
    destruct (update_spec s1 m (fun r => Rec (r_engine r) (Some (Value v)) true)) as (S & S1 & S2 & S3 & S4 & S5 & S6 & S7 & S8 & S9). set (s' := update_record _ _ _) in *. clearbody s'.
    unfold s1 in *. cbn [timers pending all_completed unassigned queues completed tasks db with_tables with_sets] in *.
    destruct (k_db _ _ K m Ep) as (r & D1 & D2). rewrite D1 in S9. simpl in S9.
    eapply kinv_result with (m := m) (v := v); try eassumption; try reflexivity.
    + left. eauto.
    + intros x. rewrite S2. apply In_discard.
    + intros x. rewrite S3. apply In_add.
    + intros x. rewrite S4. split; [|tauto]. intros Hx. split; [|exact Hx]. intros ->. apply (k_un _ _ K) in Hx as [_ Hx]. apply (u_mux_task _ U _ _ Hr Hx).
    + eexists. split; [exact S9|]. split; reflexivity.
    + intros i w Hw. rewrite S5. destruct (Nat.eq_dec i eid) as [->|N].
      * assert (w = u) as -> by (eapply both_fun; eassumption). rewrite put_same. exists (remove1 m q). split; [reflexivity|]. split; [apply NoDup_remove1, Q2|].
        intros x. rewrite In_remove1 by exact Q2. rewrite Q3, S2, In_discard. tauto.
      * rewrite put_other by exact N. destruct (k_queue _ _ K _ _ Hw) as (p & P1 & P2 & P3). exists p. split; [exact P1|]. split; [exact P2|]. intros x. rewrite P3, S2, In_discard.
        split; [|tauto]. intros [H1 H2]. split; [|exact H2]. split; [|exact H1]. intros ->. apply N. assert (w = u) as -> by (eapply (u_mux _ U); eassumption). eapply both_inj; eassumption.
    + intros i. rewrite S6. destruct (Nat.eq_dec i eid) as [->|N]; [right; exists c; split; [exact C1|apply put_same]|left; apply put_other, N].
    + intros i j N. rewrite S6. destruct (Nat.eq_dec i eid) as [->|N']; [right; apply put_other; congruence|left; apply put_other, N'].
    + intros i. rewrite S7. auto.
  - apply mem_false in Ep. destruct (mem m (all_completed s)); [|apply kinv_noop; [exact K|discriminate..]].
    destruct (update_spec s m (fun r => Rec (r_engine r) (Some (Value v)) true)) as (S & S1 & S2 & S3 & S4 & S5 & S6 & S7 & S8 & S9).
    eapply kinv_late with (m := m) (v := v); try eassumption; try reflexivity.
    + left. eauto.
    + intros x. rewrite S4. reflexivity.
    + rewrite S9. destruct (get m (db s)) as [r|]; [right; eexists; split; [discriminate|]; split; [reflexivity|]; split; reflexivity|left; reflexivity].
Qed.

(** Results of tasks and broadcasts: [s1] is the state before the record is updated *)
Lemma kinv_other_result past s s1 e m u a v f : kinv past s -> e = TaskResult m u a v \/ e = BroadcastResult m u a v -> (forall w, ~ In (QueueRequest w m) past) -> In m (pending s) ->
  same_reg s s1 -> timers s1 = timers s -> queues s1 = queues s -> db s1 = db s -> pending s1 = discard m (pending s) -> all_completed s1 = add m (all_completed s) ->
  (forall x, In x (unassigned s1) <-> x <> m /\ In x (unassigned s)) ->
  (forall i, completed s1 i = completed s i \/ exists c, completed s i = Some c /\ completed s1 i = Some (c ++ [m])) ->
  (forall i j, i <> j -> completed s1 i = completed s i \/ completed s1 j = completed s j) ->
  (forall i, tasks s1 i = tasks s i \/ exists t, tasks s i = Some t /\ tasks s1 i = Some (remove1 m t)) ->
  (forall r, r_completed (f r) = true /\ r_result (f r) = Some (Value v)) ->
  kinv (past ++ [e]) (update_record s1 m f).
Proof.
  intros K He Nq Hm T T1 T2 T3 T4 T5 T6 T7 T8 T9 Hf. destruct (update_spec s1 m f) as (S & S1 & S2 & S3 & S4 & S5 & S6 & S7 & S8 & S9). set (s' := update_record _ _ _) in *. clearbody s'.
  destruct (k_db _ _ K m Hm) as (r & D1 & D2). rewrite T3 in *. rewrite D1 in S9. simpl in S9.
  eapply kinv_result with (m := m) (v := v); try eassumption.
  - destruct He as [-> | ->]; reflexivity.
  - destruct He as [-> | ->]; reflexivity.
  - right. exists u, a. exact He.
  - eapply same_trans; eassumption.
  - congruence.
  - intros x. rewrite S2, T4. apply In_discard.
  - intros x. rewrite S3, T5. apply In_add.
  - intros x. rewrite S4. apply T6.
  - exists (f r). split; [exact S9|apply Hf].
  - intros i w Hw. rewrite S5, T2. destruct (k_queue _ _ K _ _ Hw) as (p & P1 & P2 & P3). exists p. split; [exact P1|]. split; [exact P2|]. intros x. rewrite P3, S2, T4, In_discard.
    split; [|tauto]. intros [H1 H2]. split; [|exact H2]. split; [|exact H1]. intros ->. apply (Nq _ H2).
  - intros i. rewrite S6. apply T7.
  - intros i j. rewrite S6. apply T8.
  - intros i. rewrite S7. apply T9.
Qed.
Lemma kinv_task_result past s m u a v : uniq past -> kinv past s -> In (TaskRequest m) past -> kinv (past ++ [TaskResult m u a v]) (save_task_result s m u a v).
Proof.
  intros U K Hr. assert (Nq : forall w, ~ In (QueueRequest w m) past) by (intros w H; apply (u_mux_task _ U _ _ H Hr)). unfold save_task_result. cbn [pending with_sets].
  destruct (mem m (pending s)) eqn:Ep.
  - apply mem_In in Ep. cbn [all_completed unassigned with_sets by_ident completed tasks]. set (s1 := match get u (by_ident s) with None => _ | Some _ => _ end).
    assert (E : same_reg s s1 /\ timers s1 = timers s /\ queues s1 = queues s /\ db s1 = db s /\ pending s1 = discard m (pending s) /\ all_completed s1 = add m (all_completed s) /\ unassigned s1 = discard m (unassigned s) /\
      exists eid, (completed s1 = completed s /\ tasks s1 = tasks s \/ exists c t, completed s eid = Some c /\ tasks s eid = Some t /\ completed s1 = put (completed s) eid (Some (if a then c else c ++ [m])) /\ tasks s1 = put (tasks s) eid (Some (remove1 m t)))).
    { unfold s1. destruct (get u (by_ident s)) as [eid|]; [destruct (completed s eid) as [c|] eqn:Ec; [destruct (tasks s eid) as [t|] eqn:Et|]|]; (split; [repeat split|]); repeat (split; [reflexivity|]);
        try (exists 0; left; split; reflexivity). exists eid. right. exists c, t. auto. }
    clearbody s1. destruct E as (E0 & E1 & E2 & E3 & E4 & E5 & E6 & eid & E7).
    eapply kinv_other_result with (u := u) (a := a) (v := v); try eassumption; auto.
    + intros x. rewrite E6. apply In_discard.
    + intros i. destruct E7 as [[-> _]|(c & t & Ec & Et & -> & _)]; [auto|]. destruct (Nat.eq_dec i eid) as [->|N]; [rewrite put_same; destruct a; [left; auto|right; eauto]|left; apply put_other, N].
    + intros i j N. destruct E7 as [[-> _]|(c & t & Ec & Et & -> & _)]; [auto|]. destruct (Nat.eq_dec i eid) as [->|N']; [right; apply put_other; congruence|left; apply put_other, N'].
    + intros i. destruct E7 as [[_ ->]|(c & t & Ec & Et & _ & ->)]; [auto|]. destruct (Nat.eq_dec i eid) as [->|N]; [rewrite put_same; right; eauto|left; apply put_other, N].
  - apply mem_false in Ep. apply (kinv_late past s _ _ m v); auto.
    + right. eauto.
    + repeat split.
    + intros x. cbn [unassigned with_sets]. rewrite In_discard. split; [tauto|]. intros Hx. split; [|exact Hx]. intros ->. apply (k_un _ _ K) in Hx. tauto.
Qed.
Lemma kinv_broadcast_result past s m u a v : uniq past -> kinv past s -> In (BroadcastRequest m) past -> kinv (past ++ [BroadcastResult m u a v]) (save_broadcast_result s m u a v).
Proof.
  intros U K Hr. assert (Nq : forall w, ~ In (QueueRequest w m) past) by (intros w H; apply (u_mux_bc _ U _ _ H Hr)). unfold save_broadcast_result.
  destruct (mem m (pending s)) eqn:Ep; [|apply kinv_noop; [exact K|discriminate..]].
  apply mem_In in Ep. cbn [all_completed unassigned with_sets by_ident completed tasks]. set (s1 := match get u (by_ident s) with None => _ | Some _ => _ end).
  assert (E : same_reg s s1 /\ timers s1 = timers s /\ queues s1 = queues s /\ db s1 = db s /\ pending s1 = discard m (pending s) /\ all_completed s1 = add m (all_completed s) /\ unassigned s1 = unassigned s /\ tasks s1 = tasks s /\
    exists eid, (completed s1 = completed s \/ exists c, completed s eid = Some c /\ completed s1 = put (completed s) eid (Some (if a then c else c ++ [m])))).
  { unfold s1. destruct (get u (by_ident s)) as [eid|]; [destruct (completed s eid) as [c|] eqn:Ec|]; (split; [repeat split|]); repeat (split; [reflexivity|]);
      try (exists 0; left; reflexivity). exists eid. right. exists c. auto. }
  clearbody s1. destruct E as (E0 & E1 & E2 & E3 & E4 & E5 & E6 & E6' & eid & E7).
  eapply kinv_other_result with (u := u) (a := a) (v := v); try eassumption; auto.
  - intros x. rewrite E6. split; [|tauto]. intros Hx. split; [|exact Hx]. intros ->. apply (k_un _ _ K) in Hx as [_ Hx]. apply (u_task_bc _ U _ Hx Hr).
  - intros i. destruct E7 as [->|(c & Ec & ->)]; [auto|]. destruct (Nat.eq_dec i eid) as [->|N]; [rewrite put_same; destruct a; [left; auto|right; eauto]|left; apply put_other, N].
  - intros i j N. destruct E7 as [->|(c & Ec & ->)]; [auto|]. destruct (Nat.eq_dec i eid) as [->|N']; [right; apply put_other; congruence|left; apply put_other, N'].
  - intros i. rewrite E6'. auto.
Qed.

Lemma kinv_destination past s m u : rinv s -> ginv s -> kinv past s -> plausible past (notices s) (TaskDestination m u) -> kinv (past ++ [TaskDestination m u]) (save_task_destination s m u).
Proof.
  intros J I K [H1 H2]. unfold save_task_destination. destruct (get u (by_ident s)) as [eid|] eqn:Eu.
  2: { apply kinv_noop; [exact K|discriminate|discriminate|]. intros m' u' [= <- <-]. split; [exact H1|]. intros i Hi. apply (ident_spec s u i J) in Hi. congruence. }
  apply (ident_spec s u eid J) in Eu. destruct (k_tasks _ _ K _ _ Eu) as (t & T1 & T2 & T3). cbn [tasks with_sets]. rewrite T1. set (s1 := with_tables _ _ _ _).
  destruct (update_spec s1 m (fun r => Rec (Some u) (r_result r) (r_completed r))) as (S & S1 & S2 & S3 & S4 & S5 & S6 & S7 & S8 & S9). set (s' := update_record _ _ _) in *. clearbody s'.
  unfold s1 in *. cbn [timers pending all_completed unassigned queues completed tasks db with_tables with_sets] in *. destruct S as (_ & R2 & _ & _ & _ & _ & R7). cbn [engines notices with_tables with_sets] in R2, R7.
  assert (Db : forall x r, get x (db s') = Some r -> exists r0, get x (db s) = Some r0 /\ r_completed r = r_completed r0 /\ r_result r = r_result r0).
  { intros x r H. destruct (Nat.eq_dec x m) as [->|N]; [|rewrite S8 in H by exact N; eauto]. rewrite S9 in H. destruct (get m (db s)) as [r0|]; [|discriminate]. injection H as <-. eauto. }
  constructor; rewrite ?R2, ?R7, ?S1, ?S2, ?S3, ?S4, ?S5, ?S6, ?S7.
  - intros x H. destruct (k_known _ _ K x H) as (y & Hy & Ey). exists y. split; [apply In_snoc; auto|exact Ey].
  - apply (k_disj _ _ K).
  - intros x H. apply (k_done _ _ K) in H as [H|(w & H)]; [left; unfold has_result; rewrite flat_map_app; apply in_or_app; auto|right; exists w; apply In_snoc; auto].
  - intros i w H. destruct (k_queue _ _ K i w H) as (q & Q1 & Q2 & Q3). exists q. split; [exact Q1|]. split; [exact Q2|]. intros x. rewrite Q3, In_snoc. split; [tauto|].
    intros [X1 [X2|X2]]; [auto|discriminate].
  - intros w x X1 X2. apply In_snoc in X1 as [X1|X1]; [|discriminate]. eapply (k_mux _ _ K); eassumption.
  - apply (k_compl _ _ K).
  - apply (k_compl2 _ _ K).
  - apply (k_tables _ _ K).
  - intros i w H. destruct (Nat.eq_dec i eid) as [->|N].
    + assert (w = u) as -> by (eapply engines_fun; eassumption). rewrite put_same. exists (t ++ [m]). split; [reflexivity|]. split; intros x Hx; apply In_snoc in Hx as [Hx|Hx].
      * apply In_snoc. left. apply T2, Hx.
      * subst x. apply In_snoc. auto.
      * destruct (T3 x Hx); [left; apply In_snoc; auto|auto].
      * injection Hx as ->. left. apply In_snoc. auto.
    + rewrite put_other by exact N. destruct (k_tasks _ _ K i w H) as (t' & X1 & X2 & X3). exists t'. split; [exact X1|]. split; [intros x Hx; apply In_snoc; auto|].
      intros x Hx. apply In_snoc in Hx as [Hx|Hx]; [auto|]. injection Hx as -> ->. destruct N. eapply both_inj; [exact I|apply in_app_iff; left; eassumption|apply in_app_iff; left; eassumption].
  - intros x w H. apply In_snoc in H as [H|H]; [eapply (k_dest _ _ K); eassumption|]. injection H as -> ->. exact H1.
  - intros x H. apply In_discard in H as [_ H]. apply (k_un _ _ K) in H as [X1 X2]. split; [exact X1|apply In_snoc; auto].
  - intros x X1 X2 X3. apply In_discard. split; [intros ->; apply (X3 u); apply In_snoc; auto|]. apply In_snoc in X1 as [X1|X1]; [|discriminate]. apply (k_un2 _ _ K); auto. intros w Hx. apply (X3 w). apply In_snoc; auto.
  - intros x H. apply (k_db _ _ K) in H as (r & D1 & D2). destruct (Nat.eq_dec x m) as [->|N]; [|rewrite S8 by exact N; eauto]. rewrite S9, D1. simpl. eexists. split; [reflexivity|exact D2].
  - intros x r H. apply Db in H as (r0 & H & _). apply (k_db2 _ _ K _ _ H).
  - intros x r X1 X2. apply Db in X2 as (r0 & X2 & -> & ->). destruct (k_db3 _ _ K x r0 X1 X2) as [R1 R3]. split; [exact R1|]. destruct (r_result r0) as [[w|]|]; [apply result_more, R3| |exact R3].
    destruct R3 as (w & R3 & R4). exists w. split; [apply In_snoc; auto|exact R4].
Qed.

Lemma kinv_step past s e : rinv s -> ginv s -> uniq past -> kinv past s -> plausible past (notices s) e -> kinv (past ++ [e]) (step s e).
Proof.
  intros J I U K P. destruct e; try (cbn [step]).
  - apply kinv_register, K.
  - apply kinv_heart; assumption.
  - unfold handle_stopped_heart. destruct (get u (hearts s)) as [eid|]; [|apply kinv_noop; [exact K|discriminate..]].
    destruct (is_some _); [apply kinv_unregister; auto; discriminate|apply kinv_noop; [exact K|discriminate..]].
  - apply kinv_unregister; auto; discriminate.
  - unfold purge_stalled. destruct (is_some _); [|apply kinv_noop; [exact K|discriminate..]].
    apply (kinv_quiet past s); auto; try discriminate; try apply incl_refl; reflexivity.
  - apply kinv_death; assumption.
  - destruct P.
  - apply kinv_queue_request; assumption.
  - apply kinv_queue_result; assumption.
  - apply kinv_task_request; assumption.
  - apply kinv_destination; assumption.
  - apply kinv_task_result; assumption.
  - apply (kinv_other_request past s (BroadcastRequest m) m); auto.
  - apply kinv_broadcast_result; assumption.
  - apply (kinv_other_request past s (Resubmit m) m); auto.
  - apply kinv_purge, K.
Qed.
Lemma kinv_exec es : plausible_history es -> kinv es (exec es).
Proof.
  induction es as [|e es IH] using rev_ind; intros H.
  - constructor; simpl; try tauto; try discriminate; intros; try contradiction; try discriminate.
  - apply plausible_snoc in H as [H He]. rewrite exec_snoc. apply kinv_step; [apply rinv_of, H|apply ginv_exec, H|apply uniq_history, H|apply IH, H|exact He].
Qed.
