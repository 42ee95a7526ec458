(** C25, C26: broadcasts through the tree of schedulers. *)
From Coq Require Import List Arith Bool Lia Permutation.
From Verif Require Import Broadcast_Spec Broadcast_Model Broadcast_Proofs Broadcast_Coalesce.
Import ListNotations.

Lemma NoDup_app_intro {A} (l l' : list A) : NoDup l -> NoDup l' -> (forall x, In x l -> ~ In x l') -> NoDup (l ++ l').
Proof.
  induction l as [|x l IH]; simpl; intros H H' Hd; [exact H'|]. inversion H; subst. constructor.
  - rewrite in_app_iff. intros [Hi|Hi]; [contradiction|]. apply (Hd x); auto.
  - apply IH; auto.
Qed.
Lemma due_nodup id_of bs : workload id_of bs -> NoDup (due bs).
Proof.
  intros [Hn Hf]. induction bs as [|b bs IH]; simpl; [constructor|]. inversion Hn as [|? ? H1 H2]; subst. inversion Hf as [|? ? [H3 _] H4]; subst.
  apply NoDup_app_intro; [|auto|].
  - rewrite <- (map_map fst (fun u => (u, msg b))). clear - H3. induction H3; simpl; constructor; auto. intros Hi. apply in_map_iff in Hi as (y & E & Hy). congruence.
  - intros x Hx Hx'. apply in_map_iff in Hx as (t & <- & _). apply in_flat_map in Hx' as (b' & Hb' & Hx'). apply in_map_iff in Hx' as (t' & E & _).
    injection E as _ E. apply H1. rewrite <- E. apply in_map. exact Hb'.
Qed.

(** C25.  For all depths, all sets of concurrent broadcasts and all orders in which messages arrive: no engine ever gets a
    broadcast twice or one that is not for it; and when no message is in flight any more, every target got it. *)
Theorem C25_exactly_once : forall D threads id_of run bs sched s, workload id_of bs ->
  exec D threads id_of run (start bs) sched = Some s ->
  NoDup (executed s) /\ incl (executed s) (due bs) /\ (net s = [] -> Permutation (executed s) (due bs)).
Proof.
  intros D threads id_of run bs sched s Hw E. pose proof (inv_run _ _ _ _ _ (inv_exec _ _ _ _ _ _ _ _ (inv_start _ _ _ _ Hw) E)) as P.
  pose proof (Permutation_NoDup (Permutation_sym P) (due_nodup _ _ Hw)) as Hn. repeat split.
  - clear - Hn. induction (executed s) as [|x l IH]; [constructor|]. simpl in Hn. inversion Hn; subst. constructor; auto. intros Hi. apply H1. apply in_or_app. auto.
  - intros x Hx. apply (Permutation_in _ P). apply in_or_app. auto.
  - intros E0. rewrite E0 in P. simpl in P. rewrite app_nil_r in P. exact P.
Qed.
(** Something can always be delivered until then, and this comes to an end: at most this many messages are sent. *)
Theorem C25_ends : forall D threads id_of run bs sched s, workload id_of bs ->
  exec D threads id_of run (start bs) sched = Some s ->
  length sched <= list_sum (map (fun b => 2 ^ (D + 1) - 1 + length (targets b) * (D + 4)) bs) /\
  (net s <> [] -> exists s', step D threads id_of run s 0 = Some s').
Proof.
  intros D threads id_of run bs sched s Hw E. split.
  - pose proof (exec_weight _ _ _ _ _ _ _ _ (inv_start _ _ _ _ Hw) E) as L. etransitivity; [eapply Nat.le_trans; [apply Nat.le_add_r|exact L]|].
    apply Nat.eq_le_incl. unfold start. cbn [net]. clear. induction bs as [|b bs IH]; [reflexivity|]. cbn [map total weight list_sum fold_right length]. rewrite IH, Nat.sub_0_r. reflexivity.
  - intros Hn. unfold step. destruct (net s) as [|p l]; [contradiction|]. simpl. destruct (deliver _ _ _ _ _ p) as [s' out]. eauto.
Qed.
(** Broadcasts that are not coalesced: the client never gets anything but the true answer of a target, at most once; and in the end has one from each. *)
Definition answers (run : nat -> nat -> list nat * bool) (bs : list broadcast) : list (nat * nat * list nat * bool) :=
  flat_map (fun b => map (fun t => (fst t, msg b, fst (run (fst t) (msg b)), snd (run (fst t) (msg b)))) (targets b)) (filter (fun b => negb (coalescing b)) bs).
Theorem C25_replies : forall D threads id_of run bs sched s, workload id_of bs ->
  exec D threads id_of run (start bs) sched = Some s ->
  NoDup (got1 s) /\ incl (got1 s) (answers run bs) /\ (net s = [] -> Permutation (got1 s) (answers run bs)).
Proof.
  intros D threads id_of run bs sched s Hw E. pose proof (inv_exec _ _ _ _ _ _ _ _ (inv_start _ _ _ _ Hw) E) as J.
  pose proof (inv_pass _ _ _ _ _ J) as P. pose proof (inv_true _ _ _ _ _ J) as T.
  set (nc := filter (fun b => negb (coalescing b)) bs) in *.
  assert (Hwn : workload id_of nc).
  { destruct Hw as [H1 H2]. split; [apply NoDup_map_filter; exact H1|]. apply Forall_forall. intros b Hb. apply filter_In in Hb as [Hb _]. rewrite Forall_forall in H2. auto. }
  pose proof (Permutation_NoDup (Permutation_sym P) (due_nodup _ _ Hwn)) as Hn.
  set (full := fun x : nat * nat => (fst x, snd x, fst (run (fst x) (snd x)), snd (run (fst x) (snd x)))).
  assert (E1 : got1 s = map full (map name1 (got1 s))).
  { rewrite map_map. clear - T. induction T as [|[[[u m] bufs] ok] l H T IH]; simpl; [reflexivity|]. rewrite <- IH. f_equal. unfold full. simpl in *. rewrite <- H. reflexivity. }
  assert (E2 : answers run bs = map full (due nc)).
  { unfold answers, due. fold nc. clear. induction nc as [|b l IH]; simpl; [reflexivity|]. rewrite map_app, map_map, IH. reflexivity. }
  rewrite E2. repeat split.
  - assert (Hk : NoDup (map name1 (got1 s))).
    { clear - Hn. induction (map name1 (got1 s)) as [|x l IH]; [constructor|]. simpl in Hn. inversion Hn; subst. constructor; auto. intros Hi. apply H1. apply in_or_app. auto. }
    eapply NoDup_map_inv. exact Hk.
  - intros x Hx. rewrite E1 in Hx. apply in_map_iff in Hx as (y & <- & Hy). apply in_map. apply (Permutation_in _ P). apply in_or_app. auto.
  - intros E0. rewrite E0 in P. simpl in P. rewrite app_nil_r in P. rewrite E1. apply Permutation_map. exact P.
Qed.

(** C26, for schedulers that run in processes of their own.  At any time: each broadcast got at most one coalesced reply; it
    was sent after every target had executed the broadcast, and has the buffers of every target, once, in the order of the tree. *)
Theorem C26_at_most_one_complete : forall D id_of run bs sched s, workload id_of bs ->
  exec D false id_of run (start bs) sched = Some s ->
  NoDup (map fst (got s)) /\
  forall m r, In (m, r) (got s) -> exists b, In b bs /\ msg b = m /\ coalescing b = true /\
    (forall t, In t (targets b) -> In (fst t, m) (executed s)) /\
    r_bufs r = flat_map (fun t => fst (run (fst t) m)) (tree_order D (targets b)).
Proof.
  intros D id_of run bs sched s Hw E. destruct (cexec D id_of run bs Hw sched _ _ _ (inv_start _ _ _ _ Hw) (cinv_start D id_of run bs Hw) E) as (h & I).
  destruct (c_got _ _ _ _ _ I) as (G1 & G2 & G3). split; [exact G1|]. intros m r Hg. rewrite Forall_forall in G3. pose proof (G3 _ Hg) as [Eb Ea]. simpl in *.
  assert (Hm : In (KUp [] m) h) by (apply G2; change m with (fst (m, r)); apply in_map; exact Hg).
  pose proof (caused _ _ _ _ _ I _ Hm) as (_ & Hd & _). apply (caused _ _ _ _ _ I) in Hd. simpl in Hd. destruct Hd as (b & Hb & <- & Hc).
  exists b. repeat split; auto.
  - intros t Ht. apply (up_executed D run bs h s I D [] (msg b)); [simpl; lia|exact Hm|]. rewrite route_root, (tsof_eq D id_of run bs Hw) by auto. apply in_map. exact Ht.
  - rewrite Eb. unfold tbufs. simpl. rewrite Nat.sub_0_r, route_root, (tsof_eq D id_of run bs Hw) by auto. reflexivity.
Qed.
(** ... the order of the tree is an order of all the targets ... *)
Theorem C26_every_target_once : forall D ts, Permutation (tree_order D ts) ts.
Proof. exact tree_order_perm. Qed.
(** ... and, once no message is in flight any more, every broadcast with targets has got its coalesced reply. *)
Theorem C26_arrives : forall D id_of run bs sched s b, workload id_of bs ->
  exec D false id_of run (start bs) sched = Some s -> net s = [] ->
  In b bs -> coalescing b = true -> targets b <> [] -> exists r, In (msg b, r) (got s).
Proof.
  intros D id_of run bs sched s b Hw E En Hb Hc Ht. destruct (cexec D id_of run bs Hw sched _ _ _ (inv_start _ _ _ _ Hw) (cinv_start D id_of run bs Hw) E) as (h & I).
  destruct (c_got _ _ _ _ _ I) as (G1 & G2 & G3). destruct (targets b) as [|t ts] eqn:Et; [contradiction|].
  assert (Hup : In (KUp [] (msg b)) h).
  { apply (quiet_up D run bs h s (msg b) I En) with (k := D) (u := fst t).
    - exists b. auto.
    - simpl. lia.
    - simpl. lia.
    - rewrite route_root, (tsof_eq D id_of run bs Hw), Et by auto. left. reflexivity. }
  apply G2 in Hup. apply in_map_iff in Hup as ([m r] & E1 & Hi). simpl in E1. subst. eauto.
Qed.
(** The reply names the targets in the order of its buffers, for the default depth 1. *)
Theorem C26_announced_order : forall id_of run bs sched s m r, workload id_of bs ->
  exec 1 false id_of run (start bs) sched = Some s -> In (m, r) (got s) ->
  exists l, r_targets r = Pairs l /\ r_bufs r = flat_map (fun t => fst (run (fst t) m)) l.
Proof.
  intros id_of run bs sched s m r Hw E Hg. destruct (cexec 1 id_of run bs Hw sched _ _ _ (inv_start _ _ _ _ Hw) (cinv_start 1 id_of run bs Hw) E) as (h & I).
  destruct (c_got _ _ _ _ _ I) as (G1 & G2 & G3). rewrite Forall_forall in G3. pose proof (G3 _ Hg) as [Eb Ea]. simpl in *. eexists. split; [exact Ea|].
  rewrite Eb, tbufs_inner by (simpl; lia). rewrite flat_map_app. reflexivity.
Qed.

Print Assumptions C25_exactly_once.
Print Assumptions C25_ends.
Print Assumptions C25_replies.
Print Assumptions C26_at_most_one_complete.
Print Assumptions C26_every_target_once.
Print Assumptions C26_arrives.
Print Assumptions C26_announced_order.

(** Two broadcasts over a tree of depth 1, and one over a tree of depth 2; engine [u] has id [u - 100] and answers with [u]. *)
Definition ex_id (u : nat) := u - 100.
Definition ex_run (u m : nat) := ([u], true).
Definition ex_bs := [Bc 1 true [(100, 0); (101, 1); (103, 3)]; Bc 2 false [(101, 1); (102, 2)]].
Example ex_workload : workload ex_id ex_bs.
Proof. split; repeat constructor; simpl; intuition lia. Qed.
Example C25_nonvacuous : exists s, exec 1 false ex_id ex_run (start ex_bs) ([1; 0; 2; 2; 3; 2; 1; 0] ++ repeat 0 15) = Some s /\ net s = [] /\
  executed s = [(101, 1); (100, 1); (103, 1); (101, 2); (102, 2)] /\ length (got1 s) = 2.
Proof. eexists. split; [vm_compute; reflexivity|]. repeat split. Qed.
Example C26_nonvacuous : exists s r, exec 1 false ex_id ex_run (start ex_bs) ([1; 0; 2; 2; 3; 2; 1; 0] ++ repeat 0 15) = Some s /\ net s = [] /\
  got s = [(1, r)] /\ r_bufs r = [100; 101; 103] /\ r_targets r = Pairs [(100, 0); (101, 1); (103, 3)].
Proof. do 2 eexists. split; [vm_compute; reflexivity|]. repeat split. Qed.

(** With a tree of depth 2 the announced order is not that of the buffers. *)
Definition first (n : nat) : list nat := repeat 0 n.
Theorem C26_depth2_order_refuted : exists sched s r l,
  let bs := [Bc 1 true [(100, 0); (101, 1); (104, 4); (105, 5)]] in
  workload ex_id bs /\ exec 2 false ex_id ex_run (start bs) sched = Some s /\ net s = [] /\ got s = [(1, r)] /\ r_targets r = Pairs l /\
  l = [(100, 0); (101, 1); (104, 4); (105, 5)] /\ r_bufs r = [100; 104; 101; 105].
Proof. exists (first 19). do 3 eexists. split; [split; repeat constructor; simpl; intuition lia|]. split; [vm_compute; reflexivity|]. repeat split. Qed.
(** Threads share the class-level tables: the reply can get lost for good. *)
Theorem C26_threads_refuted : exists sched s,
  let bs := [Bc 1 true [(100, 0); (101, 1)]] in
  workload ex_id bs /\ exec 1 true ex_id ex_run (start bs) sched = Some s /\ net s = [] /\ got s = [].
Proof. exists (first 8). eexists. split; [split; repeat constructor; simpl; intuition lia|]. split; [vm_compute; reflexivity|]. repeat split. Qed.
(** The status of a coalesced reply is that of the answer that came last: the error of an engine can be hidden. *)
Definition bad_run (u m : nat) := if Nat.eqb u 100 then ([], false) else ([u], true).
Theorem C26_status_refuted : exists sched s r,
  let bs := [Bc 1 true [(100, 0); (101, 1)]] in
  workload ex_id bs /\ exec 1 false ex_id bad_run (start bs) sched = Some s /\ net s = [] /\ got s = [(1, r)] /\ r_ok r = true /\ r_bufs r = [101].
Proof. exists (first 10). do 2 eexists. split; [split; repeat constructor; simpl; intuition lia|]. split; [vm_compute; reflexivity|]. repeat split. Qed.
(** A broadcast to nobody gets no reply. *)
Theorem C26_no_targets_refuted : exists sched s,
  let bs := [Bc 1 true []] in exec 1 false ex_id ex_run (start bs) sched = Some s /\ net s = [] /\ got s = [].
Proof. exists (first 3). eexists. split; [vm_compute; reflexivity|]. repeat split. Qed.
