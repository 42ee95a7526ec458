(** Termination of the scheduler's handlers: the recursion between failing a task and updating
    its dependents always bottoms out, and once there is enough fuel more fuel changes nothing. *)
From stdpp Require Import base gmap sets list fin_maps fin_map_dom.
From Verif Require Import Dependency_Model Sched_Trace Sched_Model.
From Coq Require Import ZArith Lia.

(** * More fuel refines less fuel *)
Definition refines {A} (m m' : M A) : Prop := forall s, m s = OutOfFuel \/ m' s = m s.

Lemma refines_refl {A} (m : M A) : refines m m.
Proof. intros s; auto. Qed.
Lemma refines_seq {A B} (m m' : M A) (k k' : A -> M B) :
  refines m m' -> (forall a, refines (k a) (k' a)) -> refines (seq_ m k) (seq_ m' k').
Proof.
  intros Hm Hk s. unfold seq_. destruct (Hm s) as [E | E].
  - rewrite E. auto.
  - rewrite E. destruct (m s) as [s' a | s' |]; [apply Hk | auto | auto].
Qed.
Lemma refines_fuel0 {A} (m : M A) : refines (fun _ => OutOfFuel) m.
Proof. intros s; auto. Qed.

Section Scheduler.
Context (hwm : nat) (scheme : nat -> list Z -> nat).
Local Notation maybe_run := (maybe_run hwm scheme).
Local Notation ug_body := (ug_body hwm scheme).
Local Notation queue_loop := (queue_loop hwm scheme).
Local Notation list_loop := (list_loop hwm scheme).
Local Notation update_graph := (update_graph hwm scheme).

Lemma refines_fail ug ug' m w :
  (forall d, refines (ug d) (ug' d)) -> refines (fail_unreachable ug m w) (fail_unreachable ug' m w).
Proof.
  intros H. unfold fail_unreachable. apply refines_seq; [apply refines_refl | intros qm].
  destruct (qm !! m); [| apply refines_refl].
  repeat (apply refines_seq; [apply refines_refl | intros ?]). apply H.
Qed.

Ltac rf := repeat first
  [ assumption
  | match goal with |- refines ?m ?m => apply refines_refl end
  | apply refines_fail; assumption
  | apply refines_seq; [ | intros ?]
  | match goal with |- refines (match ?x with _ => _ end) _ => destruct x end ].

Lemma refines_check_targets ug ug' j :
  (forall d, refines (ug d) (ug' d)) -> refines (check_targets ug j) (check_targets ug' j).
Proof. intros H. unfold check_targets. rf. Qed.

Lemma refines_maybe_run ug ug' j :
  (forall d, refines (ug d) (ug' d)) -> refines (maybe_run ug j) (maybe_run ug' j).
Proof. intros H. pose proof (refines_check_targets ug ug' j H). unfold Sched_Model.maybe_run. rf; assumption. Qed.

Lemma refines_ug_body ug ug' j :
  (forall d, refines (ug d) (ug' d)) -> refines (ug_body ug j) (ug_body ug' j).
Proof.
  intros H. pose proof (refines_maybe_run ug ug' j H). unfold Sched_Model.ug_body. rf; try assumption.
Qed.

Lemma refines_list_loop ug ug' js :
  (forall d, refines (ug d) (ug' d)) -> refines (list_loop ug js) (list_loop ug' js).
Proof.
  intros H. induction js as [| j r IH]; cbn [Sched_Model.list_loop]; [apply refines_refl |].
  pose proof (refines_ug_body ug ug' j H). rf; assumption.
Qed.

Lemma refines_queue_loop ug ug' :
  (forall d, refines (ug d) (ug' d)) ->
  forall f f' tr, f <= f' -> refines (queue_loop ug f tr) (queue_loop ug' f' tr).
Proof.
  intros H f. induction f as [| f IH]; intros f' tr Hle; cbn [Sched_Model.queue_loop].
  - apply refines_fuel0.
  - destruct f' as [| f']; [lia |]. cbn [Sched_Model.queue_loop].
    apply refines_seq; [apply refines_refl | intros [| j q']]; [apply refines_refl |].
    apply refines_seq; [apply refines_refl | intros []].
    apply refines_seq; [apply refines_refl | intros jb].
    destruct (j_removed jb); [apply IH; lia |].
    apply refines_seq; [apply refines_ug_body, H | intros r].
    destruct (snd r); [apply refines_refl | apply IH; lia].
Qed.

Lemma refines_update_graph f : forall f' d, f <= f' -> refines (update_graph f d) (update_graph f' d).
Proof.
  induction f as [| f IH]; intros f' d Hle; [apply refines_fuel0 |].
  destruct f' as [| f']; [lia |]. cbn [Sched_Model.update_graph].
  assert (H : forall d, refines (update_graph f d) (update_graph f' d)) by (intros; apply IH; lia).
  apply refines_seq; [apply refines_refl | intros g].
  apply refines_seq; [apply refines_refl | intros []].
  apply refines_seq; [apply refines_refl | intros lds].
  destruct (decide _).
  - apply refines_seq; [apply refines_queue_loop; [exact H | lia] | intros; apply refines_refl].
  - apply refines_seq; [apply refines_refl | intros qm].
    destruct (mapM _ _); [apply refines_list_loop, H | apply refines_refl].
Qed.

(** * The measure: waiting jobs plus jobs that have not been removed *)
Definition alive (s : sched) : nat :=
  size (filter (fun p : nat * job => j_removed (p.2) = false) (s_jobs s)).
Definition mu (s : sched) : nat := alive s + size (s_qmap s).

(** From [s], [m] ends, and increases neither the measure nor the length of the queue *)
Definition good {A} (m : M A) (s : sched) : Prop :=
  match m s with
  | Ret s' _ | Exc s' => mu s' <= mu s /\ length (s_queue s') <= length (s_queue s)
  | OutOfFuel => False
  end.
(** [m] keeps the fields the measure looks at *)
Definition keeps {A} (m : M A) : Prop := forall s,
  match m s with
  | Ret s' _ | Exc s' => s_jobs s' = s_jobs s /\ s_qmap s' = s_qmap s /\ s_queue s' = s_queue s
  | OutOfFuel => False
  end.

Lemma keeps_good {A} (m : M A) s : keeps m -> good m s.
Proof.
  intros H. specialize (H s). unfold good. destruct (m s); try contradiction;
  destruct H as (E1 & E2 & E3); unfold mu, alive; rewrite E1, E2, E3; lia.
Qed.
Lemma keeps_seq {A B} (m : M A) (k : A -> M B) : keeps m -> (forall a, keeps (k a)) -> keeps (seq_ m k).
Proof.
  intros Hm Hk s. unfold seq_. specialize (Hm s). destruct (m s) as [s' a | s' |]; auto.
  destruct Hm as (E1 & E2 & E3). rewrite <- E1, <- E2, <- E3. apply Hk.
Qed.
Lemma good_seq {A B} (m : M A) (k : A -> M B) s :
  good m s ->
  (forall s' a, m s = Ret s' a -> mu s' <= mu s -> length (s_queue s') <= length (s_queue s) -> good (k a) s') ->
  good (seq_ m k) s.
Proof.
  intros Hm Hk. unfold good, seq_ in *. destruct (m s) as [s' a | s' |]; auto.
  specialize (Hk s' a eq_refl (proj1 Hm) (proj2 Hm)). destruct (k a s'); auto; lia.
Qed.
Lemma keeps_ret {A} (a : A) : keeps (ret a).
Proof. intros s. unfold ret. auto. Qed.
Lemma keeps_raise {A} : keeps (@raise A).
Proof. intros s. unfold raise. auto. Qed.
Lemma keeps_get {A} (f : sched -> A) : keeps (get f).
Proof. intros s. unfold get. auto. Qed.
Lemma keeps_of_option {A} (o : option A) : keeps (of_option o).
Proof. destruct o; [apply keeps_ret | apply keeps_raise]. Qed.
Lemma keeps_get_job j : keeps (get_job j).
Proof. intros s. unfold get_job. destruct (s_jobs s !! j); auto. Qed.
Lemma keeps_for_each {A} (l : list A) b : (forall x, keeps (b x)) -> keeps (for_each l b).
Proof.
  intros H. induction l; cbn [for_each]; [apply keeps_ret |]. apply keeps_seq; auto.
Qed.
Lemma keeps_graph_remove jb : keeps (graph_remove jb).
Proof.
  unfold graph_remove. apply keeps_for_each. intros mid. apply keeps_seq; [apply keeps_get | intros g].
  destruct (g !! mid); [| apply keeps_ret]. destruct (decide _); [| apply keeps_raise].
  intros s. unfold upd. auto.
Qed.
Lemma keeps_submit_task j ix : keeps (submit_task scheme j ix).
Proof.
  unfold submit_task, add_job, emit.
  repeat first
    [ apply keeps_get_job | apply keeps_get | apply keeps_of_option | apply keeps_ret
    | apply keeps_seq; [ | intros ?]
    | match goal with |- keeps (match ?x with _ => _ end) => destruct x end
    | (intros ?s; unfold upd; repeat split; reflexivity) ].
Qed.

Lemma alive_set_removed s j jb :
  s_jobs s !! j = Some jb ->
  alive (set_jobs (alter set_removed j) s) + (if j_removed jb then 0 else 1) <= alive s.
Proof.
  intros Hj. unfold alive. cbn [s_jobs set_jobs].
  set (F := filter _).
  assert (E : F (alter set_removed j (s_jobs s)) = delete j (F (s_jobs s))).
  { apply map_eq. intros i. unfold F. destruct (decide (i = j)) as [-> | Hne].
    - rewrite lookup_delete. apply map_filter_lookup_None. right. intros x Hx.
      rewrite lookup_alter, Hj in Hx. cbn in Hx. injection Hx as <-. cbn. discriminate.
    - rewrite lookup_delete_ne by congruence. rewrite !map_filter_lookup.
      rewrite lookup_alter_ne by congruence. reflexivity. }
  rewrite E. destruct (j_removed jb) eqn:Er.
  - rewrite map_size_delete. destruct (F (s_jobs s) !! j); cbn; lia.
  - assert (Hf : F (s_jobs s) !! j = Some jb).
    { unfold F. apply map_filter_lookup_Some. auto. }
    rewrite map_size_delete, Hf. cbn.
    enough (size (F (s_jobs s)) <> 0) by lia. rewrite map_size_non_empty_iff.
    intros E0. rewrite E0, lookup_empty in Hf. discriminate.
Qed.

(** ** What fail_unreachable hands over to update_graph *)
Definition fu_pre (m j : nat) (s : sched) : sched :=
  set_jobs (alter set_removed j) (set_qmap (delete m) s).

Lemma fail_cases ug m w s :
  (s_qmap s !! m = None /\ fail_unreachable ug m w s = Ret s tt) \/
  (exists j s1, s_qmap s !! m = Some j /\
     s_jobs s1 = s_jobs (fu_pre m j s) /\ s_qmap s1 = s_qmap (fu_pre m j s) /\ s_queue s1 = s_queue s /\
     ((exists jb, s_jobs s !! j = Some jb /\ fail_unreachable ug m w s = ug (Some m) s1) \/
      fail_unreachable ug m w s = Exc s1)).
Proof.
  unfold fail_unreachable, seq_, get. destruct (s_qmap s !! m) as [j |] eqn:Hq; [right | left; auto].
  unfold upd, upd_job. fold (fu_pre m j s).
  assert (Hg : get_job j (fu_pre m j s) =
     match s_jobs s !! j with Some jb => Ret (fu_pre m j s) (set_removed jb) | None => Exc (fu_pre m j s) end).
  { unfold get_job, fu_pre. cbn [s_jobs set_jobs set_qmap]. rewrite lookup_alter.
    destruct (s_jobs s !! j); reflexivity. }
  exists j. unfold upd. change (set_jobs (alter set_removed j) (set_qmap (delete m) s)) with (fu_pre m j s).
  rewrite Hg. destruct (s_jobs s !! j) as [jb |] eqn:Hj.
  - pose proof (keeps_graph_remove (set_removed jb) (fu_pre m j s)) as Hk.
    destruct (graph_remove (set_removed jb) (fu_pre m j s)) as [s' [] | s' |]; [| | contradiction].
    + eexists. split; [reflexivity |]. destruct Hk as (E1 & E2 & E3).
      split; [| split; [| split; [| left; exists jb; split; [reflexivity |]; unfold emit, upd; reflexivity]]].
      * exact E1. * exact E2. * exact E3.
    + exists s'. destruct Hk as (E1 & E2 & E3). auto 6.
  - exists (fu_pre m j s). auto 6.
Qed.

(** After a failure through [qmap] the measure strictly decreases if the entry pre-existed. *)
Lemma mu_fu_pre m j s s1 :
  s_qmap s !! m = Some j -> s_jobs s1 = s_jobs (fu_pre m j s) -> s_qmap s1 = s_qmap (fu_pre m j s) ->
  mu s1 < mu s.
Proof.
  intros Hq E1 E2. unfold mu, alive. rewrite E1, E2. unfold fu_pre. cbn [s_jobs s_qmap set_jobs set_qmap].
  assert (Hs : size (delete m (s_qmap s)) < size (s_qmap s)).
  { rewrite map_size_delete, Hq. cbn. enough (size (s_qmap s) <> 0) by lia.
    rewrite map_size_non_empty_iff. intros E0. rewrite E0, lookup_empty in Hq. discriminate. }
  destruct (s_jobs s !! j) as [jb |] eqn:Hj.
  - pose proof (alive_set_removed s j jb Hj) as H. unfold alive in H. cbn [s_jobs set_jobs] in H. lia.
  - assert (alter set_removed j (s_jobs s) = s_jobs s) as ->; [| lia].
    apply map_eq. intros i. destruct (decide (i = j)) as [-> | Hne].
    + rewrite lookup_alter, Hj. reflexivity.
    + apply lookup_alter_ne. congruence.
Qed.

(** Insert the job in [qmap], then fail it: as good as failing it from where it was, and strict
    if the job was not removed. *)
Lemma mu_insert_fu_pre m j jb s s1 :
  s_jobs s !! j = Some jb ->
  s_jobs s1 = s_jobs (fu_pre m j (set_qmap (<[m := j]>) s)) ->
  s_qmap s1 = s_qmap (fu_pre m j (set_qmap (<[m := j]>) s)) ->
  mu s1 + (if j_removed jb then 0 else 1) <= mu s.
Proof.
  intros Hj E1 E2. unfold mu. unfold alive at 1. rewrite E1, E2. unfold fu_pre.
  cbn [s_jobs s_qmap set_jobs set_qmap]. rewrite delete_insert_delete.
  pose proof (alive_set_removed s j jb Hj) as H. unfold alive at 1 in H. cbn [s_jobs set_jobs] in H.
  assert (size (delete m (s_qmap s)) <= size (s_qmap s)).
  { rewrite map_size_delete. destruct (s_qmap s !! m); cbn; lia. }
  lia.
Qed.

Lemma insert_fail_cases ug m j jb w s :
  s_jobs s !! j = Some jb ->
  exists s1, mu s1 + (if j_removed jb then 0 else 1) <= mu s /\ s_queue s1 = s_queue s /\
    ((upd (set_qmap (<[m := j]>)) ;; fail_unreachable ug m w) s = ug (Some m) s1 \/
     (upd (set_qmap (<[m := j]>)) ;; fail_unreachable ug m w) s = Exc s1).
Proof.
  intros Hj. unfold seq_, upd.
  destruct (fail_cases ug m w (set_qmap (<[m := j]>) s)) as [[Hn _] | (j' & s1 & Hq & E1 & E2 & E3 & C)].
  - cbn [s_qmap set_qmap] in Hn. rewrite lookup_insert in Hn. discriminate.
  - cbn [s_qmap set_qmap] in Hq. rewrite lookup_insert in Hq. injection Hq as <-.
    exists s1. split; [apply (mu_insert_fu_pre m j jb s s1 Hj E1 E2) |]. split; [exact E3 |].
    destruct C as [(? & _ & C) | C]; auto.
Qed.


Section Bound.
Context (ug : option nat -> M unit) (B : nat).
Hypothesis HU : forall d s, mu s + length (s_queue s) < B -> good (ug d) s.
Definition fits (s : sched) : Prop := mu s + length (s_queue s) <= B.

Lemma good_fail m w s : fits s -> good (fail_unreachable ug m w) s.
Proof.
  unfold fits. intros Hf. unfold good.
  destruct (fail_cases ug m w s) as [[_ ->] | (j & s1 & Hq & E1 & E2 & E3 & [(jb & _ & ->) | ->])].
  - lia.
  - pose proof (mu_fu_pre m j s s1 Hq E1 E2). pose proof (HU (Some m) s1) as H'. unfold good in H'.
    rewrite E3 in H'. specialize (H' ltac:(lia)). destruct (ug (Some m) s1); auto; lia.
  - pose proof (mu_fu_pre m j s s1 Hq E1 E2). rewrite E3. lia.
Qed.

Lemma good_insert_fail m j jb w s :
  fits s -> s_jobs s !! j = Some jb -> j_removed jb = false ->
  good (upd (set_qmap (<[m := j]>)) ;; (fail_unreachable ug m w ;; ret false)) s.
Proof.
  unfold fits. intros Hf Hj Hr.
  destruct (insert_fail_cases ug m j jb w s Hj) as (s1 & Hm & Hq & C). rewrite Hr in Hm.
  assert (E : (upd (set_qmap (<[m := j]>)) ;; (fail_unreachable ug m w ;; ret false)) s =
              ((upd (set_qmap (<[m := j]>)) ;; fail_unreachable ug m w) ;; ret false) s) by reflexivity.
  unfold good. rewrite E. clear E. unfold seq_ at 1.
  destruct C as [-> | ->].
  - pose proof (HU (Some m) s1) as H'. unfold good in H'. rewrite Hq in H'.
    specialize (H' ltac:(lia)). destruct (ug (Some m) s1); unfold ret; auto; lia.
  - rewrite Hq. lia.
Qed.

Lemma mu_set_jobs_removed f j s :
  (forall jb, j_removed (f jb) = j_removed jb) -> mu (set_jobs (alter f j) s) = mu s.
Proof.
  intros Hf. unfold mu, alive. cbn [s_jobs s_qmap set_jobs]. f_equal.
  rewrite <- !size_dom. f_equal. apply set_eq. intros i. rewrite !elem_of_dom.
  split; intros [x Hx]; apply map_filter_lookup_Some in Hx; destruct Hx as [H1 H2]; cbn in H2.
  - destruct (decide (i = j)) as [-> | Hne].
    + rewrite lookup_alter in H1. destruct (s_jobs s !! j) as [y |] eqn:E; [| discriminate].
      cbn in H1. injection H1 as <-. exists y. apply map_filter_lookup_Some. split; [exact E |].
      cbn. rewrite <- H2. symmetry. apply Hf.
    + rewrite lookup_alter_ne in H1 by congruence. exists x. apply map_filter_lookup_Some. auto.
  - destruct (decide (i = j)) as [-> | Hne].
    + exists (f x). apply map_filter_lookup_Some. rewrite lookup_alter, H1. cbn. split; [reflexivity |].
      rewrite Hf. exact H2.
    + exists x. apply map_filter_lookup_Some. rewrite lookup_alter_ne by congruence. auto.
Qed.

Lemma good_check_targets j jb s :
  fits s -> s_jobs s !! j = Some jb -> j_removed jb = false -> good (check_targets ug j) s.
Proof.
  intros Hf Hj Hr. unfold check_targets.
  assert (Eg : get_job j s = Ret s jb) by (unfold get_job; rewrite Hj; reflexivity).
  unfold good, seq_ at 1. rewrite Eg.
  destruct (decide (j_targets jb = ∅)); [unfold ret; lia |].
  set (F := fun x : job => set_jtargets (j_targets x ∖ j_blacklist x) x).
  set (s1 := set_jobs (alter F j) s).
  assert (Hm : mu s1 = mu s) by (apply mu_set_jobs_removed; intros []; reflexivity).
  assert (Hj1 : s_jobs s1 !! j = Some (F jb)).
  { unfold s1. cbn [s_jobs set_jobs]. rewrite lookup_alter, Hj. reflexivity. }
  assert (Hr1 : j_removed (F jb) = false) by (destruct jb; exact Hr).
  unfold seq_ at 1, upd_job, upd. fold s1. unfold seq_ at 1.
  assert (Eg1 : get_job j s1 = Ret s1 (F jb)) by (unfold get_job; rewrite Hj1; reflexivity).
  rewrite Eg1. unfold seq_ at 1, get at 1.
  destruct (decide _).
  - assert (Hf1 : fits s1) by (unfold fits in *; rewrite Hm; exact Hf).
    pose proof (good_insert_fail (j_msg (F jb)) j (F jb) ImpossibleDep s1 Hf1 Hj1 Hr1) as H.
    unfold good, upd in H. rewrite Hm in H. exact H.
  - unfold ret. rewrite Hm. cbn [s_queue set_jobs s1]. lia.
Qed.

Lemma good_maybe_run j jb s :
  fits s -> s_jobs s !! j = Some jb -> j_removed jb = false -> good (maybe_run ug j) s.
Proof.
  intros Hf Hj Hr. unfold Sched_Model.maybe_run.
  assert (Eg : get_job j s = Ret s jb) by (unfold get_job; rewrite Hj; reflexivity).
  unfold good, seq_ at 1. rewrite Eg. unfold seq_ at 1, get at 1.
  destruct (decide (available_engines hwm s = [])); [unfold ret; lia |].
  destruct (decide _).
  - unfold seq_ at 1, get at 1. destruct (filter_can_run hwm s jb (available_engines hwm s)) as [indices |].
    2: { unfold seq_, of_option, raise. lia. }
    unfold seq_ at 1, of_option at 1, ret at 1.
    destruct (decide (indices = [])).
    + destruct (d_all (j_follow jb)).
      * unfold seq_ at 1, get at 1. destruct (follow_dests s jb) as [dests |].
        2: { unfold seq_, of_option, raise. lia. }
        unfold seq_ at 1, of_option at 1, ret at 1.
        destruct (decide (1 < size dests)).
        -- apply (good_insert_fail (j_msg jb) j jb ImpossibleDep s Hf Hj Hr).
        -- apply (good_check_targets j jb s Hf Hj Hr).
      * apply (good_check_targets j jb s Hf Hj Hr).
    + apply (keeps_good (submit_task scheme j (Some indices) ;; ret true) s).
      apply keeps_seq; [apply keeps_submit_task | intros; apply keeps_ret].
  - apply (keeps_good (submit_task scheme j None ;; ret true) s).
    apply keeps_seq; [apply keeps_submit_task | intros; apply keeps_ret].
Qed.

Lemma good_ug_body j jb s :
  fits s -> s_jobs s !! j = Some jb -> j_removed jb = false -> good (ug_body ug j) s.
Proof.
  intros Hf Hj Hr. unfold Sched_Model.ug_body.
  assert (Eg : get_job j s = Ret s jb) by (unfold get_job; rewrite Hj; reflexivity).
  unfold good, seq_ at 1. rewrite Eg. unfold seq_ at 1, get at 1. unfold seq_ at 1, get at 1.
  destruct (unreachable _ _ _ || unreachable _ _ _).
  - apply (good_seq (fail_unreachable ug (j_msg jb) ImpossibleDep)); [apply good_fail, Hf |].
    intros; apply keeps_good, keeps_ret.
  - destruct (check _ _ _); [| unfold ret; lia].
    match goal with |- match ?m s with _ => _ end => apply (good_seq (maybe_run ug j) (fun ran => if ran then _ else _) s) end;
      [apply (good_maybe_run j jb s Hf Hj Hr) |].
    intros s' ran _ Hm Hq. destruct ran; [| apply keeps_good, keeps_ret].
    unfold good, seq_ at 1, get at 1. destruct (decide _) as [Hin |]; [| unfold raise; lia].
    match goal with |- match ?m s' with _ => _ end =>
      apply (good_seq (upd (set_qmap (delete (j_msg jb)))) (fun _ => _) s') end.
    + unfold good, upd, mu, alive. cbn [s_jobs s_qmap s_queue set_qmap]. split; [| lia].
      rewrite map_size_delete. destruct (s_qmap s' !! j_msg jb); cbn; lia.
    + intros s2 _ _ _ _. apply keeps_good. apply keeps_seq; [apply keeps_get_job | intros].
      apply keeps_seq; [apply keeps_graph_remove | intros].
      apply keeps_seq; [apply keeps_get | intros; apply keeps_ret].
Qed.

Lemma good_list_loop js : forall s, fits s -> good (list_loop ug js) s.
Proof.
  induction js as [| j r IH]; intros s Hf; cbn [Sched_Model.list_loop]; [apply keeps_good, keeps_ret |].
  unfold good, seq_ at 1, get_job. destruct (s_jobs s !! j) as [jb |] eqn:Hj; [| lia].
  destruct (j_removed jb) eqn:Hr; [apply IH, Hf |].
  apply (good_seq (ug_body ug j) (fun b => if snd b then ret tt else list_loop ug r) s);
    [apply (good_ug_body j jb s Hf Hj Hr) |].
  intros s' b _ Hm Hq. destruct (snd b); [apply keeps_good, keeps_ret |]. apply IH.
  unfold fits in *. lia.
Qed.

(** The loop over the live queue: what is put back and what is left fit in the old queue. *)
Lemma good_queue_loop f : forall s tr,
  fits s -> length (s_queue s) < f ->
  match queue_loop ug f tr s with
  | Ret s' back => mu s' <= mu s /\ length back + length (s_queue s') <= length tr + length (s_queue s)
  | Exc s' => mu s' <= mu s /\ length (s_queue s') <= length (s_queue s)
  | OutOfFuel => False
  end.
Proof.
  induction f as [| f IH]; intros s tr Hf Hlen; [lia |]. cbn [Sched_Model.queue_loop].
  unfold seq_ at 1, get at 1. destruct (s_queue s) as [| j q'] eqn:Eq.
  - unfold ret. rewrite Eq. cbn. lia.
  - cbn [length] in Hlen. unfold seq_ at 1, upd at 1. set (s1 := set_queue (fun _ => q') s).
    assert (Hm1 : mu s1 = mu s) by reflexivity.
    assert (Hq1 : s_queue s1 = q') by reflexivity.
    assert (Hf1 : fits s1).
    { unfold fits in *. rewrite Hm1, Hq1. rewrite Eq in Hf. cbn [length] in Hf. lia. }
    unfold seq_ at 1, get_job. destruct (s_jobs s1 !! j) as [jb |] eqn:Hj.
    2: { rewrite Hm1, Hq1. cbn [length]. lia. }
    destruct (j_removed jb) eqn:Hr.
    { specialize (IH s1 tr Hf1). rewrite Hq1 in IH. specialize (IH ltac:(lia)).
      destruct (queue_loop ug f tr s1); cbn [length]; lia. }
    pose proof (good_ug_body j jb s1 Hf1 Hj Hr) as Hb. unfold good in Hb. unfold seq_ at 1.
    destruct (ug_body ug j s1) as [s2 r | s2 |]; [| rewrite Hq1 in Hb; cbn [length]; lia | exact Hb].
    rewrite Hq1, Hm1 in Hb.
    set (tr2 := if fst r then tr ++ [j] else tr).
    assert (Ht : length tr2 <= length tr + 1).
    { unfold tr2. destruct (fst r); [rewrite app_length; cbn; lia | lia]. }
    destruct (snd r).
    + unfold ret. cbn [length]. lia.
    + assert (Hf2 : fits s2) by (unfold fits in *; rewrite Hm1, Hq1 in Hf1; lia).
      specialize (IH s2 tr2 Hf2 ltac:(lia)).
      destruct (queue_loop ug f tr2 s2); cbn [length]; lia.
Qed.
End Bound.

(** * update_graph ends *)
Theorem good_update_graph f : forall d s, mu s + length (s_queue s) < f -> good (update_graph f d) s.
Proof.
  induction f as [| f IH]; intros d s Hlt; [lia |]. cbn [Sched_Model.update_graph].
  unfold good, seq_ at 1, get at 1. unfold seq_ at 1, upd at 1.
  set (s1 := set_graph _ s).
  assert (Hm1 : mu s1 = mu s) by reflexivity.
  assert (Hq1 : s_queue s1 = s_queue s) by reflexivity.
  assert (Hf1 : fits f s1) by (unfold fits; rewrite Hm1, Hq1; lia).
  unfold seq_ at 1, get at 1. destruct (decide _).
  - unfold seq_ at 1. pose proof (good_queue_loop (update_graph f) f IH (S f) s1 [] Hf1) as H.
    rewrite Hq1 in H. specialize (H ltac:(lia)).
    destruct (queue_loop (update_graph f) (S f) [] s1) as [s2 back | s2 |]; [| lia | exact H].
    unfold upd. cbn [s_queue set_queue]. rewrite app_length, reverse_length. cbn [length] in H.
    change (mu (set_queue (fun q => reverse back ++ q) s2)) with (mu s2). lia.
  - unfold seq_ at 1, get at 1. destruct (mapM _ _) as [js |].
    + pose proof (good_list_loop (update_graph f) f IH (sort_jobs js) s1 Hf1) as H.
      unfold good in H. rewrite Hm1, Hq1 in H. exact H.
    + unfold raise. rewrite Hm1, Hq1. lia.
Qed.

(** * Every handler converges *)
Definition conv {A} (m : nat -> M A) : Prop :=
  (forall f f', f <= f' -> refines (m f) (m f')) /\ (forall s, exists f, m f s <> OutOfFuel).

Lemma conv_const {A} (m : M A) : (forall s, m s <> OutOfFuel) -> conv (fun _ => m).
Proof. intros H. split; [intros; apply refines_refl | intros s; exists 0; apply H]. Qed.
Lemma conv_keeps {A} (m : M A) : keeps m -> conv (fun _ => m).
Proof. intros H. apply conv_const. intros s E. specialize (H s). rewrite E in H. exact H. Qed.

Lemma conv_stable {A} (m : nat -> M A) f f' s : conv m -> f <= f' -> m f s <> OutOfFuel -> m f' s = m f s.
Proof. intros [H _] Hle Hne. destruct (H f f' Hle s); [contradiction | assumption]. Qed.

Lemma conv_seq {A B} (m : nat -> M A) (k : A -> nat -> M B) :
  conv m -> (forall a, conv (k a)) -> conv (fun f => seq_ (m f) (fun a => k a f)).
Proof.
  intros Hm Hk. split.
  - intros f f' Hle. apply refines_seq; [apply Hm, Hle | intros a; apply Hk, Hle].
  - intros s. destruct (proj2 Hm s) as [f Hf]. destruct (m f s) as [s' a | s' |] eqn:E; [| | contradiction].
    + destruct (proj2 (Hk a) s') as [f' Hf']. exists (max f f').
      unfold seq_. rewrite (conv_stable m f _ s Hm) by first [lia | (rewrite E; congruence)]. rewrite E.
      rewrite (conv_stable (k a) f' _ s' (Hk a)) by (lia || assumption). exact Hf'.
    + exists f. unfold seq_. rewrite E. congruence.
Qed.

Lemma conv_swallow (m : nat -> M unit) : conv m -> conv (fun f => swallow (m f)).
Proof.
  intros Hm. split.
  - intros f f' Hle s. unfold swallow. destruct (proj1 Hm f f' Hle s) as [-> | ->]; auto.
  - intros s. destruct (proj2 Hm s) as [f Hf]. exists f. unfold swallow. destruct (m f s); congruence.
Qed.

Lemma conv_for_each {A} (l : list A) (b : A -> nat -> M unit) :
  (forall x, conv (b x)) -> conv (fun f => for_each l (fun x => b x f)).
Proof.
  intros H. induction l as [| x r IH]; cbn [for_each]; [apply conv_keeps, keeps_ret |].
  apply (conv_seq (b x) (fun _ f => for_each r (fun x => b x f))); auto.
Qed.

Lemma conv_update_graph d : conv (fun f => update_graph f d).
Proof.
  split.
  - intros. apply refines_update_graph. assumption.
  - intros s. exists (S (mu s + length (s_queue s))). intros E.
    pose proof (good_update_graph (S (mu s + length (s_queue s))) d s ltac:(lia)) as H.
    unfold good in H. rewrite E in H. exact H.
Qed.

Lemma conv_upd g : conv (fun _ => upd g).
Proof. apply conv_const. intros s. unfold upd. congruence. Qed.

Ltac cv := repeat first
  [ apply conv_update_graph
  | assumption
  | apply conv_upd
  | (apply conv_keeps; first [apply keeps_get | apply keeps_ret | apply keeps_of_option | apply keeps_get_job
        | apply keeps_raise | apply keeps_graph_remove | apply keeps_submit_task])
  | match goal with
    | |- conv (fun f => seq_ (@?m f) (fun a => @?k a f)) => apply (conv_seq m k); [ | intros ?]
    end
  | match goal with
    | |- conv (fun f => match ?x with _ => _ end) => destruct x
    end ].

Lemma conv_fail m w : conv (fun f => fail_unreachable (update_graph f) m w).
Proof.
  unfold fail_unreachable, emit, upd_job. cv.
Qed.

Lemma keeps_finish_job i : keeps (finish_job i).
Proof. intros s. unfold finish_job, upd. auto. Qed.

Lemma conv_check_targets j : conv (fun f => check_targets (update_graph f) j).
Proof. unfold check_targets, upd_job. pose proof conv_fail. cv; apply conv_fail. Qed.

Lemma conv_maybe_run j : conv (fun f => maybe_run (update_graph f) j).
Proof.
  unfold Sched_Model.maybe_run. cv; try apply conv_fail; apply conv_check_targets.
Qed.

Lemma conv_save_unmet j : conv (fun _ => save_unmet j).
Proof.
  unfold save_unmet, upd_job. cv.
  apply (conv_for_each _ (fun d _ => upd (set_graph (fun g => <[d := {[j_msg a]} ∪ default ∅ (g !! d)]> g)))).
  intros; apply conv_upd.
Qed.

Lemma conv_handle_unmet e m : conv (fun f => handle_unmet_dependency hwm scheme f e m).
Proof.
  unfold handle_unmet_dependency, upd_job. cv; first [apply conv_fail | apply conv_maybe_run | apply conv_save_unmet].
Qed.

Lemma conv_handle_result e m b : conv (fun f => handle_result hwm scheme f e m b).
Proof. unfold handle_result, emit. cv. Qed.

Lemma conv_dispatch_result e m k : conv (fun f => dispatch_result hwm scheme f e m k).
Proof.
  unfold dispatch_result, emit, finish_job. cv; first [apply conv_handle_unmet | apply conv_handle_result].
Qed.

Lemma conv_stranded e : conv (fun f => handle_stranded_tasks hwm scheme f e).
Proof.
  unfold handle_stranded_tasks. cv.
  apply (conv_for_each _ (fun m f => do pd <- get s_pending;
    do l <- of_option (pd !! e);
    match al_lookup m l with
    | None => ret tt
    | Some _ => swallow (dispatch_result hwm scheme f e m RErr)
    end)).
  intros m. cv. apply conv_swallow, conv_dispatch_result.
Qed.

Lemma conv_submission m md : conv (fun f => dispatch_submission hwm scheme f m md).
Proof.
  unfold dispatch_submission, emit.
  cv; first [apply conv_fail | apply conv_maybe_run | apply conv_save_unmet].
Qed.

Lemma conv_handle ev : conv (fun f => handle hwm scheme f ev).
Proof.
  destruct ev; unfold handle.
  - apply conv_submission.
  - apply conv_dispatch_result.
  - unfold register_engine, emit. cv.
  - unfold unregister_engine, emit. cv.
  - cv. apply conv_stranded.
  - unfold job_timeout. cv; apply conv_fail.
Qed.

Lemma step_ends s ev : exists s' n, forall fuel, n <= fuel -> step hwm scheme fuel s ev = Some s'.
Proof.
  pose proof (conv_swallow _ (conv_handle ev)) as H. destruct (proj2 H s) as [n Hn].
  destruct (swallow (handle hwm scheme n ev) s) as [s' a | s' |] eqn:E; [| | contradiction].
  - exists s', n. intros fuel Hle. unfold step.
    rewrite (conv_stable _ n fuel s H) by first [lia | (rewrite E; congruence)]. rewrite E. reflexivity.
  - exists s', n. intros fuel Hle. unfold step.
    rewrite (conv_stable _ n fuel s H) by first [lia | (rewrite E; congruence)]. rewrite E. reflexivity.
Qed.

Lemma run_ends evs : forall s, exists s' n, forall fuel, n <= fuel -> run hwm scheme fuel s evs = Some s'.
Proof.
  induction evs as [| ev r IH]; intros s; cbn [run].
  - exists s, 0. reflexivity.
  - destruct (step_ends s ev) as (s1 & n1 & H1). destruct (IH s1) as (s2 & n2 & H2).
    exists s2, (max n1 n2). intros fuel Hle. rewrite H1 by lia. apply H2. lia.
Qed.

Lemma step_stable f f' s ev s' : f <= f' -> step hwm scheme f s ev = Some s' -> step hwm scheme f' s ev = Some s'.
Proof.
  intros Hle E. pose proof (conv_swallow _ (conv_handle ev)) as H. unfold step in *.
  rewrite (conv_stable _ f f' s H); [exact E | exact Hle |]. intros E0. rewrite E0 in E. discriminate.
Qed.
Lemma run_stable f f' evs : forall s s', f <= f' -> run hwm scheme f s evs = Some s' -> run hwm scheme f' s evs = Some s'.
Proof.
  induction evs as [| ev r IH]; intros s s' Hle; cbn [run]; [auto |].
  destruct (step hwm scheme f s ev) as [s1 |] eqn:E; [| discriminate].
  rewrite (step_stable f f' s ev s1 Hle E). apply IH, Hle.
Qed.
End Scheduler.
