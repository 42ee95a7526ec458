(** C76, C77: waiting for a part of the results, and their times. *)
From Coq Require Import String.
From Coq Require Import List Arith Bool ZArith Lia Permutation.
From Verif Require Import Async_Spec Async_Model Wait_Spec Wait_Model Wait_Proofs.
Import ListNotations.
Open Scope nat_scope.

(** C76.  wait(return_when=...) says of every result whether it is there when the call goes on, and goes on only when there is enough or the time is over. *)
Theorem C76_wait : forall (V : Type) (res : nat -> outcome V) arrives n single re rw t0 deadline te t1 i,
  end_of_wait (fun t => there res arrives n single re rw t = true) t0 deadline te -> te <= t1 ->
  let (finished, pending) := wait_parts arrives n t1 in
  (In i finished <-> i < n /\ exists a, arrives i = Some a /\ a <= t1) /\ (In i pending <-> i < n /\ ~ exists a, arrives i = Some a /\ a <= t1) /\
  NoDup (finished ++ pending) /\
  (enough rw n (fun i => In i finished) (fun i => forall v, res i <> Val v) \/ exists d, deadline = Some d /\ d <= t1).
Proof.
  intros V res arrives n single re rw t0 deadline te t1 i (H0 & H1 & _) Hle. unfold wait_parts. split; [|split; [|split]].
  - rewrite filter_In, in_children, arrived_spec. reflexivity.
  - rewrite filter_In, in_children, negb_true_iff, <- not_true_iff_false, arrived_spec. reflexivity.
  - apply (Permutation_NoDup (l := children n)); [|apply seq_NoDup]. clear. induction (children n) as [|x l IH]; [constructor|]. cbn [filter].
    destruct (arrived arrives t1 x); cbn [negb app]; [constructor; exact IH|]. apply Permutation_cons_app, IH.
  - destruct H1 as [H1|[->|(d & -> & Hd & ->)]]; [left|right; eauto|right; exists d; split; [reflexivity|lia]].
    apply (there_later _ _ _ _ _ rw te t1 Hle), there_enough in H1.
    assert (M : forall i, i < n -> is_there arrives t1 i -> In i (filter (arrived arrives t1) (children n))) by (intros j Hj Hi; rewrite filter_In, in_children, arrived_spec; auto).
    destruct rw; cbn [enough] in *; [auto| |].
    + destruct H1 as (j & Hj & H). eauto.
    + destruct H1 as [H|(j & Hj & H & F)]; [left; auto|right; exists j; auto].
Qed.

Definition exception_of {V} (o : outcome V) : exc := match o with Val _ => TimeoutError | Remote en a => RemoteError en a | Other k => OtherError k end.

(** C76.  get(return_when=FIRST_EXCEPTION), called at [t0] and going on at [t1]: with all results there it is get(); else it is the very exception of one of the failed tasks that are there
    (raised, or returned if exceptions are to be returned); and TimeoutError only if the time is over and no task that is there has failed.  It goes on by the time ([D] later) any task has failed. *)
Theorem C76_first_exception : forall (V : Type) (res : nat -> outcome V) arrives n single re arg order t0 deadline te t1,
  (forall l, Permutation (order l) l) -> end_of_wait (fun t => there res arrives n single re FirstException t = true) t0 deadline te -> te <= t1 ->
  let a := get_first_exception res arrives n single re arg order t0 t1 in
  let here i := exists x, arrives i = Some x /\ x <= t1 in let failed i := forall v, res i <> Val v in
  ((forall i, i < n -> here i) -> a = get single re arg (Some (map res (seq 0 n)))) /\
  (~ (forall i, i < n -> here i) ->
     (exists i, i < n /\ here i /\ failed i /\ a = if match arg with Some b => b | None => re end then Ret (One (res i)) else Raise (exception_of (res i))) \/
     (a = Raise TimeoutError /\ (forall i, i < n -> here i -> ~ failed i) /\ exists d, deadline = Some d /\ d <= t1)) /\
  (forall D i x, t1 <= te + D -> i < n -> arrives i = Some x -> failed i -> t1 <= Nat.max t0 x + D).
Proof.
  intros V res arrives n single re arg order t0 deadline te t1 Hord (H0 & H1 & H2) Hle. cbn zeta.
  set (here := fun i => exists x, arrives i = Some x /\ x <= t1). set (failed := fun i => forall v, res i <> Val v).
  assert (Hready : ready arrives n t1 = true <-> forall i, i < n -> here i) by apply ready_spec.
  unfold get_first_exception. split; [|split].
  - intros Hall. rewrite (proj2 Hready Hall). destruct (ready arrives n t0); reflexivity.
  - intros Hnot. assert (R1 : ready arrives n t1 = false) by (apply not_true_iff_false; intros R; apply Hnot, Hready, R).
    destruct (ready arrives n t0) eqn:R0. { rewrite (ready_later arrives n t0 t1) in R1 by (lia || exact R0). discriminate. }
    rewrite R1. destruct (find _ _) as [i|] eqn:Ef.
    + left. apply find_some in Ef as [Hin Hs]. apply (Permutation_in _ (Hord _)) in Hin. cbn [fst wait_parts] in Hin. apply filter_In in Hin as [Hin Ha]. apply in_children in Hin. apply arrived_spec in Ha.
      assert (Hn : n <> 1). { intros ->. apply Hnot. intros j Hj. replace j with i by lia. exact Ha. }
      apply negb_true_iff in Hs. assert (Hf : failed i).
      { intros v E. assert (success res n single re i = true); [|congruence]. apply success_single; [exact Hn|]. intros F. exact (F v E). }
      exists i. split; [exact Hin|]. split; [exact Ha|]. split; [exact Hf|]. unfold get, _resolve_result, _reconstruct_result. destruct (res i) as [v|en x|k] eqn:E; [destruct (Hf v E)| |].
      * cbn [exception_of]. destruct arg as [[]|]; [reflexivity|reflexivity|destruct re; reflexivity].
      * cbn [exception_of]. destruct arg as [[]|]; [reflexivity|reflexivity|destruct re; reflexivity].
    + right. split; [reflexivity|]. assert (Hno : forall i, i < n -> here i -> ~ failed i).
      { intros i Hi Ha Hf. assert (Hn : n <> 1). { intros ->. apply Hnot. intros j Hj. replace j with i by lia. exact Ha. }
        assert (Hin : In i (order (fst (wait_parts arrives n t1)))). { apply (Permutation_in _ (Permutation_sym (Hord _))). cbn [fst wait_parts]. rewrite filter_In, in_children, arrived_spec. auto. }
        pose proof (find_none _ _ Ef i Hin) as Hs. cbn beta in Hs. apply negb_false_iff in Hs. apply success_single in Hs; [|exact Hn]. contradiction. }
      split; [exact Hno|]. destruct H1 as [H1|[->|(d & -> & Hd & ->)]]; [exfalso|eauto|exists d; split; [reflexivity|lia]].
      apply (there_later _ _ _ _ _ FirstException te t1 Hle), there_enough in H1. destruct H1 as [H|(j & Hj & H & F)]; [exact (Hnot H)|exact (Hno j Hj H F)].
  - intros D i x HD Hi Hx Hf. enough (te <= Nat.max t0 x) by lia. destruct (le_lt_dec te (Nat.max t0 x)) as [L|L]; [exact L|exfalso].
    destruct (H2 (Nat.max t0 x)) as [N _]; [lia|]. apply N, there_enough. right. exists i. split; [exact Hi|]. split; [exists x; split; [exact Hx|lia]|exact Hf].
Qed.

(** C76.  wait_interactive returns at [t1] only if all results are there, or enough of them, or the time is over; by then its bar shows the progress of that moment; and it returns soon:
    at most [D] after there is enough, and no later than an interval (and [D]) after the time is over.  ([D]: how late a waiting thread goes on.) *)
Theorem C76_interactive : forall (V : Type) (res : nat -> outcome V) arrives n single re progress_at rw interval timeout delay D t0 t1 bar,
  (forall x, delay x <= D) -> wait_interactive res arrives n single re progress_at rw interval timeout delay t0 t1 bar ->
  let there_at t i := exists x, arrives i = Some x /\ x <= t in let failed i := forall v, res i <> Val v in
  t0 <= t1 /\ bar = Z.of_nat (progress_at t1) /\
  ((forall i, i < n -> there_at t1 i) \/ enough rw n (there_at t1) failed \/ exists T, timeout = Some T /\ t0 + T < t1) /\
  (forall t, enough rw n (there_at t) failed -> t1 <= Nat.max t0 t + D) /\
  (forall T, timeout = Some T -> t1 <= t0 + T + interval + D).
Proof.
  intros V res arrives n single re progress_at rw interval timeout delay D t0 t1 bar HD HL. cbn zeta. unfold wait_interactive in HL. split; [|split; [|split; [|split]]].
  3: { destruct (ready arrives n t0) eqn:R.
       - inversion HL; subst. left. apply ready_spec, R.
       - destruct (loop_reason _ _ _ _ _ _ _ _ _ _ _ _ _ _ _ _ HL) as (_ & [H|(T & -> & H)] & _); [discriminate|right; left; apply there_enough in H; exact H|right; right; exists T; split; [reflexivity|lia]]. }
  3: { intros t Ht. apply (loop_soon _ _ _ _ _ _ _ _ _ _ _ _ _ _ _ _ _ t HD HL). apply there_enough, Ht. }
  3: { intros T ->. pose proof (loop_late _ _ _ _ _ _ _ _ _ _ _ _ _ _ _ _ _ HD HL (le_n t0)). lia. }
  - destruct (ready arrives n t0) eqn:R; [inversion HL; subst; lia|]. apply (loop_reason _ _ _ _ _ _ _ _ _ _ _ _ _ _ _ _ HL). discriminate.
  - destruct (ready arrives n t0) eqn:R; [inversion HL; subst; lia|]. apply (loop_reason _ _ _ _ _ _ _ _ _ _ _ _ _ _ _ _ HL). discriminate.
Qed.
(** ... and it does return, if ever there is enough or there is a timeout, for every positive interval. *)
Theorem C76_interactive_ends : forall (V : Type) (res : nat -> outcome V) arrives n single re progress_at rw interval timeout delay t0,
  1 <= interval -> (exists t, enough rw n (fun i => exists x, arrives i = Some x /\ x <= t) (fun i => forall v, res i <> Val v)) \/ (exists T, timeout = Some T) ->
  exists t1 bar, wait_interactive res arrives n single re progress_at rw interval timeout delay t0 t1 bar.
Proof.
  intros V res arrives n single re progress_at rw interval timeout delay t0 Hi H. destruct H as [(t & H)|(T & ->)].
  - apply (loop_ends _ _ _ _ _ _ rw interval timeout t0 delay t Hi) with (k := t); [left; apply there_enough, H|lia].
  - apply (loop_ends _ _ _ _ _ _ rw interval (Some T) t0 delay (S (t0 + T)) Hi) with (k := S (t0 + T)); [right; exists T; split; [reflexivity|lia]|lia].
Qed.

(** Non-vacuity: three tasks; the second fails at 5 while the first is done at 2 and the third never ends. *)
Definition demo_res (i : nat) : outcome nat := match i with 1 => Remote "ValueError" 7 | _ => Val (10 + i) end.
Definition demo_arrives (i : nat) : option nat := match i with 0 => Some 2 | 1 => Some 5 | _ => None end.
Example demo_wait : end_of_wait (fun t => there demo_res demo_arrives 3 false false FirstException t = true) 0 (Some 100) 5.
Proof. split; [lia|]. split; [left; vm_compute; reflexivity|]. intros t' Ht. split; [|intros d [= <-]; lia]. do 5 (destruct t' as [|t']; [vm_compute; discriminate|]). lia. Qed.
Example demo_get : get_first_exception demo_res demo_arrives 3 false false None (fun l => rev l) 0 6 = Raise (RemoteError "ValueError" 7).
Proof. vm_compute. reflexivity. Qed.
Example demo_parts : wait_parts demo_arrives 3 6 = ([0; 1], [2]).
Proof. vm_compute. reflexivity. Qed.
Example demo_interactive : exists t1 bar, wait_interactive demo_res demo_arrives 3 false false (fun t => (if 2 <=? t then 1 else 0) + (if 5 <=? t then 1 else 0)) FirstException 2 None (fun _ => 1) 0 t1 bar /\ t1 = 6 /\ bar = 2%Z.
Proof.
  do 2 eexists. split; [|split; reflexivity]. unfold wait_interactive. change (ready demo_arrives 3 0) with false.
  refine (Loop_round _ _ _ _ _ _ _ _ _ _ _ 0 _ 6 2%Z _ _); [discriminate|].
  refine (Loop_round _ _ _ _ _ _ _ _ _ _ _ 3 _ 6 2%Z _ _); [discriminate|].
  exact (Loop_end _ _ _ _ _ _ FirstException 2 None 0 (fun _ => 1) 6 true 2%Z (or_introl eq_refl)).
Qed.

(** REFUTED: with return_exceptions=True get(return_when=FIRST_EXCEPTION) gives a list of the results as get() does.
    Of several tasks, one failed and one pending, it returns one exception, alone. *)
Theorem C76_shape_refuted : exists (res : nat -> outcome nat) arrives order t0 te t1,
  (forall l, Permutation (order l) l) /\ end_of_wait (fun t => there res arrives 3 false true FirstException t = true) t0 None te /\ te <= t1 /\
  get_first_exception res arrives 3 false true None order t0 t1 = Ret (One (Remote "ValueError" 7)).
Proof.
  exists demo_res, demo_arrives, (fun l => l), 0, 5, 5. split; [reflexivity|]. split; [|split; [lia|vm_compute; reflexivity]].
  split; [lia|]. split; [left; vm_compute; reflexivity|]. intros t' Ht. split; [|intros d [=]]. do 5 (destruct t' as [|t']; [vm_compute; discriminate|]). lia.
Qed.

(** C77.  wall_time is the time from the first submission to the last result. *)
Theorem C77_wall : forall ts, ts <> [] -> exists w, wall_time ts = Some w /\
  (exists a b, In a ts /\ In b ts /\ w = Z.of_nat (received b) - Z.of_nat (submitted a))%Z /\
  (forall a b, In a ts -> In b ts -> Z.of_nat (received b) - Z.of_nat (submitted a) <= w)%Z.
Proof.
  intros ts Hne. unfold wall_time, timedelta. destruct (minimum (map submitted ts)) as [m|] eqn:Em; [|destruct ts; [congruence|discriminate]].
  destruct (maximum (map received ts)) as [x|] eqn:Ex; [|destruct ts; [congruence|discriminate]]. apply minimum_spec in Em as [Im Lm]. apply maximum_spec in Ex as [Ix Lx].
  eexists. split; [reflexivity|]. split.
  - apply in_map_iff in Im as (a & <- & Ha). apply in_map_iff in Ix as (b & <- & Hb). exists a, b. auto.
  - intros a b Ha Hb. specialize (Lm _ (in_map submitted _ _ Ha)). specialize (Lx _ (in_map received _ _ Hb)). lia.
Qed.
(** C77.  serial_time is the sum of the times the engines worked on the tasks; it raises exactly if there is a task whose engine never said when it began and ended. *)
Theorem C77_serial : forall ts,
  (forall ds, Forall2 (fun t d => exists s c, started t = Some s /\ completed t = Some c /\ d = (Z.of_nat c - Z.of_nat s)%Z) ts ds -> serial_time ts = Some (fold_right Z.add 0%Z ds)) /\
  (serial_time ts = None <-> exists t, In t ts /\ (started t = None \/ completed t = None)).
Proof.
  intros ts. split; [apply serial_sum|]. split; [|apply serial_none]. intros H.
  destruct (Exists_dec (fun t => started t = None \/ completed t = None) ts) as [E|E].
  - intros t. destruct (started t), (completed t); (left; left; reflexivity) || (left; right; reflexivity) || (right; intros [|]; discriminate).
  - apply Exists_exists in E. exact E.
  - exfalso. destruct (durations_known ts) as (ds & Hds).
    + intros t Ht. split; intros Hn; apply E, Exists_exists; exists t; auto.
    + rewrite (serial_sum ts ds Hds) in H. discriminate.
Qed.
(** C77.  If the clocks agree and every engine executes one task at a time, the speedup is at most the number of engines. *)
Theorem C77_speedup : forall ts E x w,
  (forall t, In t ts -> In (engine t) E) -> ForallOrdPairs (fun a b => engine a = engine b -> one_after_the_other a b) ts ->
  (forall t s c, In t ts -> started t = Some s -> completed t = Some c -> submitted t <= s /\ s <= c /\ c <= received t) ->
  serial_time ts = Some x -> wall_time ts = Some w -> (x <= Z.of_nat (length E) * w)%Z.
Proof.
  intros ts E x w HE HP Ht Hx Hw. destruct (list_eq_dec Nat.eq_dec (map engine ts) []) as [En|Hne]; [destruct ts; [discriminate Hw|discriminate En]|].
  assert (Hne' : ts <> []) by (intros ->; apply Hne; reflexivity). destruct (C77_wall ts Hne') as (w' & Ew & _ & Hmax). rewrite Hw in Ew. injection Ew as <-.
  unfold wall_time, timedelta in Hw. destruct (minimum (map submitted ts)) as [m|] eqn:Em; [|discriminate]. destruct (maximum (map received ts)) as [y|] eqn:Ey; [|discriminate]. injection Hw as <-.
  apply minimum_spec in Em as [Im Lm]. apply maximum_spec in Ey as [Iy Ly].
  assert (Hall : forall t, In t ts -> exists s c, started t = Some s /\ completed t = Some c /\ m <= s /\ s <= c /\ c <= y).
  { intros t Hin. destruct (started t) as [s|] eqn:E1; [|rewrite serial_none in Hx; [discriminate|eauto]]. destruct (completed t) as [c|] eqn:E2; [|rewrite serial_none in Hx; [discriminate|eauto]].
    destruct (Ht t s c Hin E1 E2) as (L1 & L2 & L3). specialize (Lm _ (in_map submitted _ _ Hin)). specialize (Ly _ (in_map received _ _ Hin)). exists s, c. repeat split; lia. }
  rewrite serial_spec in Hx. 2: { intros t Hin. destruct (Hall t Hin) as (s & c & E1 & E2 & _ & L & _). eauto. }
  injection Hx as <-. pose proof (sum_by_engine ts E HE) as S.
  assert (B : list_sum (map (fun e => list_sum (map span (filter (fun t => engine t =? e) ts))) E) <= length E * (y - m)).
  { clear S HE. induction E as [|e E IH]; [apply le_n|]. cbn [map length]. change (list_sum (?a :: ?l)) with (a + list_sum l).
    pose proof (packing_engine ts e m y HP (proj2 (Forall_forall _ _) Hall)). lia. }
  assert (Hmy : m <= y). { destruct ts as [|t ts]; [congruence|]. destruct (Hall t (or_introl eq_refl)) as (s & c & _ & _ & ?). lia. }
  replace (Z.of_nat y - Z.of_nat m)%Z with (Z.of_nat (y - m)) by lia. rewrite <- Nat2Z.inj_mul. apply Nat2Z.inj_le. lia.
Qed.
(** C77.  elapsed, before the results are there: the time since the first submission; afterwards wall_time; and it does not go back when they arrive. *)
Theorem C77_elapsed : forall ts now, ts <> [] -> (forall t, In t ts -> submitted t <= now) -> exists e, elapsed false now ts = Some e /\
  (exists t, In t ts /\ e = Z.of_nat now - Z.of_nat (submitted t))%Z /\ (forall t, In t ts -> Z.of_nat now - Z.of_nat (submitted t) <= e)%Z /\
  elapsed true now ts = wall_time ts /\ (forall w, wall_time ts = Some w -> (exists t, In t ts /\ now <= received t) -> (e <= w)%Z).
Proof.
  intros ts now Hne Hs. unfold elapsed. eexists. split; [reflexivity|]. destruct (earliest_spec ts now) as (H1 & H2 & H3). set (m := fold_left _ ts now) in *.
  assert (Ha : exists t, In t ts /\ submitted t = m).
  { destruct H1 as [H1|H1]; [|exact H1]. destruct ts as [|t ts]; [congruence|]. exists t. split; [left; reflexivity|]. specialize (Hs t (or_introl eq_refl)). specialize (H3 t (or_introl eq_refl)). lia. }
  split; [|split; [|split]].
  - destruct Ha as (t & Ht & E). exists t. split; [exact Ht|lia].
  - intros t Ht. specialize (H3 t Ht). lia.
  - reflexivity.
  - intros w Hw (t & Ht & L). destruct Ha as (a & Ha & E). destruct (C77_wall ts Hne) as (w' & Ew & _ & Hmax). rewrite Hw in Ew. injection Ew as <-. specialize (Hmax a t Ha Ht). lia.
Qed.

(** Non-vacuity: three tasks on two engines *)
Definition demo_times : list times := [Times 0 10 (Some 12) (Some 20) 22; Times 1 10 (Some 13) (Some 30) 31; Times 0 11 (Some 20) (Some 29) 33].
Example demo_stats : wall_time demo_times = Some 23%Z /\ serial_time demo_times = Some 34%Z /\ elapsed false 15 demo_times = Some 5%Z.
Proof. vm_compute. auto. Qed.
Example demo_speedup : (forall t, In t demo_times -> In (engine t) [0; 1]) /\ ForallOrdPairs (fun a b => engine a = engine b -> one_after_the_other a b) demo_times /\
  (forall t s c, In t demo_times -> started t = Some s -> completed t = Some c -> submitted t <= s /\ s <= c /\ c <= received t).
Proof.
  split; [intros t [<-|[<-|[<-|[]]]]; cbn; auto|]. split.
  - constructor; [|constructor; [|constructor; [constructor|constructor]]].
    + constructor; [discriminate|]. constructor; [|constructor]. intros _ sa ca sb cb [= <-] [= <-] [= <-] [= <-]. lia.
    + constructor; [discriminate|constructor].
  - intros t s c [<-|[<-|[<-|[]]]] [= <-] [= <-]; cbn; lia.
Qed.
(** REFUTED: serial_time of results that are all there is a number.  A task whose engine died (or that no engine could run) has no start. *)
Theorem C77_dead_engine_refuted : exists ts, ts <> [] /\ serial_time ts = None /\ wall_time ts <> None.
Proof. exists [Times 0 10 None (Some 21) 22]. split; [discriminate|]. split; [reflexivity|discriminate]. Qed.

Print Assumptions C76_wait.
Print Assumptions C76_first_exception.
Print Assumptions C76_interactive.
Print Assumptions C76_interactive_ends.
Print Assumptions C77_wall.
Print Assumptions C77_serial.
Print Assumptions C77_speedup.
Print Assumptions C77_elapsed.
