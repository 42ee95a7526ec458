(** Property theorems C30, C31, C42-C44 (client/asyncresult.py, client/futures.py, error.py). *)
From Coq Require Import List Arith ZArith String Bool Permutation Lia.
From Verif Require Import Async_Spec Async_Model Async_Proofs.
From Verif Require Prelude Map_Spec Map_Model Map_Proofs.
Import ListNotations.
Open Scope string_scope.
Notation Block := Map_Model.DistBlock. Notation RoundRobin := Map_Model.DistRR.

(* ================================================================== C30 *)
(** Ordered map, default (block) distribution, all tasks succeed: get() gives the items of the tasks in task order, and iteration
    gives the same items, whether or not the results were there when the iteration started. *)
Theorem C30_ordered : forall (I : Type) (chunks : list (list I)) (ret : bool) (arg : option bool) (ready : bool), chunks <> [] ->
  map_get Block ret arg (Some (map Val chunks)) = Ret (Items (map Val (List.concat chunks))) /\
  ordered_iter Block ret ready (map Val chunks) = (map Val (List.concat chunks), None).
Proof.
  intros I chunks ret arg ready Hne.
  assert (E : Map_Model.joinPartitions Block chunks = Prelude.Ok (List.concat chunks)) by (destruct chunks; [contradiction|reflexivity]).
  rewrite (map_get_vals _ _ _ _ _ E). split; [reflexivity|]. unfold ordered_iter. destruct ready.
  - rewrite (map_get_vals _ _ _ _ _ E). reflexivity.
  - apply chain_vals.
Qed.
Print Assumptions C30_ordered.

(** Any distribution, any results: an iteration that starts when everything is there gives what get() gives. *)
Theorem C30_ready : forall (I : Type) d (result_of : nat -> outcome (list I)) arrives now order ret children l,
  map_get d ret None (Some (map result_of children)) = Ret (Items l) ->
  ordered_iter d ret true (map result_of children) = (l, None) /\
  unordered_iter d result_of arrives now order ret true children = (l, None).
Proof. intros I d result_of arrives now order ret children l E. unfold ordered_iter, unordered_iter. rewrite E. auto. Qed.
Print Assumptions C30_ready.

(** With return_exceptions=True and a failed task: a flat list in task order, the same for get() and for iteration. *)
Theorem C30_return_exceptions : forall (I : Type) d (rs : list (outcome (list I))) items arg ready,
  laid_out rs items -> (exists r, In r rs /\ forall l, r <> Val l) ->
  map_get d true arg (Some rs) = Ret (Items items) /\ ordered_iter d true ready rs = (items, None).
Proof.
  intros I d rs items arg ready Hl (r & Hr & Hn).
  assert (E : existsb failed rs = true). { apply existsb_exists. exists r. split; [exact Hr|]. destruct r; [destruct (Hn _ eq_refl)|reflexivity|reflexivity]. }
  pose proof (flat_laid _ _ Hl) as Ef.
  rewrite (map_get_ret d arg rs E), Ef. split; [reflexivity|]. unfold ordered_iter. destruct ready.
  - rewrite (map_get_ret d None rs E), Ef. reflexivity.
  - cbn. rewrite chain_ret, Ef. reflexivity.
Qed.
Print Assumptions C30_return_exceptions.

(** Unordered map, iterated while results come in: every task's items once, each task's items together and in order;
    a permutation of what get() gives (round robin: provided the first task has the most items, which holds for
    every map: C30_map). *)
Theorem C30_unordered : forall (I : Type) d (chunk : nat -> list I) arrives now order ret children,
  (forall l, Permutation (order l) l) ->
  exists items, unordered_iter d (fun c => Val (chunk c)) arrives now order ret false children = (map Val items, None) /\
    chunks_in_some_order (map chunk children) items /\
    forall c0 l, nth_error children 0 = Some c0 ->
      (d = RoundRobin -> forall c, In c children -> List.length (chunk c) <= List.length (chunk c0)) ->
      map_get d ret None (Some (map (fun c => Val (chunk c)) children)) = Ret (Items (map Val l)) -> Permutation items l.
Proof.
  intros I d chunk arrives now order ret children Ho.
  set (vs := visits arrives now order (List.length children) 0 children).
  assert (Hp : Permutation vs children) by (apply visits_perm; [exact Ho|lia]).
  exists (List.concat (map chunk vs)). split; [|split].
  - unfold unordered_iter. cbn [map_get]. fold vs. rewrite <- (map_map chunk Val). apply chain_vals.
  - exists (map chunk vs). split; [|reflexivity]. apply Permutation_map. symmetry. exact Hp.
  - intros c0 l E0 Hlong G. destruct children as [|c r]; [discriminate|]. injection E0 as ->.
    assert (exists l', Map_Model.joinPartitions d (map chunk (c0 :: r)) = Prelude.Ok l') as (l' & Ej) by (destruct d; eexists; reflexivity).
    rewrite <- (map_map chunk Val) in G. rewrite (map_get_vals _ _ _ _ _ Ej) in G. injection G as G.
    assert (l' = l). { clear - G. revert l G. induction l' as [|x l' IH]; intros [|y l]; cbn; try discriminate; [reflexivity|]. intros [= -> G]. f_equal. auto. }
    subst l'. symmetry. etransitivity; [eapply join_perm; [reflexivity| |exact Ej]|].
    + intros Ed p Hin. change (In p (map chunk (c0 :: r))) in Hin. apply in_map_iff in Hin as (x & <- & Hx). apply (Hlong Ed). exact Hx.
    + change (Permutation (List.concat (map chunk (c0 :: r))) (List.concat (map chunk vs))). rewrite <- !flat_map_concat_map. apply Permutation_flat_map. symmetry. exact Hp.
Qed.
Print Assumptions C30_unordered.

(** ... and if the consumer never lags behind, in the order in which the tasks finish. *)
Theorem C30_arrival_order : forall (I : Type) d (result_of : nat -> outcome (list I)) arrives now order children,
  (forall l, Permutation (order l) l) -> (forall k, now k = 0) ->
  exists visited, Permutation visited children /\
    (forall l1 b l2 a l3, visited = (l1 ++ b :: l2 ++ a :: l3)%list -> arrives b <= arrives a) /\
    forall items, laid_out (map result_of visited) items ->
      unordered_iter d result_of arrives now order true false children = (items, None).
Proof.
  intros I d result_of arrives now order children Ho Hn. exists (visits arrives now order (List.length children) 0 children).
  split; [apply visits_perm; [exact Ho|lia]|]. split.
  - intros l1 b l2 a l3 E. eapply visits_sorted; eassumption.
  - intros items Hl. unfold unordered_iter. cbn [map_get]. rewrite chain_ret. rewrite (flat_laid _ _ Hl). reflexivity.
Qed.
Print Assumptions C30_arrival_order.

(** For view.map itself: with the tasks that map submits, get() and (block) ordered iteration give the builtin map;
    unordered iteration gives it up to order, for both distributions. *)
Theorem C30_map : forall (A B : Type) d v (f : list A -> B) (seqs : list (list A)) tasks arrives now order,
  seqs <> [] -> v <> Map_Model.Multiplexed 0 -> Map_Model.maxlen seqs <> 0%Z -> Map_Model.pf_tasks d v seqs = Prelude.Ok tasks ->
  (forall l, Permutation (order l) l) ->
  let result_of c := Val (Map_Model.remote_map f (nth c tasks [])) in
  let children := seq 0 (List.length tasks) in
  exists out, Map_Spec.builtin_map f seqs out /\
    map_get d false None (Some (map result_of children)) = Ret (Items (map Val out)) /\
    (forall ready, d = Block \/ ready = true -> ordered_iter d false ready (map result_of children) = (map Val out, None)) /\
    exists items, unordered_iter d result_of arrives now order false false children = (map Val items, None) /\ Permutation items out.
Proof.
  intros A B d v f seqs tasks arrives now order Hne Hv Hm Ht Ho result_of children.
  destruct (Map_Proofs.parallel_map_builtin d v f seqs Hne Hv) as (out & Ep & Hb). exists out. split; [exact Hb|].
  unfold Map_Model.parallel_map in Ep. destruct (Z.eqb_spec (Map_Model.maxlen seqs) 0) as [|_]; [contradiction|]. rewrite Ht in Ep. cbn [Prelude.bind] in Ep.
  set (chunk c := Map_Model.remote_map f (nth c tasks [])).
  assert (Ech : map chunk children = map (Map_Model.remote_map f) tasks).
  { unfold chunk, children. rewrite <- (map_map (fun c => nth c tasks []) (Map_Model.remote_map f)). f_equal.
    apply Map_Proofs.nth_error_ext. intros i. rewrite nth_error_map, Map_Proofs.nth_error_seq0.
    destruct (Nat.ltb_spec i (List.length tasks)) as [Hlt|Hge]; cbn.
    - symmetry. apply nth_error_nth'. exact Hlt.
    - symmetry. apply nth_error_None. exact Hge. }
  assert (Eres : map result_of children = map Val (map chunk children)) by (rewrite map_map; reflexivity).
  rewrite <- Ech in Ep.
  assert (G : forall ret arg, map_get d ret arg (Some (map result_of children)) = Ret (Items (map Val out))).
  { intros ret arg. rewrite Eres. apply map_get_vals. exact Ep. }
  split; [apply G|]. split.
  - intros [|] [Ed|Er]; try discriminate; try (unfold ordered_iter; rewrite G; reflexivity).
    subst d. rewrite Eres. destruct (C30_ordered B (map chunk children) false None false) as (G1 & ->).
    { intros E. rewrite E in Ep. discriminate. }
    unfold Map_Model.joinPartitions, Map_Model.block_join in Ep. destruct (map chunk children); [discriminate|]. injection Ep as <-. reflexivity.
  - destruct (C30_unordered B d chunk arrives now order false children Ho) as (items & Eu & _ & Hp). exists items. split; [exact Eu|].
    destruct tasks as [|t ts]; [cbn in Ep; destruct d; discriminate|]. apply (Hp 0); [reflexivity| |apply G].
    intros Ed c Hc. subst d. pose proof (Map_Proofs.rr_first_longest v f seqs (t :: ts) Hne Hv Hm Ht (chunk c)) as L.
    apply L. rewrite <- Ech. apply in_map. exact Hc.
Qed.
Print Assumptions C30_map.

(** A failing task, iterating in order: the items of the tasks before it come out, then its error is raised (if everything was
    there at the start: nothing comes out and all the errors are raised together). *)
Theorem C30_first_error : forall (I : Type) d (before : list (list I)) en a after es, en <> "CompositeError" ->
  ordered_iter d false false (map Val before ++ Remote en a :: after) = (map Val (List.concat before), Some (CompositeError [(en, a)])) /\
  (plain_names after -> failures after es ->
   ordered_iter d false true (map Val before ++ Remote en a :: after) = ([], Some (CompositeError ((en, a) :: es)))).
Proof.
  intros I d before en a after es Hn. split; [apply chain_err, Hn|]. intros Hp Hf.
  assert (Hp' : plain_names (map Val before ++ Remote en a :: after)).
  { intros e b Hi. apply in_app_or in Hi as [Hi|[[= -> ->]|Hi]]; [apply in_map_iff in Hi as (x & [=] & _)|exact Hn|eapply Hp, Hi]. }
  assert (Hf' : failures (map Val before ++ Remote en a :: after) ((en, a) :: es)).
  { clear - Hf. induction before; cbn; constructor; assumption. }
  unfold ordered_iter, map_get, map_resolve, _collect_exceptions. rewrite (collect_spec _ _ Hp' Hf'). reflexivity.
Qed.
Print Assumptions C30_first_error.

Example C30_example : ordered_iter Block false false [Val [1; 2]; Val []; Val [3]] = ([Val 1; Val 2; Val 3], None).
Proof. reflexivity. Qed.
(* children 0, 1, 2 finish at times 5, 2, 9 *)
Example C30_example_unordered :
  unordered_iter Block (fun c => Val [10 * c; 10 * c + 1]) (fun c => nth c [5; 2; 9] 0) (fun _ => 0) (fun l => l) false false [0; 1; 2]
  = ([Val 10; Val 11; Val 0; Val 1; Val 20; Val 21], None).
Proof. reflexivity. Qed.
Example C30_example_return : laid_out [Val [1; 2]; Remote "E" 7; Val [3]] [Val 1; Val 2; Remote "E" 7; Val 3].
Proof. apply (laid_val [1; 2]), laid_remote, (laid_val [3]), laid_nil. Qed.
Example C30_example_map : Map_Model.pf_tasks Block (Map_Model.Multiplexed 2) [[1; 2; 3]] = Prelude.Ok [[[1; 2]]; [[3]]].
Proof. reflexivity. Qed.

(** Refuted: with the round robin distribution, ordered iteration before everything is there is not in the order of get(). *)
Theorem C30_rr_refuted : exists (chunks : list (list nat)) l,
  map_get RoundRobin false None (Some (map Val chunks)) = Ret (Items (map Val l)) /\
  ordered_iter RoundRobin false false (map Val chunks) <> (map Val l, None).
Proof. exists [[1; 3]; [2; 4]], [1; 2; 3; 4]. split; [reflexivity|discriminate]. Qed.
Print Assumptions C30_rr_refuted.
(** Refuted: when one of the tasks (not the first) was aborted and there are no other errors, the result of a map is never ready:
    get() waits forever. *)
Theorem C30_aborted_refuted : forall (I : Type) (l : list I) before n after arg, (forall en a, ~ In (Remote en a) (before ++ after)) ->
  map_get Block false arg (Some (Val l :: before ++ Other n :: after)) = Raise TimeoutError.
Proof.
  intros I l before n after arg H. unfold map_get, map_resolve. cbn [_collect_exceptions].
  assert (Hno : forall en a, ~ In (Remote en a) (Val l :: before ++ Other n :: after)).
  { intros en a [E|Hi]; [discriminate|]. apply in_app_or in Hi as [Hi|[E|Hi]]; [|discriminate|]; apply (H en a), in_or_app; auto. }
  rewrite (collect_spec _ []); [|intros en a Hi; destruct (Hno _ _ Hi)|apply failures_nil, Hno].
  cbn [map_reconstruct andb]. unfold join. replace (existsb failed (Val l :: before ++ Other n :: after)) with true; [reflexivity|].
  symmetry. apply existsb_exists. exists (Other n). split; [right; apply in_or_app; right; left; reflexivity|reflexivity].
Qed.
Print Assumptions C30_aborted_refuted.
(** Refuted: get(return_exceptions=True) on a map made without return_exceptions raises TypeError instead of returning them. *)
Theorem C30_arg_refuted : forall (I : Type) (l : list I) en a, en <> "CompositeError" ->
  map_get Block false (Some true) (Some [Val l; Remote en a]) = Raise TypeError.
Proof.
  intros I l en a Hn. unfold map_get, map_resolve, _collect_exceptions, collect_exceptions. cbn.
  destruct (String.eqb_spec en "CompositeError"); [contradiction|]. reflexivity.
Qed.
Print Assumptions C30_arg_refuted.

(* ================================================================== C31 *)
(** The result of a call on several engines: get() returns all the results if there are no errors among them; else it raises
    a CompositeError that lists every error exactly once, in the order of the engines. *)
Theorem C31_all_reported : forall (V : Type) (rs : list (outcome V)) (es : list (string * nat)), plain_names rs -> failures rs es ->
  (es = [] -> get false false None (Some rs) = Ret (Many rs)) /\
  (es <> [] -> get false false None (Some rs) = Raise (CompositeError es)).
Proof.
  intros V rs es Hp Hf. unfold get, _resolve_result, _collect_exceptions. rewrite (collect_spec _ _ Hp Hf).
  destruct es; split; intros H; try contradiction; try discriminate; reflexivity.
Qed.
Print Assumptions C31_all_reported.
(** [failures] determines the list, exists for all results, and is empty iff no engine failed. *)
Theorem C31_failures_exist : forall (V : Type) (rs : list (outcome V)), exists es, failures rs es /\
  (forall es', failures rs es' -> es' = es) /\ (es = [] <-> forall en a, ~ In (Remote en a) rs) /\
  (forall en a, In (en, a) es <-> In (Remote en a) rs).
Proof.
  intros V rs. assert (exists es, failures rs es) as (es & Hf).
  { induction rs as [|[v|en a|n] rs (es & IH)]; [exists []; constructor|exists es|exists ((en, a) :: es)|exists es]; constructor; exact IH. }
  exists es. split; [exact Hf|]. split; [|split].
  - intros es' H'. symmetry. eapply failures_fun; eassumption.
  - split.
    + intros ->. apply failures_nil, Hf.
    + intros H. apply failures_nil in H. eapply failures_fun; eassumption.
  - intros en a. induction Hf; cbn; try rewrite IHHf; split; intros H; try destruct H as [H|H]; try discriminate; auto; injection H as -> ->; auto.
Qed.
Print Assumptions C31_failures_exist.
(** With return_exceptions (set at the call or in get): all results, exceptions in the place of the results that are missing. *)
Theorem C31_return_exceptions : forall (V : Type) (rs : list (outcome V)) ret,
  get false true None (Some rs) = Ret (Many rs) /\ get false ret (Some true) (Some rs) = Ret (Many rs).
Proof.
  intros V rs ret. split; [reflexivity|]. unfold get, _resolve_result, _collect_exceptions. destruct ret; [reflexivity|].
  unfold collect_exceptions. destruct (elist_of rs) as [[|]|]; reflexivity.
Qed.
Print Assumptions C31_return_exceptions.
(** A call on one engine: its value or its error itself. *)
Theorem C31_single : forall (V : Type) (o : outcome V) arg,
  get true false arg (Some [o]) =
  match o, arg with
  | Val _, _ | _, Some true => Ret (One o)
  | Remote en a, _ => Raise (RemoteError en a)
  | Other n, _ => Raise (OtherError n)
  end.
Proof. intros V [v|en a|n] [[|]|]; reflexivity. Qed.
Print Assumptions C31_single.
(** Nothing is returned or raised (but TimeoutError) before all results are there. *)
Theorem C31_not_ready : forall (V : Type) single ret arg, get (V := V) single ret arg None = Raise TimeoutError.
Proof. reflexivity. Qed.
Print Assumptions C31_not_ready.
(** Iterating over it: all results; on the first error: the results before it and then the error (if everything was there at the start:
    no results and all errors). *)
Theorem C31_iteration : forall (V : Type) (rs : list (outcome V)) ready,
  ((forall en a, ~ In (Remote en a) rs) -> iter false false ready rs = (rs, None)) /\
  iter false true ready rs = (rs, None) /\
  (forall before en a after, rs = (before ++ Remote en a :: after)%list -> (forall e b, ~ In (Remote e b) before) -> en <> "CompositeError" ->
     iter false false false rs = (before, Some (CompositeError [(en, a)]))) /\
  (forall es, plain_names rs -> failures rs es -> es <> [] -> iter false false true rs = ([], Some (CompositeError es))).
Proof.
  intros V rs ready. split; [|split; [|split]].
  - intros H. unfold iter. destruct ready; [|apply iter_children_ok, H].
    destruct (C31_all_reported V rs []) as (-> & _); try reflexivity; [intros en a Hi; destruct (H _ _ Hi)|apply failures_nil, H].
  - unfold iter. destruct ready; [reflexivity|apply iter_children_ret].
  - intros before en a after -> H Hn. apply iter_children_err; assumption.
  - intros es Hp Hf Hn. unfold iter. destruct (C31_all_reported V rs es Hp Hf) as (_ & ->); [reflexivity|exact Hn].
Qed.
Print Assumptions C31_iteration.

Example C31_example : failures [Val 1; Remote "ValueError" 5; Val 2; Remote "KeyError" 6] [("ValueError", 5); ("KeyError", 6)] /\
  plain_names [Val 1; Remote "ValueError" 5; Val 2; Remote "KeyError" 6] /\
  get false false None (Some [Val 1; Remote "ValueError" 5; Val 2; Remote "KeyError" 6]) = Raise (CompositeError [("ValueError", 5); ("KeyError", 6)]).
Proof.
  split; [repeat constructor|]. split; [|reflexivity]. intros en a Hi. cbn in Hi.
  repeat destruct Hi as [Hi|Hi]; try discriminate; [injection Hi as <- _|injection Hi as <- _|destruct Hi]; discriminate.
Qed.
(** Refuted: an error that is itself a CompositeError (from a task that used a client) is not merged: AttributeError. *)
Theorem C31_composite_refuted : exists rs : list (outcome nat), get false false None (Some rs) = Raise AttributeError.
Proof. exists [Val 1; Remote "CompositeError" 3]. reflexivity. Qed.
Print Assumptions C31_composite_refuted.
(** Refuted: "raises iff a task failed": aborted tasks of a multi-engine call are returned as if they were values. *)
Theorem C31_aborted_refuted : exists (rs : list (outcome nat)) n, In (Other n) rs /\ get false false None (Some rs) = Ret (Many rs).
Proof. exists [Val 1; Other 3], 3. split; [right; left; reflexivity|reflexivity]. Qed.
Print Assumptions C31_aborted_refuted.

(* ================================================================== C42 *)
(** The future of several futures: whatever the order in which the results arrive (before, between or after the registration of the
    callbacks), when all children have been looked at it is resolved iff all have arrived, with the results in the order of the children
    (also if a child appears twice). *)
Theorem C42_multi_future : forall (V : Type) (result_of : nat -> V) (children : list nat) (es : list event),
  once es -> looks es >= List.length children ->
  (resolved (mf_run result_of children es) = Some (map result_of children) <-> forall c, In c children -> arrived es c) /\
  (resolved (mf_run result_of children es) = None <-> exists c, In c children /\ ~ arrived es c).
Proof. exact (fun V => @mf_spec V). Qed.
Print Assumptions C42_multi_future.
(** And it is never resolved early or with anything else. *)
Theorem C42_never_early : forall (V : Type) (result_of : nat -> V) (children : list nat) (es : list event) l,
  once es -> resolved (mf_run result_of children es) = Some l ->
  l = map result_of children /\ forall c, In c children -> arrived es c.
Proof. exact (fun V => @mf_sound V). Qed.
Print Assumptions C42_never_early.
(** Once resolved it stays as it is. *)
Theorem C42_stable : forall (V : Type) (result_of : nat -> V) (children : list nat) (es es' : list event) l,
  resolved (mf_run result_of children es) = Some l -> resolved (mf_run result_of children (es ++ es')) = Some l.
Proof.
  intros V result_of children es es' l E. unfold mf_run in *. rewrite fold_left_app. revert E.
  generalize (fold_left (mf_step result_of children) es (mf_start children)). induction es' as [|e es' IH]; intros s E; [exact E|].
  cbn [fold_left]. apply IH. destruct e as [|c]; cbn [mf_step].
  - destruct (todo s) as [|c r]; [exact E|]. destruct (mem c (listening s)); [exact E|]. cbn zeta. destruct (mem c _); [|exact E].
    cbn [callback resolved]. rewrite E. destruct (without _ _); reflexivity.
  - cbn zeta. destruct (mem c _); [|exact E]. cbn [callback resolved]. rewrite E. destruct (without _ _); reflexivity.
Qed.
Print Assumptions C42_stable.
Example C42_example : once [Arrive 2; Look; Look; Arrive 1; Look] /\ looks [Arrive 2; Look; Look; Arrive 1; Look] >= List.length [1; 2; 1] /\
  resolved (mf_run (fun c => 10 * c) [1; 2; 1] [Arrive 2; Look; Look; Arrive 1; Look]) = Some [10; 20; 10] /\
  resolved (mf_run (fun c => 10 * c) [1; 2; 1] [Arrive 2; Look; Look; Look]) = None.
Proof. repeat split; try reflexivity; [repeat constructor; cbn; intuition discriminate|cbn; lia]. Qed.

(* ================================================================== C43 *)
(** get_dict: every engine with its own result. *)
Theorem C43_get_dict : forall (V : Type) (ids : list nat) (rs : list (outcome V)) ret,
  NoDup ids -> List.length ids = List.length rs -> (ret = true \/ forall en a, ~ In (Remote en a) rs) ->
  exists d, get_dict false ret (Some rs) ids = Ret d /\ map fst d = ids /\
    forall i eid r, nth_error ids i = Some eid -> nth_error rs i = Some r -> In (eid, r) d /\ forall r', In (eid, r') d -> r' = r.
Proof.
  intros V ids rs ret Hn L Hr. unfold get_dict.
  assert (G : get false ret None (Some rs) = Ret (Many rs)).
  { destruct ret; [reflexivity|]. destruct Hr as [|H]; [discriminate|]. apply (C31_all_reported V rs []); [intros en a Hi; destruct (H _ _ Hi)|apply failures_nil, H|reflexivity]. }
  rewrite G. rewrite (build_dict_ok ids ids rs [] L); [|exact Hn]. exists (combine ids rs). split; [reflexivity|].
  assert (Ef : map fst (combine ids rs) = ids).
  { clear - L. revert rs L. induction ids as [|i ids IH]; intros [|r rs] L; try discriminate; [reflexivity|]. cbn. f_equal. apply IH. cbn in L. lia. }
  split; [exact Ef|]. intros i eid r E1 E2. split; [eapply in_combine_nth; eassumption|].
  intros r' Hi. apply In_nth_error in Hi as (j & Ej).
  assert (nth_error ids j = Some eid /\ nth_error rs j = Some r') as (J1 & J2).
  { clear - Ej. revert rs j Ej. induction ids as [|x ids IH]; intros [|y rs] [|j]; cbn; try discriminate; [intros [= -> ->]; auto|apply IH]. }
  assert (i = j); [|subst; congruence].
  eapply NoDup_nth_error; [exact Hn| |congruence]. apply nth_error_Some. congruence.
Qed.
Print Assumptions C43_get_dict.
(** If an engine ran several of the tasks there is no dictionary: ValueError, naming such an engine and its number of tasks. *)
Theorem C43_ambiguous : forall (V : Type) (ids : list nat) (rs : list (outcome V)) ret,
  ~ NoDup ids -> List.length ids = List.length rs -> (ret = true \/ forall en a, ~ In (Remote en a) rs) ->
  exists eid n, get_dict false ret (Some rs) ids = Raise (ValueError n eid) /\ n = count_occ Nat.eq_dec ids eid /\ n >= 2.
Proof.
  intros V ids rs ret Hn L Hr. unfold get_dict.
  assert (G : get false ret None (Some rs) = Ret (Many rs)).
  { destruct ret; [reflexivity|]. destruct Hr as [|H]; [discriminate|]. apply (C31_all_reported V rs []); [intros en a Hi; destruct (H _ _ Hi)|apply failures_nil, H|reflexivity]. }
  rewrite G. destruct (build_dict_dup ids ids rs [] L Hn) as (i & E & a & b & Ei & Hi); [constructor|].
  exists i, (count_occ Nat.eq_dec ids i). split; [exact E|]. split; [reflexivity|]. rewrite Ei, count_occ_app. cbn [count_occ].
  destruct (Nat.eq_dec i i); [|contradiction]. assert (count_occ Nat.eq_dec a i > 0) by (apply count_occ_In; exact Hi). lia.
Qed.
Print Assumptions C43_ambiguous.
(** Errors come out of get_dict as out of get. *)
Theorem C43_errors : forall (V : Type) (ids : list nat) (rs : list (outcome V)) es,
  plain_names rs -> failures rs es -> es <> [] -> get_dict false false (Some rs) ids = Raise (CompositeError es).
Proof. intros V ids rs es Hp Hf Hn. unfold get_dict. destruct (C31_all_reported V rs es Hp Hf) as (_ & ->); auto. Qed.
Print Assumptions C43_errors.
Example C43_example : get_dict false false (Some [Val 10; Val 20]) [3; 1] = Ret [(3, Val 10); (1, Val 20)] /\
  get_dict false false (Some [Val 10; Val 20; Val 30]) [3; 1; 3] = Raise (ValueError 2 3).
Proof. split; reflexivity. Qed.

(* ================================================================== C44 *)
(** progress counts the items of the tasks that are no longer outstanding, len the items of all tasks; so progress goes from 0 to len,
    never backwards while tasks finish, and is len when nothing is outstanding. *)
Theorem C44_progress : forall sizes ms outstanding n all, NoDup ms ->
  total (chunk_size sizes) (fun m => ~ In m outstanding) ms n -> total (chunk_size sizes) (fun _ => True) ms all ->
  progress sizes ms outstanding = n /\ len sizes ms = all /\ n <= all.
Proof.
  intros sizes ms outstanding n all Hn Ht Ha. rewrite (total_len _ _ _ Ha). unfold progress. rewrite (total_len _ _ _ Ha).
  rewrite nodup_fixed_point by exact Hn. destruct (total_exists (chunk_size sizes) (fun m => In m outstanding) (fun m => in_dec Nat.eq_dec m outstanding) ms) as (k & Hk).
  rewrite (count_total _ _ _ _ Hk). pose proof (total_len _ _ _ (total_split _ _ _ _ _ Hk Ht)) as E1. rewrite (total_len _ _ _ Ha) in E1. lia.
Qed.
Print Assumptions C44_progress.
Theorem C44_monotone : forall sizes ms out out', NoDup ms -> (forall m, In m out' -> In m out) -> progress sizes ms out <= progress sizes ms out'.
Proof.
  intros sizes ms out out' Hn Hs. unfold progress. rewrite nodup_fixed_point by exact Hn.
  assert (count_chunks sizes (filter (fun m => mem m out') ms) <= count_chunks sizes (filter (fun m => mem m out) ms)); [|lia].
  clear Hn. induction ms as [|m ms IH]; [cbn; lia|]. cbn [filter]. destruct (mem m out') eqn:E'.
  - apply mem_iff, Hs, mem_iff in E'. rewrite E'. cbn [count_chunks fold_right]. unfold count_chunks in IH. lia.
  - destruct (mem m out); [cbn [count_chunks fold_right]; unfold count_chunks in *; lia|exact IH].
Qed.
Print Assumptions C44_monotone.
Theorem C44_complete : forall sizes ms out, NoDup ms -> (forall m, sizes m <> Some 0) ->
  (progress sizes ms out = len sizes ms <-> forall m, In m ms -> ~ In m out).
Proof.
  intros sizes ms out Hn Hz. unfold progress. rewrite nodup_fixed_point by exact Hn. clear Hn. unfold len.
  assert (Hpos : forall m, chunk_size sizes m > 0). { intros m. unfold chunk_size. specialize (Hz m). destruct (sizes m) as [[|]|]; [contradiction|lia|lia]. }
  assert (Hle : forall ms', count_chunks sizes (filter (fun m => mem m out) ms') <= count_chunks sizes ms').
  { induction ms' as [|m ms' IH]; [cbn; lia|]. cbn [filter]. destruct (mem m out); cbn [count_chunks fold_right]; unfold count_chunks in *; lia. }
  split.
  - intros E m Hm Ho. assert (count_chunks sizes (filter (fun m => mem m out) ms) > 0); [|specialize (Hle ms); lia].
    clear - Hm Ho Hpos. induction ms as [|x ms IH]; [destruct Hm|]. cbn [filter]. destruct Hm as [->|Hm].
    + apply mem_iff in Ho. rewrite Ho. cbn [count_chunks fold_right]. specialize (Hpos m). lia.
    + specialize (IH Hm). destruct (mem x out); cbn [count_chunks fold_right]; unfold count_chunks in *; lia.
  - intros H. replace (filter (fun m => mem m out) ms) with (@nil nat); [cbn; lia|].
    induction ms as [|m ms IH]; [reflexivity|]. cbn [filter]. destruct (mem m out) eqn:E; [apply mem_iff in E; destruct (H m (or_introl eq_refl) E)|].
    apply IH. intros x Hx. apply H. right. exact Hx.
Qed.
Print Assumptions C44_complete.
Example C44_example : progress (fun m => nth m [Some 3; Some 2; None] None) [0; 1; 2] [1] = 4 /\
  total (chunk_size (fun m => nth m [Some 3; Some 2; None] None)) (fun m => ~ In m [1]) [0; 1; 2] 4.
Proof.
  split; [reflexivity|]. pose (sz := chunk_size (fun m => nth m [Some 3; Some 2; None] None)). fold sz.
  change 4 with (sz 0 + (sz 2 + 0)). apply total_yes; [cbn; lia|]. apply total_no; [cbn; lia|].
  apply total_yes; [cbn; lia|]. constructor.
Qed.
(** Refuted without [NoDup]: two copies of an outstanding task are counted once. *)
Theorem C44_duplicates_refuted : exists ms out, (forall m, In m ms -> In m out) /\ progress (fun _ => None) ms out > 0.
Proof. exists [1; 1], [1]. split; [cbn; tauto|cbn; lia]. Qed.
Print Assumptions C44_duplicates_refuted.
