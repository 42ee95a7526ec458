(** Property theorems C33, C34 and C46 (views). *)
From stdpp Require Import base gmap sets list.
From Verif Require Import Dependency_Model Dependency_Spec Dependency_Proofs View_Model View_Spec View_Proofs View_Hist.
From Verif Require Prelude.
From Coq Require Import ZArith Lia.

(** ** C33: once the body has been entered, all flags come back whatever the body does (including
    changing flags or raising) ... *)
Theorem C33_restored : forall (E : Type) k kw (body : flags -> flags * option E) s s' r,
  well_typed k s -> temp_flags k kw body s = (s', r, true) ->
  forall f, f ∈ flag_names k -> s' f = s f.
Proof.
  intros E k kw body s s' r Hw H f Hf. unfold temp_flags in H. fold (saved k s) in H.
  destruct (set_flags k kw s) as [s1 [e |]]; [discriminate |].
  destruct (body s1) as [s2 x].
  destruct (set_saved k s s2 Hw) as (s3 & r3 & E3 & H3 & _). rewrite E3 in H.
  destruct r3; injection H as <- <-; apply H3, Hf.
Qed.
Print Assumptions C33_restored.

(** ... the body ran with the given flags (and the others as they were), and what escapes is exactly
    what the body raised. *)
Theorem C33_body : forall (E : Type) k kw (body : flags -> flags * option E) s s' r,
  NoDup (map fst kw) -> sound k s -> temp_flags k kw body s = (s', r, true) ->
  exists s1 s2 x,
    body s1 = (s2, x) /\ r = option_map inr x /\ sound k s1 /\
    (forall f v, (inl f, v) ∈ kw -> f ∈ flag_names k /\ s1 f = held f v) /\
    (forall f, (forall v, (inl f, v) ∉ kw) -> s1 f = s f).
Proof.
  intros E k kw body s s' r Hnd Hs H. unfold temp_flags in H. fold (saved k s) in H.
  destruct (set_flags k kw s) as [s1 [e |]] eqn:E1; [discriminate |].
  destruct (body s1) as [s2 x] eqn:Eb.
  destruct (set_saved k s s2 (proj1 Hs)) as (s3 & r3 & E3 & H3 & R3). rewrite E3 in H.
  rewrite (R3 Hs) in H. injection H as <- <-.
  exists s1, s2, x. split; [exact Eb |]. split; [reflexivity |].
  destruct (set_flags_holds k kw s s1 Hnd E1) as (Hh & Hn & _).
  split; [apply (set_flags_sound k kw s s1 Hnd E1 Hs) |]. split.
  - intros f v Hin. split; [apply (Hn f v Hin) |]. apply coerce_held, Hh, Hin.
  - intros f Hf. pose proof (set_flags_untouched k kw s f) as Hu. rewrite E1 in Hu. apply Hu.
    destruct (kw_get f kw) as [v |] eqn:Eg; [| reflexivity]. exfalso. apply (Hf v), kw_get_in, Eg.
Qed.
Print Assumptions C33_body.

(** Every assignment, successful or not, keeps the attributes well typed; a set_flags that returns
    keeps them sound. *)
Theorem C33_invariant : forall k kw s,
  (well_typed k s -> well_typed k (fst (set_flags k kw s))) /\
  (NoDup (map fst kw) -> snd (set_flags k kw s) = None -> sound k s -> sound k (fst (set_flags k kw s))).
Proof.
  intros k kw s. split; [apply set_flags_typed |]. intros Hnd Hn Hs.
  destruct (set_flags k kw s) as [s' r] eqn:E. cbn [fst snd] in *. subst r. exact (set_flags_sound k kw s s' Hnd E Hs).
Qed.
Print Assumptions C33_invariant.

(** If setting the temporary flags fails, the body does not run and only given flags can differ. *)
Theorem C33_not_entered : forall (E : Type) k kw (body : flags -> flags * option E) s s' r,
  temp_flags k kw body s = (s', r, false) ->
  (exists e, r = Some (inl e)) /\ forall f, (forall v, (inl f, v) ∉ kw) -> s' f = s f.
Proof.
  intros E k kw body s s' r H. unfold temp_flags in H. fold (saved k s) in H.
  destruct (set_flags k kw s) as [s1 [e |]] eqn:E1.
  - injection H as <- <-. split; [eauto |]. intros f Hf.
    pose proof (set_flags_untouched k kw s f) as Hu. rewrite E1 in Hu. apply Hu.
    destruct (kw_get f kw) as [v |] eqn:Eg; [| reflexivity]. exfalso. apply (Hf v), kw_get_in, Eg.
  - destruct (body s1) as [s2 x]. destruct (set_flags k _ s2) as [s3 [e |]]; discriminate.
Qed.
Print Assumptions C33_not_entered.

Definition defaults : flags := fun f =>
  match f with Block | Track => VBool false | Timeout => VFloat 0 | Retries => VInt 0 | _ => VNone end.
Lemma defaults_sound k : sound k defaults.
Proof.
  split.
  - intros f _. destruct f; cbn; eauto.
  - destruct k; cbn; [exact I |]. repeat split. intros z [= <-]. lia.
Qed.
(** But they do differ: a wrong keyword after a right one, or an invalid dependency, leaves the view
    changed (184 is outside the try). *)
Theorem C33_failed_entry_refuted :
  (exists s' e, temp_flags (E:=unit) Direct [(inl Block, VBool true); (inr 0, VNone)] (fun s => (s, None)) defaults = (s', Some (inl e), false) /\
     s' Block = VBool true /\ defaults Block = VBool false) /\
  (exists s' e, temp_flags (E:=unit) Balanced [(inl After, VInt 5)] (fun s => (s, None)) defaults = (s', Some (inl e), false) /\
     s' After = VInt 5 /\ defaults After = VNone).
Proof. split; eexists _, _; (split; [reflexivity |]); split; reflexivity. Qed.
Print Assumptions C33_failed_entry_refuted.

Example C33_example : exists s' r, sound Balanced defaults /\
  temp_flags Balanced [(inl Block, VBool true); (inl Timeout, VInt 3); (inl After, VSeq [VStr 1; VAsync [2; 3]])]
    (fun s => (set_flag Retries (VInt 7) s, Some 42)) defaults = (s', r, true) /\
  r = Some (inr 42) /\ s' Retries = VInt 0 /\ s' Block = VBool false /\ s' After = VNone.
Proof.
  eexists _, _. split; [apply defaults_sound |]. split; [reflexivity |]. repeat split; reflexivity.
Qed.

(** ** C34: a call on a view that sends at least one message, and calls no other recording method of
    the same view, appends exactly the messages sent to the view's history, whether it returns or
    raises, and afterwards the view's outstanding messages are the old ones and the new ones that
    have not been answered. *)
Theorem C34_recorded : forall v body w new,
  quiet_all v body -> new <> [] ->
  w_chist (fst (exec (Call v true body) w)) = w_chist w ++ new ->
  w_vhist (fst (exec (Call v true body) w)) v = w_vhist w v ++ new.
Proof.
  intros v body w new Hq Hne Hnew. destruct (call_record v body w new Hnew) as (inner & E & Hi).
  rewrite (Hi Hq), decide_False in E by exact Hne. exact E.
Qed.
Print Assumptions C34_recorded.

Theorem C34_outstanding : forall v body w new,
  w_sync w v = false -> quiet_all v body -> new <> [] ->
  w_chist (fst (exec (Call v true body) w)) = w_chist w ++ new ->
  forall m, m ∈ w_vout (fst (exec (Call v true body) w)) v <->
            (m ∈ w_vout w v \/ m ∈ new) /\ m ∈ w_cout (fst (exec (Call v true body) w)).
Proof.
  intros v body w new Hs Hq Hne Hnew m. change (Call v true body) with (call v body) in *. rewrite (call_outstanding v body w new Hs Hq Hne Hnew). set_solver.
Qed.
Print Assumptions C34_outstanding.

(** With methods calling each other: everything sent is recorded, nothing is ever removed, and if
    every recording call sends something, nothing else is added; outside calls, everything a view
    holds as outstanding is outstanding. *)
Theorem C34_nested : forall v body w new,
  new <> [] -> w_chist (fst (exec (Call v true body) w)) = w_chist w ++ new ->
  (exists before, w_vhist (fst (exec (Call v true body) w)) v = w_vhist w v ++ before ++ new /\
     (sending v (Call v true body) -> forall m, m ∈ before -> m ∈ new)) /\
  (w_sync w v = false -> w_vout (fst (exec (Call v true body) w)) v ⊆ w_cout (fst (exec (Call v true body) w))).
Proof.
  intros v body w new Hne Hnew. split; [| apply call_outstanding_sub].
  destruct (call_records_all v body w new Hne Hnew) as [before E]. exists before. split; [exact E |].
  intros Hs m Hm. eapply (only_new_exec v _ Hs w new Hnew); [exact E |]. apply elem_of_app. left. exact Hm.
Qed.
Print Assumptions C34_nested.

(** Other views are not affected by methods that do not use them. *)
Theorem C34_others : forall v v' saves body w,
  v' <> v -> quiet_all v' body -> w_vhist (fst (exec (Call v saves body) w)) v' = w_vhist w v'.
Proof. intros v v' saves body w Hne Hq. apply quiet_exec. split; [left; congruence | exact Hq]. Qed.
Print Assumptions C34_others.

Definition w0 : world := World 0 [] ∅ (fun _ => []) (fun _ => ∅) (fun _ => false).
Definition hist_after (l : list act) (v : nat) : list nat := w_vhist (fst (execs l w0)) v.
Definition out_after (l : list act) (v : nat) : gset nat := w_vout (fst (execs l w0)) v.
Example C34_example :
  hist_after [Call 1 true [Send]; Call 2 true [Send; Send; RaiseErr]] 2 = [1; 2] /\
  hist_after [Call 1 true [Send; Send]; Reply 0; Call 1 true [Send]] 1 = [0; 1; 2] /\
  out_after [Call 1 true [Send; Send]; Reply 0; Call 1 true [Send]] 1 = {[1; 2]}.
Proof. split; [reflexivity |]. split; [reflexivity |]. apply (bool_decide_unpack _). vm_compute. exact I. Qed.

(** It fails for a call that sends nothing, e.g. one that raises before sending or a map over nothing:
    [history[-0:]] is the client's whole history (42), so messages of other views are recorded. *)
Theorem C34_no_messages_refuted :
  hist_after [Call 1 true [Send; Send]; Call 2 true [RaiseErr]] 2 = [0; 1] /\
  out_after [Call 1 true [Send; Send]; Call 2 true [RaiseErr]] 2 = {[0; 1]}.
Proof. split; [reflexivity |]. apply (bool_decide_unpack _). vm_compute. exact I. Qed.
Print Assumptions C34_no_messages_refuted.
(** LoadBalancedView.map and DirectView.gather are decorated and call decorated methods of the same
    view: each message is recorded twice. *)
Theorem C34_twice_refuted : hist_after [Call 1 true [Call 1 true [Send]; Call 1 true [Send]]] 1 = [0; 1; 0; 1].
Proof. reflexivity. Qed.
Print Assumptions C34_twice_refuted.
(** DirectView.map is not decorated with save_ids and sends through views of its own
    (remotefunction.py 279): nothing is recorded in the view itself. *)
Theorem C34_direct_map_refuted : hist_after [Call 1 false [Call 2 true [Send]; Call 3 true [Send]]] 1 = [] /\
  hist_after [Call 1 false [Call 2 true [Send]; Call 3 true [Send]]] 2 = [0].
Proof. split; reflexivity. Qed.
Print Assumptions C34_direct_map_refuted.

(** ** C46: any dependency that set_flags accepts reaches the scheduler with its meaning: it is met
    there exactly when the documentation says so. *)
Theorem C46_dependency_meaning : forall v,
  acceptable v -> constructed v ->
  exists r d, render_dependency v = VOk r /\ scheduler_reads r = Prelude.Ok d /\
    forall h, check d (h_ok h) (h_bad h) = true <-> fulfilled v h.
Proof.
  intros v Ha Hc. destruct (reads_as_meant v Hc (acceptable_valid v Ha)) as (r & d & Er & Ed & E1 & E2 & E3 & E4).
  exists r, d. split; [exact Er |]. split; [exact Ed |]. intros h. rewrite check_iff. unfold fulfilled.
  rewrite E1, E2, E3, E4. reflexivity.
Qed.
Print Assumptions C46_dependency_meaning.

(** set_flags accepts exactly the acceptable ones (None, an id, an AsyncResult, a Dependency, or a
    collection of ids and AsyncResults). *)
Theorem C46_accepted : forall f v s, f = Follow \/ f = After ->
  snd (set_flags Balanced [(inl f, v)] s) = None <-> acceptable v.
Proof.
  intros f v s Hf. split.
  - intros H. apply valid_acceptable.
    destruct (validate_dependency v) as [[|] | e] eqn:Ev; [reflexivity | exfalso | exfalso].
    + destruct Hf as [-> | ->]; cbv -[validate_dependency] in H; rewrite Ev in H; discriminate H.
    + destruct Hf as [-> | ->]; cbv -[validate_dependency] in H; rewrite Ev in H; discriminate H.
  - intros Ha. apply acceptable_valid in Ha.
    destruct Hf as [-> | ->]; cbv -[validate_dependency]; rewrite Ha; reflexivity.
Qed.
Print Assumptions C46_accepted.

(** The dict form, which the constructor of Dependency documents, is refused with KeyError although
    its keys are right (1256 looks for 'msg_ids'); assigned to the attribute directly it is accepted
    but its flags are lost (1275). *)
Theorem C46_dict_refuted :
  (forall d s, snd (set_flags Balanced [(inl After, VDict true d)] s) = Some KeyErr) /\
  exists v r d h, v = VDict true (as_dict (Dep {[1; 2]} false true false)) /\
    render_dependency v = VOk r /\ scheduler_reads r = Prelude.Ok d /\
    fulfilled v h /\ check d (h_ok h) (h_bad h) = false.
Proof.
  split; [reflexivity |].
  exists (VDict true (as_dict (Dep {[1; 2]} false true false))), (RList [1; 2]), (Dep {[1; 2]} true true false), (Hist {[1]} ∅).
  split; [reflexivity |]. split; [vm_compute; reflexivity |].
  split; [unfold scheduler_reads, mk_dep; cbn [negb orb]; do 2 f_equal; apply (bool_decide_unpack _); vm_compute; exact I |].
  split; [| vm_compute; reflexivity].
  right. exists 1. split; [cbn [named as_dict k_dependencies default d_ids from_option]; set_solver |]. left. split; [reflexivity | set_solver].
Qed.
Print Assumptions C46_dict_refuted.

Example C46_example : acceptable (VSeq [VStr 1; VAsync [2; 3]]) /\
  render_dependency (VSeq [VStr 1; VAsync [2; 3]]) = VOk (RList [1; 3; 2]) /\
  fulfilled (VSeq [VStr 1; VAsync [2; 3]]) (Hist {[1; 2; 3; 4]} ∅) /\ ~ fulfilled (VSeq [VStr 1; VAsync [2; 3]]) (Hist {[1; 2]} {[3]}).
Proof.
  split. { intros x Hx. repeat (apply elem_of_cons in Hx as [-> | Hx]; [eauto |]). inversion Hx. }
  split; [vm_compute; reflexivity |]. unfold fulfilled, met. cbn [needs_all on_success on_failure]. split.
  - intros m Hm. left. split; [reflexivity |]. cbn in Hm. set_solver.
  - intros H. destruct (H 3) as [[_ H3] | [H3 _]]; [cbn; set_solver | cbn in H3; set_solver | discriminate].
Qed.
