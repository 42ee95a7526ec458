(** Proofs for the client model (C37): it refines the specification in Client_Spec. *)
From stdpp Require Import base gmap list sorting.
From Verif Require Import RDict_Model Client_Model Client_Spec.

Ltac fields := cbn [engines eids history outstanding on_engine results metadata futures output_futures
  msg_future out_future hooked coalesced].
Ltac setters := unfold set_engines, set_hist, set_outst, set_on, set_results, set_meta, set_dicts, set_msgf,
  set_outf, set_hooks; fields.

(** Two states which differ only in what concerns message [m]. *)
Record only (m : mid) (s s' : client) : Prop := {
  o_engines : engines s' = engines s;
  o_eids : eids s' = eids s;
  o_coal : forall x, x <> m -> coalesced s' !! x = coalesced s !! x;
  o_outst : forall x, x <> m -> x ∈ outstanding s' <-> x ∈ outstanding s;
  o_on : forall x u, x <> m -> x ∈ on s' u <-> x ∈ on s u;
  o_results : forall x, x <> m -> results s' !! x = results s !! x;
  o_meta : forall x, x <> m -> x ∈ metadata s' <-> x ∈ metadata s;
  o_fut : forall x, x <> m -> x ∈ futures s' <-> x ∈ futures s;
  o_outs : forall x, x <> m -> x ∈ output_futures s' <-> x ∈ output_futures s;
  o_msgf : forall x, x <> m -> msg_future s' !! x = msg_future s !! x;
  o_outf : forall x, x <> m -> out_future s' !! x = out_future s !! x
}.
Lemma only_refl m s : only m s s.
Proof. split; intros; reflexivity. Qed.
Lemma only_trans m s1 s2 s3 : only m s1 s2 -> only m s2 s3 -> only m s1 s3.
Proof.
  intros [] []. split; try congruence; intros.
  all: first [ rewrite o_outst1, o_outst0 by assumption; reflexivity | rewrite o_on1, o_on0 by assumption; reflexivity
    | rewrite o_coal1, o_coal0 by assumption; reflexivity | rewrite o_meta1, o_meta0 by assumption; reflexivity | rewrite o_fut1, o_fut0 by assumption; reflexivity
    | rewrite o_outs1, o_outs0 by assumption; reflexivity | rewrite o_results1, o_results0 by assumption; reflexivity
    | rewrite o_msgf1, o_msgf0 by assumption; reflexivity | rewrite o_outf1, o_outf0 by assumption; reflexivity ].
Qed.

(** ** on_del *)
Lemma on_on_del u m s v : on (on_del u m s) v = if decide (u = v) then on s u ∖ {[m]} else on s v.
Proof.
  unfold on, on_del. setters. destruct (decide (u = v)) as [<- | Hn].
  - rewrite lookup_insert. reflexivity.
  - rewrite lookup_insert_ne by exact Hn. reflexivity.
Qed.
Lemma only_on_del u m s : only m s (on_del u m s).
Proof.
  split; try reflexivity. intros x v Hx. rewrite on_on_del. destruct (decide (u = v)) as [-> | ?]; [set_solver | reflexivity].
Qed.
Definition del_all (us : list nat) (m : mid) (s : client) : client := fold_left (fun s u => on_del u m s) us s.
Lemma del_all_fields us m : forall s,
  outstanding (del_all us m s) = outstanding s /\ results (del_all us m s) = results s /\
  metadata (del_all us m s) = metadata s /\ futures (del_all us m s) = futures s /\
  output_futures (del_all us m s) = output_futures s /\ msg_future (del_all us m s) = msg_future s /\
  out_future (del_all us m s) = out_future s /\ hooked (del_all us m s) = hooked s /\
  coalesced (del_all us m s) = coalesced s.
Proof.
  induction us as [| u us IH]; intros s; [repeat split |]. unfold del_all in *. cbn [fold_left].
  destruct (IH (on_del u m s)) as (-> & -> & -> & -> & -> & -> & -> & -> & ->). repeat split.
Qed.
Lemma only_del_all us m : forall s, only m s (del_all us m s).
Proof.
  induction us as [| u us IH]; intros s; [apply only_refl |]. unfold del_all. cbn [fold_left].
  eapply only_trans; [apply (only_on_del u) | apply IH].
Qed.
Lemma on_del_all us m : forall s v, m ∈ on (del_all us m s) v <-> m ∈ on s v /\ v ∉ us.
Proof.
  induction us as [| u us IH]; intros s v; unfold del_all; cbn [fold_left]; [set_solver |].
  fold (del_all us m (on_del u m s)). rewrite IH, on_on_del, not_elem_of_cons.
  destruct (decide (u = v)) as [-> | Hn]; [set_solver | intuition congruence].
Qed.

(** ** cleanup, set_result, output_done *)
Lemma only_cleanup m s : only m s (cleanup m s).
Proof.
  unfold cleanup. destruct (_ && _); [| apply only_refl]. split; setters; try reflexivity; intros x Hx; try set_solver.
  apply lookup_delete_ne. congruence.
Qed.
Lemma cleanup_fields m s : let s' := cleanup m s in
  outstanding s' = outstanding s /\ on_engine s' = on_engine s /\ msg_future s' = msg_future s /\
  out_future s' = out_future s /\ (s' = s \/ all_done m s = true) /\ futures s' ⊆ futures s /\
  (results s !! m = None -> results s' !! m = None).
Proof.
  unfold cleanup. destruct (bool_decide _ && all_done m s) eqn:E; cbv zeta.
  - setters. repeat split; auto; [right; destruct (all_done m s); [reflexivity |]; rewrite andb_false_r in E; discriminate | set_solver |].
    intros _. apply lookup_delete.
  - repeat split; auto.
Qed.
Lemma on_cleanup m s u : on (cleanup m s) u = on s u.
Proof. unfold on. destruct (cleanup_fields m s) as (_ & -> & _). reflexivity. Qed.

Lemma only_output_done m s : only m s (output_done m s).
Proof.
  unfold output_done. destruct (bool_decide _); [| apply only_refl].
  destruct (out_future s !! m) as [[] |]; try apply only_refl.
  eapply only_trans; [| apply only_cleanup]. split; setters; try reflexivity.
  intros x Hx. apply lookup_insert_ne. congruence.
Qed.
Lemma output_done_fields m s : let s' := output_done m s in
  outstanding s' = outstanding s /\ on_engine s' = on_engine s /\ msg_future s' = msg_future s /\
  (m ∈ output_futures s -> out_future s !! m <> Some false \/ out_future s' !! m = Some true) /\
  (out_future s !! m = Some true -> out_future s' !! m = Some true) /\
  (out_future s' !! m = Some false -> s' = s) /\
  (is_Some (out_future s !! m) -> is_Some (out_future s' !! m)) /\
  futures s' ⊆ futures s.
Proof.
  unfold output_done. destruct (bool_decide _) eqn:E; cbv zeta.
  2: { repeat split; auto. intros H. apply bool_decide_eq_false in E. contradiction. }
  destruct (out_future s !! m) as [[] |] eqn:O.
  - repeat split; auto; intros; solve [left; congruence | discriminate | congruence].
  - set (s1 := set_outf _ s). destruct (cleanup_fields m s1) as (-> & -> & -> & -> & _ & F & _).
    assert (O1 : out_future s1 !! m = Some true) by (unfold s1; setters; apply lookup_insert).
    rewrite O1. repeat split; auto; try congruence.
  - repeat split; auto; intros; solve [left; congruence | discriminate | congruence].
Qed.
Lemma on_output_done m s u : on (output_done m s) u = on s u.
Proof. unfold on. destruct (output_done_fields m s) as (_ & -> & _). reflexivity. Qed.

Lemma only_rm m s : only m s (rm_outstanding m s).
Proof. unfold rm_outstanding. destruct (coalesced s !! m); [apply only_del_all | apply only_refl]. Qed.
Lemma only_set_result m r s : only m s (fst (set_result m r s)).
Proof.
  unfold set_result. destruct (msg_future s !! m) as [[] |]; try apply only_refl. cbn [fst].
  eapply only_trans; [| apply only_cleanup]. eapply only_trans; [| apply only_rm].
  split; setters; try reflexivity. intros x Hx. apply lookup_insert_ne. congruence.
Qed.

(** ** handle_reply *)
Lemma handle_only x m us r s : only m s (fst (handle_reply x m us r s)).
Proof.
  unfold handle_reply. destruct (_ && _ && _ && _); [apply only_refl |].
  assert (B : only m s (del_all us m (set_meta ({[m]} ∪ metadata s) (set_outst (outstanding s ∖ {[m]}) s)))).
  { eapply only_trans; [| apply only_del_all]. split; setters; try reflexivity; set_solver. }
  cbv zeta. fold (del_all us m (set_meta ({[m]} ∪ metadata s) (set_outst (outstanding s ∖ {[m]}) s))).
  set (s1 := del_all us m _) in *.
  assert (FIN : forall s2, only m s1 s2 -> only m s (fst
    (if bool_decide (m ∈ futures s) then match results s2 !! m with Some x => set_result m x s2 | None => (s2, Some KeyErr) end
     else (s2, None)))).
  { intros s2 H2. destruct (bool_decide _); [| exact (only_trans _ _ _ _ B H2)].
    destruct (results s2 !! m); [| exact (only_trans _ _ _ _ B H2)].
    eapply only_trans; [exact B |]. eapply only_trans; [exact H2 | apply only_set_result]. }
  assert (SR : forall v, only m s1 (set_results (<[m := v]> (results s1)) s1)).
  { intros v. split; setters; try reflexivity. intros y Hy. apply lookup_insert_ne. congruence. }
  destruct r as [v | | v info | |]; cbn [fst].
  - apply FIN, SR.
  - exact B.
  - apply FIN. destruct info; [apply SR |]. eapply only_trans; [apply SR | apply only_output_done].
  - apply FIN. eapply only_trans; [apply SR | apply only_output_done].
  - apply FIN, only_output_done.
Qed.

Lemma cleanup_pending m s : all_done m s = false -> cleanup m s = s.
Proof. intros E. unfold cleanup. rewrite E, andb_false_r. reflexivity. Qed.

Lemma set_result_pending m r s : msg_future s !! m = Some None ->
  let s' := fst (set_result m r s) in
  snd (set_result m r s) = None /\ outstanding s' = outstanding s /\ msg_future s' !! m = Some (Some r) /\
  out_future s' = out_future s /\
  (forall u, m ∈ on s' u <-> m ∈ on s u /\ forall vs, coalesced s !! m = Some vs -> u ∉ vs) /\
  (out_future s !! m = Some false -> output_futures s' = output_futures s /\ metadata s' = metadata s).
Proof.
  intros E. unfold set_result. rewrite E. cbn [fst snd]. cbv zeta.
  set (s1 := set_msgf _ s). assert (M1 : msg_future s1 !! m = Some (Some r)) by (unfold s1; setters; apply lookup_insert).
  set (s2 := rm_outstanding m s1).
  assert (F : outstanding s2 = outstanding s1 /\ msg_future s2 = msg_future s1 /\ out_future s2 = out_future s1 /\
    output_futures s2 = output_futures s1 /\ metadata s2 = metadata s1 /\
    forall u, m ∈ on s2 u <-> m ∈ on s u /\ forall vs, coalesced s !! m = Some vs -> u ∉ vs).
  { unfold s2, rm_outstanding. change (coalesced s1) with (coalesced s). destruct (coalesced s !! m) as [vs |].
    - fold (del_all vs m s1). pose proof (del_all_fields vs m s1) as (-> & _ & -> & _ & -> & -> & -> & _).
      repeat split; auto; intros; rewrite ?on_del_all in *.
      + tauto.
      + intros. intros Hin. destruct H as [_ H]. congruence.
      + split; [tauto |]. apply H. reflexivity.
    - repeat split; auto; [intros; discriminate | tauto]. }
  destruct F as (F1 & F2 & F3 & F4 & F5 & F6).
  destruct (cleanup_fields m s2) as (-> & _ & -> & -> & C & _ & _).
  rewrite F1, F2, F3, M1. repeat split.
  - rewrite on_cleanup in H; apply F6 in H; tauto.
  - rewrite on_cleanup in H. apply F6 in H. apply H.
  - intros H. rewrite on_cleanup. apply F6. exact H.
  - destruct C as [-> | C]; [rewrite F4; reflexivity |]. unfold all_done in C.
    rewrite F2, M1, F3 in C. change (out_future s1) with (out_future s) in C. rewrite H in C. discriminate.
  - destruct C as [-> | C]; [rewrite F5; reflexivity |]. unfold all_done in C.
    rewrite F2, M1, F3 in C. change (out_future s1) with (out_future s) in C. rewrite H in C. discriminate.
Qed.

(** The reply completes the outputs too. *)
Definition no_output (r : reply) : bool :=
  match r with RError _ false | RAborted | RResubmitted => true | _ => false end.

Lemma handle_answer x m us r s :
  m ∈ outstanding s -> m ∈ futures s -> results s !! m = None -> msg_future s !! m = Some None ->
  let s' := fst (handle_reply x m us r s) in
  outstanding s' = outstanding s ∖ {[m]} /\ msg_future s' !! m = Some (outcome r) /\
  (forall u, m ∈ on s' u -> m ∈ on s u /\ u ∉ us /\ (outcome r <> None -> forall vs, coalesced s !! m = Some vs -> u ∉ vs)) /\
  (outcome r <> None -> snd (handle_reply x m us r s) = None) /\
  (is_Some (out_future s !! m) -> is_Some (out_future s' !! m)) /\
  (out_future s !! m = Some true -> out_future s' !! m = Some true) /\
  (m ∈ output_futures s -> no_output r = true -> is_Some (out_future s !! m) -> out_future s' !! m = Some true) /\
  (out_future s' !! m = Some false -> m ∈ output_futures s -> m ∈ output_futures s' /\ m ∈ metadata s').
Proof.
  intros Ho Hf Hr Hm. unfold handle_reply. rewrite !(bool_decide_eq_true_2 _ Ho). cbn [negb andb].
  cbv zeta. set (s0 := set_meta _ _). fold (del_all us m s0). set (s1 := del_all us m s0).
  rewrite (bool_decide_eq_true_2 _ Hf).
  pose proof (del_all_fields us m s0) as (D1 & D2 & D3 & D4 & D5 & D6 & D7 & D8 & D9). fold s1 in D1, D2, D3, D4, D5, D6, D7, D8, D9.
  assert (O1 : forall u, m ∈ on s1 u <-> m ∈ on s u /\ u ∉ us) by (intros u; apply (on_del_all us m s0 u)).
  change (outstanding s0) with (outstanding s ∖ {[m]}) in D1. change (msg_future s0) with (msg_future s) in D6.
  change (out_future s0) with (out_future s) in D7. change (output_futures s0) with (output_futures s) in D5.
  change (results s0) with (results s) in D2. change (coalesced s0) with (coalesced s) in D9.
  assert (M1 : m ∈ metadata s1) by (rewrite D3; unfold s0; setters; set_solver).
  assert (PEND : forall s2, msg_future s2 !! m = Some None -> (forall h, cleanup m (set_outf h s2) = set_outf h s2)).
  { intros s2 H2 h. apply cleanup_pending. unfold all_done. setters. rewrite H2. reflexivity. }
  assert (OD : forall s2, msg_future s2 !! m = Some None -> m ∈ output_futures s2 -> is_Some (out_future s2 !! m) ->
    output_done m s2 = set_outf (<[m := true]> (out_future s2)) s2).
  { intros s2 H2 Hin [b Hb]. unfold output_done. rewrite (bool_decide_eq_true_2 _ Hin), Hb.
    destruct b; [| apply PEND, H2]. destruct s2. setters. f_equal. cbn in *. rewrite insert_id by exact Hb. reflexivity. }
  assert (OD2 : forall s2, msg_future s2 !! m = Some None ->
    exists h, output_done m s2 = set_outf h s2 /\ (is_Some (out_future s2 !! m) -> is_Some (h !! m)) /\ (out_future s2 !! m = Some true -> h !! m = Some true) /\
      (m ∈ output_futures s2 -> is_Some (out_future s2 !! m) -> h !! m = Some true) /\
      (h !! m = Some false -> h = out_future s2)).
  { intros s2 H2. unfold output_done. destruct (bool_decide (m ∈ output_futures s2)) eqn:E.
    - destruct (out_future s2 !! m) as [[] |] eqn:O.
      + exists (out_future s2). split; [destruct s2; reflexivity |]. repeat split; auto; congruence.
      + exists (<[m := true]> (out_future s2)). rewrite PEND by exact H2. split; [reflexivity |].
        rewrite lookup_insert. repeat split; auto; congruence.
      + exists (out_future s2). split; [destruct s2; reflexivity |]. repeat split; auto; try congruence. intros _ [? ?]; congruence.
    - apply bool_decide_eq_false in E. exists (out_future s2). split; [destruct s2; reflexivity |].
      repeat split; auto. contradiction. }
  assert (FIN : forall v s2, results s2 !! m = Some v -> msg_future s2 !! m = Some None -> outstanding s2 = outstanding s1 ->
      coalesced s2 = coalesced s1 -> on_engine s2 = on_engine s1 -> output_futures s2 = output_futures s1 -> metadata s2 = metadata s1 ->
      (is_Some (out_future s !! m) -> is_Some (out_future s2 !! m)) ->
      (out_future s !! m = Some true -> out_future s2 !! m = Some true) ->
      (m ∈ output_futures s -> no_output r = true -> is_Some (out_future s !! m) -> out_future s2 !! m = Some true) ->
      outcome r = Some v ->
      let p := match results s2 !! m with Some x => set_result m x s2 | None => (s2, Some KeyErr) end in
      let s' := fst p in
      outstanding s' = outstanding s ∖ {[m]} /\ msg_future s' !! m = Some (outcome r) /\
      (forall u, m ∈ on s' u -> m ∈ on s u /\ u ∉ us /\ (outcome r <> None -> forall vs, coalesced s !! m = Some vs -> u ∉ vs)) /\
      (outcome r <> None -> snd p = None) /\
      (is_Some (out_future s !! m) -> is_Some (out_future s' !! m)) /\
      (out_future s !! m = Some true -> out_future s' !! m = Some true) /\
      (m ∈ output_futures s -> no_output r = true -> is_Some (out_future s !! m) -> out_future s' !! m = Some true) /\
      (out_future s' !! m = Some false -> m ∈ output_futures s -> m ∈ output_futures s' /\ m ∈ metadata s')).
  { intros v s2 R2 Q2 U2 C2 N2 F2 T2 I2 J2 W2 Er. cbv zeta. rewrite R2.
    destruct (set_result_pending m v s2 Q2) as (X1 & X2 & X3 & X4 & X5 & X6).
    rewrite X1, X2, X3, X4, U2, D1, Er. repeat split; auto; intros.
    - apply X5 in H. destruct H as [H _]. unfold on in H. rewrite N2 in H. apply O1 in H. tauto.
    - apply X5 in H. destruct H as [H _]. unfold on in H. rewrite N2 in H. apply O1 in H. tauto.
    - apply X5 in H. destruct H as [_ H]. apply H. rewrite C2, D9. assumption.
    - destruct (X6 H) as [-> _]. rewrite F2, D5. assumption.
    - destruct (X6 H) as [_ ->]. rewrite T2. assumption. }
  assert (Q1 : msg_future s1 !! m = Some None) by (rewrite D6; exact Hm).
  destruct r as [v | | v info | |].
  - apply (FIN (Value v)); setters; try reflexivity; [apply lookup_insert | exact Q1 | rewrite D7; auto | rewrite D7; auto | discriminate].
  - cbn [fst snd outcome no_output]. rewrite D1, D6, D7, D5. repeat split; auto; try congruence; try discriminate.
    + apply O1 in H. tauto.
    + apply O1 in H. tauto.
  - destruct info.
    + apply (FIN v); setters; try reflexivity; [apply lookup_insert | exact Q1 | rewrite D7; auto | rewrite D7; auto | discriminate].
    + destruct (OD2 (set_results (<[m := v]> (results s1)) s1) Q1) as (h & -> & H1 & H4 & H2 & H3).
      change (out_future (set_results _ s1)) with (out_future s1) in H1, H2, H3, H4. change (output_futures (set_results _ s1)) with (output_futures s1) in H2.
      rewrite D7 in H1, H2, H4. rewrite D5 in H2.
      apply (FIN v); setters; try reflexivity; [apply lookup_insert | exact Q1 | exact H1 | exact H4 | auto].
  - destruct (OD2 (set_results (<[m := TaskAborted]> (results s1)) s1) Q1) as (h & -> & H1 & H4 & H2 & H3).
    change (out_future (set_results _ s1)) with (out_future s1) in H1, H2, H3, H4. change (output_futures (set_results _ s1)) with (output_futures s1) in H2.
    rewrite D7 in H1, H2, H4. rewrite D5 in H2.
    apply (FIN TaskAborted); setters; try reflexivity; [apply lookup_insert | exact Q1 | exact H1 | exact H4 | auto].
  - destruct (OD2 s1 Q1) as (h & -> & H1 & H4 & H2 & H3). rewrite D7 in H1, H2, H3, H4. rewrite D5 in H2.
    setters. rewrite D2, Hr. cbn [fst snd outcome no_output]. setters. rewrite D1, D6, D5. repeat split; auto; try congruence.
    + change (m ∈ on s1 u) in H. apply O1 in H. tauto.
    + change (m ∈ on s1 u) in H. apply O1 in H. tauto.
Qed.

Lemma cleanup_keeps m s : (forall r, msg_future s !! m <> Some (Some r)) -> cleanup m s = s.
Proof.
  intros E. apply cleanup_pending. unfold all_done. destruct (msg_future s !! m) as [[r |] |] eqn:X; try reflexivity.
  destruct (E r eq_refl).
Qed.
Lemma output_done_keeps m s : (forall r, msg_future s !! m <> Some (Some r)) ->
  futures (output_done m s) = futures s /\ results (output_done m s) = results s.
Proof.
  intros E. unfold output_done. destruct (bool_decide _); [| auto]. destruct (out_future s !! m) as [[] |]; auto.
  rewrite cleanup_keeps; [auto |]. exact E.
Qed.

Lemma set_result_done m r r0 s : msg_future s !! m = Some (Some r0) -> set_result m r s = (s, Some InvalidState).
Proof. intros E. unfold set_result. rewrite E. reflexivity. Qed.

Lemma handle_stale x m us r r0 s : m ∉ outstanding s -> msg_future s !! m = Some (Some r0) ->
  let s' := fst (handle_reply x m us r s) in
  (forall y, y ∈ outstanding s' <-> y ∈ outstanding s) /\ msg_future s' = msg_future s /\
  (forall u, m ∈ on s' u -> m ∈ on s u) /\
  (is_Some (out_future s !! m) -> is_Some (out_future s' !! m)) /\
  (out_future s !! m = Some true -> out_future s' !! m = Some true) /\
  (out_future s' !! m = Some false -> m ∈ output_futures s -> m ∈ metadata s -> m ∈ output_futures s' /\ m ∈ metadata s') /\
  (m ∈ futures s' -> m ∈ futures s).
Proof.
  intros Ho Hm. unfold handle_reply. destruct (_ && _ && _ && _); [cbn [fst]; repeat split; auto |].
  cbv zeta. set (s0 := set_meta _ _). fold (del_all us m s0). set (s1 := del_all us m s0).
  pose proof (del_all_fields us m s0) as (D1 & D2 & D3 & D4 & D5 & D6 & D7 & D8 & D9). fold s1 in D1, D2, D3, D4, D5, D6, D7, D8, D9.
  assert (O1 : forall u, m ∈ on s1 u <-> m ∈ on s u /\ u ∉ us) by (intros u; apply (on_del_all us m s0 u)).
  change (outstanding s0) with (outstanding s ∖ {[m]}) in D1. change (msg_future s0) with (msg_future s) in D6.
  change (out_future s0) with (out_future s) in D7. change (output_futures s0) with (output_futures s) in D5.
  change (futures s0) with (futures s) in D4.
  assert (M1 : m ∈ metadata s1) by (rewrite D3; unfold s0; setters; set_solver).
  assert (P : forall s2, outstanding s2 = outstanding s1 -> msg_future s2 = msg_future s1 -> on_engine s2 = on_engine s1 ->
     futures s2 ⊆ futures s1 -> (is_Some (out_future s1 !! m) -> is_Some (out_future s2 !! m)) ->
     (out_future s1 !! m = Some true -> out_future s2 !! m = Some true) ->
     (out_future s2 !! m = Some false -> m ∈ output_futures s1 -> m ∈ output_futures s2 /\ m ∈ metadata s2) ->
     forall o, let s' := fst (if bool_decide (m ∈ futures s)
        then match results s2 !! m with Some x => set_result m x s2 | None => (s2, Some KeyErr) end else (s2, o)) in
     (forall y, y ∈ outstanding s' <-> y ∈ outstanding s) /\ msg_future s' = msg_future s /\
     (forall u, m ∈ on s' u -> m ∈ on s u) /\
     (is_Some (out_future s !! m) -> is_Some (out_future s' !! m)) /\
     (out_future s !! m = Some true -> out_future s' !! m = Some true) /\
     (out_future s' !! m = Some false -> m ∈ output_futures s -> m ∈ metadata s -> m ∈ output_futures s' /\ m ∈ metadata s') /\
     (m ∈ futures s' -> m ∈ futures s)).
  { intros s2 H1 H2 H3 H4 H5 H6 H7 o. cbv zeta.
    assert (E : fst (if bool_decide (m ∈ futures s)
        then match results s2 !! m with Some x => set_result m x s2 | None => (s2, Some KeyErr) end else (s2, o)) = s2).
    { destruct (bool_decide _); [| reflexivity]. destruct (results s2 !! m); [| reflexivity].
      rewrite (set_result_done m _ r0); [reflexivity |]. rewrite H2, D6. exact Hm. }
    rewrite E, H1, H2, D1, D6. rewrite D7 in *. rewrite D5 in *. rewrite D4 in *. split; [set_solver |]. split; [reflexivity |].
    split. { intros u Hu. unfold on in Hu. rewrite H3 in Hu. apply O1 in Hu. tauto. }
    repeat split; auto; apply H7; assumption. }
  assert (Q : forall s2, outstanding s2 = outstanding s1 -> msg_future s2 = msg_future s1 -> on_engine s2 = on_engine s1 ->
     futures s2 = futures s1 -> out_future s2 = out_future s1 -> output_futures s2 = output_futures s1 -> metadata s2 = metadata s1 ->
     let s3 := output_done m s2 in
     outstanding s3 = outstanding s1 /\ msg_future s3 = msg_future s1 /\ on_engine s3 = on_engine s1 /\
     futures s3 ⊆ futures s1 /\ (is_Some (out_future s1 !! m) -> is_Some (out_future s3 !! m)) /\
     (out_future s1 !! m = Some true -> out_future s3 !! m = Some true) /\
     (out_future s3 !! m = Some false -> m ∈ output_futures s1 -> m ∈ output_futures s3 /\ m ∈ metadata s3)).
  { intros s2 H1 H2 H3 H4 H5 H6 H7. destruct (output_done_fields m s2) as (F1 & F2 & F3 & F4 & F5 & F6 & F7 & F8).
    cbv zeta. rewrite F1, F2, F3, H1, H2, H3. rewrite H5 in *. rewrite H4 in F8. repeat split; auto.
    - rewrite (F6 H), H6. assumption.
    - rewrite (F6 H), H7. assumption. }
  destruct r as [v | | v info | |].
  - apply P; setters; auto.
  - cbn [fst]. rewrite D1, D6, D7, D5, D4. split; [set_solver |]. repeat split; auto. intros u Hu. apply O1 in Hu. tauto.
  - destruct info; [apply P; setters; auto |].
    destruct (Q (set_results (<[m := v]> (results s1)) s1)) as (? & ? & ? & ? & ? & ? & ?); setters; auto.
  - destruct (Q (set_results (<[m := TaskAborted]> (results s1)) s1)) as (? & ? & ? & ? & ? & ? & ?); setters; auto.
  - destruct (Q s1) as (? & ? & ? & ? & ? & ? & ?); auto.
Qed.

(** ** The refinement *)
Record rel (w : world) (s : client) : Prop := {
  r_eng : forall e k, fwd (engines s) !! inl e = Some k <-> exists u, k = inr u /\ live w !! e = Some u;
  r_keys : forall k v, fwd (engines s) !! k = Some v -> exists e, k = inl e;
  r_rev : forall k v, rev (engines s) !! v = Some k <-> fwd (engines s) !! k = Some v;
  r_eids : forall e, e ∈ eids s <-> is_Some (live w !! e);
  r_out : forall m, m ∈ outstanding s <-> m ∈ out w;
  r_on : forall m u, m ∈ on s u <-> m ∈ out w /\ u ∈ routes w m;
  r_fut : forall m, m ∈ used w -> msg_future s !! m = Some (res w !! m);
  r_unused : forall m, m ∉ used w -> res w !! m = None;
  r_pend : forall m, m ∈ out w -> m ∈ tasks w /\ m ∈ futures s /\ results s !! m = None /\ res w !! m = None /\ m ∉ purged w;
  r_coal : forall m, m ∈ out w -> coalesced s !! m = Some (routes w m) \/ forall u, u ∈ routes w m -> routes w m = [u];
  r_dis : forall m, m ∈ tasks w -> m ∉ requests w;
  r_isout : forall m, m ∈ tasks w -> is_Some (out_future s !! m);
  r_outp : forall m, m ∈ tasks w -> m ∉ purged w -> out_future s !! m = Some false -> m ∈ output_futures s /\ m ∈ metadata s;
  r_req : forall m, m ∈ requests w -> res w !! m = None -> (m ∈ futures s <-> m ∉ purged w);
  r_purged : purged w ⊆ used w;
  r_futs : forall m, m ∈ futures s -> m ∈ used w;
  r_results : forall m, m ∉ used w -> results s !! m = None
}.

Lemma rel_empty : rel new_world empty_client.
Proof.
  split; unfold empty_client, new_world, used, routes, on; fields;
    cbn [live tasks requests out route res purged fwd rev]; intros; rewrite ?lookup_empty in *;
    first [ discriminate | set_solver | split; [discriminate | intros (? & _ & ?); discriminate]
          | split; [set_solver | intros [? ?]; discriminate] | split; discriminate | cbn; set_solver ].
Qed.

(** A reply to a waiting task. *)
Lemma rel_answer w s x m us r : rel w s -> m ∈ out w ->
  (forall u, u ∈ routes w m -> u ∈ us \/ (outcome r <> None /\ coalesced s !! m = Some (routes w m))) ->
  let s' := fst (handle_reply x m us r s) in
  rel (answered m (outcome r) w) s' /\ only m s s' /\ (outcome r <> None -> snd (handle_reply x m us r s) = None) /\
  (no_output r = true -> out_future s' !! m = Some true).
Proof.
  intros R Hin Hus. pose proof (handle_only x m us r s) as Only. cbv zeta.
  destruct (r_pend _ _ R m Hin) as (Ht & Hf & Hr & Hres & Hnp).
  assert (Hm : msg_future s !! m = Some None) by (rewrite (r_fut _ _ R) by (unfold used; set_solver); rewrite Hres; reflexivity).
  destruct (handle_answer x m us r s (proj2 (r_out _ _ R m) Hin) Hf Hr Hm) as (A1 & A2 & A3 & A4 & A5 & A8 & A6 & A7).
  set (s' := fst (handle_reply x m us r s)) in *.
  split; [| split; [exact Only | split; [exact A4 |]]].
  2: { intros Hno. destruct (out_future s !! m) as [[] |] eqn:E.
       - apply A8. reflexivity.
       - apply A6; eauto. apply (r_outp _ _ R m Ht Hnp E).
       - destruct (r_isout _ _ R m Ht); congruence. }
  assert (U : forall y, y ∈ used (answered m (outcome r) w) <-> y ∈ used w) by reflexivity.
  assert (RS : forall y, y <> m -> res (answered m (outcome r) w) !! y = res w !! y).
  { intros y Hy. unfold answered. cbn [res]. destruct (outcome r); [| reflexivity]. apply lookup_insert_ne. congruence. }
  assert (RM : res (answered m (outcome r) w) !! m = outcome r).
  { unfold answered. cbn [res]. destruct (outcome r); [apply lookup_insert | exact Hres]. }
  split; try (rewrite (o_engines _ _ _ Only)); try (rewrite (o_eids _ _ _ Only)).
  - apply (r_eng _ _ R).
  - apply (r_keys _ _ R).
  - apply (r_rev _ _ R).
  - apply (r_eids _ _ R).
  - intros y. rewrite A1. cbn [answered out]. rewrite !elem_of_difference, (r_out _ _ R). reflexivity.
  - intros y u. cbn [answered out]. change (routes (answered m (outcome r) w) y) with (routes w y).
    destruct (decide (y = m)) as [-> | Hy].
    + split; [| set_solver]. intros Hon. destruct (A3 u Hon) as (B1 & B2 & B3). apply (r_on _ _ R) in B1. destruct B1 as [_ B1].
      destruct (Hus u B1) as [? | [Hne Hc]]; [contradiction |]. destruct (B3 Hne _ Hc B1).
    + rewrite (o_on _ _ _ Only y u Hy), (r_on _ _ R). set_solver.
  - intros y Hy. apply U in Hy. destruct (decide (y = m)) as [-> | Hne].
    + rewrite A2, RM. reflexivity.
    + rewrite (o_msgf _ _ _ Only y Hne), RS by exact Hne. apply (r_fut _ _ R), Hy.
  - intros y Hy. destruct (decide (y = m)) as [-> | Hne].
    + exfalso. apply Hy, U. unfold used. set_solver.
    + rewrite RS by exact Hne. apply (r_unused _ _ R). intros H. apply Hy, U, H.
  - intros y Hy. cbn [answered out] in Hy. apply elem_of_difference in Hy. destruct Hy as [Hy Hne].
    apply not_elem_of_singleton in Hne. destruct (r_pend _ _ R y Hy) as (B1 & B2 & B3 & B4 & B5).
    rewrite RS, (o_results _ _ _ Only), (o_fut _ _ _ Only) by exact Hne. auto.
  - intros y Hy. cbn [answered out] in Hy. rewrite (o_coal _ _ _ Only y) by set_solver. apply (r_coal _ _ R y). set_solver.
  - apply (r_dis _ _ R).
  - intros y Hy. destruct (decide (y = m)) as [-> | Hne]; [apply A5, (r_isout _ _ R), Hy |].
    rewrite (o_outf _ _ _ Only y Hne). apply (r_isout _ _ R), Hy.
  - intros y Hy Hp Hfalse. destruct (decide (y = m)) as [-> | Hne].
    + apply (A7 Hfalse). destruct (out_future s !! m) as [[] |] eqn:E.
      * rewrite A8 in Hfalse by reflexivity. discriminate.
      * apply (r_outp _ _ R m Ht Hnp E).
      * destruct (r_isout _ _ R m Ht); congruence.
    + rewrite (o_outf _ _ _ Only y Hne) in Hfalse. rewrite (o_outs _ _ _ Only y Hne), (o_meta _ _ _ Only y Hne).
      apply (r_outp _ _ R); assumption.
  - intros y Hy Hn. destruct (decide (y = m)) as [-> | Hne]; [destruct (r_dis _ _ R m Ht Hy) |].
    rewrite (o_fut _ _ _ Only y Hne). rewrite RS in Hn by exact Hne. apply (r_req _ _ R); assumption.
  - apply (r_purged _ _ R).
  - intros y Hy. apply U. destruct (decide (y = m)) as [-> | Hne]; [unfold used; set_solver |].
    apply (r_futs _ _ R), (o_fut _ _ _ Only y Hne), Hy.
  - intros y Hy. assert (Hne : y <> m) by (intros ->; apply Hy; apply elem_of_union_l, Ht).
    rewrite (o_results _ _ _ Only y Hne). apply (r_results _ _ R), Hy.
Qed.

Lemma rel_stale w s x m us r : rel w s -> m ∈ tasks w -> m ∉ out w -> is_Some (res w !! m) ->
  rel w (fst (handle_reply x m us r s)) /\
  (forall y, out_future s !! y = Some true -> out_future (fst (handle_reply x m us r s)) !! y = Some true).
Proof.
  intros R Ht Ho [r0 Hr]. pose proof (handle_only x m us r s) as Only.
  assert (Hm : msg_future s !! m = Some (Some r0)) by (rewrite (r_fut _ _ R) by (unfold used; set_solver); congruence).
  assert (Ho' : m ∉ outstanding s) by (rewrite (r_out _ _ R); exact Ho).
  destruct (handle_stale x m us r r0 s Ho' Hm) as (A1 & A2 & A3 & A4 & A5 & A6 & A7).
  set (s' := fst (handle_reply x m us r s)) in *.
  split.
  2: { intros y. destruct (decide (y = m)) as [-> | Hne]; [exact A5 | rewrite (o_outf _ _ _ Only y Hne); auto]. }
  split; try (rewrite (o_engines _ _ _ Only)); try (rewrite (o_eids _ _ _ Only)).
  - apply (r_eng _ _ R).
  - apply (r_keys _ _ R).
  - apply (r_rev _ _ R).
  - apply (r_eids _ _ R).
  - intros y. rewrite A1. apply (r_out _ _ R).
  - intros y u. destruct (decide (y = m)) as [-> | Hy].
    + split; [intros Hon; apply (r_on _ _ R), A3, Hon | intros [H _]; contradiction].
    + rewrite (o_on _ _ _ Only y u Hy). apply (r_on _ _ R).
  - rewrite A2. apply (r_fut _ _ R).
  - apply (r_unused _ _ R).
  - intros y Hy. assert (Hne : y <> m) by (intros ->; contradiction).
    rewrite (o_results _ _ _ Only), (o_fut _ _ _ Only) by exact Hne. apply (r_pend _ _ R y Hy).
  - intros y Hy. rewrite (o_coal _ _ _ Only y) by (intros ->; contradiction). apply (r_coal _ _ R), Hy.
  - apply (r_dis _ _ R).
  - intros y Hy. destruct (decide (y = m)) as [-> | Hne]; [apply A4, (r_isout _ _ R), Hy |].
    rewrite (o_outf _ _ _ Only y Hne). apply (r_isout _ _ R), Hy.
  - intros y Hy Hp Hfalse. destruct (decide (y = m)) as [-> | Hne].
    + destruct (out_future s !! m) as [[] |] eqn:E.
      * rewrite A5 in Hfalse by reflexivity. discriminate.
      * destruct (r_outp _ _ R m Ht Hp E). apply A6; assumption.
      * destruct (r_isout _ _ R m Ht); congruence.
    + rewrite (o_outf _ _ _ Only y Hne) in Hfalse. rewrite (o_outs _ _ _ Only y Hne), (o_meta _ _ _ Only y Hne).
      apply (r_outp _ _ R); assumption.
  - intros y Hy Hn. destruct (decide (y = m)) as [-> | Hne]; [congruence |].
    rewrite (o_fut _ _ _ Only y Hne). apply (r_req _ _ R); assumption.
  - apply (r_purged _ _ R).
  - intros y Hy. destruct (decide (y = m)) as [-> | Hne]; [unfold used; set_solver |].
    apply (r_futs _ _ R), (o_fut _ _ _ Only y Hne), Hy.
  - intros y Hy. assert (Hne : y <> m) by (intros ->; apply Hy; apply elem_of_union_l, Ht).
    rewrite (o_results _ _ _ Only y Hne). apply (r_results _ _ R), Hy.
Qed.

(** ** New tasks *)
Lemma rel_issue w s s' m us : rel w s -> only m s s' -> m ∉ used w ->
  m ∈ outstanding s' -> (forall u, m ∈ on s' u <-> u ∈ us) -> results s' !! m = None ->
  m ∈ metadata s' -> m ∈ futures s' -> m ∈ output_futures s' -> msg_future s' !! m = Some None ->
  out_future s' !! m = Some false ->
  (coalesced s' !! m = Some us \/ forall u, u ∈ us -> us = [u]) ->
  rel (issued us w m) s'.
Proof.
  intros R Only Hu H1 H2 H3 H4 H5 H6 H7 H8 H9.
  assert (U : forall y, y ∈ used (issued us w m) <-> y = m \/ y ∈ used w) by (unfold used; cbn [issued tasks requests]; set_solver).
  assert (RT : forall y, y <> m -> routes (issued us w m) y = routes w y).
  { intros y Hy. unfold routes. cbn [issued route]. rewrite lookup_insert_ne by congruence. reflexivity. }
  assert (RM : routes (issued us w m) m = us) by (unfold routes; cbn [issued route]; rewrite lookup_insert; reflexivity).
  assert (Hut : m ∉ tasks w /\ m ∉ requests w) by (unfold used in Hu; set_solver).
  assert (Hout : m ∉ out w) by (intros X; destruct Hut as [Hut _]; apply Hut, (r_pend _ _ R m X)).
  split; try (rewrite (o_engines _ _ _ Only)); try (rewrite (o_eids _ _ _ Only)).
  - apply (r_eng _ _ R).
  - apply (r_keys _ _ R).
  - apply (r_rev _ _ R).
  - apply (r_eids _ _ R).
  - intros y. cbn [issued out]. rewrite elem_of_union, elem_of_singleton. destruct (decide (y = m)) as [-> | Hne]; [tauto |].
    rewrite (o_outst _ _ _ Only y Hne), (r_out _ _ R). tauto.
  - intros y u. cbn [issued out]. rewrite elem_of_union, elem_of_singleton. destruct (decide (y = m)) as [-> | Hne].
    + rewrite H2, RM. tauto.
    + rewrite RT, (o_on _ _ _ Only y u Hne), (r_on _ _ R) by exact Hne. tauto.
  - intros y Hy. apply U in Hy. cbn [issued res]. destruct (decide (y = m)) as [-> | Hne].
    + rewrite H7, (r_unused _ _ R) by exact Hu. reflexivity.
    + rewrite (o_msgf _ _ _ Only y Hne). apply (r_fut _ _ R). tauto.
  - intros y Hy. cbn [issued res]. apply (r_unused _ _ R). intros X. apply Hy, U. auto.
  - intros y Hy. cbn [issued out tasks res purged] in *. apply elem_of_union in Hy. rewrite elem_of_singleton in Hy.
    destruct (decide (y = m)) as [-> | Hne].
    + repeat split; [set_solver | assumption | assumption | apply (r_unused _ _ R), Hu |].
      intros X. apply Hu, (r_purged _ _ R), X.
    + destruct Hy as [? | Hy]; [congruence |]. rewrite (o_results _ _ _ Only), (o_fut _ _ _ Only) by exact Hne.
      destruct (r_pend _ _ R y Hy) as (? & ? & ? & ? & ?). repeat split; auto. set_solver.
  - intros y Hy. destruct (decide (y = m)) as [-> | Hne]; [rewrite RM; exact H9 |].
    cbn [issued out] in Hy. rewrite RT, (o_coal _ _ _ Only y Hne) by exact Hne. apply (r_coal _ _ R). set_solver.
  - intros y Hy. cbn [issued tasks requests] in *. apply elem_of_union in Hy. rewrite elem_of_singleton in Hy.
    destruct Hy as [-> | Hy]; [tauto | apply (r_dis _ _ R), Hy].
  - intros y Hy. cbn [issued tasks] in *. destruct (decide (y = m)) as [-> | Hne]; [rewrite H8; eauto |].
    rewrite (o_outf _ _ _ Only y Hne). apply (r_isout _ _ R). set_solver.
  - intros y Hy Hp Hfalse. cbn [issued tasks purged] in *. destruct (decide (y = m)) as [-> | Hne]; [auto |].
    rewrite (o_outf _ _ _ Only y Hne) in Hfalse. rewrite (o_outs _ _ _ Only y Hne), (o_meta _ _ _ Only y Hne).
    apply (r_outp _ _ R); [set_solver | assumption | assumption].
  - intros y Hy Hn. cbn [issued requests res purged] in *. assert (Hne : y <> m) by (intros ->; tauto).
    rewrite (o_fut _ _ _ Only y Hne). apply (r_req _ _ R); assumption.
  - intros y Hy. apply U. right. apply (r_purged _ _ R), Hy.
  - intros y Hy. apply U. destruct (decide (y = m)) as [-> | Hne]; [auto |]. right.
    apply (r_futs _ _ R), (o_fut _ _ _ Only y Hne), Hy.
  - intros y Hy. assert (Hne : y <> m) by (intros ->; apply Hy, U; auto).
    rewrite (o_results _ _ _ Only y Hne). apply (r_results _ _ R). intros X. apply Hy, U. auto.
Qed.

Lemma on_on_add u m s v : on (on_add u m s) v = if decide (u = v) then {[m]} ∪ on s u else on s v.
Proof.
  unfold on, on_add. setters. destruct (decide (u = v)) as [<- | Hn].
  - rewrite lookup_insert. reflexivity.
  - rewrite lookup_insert_ne by exact Hn. reflexivity.
Qed.
Lemma only_on_add u m s : only m s (on_add u m s).
Proof.
  split; try reflexivity. intros x v Hx. rewrite on_on_add. destruct (decide (u = v)) as [-> | ?]; [set_solver | reflexivity].
Qed.
Lemma only_create m a s : only m s (create_futures m a s).
Proof.
  unfold create_futures. destruct a; split; setters; try reflexivity; intros x Hx; try set_solver;
    rewrite ?lookup_insert_ne by congruence; reflexivity.
Qed.
Lemma only_outst m s : only m s (set_outst ({[m]} ∪ outstanding s) s).
Proof. split; setters; try reflexivity; set_solver. Qed.

(** rel does not depend on these *)
Lemma rel_hooks w s h : rel w s -> rel w (set_hooks h (coalesced s) s).
Proof. intros []. split; assumption. Qed.
Lemma rel_hist w s h : rel w s -> rel w (set_hist h s).
Proof. intros []. split; assumption. Qed.

Lemma is_engine_live w s u : rel w s -> is_engine s u = is_live w u.
Proof.
  intros R. unfold is_engine, is_live. apply bool_decide_ext. rewrite !elem_of_list_fmap. split.
  - intros ([k v] & E & Hin). cbn in E. subst v. apply elem_of_map_to_list in Hin.
    destruct (r_keys _ _ R _ _ Hin) as [e ->]. apply (r_eng _ _ R) in Hin. destruct Hin as (u' & [= <-] & Hl).
    exists (e, u). split; [reflexivity |]. apply elem_of_map_to_list, Hl.
  - intros ([e v] & E & Hin). cbn in E. subst v. apply elem_of_map_to_list in Hin.
    exists (inl e, inr u). split; [reflexivity |]. apply elem_of_map_to_list. apply (r_eng _ _ R). eauto.
Qed.

Lemma on_unused w s m u : rel w s -> m ∉ used w -> m ∉ on s u.
Proof. intros R Hu H. apply (r_on _ _ R) in H. destruct H as [H _]. apply (r_pend _ _ R) in H. unfold used in Hu. set_solver. Qed.

Lemma register_fields m ident s : let s1 := register_sent m true ident s in
  outstanding s1 = {[m]} ∪ outstanding s /\ results s1 = results s.
Proof. unfold register_sent. destruct ident as [u |]; [destruct (is_engine _ u) |]; split; reflexivity. Qed.
Lemma create_fields m s : let s1 := create_futures m true s in
  outstanding s1 = outstanding s /\ results s1 = results s /\ on_engine s1 = on_engine s /\ coalesced s1 = coalesced s /\
  m ∈ metadata s1 /\ m ∈ futures s1 /\ m ∈ output_futures s1 /\ msg_future s1 !! m = Some None /\ out_future s1 !! m = Some false.
Proof.
  unfold create_futures. cbv zeta. setters. rewrite !lookup_insert.
  repeat split; apply elem_of_union_l, elem_of_singleton_2; reflexivity.
Qed.

Lemma rel_send_raw w s m ident : rel w s -> m ∉ used w ->
  rel (happens w (Send m ident)) (create_futures m true (register_sent m true ident s)).
Proof.
  intros R Hu. cbn [happens].
  set (us := match ident with Some u => _ | None => _ end).
  pose proof (fun u => on_unused w s m u R Hu) as Hon.
  destruct (register_fields m ident s) as [G1 G2].
  destruct (create_fields m (register_sent m true ident s)) as (C1 & C2 & C3 & C4 & C5 & C6 & C7 & C8 & C9).
  apply (rel_issue w (set_hist (history s ++ [m]) s)); [apply rel_hist, R | | exact Hu | ..]; try assumption.
  - eapply only_trans; [| apply only_create]. unfold register_sent.
    set (s1 := set_hist (history s ++ [m]) (set_outst _ s)).
    assert (O1 : only m (set_hist (history s ++ [m]) s) s1).
    { split; try reflexivity. intros x Hx. change (outstanding s1) with ({[m]} ∪ outstanding s).
      change (outstanding (set_hist (history s ++ [m]) s)) with (outstanding s).
      rewrite elem_of_union, elem_of_singleton. tauto. }
    destruct ident as [u |]; [| exact O1]. destruct (is_engine s1 u); [| exact O1].
    eapply only_trans; [exact O1 | apply only_on_add].
  - rewrite C1, G1. apply elem_of_union_l, elem_of_singleton_2. reflexivity.
  - intros v. unfold on. rewrite C3. change (m ∈ on (register_sent m true ident s) v <-> v ∈ us).
    unfold register_sent. set (s1 := set_hist _ _).
    assert (E1 : forall x, on s1 x = on s x) by reflexivity.
    unfold us. destruct ident as [u |].
    + replace (is_engine s1 u) with (is_live w u) by (symmetry; apply (is_engine_live w s u R)).
      destruct (is_live w u).
      * rewrite on_on_add, elem_of_list_singleton. destruct (decide (u = v)) as [-> | Hne].
        -- rewrite elem_of_union, elem_of_singleton. tauto.
        -- rewrite E1. split; [intros X; destruct (Hon v X) | intros ->; congruence].
      * rewrite E1. split; [intros X; destruct (Hon v X) | intros X; inversion X].
    + rewrite E1. split; [intros X; destruct (Hon v X) | intros X; inversion X].
  - rewrite C2, G2. apply (r_results _ _ R), Hu.
  - right. intros u Hin. unfold us in *. destruct ident as [u' |]; [| inversion Hin].
    destruct (is_live w u'); [| inversion Hin]. apply elem_of_list_singleton in Hin. subst. reflexivity.
Qed.
Lemma rel_send w s m ident : rel w s -> m ∉ used w ->
  rel (happens w (Send m ident)) (send m true ident s).
Proof. intros R Hu. unfold send. apply rel_hooks, rel_send_raw; assumption. Qed.

Definition add_all (us : list nat) (m : mid) (s : client) : client := fold_left (fun s u => on_add u m s) us s.
Lemma add_all_fields us m : forall s,
  outstanding (add_all us m s) = outstanding s /\ results (add_all us m s) = results s /\
  metadata (add_all us m s) = metadata s /\ futures (add_all us m s) = futures s /\
  output_futures (add_all us m s) = output_futures s /\ msg_future (add_all us m s) = msg_future s /\
  out_future (add_all us m s) = out_future s.
Proof.
  induction us as [| u us IH]; intros s; [repeat split |]. unfold add_all in *. cbn [fold_left].
  destruct (IH (on_add u m s)) as (-> & -> & -> & -> & -> & -> & ->). repeat split.
Qed.
Lemma only_add_all us m : forall s, only m s (add_all us m s).
Proof.
  induction us as [| u us IH]; intros s; [apply only_refl |]. unfold add_all. cbn [fold_left].
  eapply only_trans; [apply (only_on_add u) | apply IH].
Qed.
Lemma on_add_all us m : forall s v, m ∈ on (add_all us m s) v <-> m ∈ on s v \/ v ∈ us.
Proof.
  induction us as [| u us IH]; intros s v; unfold add_all; cbn [fold_left].
  - split; [auto | intros [? | X]; [assumption | inversion X]].
  - fold (add_all us m (on_add u m s)). rewrite IH, on_on_add, elem_of_cons.
    destruct (decide (u = v)) as [-> | Hn].
    + rewrite elem_of_union, elem_of_singleton. tauto.
    + intuition congruence.
Qed.

Lemma rel_broadcast w s n us c : rel w s -> fresh w n -> NoDup us ->
  rel (happens w (Broadcast n us c)) (broadcast n us c s).
Proof.
  intros R [Hu Hd] Hnd. unfold broadcast. apply rel_hooks. cbn [happens].
  destruct (register_fields (Plain n) None s) as [G1 G2].
  set (s1 := create_futures (Plain n) true (register_sent (Plain n) true None s)).
  destruct (create_fields (Plain n) (register_sent (Plain n) true None s)) as (C1 & C2 & C3 & C4 & C5 & C6 & C7 & C8 & C9).
  fold s1 in C1, C2, C3, C4, C5, C6, C7, C8, C9.
  unfold broadcast_hook. destruct c.
  - fold (add_all us (Plain n) (set_outst ({[Plain n]} ∪ outstanding s1) s1)).
    set (s2 := set_outst _ s1). set (s3 := add_all us (Plain n) s2).
    destruct (add_all_fields us (Plain n) s2) as (A1 & A2 & A3 & A4 & A5 & A6 & A7). fold s3 in A1, A2, A3, A4, A5, A6, A7.
    apply (rel_issue w (set_hist (history s ++ [Plain n]) s)); [apply rel_hist, R | | exact Hu | ..].
    + apply (only_trans _ _ s3).
      * eapply only_trans; [| apply only_add_all]. eapply only_trans; [| apply only_outst].
        eapply only_trans; [| apply only_create]. split; try reflexivity. intros x Hx. cbn [register_sent set_hist set_outst outstanding].
        rewrite elem_of_union, elem_of_singleton. tauto.
      * split; try reflexivity. intros x Hx. cbn [set_hooks coalesced]. apply lookup_insert_ne. congruence.
    + change (Plain n ∈ outstanding s3). rewrite A1. apply elem_of_union_l, elem_of_singleton_2. reflexivity.
    + intros u. change (Plain n ∈ on s3 u <-> u ∈ us). unfold s3. rewrite on_add_all.
      split; [intros [X |]; [| assumption] | auto]. change (Plain n ∈ on s u) in X. destruct (on_unused _ _ _ u R Hu X).
    + change (results s3 !! Plain n = None). rewrite A2. change (results s2) with (results s1). rewrite C2, G2. apply (r_results _ _ R), Hu.
    + change (Plain n ∈ metadata s3). rewrite A3. exact C5.
    + change (Plain n ∈ futures s3). rewrite A4. exact C6.
    + change (Plain n ∈ output_futures s3). rewrite A5. exact C7.
    + change (msg_future s3 !! Plain n = Some None). rewrite A6. exact C8.
    + change (out_future s3 !! Plain n = Some false). rewrite A7. exact C9.
    + left. cbn [set_hooks coalesced]. apply lookup_insert.
  - assert (R1 : rel (issued [] w (Plain n)) s1) by exact (rel_send_raw w s (Plain n) None R Hu).
    assert (D1 : forall u, u ∈ us -> Derived n u ∉ used (issued [] w (Plain n))).
    { intros u _ X. unfold used in X. cbn [issued tasks requests] in X. rewrite !elem_of_union, elem_of_singleton in X.
      destruct X as [[X | X] | X]; [discriminate | |]; apply (Hd u); unfold used; apply elem_of_union; auto. }
    revert R1 D1. generalize (issued [] w (Plain n)). generalize s1. clear - Hnd.
    induction Hnd as [| u us Hin Hnd IH]; intros s w R D; [exact R |]. cbn [fold_left].
    assert (Hu : Derived n u ∉ used w) by (apply D; left).
    apply IH.
    + destruct (create_fields (Derived n u) s) as (C1 & C2 & C3 & C4 & C5 & C6 & C7 & C8 & C9).
      apply (rel_issue w s); [exact R | | exact Hu | ..]; try assumption.
      * eapply only_trans; [apply (only_create _ true) |]. eapply only_trans; [| apply only_on_add].
        rewrite <- C1. apply only_outst.
      * apply elem_of_union_l, elem_of_singleton_2. reflexivity.
      * intros v. rewrite on_on_add, elem_of_list_singleton. destruct (decide (u = v)) as [-> | Hne].
        -- rewrite elem_of_union, elem_of_singleton. tauto.
        -- split; [| congruence]. intros X. change (Derived n u ∈ on s v) in X. destruct (on_unused _ _ _ _ R Hu X).
      * apply (r_results _ _ R), Hu.
      * right. intros v Hv. apply elem_of_list_singleton in Hv. subst. reflexivity.
    + intros v Hv X. unfold used in X. cbn [issued tasks requests] in X. rewrite !elem_of_union, elem_of_singleton in X.
      destruct X as [[X | X] | X].
      * injection X as ->. contradiction.
      * apply (D v); [right; exact Hv |]. apply elem_of_union_l, X.
      * apply (D v); [right; exact Hv |]. apply elem_of_union_r, X.
Qed.

(** ** Other requests *)
Lemma rel_request w s m : rel w s -> m ∉ used w -> rel (happens w (Request m)) (send m false None s).
Proof.
  intros R Hu. unfold send. apply rel_hooks. cbn [happens register_sent].
  set (s' := create_futures m false s). pose proof (only_create m false s) as Only. fold s' in Only.
  set (w' := World _ _ _ _ _ _ _).
  assert (U : forall y, y ∈ used w' <-> y = m \/ y ∈ used w).
  { intros y. unfold used, w'. cbn [tasks requests]. rewrite !elem_of_union, elem_of_singleton. tauto. }
  assert (Hut : m ∉ tasks w /\ m ∉ requests w) by (unfold used in Hu; rewrite elem_of_union in Hu; tauto).
  assert (Hnp : m ∉ purged w) by (intros X; apply Hu, (r_purged _ _ R), X).
  split.
  - apply (r_eng _ _ R).
  - apply (r_keys _ _ R).
  - apply (r_rev _ _ R).
  - apply (r_eids _ _ R).
  - apply (r_out _ _ R).
  - apply (r_on _ _ R).
  - intros y Hy. apply U in Hy. unfold s', create_futures, w'. setters. cbn [res]. destruct (decide (y = m)) as [-> | Hne].
    + rewrite lookup_insert, (r_unused _ _ R) by exact Hu. reflexivity.
    + rewrite lookup_insert_ne by congruence. apply (r_fut _ _ R). tauto.
  - intros y Hy. apply (r_unused _ _ R). intros X. apply Hy, U. auto.
  - intros y Hy. destruct (r_pend _ _ R y Hy) as (? & ? & ? & ? & ?). repeat split; auto.
    apply elem_of_union_r. assumption.
  - apply (r_coal _ _ R).
  - intros y Hy X. cbn in X. apply elem_of_union in X. rewrite elem_of_singleton in X. destruct X as [-> | X]; [tauto |].
    apply (r_dis _ _ R y Hy X).
  - apply (r_isout _ _ R).
  - apply (r_outp _ _ R).
  - intros y Hy Hn. cbn in Hy, Hn. unfold s', create_futures, w'. setters. cbn [purged]. rewrite elem_of_union, elem_of_singleton.
    destruct (decide (y = m)) as [-> | Hne]; [tauto |]. rewrite (r_req _ _ R y); [tauto | | exact Hn].
    apply elem_of_union in Hy. rewrite elem_of_singleton in Hy. tauto.
  - intros y Hy. apply U. right. apply (r_purged _ _ R), Hy.
  - intros y Hy. apply U. unfold s', create_futures in Hy. revert Hy. setters. rewrite elem_of_union, elem_of_singleton.
    intros [? | Hy]; [auto | right; apply (r_futs _ _ R), Hy].
  - intros y Hy. apply (r_results _ _ R). intros X. apply Hy, U. auto.
Qed.
