(** C56: the Hub's record of a task holds what is known about it, in whatever order the messages came. *)
From Coq Require Import List String Bool Arith Lia.
From Verif Require Import Rec_Spec Rec_Model Rec_Proofs.
Import ListNotations.
Local Open Scope string_scope.

(** There is a record exactly when something is known, and each column holds what it should. *)
Theorem C56_record : forall strict h m, orderly h ->
  match get_record m (db (run strict h)) with
  | Some r => known h m = true /\ forall k, agrees k (r k) (expected strict h m k)
  | None => known h m = false
  end.
Proof. intros strict h m H. exact (i_db _ _ _ (Inv_run strict h H) m). Qed.
Print Assumptions C56_record.

(** The tasks the Hub calls pending are those whose record has no completion date. *)
Theorem C56_pending : forall strict h m, orderly h ->
  (In m (pending (run strict h)) <-> exists r, get_record m (db (run strict h)) = Some r /\ sent h m <> None /\ r Completed = VNone).
Proof.
  intros strict h m H. pose proof (C56_record strict h m H) as R. rewrite <- mem_In, (i_pend _ _ _ (Inv_run strict h H)).
  assert (E : expected strict h m Completed = VNone <-> outcome_of h m = None).
  { unfold expected. destruct (outcome_of h m) as [[r now|u now c]|]; split; congruence. }
  destruct (get_record m (db (run strict h))) as [r|].
  - destruct R as [R1 R2]. assert (Er : r Completed = expected strict h m Completed) by (apply (agrees_exact Completed _ _ (R2 Completed) I)).
    split.
    + intros P. exists r. split; [reflexivity|]. destruct (sent h m); [|discriminate]. destruct (outcome_of h m) eqn:O; [discriminate|].
      split; [discriminate|]. rewrite Er. apply E. reflexivity.
    + intros (r' & E1 & E2 & E3). injection E1 as <-. rewrite Er in E3. apply E in E3. rewrite E3. destruct (sent h m); congruence.
  - destruct (known_sent _ _ R) as (K & _). rewrite K. split; [discriminate|]. intros (r' & E1 & _). discriminate.
Qed.
Print Assumptions C56_pending.

(** ** The order of arrival does not matter *)
Section Split.
Context (m : string).
Let quiet (h : history) := filter (fun e => negb (is_output_of m e)) h.
Let loud (h : history) := filter (is_output_of m) h.
Lemma quiet_registered : forall h u, registered (quiet h) u = registered h u.
Proof.
  induction h as [|e h IH]; intros u; [reflexivity|]. unfold quiet in *. cbn [filter].
  destruct e; cbn [is_output_of negb registered]; try (rewrite <- IH; reflexivity). destruct (String.eqb m0 m); cbn [negb registered]; apply IH.
Qed.
Lemma quiet_request : forall h n, request_of (quiet h) n = request_of h n.
Proof.
  induction h as [|e h IH]; intros n; [reflexivity|]. change (quiet (e :: h)) with (if negb (is_output_of m e) then e :: quiet h else quiet h).
  destruct e; cbn [is_output_of negb request_of]; try apply IH.
  - destruct k; rewrite ?quiet_registered, IH; reflexivity.
  - destruct (String.eqb m0 m); cbn [negb request_of]; apply IH.
Qed.
Lemma quiet_resubmission : forall h n, resubmission (quiet h) n = resubmission h n.
Proof.
  induction h as [|e h IH]; intros n; [reflexivity|]. change (quiet (e :: h)) with (if negb (is_output_of m e) then e :: quiet h else quiet h).
  destruct e; cbn [is_output_of negb resubmission]; rewrite ?IH; try reflexivity.
  destruct (String.eqb m0 m); cbn [negb resubmission]; apply IH.
Qed.
Lemma quiet_outcome : forall h n, outcome_of (quiet h) n = outcome_of h n.
Proof.
  induction h as [|e h IH]; intros n; [reflexivity|]. change (quiet (e :: h)) with (if negb (is_output_of m e) then e :: quiet h else quiet h).
  destruct e; cbn [is_output_of negb outcome_of]; rewrite ?quiet_request, ?quiet_registered, ?IH; try reflexivity.
  - destruct k; rewrite ?quiet_registered; reflexivity.
  - destruct (String.eqb m0 m); cbn [negb outcome_of]; apply IH.
Qed.
Lemma quiet_engine : forall h n, engine_of (quiet h) n = engine_of h n.
Proof.
  induction h as [|e h IH]; intros n; [reflexivity|]. change (quiet (e :: h)) with (if negb (is_output_of m e) then e :: quiet h else quiet h).
  destruct e; cbn [is_output_of negb engine_of]; rewrite ?quiet_request, ?quiet_registered, ?quiet_outcome, ?IH; try reflexivity.
  - destruct k; rewrite ?quiet_registered; reflexivity.
  - destruct (String.eqb m0 m); cbn [negb engine_of]; apply IH.
Qed.
Lemma quiet_repeated : forall h n, repeated_by (quiet h) n = repeated_by h n.
Proof.
  induction h as [|e h IH]; intros n; [reflexivity|]. change (quiet (e :: h)) with (if negb (is_output_of m e) then e :: quiet h else quiet h).
  destruct e; cbn [is_output_of negb repeated_by]; rewrite ?IH; try reflexivity.
  destruct (String.eqb m0 m); cbn [negb repeated_by]; apply IH.
Qed.
Lemma loud_printed : forall h e, printed e (loud h) m = printed e h m.
Proof.
  induction h as [|x h IH]; intros e; [reflexivity|]. change (loud (x :: h)) with (if is_output_of m x then x :: loud h else loud h).
  destruct x; cbn [is_output_of printed]; try apply IH. destruct (String.eqb m0 m) eqn:E; destruct o; cbn [printed]; rewrite ?E, ?IH; reflexivity.
Qed.
Lemma loud_last : forall h p, last_output p (loud h) m = last_output p h m.
Proof.
  induction h as [|x h IH]; intros p; [reflexivity|]. change (loud (x :: h)) with (if is_output_of m x then x :: loud h else loud h).
  destruct x; cbn [is_output_of last_output]; try apply IH. destruct (String.eqb m0 m) eqn:E; cbn [last_output]; rewrite ?E, ?IH; [reflexivity|].
  destruct (p o); reflexivity.
Qed.
Lemma split_expected : forall strict h1 h2, quiet h1 = quiet h2 -> loud h1 = loud h2 -> forall k, expected strict h1 m k = expected strict h2 m k.
Proof.
  intros strict h1 h2 Q L k. unfold expected, sent.
  rewrite <- (quiet_request h1), <- (quiet_resubmission h1), <- (quiet_outcome h1), <- (quiet_engine h1), <- (quiet_repeated h1), Q.
  rewrite (quiet_request h2), (quiet_resubmission h2), (quiet_outcome h2), (quiet_engine h2), (quiet_repeated h2).
  rewrite <- !(loud_printed h1), <- !(loud_last h1), L, !(loud_printed h2), !(loud_last h2). reflexivity.
Qed.
End Split.

(** If the outputs of a task come in the same order, and the rest does, then the record is the same however the two
    are interleaved (up to an empty error, input or result that may be None). *)
Theorem C56_order : forall strict h1 h2 m r1, orderly h1 -> orderly h2 ->
  filter (is_output_of m) h1 = filter (is_output_of m) h2 ->
  filter (fun e => negb (is_output_of m e)) h1 = filter (fun e => negb (is_output_of m e)) h2 ->
  get_record m (db (run strict h1)) = Some r1 ->
  exists r2, get_record m (db (run strict h2)) = Some r2 /\ forall k, agrees k (r1 k) (r2 k).
Proof.
  intros strict h1 h2 m r1 O1 O2 L Q G1.
  pose proof (C56_record strict h1 m O1) as R1. pose proof (C56_record strict h2 m O2) as R2. rewrite G1 in R1. destruct R1 as [K1 R1].
  assert (P : forall h, printed_any (filter (is_output_of m) h) m = printed_any h m).
  { induction h as [|x h IH]; [reflexivity|]. cbn [filter]. destruct x; cbn [is_output_of printed_any]; try apply IH.
    destruct (String.eqb m0 m) eqn:E; cbn [printed_any]; rewrite ?E, ?IH; reflexivity. }
  assert (K2 : known h2 m = true).
  { unfold known, sent in *. rewrite <- (quiet_request m h1), <- (quiet_resubmission m h1), Q, (quiet_request m h2), (quiet_resubmission m h2), <- P, L, P in K1. exact K1. }
  destruct (get_record m (db (run strict h2))) as [r2|]; [|congruence]. destruct R2 as [_ R2].
  exists r2. split; [reflexivity|]. intros k. specialize (R1 k). specialize (R2 k).
  rewrite (split_expected m strict h1 h2 Q L k) in R1. unfold agrees in *. 
  destruct R1 as [R1|(W & F1 & F2)], R2 as [R2|(W' & F1' & F2')].
  - left. congruence.
  - right. repeat split; try assumption. congruence.
  - right. repeat split; try assumption. congruence.
  - right. auto.
Qed.
Print Assumptions C56_order.

(** ** Cases *)
Definition req (m : string) : request := Req m [("msg_type", "apply_request")] [("f", "x")] [("label", "mine")] ["buf"] 5 "client".
Definition res : result := Res [("msg_type", "apply_reply")] [("engine", "e1")] [("status", "ok")] ["r"] 9 (Some 7).
(** a task whose input and first line came before the request, and whose last line comes after the result *)
Definition early : history :=
  [Output "t" (Stream false "b"); Result Task "t" res 10; Destination "t" "e1"; Request Task (req "t");
   Output "t" (Stream false "a"); Output "t" (InputOut "1/0"); Register "e1"].
Definition late : history :=
  [Output "t" (Stream false "b"); Output "t" (Stream false "a"); Output "t" (InputOut "1/0"); Result Task "t" res 10; Destination "t" "e1"; Request Task (req "t");
   Register "e1"].
Example C56_orderly : orderly early /\ orderly late.
Proof. repeat split; cbn; auto. Qed.
Example C56_example :
  match get_record "t" (db (run true early)) with
  | Some r => r Stdout = VText "ab" /\ r ExecuteInput = VText "1/0" /\ r Content = VDict [("f", "x")] /\ r EngineUuid = VText "e1" /\ r ResultBuffers = VBufs ["r"] /\ r Label = VText "mine" /\ r ClientUuid = VText "client"
  | None => False
  end.
Proof. vm_compute. repeat split. Qed.
Example C56_same_parts :
  filter (is_output_of "t") early = filter (is_output_of "t") late /\
  filter (fun e => negb (is_output_of "t" e)) early = filter (fun e => negb (is_output_of "t" e)) late.
Proof. split; reflexivity. Qed.
(** a resubmitted task, and requests to an engine that leaves *)
Definition leaving : history :=
  [Died "e1" 50 [("ename", "EngineError")]; Result (Mux "e1") "b" res 12; Unregister "e1"; Result (Mux "e1") "a" res 11;
   Request (Mux "e1") (req "b"); Request (Mux "e1") (req "a"); Request Task (req "t2"); Resubmit "t" (req "t2"); Request Task (req "t"); Register "e1"].
Example C56_leaving_orderly : orderly leaving.
Proof. repeat split; cbn; auto; congruence. Qed.
Example C56_leaving :
  match get_record "a" (db (run false leaving)), get_record "b" (db (run false leaving)), get_record "t" (db (run false leaving)) with
  | Some a, Some b, Some t =>
      a ResultContent = VDict [("status", "ok")] /\ b ResultContent = VDict [("ename", "EngineError")] /\ b Completed = VTime 50 /\ t Resubmitted = VText "t2"
      /\ pending (run false leaving) = ["t2"; "t"]
  | _, _, _ => False
  end.
Proof. vm_compute. repeat split. Qed.

(** ** What does not hold *)
(** If an output of a broadcast comes before its request, then what the request says is never recorded. *)
Theorem C56_broadcast_output_first_refuted : ~ (forall strict h q o m r,
  In (Request Broadcast q) h -> In (Output m o) h -> q_id q = m ->
  get_record m (db (run strict h)) = Some r -> r Header = VDict (q_header q)).
Proof.
  intros H.
  specialize (H false [Request Broadcast (req "m"); Output "m" (Stream false "a")] (req "m") (Stream false "a") "m").
  specialize (H (set Stdout (VText "a") (set MsgId (VText "m") empty_record))).
  assert (C : VNone = VDict (q_header (req "m"))); [|discriminate].
  apply H; [left; reflexivity | right; left; reflexivity | reflexivity | reflexivity].
Qed.
Print Assumptions C56_broadcast_output_first_refuted.
(** A database with a fixed set of columns does not keep what a task displayed. *)
Theorem C56_display_data_refuted : ~ (forall strict h m c r, orderly h ->
  In (Output m (DisplayOut c)) h -> get_record m (db (run strict h)) = Some r -> r DisplayData <> VNone).
Proof.
  intros H. set (h0 := [Output "t" (DisplayOut [("text/plain", "1")]); Request Task (req "t")]).
  assert (O : orderly h0) by (repeat split; cbn; auto).
  pose proof (C56_record true h0 "t" O) as R. destruct (get_record "t" (db (run true h0))) as [r|] eqn:G; [|discriminate R].
  destruct R as [_ R]. apply (H true h0 "t" [("text/plain", "1")] r O (or_introl eq_refl) G).
  exact (agrees_exact DisplayData _ _ (R DisplayData) I).
Qed.
Print Assumptions C56_display_data_refuted.
(** A result that comes from an engine after it was unregistered is lost: the task is recorded as failed. *)
Theorem C56_late_result_refuted : ~ (forall strict h u m q r now rec, orderly h ->
  In (Request (Mux u) q) h -> q_id q = m -> In (Result (Mux u) m r now) h -> get_record m (db (run strict h)) = Some rec ->
  rec ResultContent = VDict (r_content r)).
Proof.
  intros H. pose proof (C56_record false leaving "b" C56_leaving_orderly) as R.
  destruct (get_record "b" (db (run false leaving))) as [rec|] eqn:G; [|discriminate R]. destruct R as [_ R].
  assert (E : rec ResultContent = VDict (r_content res)).
  { apply (H false leaving "e1" "b" (req "b") res 12 rec C56_leaving_orderly); auto; cbn; tauto. }
  rewrite (agrees_exact ResultContent _ _ (R ResultContent) I) in E. discriminate.
Qed.
Print Assumptions C56_late_result_refuted.
