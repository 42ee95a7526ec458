(** C66: the engine shuts itself down when the controller is gone, and only then. *)
From Coq Require Import List ZArith Lia Bool.
From Verif Require Import Beat_Spec Beat_Model Beat_Proofs.
Import ListNotations.

Lemma says max id l : sent (run max id l) = if stopped (run max id l) then [id] else [].
Proof.
  induction l as [|e l IH] using rev_ind; [reflexivity|]. destruct (stopped (run max id l)) eqn:S.
  - rewrite stopped_stays by exact S. rewrite S. exact IH.
  - rewrite ?S in IH. rewrite run_snoc. unfold step. rewrite S. cbn [orb]. destruct (max =? 0); [rewrite ?S; exact IH|]. destruct e as [|t|t t'].
    + cbn [stopped sent]. rewrite ?S. exact IH.
    + destruct (waiting _); cbn [report_ping stopped sent]; rewrite ?S; exact IH.
    + unfold hb_monitor. rewrite flush_is. destruct (waiting _ =? 0); cbn [last_pinged last_monitored missed waiting stopped sent];
        destruct (max <=? _); cbn [stopped sent]; rewrite ?S, IH; reflexivity.
Qed.
Lemma silence_stops strict max id l e : max <> 0 -> ordered (before strict) 0 (readings (l ++ [e])) -> stopped (run max id l) = false ->
  (stopped (run max id (l ++ [e])) = true -> max <= silence (l ++ [e])) /\ (strict = true -> max <= silence (l ++ [e]) -> stopped (run max id (l ++ [e])) = true).
Proof.
  intros Hm Ho Hs. destruct (inv_next strict max id l e Hm Ho Hs) as [_ _ _ _ _ _ K E G St]. unfold silence. split.
  - intros X. apply St in X. lia.
  - intros Es X. destruct (stopped (run max id (l ++ [e]))) eqn:Y; [reflexivity|]. specialize (G eq_refl). specialize (E Es). lia.
Qed.

(** With a clock that is not set back: the engine stops only at a check before which as many checks in a row as configured, including it, had seen no ping;
    it then asks the controller to unregister it, once. *)
Theorem C66_patient : forall max id l, steady l -> stopped (run max id l) = true ->
  max <> 0 /\ (exists l1 t t' l2, l = l1 ++ Check t t' :: l2 /\ max <= silence (l1 ++ [Check t t'])) /\ sent (run max id l) = [id].
Proof.
  intros max id l Ho Hs. rewrite says, Hs.
  assert (Hm : max <> 0).
  { intros ->. assert (X : run 0 id l = fresh); [|rewrite X in Hs; discriminate]. clear. induction l as [|e l IH] using rev_ind; [reflexivity|]. rewrite run_snoc, IH. reflexivity. }
  split; [exact Hm|]. split; [|reflexivity]. induction l as [|e l IH] using rev_ind; [discriminate|]. unfold steady in *. pose proof Ho as Ho'. rewrite readings_app in Ho'. apply ordered_app in Ho' as [Ho1 _].
  destruct (stopped (run max id l)) eqn:S.
  - destruct (IH Ho1 eq_refl) as (l1 & t & t' & l2 & -> & H). exists l1, t, t', (l2 ++ [e]). rewrite <- app_assoc. split; [reflexivity|exact H].
  - pose proof (proj1 (silence_stops false max id l e Hm Ho S) Hs) as H. destruct e as [|t|t t'].
    + rewrite run_snoc in Hs. unfold step in Hs. rewrite S in Hs. cbn [orb] in Hs. destruct (max =? 0); cbn in Hs; congruence.
    + rewrite run_snoc in Hs. unfold step in Hs. rewrite S in Hs. cbn [orb] in Hs. destruct (max =? 0); [congruence|]. destruct (waiting _); cbn in Hs; congruence.
    + exists l, t, t', []. split; [reflexivity|exact H].
Qed.
Print Assumptions C66_patient.

(** With a clock that goes on between its readings, exactly then. *)
Theorem C66_exact : forall max id l, advancing l -> max <> 0 ->
  (stopped (run max id l) = true <-> exists l1 l2, l = l1 ++ l2 /\ max <= silence l1).
Proof.
  intros max id l Ho Hm. split.
  - intros Hs. assert (St : steady l).
    { revert Ho. unfold advancing, steady. generalize 0%Z. generalize (readings l). clear. induction l as [|a l IH]; intros z; cbn [ordered]; [tauto|]. intros [A B]. split; [lia|auto]. }
    destruct (C66_patient max id l St Hs) as (_ & (l1 & t & t' & l2 & -> & H) & _). exists (l1 ++ [Check t t']), l2. rewrite <- app_assoc. split; [reflexivity|exact H].
  - intros (l1 & l2 & -> & H). assert (X : stopped (run max id l1) = true).
    { unfold advancing in Ho. rewrite readings_app in Ho. apply ordered_app in Ho as [Ho _]. destruct l1 as [|e l _] using rev_ind; [cbn in H; lia|].
      destruct (stopped (run max id l)) eqn:S; [rewrite stopped_stays by exact S; exact S|]. exact (proj2 (silence_stops true max id l e Hm Ho S) eq_refl H). }
    clear H Ho. induction l2 as [|e l2 IH] using rev_ind; [rewrite app_nil_r; exact X|]. rewrite app_assoc, stopped_stays; exact IH.
Qed.
Print Assumptions C66_exact.

(** So if after some time no ping comes, the (max + 1)-th check from then on at the latest stops the engine; and checks that all see a ping never do. *)
Theorem C66_gone : forall max id l r, advancing (l ++ r) -> max <> 0 -> ~ In Arrive r ->
  max < length (filter (fun e => match e with Check _ _ => true | _ => false end) r) -> stopped (run max id (l ++ r)) = true.
Proof.
  intros max id l r Ho Hm Hr Hn. apply (C66_exact max id _ Ho Hm). exists (l ++ r), []. split; [symmetry; apply app_nil_r|].
  unfold silence. rewrite fold_left_app. generalize (fold_left count l (Tally false false 0)). intros c.
  set (n := length (filter _ r)) in Hn. enough (H : n <= S (quiet_checks (fold_left count r c))) by lia.
  unfold n. clear -Hr. assert (G : forall r c, ~ In Arrive r ->
    (if checked c && negb (pinged c) then quiet_checks c else 0) + length (filter (fun e => match e with Check _ _ => true | _ => false end) r) <=
    (if checked c && negb (pinged c) then 0 else 1) + quiet_checks (fold_left count r c)).
  { clear. induction r as [|e r IH]; intros c Hr.
    - cbn. destruct (_ && _); lia.
    - assert (Hr' : ~ In Arrive r) by (intros X; apply Hr; right; exact X). destruct e as [|t|t t']; cbn [filter fold_left length].
      + exfalso. apply Hr. left. reflexivity.
      + apply IH, Hr'.
      + specialize (IH (count c (Check t t')) Hr'). revert IH. generalize (quiet_checks (fold_left count r (count c (Check t t')))). intros q IH. cbn [count checked pinged negb andb quiet_checks] in IH. destruct (checked c && negb (pinged c)); lia. }
  specialize (G r c Hr). destruct (checked c && negb (pinged c)); lia.
Qed.
Print Assumptions C66_gone.
Theorem C66_seen : forall max id l, steady l -> 
  (forall l1 t t' l2, l = l1 ++ Check t t' :: l2 -> silence (l1 ++ [Check t t']) = 0) -> stopped (run max id l) = false.
Proof.
  intros max id l Ho H. destruct (stopped (run max id l)) eqn:S; [|reflexivity]. destruct (C66_patient max id l Ho S) as (Hm & (l1 & t & t' & l2 & E & X) & _).
  rewrite (H l1 t t' l2 E) in X. lia.
Qed.
Print Assumptions C66_seen.
Theorem C66_disabled : forall id l, stopped (run 0 id l) = false /\ sent (run 0 id l) = [].
Proof. intros id l. assert (X : run 0 id l = fresh) by (induction l as [|e l IH] using rev_ind; [reflexivity|]; rewrite run_snoc, IH; reflexivity). rewrite X. split; reflexivity. Qed.
Print Assumptions C66_disabled.
(** The engine checks less often than the controller beats. *)
Theorem C66_period : forall p, p < check_period p.
Proof. intros p. unfold check_period. lia. Qed.
Print Assumptions C66_period.

(** The clock matters: time.time() may be set back, and then an engine that gets a ping before each check stops if one missed beat suffices. *)
Theorem C66_clock_refuted : exists l, stopped (run 1 7 l) = true /\
  forall l1 t t' l2, l = l1 ++ Check t t' :: l2 -> silence (l1 ++ [Check t t']) = 0.
Proof.
  exists [Arrive; Handle 10; Check 20 21; Arrive; Handle 15; Check 16 17]. split; [reflexivity|]. intros l1 t t' l2.
  destruct l1 as [|a [|b [|c [|d [|e [|f l1]]]]]]; intros E; try discriminate; cbn in E; try (injection E as; subst; reflexivity).
  injection E. intros X. exfalso. destruct l1; discriminate.
Qed.
Print Assumptions C66_clock_refuted.

(** A history: pings, then silence *)
Definition sample : list event := [Arrive; Handle 1; Check 2 3; Arrive; Check 4 5; Check 6 7; Arrive; Handle 8; Check 9 10; Check 11 12; Check 13 14; Arrive; Check 15 16].
Example C66_example : advancing sample /\ steady sample /\ stopped (run 2 7 sample) = true /\ stopped (run 2 7 (firstn 10 sample)) = false /\ stopped (run 3 7 sample) = false /\
  sent (run 2 7 sample) = [7] /\ silence (firstn 11 sample) = 2.
Proof. repeat split; vm_compute; (reflexivity || discriminate). Qed.
Example C66_gone_example : advancing (firstn 8 sample ++ firstn 3 (skipn 8 sample)) /\ ~ In Arrive (firstn 3 (skipn 8 sample)) /\
  2 < length (filter (fun e => match e with Check _ _ => true | _ => false end) (firstn 3 (skipn 8 sample))).
Proof. split; [repeat split; cbn; lia|]. split; [cbn; intuition discriminate|cbn; lia]. Qed.
Example C66_seen_example : let l := [Check 1 2; Arrive; Check 3 3; Arrive; Handle 3; Check 5 6] in
  steady l /\ forall l1 t t' l2, l = l1 ++ Check t t' :: l2 -> silence (l1 ++ [Check t t']) = 0.
Proof.
  split; [repeat split; cbn; lia|]. intros l1 t t' l2.
  destruct l1 as [|a [|b [|c [|d [|e [|f l1]]]]]]; intros E; try discriminate; cbn in E; try (injection E as; subst; reflexivity).
  injection E. intros X. exfalso. destruct l1; discriminate.
Qed.
