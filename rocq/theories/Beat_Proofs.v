From Coq Require Import List ZArith Lia Bool.
From Verif Require Import Beat_Spec Beat_Model.
Import ListNotations.

Lemma flush_is t s : flush t s = if waiting s =? 0 then s else Engine t (last_monitored s) (missed s) 0 (stopped s) (sent s).
Proof.
  unfold flush. destruct s as [p m k w st se]. cbn [waiting last_monitored missed stopped sent].
  assert (H : forall n w, Nat.iter n (report_ping t) (Engine p m k w st se) = if n =? 0 then Engine p m k w st se else Engine t m k (w - n) st se).
  { induction n as [|n IH]; intros w'; cbn [Nat.iter nat_rect Nat.eqb]; [reflexivity|]. change (nat_rect _ _ _ n) with (Nat.iter n (report_ping t) (Engine p m k w' st se)). rewrite IH.
    destruct n as [|n]; cbn [Nat.eqb]; unfold report_ping; cbn [last_monitored missed waiting stopped sent]; f_equal; lia. }
  change (nat_rect _ _ _ w) with (Nat.iter w (report_ping t) (Engine p m k w st se)). rewrite (H w w). destruct w; [reflexivity|]. cbn [Nat.eqb]. f_equal. lia.
Qed.

(** [now]: the last reading; [c] counts what has happened. *)
Record inv (strict : bool) (max : nat) (now : Z) (c : tally) (s : engine) : Prop := Inv {
  i_p : (last_pinged s <= now)%Z;
  i_m : (last_monitored s <= now)%Z;
  i_w : waiting s <> 0 -> pinged c = true;
  i_in : pinged c = true -> waiting s <> 0 \/ (last_monitored s <= last_pinged s)%Z;
  i_first : checked c = false -> last_monitored s = 0%Z /\ (0 <= last_pinged s)%Z /\ missed s = 0;
  i_out : strict = true -> checked c = true -> pinged c = false -> (last_pinged s < last_monitored s)%Z;
  i_k : missed s <= quiet_checks c;
  i_e : strict = true -> missed s = quiet_checks c;
  i_go : stopped s = false -> missed s < max;
  i_stop : stopped s = true -> max <= missed s }.
Definition before (strict : bool) : Z -> Z -> Prop := if strict then Z.lt else Z.le.
Lemma before_le b x y : before b x y -> (x <= y)%Z.
Proof. destruct b; cbn; lia. Qed.

Lemma inv_step strict max id now c s e : max <> 0 -> inv strict max now c s -> stopped s = false -> ordered (before strict) now (readings [e]) ->
  inv strict max (last (readings [e]) now) (count c e) (step max id s e).
Proof.
  intros Hmax [A B C D F G K E H1 H2] Hs Ho. unfold step. rewrite Hs. apply Nat.eqb_neq in Hmax as Hm. rewrite Hm. cbn [orb]. specialize (H1 Hs).
  destruct e as [|t|t t']; cbn [readings ordered last] in *.
  - split; cbn [last_pinged last_monitored missed waiting stopped count checked pinged quiet_checks]; intros; try discriminate; auto.
  - destruct Ho as [Ho _]. apply before_le in Ho. destruct (waiting s) as [|w] eqn:W.
    + split; cbn [count]; auto; try lia; intros; rewrite ?W in *; auto; lia.
    + assert (P : pinged c = true) by auto.
      split; cbn [report_ping last_pinged last_monitored missed waiting stopped count]; auto; try lia; intros; try congruence.
      all: try (right; lia). all: try (destruct (F ltac:(assumption)) as (F1 & F2 & F3); repeat split; auto; lia).
  - destruct Ho as [Ho1 [Ho2 _]]. pose proof (before_le _ _ _ Ho1). pose proof (before_le _ _ _ Ho2).
    unfold hb_monitor. rewrite flush_is.
    set (s1 := if waiting s =? 0 then s else _).
    assert (Q : last_monitored s1 = last_monitored s /\ missed s1 = missed s /\ stopped s1 = false /\ waiting s1 = 0 /\ (last_pinged s1 <= t)%Z /\
                (waiting s = 0 -> last_pinged s1 = last_pinged s) /\ (waiting s <> 0 -> last_pinged s1 = t)).
    { unfold s1. destruct (waiting s =? 0) eqn:W; [apply Nat.eqb_eq in W|apply Nat.eqb_neq in W]; cbn; repeat split; auto; try lia. }
    destruct Q as (Q1 & Q2 & Q3 & Q4 & Q5 & Q6 & Q7). clearbody s1.
    set (m := if (last_pinged s1 <? last_monitored s1)%Z then _ else _).
    assert (Hk : m <= (if checked c && negb (pinged c) then S (quiet_checks c) else 0) /\ (strict = true -> m = if checked c && negb (pinged c) then S (quiet_checks c) else 0)).
    { unfold m. rewrite Q1, Q2. destruct (pinged c) eqn:P; rewrite ?andb_false_r, ?andb_true_r; cbn [negb andb].
      - assert (X : (last_monitored s <= last_pinged s1)%Z).
        { destruct (D eq_refl) as [X|X]; [rewrite (Q7 X); lia|]. destruct (Nat.eq_dec (waiting s) 0) as [Y|Y]; [rewrite (Q6 Y); lia|rewrite (Q7 Y); lia]. }
        replace (last_pinged s1 <? last_monitored s)%Z with false by (symmetry; apply Z.ltb_ge; exact X). destruct (checked c); cbn [andb]; split; auto; lia.
      - assert (W : waiting s = 0) by (destruct (Nat.eq_dec (waiting s) 0) as [Y|Y]; [exact Y|discriminate (C Y)]). rewrite (Q6 W).
        destruct (checked c) eqn:Ck; cbn [andb].
        + cbv beta iota. split; [destruct (last_pinged s <? last_monitored s)%Z; lia|]. intros St. pose proof (G St eq_refl eq_refl) as X. replace (last_pinged s <? last_monitored s)%Z with true by (symmetry; apply Z.ltb_lt; exact X).
          f_equal. auto.
        + destruct (F eq_refl) as (F1 & F2 & F3). rewrite F1. replace (last_pinged s <? 0)%Z with false by (symmetry; apply Z.ltb_ge; exact F2). split; auto. }
    clearbody m. destruct Hk as [Hk1 Hk2].
    assert (Hst : strict = true -> (last_pinged s1 < t')%Z) by (intros ->; cbn in Ho2; lia).
    cbn [missed]. destruct (max <=? m) eqn:L; [apply Nat.leb_le in L|apply Nat.leb_gt in L]; split; cbn [last_pinged last_monitored missed waiting stopped count checked pinged quiet_checks];
      intros; try discriminate; try congruence; try lia; auto.
Qed.
Lemma last_app_cons (x : list Z) : forall y d, last (x ++ y) d = last y (last x d).
Proof.
  induction x as [|a x IH] using rev_ind; intros y d; [reflexivity|]. rewrite last_last. destruct y as [|b y]; [rewrite app_nil_r, last_last; reflexivity|].
  clear IH. revert a x. induction y as [|c y IHy] using rev_ind; intros a x.
  - rewrite last_last. reflexivity.
  - change (b :: y ++ [c]) with ((b :: y) ++ [c]). rewrite app_assoc, !last_last. reflexivity.
Qed.
Lemma readings_app l k : readings (l ++ k) = readings l ++ readings k.
Proof. induction l as [|e l IH]; [reflexivity|]. destruct e; cbn [app readings]; rewrite ?IH; reflexivity. Qed.
Lemma ordered_app R l : forall t k, ordered R t (l ++ k) <-> ordered R t l /\ ordered R (last l t) k.
Proof.
  induction l as [|a l IH]; intros t k; cbn [app ordered]; [cbn [last]; tauto|]. rewrite IH. replace (last (a :: l) t) with (last l a); [tauto|].
  change (a :: l) with ([a] ++ l). rewrite last_app_cons. reflexivity.
Qed.
Lemma run_snoc max id l e : run max id (l ++ [e]) = step max id (run max id l) e.
Proof. unfold run. rewrite fold_left_app. reflexivity. Qed.
Lemma stopped_stays max id l e : stopped (run max id l) = true -> run max id (l ++ [e]) = run max id l.
Proof. intros H. rewrite run_snoc. unfold step. rewrite H. reflexivity. Qed.
(** While the engine has not stopped *)
Lemma inv_run strict max id l : max <> 0 -> ordered (before strict) 0 (readings l) -> stopped (run max id l) = false ->
  inv strict max (last (readings l) 0%Z) (fold_left count l (Tally false false 0)) (run max id l).
Proof.
  intros Hmax. induction l as [|a l IH] using rev_ind; intros Ho Hs.
  - cbn. split; cbn; intros; auto; try lia; try discriminate.
  - rewrite readings_app in Ho |- *. apply ordered_app in Ho as [Ho1 Ho2].
    assert (Hl : stopped (run max id l) = false).
    { destruct (stopped (run max id l)) eqn:S; [|reflexivity]. rewrite stopped_stays in Hs by exact S. congruence. }
    rewrite run_snoc, fold_left_app, last_app_cons. cbn [fold_left]. apply inv_step; auto.
Qed.
(** ... and when it does *)
Lemma inv_next strict max id l e : max <> 0 -> ordered (before strict) 0 (readings (l ++ [e])) -> stopped (run max id l) = false ->
  inv strict max (last (readings (l ++ [e])) 0%Z) (fold_left count (l ++ [e]) (Tally false false 0)) (run max id (l ++ [e])).
Proof.
  intros Hmax Ho Hs. rewrite readings_app in Ho |- *. apply ordered_app in Ho as [Ho1 Ho2].
  rewrite run_snoc, fold_left_app, last_app_cons. cbn [fold_left]. apply inv_step; auto. apply inv_run; auto.
Qed.
