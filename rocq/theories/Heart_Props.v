(** C18, C19: heartbeats. *)
From Coq Require Import List Arith Bool Lia.
From Verif Require Import Heart_Spec Heart_Model Heart_Proofs.
Import ListNotations.

(** C18.  In every history: at the beat that ends round [i], the engines declared dead are exactly those that have now
    missed max+1 beats in a row since their last answer; each is named once. *)
Theorem C18_dead_iff_missed : forall max rs m ns i n, run max rs = (m, ns) -> nth_error ns i = Some n ->
  NoDup (stopped_heart n) /\ forall h, In h (stopped_heart n) <-> missed rs h i (max + 1).
Proof.
  intros max rs m ns i n E Hi. destruct (run_tells max rs _ _ E) as (_ & _ & H). destruct (H _ _ Hi) as (_ & H1 & H2 & _).
  rewrite Nat.add_1_r. auto.
Qed.
(** ... and there is one notice for each beat. *)
Theorem C18_every_beat : forall max rs m ns, run max rs = (m, ns) -> length ns = length rs.
Proof. intros max rs m ns E. apply (run_tells max rs _ _ E). Qed.

(** C19.  The live hearts are those that answered in one of the last max+1 rounds. *)
Theorem C19_live : forall max rs m ns, run max rs = (m, ns) ->
  NoDup (hearts m) /\ forall h, In h (hearts m) <-> exists j, j < length rs <= j + max + 1 /\ answered rs h j.
Proof.
  intros max rs m ns E. destruct (run_tells max rs _ _ E) as (I & _). destruct I as [_ _ _ I4 I5 _]. split; [exact I4|].
  intros h. rewrite I5, alive_window.
  split; intros (j & Hj & Ha); exists j; (split; [lia|exact Ha]).
Qed.
(** An engine is announced as new exactly when it answers and had not done so in the max+1 rounds before. *)
Theorem C19_new : forall max rs m ns i n, run max rs = (m, ns) -> nth_error ns i = Some n ->
  NoDup (new_heart n) /\ forall h, In h (new_heart n) <-> answered rs h i /\ forall j, j < i <= j + max + 1 -> ~ answered rs h j.
Proof.
  intros max rs m ns i n E Hi. destruct (run_tells max rs _ _ E) as (_ & _ & H). destruct (H _ _ Hi) as (H1 & _ & _ & H2).
  split; [exact H1|]. intros h. rewrite H2. split; intros (Ha & Hj); (split; [exact Ha|]); intros j Hj'; apply Hj; lia.
Qed.
(** An engine that, from its first answer (round [i0]) on, answers at least once in any max+1 consecutive rounds is never declared
    dead, is announced exactly once, and is alive at the end. *)
Theorem C19_responsive : forall max rs m ns h i0, run max rs = (m, ns) ->
  answered rs h i0 -> (forall i, i < i0 -> ~ answered rs h i) ->
  (forall i, i0 <= i < length rs -> exists j, j <= i <= j + max /\ answered rs h j) ->
  (forall i n, nth_error ns i = Some n -> ~ In h (stopped_heart n) /\ (In h (new_heart n) <-> i = i0)) /\ In h (hearts m).
Proof.
  intros max rs m ns h i0 E Ha Hf Hr. pose proof (C18_every_beat _ _ _ _ E) as Hlen. split.
  - intros i n Hi. assert (Li : i < length rs) by (rewrite <- Hlen; apply nth_error_Some; congruence).
    split.
    + intros Hs. apply (C18_dead_iff_missed _ _ _ _ _ _ E Hi) in Hs as (j & (Hj & Haj & Hno) & Ej).
      assert (i0 <= j) by (destruct (le_lt_dec i0 j) as [|L]; [assumption|destruct (Hf j L Haj)]).
      destruct (Hr i) as (j' & Hj' & Haj'); [lia|]. apply (Hno j'); [lia|exact Haj'].
    + rewrite (proj2 (C19_new _ _ _ _ _ _ E Hi)). split.
      * intros (Hai & Hno). destruct (Nat.lt_trichotomy i i0) as [L|[L|L]]; [destruct (Hf i L Hai)|exact L|].
        destruct (Hr (pred i)) as (j & Hj & Haj); [lia|]. destruct (Hno j); [lia|exact Haj].
      * intros ->. split; [exact Ha|]. intros j Hj. apply Hf. lia.
  - apply (C19_live _ _ _ _ E). pose proof (answered_lt _ _ _ Ha). destruct (Hr (pred (length rs))) as (j & Hj & Haj); [lia|].
    exists j. split; [lia|exact Haj].
Qed.

Print Assumptions C18_dead_iff_missed.
Print Assumptions C18_every_beat.
Print Assumptions C19_live.
Print Assumptions C19_new.
Print Assumptions C19_responsive.

(** With a limit of one miss: engine 7 answers the first ping, answers the second one late (in the third round), then
    falls silent and is declared dead in round 4 (two misses); engine 8 sends an answer to a ping that is too old. *)
Definition ex_history :=
  [Round [(7, 0)] 10; Round [] 10; Round [(7, 10)] 10; Round [(8, 10)] 10; Round [] 10; Round [(7, 50)] 10].
Example C18_nonvacuous : map (fun n => (new_heart n, stopped_heart n)) (snd (run 1 ex_history)) = [([7], []); ([], []); ([], []); ([], []); ([], [7]); ([7], [])].
Proof. vm_compute. reflexivity. Qed.
Example C19_nonvacuous : forall i, 0 <= i < length (firstn 4 ex_history) -> exists j, j <= i <= j + 1 /\ answered (firstn 4 ex_history) 7 j.
Proof.
  simpl. intros i Hi. destruct (le_lt_dec i 1).
  - exists 0. split; [lia|]. exists (Round [(7, 0)] 10), 0. simpl. auto.
  - exists 2. split; [lia|]. exists (Round [(7, 10)] 10), 10. simpl. auto.
Qed.
