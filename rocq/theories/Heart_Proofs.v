(** Proofs about the heart monitor. *)
From Coq Require Import List Arith Bool Lia.
From Verif Require Import Heart_Spec Heart_Model.
Import ListNotations.

(* ---------------------------------------------------------------- sets *)
Lemma mem_In x l : mem x l = true <-> In x l.
Proof. unfold mem. rewrite existsb_exists. split; [intros (y & H & E); apply Nat.eqb_eq in E; subst; exact H|intros H; exists x; rewrite Nat.eqb_refl; auto]. Qed.
Lemma mem_false x l : mem x l = false <-> ~ In x l.
Proof. rewrite <- mem_In. destruct (mem x l); split; congruence. Qed.
Lemma In_add x y l : In x (add y l) <-> x = y \/ In x l.
Proof.
  unfold add. destruct (mem y l) eqn:E; [|rewrite in_app_iff; simpl; intuition].
  apply mem_In in E. intuition; subst; auto.
Qed.
Lemma NoDup_add y l : NoDup l -> NoDup (add y l).
Proof.
  unfold add. destruct (mem y l) eqn:E; [auto|]. apply mem_false in E. intros H. induction H as [|z l Hz Hl IH]; simpl.
  - repeat constructor; auto.
  - constructor; [|apply IH; intros Hi; apply E; right; exact Hi]. rewrite in_app_iff. simpl. intros [H|[->|[]]]; [auto|]. apply E; left; reflexivity.
Qed.
Lemma In_inter x a b : In x (inter a b) <-> In x a /\ In x b.
Proof. unfold inter. rewrite filter_In, mem_In. reflexivity. Qed.
Lemma In_diff x a b : In x (diff a b) <-> In x a /\ ~ In x b.
Proof. unfold diff. rewrite filter_In, negb_true_iff, mem_false. reflexivity. Qed.
Lemma In_remove x y l : In x (remove y l) <-> In x l /\ x <> y.
Proof. unfold remove. rewrite filter_In, negb_true_iff, Nat.eqb_neq. intuition. Qed.
Lemma NoDup_filter {A} (f : A -> bool) l : NoDup l -> NoDup (filter f l).
Proof. induction 1 as [|x l Hx Hl IH]; simpl; [constructor|]. destruct (f x); [|exact IH]. constructor; [|exact IH]. rewrite filter_In. tauto. Qed.
Lemma In_adds x ys l : In x (fold_left (fun l h => add h l) ys l) <-> In x ys \/ In x l.
Proof. revert l; induction ys as [|y ys IH]; intros l; simpl; [tauto|]. rewrite IH, In_add. intuition. Qed.
Lemma NoDup_adds ys l : NoDup l -> NoDup (fold_left (fun l h => add h l) ys l).
Proof. revert l; induction ys as [|y ys IH]; intros l H; simpl; [exact H|]. apply IH, NoDup_add, H. Qed.
Lemma In_removes x ys l : In x (fold_left (fun l h => remove h l) ys l) <-> In x l /\ ~ In x ys.
Proof. revert l; induction ys as [|y ys IH]; intros l; simpl; [tauto|]. rewrite IH, In_remove. intuition. Qed.
Lemma NoDup_removes ys l : NoDup l -> NoDup (fold_left (fun l h => remove h l) ys l).
Proof. revert l; induction ys as [|y ys IH]; intros l H; simpl; [exact H|]. apply IH, NoDup_filter, H. Qed.
Lemma count_map h f l : In h l -> count h (map (fun x => (x, f x)) l) = f h.
Proof.
  induction l as [|x l IH]; simpl; [tauto|]. intros [->|H]; [rewrite Nat.eqb_refl; reflexivity|].
  destruct (Nat.eqb_spec h x) as [->|]; auto.
Qed.
Lemma count_none h d : ~ In h (map fst d) -> count h d = 0.
Proof. induction d as [|[k v] d IH]; simpl; [reflexivity|]. intros H. destruct (Nat.eqb_spec h k) as [->|]; [exfalso; auto|auto]. Qed.

(* ---------------------------------------------------------------- histories *)
Lemma ping_app rs r i : i <= length rs -> ping_of (rs ++ [r]) i = ping_of rs i.
Proof. revert i; induction rs as [|x rs IH]; intros [|i] H; simpl in *; try reflexivity; try lia. rewrite IH by lia. reflexivity. Qed.
Lemma ping_end rs r : ping_of (rs ++ [r]) (S (length rs)) = ping_of rs (length rs) + elapsed r.
Proof. induction rs as [|x rs IH]; simpl in *; [lia|]. rewrite IH; lia. Qed.
Lemma answered_app rs r h i : i < length rs -> (answered (rs ++ [r]) h i <-> answered rs h i).
Proof.
  intros H. unfold answered. rewrite nth_error_app1 by exact H. rewrite !ping_app by lia. reflexivity.
Qed.
Lemma answered_fw rs r h i : answered (rs ++ [r]) h i -> i < length rs -> answered rs h i.
Proof. intros H L. apply (proj1 (answered_app rs r h i L) H). Qed.
Lemma answered_lt rs h i : answered rs h i -> i < length rs.
Proof. intros (r & t & H & _). apply nth_error_Some. congruence. Qed.
Lemma answered_last rs r h : answered (rs ++ [r]) h (length rs) <->
  exists t, In (h, t) (pongs r) /\ (t = ping_of rs (length rs) \/ t = ping_of rs (pred (length rs))).
Proof.
  unfold answered. rewrite nth_error_app2, Nat.sub_diag by lia. rewrite !ping_app by lia. simpl. split.
  - intros (r' & t & E & H). injection E as <-. eauto.
  - intros (t & H). eauto.
Qed.
Lemma missed_app rs r h i n : i < length rs -> (missed (rs ++ [r]) h i n <-> missed rs h i n).
Proof.
  intros H. unfold missed, last_answer. split; intros (j & (H1 & H2 & H3) & E); exists j; (split; [split; [exact H1|split]|exact E]).
  - apply answered_fw in H2; [exact H2|lia].
  - intros m Hm Ha. apply (H3 m Hm). apply answered_app; [lia|exact Ha].
  - apply answered_app; [lia|exact H2].
  - intros m Hm Ha. apply (H3 m Hm). apply answered_fw in Ha; [exact Ha|lia].
Qed.
Lemma missed_fun rs h i n m : missed rs h i n -> missed rs h i m -> n = m.
Proof.
  intros (j & (H1 & H2 & H3) & E) (j' & (H1' & H2' & H3') & E').
  destruct (Nat.lt_trichotomy j j') as [L|[L|L]]; [|lia|].
  - exfalso. apply (H3 j'); [lia|exact H2'].
  - exfalso. apply (H3' j); [lia|exact H2].
Qed.
Lemma missed_0 rs h i : missed rs h i 0 <-> answered rs h i.
Proof.
  split; [intros (j & (_ & H & _) & E); replace i with j by lia; exact H|].
  intros H. exists i. repeat split; auto; try lia.
Qed.
Lemma missed_S rs h i n : missed rs h (S i) (S n) <-> ~ answered rs h (S i) /\ missed rs h i n.
Proof.
  split.
  - intros (j & (H1 & H2 & H3) & E). split; [apply H3; lia|]. exists j. repeat split; auto; try lia. intros m Hm; apply H3; lia.
  - intros (Hn & j & (H1 & H2 & H3) & E). exists j. repeat split; auto; try lia.
    intros m Hm. destruct (Nat.eq_dec m (S i)) as [->|]; [exact Hn|]. apply H3; lia.
Qed.
Lemma missed_first rs h n : missed rs h 0 (S n) -> False.
Proof. intros (j & (H1 & _) & E). lia. Qed.

(* ---------------------------------------------------------------- the monitor *)
Lemma pongs_fields ps m : let m' := fold_left handle_pong ps m in
  hearts m' = hearts m /\ on_probation m' = on_probation m /\ last_ping m' = last_ping m /\ lifetime m' = lifetime m /\
  (NoDup (responses m) -> NoDup (responses m')) /\
  forall h, In h (responses m') <-> In h (responses m) \/ exists t, In (h, t) ps /\ (t = lifetime m \/ t = last_ping m).
Proof.
  revert m; induction ps as [|[h t] ps IH]; intros m; simpl.
  - repeat split; auto. intros [H|(t & [] & _)]; exact H.
  - specialize (IH (handle_pong m (h, t))). simpl in IH. unfold handle_pong in IH |- *.
    destruct (Nat.eqb t (lifetime m) || Nat.eqb t (last_ping m)) eqn:E.
    + destruct IH as (A1 & A2 & A3 & A4 & A5 & A6). simpl in *. repeat split; auto.
      * intros H; apply A5, NoDup_add, H.
      * intros Hi. apply A6 in Hi as [Hi|(t' & Hi & Ht)]; [apply In_add in Hi as [->|Hi]|]; eauto.
        right. exists t. apply orb_true_iff in E as [E|E]; apply Nat.eqb_eq in E; auto.
      * intros [Hi|(t' & [Hi|Hi] & Ht)]; apply A6; [left; apply In_add; auto| |eauto].
        injection Hi as -> ->. left. apply In_add; auto.
    + destruct IH as (A1 & A2 & A3 & A4 & A5 & A6). repeat split; auto.
      * intros Hi. apply A6 in Hi as [Hi|(t' & Hi & Ht)]; eauto.
      * intros [Hi|(t' & [Hi|Hi] & Ht)]; apply A6; eauto. injection Hi as -> ->.
        apply orb_false_iff in E as [E1 E2]. apply Nat.eqb_neq in E1, E2. tauto.
Qed.

Section Mon.
Context (max : nat).

Definition alive (rs : list round) (h : nat) : Prop := exists k, k <= max /\ rs <> [] /\ missed rs h (pred (length rs)) k.
Record inv (rs : list round) (m : monitor) : Prop := {
  i_life : lifetime m = ping_of rs (length rs);
  i_last : last_ping m = ping_of rs (pred (length rs));
  i_resp : responses m = [];
  i_nodup : NoDup (hearts m);
  i_hearts : forall h, In h (hearts m) <-> alive rs h;
  i_count : forall h k, In h (hearts m) -> missed rs h (pred (length rs)) k -> count h (on_probation m) = k }.

Lemma inv_start : inv [] start.
Proof.
  constructor; simpl; auto; try constructor; try tauto. intros (k & _ & H & _). congruence.
Qed.

Definition tells (rs : list round) (i : nat) (n : notice) : Prop :=
  NoDup (new_heart n) /\ NoDup (stopped_heart n) /\
  (forall h, In h (stopped_heart n) <-> missed rs h i (S max)) /\
  (forall h, In h (new_heart n) <-> answered rs h i /\ forall j, j < i <= j + S max -> ~ answered rs h j).

Lemma alive_window rs h : (alive rs h <-> exists j, j < length rs <= j + S max /\ answered rs h j) .
Proof.
  split.
  - intros (k & Hk & Hn & j & (H1 & H2 & H3) & E). exists j. split; [|exact H2]. destruct rs; [congruence|]. simpl in *. lia.
  - intros (j & Hj & Ha).
    assert (forall d, j + d < length rs -> exists k, k <= d /\ missed rs h (j + d) k) as H.
    { induction d as [|d IH]; intros Hd.
      - exists 0. split; [lia|]. rewrite Nat.add_0_r. apply missed_0, Ha.
      - destruct IH as (k & Hk & Hm); [lia|]. rewrite Nat.add_succ_r.
        (* answered is decidable *)
        assert (answered rs h (S (j + d)) \/ ~ answered rs h (S (j + d))) as [A|A].
        { unfold answered. destruct (nth_error rs (S (j + d))) as [r|] eqn:E.
          2: { right. intros (r & t & E' & _). congruence. }
          destruct (existsb (fun p => Nat.eqb (fst p) h && (Nat.eqb (snd p) (ping_of rs (S (j + d))) || Nat.eqb (snd p) (ping_of rs (pred (S (j + d)))))) (pongs r)) eqn:Ex.
          - apply existsb_exists in Ex as ([h' t] & Hi & Hb). simpl in Hb. apply andb_true_iff in Hb as [Hb1 Hb2]. apply Nat.eqb_eq in Hb1. subst h'.
            left. exists r, t. repeat split; auto. apply orb_true_iff in Hb2 as [Hb2|Hb2]; apply Nat.eqb_eq in Hb2; auto.
          - right. intros (r' & t & E' & Hi & Ht). injection E' as <-.
            assert (existsb (fun p => Nat.eqb (fst p) h && (Nat.eqb (snd p) (ping_of rs (S (j + d))) || Nat.eqb (snd p) (ping_of rs (pred (S (j + d)))))) (pongs r) = true); [|congruence].
            apply existsb_exists. exists (h, t). split; [exact Hi|]. simpl. rewrite Nat.eqb_refl. simpl. apply orb_true_iff.
            destruct Ht as [->| ->]; [left|right]; apply Nat.eqb_refl. }
        + exists 0. split; [lia|]. apply missed_0, A.
        + exists (S k). split; [lia|]. apply missed_S; auto. }
    destruct (H (pred (length rs) - j)) as (k & Hk & Hm); [lia|]. exists k. split; [lia|]. split.
    + intros ->. simpl in Hj. lia.
    + replace (j + (pred (length rs) - j)) with (pred (length rs)) in Hm by lia. exact Hm.
Qed.

Lemma step rs m r : inv rs m -> forall m' n, do_round max m r = (m', n) -> inv (rs ++ [r]) m' /\ tells (rs ++ [r]) (length rs) n.
Proof.
  intros I m' n E. unfold do_round in E.
  pose proof (pongs_fields (pongs r) m) as P. cbv zeta in P. set (m1 := fold_left handle_pong (pongs r) m) in *.
  destruct P as (P1 & P2 & P3 & P4 & P5 & P6). destruct I as [I1 I2 I3 I4 I5 I6].
  rewrite I3 in P5, P6. specialize (P5 (NoDup_nil _)).
  assert (Hresp : forall h, In h (responses m1) <-> answered (rs ++ [r]) h (length rs)).
  { intros h. rewrite P6, answered_last, I1, I2. simpl. intuition. }
  unfold beat, check_missed in E. injection E as <- <-. cbn [new_heart stopped_heart hearts responses on_probation last_ping lifetime].
  rewrite P1, P2, P4.
  set (news := diff (responses m1) (inter (hearts m) (responses m1))).
  set (hs := fold_left (fun l h => add h l) news (hearts m)).
  set (miss := filter (fun b => mem b hs) (diff (hearts m) (inter (hearts m) (responses m1)))).
  set (fails := filter (fun h => max <? count h (on_probation m) + 1) miss).
  assert (Hnews : forall h, In h news <-> In h (responses m1) /\ ~ In h (hearts m)).
  { intros h. unfold news. rewrite In_diff, In_inter. tauto. }
  assert (Hhs : forall h, In h hs <-> In h (hearts m) \/ In h (responses m1)).
  { intros h. unfold hs. rewrite In_adds, Hnews. destruct (mem h (hearts m)) eqn:Em; [apply mem_In in Em|apply mem_false in Em]; tauto. }
  assert (Hmiss : forall h, In h miss <-> In h (hearts m) /\ ~ In h (responses m1)).
  { intros h. unfold miss. rewrite filter_In, mem_In, Hhs, In_diff, In_inter. tauto. }
  assert (Hfail : forall h, In h fails <-> In h (hearts m) /\ ~ In h (responses m1) /\ max <= count h (on_probation m)).
  { intros h. unfold fails. rewrite filter_In, Hmiss, Nat.ltb_lt. intuition lia. }
  (* the engine has missed k beats before, and misses this one *)
  assert (Hprev : forall h k, missed (rs ++ [r]) h (length rs) (S k) <-> rs <> [] /\ ~ In h (responses m1) /\ missed rs h (pred (length rs)) k).
  { intros h k. rewrite Hresp. destruct rs as [|r0 rs0]; simpl length.
    - split; [intros H; destruct (missed_first _ _ _ H)|intros (H & _); congruence].
    - simpl pred. rewrite missed_S. rewrite missed_app by (simpl; lia). intuition congruence. }
  assert (Hstop : forall h, In h fails <-> missed (rs ++ [r]) h (length rs) (S max)).
  { intros h. rewrite Hfail, Hprev. split.
    - intros (H1 & H2 & H3). pose proof (proj1 (I5 h) H1) as (k & Hk & Hn & Hm). pose proof (I6 _ _ H1 Hm) as Hc.
      replace max with k by lia. auto.
    - intros (Hn & Hr & Hm). assert (Hin : In h (hearts m)) by (apply I5; exists max; auto). rewrite (I6 _ _ Hin Hm). auto. }
  split; [constructor|]; cbn [new_heart stopped_heart hearts responses on_probation last_ping lifetime].
  - rewrite I1, app_length, Nat.add_1_r, ping_end. reflexivity.
  - rewrite I1, app_length, Nat.add_1_r. simpl pred. rewrite ping_app by lia. reflexivity.
  - reflexivity.
  - apply NoDup_removes, NoDup_adds, I4.
  - intros h. rewrite In_removes, Hhs. unfold alive. rewrite app_length, Nat.add_1_r. simpl pred. split.
    + intros ([H|H] & Hf).
      * destruct (mem h (responses m1)) eqn:Er; [apply mem_In in Er|apply mem_false in Er].
        -- exists 0. repeat split; [lia|destruct rs; discriminate|]. apply missed_0, Hresp, Er.
        -- pose proof (proj1 (I5 h) H) as (k & Hk & Hn & Hm). exists (S k).
           assert (Hk' : k <> max).
           { intros ->. apply Hf, Hstop, Hprev. auto. }
           repeat split; [lia|destruct rs; discriminate|]. apply Hprev. auto.
      * exists 0. repeat split; [lia|destruct rs; discriminate|]. apply missed_0, Hresp, H.
    + intros (k & Hk & _ & Hm). split.
      * destruct k as [|k]; [right; apply Hresp, missed_0, Hm|]. left. apply Hprev in Hm as (Hn & _ & Hm). apply I5. exists k. repeat split; auto; lia.
      * intros Hf. apply Hstop in Hf. pose proof (missed_fun _ _ _ _ _ Hm Hf). lia.
  - intros h k. rewrite app_length, Nat.add_1_r. simpl pred. rewrite In_removes, Hhs. intros (Hin & Hf) Hm.
    destruct k as [|k].
    + apply missed_0, Hresp in Hm. apply count_none. rewrite map_map, map_id. intros Hi. apply filter_In in Hi as [Hi _]. apply Hmiss in Hi. tauto.
    + pose proof Hm as Hm'. apply Hprev in Hm' as (Hn & Hr & Hm'). destruct Hin as [Hin|Hin]; [|tauto].
      pose proof (I6 _ _ Hin Hm') as Hc. rewrite (count_map h (fun h => count h (on_probation m) + 1)).
      * rewrite Hc. lia.
      * apply filter_In. split; [apply Hmiss; auto|]. apply negb_true_iff, Nat.ltb_ge.
        destruct (le_lt_dec (count h (on_probation m) + 1) max) as [L|L]; [exact L|].
        exfalso. apply Hf, Hfail. repeat split; auto; lia.
  - unfold tells. cbn [new_heart stopped_heart]. repeat split.
    + apply NoDup_filter. exact P5.
    + apply NoDup_filter, NoDup_filter, NoDup_filter, I4.
    + apply Hstop.
    + apply Hstop.
    + apply Hnews in H as [H _]. apply Hresp, H.
    + intros j Hj Ha. apply Hnews in H as [_ H]. apply H, I5, alive_window. exists j. split; [lia|]. apply answered_fw in Ha; [exact Ha|lia].
    + intros (Ha & Hno). apply Hnews. split; [apply Hresp, Ha|]. intros Hin. apply I5, alive_window in Hin as (j & Hj & Haj).
      apply (Hno j); [lia|]. apply answered_app; [lia|exact Haj].
Qed.

Lemma run_from_app m rs r : run_from max m (rs ++ [r]) =
  let '(m1, ns) := run_from max m rs in let '(m2, n) := do_round max m1 r in (m2, ns ++ [n]).
Proof.
  revert m; induction rs as [|x rs IH]; intros m; cbn [app run_from].
  - destruct (do_round max m r); reflexivity.
  - destruct (do_round max m x) as [m1 n1]. rewrite IH. destruct (run_from max m1 rs) as [m2 ns]. destruct (do_round max m2 r). reflexivity.
Qed.

Theorem run_tells rs : forall m ns, run max rs = (m, ns) -> inv rs m /\ length ns = length rs /\ forall i n, nth_error ns i = Some n -> tells rs i n.
Proof.
  induction rs as [|r rs IH] using rev_ind; intros m ns E.
  - injection E as <- <-. split; [apply inv_start|]. split; [reflexivity|]. intros [|i] n H; discriminate.
  - unfold run in E. rewrite run_from_app in E. fold (run max rs) in E.
    destruct (run max rs) as [m1 ns1] eqn:E1. destruct (IH _ _ eq_refl) as (I & Hl & Ht).
    destruct (do_round max m1 r) as [m2 n2] eqn:E2. injection E as <- <-.
    destruct (step _ _ _ I _ _ E2) as (I' & Hn). split; [exact I'|]. split; [rewrite !app_length, Hl; reflexivity|].
    intros i n Hi. destruct (lt_dec i (length rs)) as [L|L].
    + rewrite nth_error_app1 in Hi by lia. destruct (Ht _ _ Hi) as (T1 & T2 & T3 & T4). repeat split; auto.
      * intros Hs. apply missed_app; [exact L|]. apply T3, Hs.
      * intros Hs. apply (proj1 (missed_app _ _ _ _ _ L)) in Hs. apply T3, Hs.
      * apply T4 in H as [H _]. apply answered_app; [exact L|exact H].
      * intros j Hj Ha. apply T4 in H as [_ H]. apply (H j Hj). apply answered_fw in Ha; [exact Ha|lia].
      * intros (Ha & Hno). apply T4. split; [apply answered_fw in Ha; [exact Ha|exact L]|].
        intros j Hj Haj. apply (Hno j Hj). apply answered_app; [lia|exact Haj].
    + rewrite nth_error_app2 in Hi by lia. replace (i - length ns1) with (i - length rs) in Hi by lia.
      destruct (i - length rs) as [|d] eqn:Ed; [|destruct d; discriminate]. injection Hi as <-.
      replace i with (length rs); [exact Hn|]. assert (i < S (length rs)); [|lia]. lia.
Qed.
End Mon.
