From Coq Require Import List Arith ZArith QArith Lia Lqa.
Import ListNotations.
From Verif Require Import Chooser_Spec Chooser_Model.

Lemma fold_min_le (r : list Z) x : (fold_left Z.min r x <= x)%Z /\ Forall (fun y => (fold_left Z.min r x <= y)%Z) r.
Proof.
  revert x; induction r as [|y r IH]; intros x; simpl; [split; [lia|constructor]|].
  destruct (IH (Z.min x y)) as [H1 H2]. split; [lia|]. constructor; [lia|assumption].
Qed.

Lemma fold_min_in (r : list Z) x : In (fold_left Z.min r x) (x :: r).
Proof.
  revert x; induction r as [|y r IH]; intros x; simpl; [left; reflexivity|].
  destruct (IH (Z.min x y)) as [H|H]; [|right; right; exact H].
  rewrite <- H. destruct (Z.min_spec x y) as [[_ ->]|[_ ->]]; auto.
Qed.

Lemma py_index_spec v l i : py_index v l = Some i <->
  nth_error l i = Some v /\ (forall k, (k < i)%nat -> nth_error l k <> Some v).
Proof.
  revert i; induction l as [|x l IH]; intros i; simpl.
  - split; [discriminate|]. intros [H _]. destruct i; discriminate.
  - destruct (Z.eqb_spec x v) as [->|Hne].
    + split.
      * intros [= <-]. split; [reflexivity|]. lia.
      * intros [H1 H2]. destruct i as [|i]; [reflexivity|]. exfalso. apply (H2 0%nat); [lia|reflexivity].
    + split.
      * destruct (py_index v l) as [k|]; [|discriminate]. intros [= <-].
        destruct (proj1 (IH k) eq_refl) as [E1 E2].
        split; [exact E1|]. intros [|k'] Hk; simpl; [congruence|]. apply E2; lia.
      * intros [H1 H2]. destruct i as [|i]; [simpl in H1; congruence|].
        assert (py_index v l = Some i) as ->; [|reflexivity].
        apply IH. split; [exact H1|]. intros k Hk. apply (H2 (S k)). lia.
Qed.

Lemma py_index_in v l : In v l -> exists i, py_index v l = Some i.
Proof.
  induction l as [|x l IH]; simpl; [intros []|]. destruct (Z.eqb_spec x v) as [->|Hne].
  - eauto.
  - intros [?|H]; [contradiction|]. destruct (IH H) as [i ->]. simpl; eauto.
Qed.

Lemma leastload_spec loads : loads <> [] ->
  exists i x, leastload loads = Some i /\ nth_error loads i = Some x /\
    Forall (fun y => (x <= y)%Z) loads /\
    (forall k y, (k < i)%nat -> nth_error loads k = Some y -> (x < y)%Z).
Proof.
  destruct loads as [|x0 r]; [congruence|]. intros _. unfold leastload, py_min.
  set (m := fold_left Z.min r x0).
  destruct (py_index_in m (x0 :: r) (fold_min_in r x0)) as [i Hi].
  exists i, m. split; [exact Hi|]. apply py_index_spec in Hi as [H1 H2].
  destruct (fold_min_le r x0) as [Hx Hr].
  assert (Forall (fun y => (m <= y)%Z) (x0 :: r)) as Hall by (constructor; assumption).
  split; [exact H1|]. split; [exact Hall|].
  intros k y Hk Hy. specialize (H2 k Hk).
  rewrite Forall_forall in Hall. specialize (Hall y (nth_error_In _ _ Hy)).
  assert (y <> m) by congruence. lia.
Qed.

Lemma cumsum_from_nth acc l i : forall w, nth_error l i = Some w ->
  exists s, nth_error (cumsum_from acc l) i = Some s.
Proof. revert acc i; induction l as [|x l IH]; intros acc [|i] w H; simpl in *; try discriminate; eauto. Qed.

Lemma cumsum_from_length acc l : length (cumsum_from acc l) = length l.
Proof. revert acc; induction l as [|x l IH]; intros; simpl; auto. Qed.

Lemma scan_total sums x : sums <> [] -> (x <= last sums 0)%Q -> exists i, scan sums x = Some i /\ (i < length sums)%nat.
Proof.
  induction sums as [|s r IH]; [congruence|]. intros _ Hx. simpl.
  destruct (Qlt_le_dec s x) as [Hlt|Hle]; [|exists 0%nat; split; [reflexivity|simpl; lia]].
  destruct r as [|s' r'].
  - simpl in Hx. exfalso. apply (Qlt_not_le _ _ Hlt Hx).
  - destruct (IH ltac:(discriminate) Hx) as [i [-> Hi]]. exists (S i). split; [reflexivity|simpl in *; lia].
Qed.

Lemma weight_pos z : (0 <= z)%Z -> (0 < weight z)%Q.
Proof.
  intros Hz. unfold weight. apply Qinv_lt_0_compat.
  assert (0 <= inject_Z z)%Q by (unfold Qle; simpl; lia).
  lra.
Qed.

Lemma weight_antitone a b : (0 <= a)%Z -> (0 <= b)%Z -> (weight a < weight b)%Q -> (b < a)%Z.
Proof.
  intros Ha Hb Hlt. destruct (Z_lt_le_dec b a) as [|Hle]; [assumption|exfalso].
  assert (weight b <= weight a)%Q as Hc; [|apply (Qlt_not_le _ _ Hlt Hc)].
  unfold weight.
  assert (inject_Z a <= inject_Z b)%Q as Hab by (rewrite <- Zle_Qle; lia).
  assert (0 <= inject_Z a)%Q by (unfold Qle; simpl; lia).
  set (x := ((1 # 1000000) + inject_Z a)%Q). set (y := ((1 # 1000000) + inject_Z b)%Q).
  assert (0 < x)%Q by (unfold x; lra). assert (x <= y)%Q by (unfold x, y; lra).
  apply Qle_shift_inv_l; [assumption|].
  setoid_replace (/ y * x)%Q with (x / y)%Q by (unfold Qdiv; ring).
  apply Qle_shift_div_r; [lra|]. lra.
Qed.

Lemma last_cumsum_nonneg acc l : (0 <= acc)%Q -> Forall (fun w => 0 < w)%Q l ->
  l <> [] -> (0 < last (cumsum_from acc l) 0)%Q.
Proof.
  revert acc; induction l as [|w l IH]; [congruence|]. intros acc Ha Hf _. inversion Hf as [|? ? Hw Hl]; subst.
  simpl cumsum_from. destruct l as [|w' l'].
  - simpl. lra.
  - change (0 < last (cumsum_from (acc + w) (w' :: l')) 0)%Q. apply IH; [lra|assumption|discriminate].
Qed.

Lemma cumsum_from_value acc l i s : nth_error (cumsum_from acc l) i = Some s -> (s == acc + qsum (firstn (S i) l))%Q.
Proof.
  revert acc i; induction l as [|x l IH]; intros acc [|i] H; simpl in H; try discriminate.
  - injection H as <-. simpl. ring.
  - apply IH in H. rewrite H. change (firstn (S (S i)) (x :: l)) with (x :: firstn (S i) l). simpl qsum. ring.
Qed.
Lemma scan_spec sums x i : scan sums x = Some i ->
  (exists s, nth_error sums i = Some s /\ (x <= s)%Q) /\ forall k s, (k < i)%nat -> nth_error sums k = Some s -> (s < x)%Q.
Proof.
  revert i; induction sums as [|s r IH]; intros i H; simpl in H; [discriminate|].
  destruct (Qlt_le_dec s x) as [Hlt|Hle].
  - destruct (scan r x) as [j|] eqn:E; [|discriminate]. injection H as <-. destruct (IH j eq_refl) as [A B].
    split; [exact A|]. intros [|k] s' Hk; simpl; [congruence|]. intros H. apply (B k); [lia|exact H].
  - injection H as <-. split; [exists s; auto|]. lia.
Qed.
Lemma last_cumsum acc l : l <> [] -> (last (cumsum_from acc l) 0 == acc + qsum l)%Q.
Proof.
  revert acc; induction l as [|w l IH]; [congruence|]. intros acc _. simpl cumsum_from. destruct l as [|w' l'].
  - simpl. ring.
  - change (last (cumsum_from (acc + w) (w' :: l')) 0 == acc + qsum (w :: w' :: l'))%Q. rewrite IH by discriminate. simpl. ring.
Qed.
Lemma shares loads : map share loads = map weight loads.
Proof. apply map_ext. intros z. unfold share, weight, Qdiv. destruct (/ _)%Q as [[] d]; reflexivity. Qed.

Lemma weighted_spec u v loads :
  loads <> [] -> Forall (fun z => 0 <= z)%Z loads -> (0 <= u < 1)%Q -> (0 <= v < 1)%Q ->
  exists ix iy lx ly i,
    falls_into u loads ix /\ falls_into v loads iy /\
    nth_error loads ix = Some lx /\ nth_error loads iy = Some ly /\
    weighted u v loads = Some i /\
    (i = ix \/ i = iy) /\ (exists l, nth_error loads i = Some l /\ (l <= lx)%Z /\ (l <= ly)%Z).
Proof.
  intros Hne Hf Hu Hv. unfold weighted.
  set (weights := map weight loads).
  assert (Forall (fun w => 0 < w)%Q weights) as Hw.
  { apply Forall_map. eapply Forall_impl; [|exact Hf]. intros; apply weight_pos; assumption. }
  assert (weights <> []) as Hwne by (destruct loads; [congruence|discriminate]).
  pose proof (last_cumsum_nonneg 0 weights (Qle_refl 0) Hw Hwne) as Ht. fold (cumsum weights) in Ht.
  set (t := last (cumsum weights) 0%Q) in *.
  assert (cumsum weights <> []) as Hsne.
  { intros E. unfold cumsum in E. pose proof (cumsum_from_length 0 weights) as Hl. rewrite E in Hl.
    destruct weights; [congruence|discriminate]. }
  assert (forall w, (0 <= w < 1)%Q -> exists i l, scan (cumsum weights) (w * t) = Some i /\
             nth_error loads i = Some l /\ nth_error weights i = Some (weight l) /\ falls_into w loads i) as Hscan.
  { intros w [Hw0 Hw1]. destruct (scan_total (cumsum weights) (w * t)%Q Hsne) as [i [Hi Hl]].
    { fold t. setoid_replace t with (1 * t)%Q at 2 by ring. apply Qmult_le_compat_r; lra. }
    unfold cumsum in Hl. rewrite cumsum_from_length in Hl. unfold weights in Hl. rewrite map_length in Hl.
    destruct (nth_error loads i) as [l|] eqn:E; [|apply nth_error_None in E; lia].
    exists i, l. split; [exact Hi|]. split; [exact E|]. split; [unfold weights; rewrite nth_error_map, E; reflexivity|].
    assert (Htot : (t == qsum weights)%Q) by (unfold t, cumsum; rewrite last_cumsum by exact Hwne; ring).
    apply scan_spec in Hi as [(s & Hs & Hle) Hbelow].
    unfold falls_into. rewrite shares. fold weights. rewrite <- Htot.
    split; [exact Hl|]. split.
    - destruct i as [|i]; [auto|right]. destruct (nth_error (cumsum weights) i) as [s'|] eqn:Es'.
      + specialize (Hbelow i s' ltac:(lia) Es'). apply cumsum_from_value in Es'. rewrite Es' in Hbelow.
        setoid_replace (0 + qsum (firstn (S i) weights))%Q with (qsum (firstn (S i) weights)) in Hbelow by ring. exact Hbelow.
      + exfalso. apply nth_error_None in Es'. assert (nth_error (cumsum weights) (S i) <> None) as Hc by congruence.
        apply nth_error_Some in Hc. lia.
    - apply cumsum_from_value in Hs. rewrite Hs in Hle.
      setoid_replace (0 + qsum (firstn (S i) weights))%Q with (qsum (firstn (S i) weights)) in Hle by ring. exact Hle. }
  destruct (Hscan u Hu) as [ix [lx [Sx [Nx [Wx Fx]]]]]. destruct (Hscan v Hv) as [iy [ly [Sy [Ny [Wy Fy]]]]].
  destruct (cumsum weights) as [|s0 ss] eqn:Es; [congruence|]. rewrite <- Es in *. fold t.
  rewrite Sx, Sy, Wx, Wy.
  assert (0 <= lx)%Z as Hlx by (rewrite Forall_forall in Hf; apply Hf; eapply nth_error_In; eauto).
  assert (0 <= ly)%Z as Hly by (rewrite Forall_forall in Hf; apply Hf; eapply nth_error_In; eauto).
  exists ix, iy, lx, ly.
  destruct (Qlt_le_dec (weight lx) (weight ly)) as [Hlt|Hle].
  - exists iy. do 5 (split; [solve [auto]|]). split; [auto|]. exists ly. apply weight_antitone in Hlt; auto. repeat split; auto; lia.
  - exists ix. do 5 (split; [solve [auto]|]). split; [auto|]. exists lx. repeat split; auto; [lia|].
    destruct (Z_lt_le_dec ly lx) as [Hzlt|]; [exfalso|assumption].
    (* strictly larger load has strictly smaller weight *)
    assert (weight lx < weight ly)%Q as Hs; [|apply (Qlt_not_le _ _ Hs Hle)].
    unfold weight.
    assert (inject_Z ly < inject_Z lx)%Q by (rewrite <- Zlt_Qlt; lia).
    assert (0 <= inject_Z ly)%Q by (unfold Qle; simpl; lia).
    set (x := ((1 # 1000000) + inject_Z lx)%Q). set (y := ((1 # 1000000) + inject_Z ly)%Q).
    assert (0 < y)%Q by (unfold y; lra). assert (y < x)%Q by (unfold x, y; lra).
    apply Qlt_shift_inv_l; [assumption|].
    setoid_replace (/ x * y)%Q with (y / x)%Q by (unfold Qdiv; ring).
    apply Qlt_shift_div_r; [lra|]. lra.
Qed.
