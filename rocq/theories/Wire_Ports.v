From stdpp Require Import base list strings.
From Verif Require Import Wire_Spec Wire_Model Wire_Proofs Wire_Tree.
From Coq Require Import Lia.
Local Open Scope nat_scope.

(** how much of each pool is used, and what was chosen at random *)
Record used (p : pools) (a b : nat) (R : list nat) (p' : pools) : Prop := Used {
  us_e : e_ports p' = e_ports p; us_c : c_ports p' = c_ports p; us_p : ports p' = ports p;
  us_ei : e_idx p <= length (e_ports p) -> e_idx p' = Nat.min (e_idx p + a) (length (e_ports p));
  us_ci : c_idx p <= length (c_ports p) -> c_idx p' = Nat.min (c_idx p + b) (length (c_ports p));
  us_pi : p_idx p <= length (ports p) -> p_idx p' <= length (ports p);
  us_t : taken p' = R ++ taken p; us_r : randoms p' = length R + randoms p; us_o : forall x, x ∈ R -> x ∈ offers p; us_o' : forall x, x ∈ offers p' -> x ∈ offers p }.
Definition ea (k : pool) : nat := match k with Engine => 1 | _ => 0 end.
Definition ca (k : pool) : nat := match k with Client => 1 | _ => 0 end.
Lemma used_trans p a b R q c d S r : used p a b R q -> used q c d S r -> used p (a + c) (b + d) (S ++ R) r.
Proof.
  intros [A1 A2 A3 A4 A5 A6 A7 A8 A9 A10] [B1 B2 B3 B4 B5 B6 B7 B8 B9 B10]. constructor; try congruence.
  - intros H. specialize (A4 H). rewrite B4 by (rewrite A1; lia). rewrite A1, A4. lia.
  - intros H. specialize (A5 H). rewrite B5 by (rewrite A2; lia). rewrite A2, A5. lia.
  - intros H. specialize (A6 H). rewrite <- A3. apply B6. rewrite A3. exact A6.
  - rewrite B7, A7, app_assoc. reflexivity.
  - rewrite B8, A8, app_length. lia.
  - intros x X. apply elem_of_app in X as [X|X]; auto.
  - auto.
Qed.
Lemma used_refl p : used p 0 0 [] p.
Proof. constructor; try reflexivity; auto; try lia. intros x X. inversion X. Qed.
Lemma next_common_used p x p' : next_common p = Some (x, p') -> (exists R, used p 0 0 R p').
Proof.
  unfold next_common. destruct (ports p !! p_idx p) as [y|] eqn:F.
  - apply lookup_lt_Some in F. intros [= <- <-]. exists []. constructor; cbn; auto; try lia. intros z Z. inversion Z.
  - destruct (select (taken p) (offers p)) as [[y o]|] eqn:Sel; [|discriminate]. apply select_ok in Sel as (A & B & C). intros [= <- <-]. exists [y]. constructor; cbn; auto; try lia. intros z Z. apply elem_of_list_singleton in Z as ->. exact B.
Qed.
Lemma next_used k p x p' : next_port k p = Some (x, p') -> (exists R, used p (ea k) (ca k) R p').
Proof.
  destruct k; cbn [next_port ea ca]; [| |apply next_common_used].
  - destruct (e_ports p !! e_idx p) as [y|] eqn:F.
    + apply lookup_lt_Some in F. intros [= <- <-]. exists []. constructor; cbn; auto; try lia. intros z Z. inversion Z.
    + apply lookup_ge_None in F. intros H. apply next_common_used in H as [R [A1 A2 A3 A4 A5 A6 A7 A8 A9 A10]]. exists R. constructor; auto. intros H. rewrite A4 by exact H. lia.
  - destruct (c_ports p !! c_idx p) as [y|] eqn:F.
    + apply lookup_lt_Some in F. intros [= <- <-]. exists []. constructor; cbn; auto; try lia. intros z Z. inversion Z.
    + apply lookup_ge_None in F. intros H. apply next_common_used in H as [R [A1 A2 A3 A4 A5 A6 A7 A8 A9 A10]]. exists R. constructor; auto. intros H. rewrite A5 by exact H. lia.
Qed.
Lemma draw_used k n : forall p l p', draw k n p = Some (l, p') -> (exists R, used p (n * ea k) (n * ca k) R p').
Proof.
  induction n as [|n IH]; intros p l p'; cbn [draw]; [intros [= <- <-]; exists []; apply used_refl|]. destruct (next_port k p) as [[x p1]|] eqn:E; [|discriminate]. destruct (draw k n p1) as [[l1 p2]|] eqn:E1; [|discriminate]. intros [= <- <-].
  apply next_used in E as [R U]. apply IH in E1 as [S V]. exists (S ++ R). exact (used_trans _ _ _ _ _ _ _ _ _ U V).
Qed.
Ltac step U E := match type of E with next_port _ _ = Some _ => apply next_used in E | draw _ _ _ = Some _ => apply draw_used in E end; let R := fresh "R" in let V := fresh "V" in destruct E as [R V]; pose proof (used_trans _ _ _ _ _ _ _ _ _ U V) as U'; clear U V; rename U' into U.
Lemma init_used D p i p' : init_hub D None p = Some (i, p') -> exists R, used p (7 + 2 ^ D) 6 R p'.
Proof.
  unfold init_hub, new_engine_info, new_client_info. intros H.
  destruct (next_port Engine p) as [[x0 p0]|] eqn:E0; [|discriminate H].
  destruct (next_port Engine p0) as [[x1 p1]|] eqn:E1; [|discriminate H]. destruct (next_port Engine p1) as [[x2 p2]|] eqn:E2; [|discriminate H].
  destruct (next_port Engine p2) as [[x3 p3]|] eqn:E3; [|discriminate H]. destruct (next_port Engine p3) as [[x4 p4]|] eqn:E4; [|discriminate H].
  destruct (next_port Engine p4) as [[x5 p5]|] eqn:E5; [|discriminate H]. destruct (next_port Engine p5) as [[x6 p6]|] eqn:E6; [|discriminate H].
  destruct (draw Engine (2 ^ D) p6) as [[l7 p7]|] eqn:E7; [|discriminate H].
  destruct (next_port Client p7) as [[y1 q1]|] eqn:F1; [|discriminate H]. destruct (next_port Client q1) as [[y2 q2]|] eqn:F2; [|discriminate H].
  destruct (next_port Client q2) as [[y3 q3]|] eqn:F3; [|discriminate H]. destruct (next_port Client q3) as [[y4 q4]|] eqn:F4; [|discriminate H].
  destruct (next_port Client q4) as [[y5 q5]|] eqn:F5; [|discriminate H]. destruct (next_port Client q5) as [[y6 q6]|] eqn:F6; [|discriminate H].
  destruct (draw Common (length (broadcast_ids D)) q6) as [[l8 p8]|] eqn:E8; [|discriminate H]. destruct (next_port Common p8) as [[x9 p9]|] eqn:E9; [|discriminate H]. injection H as _ <-.
  pose proof (used_refl p) as U. step U E0. step U E1. step U E2. step U E3. step U E4. step U E5. step U E6. step U E7. step U F1. step U F2. step U F3. step U F4. step U F5. step U F6. step U E8. step U E9.
  match type of U with used _ ?a ?b ?R _ => exists R; replace (7 + 2 ^ D) with a by (cbn [ea]; lia); replace 6 with b by (cbn [ca]; lia) end. exact U.
Qed.

(** there are ports enough *)
Definition clean (p : pools) : Prop := NoDup (offers p) /\ (forall x, x ∈ offers p -> x ∉ taken p).
Lemma select_clean t o : NoDup o -> (forall x, x ∈ o -> x ∉ t) -> o <> [] -> exists x o', select t o = Some (x, o') /\ o = x :: o'.
Proof. destruct o as [|x o]; [congruence|]. intros N Dj _. exists x, o. cbn [select]. rewrite bool_decide_eq_false_2 by (apply Dj; left). auto. Qed.
Lemma common_some p n : clean p -> S n <= (length (ports p) - p_idx p) + length (offers p) -> exists x p', next_common p = Some (x, p') /\ clean p' /\ e_ports p' = e_ports p /\ c_ports p' = c_ports p /\ e_idx p' = e_idx p /\ c_idx p' = c_idx p /\ n <= (length (ports p') - p_idx p') + length (offers p').
Proof.
  intros [N Dj] L. unfold next_common. destruct (ports p !! p_idx p) as [y|] eqn:F.
  - apply lookup_lt_Some in F. do 2 eexists. split; [reflexivity|]. split; [split; assumption|]. cbn. repeat split; try reflexivity. lia.
  - apply lookup_ge_None in F. destruct (select_clean (taken p) (offers p) N Dj) as (x & o & E & O); [intros Z; rewrite Z in L; cbn in L; lia|]. rewrite E. do 2 eexists. split; [reflexivity|]. rewrite O in N, Dj, L. apply NoDup_cons in N as [X N]. split.
    + split; cbn; [exact N|]. intros z Z Y. apply elem_of_cons in Y as [->|Y]; [exact (X Z)|]. apply (Dj z); [right; exact Z|exact Y].
    + cbn. cbn in L. repeat split; try reflexivity. lia.
Qed.
(** demand of the common pool and of random ports *)
Definition demand (q : nat * nat * nat) (p : pools) : nat := let '(e, c, n) := q in (e - (length (e_ports p) - e_idx p)) + (c - (length (c_ports p) - c_idx p)) + n.
Definition enough (q : nat * nat * nat) (p : pools) : Prop := clean p /\ demand q p <= (length (ports p) - p_idx p) + length (offers p).
Lemma next_some k p q : enough (bump k q) p -> exists x p', next_port k p = Some (x, p') /\ enough q p'.
Proof.
  intros [C L]. destruct q as [[e c] n]. destruct k; cbn [next_port bump demand] in *.
  - destruct (e_ports p !! e_idx p) as [y|] eqn:F.
    + apply lookup_lt_Some in F. do 2 eexists. split; [reflexivity|]. split; [exact C|]. cbn. lia.
    + apply lookup_ge_None in F. destruct (common_some p (demand (e, c, n) p) C) as (x & p' & E & C' & E1 & E2 & E3 & E4 & L'); [cbn [demand]; lia|]. exists x, p'. split; [exact E|]. split; [exact C'|]. cbn [demand] in *. rewrite E1, E2, E3, E4. exact L'.
  - destruct (c_ports p !! c_idx p) as [y|] eqn:F.
    + apply lookup_lt_Some in F. do 2 eexists. split; [reflexivity|]. split; [exact C|]. cbn. lia.
    + apply lookup_ge_None in F. destruct (common_some p (demand (e, c, n) p) C) as (x & p' & E & C' & E1 & E2 & E3 & E4 & L'); [cbn [demand]; lia|]. exists x, p'. split; [exact E|]. split; [exact C'|]. cbn [demand] in *. rewrite E1, E2, E3, E4. exact L'.
  - destruct (common_some p (demand (e, c, n) p) C) as (x & p' & E & C' & E1 & E2 & E3 & E4 & L'); [cbn [demand]; lia|]. exists x, p'. split; [exact E|]. split; [exact C'|]. cbn [demand] in *. rewrite E1, E2, E3, E4. exact L'.
Qed.
Lemma draw_some k m : forall p q, enough (bumps k m q) p -> exists l p', draw k m p = Some (l, p') /\ enough q p'.
Proof.
  induction m as [|m IH]; intros p q H; cbn [draw bumps] in *; [eauto|]. apply next_some in H as (x & p1 & -> & H). apply IH in H as (l & p2 & -> & H). eauto.
Qed.
Lemma init_some D p : enough (7 + 2 ^ D, 6, length (broadcast_ids D) + 1) p -> exists i p', init_hub D None p = Some (i, p').
Proof.
  intros H. unfold init_hub, new_engine_info, new_client_info.
  assert (K : enough (bump Engine (bump Engine (bump Engine (bump Engine (bump Engine (bump Engine (bump Engine (bumps Engine (2 ^ D) (bump Client (bump Client (bump Client (bump Client (bump Client (bump Client (bumps Common (length (broadcast_ids D)) (bump Common (0, 0, 0))))))))))))))))) p).
  { cbn [bump]. rewrite bumps_is. cbn [bump]. rewrite bumps_is. cbn [bump]. replace (S (S (S (S (S (S (S (2 ^ D + 0)))))))) with (7 + 2 ^ D) by lia. exact H. }
  clear H. rename K into H.
  apply next_some in H as (x0 & p0 & -> & H). apply next_some in H as (x1 & p1 & -> & H). apply next_some in H as (x2 & p2 & -> & H). apply next_some in H as (x3 & p3 & -> & H). apply next_some in H as (x4 & p4 & -> & H). apply next_some in H as (x5 & p5 & -> & H). apply next_some in H as (x6 & p6 & -> & H).
  apply draw_some in H as (l7 & p7 & -> & H).
  apply next_some in H as (y1 & q1 & -> & H). apply next_some in H as (y2 & q2 & -> & H). apply next_some in H as (y3 & q3 & -> & H). apply next_some in H as (y4 & q4 & -> & H). apply next_some in H as (y5 & q5 & -> & H). apply next_some in H as (y6 & q6 & -> & H).
  apply draw_some in H as (l8 & p8 & -> & H). apply next_some in H as (x9 & p9 & -> & H). eauto.
Qed.

(** pools large enough: in order *)
Lemma next_e p x p' : e_idx p < length (e_ports p) -> next_port Engine p = Some (x, p') -> e_ports p !! e_idx p = Some x /\ e_ports p' = e_ports p /\ e_idx p' = S (e_idx p).
Proof. intros L. cbn [next_port]. destruct (e_ports p !! e_idx p) as [y|] eqn:F; [|apply lookup_ge_None in F; lia]. intros [= <- <-]. auto. Qed.
Lemma draw_e n : forall p l p', e_idx p + n <= length (e_ports p) -> draw Engine n p = Some (l, p') -> l = take n (drop (e_idx p) (e_ports p)) /\ e_ports p' = e_ports p /\ e_idx p' = e_idx p + n.
Proof.
  induction n as [|n IH]; intros p l p' L; cbn [draw]; [intros [= <- <-]; auto|]. destruct (next_port Engine p) as [[x p1]|] eqn:E; [|discriminate]. apply next_e in E as (A & B & C); [|lia]. destruct (draw Engine n p1) as [[l1 p2]|] eqn:E1; [|discriminate].
  apply IH in E1 as (A1 & B1 & C1); [|rewrite B, C; lia]. intros [= <- <-]. rewrite A1, B, C, B1, B, C1, C. rewrite (drop_S _ _ _ A). cbn [take]. repeat split. lia.
Qed.
Lemma next_c p x p' : c_idx p < length (c_ports p) -> next_port Client p = Some (x, p') -> c_ports p !! c_idx p = Some x /\ c_ports p' = c_ports p /\ c_idx p' = S (c_idx p).
Proof. intros L. cbn [next_port]. destruct (c_ports p !! c_idx p) as [y|] eqn:F; [|apply lookup_ge_None in F; lia]. intros [= <- <-]. auto. Qed.
Lemma draw_merge k n p : draw k (S n) p = match next_port k p with None => None | Some (x, p) => match draw k n p with None => None | Some (l, p) => Some (x :: l, p) end end.
Proof. reflexivity. Qed.
Lemma engine_exact D p i p' : 7 + 2 ^ D <= length (e_ports p) -> e_idx p = 0 -> init_hub D None p = Some (i, p') -> ei_reg (eng i) :: engine_ports_of (eng i) = take (7 + 2 ^ D) (e_ports p).
Proof.
  intros L Z. unfold init_hub, new_engine_info, new_client_info. intros H.
  destruct (draw Engine (7 + 2 ^ D) p) as [[l pd]|] eqn:E.
  - assert (A : l = take (7 + 2 ^ D) (drop (e_idx p) (e_ports p))) by (refine (proj1 (draw_e _ _ _ _ _ E)); lia). rewrite Z in A. change (drop 0 (e_ports p)) with (e_ports p) in A. rewrite <- A. clear A. cbn [Nat.add draw] in E.
    destruct (next_port Engine p) as [[x0 p0]|]; [|discriminate H].
    destruct (next_port Engine p0) as [[x1 p1]|]; [|discriminate H]. destruct (next_port Engine p1) as [[x2 p2]|]; [|discriminate H].
    destruct (next_port Engine p2) as [[x3 p3]|]; [|discriminate H]. destruct (next_port Engine p3) as [[x4 p4]|]; [|discriminate H].
    destruct (next_port Engine p4) as [[x5 p5]|]; [|discriminate H]. destruct (next_port Engine p5) as [[x6 p6]|]; [|discriminate H].
    destruct (draw Engine (2 ^ D) p6) as [[l7 p7]|]; [|discriminate H]. injection E as <- <-.
    destruct (next_port Client p7) as [[y1 q1]|]; [|discriminate H]. destruct (next_port Client q1) as [[y2 q2]|]; [|discriminate H].
    destruct (next_port Client q2) as [[y3 q3]|]; [|discriminate H]. destruct (next_port Client q3) as [[y4 q4]|]; [|discriminate H].
    destruct (next_port Client q4) as [[y5 q5]|]; [|discriminate H]. destruct (next_port Client q5) as [[y6 q6]|]; [|discriminate H].
    destruct (draw Common (length (broadcast_ids D)) q6) as [[l8 p8]|]; [|discriminate H]. destruct (next_port Common p8) as [[x9 p9]|]; [|discriminate H]. injection H as <- <-. reflexivity.
  - exfalso. cbn [Nat.add draw] in E.
    destruct (next_port Engine p) as [[x0 p0]|]; [|discriminate H].
    destruct (next_port Engine p0) as [[x1 p1]|]; [|discriminate H]. destruct (next_port Engine p1) as [[x2 p2]|]; [|discriminate H].
    destruct (next_port Engine p2) as [[x3 p3]|]; [|discriminate H]. destruct (next_port Engine p3) as [[x4 p4]|]; [|discriminate H].
    destruct (next_port Engine p4) as [[x5 p5]|]; [|discriminate H]. destruct (next_port Engine p5) as [[x6 p6]|]; [|discriminate H].
    destruct (draw Engine (2 ^ D) p6) as [[l7 p7]|]; [|discriminate H]. discriminate E.
Qed.
Lemma client_exact D p i p' : 6 <= length (c_ports p) -> c_idx p = 0 -> init_hub D None p = Some (i, p') -> client_ports_of (cli i) = take 6 (c_ports p).
Proof.
  intros L Z. unfold init_hub. intros H.
  destruct (next_port Engine p) as [[x0 p0]|] eqn:E0; [|discriminate H]. destruct (new_engine_info D x0 p0) as [[e p1]|] eqn:E1; [|discriminate H].
  assert (C : c_ports p1 = c_ports p /\ c_idx p1 = 0).
  { apply next_used in E0 as [R0 U0]. cbn [ea ca] in U0. destruct U0 as [_ A2 _ _ A5 _ _ _ _ _]. specialize (A5 ltac:(lia)). assert (K : c_idx p0 = 0) by lia. clear A5. rewrite <- A2 in L. rewrite <- A2. clear A2 H. revert E1. unfold new_engine_info. intros H.
    destruct (next_port Engine p0) as [[a1 q1]|] eqn:E1; [|discriminate H]. destruct (next_port Engine q1) as [[a2 q2]|] eqn:E2; [|discriminate H].
    destruct (next_port Engine q2) as [[a3 q3]|] eqn:E3; [|discriminate H]. destruct (next_port Engine q3) as [[a4 q4]|] eqn:E4; [|discriminate H].
    destruct (next_port Engine q4) as [[a5 q5]|] eqn:E5; [|discriminate H]. destruct (next_port Engine q5) as [[a6 q6]|] eqn:E6; [|discriminate H].
    destruct (draw Engine (2 ^ D) q6) as [[l7 q7]|] eqn:E7; [|discriminate H]. injection H as _ <-.
    pose proof (used_refl p0) as U. step U E1. step U E2. step U E3. step U E4. step U E5. step U E6. step U E7. destruct U as [_ A2 _ _ A5 _ _ _ _ _]. specialize (A5 ltac:(lia)). cbn [ca] in A5. split; [exact A2|]. lia. }
  destruct C as [C1 C2]. rewrite <- C1 in L. rewrite <- C1. revert H. unfold new_client_info.
  destruct (next_port Client p1) as [[y1 q1]|] eqn:F1; [|discriminate]. apply next_c in F1 as (L1 & P1 & I1); [|lia].
  destruct (next_port Client q1) as [[y2 q2]|] eqn:F2; [|discriminate]. apply next_c in F2 as (L2 & P2 & I2); [|rewrite ?P1, ?I1; lia].
  destruct (next_port Client q2) as [[y3 q3]|] eqn:F3; [|discriminate]. apply next_c in F3 as (L3 & P3 & I3); [|rewrite ?P2, ?I2, ?P1, ?I1; lia].
  destruct (next_port Client q3) as [[y4 q4]|] eqn:F4; [|discriminate]. apply next_c in F4 as (L4 & P4 & I4); [|rewrite ?P3, ?I3, ?P2, ?I2, ?P1, ?I1; lia].
  destruct (next_port Client q4) as [[y5 q5]|] eqn:F5; [|discriminate]. apply next_c in F5 as (L5 & P5 & I5); [|rewrite ?P4, ?I4, ?P3, ?I3, ?P2, ?I2, ?P1, ?I1; lia].
  destruct (next_port Client q5) as [[y6 q6]|] eqn:F6; [|discriminate]. apply next_c in F6 as (L6 & P6 & I6); [|rewrite ?P5, ?I5, ?P4, ?I4, ?P3, ?I3, ?P2, ?I2, ?P1, ?I1; lia].
  destruct (draw Common (length (broadcast_ids D)) q6) as [[l8 p8]|]; [|discriminate]. destruct (next_port Common p8) as [[x9 p9]|]; [|discriminate]. intros H. injection H as <- <-. cbn [cli snd].
  rewrite C2 in L1, I1. rewrite P1, I1 in L2. rewrite I1 in I2. rewrite P2, P1, I2 in L3. rewrite I2 in I3. rewrite P3, P2, P1, I3 in L4. rewrite I3 in I4. rewrite P4, P3, P2, P1, I4 in L5. rewrite I4 in I5. rewrite P5, P4, P3, P2, P1, I5 in L6. unfold client_ports_of. cbn [ci_control ci_mux ci_task ci_iopub ci_notif ci_bcast].
  destruct (c_ports p1) as [|z1 [|z2 [|z3 [|z4 [|z5 [|z6 z]]]]]]; cbn in L; try lia. cbn in L1, L2, L3, L4, L5, L6. injection L1 as <-. injection L2 as <-. injection L3 as <-. injection L4 as <-. injection L5 as <-. injection L6 as <-. destruct z; reflexivity.
Qed.
