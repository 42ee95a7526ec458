From stdpp Require Import base list strings.
From Verif Require Import Wire_Spec Wire_Model.
From Coq Require Import Lia.
Local Open Scope nat_scope.

Lemma sublist_NoDup' {A} (l k : list A) : sublist l k -> NoDup k -> NoDup l.
Proof.
  induction 1 as [|x l k S IH|x l k S IH]; intros N; [exact N| |apply NoDup_cons in N as [_ N]; auto]. apply NoDup_cons in N as [X N]. apply NoDup_cons. split; [|auto]. intros Y. apply X.
  apply (elem_of_submseteq l k x Y). apply sublist_submseteq, S.
Qed.
(** * Ports *)
Definition spent (p : pools) : list nat := take (e_idx p) (e_ports p) ++ take (c_idx p) (c_ports p) ++ take (p_idx p) (ports p) ++ taken p.
Definition all_pools (p : pools) : list nat := e_ports p ++ c_ports p ++ ports p.
Record good (p : pools) : Prop := Good {
  g_nodup : NoDup (all_pools p ++ taken p);
  g_offers : forall x, x ∈ offers p -> x ∉ all_pools p }.
Lemma good_spent p : good p -> NoDup (spent p).
Proof.
  intros [N _]. eapply sublist_NoDup'; [|exact N]. unfold spent, all_pools. rewrite <- !app_assoc. repeat apply sublist_app; try reflexivity; apply sublist_take.
Qed.
Lemma select_ok t o : forall x o', select t o = Some (x, o') -> x ∉ t /\ x ∈ o /\ (forall y, y ∈ o' -> y ∈ o).
Proof.
  induction o as [|a o IH]; intros x o'; cbn [select]; [discriminate|]. destruct (bool_decide_reflect (a ∈ t)) as [H|H].
  - intros E. destruct (IH _ _ E) as (A & B & C). split; [exact A|]. split; [right; exact B|]. intros y Y. right. auto.
  - intros [= <- <-]. split; [exact H|]. split; [left|]. intros y Y. right. exact Y.
Qed.
Lemma common_ok p x p' : good p -> next_common p = Some (x, p') -> good p' /\ spent p' ≡ₚ x :: spent p /\ all_pools p' = all_pools p.
Proof.
  intros [N O]. unfold next_common. destruct (ports p !! p_idx p) as [y|] eqn:E.
  - intros [= <- <-]. split; [split; assumption|]. split; [|reflexivity]. unfold spent. cbn. rewrite (take_S_r _ _ _ E). solve_Permutation.
  - destruct (select (taken p) (offers p)) as [[y o]|] eqn:S; [|discriminate]. apply select_ok in S as (A & B & C). intros [= <- <-]. split; [split|split]; cbn.
    + unfold all_pools in *. cbn. apply NoDup_app in N as (N1 & N2 & N3). apply NoDup_app. split; [exact N1|]. split.
      * intros z Z X. apply elem_of_cons in X as [->|X]; [apply (O y B Z)|apply (N2 z Z X)].
      * constructor; assumption.
    + intros z Z. apply (O z). auto.
    + unfold spent. cbn. solve_Permutation.
    + reflexivity.
Qed.
Lemma next_ok k p x p' : good p -> next_port k p = Some (x, p') -> good p' /\ spent p' ≡ₚ x :: spent p /\ all_pools p' = all_pools p.
Proof.
  intros G. destruct k; cbn [next_port]; [| |apply common_ok, G].
  - destruct (e_ports p !! e_idx p) as [y|] eqn:E; [|apply common_ok, G]. destruct G as [N O]. intros [= <- <-]. split; [split; assumption|]. split; [|reflexivity]. unfold spent. cbn. rewrite (take_S_r _ _ _ E). solve_Permutation.
  - destruct (c_ports p !! c_idx p) as [y|] eqn:E; [|apply common_ok, G]. destruct G as [N O]. intros [= <- <-]. split; [split; assumption|]. split; [|reflexivity]. unfold spent. cbn. rewrite (take_S_r _ _ _ E). solve_Permutation.
Qed.
Lemma draw_ok k n : forall p l p', good p -> draw k n p = Some (l, p') -> good p' /\ spent p' ≡ₚ l ++ spent p /\ all_pools p' = all_pools p /\ length l = n.
Proof.
  induction n as [|n IH]; intros p l p' G; cbn [draw]; [intros [= <- <-]; auto|]. destruct (next_port k p) as [[x p1]|] eqn:E; [|discriminate]. apply (next_ok _ _ _ _ G) in E as (G1 & S1 & A1).
  destruct (draw k n p1) as [[l1 p2]|] eqn:E1; [|discriminate]. apply (IH _ _ _ G1) in E1 as (G2 & S2 & A2 & L2). intros [= <- <-]. split; [exact G2|]. split; [rewrite S2, S1; solve_Permutation|]. split; [congruence|]. cbn. congruence.
Qed.

Lemma engine_ok D reg p e p' : good p -> new_engine_info D reg p = Some (e, p') -> good p' /\ spent p' ≡ₚ engine_ports_of e ++ spent p /\ all_pools p' = all_pools p /\ ei_reg e = reg /\ length (ei_bcast e) = 2 ^ D.
Proof.
  intros G. unfold new_engine_info. intros H.
  destruct (next_port Engine p) as [[a p1]|] eqn:E; [|discriminate H]. apply (next_ok _ _ _ _ G) in E as (G1 & S1 & A1).
  destruct (next_port Engine p1) as [[b p2]|] eqn:E; [|discriminate H]. apply (next_ok _ _ _ _ G1) in E as (G2 & S2 & A2).
  destruct (next_port Engine p2) as [[c p3]|] eqn:E; [|discriminate H]. apply (next_ok _ _ _ _ G2) in E as (G3 & S3 & A3).
  destruct (next_port Engine p3) as [[d p4]|] eqn:E; [|discriminate H]. apply (next_ok _ _ _ _ G3) in E as (G4 & S4 & A4).
  destruct (next_port Engine p4) as [[x p5]|] eqn:E; [|discriminate H]. apply (next_ok _ _ _ _ G4) in E as (G5 & S5 & A5).
  destruct (next_port Engine p5) as [[y p6]|] eqn:E; [|discriminate H]. apply (next_ok _ _ _ _ G5) in E as (G6 & S6 & A6).
  destruct (draw Engine (2 ^ D) p6) as [[l p7]|] eqn:E; [|discriminate H]. apply (draw_ok _ _ _ _ _ G6) in E as (G7 & S7 & A7 & L7).
  injection H as <- <-. split; [exact G7|]. split; [|split; [congruence|auto]]. unfold engine_ports_of. cbn. rewrite S7, S6, S5, S4, S3, S2, S1. solve_Permutation.
Qed.
Lemma client_ok reg p e p' : good p -> new_client_info reg p = Some (e, p') -> good p' /\ spent p' ≡ₚ client_ports_of e ++ spent p /\ all_pools p' = all_pools p /\ ci_reg e = reg.
Proof.
  intros G. unfold new_client_info. intros H.
  destruct (next_port Client p) as [[a p1]|] eqn:E; [|discriminate H]. apply (next_ok _ _ _ _ G) in E as (G1 & S1 & A1).
  destruct (next_port Client p1) as [[b p2]|] eqn:E; [|discriminate H]. apply (next_ok _ _ _ _ G1) in E as (G2 & S2 & A2).
  destruct (next_port Client p2) as [[c p3]|] eqn:E; [|discriminate H]. apply (next_ok _ _ _ _ G2) in E as (G3 & S3 & A3).
  destruct (next_port Client p3) as [[d p4]|] eqn:E; [|discriminate H]. apply (next_ok _ _ _ _ G3) in E as (G4 & S4 & A4).
  destruct (next_port Client p4) as [[x p5]|] eqn:E; [|discriminate H]. apply (next_ok _ _ _ _ G4) in E as (G5 & S5 & A5).
  destruct (next_port Client p5) as [[y p6]|] eqn:E; [|discriminate H]. apply (next_ok _ _ _ _ G5) in E as (G6 & S6 & A6).
  injection H as <- <-. split; [exact G6|]. split; [|split; [congruence|auto]]. unfold client_ports_of. cbn. rewrite S6, S5, S4, S3, S2, S1. solve_Permutation.
Qed.
Lemma inner_ok D ec p i p' : good p -> init_hub D (Some ec) p = Some (i, p') ->
  good p' /\ spent p' ≡ₚ inner_ports_of i ++ spent p /\ all_pools p' = all_pools p /\ eng i = fst ec /\ cli i = snd ec /\ map fst (internal i) = broadcast_ids D.
Proof.
  intros G. unfold init_hub. intros H.
  destruct (draw Common (length (broadcast_ids D)) p) as [[l p1]|] eqn:E; [|discriminate H]. apply (draw_ok _ _ _ _ _ G) in E as (G1 & S1 & A1 & L1).
  destruct (next_port Common p1) as [[m p2]|] eqn:E; [|discriminate H]. apply (next_ok _ _ _ _ G1) in E as (G2 & S2 & A2). injection H as <- <-.
  split; [exact G2|]. cbn. split; [|split; [congruence|]]. 2:{ split; [reflexivity|]. split; [reflexivity|]. apply (fst_zip (broadcast_ids D) l). lia. }
  unfold inner_ports_of. cbn [internal mon]. change (map snd (zip (broadcast_ids D) l)) with ((zip (broadcast_ids D) l).*2). rewrite (snd_zip (broadcast_ids D) l) by lia. rewrite S2, S1. solve_Permutation.
Qed.
Lemma init_ok D p i p' : good p -> init_hub D None p = Some (i, p') ->
  good p' /\ spent p' ≡ₚ ports_of i ++ spent p /\ all_pools p' = all_pools p /\ ci_reg (cli i) = ei_reg (eng i) /\ length (ei_bcast (eng i)) = 2 ^ D /\ map fst (internal i) = broadcast_ids D.
Proof.
  intros G. unfold init_hub at 1. intros H.
  destruct (next_port Engine p) as [[r p1]|] eqn:E; [|discriminate H]. apply (next_ok _ _ _ _ G) in E as (G1 & S1 & A1).
  destruct (new_engine_info D r p1) as [[e p2]|] eqn:E; [|discriminate H]. apply (engine_ok _ _ _ _ _ G1) in E as (G2 & S2 & A2 & R2 & L2).
  destruct (new_client_info r p2) as [[c p3]|] eqn:E; [|discriminate H]. apply (client_ok _ _ _ _ G2) in E as (G3 & S3 & A3 & R3).
  change (init_hub D (Some (e, c)) p3 = Some (i, p')) in H. apply (inner_ok _ _ _ _ _ G3) in H as (G4 & S4 & A4 & Ee & Ec & Ei). cbn in Ee, Ec. split; [exact G4|]. split.
  - unfold ports_of. rewrite Ee, Ec, S4, S3, S2, S1, R2. solve_Permutation.
  - rewrite Ee, Ec. repeat split; congruence.
Qed.

(** how many random ports will be needed *)
Definition future (e c n : nat) (p : pools) : nat := (e - (length (e_ports p) - e_idx p)) + (c - (length (c_ports p) - c_idx p)) + n - (length (ports p) - p_idx p).
Definition bump (k : pool) (x : nat * nat * nat) : nat * nat * nat := let '(e, c, n) := x in match k with Engine => (S e, c, n) | Client => (e, S c, n) | Common => (e, c, S n) end.
Definition future' (x : nat * nat * nat) (p : pools) : nat := let '(e, c, n) := x in future e c n p.
Lemma next_future k p x p' q : next_port k p = Some (x, p') -> randoms p' + future' q p' = randoms p + future' (bump k q) p.
Proof.
  destruct q as [[e c] n]. destruct k; cbn [next_port bump future']; unfold future, next_common.
  - destruct (e_ports p !! e_idx p) as [y|] eqn:E.
    + apply lookup_lt_Some in E. intros [= <- <-]. cbn. lia.
    + apply lookup_ge_None in E. destruct (ports p !! p_idx p) as [y|] eqn:F; [apply lookup_lt_Some in F; intros [= <- <-]; cbn; lia|]. apply lookup_ge_None in F. destruct (select _ _) as [[y o]|]; [|discriminate]. intros [= <- <-]. cbn. lia.
  - destruct (c_ports p !! c_idx p) as [y|] eqn:E.
    + apply lookup_lt_Some in E. intros [= <- <-]. cbn. lia.
    + apply lookup_ge_None in E. destruct (ports p !! p_idx p) as [y|] eqn:F; [apply lookup_lt_Some in F; intros [= <- <-]; cbn; lia|]. apply lookup_ge_None in F. destruct (select _ _) as [[y o]|]; [|discriminate]. intros [= <- <-]. cbn. lia.
  - destruct (ports p !! p_idx p) as [y|] eqn:F; [apply lookup_lt_Some in F; intros [= <- <-]; cbn; lia|]. apply lookup_ge_None in F. destruct (select _ _) as [[y o]|]; [|discriminate]. intros [= <- <-]. cbn. lia.
Qed.
Fixpoint bumps (k : pool) (m : nat) (q : nat * nat * nat) := match m with 0 => q | S m => bump k (bumps k m q) end.
Lemma bumps_is k m e c n : bumps k m (e, c, n) = match k with Engine => (m + e, c, n) | Client => (e, m + c, n) | Common => (e, c, m + n) end.
Proof. induction m as [|m IH]; [destruct k; reflexivity|]. cbn [bumps]. rewrite IH. destruct k; reflexivity. Qed.
Lemma draw_future k m : forall p l p' q, draw k m p = Some (l, p') -> randoms p' + future' q p' = randoms p + future' (bumps k m q) p.
Proof.
  induction m as [|m IH]; intros p l p' q; cbn [draw bumps]; [intros [= <- <-]; reflexivity|]. destruct (next_port k p) as [[x p1]|] eqn:E; [|discriminate]. destruct (draw k m p1) as [[l1 p2]|] eqn:E1; [|discriminate]. intros [= <- <-].
  rewrite (IH _ _ _ q E1). apply (next_future _ _ _ _ _ E).
Qed.
Lemma init_randoms D p i p' : init_hub D None p = Some (i, p') -> randoms p' = randoms p + future (7 + 2 ^ D) 6 (length (broadcast_ids D) + 1) p.
Proof.
  unfold init_hub, new_engine_info, new_client_info. intros H.
  destruct (next_port Engine p) as [[x0 p0]|] eqn:E0; [|discriminate H].
  destruct (next_port Engine p0) as [[x1 p1]|] eqn:E1; [|discriminate H]. destruct (next_port Engine p1) as [[x2 p2]|] eqn:E2; [|discriminate H].
  destruct (next_port Engine p2) as [[x3 p3]|] eqn:E3; [|discriminate H]. destruct (next_port Engine p3) as [[x4 p4]|] eqn:E4; [|discriminate H].
  destruct (next_port Engine p4) as [[x5 p5]|] eqn:E5; [|discriminate H]. destruct (next_port Engine p5) as [[x6 p6]|] eqn:E6; [|discriminate H].
  destruct (draw Engine (2 ^ D) p6) as [[l7 p7]|] eqn:E7; [|discriminate H].
  destruct (next_port Client p7) as [[y1 q1]|] eqn:F1; [|discriminate H]. destruct (next_port Client q1) as [[y2 q2]|] eqn:F2; [|discriminate H].
  destruct (next_port Client q2) as [[y3 q3]|] eqn:F3; [|discriminate H]. destruct (next_port Client q3) as [[y4 q4]|] eqn:F4; [|discriminate H].
  destruct (next_port Client q4) as [[y5 q5]|] eqn:F5; [|discriminate H]. destruct (next_port Client q5) as [[y6 q6]|] eqn:F6; [|discriminate H].
  destruct (draw Common (length (broadcast_ids D)) q6) as [[l8 p8]|] eqn:E8; [|discriminate H]. destruct (next_port Common p8) as [[x9 p9]|] eqn:E9; [|discriminate H]. injection H as _ <-.
  assert (Z : future' (0, 0, 0) p9 = 0) by reflexivity. replace (randoms p9) with (randoms p9 + future' (0, 0, 0) p9) by lia.
  rewrite (next_future _ _ _ _ _ E9), (draw_future _ _ _ _ _ _ E8), (next_future _ _ _ _ _ F6), (next_future _ _ _ _ _ F5), (next_future _ _ _ _ _ F4), (next_future _ _ _ _ _ F3), (next_future _ _ _ _ _ F2), (next_future _ _ _ _ _ F1),
    (draw_future _ _ _ _ _ _ E7), (next_future _ _ _ _ _ E6), (next_future _ _ _ _ _ E5), (next_future _ _ _ _ _ E4), (next_future _ _ _ _ _ E3), (next_future _ _ _ _ _ E2), (next_future _ _ _ _ _ E1), (next_future _ _ _ _ _ E0).
  cbn [bump]. rewrite bumps_is. cbn [bump]. rewrite bumps_is. cbn [bump future']. f_equal. unfold future. lia.
Qed.
