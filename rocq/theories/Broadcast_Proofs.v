(** Proofs about the broadcast tree: routing, delivery, single replies, termination. *)
From Coq Require Import List Arith Bool Lia Permutation.
From Verif Require Import Broadcast_Spec Broadcast_Model.
Import ListNotations.

Section P.
Context (D : nat) (threads : bool) (id_of : nat -> nat) (run : nat -> nat -> list nat * bool).
Notation deliver := (deliver D threads id_of run).
Notation step := (step D threads id_of run).
Notation exec := (exec D threads id_of run).

(* ---------------------------------------------------------------- routing *)
Lemma next_idx_eq depth id : depth < D -> next_idx D depth id = Nat.testbit id (D - 1 - depth).
Proof.
  intros H. unfold next_idx, format_bits.
  rewrite (nth_indep _ false (Nat.testbit (id mod 2 ^ D) (D + 1 - 1 - (D + 1)))) by (rewrite map_length, seq_length; lia).
  rewrite (map_nth (fun j => Nat.testbit (id mod 2 ^ D) (D + 1 - 1 - j))).
  rewrite seq_nth by lia. rewrite Nat.mod_pow2_bits_low by lia. f_equal. lia.
Qed.

(** The target belongs to the subtree of the scheduler. *)
Fixpoint onpath (n : node) (id : nat) : Prop :=
  match n with [] => True | b :: n => Nat.testbit id (D - 1 - length n) = b /\ onpath n id end.

Lemma val_path n id : length n <= D -> onpath n id -> val n = (id / 2 ^ (D - length n)) mod 2 ^ length n.
Proof.
  induction n as [|b n IH]; simpl length; intros Hl Hp.
  - simpl. reflexivity.
  - destruct Hp as [Hb Hp]. cbn [val]. rewrite (IH ltac:(lia) Hp).
    replace (D - length n) with (S (D - S (length n))) by lia. set (k := D - S (length n)).
    replace (D - 1 - length n) with k in Hb by lia.
    rewrite !Nat.pow_succ_r'. rewrite (Nat.mul_comm 2 (2 ^ k)), <- Nat.div_div by (try apply Nat.pow_nonzero; lia).
    rewrite Nat.mod_mul_r by (try apply Nat.pow_nonzero; lia).
    rewrite <- Hb, <- Nat.div2_div. f_equal.
    rewrite <- Nat.bit0_mod, Nat.div_pow2_bits, Nat.add_0_l. reflexivity.
Qed.
Lemma val_leaf n id : length n = D -> onpath n id -> val n = id mod 2 ^ D.
Proof. intros Hl Hp. rewrite (val_path n id); [|lia|exact Hp]. rewrite Hl, Nat.sub_diag. rewrite Nat.pow_0_r, Nat.div_1_r. reflexivity. Qed.
Lemma onpath_fun n n' id : length n = length n' -> onpath n id -> onpath n' id -> n = n'.
Proof.
  revert n'; induction n as [|b n IH]; intros [|b' n'] E H H'; try discriminate; [reflexivity|].
  simpl in *. destruct H as [H1 H2], H' as [H1' H2']. injection E as E. rewrite E in H1. f_equal; [congruence|]. apply IH; auto.
Qed.
Lemma take_perm i l p r : take i l = Some (p, r) -> Permutation l (p :: r).
Proof.
  revert i r; induction l as [|q l IH]; intros [|i] r; simpl; try discriminate.
  - intros E; injection E as <- <-. reflexivity.
  - destruct (take i l) as [[q' r']|] eqn:E'; [|discriminate]. intros E; injection E as <- <-.
    rewrite (IH _ _ E'). apply perm_swap.
Qed.

Definition part (n : node) (ts : list target) (b : bool) := filter (fun t => Bool.eqb (next_idx D (length n) (snd t)) b) ts.
Lemma part_perm n ts : Permutation ts (part n ts false ++ part n ts true).
Proof.
  unfold part. induction ts as [|t ts IH]; simpl; [reflexivity|]. destruct (next_idx D (length n) (snd t)); simpl.
  - apply Permutation_cons_app. exact IH.
  - constructor; exact IH.
Qed.
Lemma deliver_down s n m c ts : exists s', fst (deliver s (Down n m c ts)) = s' /\ executed s' = executed s /\ got s' = got s /\ got1 s' = got1 s /\
  snd (deliver s (Down n m c ts)) = if is_leaf D n then map (fun t => ToEngine (fst t) n m c) ts
    else [Down (false :: n) m c (part n ts false); Down (true :: n) m c (part n ts true)].
Proof.
  eexists; split; [reflexivity|]. simpl. unfold dispatch_submission, send_to_targets, send_to_sub_schedulers.
  destruct (is_leaf D n), c; simpl; repeat split; rewrite ?map_map; reflexivity.
Qed.
Lemma coalescing_frame s n m c bufs ok : let s' := fst (coalescing_reply D threads s n m c bufs ok) in
  executed s' = executed s /\ got s' = got s /\ got1 s' = got1 s /\
  (snd (coalescing_reply D threads s n m c bufs ok) = [] \/ exists r, snd (coalescing_reply D threads s n m c bufs ok) = [Up n m r]).
Proof.
  unfold coalescing_reply. destruct (replies s _ m) as [l|]; [|simpl; auto]. destruct (forallb _ _); [|simpl; auto].
  destruct (acc s (store threads n) m) as [[us|ts]|], (is_leaf D n); simpl; repeat split; eauto.
  - destruct (set_key c (Some bufs) l); eauto.
  - destruct (extend_targets _ ts); simpl; auto.
  - destruct (extend_targets _ ts); simpl; auto.
  - destruct (extend_targets _ ts); simpl; auto.
  - destruct (extend_targets _ ts); simpl; eauto.
Qed.

(* ---------------------------------------------------------------- deliveries *)
Definition wf (p : packet) : Prop :=
  match p with
  | Down n m c ts => length n <= D /\ Forall (fun t => snd t = id_of (fst t) /\ onpath n (snd t)) ts
  | ToEngine u n m c | FromEngine u n m c _ _ => length n = D /\ onpath n (id_of u)
  | Up n m _ => length n <= D
  | Pass n u m bufs ok => length n <= D /\ bufs = fst (run u m) /\ ok = snd (run u m)
  end.
Definition wf_data (p : packet) : Prop := match p with FromEngine u n m c bufs ok => bufs = fst (run u m) /\ ok = snd (run u m) | _ => True end.
Definition to_run (p : packet) : list (nat * nat) :=
  match p with Down n m c ts => map (fun t => (fst t, m)) ts | ToEngine u n m c => [(u, m)] | _ => [] end.
Definition to_pass (p : packet) : list (nat * nat) :=
  match p with
  | Down n m false ts => map (fun t => (fst t, m)) ts | ToEngine u n m false => [(u, m)] | FromEngine u n m false _ _ => [(u, m)]
  | Pass n u m _ _ => [(u, m)] | _ => [] end.
Definition name1 (g : nat * nat * list nat * bool) : nat * nat := fst (fst g).

Lemma deliver_wf s p : wf p -> wf_data p -> Forall wf (snd (deliver s p)) /\ Forall wf_data (snd (deliver s p)).
Proof.
  intros H Hd. destruct p as [n m c ts|u n m c|u n m c bufs ok|n m r|n u m bufs ok].
  - destruct (deliver_down s n m c ts) as (s' & _ & _ & _ & _ & E). rewrite E. destruct H as [H1 H2]. unfold is_leaf. destruct (Nat.eqb_spec (length n) D) as [El|Nl].
    + split; apply Forall_map; eapply Forall_impl; [|exact H2| |exact H2]; simpl; auto. intros t [Ht Hp]. rewrite <- Ht. auto.
    + assert (Hpart : forall b, Forall (fun t => snd t = id_of (fst t) /\ onpath (b :: n) (snd t)) (part n ts b)).
      { intros b. apply Forall_forall. intros t Ht. unfold part in Ht. apply filter_In in Ht as [Ht Hb]. rewrite Forall_forall in H2. destruct (H2 _ Ht) as [E1 E2].
        split; [exact E1|]. simpl. split; [|exact E2]. rewrite next_idx_eq in Hb by lia. apply eqb_prop in Hb. exact Hb. }
      split; [constructor; [|constructor; [|constructor]]; (split; [simpl; lia|apply Hpart])|repeat constructor].
  - simpl. destruct H as [H1 H2]. destruct (val n =? _); simpl; [|auto]. split; repeat constructor; auto.
  - destruct H as [H1 H2], Hd as [Hd1 Hd2]. simpl. destruct c.
    + destruct (coalescing_frame s n m (Engine u) bufs ok) as (_ & _ & _ & [E|(r & E)]); rewrite E; split; repeat constructor. simpl. lia.
    + simpl. split; repeat constructor; auto. lia.
  - simpl in H. destruct n as [|b n]; simpl; [auto|]. simpl in H.
    destruct (coalescing_frame s n m (Sub b) (r_bufs r) (r_ok r)) as (_ & _ & _ & [E|(r' & E)]); rewrite E; split; repeat constructor. simpl. lia.
  - destruct H as (H1 & H2 & H3). destruct n as [|b n]; simpl in *; [auto|]. split; repeat constructor; auto. lia.
Qed.

Lemma flat_map_one {A B C} (f : B -> list C) (g : A -> B) (h : A -> C) l : (forall x, f (g x) = [h x]) -> flat_map f (map g l) = map h l.
Proof. intros E. induction l as [|x l IH]; simpl; [reflexivity|]. rewrite E, IH. reflexivity. Qed.
Lemma flat_map_none {A B C} (f : B -> list C) (g : A -> B) l : (forall x, f (g x) = []) -> flat_map f (map g l) = [].
Proof. intros E. induction l as [|x l IH]; simpl; [reflexivity|]. rewrite E, IH. reflexivity. Qed.
Definition true1 (g : nat * nat * list nat * bool) : Prop := let '(u, m, bufs, ok) := g in (bufs, ok) = run u m.

Lemma deliver_runs s p : wf p -> wf_data p ->
  let s' := fst (deliver s p) in let out := snd (deliver s p) in
  Permutation (executed s' ++ flat_map to_run out) (executed s ++ to_run p) /\
  Permutation (map name1 (got1 s') ++ flat_map to_pass out) (map name1 (got1 s) ++ to_pass p) /\
  (Forall true1 (got1 s) -> Forall true1 (got1 s')).
Proof.
  intros H Hd s' out. destruct p as [n m c ts|u n m c|u n m c bufs ok|n m r|n u m bufs ok].
  - destruct (deliver_down s n m c ts) as (s'' & E1 & E2 & E3 & E4 & E5). unfold s', out. rewrite E1, E5, E2, E4. split; [|split; [|auto]]; apply Permutation_app_head.
    + simpl. destruct (is_leaf D n); simpl.
      * rewrite (flat_map_one to_run _ (fun t => (fst t, m))) by reflexivity. reflexivity.
      * rewrite app_nil_r, <- map_app. apply Permutation_map. symmetry. apply part_perm.
    + simpl. destruct (is_leaf D n), c; simpl.
      * rewrite flat_map_none by reflexivity. reflexivity.
      * rewrite (flat_map_one to_pass _ (fun t => (fst t, m))) by reflexivity. reflexivity.
      * reflexivity.
      * rewrite app_nil_r, <- map_app. apply Permutation_map. symmetry. apply part_perm.
  - unfold s', out. simpl. destruct H as [H1 H2]. rewrite (val_leaf n _ H1 H2), Nat.eqb_refl. simpl. rewrite app_nil_r.
    split; [reflexivity|]. split; [|auto]. destruct c; reflexivity.
  - unfold s', out. simpl. destruct c; simpl.
    + destruct (coalescing_frame s n m (Engine u) bufs ok) as (E1 & E2 & E3 & [E|(r & E)]); rewrite E, E1, E3; simpl; auto.
    + auto.
  - unfold s', out. destruct n as [|b n]; simpl; [auto|].
    destruct (coalescing_frame s n m (Sub b) (r_bufs r) (r_ok r)) as (E1 & E2 & E3 & [E|(r' & E)]); rewrite E, E1, E3; simpl; auto.
  - unfold s', out. destruct H as (H1 & H2 & H3). destruct n as [|b n]; simpl; [|auto].
    split; [reflexivity|]. split; [rewrite map_app; simpl; rewrite app_nil_r; reflexivity|].
    intros Hf. apply Forall_app. split; [exact Hf|]. repeat constructor. simpl. rewrite H2, H3. destruct (run u m); reflexivity.
Qed.

Definition frame_net (s : state) l : set_net s l = S_ l (replies s) (acc s) (executed s) (got s) (got1 s) := eq_refl.

(** What holds in every state of every schedule. *)
Record inv (bs : list broadcast) (s : state) : Prop := {
  inv_wf : Forall wf (net s); inv_data : Forall wf_data (net s);
  inv_run : Permutation (executed s ++ flat_map to_run (net s)) (due bs);
  inv_pass : Permutation (map name1 (got1 s) ++ flat_map to_pass (net s)) (due (filter (fun b => negb (coalescing b)) bs));
  inv_true : Forall true1 (got1 s) }.

Lemma perm_step {A} (e e' t o r d : list A) : Permutation (e' ++ o) (e ++ t) -> Permutation (e ++ t ++ r) d -> Permutation (e' ++ r ++ o) d.
Proof.
  intros H1 H2. etransitivity; [|exact H2]. rewrite (Permutation_app_comm r o), !app_assoc. apply Permutation_app_tail. exact H1.
Qed.
Lemma inv_start bs : workload id_of bs -> inv bs (start bs).
Proof.
  intros [_ Hw]. constructor; simpl.
  - rewrite Forall_map. eapply Forall_impl; [|exact Hw]. intros b [_ Hb]. simpl. split; [lia|]. eapply Forall_impl; [|exact Hb]. intros t Ht. split; auto.
  - rewrite Forall_map. apply Forall_forall. simpl. auto.
  - unfold due. rewrite flat_map_concat_map, map_map. rewrite <- flat_map_concat_map. reflexivity.
  - unfold due. rewrite flat_map_concat_map, map_map. rewrite <- flat_map_concat_map. clear. induction bs as [|b bs IH]; simpl; [reflexivity|].
    destruct (coalescing b); simpl; [exact IH|]. apply Permutation_app_head. exact IH.
  - constructor.
Qed.
Lemma inv_step bs s i s' : inv bs s -> step s i = Some s' -> inv bs s'.
Proof.
  intros [I1 I2 I3 I4 I5] E. unfold Broadcast_Model.step in E. destruct (take i (net s)) as [[p rest]|] eqn:Et; [|discriminate].
  pose proof (take_perm _ _ _ _ Et) as Hp.
  pose proof (Permutation_Forall Hp I1) as W1. pose proof (Permutation_Forall Hp I2) as W2.
  inversion W1 as [|? ? Wp Wr]; subst. inversion W2 as [|? ? Wp' Wr']; subst.
  destruct (deliver_wf (set_net s rest) p Wp Wp') as [F1 F2].
  destruct (deliver_runs (set_net s rest) p Wp Wp') as (R1 & R2 & R3).
  destruct (deliver (set_net s rest) p) as [s1 out] eqn:Ed. injection E as <-. simpl in *.
  constructor; simpl.
  - apply Forall_app; auto.
  - apply Forall_app; auto.
  - rewrite flat_map_app. eapply perm_step; [exact R1|]. rewrite <- I3. apply Permutation_app_head.
    etransitivity; [|symmetry; apply Permutation_flat_map; exact Hp]. reflexivity.
  - rewrite flat_map_app. eapply perm_step; [exact R2|]. rewrite <- I4. apply Permutation_app_head.
    etransitivity; [|symmetry; apply Permutation_flat_map; exact Hp]. reflexivity.
  - auto.
Qed.
Lemma inv_exec bs sched s s' : inv bs s -> exec s sched = Some s' -> inv bs s'.
Proof.
  revert s; induction sched as [|i sched IH]; intros s I E; simpl in E; [injection E as <-; exact I|].
  destruct (step s i) as [s1|] eqn:E1; [|discriminate]. eapply IH; [|exact E]. eapply inv_step; eassumption.
Qed.

(* ---------------------------------------------------------------- every schedule ends *)
Definition weight (p : packet) : nat :=
  match p with
  | Down n m c ts => (2 ^ (D - length n + 1) - 1) + length ts * (D + 4)
  | ToEngine u n m c => length n + 3
  | FromEngine u n m c _ _ => length n + 2
  | Up n _ _ => length n + 1
  | Pass n _ _ _ _ => length n + 1
  end.
Fixpoint total (l : list packet) : nat := match l with [] => 0 | p :: r => weight p + total r end.
Lemma total_app a b : total (a ++ b) = total a + total b.
Proof. induction a; simpl; lia. Qed.
Lemma total_perm a b : Permutation a b -> total a = total b.
Proof. induction 1; simpl; lia. Qed.
Lemma deliver_weight s p : wf p -> total (snd (deliver s p)) < weight p.
Proof.
  intros H. destruct p as [n m c ts|u n m c|u n m c bufs ok|n m r|n u m bufs ok].
  - destruct (deliver_down s n m c ts) as (s'' & _ & _ & _ & _ & E). rewrite E. destruct H as [H1 _]. unfold is_leaf. destruct (Nat.eqb_spec (length n) D) as [El|Nl].
    + simpl weight. rewrite El, Nat.sub_diag. change (2 ^ (0 + 1) - 1) with 1.
      assert (total (map (fun t => ToEngine (fst t) n m c) ts) = length ts * (D + 3)) as ->; [|lia].
      clear E. induction ts as [|t ts IH]; simpl; [reflexivity|]. rewrite IH. lia.
    + cbn [total weight length]. pose proof (Permutation_length (part_perm n ts)) as Hl. rewrite app_length in Hl.
      replace (D - length n + 1) with (S (D - S (length n) + 1)) by lia. rewrite Nat.pow_succ_r'.
      assert (2 ^ (D - S (length n) + 1) <> 0) by (apply Nat.pow_nonzero; lia). change target with (nat * nat)%type in *. rewrite Hl, Nat.mul_add_distr_r. lia.
  - simpl. destruct (val n =? _); simpl; lia.
  - simpl. destruct c; simpl; [|lia]. destruct (coalescing_frame s n m (Engine u) bufs ok) as (_ & _ & _ & [E|(r & E)]); rewrite E; simpl; lia.
  - destruct n as [|b n]; simpl; [lia|]. destruct (coalescing_frame s n m (Sub b) (r_bufs r) (r_ok r)) as (_ & _ & _ & [E|(r' & E)]); rewrite E; simpl; lia.
  - destruct n; simpl; lia.
Qed.
Lemma step_weight bs s i s' : inv bs s -> step s i = Some s' -> total (net s') < total (net s).
Proof.
  intros I E. unfold Broadcast_Model.step in E. destruct (take i (net s)) as [[p rest]|] eqn:Et; [|discriminate].
  pose proof (take_perm _ _ _ _ Et) as Hp. pose proof (Permutation_Forall Hp (inv_wf _ _ I)) as W1. inversion W1 as [|? ? Wp Wr]; subst.
  pose proof (deliver_weight (set_net s rest) p Wp) as L. destruct (deliver (set_net s rest) p) as [s1 out]. injection E as <-. simpl in *.
  rewrite (total_perm _ _ Hp), total_app. simpl. lia.
Qed.
Lemma exec_weight bs sched s s' : inv bs s -> exec s sched = Some s' -> length sched + total (net s') <= total (net s).
Proof.
  revert s; induction sched as [|i sched IH]; intros s I E; simpl in E; [injection E as <-; simpl; lia|].
  destruct (step s i) as [s1|] eqn:E1; [|discriminate]. pose proof (step_weight _ _ _ _ I E1). pose proof (inv_step _ _ _ _ I E1) as I1.
  specialize (IH _ I1 E). simpl. lia.
Qed.
Lemma weight_pos p : 0 < weight p.
Proof. destruct p; simpl; try lia. assert (2 ^ (D - length n + 1) = 2 * 2 ^ (D - length n)) by (rewrite Nat.add_1_r, Nat.pow_succ_r'; reflexivity). assert (2 ^ (D - length n) <> 0) by (apply Nat.pow_nonzero; lia). lia. Qed.
End P.
