From Verif Require Import Prelude Map_Spec Map_Model.
From Coq Require Import ZifyBool ZifyNat.
Local Open Scope Z_scope.
Ltac Zify.zify_post_hook ::= Z.div_mod_to_equations.

(** * Generic list lemmas *)
Lemma nth_error_ext {A} (l1 l2 : list A) :
  (forall i, nth_error l1 i = nth_error l2 i) -> l1 = l2.
Proof.
  revert l2; induction l1 as [|x l1 IH]; intros [|y l2] H; auto.
  - specialize (H 0%nat); discriminate H.
  - specialize (H 0%nat); discriminate H.
  - f_equal.
    + specialize (H 0%nat); simpl in H; congruence.
    + apply IH; intros i; exact (H (S i)).
Qed.

Lemma nth_error_firstn {A} (l : list A) n i :
  nth_error (firstn n l) i = if (i <? n)%nat then nth_error l i else None.
Proof.
  revert n i; induction l as [|x l IH]; intros n i.
  - rewrite firstn_nil. destruct i; simpl; destruct (_ <? _)%nat; reflexivity.
  - destruct n as [|n]; simpl.
    + destruct i; reflexivity.
    + destruct i as [|i]; simpl; [reflexivity|].
      rewrite IH. reflexivity.
Qed.

Lemma nth_error_skipn {A} (l : list A) n i :
  nth_error (skipn n l) i = nth_error l (n + i).
Proof.
  revert l; induction n as [|n IH]; intros l; [reflexivity|].
  destruct l as [|x l]; simpl; [destruct i; reflexivity|apply IH].
Qed.

Definition nslice {A} (l : list A) (lo hi : nat) : list A := firstn (hi - lo) (skipn lo l).

Lemma nth_error_nslice {A} (l : list A) lo hi i :
  nth_error (nslice l lo hi) i = if (i <? hi - lo)%nat then nth_error l (lo + i) else None.
Proof. unfold nslice; rewrite nth_error_firstn, nth_error_skipn; reflexivity. Qed.

Lemma firstn_extend {A} (l : list A) a b :
  (a <= b)%nat -> firstn a l ++ nslice l a b = firstn b l.
Proof.
  revert a b; induction l as [|x l IH]; intros a b Hab.
  - unfold nslice; rewrite !firstn_nil, skipn_nil, firstn_nil; reflexivity.
  - destruct a as [|a].
    + unfold nslice; rewrite Nat.sub_0_r; reflexivity.
    + destruct b as [|b]; [lia|]. simpl. f_equal.
      unfold nslice in *; simpl; apply IH; lia.
Qed.

(** Cutting at increasing boundaries [B 0 = 0 <= B 1 <= ...] and concatenating. *)
Lemma concat_slices {A} (l : list A) (B : nat -> nat) (q : nat) :
  B 0%nat = 0%nat -> (forall p, (p < q)%nat -> (B p <= B (S p))%nat) ->
  concat (map (fun p => nslice l (B p) (B (S p))) (seq 0 q)) = firstn (B q) l.
Proof.
  intros H0; induction q as [|q IH]; intros Hm.
  - simpl; rewrite H0; reflexivity.
  - rewrite seq_S, map_app, concat_app, IH by (intros; apply Hm; lia).
    simpl. rewrite app_nil_r. apply firstn_extend, Hm; lia.
Qed.

Lemma traverse_ok {A B} (f : A -> res B) (g : A -> B) (l : list A) :
  (forall x, In x l -> f x = Ok (g x)) -> traverse f l = Ok (map g l).
Proof.
  induction l as [|x l IH]; intros H; [reflexivity|]. simpl.
  rewrite H by (left; reflexivity). simpl. rewrite IH by (intros; apply H; right; assumption).
  reflexivity.
Qed.

(** * Block partition *)
Definition lowb (n q p : Z) : Z :=
  if p <? n mod q then p * (n / q + 1) else p * (n / q) + n mod q.

Lemma block_getPartition_eq {A} (l : list A) p q n :
  0 <= p < q -> 0 <= n ->
  block_getPartition l p q n = Ok (nslice l (Z.to_nat (lowb n q p)) (Z.to_nat (lowb n q (p + 1)))).
Proof.
  intros Hp Hn. unfold block_getPartition, py_slice, nslice, lowb.
  pose proof (Z.mod_pos_bound n q ltac:(lia)) as Hr.
  assert (0 <= n / q) as Hb by (apply Z.div_pos; lia).
  set (r := n mod q) in *. set (b := n / q) in *. clearbody r b.
  destruct (p <? 0) eqn:E1; [lia|]. destruct (q <=? p) eqn:E2; [lia|]. cbn [orb].
  destruct (p <? r) eqn:E3; destruct (p + 1 <? r) eqn:E4;
    try (exfalso; lia); f_equal; f_equal; nia.
Qed.

Lemma lowb_0 n q : 0 < q -> lowb n q 0 = 0.
Proof. intros Hq. unfold lowb. pose proof (Z.mod_pos_bound n q Hq). destruct (0 <? _) eqn:E; lia. Qed.

Lemma lowb_q n q : 0 < q -> lowb n q q = n.
Proof.
  intros Hq. unfold lowb. pose proof (Z.mod_pos_bound n q Hq).
  pose proof (Z.div_mod n q ltac:(lia)).
  destruct (q <? _) eqn:E; lia.
Qed.

Lemma lowb_step n q p : 0 < q -> 0 <= p ->
  lowb n q (p + 1) - lowb n q p = n / q + (if p <? n mod q then 1 else 0).
Proof.
  intros Hq Hp. unfold lowb.
  pose proof (Z.mod_pos_bound n q Hq) as Hr.
  set (r := n mod q) in *. set (b := n / q) in *. clearbody r b.
  destruct (p <? r) eqn:E3; destruct (p + 1 <? r) eqn:E4; try (exfalso; lia); nia.
Qed.

Lemma lowb_nonneg n q p : 0 < q -> 0 <= n -> 0 <= p -> 0 <= lowb n q p.
Proof.
  intros Hq Hn Hp. unfold lowb.
  pose proof (Z.mod_pos_bound n q Hq) as Hr.
  assert (0 <= n / q) as Hb by (apply Z.div_pos; lia).
  set (r := n mod q) in *. set (b := n / q) in *. clearbody r b.
  destruct (p <? r); nia.
Qed.

Definition cut (n q : Z) (p : nat) : nat := Z.to_nat (lowb n q (Z.of_nat p)).

Lemma cut_0 n q : 0 < q -> cut n q 0 = 0%nat.
Proof. intros; unfold cut; simpl; rewrite lowb_0 by lia; reflexivity. Qed.
Lemma cut_q n q : (0 < q)%nat -> cut n (Z.of_nat q) q = Z.to_nat n.
Proof. intros; unfold cut; rewrite lowb_q by lia; reflexivity. Qed.
Lemma cut_step n q p : 0 < q -> 0 <= n ->
  cut n q (S p) = (cut n q p + Z.to_nat (n / q + (if (Z.of_nat p <? n mod q)%Z then 1 else 0)))%nat.
Proof.
  intros Hq Hn. unfold cut.
  pose proof (lowb_step n q (Z.of_nat p) Hq ltac:(lia)) as Hs.
  pose proof (lowb_nonneg n q (Z.of_nat p) Hq Hn ltac:(lia)).
  replace (Z.of_nat (S p)) with (Z.of_nat p + 1) by lia.
  assert (0 <= n / q) by (apply Z.div_pos; lia).
  destruct (Z.of_nat p <? n mod q); lia.
Qed.
Lemma cut_mono n q p : 0 < q -> 0 <= n -> (cut n q p <= cut n q (S p))%nat.
Proof. intros; rewrite cut_step by lia; lia. Qed.

Lemma block_part_ok {A} (l : list A) (p q : nat) n :
  (p < q)%nat -> 0 <= n ->
  block_getPartition l (Z.of_nat p) (Z.of_nat q) n =
  Ok (nslice l (cut n (Z.of_nat q) p) (cut n (Z.of_nat q) (S p))).
Proof.
  intros Hp Hn. rewrite block_getPartition_eq by lia. unfold cut.
  replace (Z.of_nat (S p)) with (Z.of_nat p + 1) by lia. reflexivity.
Qed.

Lemma block_concat {A} (l : list A) (q : nat) n :
  (0 < q)%nat -> 0 <= n -> (length l <= Z.to_nat n)%nat ->
  concat (map (fun p => nslice l (cut n (Z.of_nat q) p) (cut n (Z.of_nat q) (S p))) (seq 0 q)) = l.
Proof.
  intros Hq Hn Hl. rewrite concat_slices.
  - rewrite cut_q by lia. apply firstn_all2; lia.
  - apply cut_0; lia.
  - intros p _; apply cut_mono; lia.
Qed.

Lemma block_scatter_parts {A} (l : list A) (q : nat) :
  scatter_parts DistBlock l q =
  Ok (map (fun p => nslice l (cut (Z.of_nat (length l)) (Z.of_nat q) p)
                            (cut (Z.of_nat (length l)) (Z.of_nat q) (S p))) (seq 0 q)).
Proof.
  unfold scatter_parts. apply traverse_ok. intros p Hp. apply in_seq in Hp.
  cbn [getPartition]. apply block_part_ok; lia.
Qed.

Lemma block_scatter_gather {A} (l : list A) (q : nat) :
  (0 < q)%nat ->
  exists parts, scatter_parts DistBlock l q = Ok parts /\ length parts = q /\
                concat parts = l /\ gather DistBlock parts = Ok l.
Proof.
  intros Hq. eexists; split; [apply block_scatter_parts|].
  rewrite map_length, seq_length; split; [reflexivity|].
  rewrite block_concat by lia. split; [reflexivity|].
  unfold gather, joinPartitions, block_join.
  destruct q as [|q]; [lia|]. cbn [seq map].
  match goal with |- Ok (concat ?x) = _ =>
    change x with (map (fun p => nslice l (cut (Z.of_nat (length l)) (Z.of_nat (S q)) p)
                       (cut (Z.of_nat (length l)) (Z.of_nat (S q)) (S p))) (seq 0 (S q))) end.
  rewrite block_concat by lia. reflexivity.
Qed.

Lemma nslice_length {A} (l : list A) lo hi :
  (hi <= length l)%nat -> length (nslice l lo hi) = (hi - lo)%nat.
Proof. intros; unfold nslice; rewrite firstn_length, skipn_length; lia. Qed.

Lemma cut_mono_le n q p p' : 0 < q -> 0 <= n -> (p <= p')%nat -> (cut n q p <= cut n q p')%nat.
Proof.
  intros Hq Hn Hp; induction Hp as [|p' Hp IH]; [lia|].
  pose proof (cut_mono n q p' Hq Hn); lia.
Qed.

Lemma block_balance {A} (l : list A) (p q : Z) :
  block_getPartition l p q (Z.of_nat (length l)) =
  Raise ValueError <-> ~ (0 <= p < q).
Proof.
  unfold block_getPartition. destruct (_ || _) eqn:E.
  - split; [lia|reflexivity].
  - split; [cbv zeta; match goal with |- context [if ?b then _ else _] => destruct b end; discriminate|lia].
Qed.

Lemma block_size {A} (l : list A) (p q : Z) part :
  block_getPartition l p q (Z.of_nat (length l)) = Ok part ->
  length part = (length l / Z.to_nat q +
                 if (Z.to_nat p <? length l mod Z.to_nat q)%nat then 1 else 0)%nat.
Proof.
  intros H.
  assert (0 <= p < q) as Hp.
  { destruct (Z_le_dec 0 p), (Z_lt_dec p q); try lia;
      exfalso; pose proof (proj2 (block_balance l p q)) as Hv; rewrite Hv in H by lia; discriminate. }
  rewrite <- (Z2Nat.id p), <- (Z2Nat.id q) in H by lia.
  rewrite block_part_ok in H by lia. injection H as <-.
  set (p' := Z.to_nat p) in *. set (q' := Z.to_nat q) in *.
  assert (p' < q')%nat by lia.
  rewrite nslice_length.
  - rewrite cut_step by lia.
    rewrite <- Nat2Z.inj_div, <- Nat2Z.inj_mod.
    set (b := (length l / q')%nat). set (r := (length l mod q')%nat). clearbody b r.
    destruct (Z.of_nat p' <? Z.of_nat r) eqn:E1; destruct (p' <? r)%nat eqn:E2; lia.
  - transitivity (cut (Z.of_nat (length l)) (Z.of_nat q') q').
    + apply cut_mono_le; lia.
    + rewrite cut_q by lia. lia.
Qed.

(** * Round robin *)
Definition pick {A} (l : list A) (i : nat) : list A :=
  match nth_error l i with Some x => [x] | None => [] end.

Lemma flat_map_pick {A} (l : list A) (idx : list nat) :
  Forall (fun i => (i < length l)%nat) idx ->
  forall i, nth_error (flat_map (pick l) idx) i =
            match nth_error idx i with Some j => nth_error l j | None => None end.
Proof.
  induction 1 as [|j idx Hj _ IH]; intros i; [destruct i; reflexivity|].
  simpl. unfold pick at 1. destruct (nth_error l j) as [x|] eqn:E.
  - destruct i as [|i]; simpl; [symmetry; exact E|apply IH].
  - apply nth_error_None in E; lia.
Qed.

Lemma nth_error_seq0 len i : nth_error (seq 0 len) i = if (i <? len)%nat then Some i else None.
Proof.
  destruct (i <? len)%nat eqn:E.
  - apply Nat.ltb_lt in E. rewrite nth_error_nth' with (d := 0%nat) by (rewrite seq_length; lia).
    rewrite seq_nth by lia. reflexivity.
  - apply nth_error_None. rewrite seq_length. apply Nat.ltb_ge in E; lia.
Qed.

Lemma count_bound p m q i : (0 < q)%nat ->
  (i < (m - p + (q - 1)) / q <-> p + i * q < m)%nat.
Proof.
  intros Hq.
  pose proof (Nat.div_mod (m - p + (q - 1)) q ltac:(lia)) as Hdm.
  pose proof (Nat.mod_upper_bound (m - p + (q - 1)) q ltac:(lia)) as Hub.
  set (d := ((m - p + (q - 1)) / q)%nat) in *.
  set (r := ((m - p + (q - 1)) mod q)%nat) in *. clearbody d r.
  split; intros H; nia.
Qed.

Lemma nth_error_py_range p m q i : (0 < q)%nat ->
  nth_error (py_range p m q) i = if (p + i * q <? m)%nat then Some (p + i * q)%nat else None.
Proof.
  intros Hq. unfold py_range. rewrite nth_error_map, nth_error_seq0.
  pose proof (count_bound p m q i Hq) as Hc.
  destruct (i <? _)%nat eqn:E1; destruct (p + i * q <? m)%nat eqn:E2; simpl; auto;
    [apply Nat.ltb_lt in E1; apply Nat.ltb_ge in E2|apply Nat.ltb_ge in E1; apply Nat.ltb_lt in E2]; lia.
Qed.

Lemma py_range_bound p m q : (0 < q)%nat -> Forall (fun i => (i < m)%nat) (py_range p m q).
Proof.
  intros Hq. apply Forall_forall. intros x Hx. apply In_nth_error in Hx as [i Hi].
  rewrite nth_error_py_range in Hi by lia.
  destruct (_ <? _)%nat eqn:E; [|discriminate]. apply Nat.ltb_lt in E. congruence.
Qed.

Lemma nth_error_py_stride {A} (l : list A) p n q i : (0 < q)%nat ->
  nth_error (py_stride l p n q) i =
  if (p + i * q <? n)%nat then nth_error l (p + i * q) else None.
Proof.
  intros Hq. unfold py_stride.
  change (fun i0 : nat => match nth_error l i0 with Some x => [x] | None => [] end) with (pick l).
  rewrite flat_map_pick.
  - rewrite nth_error_py_range by lia.
    destruct (_ <? Nat.min _ _)%nat eqn:E1; destruct (_ <? n)%nat eqn:E2; auto.
    + apply Nat.ltb_lt in E1; apply Nat.ltb_ge in E2; lia.
    + apply Nat.ltb_ge in E1; apply Nat.ltb_lt in E2. symmetry; apply nth_error_None; lia.
  - eapply Forall_impl; [|apply py_range_bound; lia]. simpl; intros; lia.
Qed.

Lemma rr_dealt {A} (l : list A) (p q : nat) n :
  (0 < q)%nat -> (length l <= Z.to_nat n)%nat ->
  exists part, rr_getPartition l (Z.of_nat p) (Z.of_nat q) n = Ok part /\ dealt l q p part.
Proof.
  intros Hq Hn. unfold rr_getPartition.
  destruct (Z.of_nat q <=? 0) eqn:E; [lia|].
  eexists; split; [reflexivity|]. intros i. unfold dealt_position.
  rewrite !Nat2Z.id, nth_error_py_stride by lia.
  destruct (_ <? _)%nat eqn:E2; auto.
  apply Nat.ltb_ge in E2. symmetry; apply nth_error_None; lia.
Qed.

Lemma flat_map_pick_seq {A} (l : list A) lo k :
  flat_map (fun p => pick l (p + lo)) (seq 0 k) = nslice l lo (lo + k).
Proof.
  assert (forall s, flat_map (fun p => pick l (p + lo)) (seq s k) = nslice l (s + lo) (s + lo + k)) as H.
  { induction k as [|k IH]; intros s.
    - simpl. unfold nslice. replace (s + lo + 0 - (s + lo))%nat with 0%nat by lia. reflexivity.
    - cbn [seq flat_map]. rewrite IH. unfold nslice, pick.
      replace (s + lo + S k - (s + lo))%nat with (S k) by lia.
      replace (S s + lo + k - (S s + lo))%nat with k by lia.
      destruct (nth_error l (s + lo)) as [x|] eqn:E.
      + replace (skipn (s + lo) l) with (x :: skipn (S s + lo) l); [reflexivity|].
        apply nth_error_ext; intros i. rewrite nth_error_skipn.
        destruct i as [|i]; simpl; [rewrite Nat.add_0_r; auto|].
        change (nth_error (skipn (S (s + lo)) l) i = nth_error l (s + lo + S i)).
        rewrite nth_error_skipn. f_equal; lia.
      + apply nth_error_None in E. rewrite !skipn_all2 by lia. rewrite !firstn_nil; reflexivity. }
  rewrite (H 0%nat). reflexivity.
Qed.

Lemma concat_map_flat {A B} (f : A -> list B) l : concat (map f l) = flat_map f l.
Proof. symmetry; apply flat_map_concat_map. Qed.

Lemma flat_map_ext_in {A B} (f g : A -> list B) l :
  (forall x, In x l -> f x = g x) -> flat_map f l = flat_map g l.
Proof.
  induction l as [|x l IH]; intros H; [reflexivity|]. simpl.
  rewrite H by (left; reflexivity). rewrite IH; auto. intros; apply H; right; auto.
Qed.

(** Gathering dealt parts; parts that hold nothing may be missing from the list as long
    as the first is there. *)
Lemma flatten_dealt {A} (l : list A) (q : nat) (part : nat -> list A) (keep : nat -> bool) :
  (0 < q)%nat -> keep 0%nat = true ->
  (forall p, (p < q)%nat -> dealt l q p (part p)) ->
  (forall p, keep p = false -> part p = []) ->
  flatten_list (map part (filter keep (seq 0 q))) = Ok l.
Proof.
  intros Hq Hk0 Hd Hkeep.
  destruct q as [|q']; [lia|]. set (q := S q') in *.
  assert (exists r, map part (filter keep (seq 0 q)) = part 0%nat :: r) as [r Hr].
  { subst q. cbn [seq filter]. rewrite Hk0. simpl. eexists; reflexivity. }
  unfold flatten_list. rewrite Hr. rewrite <- Hr. f_equal.
  rewrite <- concat_map_flat.
  erewrite map_ext with (g := fun i => nslice l (i * q) (S i * q)).
  - rewrite concat_slices with (B := fun i => (i * q)%nat); [|reflexivity|intros; nia].
    apply firstn_all2.
    destruct (Nat.le_gt_cases (length l) (length (part 0%nat) * q)) as [|Hlt]; [assumption|].
    exfalso. pose proof (Hd 0%nat ltac:(lia) (length (part 0%nat))) as He.
    unfold dealt_position in He.
    assert (nth_error (part 0%nat) (length (part 0%nat)) = None) as Hn by (apply nth_error_None; lia).
    rewrite Hn in He. symmetry in He. apply nth_error_None in He. simpl in He. lia.
  - intros i.
    transitivity (flat_map (fun p => pick l (p + i * q)) (seq 0 q)).
    + transitivity (flat_map (fun p => pick (part p) i) (seq 0 q)).
      * change (fun part0 : list A => match nth_error part0 i with Some x => [x] | None => [] end)
          with (fun part0 : list A => pick part0 i).
        clear Hr r Hd. induction (seq 0 q) as [|p s IH]; [reflexivity|]. simpl.
        destruct (keep p) eqn:E; simpl; rewrite IH; [reflexivity|].
        rewrite (Hkeep p E). unfold pick. destruct i; reflexivity.
      * apply flat_map_ext_in. intros p Hp. apply in_seq in Hp. unfold pick.
        rewrite (Hd p ltac:(lia) i). reflexivity.
    + rewrite flat_map_pick_seq. f_equal. lia.
Qed.

Definition rr_part {A} (l : list A) (q : nat) (n : Z) (p : nat) : list A :=
  py_stride l p (Z.to_nat n) q.

Lemma rr_getPartition_eq {A} (l : list A) (p q : nat) n :
  (0 < q)%nat -> rr_getPartition l (Z.of_nat p) (Z.of_nat q) n = Ok (rr_part l q n p).
Proof.
  intros Hq. unfold rr_getPartition, rr_part. destruct (_ <=? 0) eqn:E; [lia|].
  rewrite !Nat2Z.id. reflexivity.
Qed.

Lemma rr_part_dealt {A} (l : list A) q n p :
  (0 < q)%nat -> (length l <= Z.to_nat n)%nat -> dealt l q p (rr_part l q n p).
Proof.
  intros Hq Hn i. unfold rr_part, dealt_position. rewrite nth_error_py_stride by lia.
  destruct (_ <? _)%nat eqn:E2; auto.
  apply Nat.ltb_ge in E2. symmetry; apply nth_error_None; lia.
Qed.

Lemma filter_true {A} (l : list A) : filter (fun _ => true) l = l.
Proof. induction l as [|x l IH]; simpl; congruence. Qed.

Lemma rr_scatter_gather {A} (l : list A) (q : nat) :
  (0 < q)%nat ->
  exists parts, scatter_parts DistRR l q = Ok parts /\ length parts = q /\
    (forall p part, nth_error parts p = Some part -> dealt l q p part) /\
    gather DistRR parts = Ok l.
Proof.
  intros Hq. exists (map (rr_part l q (Z.of_nat (length l))) (seq 0 q)).
  split; [|split; [rewrite map_length, seq_length; reflexivity|split]].
  - unfold scatter_parts. apply traverse_ok. intros p Hp. apply in_seq in Hp.
    apply rr_getPartition_eq; lia.
  - intros p part Hp. rewrite nth_error_map, nth_error_seq0 in Hp.
    destruct (_ <? _)%nat; simpl in Hp; [|discriminate]. injection Hp as <-.
    apply rr_part_dealt; lia.
  - unfold gather, joinPartitions.
    rewrite <- (filter_true (seq 0 q)).
    apply flatten_dealt; auto; [|discriminate]. intros; apply rr_part_dealt; lia.
Qed.

(** * zip *)
Lemma heads_tails_spec {A} (ls : list (list A)) :
  heads_tails ls =
  match sequence (map (fun s => nth_error s 0) ls) with
  | Some hs => Some (hs, map (skipn 1) ls)
  | None => None
  end.
Proof.
  induction ls as [|[|x xs] ls IH]; [reflexivity|reflexivity|].
  cbn [heads_tails map sequence nth_error]. rewrite IH.
  destruct (sequence _); reflexivity.
Qed.

Lemma sequence_none_in {A} (l : list (option A)) : In None l -> sequence l = None.
Proof.
  induction l as [|[x|] l IH]; intros H; [destruct H| |reflexivity].
  destruct H as [H|H]; [discriminate|]. simpl. rewrite IH; auto.
Qed.

Lemma sequence_none_out {A} (l : list (option A)) : sequence l = None -> In None l.
Proof.
  induction l as [|[x|] l IH]; intros H; [discriminate H| |left; reflexivity].
  simpl in H. destruct (sequence l); [discriminate|]. right; auto.
Qed.

Lemma sequence_length {A} (l : list (option A)) r : sequence l = Some r -> length r = length l.
Proof.
  revert r; induction l as [|[x|] l IH]; intros r H; simpl in H; [injection H as <-; reflexivity| |discriminate].
  destruct (sequence l) as [xs|]; [|discriminate]. injection H as <-. simpl. rewrite (IH xs); auto.
Qed.

Lemma py_zip_nth {A} (ls : list (list A)) i : ls <> [] ->
  nth_error (py_zip ls) i = sequence (map (fun s => nth_error s i) ls).
Proof.
  destruct ls as [|first rest]; [congruence|]. intros _. simpl py_zip.
  revert rest i. induction first as [|x xs IH]; intros rest i.
  - simpl. destruct i; reflexivity.
  - cbn [zip_from]. rewrite heads_tails_spec.
    destruct (sequence (map (fun s => nth_error s 0) rest)) as [hs|] eqn:E.
    + destruct i as [|i].
      * cbn [nth_error map sequence] in *. rewrite E. reflexivity.
      * cbn [nth_error map]. rewrite IH. cbn [map].
        replace (map (fun s : list A => nth_error s i) (map (skipn 1) rest))
          with (map (fun s => nth_error s (S i)) rest); [reflexivity|].
        rewrite map_map. apply map_ext. intros s. symmetry; apply nth_error_skipn.
    + destruct i as [|i]; [cbn [nth_error map sequence] in *; rewrite E; reflexivity|].
      cbn [nth_error map].
      assert (sequence (map (fun s => nth_error s (S i)) rest) = None) as Hn.
      { apply sequence_none_in. apply sequence_none_out in E.
        apply in_map_iff in E as [s [Es Hs]]. apply in_map_iff. exists s; split; [|assumption].
        apply nth_error_None in Es. apply nth_error_None. lia. }
      cbn [map sequence nth_error] in *. rewrite Hn. destruct (nth_error xs i); reflexivity.
Qed.

Lemma py_zip_rows {A} (ls : list (list A)) : ls <> [] -> zip_rows ls (py_zip ls).
Proof. intros H i row. rewrite py_zip_nth by assumption. reflexivity. Qed.

(** * maxlen *)
Lemma maxlen_fold_ge {A} (seqs : list (list A)) m :
  m <= fold_left (fun m s => let n := Z.of_nat (length s) in if m <? n then n else m) seqs m /\
  Forall (fun s => Z.of_nat (length s) <=
    fold_left (fun m s => let n := Z.of_nat (length s) in if m <? n then n else m) seqs m) seqs.
Proof.
  cbv zeta. revert m; induction seqs as [|s seqs IH]; intros m; cbn [fold_left]; [split; [lia|constructor]|].
  destruct (IH (if m <? Z.of_nat (length s) then Z.of_nat (length s) else m)) as [H1 H2].
  destruct (m <? Z.of_nat (length s)) eqn:E; (split; [lia|]); constructor; auto; lia.
Qed.

Lemma maxlen_ge {A} (seqs : list (list A)) s : In s seqs -> Z.of_nat (length s) <= maxlen seqs.
Proof.
  intros H. destruct (maxlen_fold_ge seqs (-1)) as [_ Hf].
  rewrite Forall_forall in Hf. apply Hf; assumption.
Qed.

Lemma maxlen_attained {A} (seqs : list (list A)) :
  seqs <> [] -> exists s, In s seqs /\ maxlen seqs = Z.of_nat (length s).
Proof.
  intros Hne. unfold maxlen.
  assert (forall m, let r := fold_left (fun m (s : list A) => let n := Z.of_nat (length s) in
       if m <? n then n else m) seqs m in r = m \/ exists s, In s seqs /\ r = Z.of_nat (length s)) as H.
  { clear Hne. induction seqs as [|s seqs IH]; intros m; simpl; [left; reflexivity|].
    destruct (IH (if m <? Z.of_nat (length s) then Z.of_nat (length s) else m)) as [H|[s' [H1 H2]]].
    - destruct (m <? Z.of_nat (length s)); [right; exists s; auto|left; exact H].
    - right; exists s'; auto. }
  destruct (H (-1)) as [H1|[s [H1 H2]]]; [|exists s; auto].
  destruct seqs as [|s0 seqs0]; [congruence|].
  pose proof (maxlen_ge (s0 :: seqs0) s0 ltac:(left; reflexivity)) as Hge. unfold maxlen in Hge.
  simpl in H1, Hge. lia.
Qed.

Lemma total_len_zero {A} (args : list (list A)) :
  total_len args = 0%nat <-> Forall (fun a => a = []) args.
Proof.
  induction args as [|a args IH]; simpl; [split; auto|].
  rewrite Forall_cons_iff. destruct a; simpl; split; intros H; try lia.
  - split; auto. apply IH; lia.
  - destruct H as [_ H]. apply IH in H; lia.
  - destruct H; discriminate.
Qed.

(** nparts is positive when there is something to do. *)
Lemma nparts_pos v m : 0 < m -> v <> Multiplexed 0 -> (0 < nparts v m)%nat.
Proof.
  intros Hm Hv. destruct v as [[|t]|[|c]]; simpl; try congruence; try lia.
  set (c' := Z.of_nat (S c)) in *.
  pose proof (Z.mod_pos_bound m c' ltac:(lia)). pose proof (Z.div_mod m c' ltac:(lia)).
  set (d := m / c') in *. set (r := m mod c') in *.
  change (Z.pos (Pos.of_succ_nat c)) with c'. fold d r. clearbody d r.
  destruct (r >? 0) eqn:E; nia.
Qed.

(** * The partitions of all the sequences *)
Definition part_of {A} (d : dist) (np : nat) (n : Z) (p : nat) (s : list A) : list A :=
  match d with
  | DistBlock => nslice s (cut n (Z.of_nat np) p) (cut n (Z.of_nat np) (S p))
  | DistRR => rr_part s np n p
  end.

Lemma pf_tasks_eq {A} d v (seqs : list (list A)) :
  0 <= maxlen seqs ->
  pf_tasks d v seqs =
  Ok (filter (fun args => negb (Nat.eqb (total_len args) 0))
        (map (fun p => map (part_of d (nparts v (maxlen seqs)) (maxlen seqs) p) seqs)
             (seq 0 (nparts v (maxlen seqs))))).
Proof.
  intros Hm. unfold pf_tasks.
  erewrite (traverse_ok _ (fun p => map (part_of d (nparts v (maxlen seqs)) (maxlen seqs) p) seqs)).
  - reflexivity.
  - intros p Hp. apply in_seq in Hp. apply traverse_ok. intros s Hs.
    destruct d; cbn [getPartition part_of].
    + apply block_part_ok; lia.
    + apply rr_getPartition_eq; lia.
Qed.

Lemma map_filter_comm {A B} (g : A -> B) (P : B -> bool) l :
  filter P (map g l) = map g (filter (fun x => P (g x)) l).
Proof. induction l as [|x l IH]; simpl; [reflexivity|]. destruct (P (g x)); simpl; congruence. Qed.

Lemma sequence_all_none {A} (l : list (option A)) : l <> [] -> Forall (fun o => o = None) l -> sequence l = None.
Proof. destruct l as [|o l]; [congruence|]. intros _ H. apply Forall_inv in H. subst; reflexivity. Qed.

Lemma zip_block {A} (seqs : list (list A)) lo hi :
  seqs <> [] -> py_zip (map (fun s => nslice s lo hi) seqs) = nslice (py_zip seqs) lo hi.
Proof.
  intros Hne. apply nth_error_ext. intros i.
  rewrite py_zip_nth by (destruct seqs; [congruence|discriminate]).
  rewrite nth_error_nslice, py_zip_nth, map_map by assumption.
  destruct (i <? hi - lo)%nat eqn:E.
  - f_equal. apply map_ext. intros s. rewrite nth_error_nslice, E. reflexivity.
  - apply sequence_all_none; [destruct seqs; [congruence|discriminate]|].
    apply Forall_forall. intros o Ho. apply in_map_iff in Ho as [s [<- _]].
    rewrite nth_error_nslice, E. reflexivity.
Qed.


Lemma zip_dealt {A} (seqs : list (list A)) q n p :
  seqs <> [] -> (0 < q)%nat -> (forall s, In s seqs -> (length s <= Z.to_nat n)%nat) ->
  dealt (py_zip seqs) q p (py_zip (map (fun s => rr_part s q n p) seqs)).
Proof.
  intros Hne Hq Hl i.
  rewrite (py_zip_nth (map _ _)) by (destruct seqs; [congruence|discriminate]).
  rewrite py_zip_nth by assumption.
  rewrite map_map. f_equal. apply map_ext_in. intros s Hs.
  apply rr_part_dealt; auto.
Qed.

Lemma dealt_map {A B} (f : A -> B) l q p part : dealt l q p part -> dealt (map f l) q p (map f part).
Proof. intros H i. rewrite !nth_error_map, (H i). reflexivity. Qed.

Lemma min_len_zip_le {A} (seqs : list (list A)) s : In s seqs -> (length (py_zip seqs) <= length s)%nat.
Proof.
  intros Hs. destruct (Nat.le_gt_cases (length (py_zip seqs)) (length s)) as [|Hlt]; [assumption|].
  exfalso. assert (nth_error (py_zip seqs) (length s) = None) as Hn.
  { rewrite py_zip_nth by (destruct seqs; [destruct Hs|discriminate]).
    apply sequence_none_in. apply in_map_iff. exists s. split; [apply nth_error_None; lia|assumption]. }
  apply nth_error_None in Hn. lia.
Qed.

Theorem parallel_map_builtin {A B} d v (f : list A -> B) (seqs : list (list A)) :
  seqs <> [] -> v <> Multiplexed 0 ->
  exists out, parallel_map d v f seqs = Ok out /\ builtin_map f seqs out.
Proof.
  intros Hne Hv. exists (map f (py_zip seqs)). split;
    [|exists (py_zip seqs); split; [apply py_zip_rows; assumption|reflexivity]].
  destruct (maxlen_attained seqs Hne) as [s0 [Hs0 Hmax]].
  unfold parallel_map. destruct (maxlen seqs =? 0) eqn:E0.
  - (* nothing to iterate over *)
    assert (length (py_zip seqs) = 0)%nat as Hz.
    { pose proof (min_len_zip_le seqs s0 Hs0). lia. }
    destruct (py_zip seqs); [reflexivity|discriminate].
  - assert (0 < maxlen seqs) as Hpos by lia.
    rewrite pf_tasks_eq by lia. cbn [bind].
    set (np := nparts v (maxlen seqs)).
    assert (0 < np)%nat as Hnp by (apply nparts_pos; assumption).
    set (n := maxlen seqs) in *.
    assert (forall s, In s seqs -> (length s <= Z.to_nat n)%nat) as Hle.
    { intros s Hs. pose proof (maxlen_ge seqs s Hs) as Hg. fold n in Hg. lia. }
    rewrite map_filter_comm, map_map.
    set (keep := fun p => negb (Nat.eqb (total_len (map (part_of d np n p) seqs)) 0)).
    change (fun x : nat => negb (Nat.eqb (total_len (map (part_of d np n x) seqs)) 0)) with keep.
    set (part := fun p => remote_map f (map (part_of d np n p) seqs)).
    change (fun x : nat => remote_map f (map (part_of d np n x) seqs)) with part.
    assert (forall p, keep p = false -> part p = []) as Hkeep.
    { intros p Hk. unfold keep in Hk. apply negb_false_iff, Nat.eqb_eq, total_len_zero in Hk.
      unfold part, remote_map. destruct seqs as [|s seqs']; [congruence|].
      cbn [map] in *. apply Forall_inv in Hk. rewrite Hk. reflexivity. }
    assert (keep 0%nat = true) as Hk0.
    { unfold keep. apply negb_true_iff, Nat.eqb_neq. intros Hz. apply total_len_zero in Hz.
      rewrite Forall_forall in Hz. specialize (Hz (part_of d np n 0 s0)).
      rewrite in_map_iff in Hz. specialize (Hz (ex_intro _ s0 (conj eq_refl Hs0))).
      assert (0 < length s0)%nat as Hs0l by lia.
      destruct (nth_error s0 0) as [x|] eqn:Ex; [|apply nth_error_None in Ex; lia].
      assert (nth_error (part_of d np n 0 s0) 0 = Some x) as Hx; [|rewrite Hz in Hx; discriminate].
      destruct d; cbn [part_of].
      - rewrite nth_error_nslice, cut_0 by lia. rewrite cut_step by lia. rewrite cut_0 by lia.
        rewrite !Nat.add_0_l, Ex.
        assert (0 < Z.to_nat (n / Z.of_nat np + (if (Z.of_nat 0 <? n mod Z.of_nat np)%Z then 1 else 0)))%nat.
        { pose proof (Z.div_mod n (Z.of_nat np) ltac:(lia)).
          pose proof (Z.mod_pos_bound n (Z.of_nat np) ltac:(lia)).
          set (b := n / Z.of_nat np) in *. set (r := n mod Z.of_nat np) in *. clearbody b r.
          destruct (Z.of_nat 0 <? r) eqn:Er; nia. }
        destruct (0 <? _)%nat eqn:El; [reflexivity|apply Nat.ltb_ge in El; lia].
      - pose proof (rr_part_dealt s0 np n 0 Hnp (Hle s0 Hs0) 0%nat) as Hd.
        rewrite Hd. exact Ex. }
    destruct d; cbn [joinPartitions].
    + (* block *)
      assert (concat (map part (filter keep (seq 0 np))) = map f (py_zip seqs)) as Hcat.
      { transitivity (concat (map part (seq 0 np))).
        - clear Hk0. induction (seq 0 np) as [|p s IH]; [reflexivity|]. simpl.
          destruct (keep p) eqn:Ek; simpl; rewrite IH; [reflexivity|].
          rewrite (Hkeep p Ek). reflexivity.
        - unfold part, remote_map. cbn [part_of].
          rewrite <- (map_map (fun p => py_zip (map (fun s => nslice s (cut n (Z.of_nat np) p)
                     (cut n (Z.of_nat np) (S p))) seqs)) (map f)).
          rewrite <- concat_map. f_equal.
          erewrite map_ext; [|intros p; apply zip_block; assumption].
          apply block_concat; try lia.
          pose proof (min_len_zip_le seqs s0 Hs0). specialize (Hle s0 Hs0). lia. }
      unfold block_join. destruct (map part (filter keep (seq 0 np))) as [|p0 ps] eqn:Ep.
      * exfalso. destruct np as [|np']; [lia|]. cbn [seq filter] in Ep. rewrite Hk0 in Ep. discriminate.
      * rewrite Hcat. reflexivity.
    + apply flatten_dealt; auto.
      intros p Hp. unfold part, remote_map. apply dealt_map.
      change (part_of DistRR np n p) with (fun s : list A => rr_part s np n p).
      apply zip_dealt; auto.
Qed.

(** * Sizes of the partitions, number of tasks *)
Lemma filter_all {A} (P : A -> bool) l : (forall x, In x l -> P x = true) -> filter P l = l.
Proof.
  induction l as [|x l IH]; intros H; [reflexivity|]. simpl.
  rewrite H by (left; reflexivity). rewrite IH; auto. intros; apply H; right; auto.
Qed.

Lemma nslice_length_le {A} (l : list A) lo hi : (length (nslice l lo hi) <= hi - lo)%nat.
Proof. unfold nslice; rewrite firstn_length; lia. Qed.

Lemma part_of_nth {A} d np n p (s : list A) i :
  (0 < np)%nat -> 0 <= n -> (length s <= Z.to_nat n)%nat ->
  nth_error (part_of d np n p s) i =
  match d with
  | DistBlock => if (i <? cut n (Z.of_nat np) (S p) - cut n (Z.of_nat np) p)%nat
                 then nth_error s (cut n (Z.of_nat np) p + i) else None
  | DistRR => nth_error s (p + i * np)
  end.
Proof.
  intros Hnp Hn Hs. destruct d; cbn [part_of].
  - apply nth_error_nslice.
  - apply rr_part_dealt; auto.
Qed.

(** Bound on the size of every partition: ceil(n/np). *)
Lemma part_of_size {A} d np n p c (s : list A) :
  (0 < np)%nat -> (p < np)%nat -> 0 <= n -> (length s <= Z.to_nat n)%nat ->
  (Z.to_nat n <= c * np)%nat ->
  (length (part_of d np n p s) <= c)%nat.
Proof.
  intros Hnp Hp Hn Hs Hc.
  destruct (Nat.le_gt_cases (length (part_of d np n p s)) c) as [|Hlt]; [assumption|exfalso].
  destruct (nth_error (part_of d np n p s) c) as [x|] eqn:E;
    [|apply nth_error_None in E; lia].
  rewrite part_of_nth in E by assumption. destruct d.
  - rewrite cut_step in E by lia.
    pose proof (Z.div_mod n (Z.of_nat np) ltac:(lia)) as Hdm.
    pose proof (Z.mod_pos_bound n (Z.of_nat np) ltac:(lia)) as Hr.
    set (b := n / Z.of_nat np) in *. set (r := n mod Z.of_nat np) in *. clearbody b r.
    destruct (c <? _)%nat eqn:El; [|discriminate]. apply Nat.ltb_lt in El.
    destruct (Z.of_nat p <? r) eqn:Er; nia.
  - assert (p + c * np < length s)%nat by (apply nth_error_Some; congruence). lia.
Qed.

(** With no more partitions than items, every partition of a longest sequence is non-empty. *)
Lemma part_of_nonempty {A} d np n p (s : list A) :
  (p < np)%nat -> (np <= length s)%nat -> n = Z.of_nat (length s) ->
  part_of d np n p s <> [].
Proof.
  intros Hp Hnp -> Hz.
  assert (nth_error (part_of d np (Z.of_nat (length s)) p s) 0 <> None) as Hx.
  { rewrite part_of_nth by lia. destruct d.
    - rewrite cut_step by lia.
      pose proof (cut_mono_le (Z.of_nat (length s)) (Z.of_nat np) (S p) np ltac:(lia) ltac:(lia) Hp) as Hc.
      rewrite cut_q in Hc by lia. rewrite cut_step in Hc by lia.
      set (c := cut _ _ p) in *. clearbody c.
      pose proof (Z.div_mod (Z.of_nat (length s)) (Z.of_nat np) ltac:(lia)) as Hdm.
      pose proof (Z.mod_pos_bound (Z.of_nat (length s)) (Z.of_nat np) ltac:(lia)) as Hr.
      set (b := Z.of_nat (length s) / Z.of_nat np) in *.
      set (r := Z.of_nat (length s) mod Z.of_nat np) in *. clearbody b r.
      assert (1 <= b) by nia.
      destruct (0 <? _)%nat eqn:El.
      + apply nth_error_Some. destruct (Z.of_nat p <? r); lia.
      + apply Nat.ltb_ge in El. destruct (Z.of_nat p <? r); lia.
    - apply nth_error_Some. lia. }
  rewrite Hz in Hx. apply Hx; reflexivity.
Qed.

Lemma nparts_balanced n c : (0 < n)%nat ->
  nparts (Balanced c) (Z.of_nat n) = ceil_div n (Nat.max 1 c).
Proof.
  intros Hn. unfold ceil_div. destruct c as [|c].
  - unfold nparts. change (Nat.max 1 0) with 1%nat. rewrite Nat.div_1_r. lia.
  - replace (Nat.max 1 (S c)) with (S c) by lia. unfold nparts.
    rewrite <- Nat2Z.inj_div, <- Nat2Z.inj_mod.
    pose proof (Nat.div_mod n (S c) ltac:(lia)) as H1.
    pose proof (Nat.mod_upper_bound n (S c) ltac:(lia)) as H2.
    pose proof (Nat.div_mod (n + (S c - 1)) (S c) ltac:(lia)) as H3.
    pose proof (Nat.mod_upper_bound (n + (S c - 1)) (S c) ltac:(lia)) as H4.
    set (a := (n / S c)%nat) in *. set (b := (n mod S c)%nat) in *.
    set (a' := ((n + (S c - 1)) / S c)%nat) in *. set (b' := ((n + (S c - 1)) mod S c)%nat) in *.
    clearbody a b a' b'.
    destruct (Z.of_nat b >? 0) eqn:E; nia.
Qed.

Lemma ceil_div_bounds n c : (0 < n)%nat -> (0 < c)%nat ->
  (0 < ceil_div n c <= n)%nat /\ (n <= c * ceil_div n c)%nat.
Proof.
  intros Hn Hc. unfold ceil_div.
  pose proof (Nat.div_mod (n + (c - 1)) c ltac:(lia)) as H3.
  pose proof (Nat.mod_upper_bound (n + (c - 1)) c ltac:(lia)) as H4.
  set (a' := ((n + (c - 1)) / c)%nat) in *. set (b' := ((n + (c - 1)) mod c)%nat) in *.
  clearbody a' b'. nia.
Qed.

Lemma balanced_chunks {A} d c (seqs : list (list A)) s0 :
  In s0 seqs -> (forall s, In s seqs -> (length s <= length s0)%nat) -> s0 <> [] ->
  exists tasks, pf_tasks d (Balanced c) seqs = Ok tasks /\
    length tasks = ceil_div (length s0) (Nat.max 1 c) /\
    forall args, In args tasks ->
      length args = length seqs /\
      (exists a, In a args /\ a <> []) /\
      (forall a, In a args -> (length a <= Nat.max 1 c)%nat).
Proof.
  intros Hs0 Hmaxs Hs0ne.
  assert (maxlen seqs = Z.of_nat (length s0)) as Hmax.
  { destruct (maxlen_attained seqs) as [s [Hs Hm]]; [destruct seqs; [destruct Hs0|discriminate]|].
    pose proof (maxlen_ge seqs s0 Hs0). specialize (Hmaxs s Hs). lia. }
  assert (0 < length s0)%nat as Hlen by (destruct s0; [congruence|simpl; lia]).
  rewrite pf_tasks_eq by lia. rewrite Hmax.
  rewrite nparts_balanced by lia.
  set (np := ceil_div (length s0) (Nat.max 1 c)).
  destruct (ceil_div_bounds (length s0) (Nat.max 1 c) Hlen ltac:(lia)) as [Hb1 Hb2]. fold np in Hb1, Hb2.
  eexists; split; [reflexivity|].
  rewrite filter_all.
  - rewrite map_length, seq_length. split; [reflexivity|].
    intros args Hargs. apply in_map_iff in Hargs as [p [<- Hp]]. apply in_seq in Hp.
    rewrite map_length. split; [reflexivity|]. split.
    + exists (part_of d np (Z.of_nat (length s0)) p s0). split.
      * apply in_map. assumption.
      * apply part_of_nonempty; lia.
    + intros a Ha. apply in_map_iff in Ha as [s [<- Hs]]. specialize (Hmaxs s Hs).
      apply part_of_size; lia.
  - intros args Hargs. apply in_map_iff in Hargs as [p [<- Hp]]. apply in_seq in Hp.
    apply negb_true_iff, Nat.eqb_neq. intros Hz. apply total_len_zero in Hz.
    rewrite Forall_forall in Hz.
    apply (part_of_nonempty d np (Z.of_nat (length s0)) p s0); try lia.
    apply Hz, in_map. assumption.
Qed.

(** The recorded chunk sizes (used by [len] and [progress]) count the mapped items. *)
Lemma fold_min_le (r : list nat) m : (fold_left Nat.min r m <= m)%nat.
Proof. revert m; induction r as [|x r IH]; intros m; simpl; [lia|]. specialize (IH (Nat.min m x)). lia. Qed.

Lemma min_len_arg_spec {A} (args : list (list A)) :
  args <> [] ->
  (exists a, In a args /\ min_len_arg args = length a) /\
  (forall a, In a args -> (min_len_arg args <= length a)%nat).
Proof.
  destruct args as [|a0 r]; [congruence|]. intros _. unfold min_len_arg.
  assert (forall r m, (exists a, In a r /\ fold_left (fun m (b : list A) => Nat.min m (length b)) r m = length a)
     \/ fold_left (fun m (b : list A) => Nat.min m (length b)) r m = m) as H1.
  { induction r0 as [|b r0 IH]; intros m; [right; reflexivity|]. simpl.
    destruct (IH (Nat.min m (length b))) as [[a [Ha He]]|He].
    - left; exists a; auto.
    - destruct (Nat.min_dec m (length b)) as [Hd|Hd]; rewrite Hd in He |- *;
        [right; exact He|left; exists b; auto]. }
  assert (forall r m, (fold_left (fun m (b : list A) => Nat.min m (length b)) r m <= m)%nat /\
     forall a, In a r -> (fold_left (fun m (b : list A) => Nat.min m (length b)) r m <= length a)%nat) as H2.
  { induction r0 as [|b r0 IH]; intros m; simpl; [split; [lia|intros _ []]|].
    destruct (IH (Nat.min m (length b))) as [Ha Hb]. split; [lia|].
    intros a [<-|Ha']; [lia|auto]. }
  split.
  - destruct (H1 r (length a0)) as [[a [Ha He]]|He]; [exists a; split; [right|]; assumption|exists a0].
    split; [left; reflexivity|exact He].
  - destruct (H2 r (length a0)) as [Ha Hb]. intros a [<-|Ha']; auto.
Qed.

Lemma zip_length {A} (args : list (list A)) : args <> [] -> length (py_zip args) = min_len_arg args.
Proof.
  intros Hne. destruct (min_len_arg_spec args Hne) as [[a [Ha He]] Hle].
  apply Nat.le_antisymm.
  - rewrite He. apply min_len_zip_le; assumption.
  - destruct (Nat.le_gt_cases (min_len_arg args) (length (py_zip args))) as [|Hlt]; [assumption|exfalso].
    assert (nth_error (py_zip args) (length (py_zip args)) = None) as Hn by (apply nth_error_None; lia).
    rewrite py_zip_nth in Hn by assumption. apply sequence_none_out in Hn.
    apply in_map_iff in Hn as [s [Hs1 Hs2]]. apply nth_error_None in Hs1.
    specialize (Hle s Hs2). lia.
Qed.

Lemma length_concat_map_sum {A} (ls : list (list A)) :
  length (concat ls) = fold_right (fun a n => (length a + n)%nat) 0%nat ls.
Proof. induction ls as [|l ls IH]; simpl; [reflexivity|]. rewrite app_length, IH. reflexivity. Qed.

Lemma pick_length {A} (l : list A) i : length (pick l i) = if (i <? length l)%nat then 1%nat else 0%nat.
Proof.
  unfold pick. destruct (nth_error l i) eqn:E; destruct (i <? length l)%nat eqn:El; try reflexivity.
  - apply Nat.ltb_ge, nth_error_None in El. congruence.
  - apply Nat.ltb_lt, nth_error_Some in El. congruence.
Qed.

Lemma pick_all {A} (l : list A) m : (length l <= m)%nat -> length (flat_map (pick l) (seq 0 m)) = length l.
Proof.
  intros H. erewrite flat_map_ext_in with (g := fun p => pick l (p + 0));
    [|intros; rewrite Nat.add_0_r; reflexivity].
  rewrite flat_map_pick_seq. unfold nslice. simpl. rewrite Nat.sub_0_r, firstn_all2 by lia. reflexivity.
Qed.

Lemma length_flat_map_app {A B} (f g : A -> list B) l :
  length (flat_map (fun x => f x ++ g x) l) = (length (flat_map f l) + length (flat_map g l))%nat.
Proof. induction l as [|x l IH]; simpl; [reflexivity|]. rewrite !app_length, IH. lia. Qed.

Lemma flatten_length {A} (parts : list (list A)) m :
  (forall part, In part parts -> (length part <= m)%nat) ->
  length (flat_map (fun i => flat_map (fun part => pick part i) parts) (seq 0 m)) = length (concat parts).
Proof.
  induction parts as [|part parts IH]; intros H.
  - simpl. induction (seq 0 m); simpl; auto.
  - cbn [flat_map concat]. rewrite length_flat_map_app, app_length, IH by (intros; apply H; right; assumption).
    rewrite pick_all by (apply H; left; reflexivity). reflexivity.
Qed.

Lemma rr_first_longest {A B} v (f : list A -> B) (seqs : list (list A)) tasks :
  seqs <> [] -> v <> Multiplexed 0 -> maxlen seqs <> 0 -> pf_tasks DistRR v seqs = Ok tasks ->
  forall part, In part (map (remote_map f) tasks) ->
              (length part <= length (hd [] (map (remote_map f) tasks)))%nat.
Proof.
  intros Hne Hv Hm Ht.
  destruct (maxlen_attained seqs Hne) as [s0 [Hs0 Hmax]].
      rewrite pf_tasks_eq in Ht by lia. injection Ht as <-.
      set (n := maxlen seqs) in *. set (np := nparts v n).
      assert (0 < np)%nat as Hnp by (apply nparts_pos; lia || assumption).
      assert (forall s, In s seqs -> (length s <= Z.to_nat n)%nat) as Hl.
      { intros s Hsx. pose proof (maxlen_ge seqs s Hsx) as Hg. fold n in Hg. lia. }
      rewrite map_filter_comm, map_map.
      set (keep := fun x : nat => negb (Nat.eqb (total_len (map (part_of DistRR np n x) seqs)) 0)).
      assert (forall p, (p < np)%nat -> dealt (py_zip seqs) np p (py_zip (map (part_of DistRR np n p) seqs))) as Hd.
      { intros p Hp. change (part_of DistRR np n p) with (fun s : list A => rr_part s np n p).
        apply zip_dealt; auto. }
      assert (keep 0%nat = true) as Hk0.
      { unfold keep. apply negb_true_iff, Nat.eqb_neq. intros Hz. apply total_len_zero in Hz.
        rewrite Forall_forall in Hz. specialize (Hz (part_of DistRR np n 0 s0)).
        rewrite in_map_iff in Hz. specialize (Hz (ex_intro _ s0 (conj eq_refl Hs0))).
        pose proof (rr_part_dealt s0 np n 0 Hnp (Hl s0 Hs0) 0%nat) as Hdd.
        cbn [part_of] in Hz. rewrite Hz in Hdd. unfold dealt_position in Hdd. simpl in Hdd.
        symmetry in Hdd. change (nth_error s0 0 = None) in Hdd. apply nth_error_None in Hdd. lia. }
      intros part Hpart. apply in_map_iff in Hpart as [p [<- Hp]].
      apply filter_In in Hp as [Hp _]. apply in_seq in Hp.
      assert (hd [] (map (fun x => remote_map f (map (part_of DistRR np n x) seqs)) (filter keep (seq 0 np)))
              = remote_map f (map (part_of DistRR np n 0) seqs)) as ->.
      { destruct np as [|np']; [lia|]. cbn [seq filter]. rewrite Hk0. reflexivity. }
      unfold remote_map. rewrite !map_length.
      set (p0 := py_zip (map (part_of DistRR np n 0) seqs)) in *.
      set (pp := py_zip (map (part_of DistRR np n p) seqs)) in *.
      destruct (Nat.le_gt_cases (length pp) (length p0)) as [|Hlt]; [assumption|exfalso].
      pose proof (Hd 0%nat Hnp (length p0)) as E0. fold p0 in E0.
      pose proof (Hd p ltac:(lia) (length p0)) as E1. fold pp in E1.
      assert (nth_error p0 (length p0) = None) as N0 by (apply nth_error_None; lia).
      assert (nth_error pp (length p0) <> None) as N1 by (apply nth_error_Some; lia).
      rewrite N0 in E0. symmetry in E0. apply nth_error_None in E0.
      rewrite E1 in N1. apply nth_error_Some in N1. unfold dealt_position in *. lia.
Qed.

(** [len(ar)] of a map result is the number of items [get()] returns. *)
Lemma map_len_counts {A B} d v (f : list A -> B) (seqs : list (list A)) tasks out :
  seqs <> [] -> v <> Multiplexed 0 -> maxlen seqs <> 0 ->
  pf_tasks d v seqs = Ok tasks -> parallel_map d v f seqs = Ok out ->
  sum (map min_len_arg tasks) = length out.
Proof.
  intros Hne Hv Hm Ht Ho.
  assert (sum (map min_len_arg tasks) = length (concat (map (remote_map f) tasks))) as Hs.
  { assert (Forall (fun args => args <> []) tasks) as Hf.
    { rewrite pf_tasks_eq in Ht by (destruct (maxlen_attained seqs Hne) as [? [? ->]]; lia).
      injection Ht as <-. apply Forall_forall. intros args Ha.
      apply filter_In in Ha as [Ha _]. apply in_map_iff in Ha as [p [<- _]].
      destruct seqs; [congruence|discriminate]. }
    clear -Hf. induction tasks as [|a tasks IH]; [reflexivity|]. simpl.
    rewrite app_length, <- IH by (inversion Hf; assumption).
    unfold remote_map. rewrite map_length, zip_length by (inversion Hf; assumption). reflexivity. }
  rewrite Hs. unfold parallel_map in Ho.
  destruct (maxlen seqs =? 0) eqn:E; [lia|]. rewrite Ht in Ho. cbn [bind] in Ho.
  destruct d; cbn [joinPartitions] in Ho.
  - unfold block_join in Ho. destruct (map (remote_map f) tasks); [discriminate|].
    injection Ho as <-. reflexivity.
  - pose proof (rr_first_longest v f seqs tasks Hne Hv Hm Ht) as Hle.
    unfold flatten_list in Ho.
    destruct (map (remote_map f) tasks) as [|p0 ps] eqn:Ep; [discriminate|].
    injection Ho as <-. symmetry. exact (flatten_length (p0 :: ps) (length p0) Hle).
Qed.

Lemma builtin_map_unique {A B} (f : list A -> B) seqs o1 o2 :
  builtin_map f seqs o1 -> builtin_map f seqs o2 -> o1 = o2.
Proof.
  intros [r1 [H1 ->]] [r2 [H2 ->]]. f_equal. apply nth_error_ext. intros i.
  destruct (nth_error r1 i) as [row|] eqn:E1.
  - apply H1, H2 in E1. symmetry; exact E1.
  - destruct (nth_error r2 i) as [row|] eqn:E2; [|reflexivity].
    apply H2, H1 in E2. congruence.
Qed.
