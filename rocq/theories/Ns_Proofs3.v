From stdpp Require Import base gmap strings list.
From Verif Require Import Ns_Spec Ns_Model Ns_Proofs Ns_Proofs2.
From Verif Require Map_Model Prelude Map_Spec Map_Proofs.
From Coq Require Import Lia ZArith.

(** * Partitions *)
Lemma traverse_inv {A B} (f : A -> Prelude.res B) l : forall r, Prelude.traverse f l = Prelude.Ok r -> Forall2 (fun x y => f x = Prelude.Ok y) l r.
Proof.
  induction l as [|x l IH]; intros r H; cbn [Prelude.traverse] in H; [injection H as <-; constructor|].
  destruct (f x) as [y|] eqn:F; cbn [Prelude.bind] in H; [|discriminate]. destruct (Prelude.traverse f l) as [ys|] eqn:T; cbn [Prelude.bind] in H; [|discriminate]. injection H as <-. constructor; auto.
Qed.
Lemma scatter_gather_parts {A} d (l : list A) q : 0 < q -> exists parts, Map_Model.scatter_parts d l q = Prelude.Ok parts /\ length parts = q /\ Map_Model.joinPartitions d parts = Prelude.Ok l.
Proof.
  intros Q. destruct d.
  - destruct (Map_Proofs.block_scatter_gather l q Q) as (parts & A1 & A2 & _ & A3). exists parts. auto.
  - destruct (Map_Proofs.rr_scatter_gather l q Q) as (parts & A1 & A2 & _ & A3). exists parts. auto.
Qed.
Lemma parts_at {A} d (l : list A) q parts i p : Map_Model.scatter_parts d l q = Prelude.Ok parts -> parts !! i = Some p ->
  Map_Model.getPartition d l (Z.of_nat i) (Z.of_nat q) (Z.of_nat (length l)) = Prelude.Ok p.
Proof.
  intros H P. apply traverse_inv in H. destruct (Forall2_lookup_r _ _ _ _ _ H P) as (x & X & E). apply lookup_seq in X as [X _]. cbn in X. subst x. exact E.
Qed.
Definition pushes (c : nat) (key : string) (targets : list nat) (vs : list val) : list event := zip_with (fun e v => Send e c (Push [(key, v)])) targets vs.
Lemma scatter_from_eq d fl key k l c q parts : Map_Model.scatter_parts d l q = Prelude.Ok parts -> length parts = q -> forall ts i, i + length ts = q ->
  scatter_from d fl key (VSeq k l) c q i ts = Some (pushes c key ts (map (fun p => flattened fl (VSeq k p)) (drop i parts))).
Proof.
  intros H L. induction ts as [|e ts IH]; intros i E; [reflexivity|]. cbn [scatter_from slice]. cbn [length] in E. destruct (parts !! i) as [p|] eqn:P; [|apply lookup_ge_None in P; lia].
  rewrite (parts_at _ _ _ _ _ _ H P), IH by lia. rewrite (drop_S _ _ _ P). reflexivity.
Qed.
Lemma scatter_eq d fl key k l c ts : 0 < length ts -> exists parts, Map_Model.scatter_parts d l (length ts) = Prelude.Ok parts /\ length parts = length ts /\ Map_Model.joinPartitions d parts = Prelude.Ok l /\
  scatter d fl key (VSeq k l) c ts = Some (pushes c key ts (map (fun p => flattened fl (VSeq k p)) parts)).
Proof.
  intros Q. destruct (scatter_gather_parts d l (length ts) Q) as (parts & A & B & C). exists parts. repeat split; auto. unfold scatter. rewrite (scatter_from_eq d fl key k l c _ parts A B ts 0 eq_refl). reflexivity.
Qed.
Lemma pushes_length c key ts vs : length vs = length ts -> length (pushes c key ts vs) = length ts.
Proof. intros L. unfold pushes. rewrite zip_with_length. lia. Qed.
Lemma pushes_at c key ts vs i ev : pushes c key ts vs !! i = Some ev <-> exists e v, ts !! i = Some e /\ vs !! i = Some v /\ ev = Send e c (Push [(key, v)]).
Proof. unfold pushes. rewrite lookup_zip_with_Some. split; [intros (e & v & -> & A & B); eauto|intros (e & v & A & B & ->); eauto]. Qed.
Lemma to_all_at ts c r i ev : to_all ts c r !! i = Some ev <-> exists e, ts !! i = Some e /\ ev = Send e c r.
Proof. unfold to_all. rewrite list_lookup_fmap_Some. split; intros (e & A & B); exists e; split; auto. Qed.
Lemma to_all_length ts c r : length (to_all ts c r) = length ts.
Proof. apply map_length. Qed.

Section Engine.
Context (builtins : namespace) (fn : nat -> list val -> val + nat) (code : nat -> namespace -> namespace * reply).
Notation exec := (exec builtins fn code).
Notation run := (run builtins fn code).
Notation leaves := (leaves exec).
Notation seen_by := (seen_by builtins fn code).

(** pushes to several engines, then pulls from them *)
Lemma pushed_pulled h c key ts vs A B C j e v r : sends h = A ++ pushes c key ts vs ++ B ++ gather key c ts ++ C -> NoDup ts -> length vs = length ts -> identifier key = true -> ~ is_tmp key ->
  (forall e c' r, Send e c' r ∈ B -> e ∈ ts -> leaves r key) -> (forall e c' r, Send e c' r ∈ A ++ C -> e ∈ ts -> c' <> c -> leaves r key) ->
  ts !! j = Some e -> vs !! j = Some v -> replies (run h) !! (length (A ++ pushes c key ts vs ++ B) + j) = Some r -> r = RVal v.
Proof.
  intros H N L I T HB HAC J Jv R. set (P := pushes c key ts vs) in *. assert (LP : length P = length ts) by (apply pushes_length, L).
  assert (Jl : j < length ts) by (apply lookup_lt_Some in J; exact J).
  assert (S1 : sent (run h) !! (length (A ++ P ++ B) + j) = Some (Msg e c (length (A ++ P ++ B) + j) (Pull key))).
  { apply sent_run. exists e, c, (Pull key). split; [|reflexivity]. rewrite H. replace (A ++ P ++ B ++ gather key c ts ++ C) with ((A ++ P ++ B) ++ gather key c ts ++ C) by (rewrite <- !app_assoc; reflexivity).
    rewrite lookup_app_r by lia. replace (_ - _) with j by lia. apply lookup_app_l_Some. apply to_all_at. eauto. }
  assert (S2 : sent (run h) !! (length A + j) = Some (Msg e c (length A + j) (Push [(key, v)]))).
  { apply sent_run. exists e, c, (Push [(key, v)]). split; [|reflexivity]. rewrite H, lookup_app_r by lia. replace (_ - _) with j by lia. apply lookup_app_l_Some. apply pushes_at. eauto. }
  pose proof (inv_run builtins fn code h) as V. destruct (reply_seen _ _ _ _ _ _ _ V S1 R) as (ns & Sn & ->).
  assert (X : ns !! key = Some v).
  { eapply (holds_at _ _ _ _ (length A + j) (length (A ++ P ++ B) + j)); [exact V|exact S2|exact S1|rewrite !app_length; lia|reflexivity|reflexivity| | |exact Sn]; cbn [m_req m_engine m_chan].
    - apply push1_sets; assumption.
    - intros k m M Em K1 K2 W. apply sent_run in M as (e' & c' & r' & M & ->). cbn [m_req m_engine m_chan] in *. subst e'. assert (Et : e ∈ ts) by (apply elem_of_list_lookup; eauto).
      rewrite H in M. rewrite !app_length in K2, W.
      apply lookup_app_Some in M as [M|[Z1 M]].
      { pose proof (lookup_lt_Some _ _ _ M). apply (HAC e c' r'); [apply elem_of_app; left; apply elem_of_list_lookup; eauto|exact Et|]. destruct W as [W|W]; [lia|exact W]. }
      apply lookup_app_Some in M as [M|[Z2 M]].
      { apply pushes_at in M as (e2 & v2 & M1 & _ & M2). assert (e2 = e) by congruence; subst e2; exfalso. assert (k - length A = j) by (eapply NoDup_lookup; eauto). lia. }
      apply lookup_app_Some in M as [M|[Z3 M]].
      { apply (HB e c' r'); [apply elem_of_list_lookup; eauto|exact Et]. }
      apply lookup_app_Some in M as [M|[Z4 M]].
      { apply to_all_at in M as (e2 & M1 & M2). assert (r' = Pull key) by congruence; subst r'; apply pull_leaves. }
      apply (HAC e c' r'); [apply elem_of_app; right; apply elem_of_list_lookup; eauto|exact Et|]. unfold gather in Z4. rewrite to_all_length in Z4. destruct W as [W|W]; [lia|exact W]. }
  cbn [m_req Ns_Model.exec snd eval]. unfold eval. rewrite I, X. reflexivity.
Qed.

(** gather's result from its replies *)
Lemma gathered_parts d s ids vs : (forall out, gathered d s ids = Some out -> forall j i v r, ids !! j = Some i -> vs !! j = Some v -> replies s !! i = Some r -> r = RVal v) -> length vs = length ids ->
  forall out, gathered d s ids = Some out -> out = match join d vs with Some v => inl v | None => inr TypeErr end.
Proof.
  intros H L out G. specialize (H out G). unfold gathered in G. destruct (collect s ids) as [o|] eqn:C; [|discriminate].
  assert (F : Forall2 (fun i v => replies s !! i = Some (RVal v)) ids vs).
  { apply Forall2_same_length_lookup_2; [symmetry; exact L|]. intros j i v Hi Hv. destruct (collect_some _ _ _ C i) as [r R]; [apply elem_of_list_lookup; eauto|]. rewrite R. f_equal. eapply H; eauto. }
  rewrite (collect_all _ _ _ F) in C. injection C as <-. destruct (join d vs); injection G as <-; reflexivity.
Qed.
Definition ids_from (n len : nat) : list nat := seq n len.
Lemma pushed_gathered h c key ts vs A B C d out : sends h = A ++ pushes c key ts vs ++ B ++ gather key c ts ++ C -> NoDup ts -> length vs = length ts -> identifier key = true -> ~ is_tmp key ->
  (forall e c' r, Send e c' r ∈ B -> e ∈ ts -> leaves r key) -> (forall e c' r, Send e c' r ∈ A ++ C -> e ∈ ts -> c' <> c -> leaves r key) ->
  gathered d (run h) (seq (length (A ++ pushes c key ts vs ++ B)) (length ts)) = Some out -> out = match join d vs with Some v => inl v | None => inr TypeErr end.
Proof.
  intros H N L I T HB HAC. apply gathered_parts; [|rewrite seq_length; exact L]. intros _ _ j i v r J Jv R. apply lookup_seq in J as [-> J].
  destruct (lookup_lt_is_Some_2 ts j J) as [e E]. eapply pushed_pulled; eauto.
Qed.
(** the result is there when all pulls have been executed *)
Lemma gathered_done h d n len : (forall i m, n <= i < n + len -> sent (run h) !! i = Some m -> m ∉ queued (run h)) -> n + len <= length (sends h) -> is_Some (gathered d (run h) (seq n len)).
Proof.
  intros H L. assert (X : is_Some (collect (run h) (seq n len))).
  { apply collect_is_some. intros i Hi. apply elem_of_seq in Hi. destruct (lookup_lt_is_Some_2 (sends h) i) as [ev E]; [lia|].
    assert (Z : ev ∈ sends h) by (apply elem_of_list_lookup; eauto). apply elem_of_list_filter in Z as [Z _]. destruct ev as [e c r| |]; cbn in Z; try contradiction.
    assert (M : sent (run h) !! i = Some (Msg e c i r)) by (apply sent_run; eauto). pose proof (inv_run builtins fn code h) as V.
    destruct (done_seen _ _ _ _ _ _ V M) as [ns Sn]; [apply (H i); [lia|exact M]|]. rewrite (seen_reply _ _ _ _ _ _ _ V M Sn). eauto. }
  destruct X as [o X]. unfold gathered. rewrite X. destruct o as [vs|p]; [destruct (join d vs)|]; eauto.
Qed.

(** * scatter and gather *)
Lemma mapM_items k parts : mapM items_of (map (VSeq k) parts) = Some parts.
Proof. induction parts as [|p parts IH]; [reflexivity|]. cbn. change (mapM items_of (map (VSeq k) parts)) with (mapM items_of (map (VSeq k) parts)) in IH. rewrite IH. reflexivity. Qed.
Lemma join_seq d k parts l : k = KList \/ k = KTuple -> parts <> [] -> Map_Model.joinPartitions d parts = Prelude.Ok l -> join d (map (VSeq k) parts) = Some (VSeq KList l).
Proof.
  intros K N J. destruct parts as [|p parts]; [contradiction|]. unfold join. cbn [map]. change (VSeq k p :: map (VSeq k) parts) with (map (VSeq k) (p :: parts)). rewrite mapM_items, J.
  destruct K as [-> | ->]; reflexivity.
Qed.
Lemma scatter_gather_ok h d key k l c ts A B C ev out : k = KList \/ k = KTuple -> ts <> [] -> NoDup ts -> identifier key = true -> ~ is_tmp key ->
  scatter d false key (VSeq k l) c ts = Some ev -> sends h = A ++ ev ++ B ++ gather key c ts ++ C ->
  (forall e c' r, Send e c' r ∈ B -> e ∈ ts -> leaves r key) -> (forall e c' r, Send e c' r ∈ A ++ C -> e ∈ ts -> c' <> c -> leaves r key) ->
  gathered d (run h) (seq (length (A ++ ev ++ B)) (length ts)) = Some out -> out = inl (VSeq KList l).
Proof.
  intros K Nt N I T Ev H HB HAC G. destruct (scatter_eq d false key k l c ts) as (parts & P1 & P2 & P3 & P4); [destruct ts; [contradiction|cbn; lia]|].
  assert (M : map (fun p => flattened false (VSeq k p)) parts = map (VSeq k) parts).
  { apply map_ext. intros p. unfold flattened. destruct p as [|x [|]]; reflexivity. }
  rewrite M, Ev in P4. injection P4 as ->. rewrite (pushed_gathered h c key ts (map (VSeq k) parts) A B C d out H N); auto; [|rewrite map_length; exact P2]. rewrite (join_seq d k parts l); auto. intros ->. cbn in P2. destruct ts; [contradiction|discriminate].
Qed.
End Engine.
