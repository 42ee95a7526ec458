From stdpp Require Import base gmap strings list.
From Verif Require Import Ns_Spec Ns_Model Ns_Proofs.
From Coq Require Import Lia.

Lemma split_unique {A} (q : A) x1 : forall x2 y1 y2, NoDup (x1 ++ q :: y1) -> x1 ++ q :: y1 = x2 ++ q :: y2 -> x1 = x2 /\ y1 = y2.
Proof.
  induction x1 as [|a x1 IH]; intros [|b x2] y1 y2 N E; cbn in *.
  - injection E as ->. auto.
  - injection E as <- ->. apply NoDup_cons in N as [N _]. exfalso. apply N, elem_of_app. right. left.
  - injection E as -> <-. apply NoDup_cons in N as [N _]. exfalso. apply N, elem_of_app. right. left.
  - injection E as <- E. apply NoDup_cons in N as [_ N]. destruct (IH _ _ _ N E) as [-> ->]. auto.
Qed.
Lemma split_at {A} (l : list A) : forall i x, l !! i = Some x -> exists a b, l = a ++ x :: b /\ length a = i.
Proof. intros i x H. exists (take i l), (drop (S i) l). rewrite take_drop_middle by exact H. split; [reflexivity|]. apply take_length_le. apply lookup_lt_Some in H. lia. Qed.

Section Engine.
Context (builtins : namespace) (fn : nat -> list val -> val + nat) (code : nat -> namespace -> namespace * reply).
Notation exec := (exec builtins fn code).
Notation step := (step builtins fn code).
Notation run := (run builtins fn code).
Notation after := (after builtins fn code).
Notation inv := (inv builtins fn code).
Notation seen_by := (seen_by builtins fn code).

Notation leaves := (leaves exec).

Lemma after_leaves x l : forall ns, (forall m, m ∈ l -> leaves (m_req m) x) -> after ns l !! x = ns !! x.
Proof. induction l as [|m l IH]; intros ns H; [reflexivity|]. cbn [Ns_Proofs.after foldl]. etransitivity; [apply IH; intros k K; apply H; right; exact K|]. apply (H m). left. Qed.

Lemma sent_nodup s : inv s -> NoDup (sent s).
Proof. intros V. apply NoDup_alt. intros i j m Hi Hj. rewrite <- (v_ids _ _ _ _ V _ _ Hi), <- (v_ids _ _ _ _ V _ _ Hj). reflexivity. Qed.
Lemma ran_nodup s : inv s -> NoDup (ran s).
Proof. intros V. pose proof (v_nodup _ _ _ _ V) as N. rewrite map_app in N. apply NoDup_app in N as [N _]. apply (NoDup_fmap_1 m_id). exact N. Qed.

Lemma reply_seen s i m r : inv s -> sent s !! i = Some m -> replies s !! i = Some r -> exists ns, seen_by s m ns /\ r = snd (exec (m_req m) ns).
Proof.
  intros V M R. apply (v_replies _ _ _ _ V) in R as (m' & l1 & l2 & I & E & ->). assert (X : m' ∈ sent s).
  { apply (v_sent _ _ _ _ V), elem_of_app. left. assert (Y : m' ∈ for_engine (m_engine m') (ran s)) by (rewrite E; apply elem_of_app; right; left). apply elem_of_list_filter in Y. apply Y. }
  apply elem_of_list_lookup in X as [k X]. pose proof (v_ids _ _ _ _ V _ _ X). assert (k = i) by congruence. subst k. assert (m' = m) by congruence. subst m'.
  exists (after ∅ l1). split; [exists l1, l2; auto|reflexivity].
Qed.
Lemma seen_reply s i m ns : inv s -> sent s !! i = Some m -> seen_by s m ns -> replies s !! i = Some (snd (exec (m_req m) ns)).
Proof.
  intros V M (l1 & l2 & E & ->). apply (v_replies _ _ _ _ V). exists m, l1, l2. split; [apply (v_ids _ _ _ _ V), M|]. auto.
Qed.
(** not on its way any more: executed *)
Lemma done_seen s i m : inv s -> sent s !! i = Some m -> m ∉ queued s -> exists ns, seen_by s m ns.
Proof.
  intros V M Q. assert (X : m ∈ ran s). { assert (Y : m ∈ ran s ++ queued s) by (apply (v_sent _ _ _ _ V), elem_of_list_lookup; eauto). apply elem_of_app in Y as [Y|Y]; [exact Y|contradiction]. }
  assert (Y : m ∈ for_engine (m_engine m) (ran s)) by (apply elem_of_list_filter; auto). apply elem_of_list_split in Y as (l1 & l2 & E). exists (after ∅ l1), l1, l2. auto.
Qed.

Lemma on_for e c l : on e c (for_engine e l) = on e c l.
Proof. unfold on, for_engine. induction l as [|m l IH]; [reflexivity|]. rewrite !filter_cons. destruct (decide (m_engine m = e)); [rewrite filter_cons; destruct (decide _); [f_equal|]; exact IH|].
  rewrite decide_False by tauto. exact IH. Qed.
Lemma on_mem e c l m : m ∈ on e c l <-> (m_engine m = e /\ m_chan m = c) /\ m ∈ l.
Proof. unfold on. rewrite elem_of_list_filter. reflexivity. Qed.
Lemma on_cons_t m l : on (m_engine m) (m_chan m) (m :: l) = m :: on (m_engine m) (m_chan m) l.
Proof. unfold on. rewrite filter_cons_True by auto. reflexivity. Qed.

(** The messages that the engine has executed before q on the same channel are those sent before *)
Lemma before_after s i q l1 l2 : inv s -> sent s !! i = Some q -> for_engine (m_engine q) (ran s) = l1 ++ q :: l2 ->
  on (m_engine q) (m_chan q) l1 = on (m_engine q) (m_chan q) (take i (sent s)) /\ (forall m, m ∈ on (m_engine q) (m_chan q) l2 -> m ∈ drop (S i) (sent s)).
Proof.
  intros V M E. set (e := m_engine q) in *. set (c := m_chan q) in *.
  pose proof (v_order _ _ _ _ V e c) as O. rewrite <- (on_for e c (ran s)), E in O. rewrite <- (take_drop_middle _ _ _ M) in O. rewrite !on_app in O. unfold e, c in O. rewrite !on_cons_t in O. fold e c in O.
  rewrite <- app_assoc in O. cbn [app] in O. assert (N : NoDup (on e c (take i (sent s)) ++ q :: on e c (drop (S i) (sent s)))).
  { unfold e, c. rewrite <- on_cons_t, <- on_app, take_drop_middle by exact M. apply NoDup_filter, sent_nodup, V. }
  apply split_unique in O as [O1 O2]; [|exact N]. split; [symmetry; exact O1|]. intros m Hm. assert (X : m ∈ on e c (drop (S i) (sent s))) by (rewrite O2; apply elem_of_app; left; exact Hm).
  apply on_mem in X. apply X.
Qed.

(** What a message left is what a later one on the same channel sees, if nothing in between or on other channels touches it *)
Lemma holds_at s i j p q x v ns : inv s -> sent s !! i = Some p -> sent s !! j = Some q -> i < j -> m_engine p = m_engine q -> m_chan p = m_chan q ->
  (forall ns, fst (exec (m_req p) ns) !! x = Some v) ->
  (forall k m, sent s !! k = Some m -> m_engine m = m_engine q -> k <> i -> k <> j -> (i < k < j \/ m_chan m <> m_chan q) -> leaves (m_req m) x) ->
  seen_by s q ns -> ns !! x = Some v.
Proof.
  intros V Mp Mq L Ee Ec Hp Hl (l1 & l2 & E & ->). destruct (before_after _ _ _ _ _ V Mq E) as [B _].
  assert (P : p ∈ l1). { assert (X : p ∈ on (m_engine q) (m_chan q) l1) by (rewrite B; apply on_mem; split; [auto|]; apply elem_of_list_lookup; exists i; rewrite lookup_take by lia; exact Mp). apply on_mem in X. apply X. }
  apply elem_of_list_split in P as (a & b & ->). rewrite after_app. unfold Ns_Proofs.after at 1. cbn [foldl]. fold (after (fst (exec (m_req p) (after ∅ a))) b). rewrite after_leaves; [apply Hp|].
  assert (Nr : NoDup ((a ++ p :: b) ++ q :: l2)) by (rewrite <- E; apply NoDup_filter, ran_nodup, V).
  rewrite <- app_assoc in E, Nr. cbn [app] in E, Nr. pose proof E as E'. rewrite <- Ee in E'. destruct (before_after _ _ _ _ _ V Mp E') as [_ B2].
  intros m Hm. assert (Sm : m ∈ sent s).
  { apply (v_sent _ _ _ _ V), elem_of_app. left. assert (X : m ∈ for_engine (m_engine q) (ran s)) by (rewrite E; apply elem_of_app; right; right; apply elem_of_app; auto). apply elem_of_list_filter in X. apply X. }
  assert (Em : m_engine m = m_engine q). { assert (X : m ∈ for_engine (m_engine q) (ran s)) by (rewrite E; apply elem_of_app; right; right; apply elem_of_app; auto). apply elem_of_list_filter in X. apply X. }
  apply elem_of_list_lookup in Sm as [k Sm]. apply NoDup_app in Nr as (_ & _ & Nr). apply NoDup_cons in Nr as [N1 N2].
  assert (k <> i) by (intros ->; rewrite Mp in Sm; injection Sm as <-; apply N1, elem_of_app; auto).
  assert (k <> j) by (intros ->; rewrite Mq in Sm; injection Sm as <-; apply NoDup_app in N2 as (_ & N2 & _); apply (N2 q Hm); left).
  apply (Hl k m); auto. destruct (decide (m_chan m = m_chan q)) as [Cm|]; [left|auto].
  assert (X : m ∈ on (m_engine q) (m_chan q) (take j (sent s))) by (rewrite <- B; apply on_mem; split; [auto|]; apply elem_of_app; right; right; exact Hm).
  apply on_mem in X as [_ X]. apply elem_of_list_lookup in X as [k' X]. apply lookup_take_Some in X as [X Lk]. assert (k' = k) by (eapply NoDup_lookup; [apply sent_nodup, V|exact X|exact Sm]). subst k'.
  assert (Y : m ∈ drop (S i) (sent s)) by (apply B2, on_mem; split; [split; congruence|]; apply elem_of_app; auto).
  apply elem_of_list_lookup in Y as [k' Y]. rewrite lookup_drop in Y. assert (S i + k' = k) by (eapply NoDup_lookup; [apply sent_nodup, V|exact Y|exact Sm]). lia.
Qed.
(** What a message leaves stays *)
Lemma stays s j q x o ns : inv s -> sent s !! j = Some q -> seen_by s q ns -> fst (exec (m_req q) ns) !! x = o ->
  (forall k m, sent s !! k = Some m -> m_engine m = m_engine q -> k <> j -> (j < k \/ m_chan m <> m_chan q) -> leaves (m_req m) x) ->
  spaces s (m_engine q) !! x = o.
Proof.
  intros V Mq (l1 & l2 & E & ->) Ho Hl. rewrite (v_spaces _ _ _ _ V), E, after_app. unfold Ns_Proofs.after at 1. cbn [foldl]. fold (after (fst (exec (m_req q) (after ∅ l1))) l2). rewrite after_leaves; [exact Ho|].
  destruct (before_after _ _ _ _ _ V Mq E) as [_ B2]. intros m Hm.
  assert (X : m ∈ for_engine (m_engine q) (ran s)) by (rewrite E; apply elem_of_app; right; right; exact Hm). apply elem_of_list_filter in X as [Em X].
  assert (Sm : m ∈ sent s) by (apply (v_sent _ _ _ _ V), elem_of_app; auto). apply elem_of_list_lookup in Sm as [k Sm].
  assert (Nr : NoDup (l1 ++ q :: l2)) by (rewrite <- E; apply NoDup_filter, ran_nodup, V). apply NoDup_app in Nr as (_ & _ & Nr). apply NoDup_cons in Nr as [Nr _].
  assert (k <> j) by (intros ->; rewrite Mq in Sm; injection Sm as <-; contradiction).
  apply (Hl k m); auto. destruct (decide (m_chan m = m_chan q)) as [Cm|]; [left|auto].
  assert (Y : m ∈ drop (S j) (sent s)) by (apply B2, on_mem; auto). apply elem_of_list_lookup in Y as [k' Y]. rewrite lookup_drop in Y.
  assert (S j + k' = k) by (eapply NoDup_lookup; [apply sent_nodup, V|exact Y|exact Sm]). lia.
Qed.

(** * The messages of a history *)
Definition as_msg (i : nat) (ev : event) : msg := match ev with Send e c r => Msg e c i r | _ => Msg 0 0 i (Code 0) end.
Lemma sent_run_aux h : forall s, sent (foldl step s h) = sent s ++ imap (fun i ev => as_msg (length (sent s) + i) ev) (sends h).
Proof.
  induction h as [|ev h IH]; intros s; [cbn; rewrite app_nil_r; reflexivity|]. cbn [foldl]. rewrite IH.
  destruct ev as [e c r|e c|e]; cbn [Ns_Model.step].
  - unfold sends at 2. rewrite filter_cons_True by exact I. fold (sends h). cbn [sent imap as_msg]. rewrite <- app_assoc. cbn [app]. f_equal. f_equal; [rewrite Nat.add_0_r; reflexivity|].
    apply imap_ext. intros i x _. cbn. rewrite app_length. cbn. f_equal. lia.
  - unfold sends at 2. rewrite filter_cons_False by (intros []). fold (sends h). destruct (decide _); [reflexivity|]. destruct (first_for _ _ _) as [[m q]|]; [|reflexivity]. destruct (exec _ _). reflexivity.
  - unfold sends at 2. rewrite filter_cons_False by (intros []). reflexivity.
Qed.
Lemma sent_run h i m : sent (run h) !! i = Some m <-> exists e c r, sends h !! i = Some (Send e c r) /\ m = Msg e c i r.
Proof.
  unfold Ns_Model.run. rewrite sent_run_aux. cbn [sent start app length]. rewrite list_lookup_imap. split.
  - destruct (sends h !! i) as [ev|] eqn:E; [|discriminate]. cbn. intros [= <-]. assert (X : ev ∈ sends h) by (apply elem_of_list_lookup; eauto). apply elem_of_list_filter in X as [X _].
    destruct ev as [e c r| |]; cbn in X; try contradiction. exists e, c, r. auto.
  - intros (e & c & r & -> & ->). reflexivity.
Qed.

Lemma push1_sets k v : identifier k = true -> ~ is_tmp k -> forall ns, fst (exec (Push [(k, v)]) ns) !! k = Some v.
Proof. intros I T ns. apply push_value; [exact T|apply NoDup_singleton| |left]. intros k' v' X. apply elem_of_list_singleton in X. injection X as -> ->. exact I. Qed.
Lemma push1_leaves k v x : x <> k -> leaves (Push [(k, v)]) x.
Proof. intros N ns. apply push_other. intros v' X. apply elem_of_list_singleton in X. congruence. Qed.
Lemma pull_leaves k x : leaves (Pull k) x.
Proof. intros ns. reflexivity. Qed.

(** * Results of several messages *)
Lemma collect_all s ids vs : Forall2 (fun i v => replies s !! i = Some (RVal v)) ids vs -> collect s ids = Some (inl vs).
Proof. induction 1 as [|i v ids vs H _ IH]; [reflexivity|]. cbn [collect]. rewrite H, IH. reflexivity. Qed.
Lemma collect_some s ids out : collect s ids = Some out -> forall i, i ∈ ids -> is_Some (replies s !! i).
Proof.
  revert out. induction ids as [|k ids IH]; intros out H i Hi; [inversion Hi|]. cbn [collect] in H.
  destruct (replies s !! k) as [r|] eqn:R; [|discriminate]. destruct (collect s ids) as [o|] eqn:C; [|destruct r; discriminate].
  apply elem_of_cons in Hi as [->|Hi]; [eauto|]. exact (IH o eq_refl i Hi).
Qed.
Lemma collect_is_some s ids : (forall i, i ∈ ids -> is_Some (replies s !! i)) -> is_Some (collect s ids).
Proof.
  induction ids as [|k ids IH]; intros H; [eauto|]. cbn [collect]. destruct (H k) as [r ->]; [left|]. destruct IH as [o ->]; [intros i Hi; apply H; right; exact Hi|].
  destruct r; [destruct o|]; eauto.
Qed.
Lemma collect_err s ids out : collect s ids = Some out ->
  match out with inl vs => Forall2 (fun i v => replies s !! i = Some (RVal v)) ids vs | inr p => exists i, i ∈ ids /\ replies s !! i = Some (RErr p) end.
Proof.
  revert out. induction ids as [|k ids IH]; intros out H; cbn [collect] in H; [injection H as <-; constructor|].
  destruct (replies s !! k) as [r|] eqn:R; [|discriminate]. destruct (collect s ids) as [o|] eqn:C; [|destruct r; discriminate]. specialize (IH o eq_refl).
  destruct r as [v|p].
  - destruct o as [vs|p]; injection H as <-; [constructor; auto|]. destruct IH as (i & Hi & E). exists i. split; [right; exact Hi|exact E].
  - injection H as <-. exists k. split; [left|exact R].
Qed.
End Engine.
