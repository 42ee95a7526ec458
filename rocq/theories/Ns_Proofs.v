From stdpp Require Import base gmap strings list.
From Verif Require Import Ns_Spec Ns_Model.
From Verif Require Map_Model Prelude Map_Spec Map_Proofs.
From Coq Require Import ZArith Lia.

(** * Temporary names *)
Lemma underscores_inj k : forall k', underscores k = underscores k' -> k = k'.
Proof. induction k as [|k IH]; intros [|k']; cbn; try discriminate; [reflexivity|]. intros [= H]. f_equal. apply IH, H. Qed.
Lemma tmp_inj k k' : tmp_name k = tmp_name k' -> k = k'.
Proof. intros H. apply underscores_inj. unfold tmp_name in H. apply (inj (String.append "_IP_PUSH_TMP_")) in H. exact H. Qed.
Lemma fresh_ok (ns : namespace) : ns !! fresh_tmp ns = None /\ exists k, fresh_tmp ns = tmp_name k.
Proof.
  unfold fresh_tmp. set (L := map tmp_name (seq 0 (S (size ns)))). destruct (filter (fun x => ns !! x = None) L) as [|x l] eqn:E.
  - exfalso. assert (A : forall x, x ∈ L -> x ∈ dom ns).
    { intros x X. apply elem_of_dom. destruct (ns !! x) eqn:N; [eauto|]. assert (Y : x ∈ filter (fun x => ns !! x = None) L) by (apply elem_of_list_filter; auto). rewrite E in Y. inversion Y. }
    assert (N : NoDup L).
    { unfold L. apply NoDup_fmap_2_strong; [intros a b _ _; apply tmp_inj|apply NoDup_ListNoDup, seq_NoDup]. }
    assert (S : length L <= size (dom ns)).
    { rewrite <- (size_list_to_set (C := gset string) L N). apply subseteq_size. intros x X. apply elem_of_list_to_set in X. auto. }
    rewrite size_dom in S. unfold L in S. rewrite map_length, seq_length in S. lia.
  - cbn. assert (X : x ∈ filter (fun x => ns !! x = None) L) by (rewrite E; left). apply elem_of_list_filter in X as [X Y]. split; [exact X|].
    unfold L in Y. apply elem_of_list_fmap in Y as (k & -> & _). eauto.
Qed.

(** * push *)
Lemma push_all_ok tmp kvs : forall ns, (forall k v, (k, v) ∈ kvs -> identifier k = true) ->
  snd (push_all tmp ns kvs) = RVal VNone.
Proof. induction kvs as [|[k v] kvs IH]; intros ns H; [reflexivity|]. cbn [push_all]. rewrite (H k v) by left. apply IH. intros k' v' X. apply (H k' v'). right. exact X. Qed.
Lemma push_all_other tmp kvs x : forall ns, x <> tmp -> (forall v, (x, v) ∉ kvs) -> fst (push_all tmp ns kvs) !! x = ns !! x.
Proof.
  induction kvs as [|[k v] kvs IH]; intros ns Ht H; [reflexivity|]. cbn [push_all].
  assert (Hk : x <> k) by (intros ->; apply (H v); left). destruct (identifier k).
  - rewrite IH; [|exact Ht|intros v' X; apply (H v'); right; exact X]. rewrite !lookup_insert_ne by congruence. reflexivity.
  - cbn [fst]. rewrite lookup_insert_ne by congruence. reflexivity.
Qed.
Lemma push_all_value tmp kvs x v : forall ns, x <> tmp -> NoDup kvs.*1 -> (forall k v, (k, v) ∈ kvs -> identifier k = true) -> (x, v) ∈ kvs ->
  fst (push_all tmp ns kvs) !! x = Some v.
Proof.
  induction kvs as [|[k w] kvs IH]; intros ns Ht N H X; [inversion X|]. cbn [push_all]. rewrite (H k w) by left. cbn in N. apply NoDup_cons in N as [N1 N2].
  apply elem_of_cons in X as [X|X].
  - injection X as -> ->. rewrite push_all_other; [|exact Ht|intros v' Y; apply N1, elem_of_list_fmap; exists (k, v'); auto]. rewrite lookup_insert, lookup_insert. reflexivity.
  - apply IH; auto. intros k' v' Y. apply (H k' v'). right. exact Y.
Qed.
Definition is_tmp (x : string) : Prop := exists k, x = tmp_name k.
Lemma push_other ns kvs x : (forall v, (x, v) ∉ kvs) -> fst (do_push ns kvs) !! x = ns !! x.
Proof.
  intros H. unfold do_push. destruct (fresh_ok ns) as [F _]. destruct (push_all (fresh_tmp ns) ns kvs) as [ns' r] eqn:E. cbn [fst]. destruct (decide (x = fresh_tmp ns)) as [->|N].
  - rewrite lookup_delete. congruence.
  - rewrite lookup_delete_ne by congruence. pose proof (push_all_other (fresh_tmp ns) kvs x ns N H) as X. rewrite E in X. exact X.
Qed.
Lemma push_value ns kvs x v : ~ is_tmp x -> NoDup kvs.*1 -> (forall k v, (k, v) ∈ kvs -> identifier k = true) -> (x, v) ∈ kvs -> fst (do_push ns kvs) !! x = Some v.
Proof.
  intros Ht N H X. unfold do_push. destruct (fresh_ok ns) as [F [j Fj]]. assert (Hx : x <> fresh_tmp ns) by (intros ->; apply Ht; exists j; exact Fj).
  pose proof (push_all_value (fresh_tmp ns) kvs x v ns Hx N H X) as Y. destruct (push_all (fresh_tmp ns) ns kvs) as [ns' r]. cbn [fst] in *. rewrite lookup_delete_ne by congruence. exact Y.
Qed.
Lemma push_reply ns kvs : (forall k v, (k, v) ∈ kvs -> identifier k = true) -> snd (do_push ns kvs) = RVal VNone.
Proof. intros H. unfold do_push. pose proof (push_all_ok (fresh_tmp ns) kvs ns H) as X. destruct (push_all _ _ _). exact X. Qed.

Section Engine.
Context (builtins : namespace) (fn : nat -> list val -> val + nat) (code : nat -> namespace -> namespace * reply).
Notation exec := (exec builtins fn code).
Notation step := (step builtins fn code).
Notation run := (run builtins fn code).

(** * One engine after the other request *)
Definition after (ns : namespace) (l : list msg) : namespace := foldl (fun ns m => fst (exec (m_req m) ns)) ns l.
Definition for_engine (e : nat) (l : list msg) : list msg := filter (fun m => m_engine m = e) l.
Definition on (e c : nat) (l : list msg) : list msg := filter (fun m => m_engine m = e /\ m_chan m = c) l.
(** the namespace of engine e in which m was executed *)
Definition seen_by (s : state) (m : msg) (ns : namespace) : Prop := exists l1 l2, for_engine (m_engine m) (ran s) = l1 ++ m :: l2 /\ ns = after ∅ l1.

Record inv (s : state) : Prop := Inv {
  v_ids : forall i m, sent s !! i = Some m -> m_id m = i;
  v_order : forall e c, on e c (sent s) = on e c (ran s) ++ on e c (queued s);
  v_spaces : forall e, spaces s e = after ∅ (for_engine e (ran s));
  v_replies : forall i r, replies s !! i = Some r <-> exists m l1 l2, m_id m = i /\ for_engine (m_engine m) (ran s) = l1 ++ m :: l2 /\ r = snd (exec (m_req m) (after ∅ l1));
  v_nodup : NoDup (map m_id (ran s ++ queued s));
  v_sent : forall m, m ∈ ran s ++ queued s <-> m ∈ sent s }.

Lemma on_app e c l k : on e c (l ++ k) = on e c l ++ on e c k.
Proof. apply filter_app. Qed.
Lemma for_app e l k : for_engine e (l ++ k) = for_engine e l ++ for_engine e k.
Proof. apply filter_app. Qed.
Lemma after_app ns l k : after ns (l ++ k) = after (after ns l) k.
Proof. unfold after. rewrite foldl_app. reflexivity. Qed.

Lemma first_for_ok e c l : forall m q, first_for e c l = Some (m, q) -> exists l1 l2, l = l1 ++ m :: l2 /\ q = l1 ++ l2 /\ m_engine m = e /\ m_chan m = c /\ on e c l1 = [].
Proof.
  induction l as [|x l IH]; intros m q; cbn [first_for]; [discriminate|]. destruct (decide _) as [[A B]|N].
  - intros [= <- <-]. exists [], l. repeat split; auto.
  - destruct (first_for e c l) as [[y l']|]; [|discriminate]. intros [= <- <-]. destruct (IH _ _ eq_refl) as (l1 & l2 & -> & -> & A & B & C). exists (x :: l1), l2. repeat split; auto.
    unfold on. rewrite filter_cons_False by exact N. exact C.
Qed.
Lemma inv_start : inv start.
Proof.
  split.
  - intros i m H. discriminate.
  - reflexivity.
  - reflexivity.
  - intros i r. cbn. rewrite lookup_empty. split; [discriminate|]. intros (m & l1 & l2 & _ & H & _). destruct l1; discriminate.
  - constructor.
  - intros m. cbn. reflexivity.
Qed.
Lemma inv_step s ev : inv s -> inv (step s ev).
Proof.
  intros [A B C D E F]. destruct ev as [e c r|e c|e]; cbn [step].
  - split; cbn [sent queued ran spaces replies gone]; auto.
    + intros i m H. apply lookup_app_Some in H as [H|[H1 H2]]; [auto|]. apply list_lookup_singleton_Some in H2 as [H2 <-]. cbn. lia.
    + intros e' c'. rewrite !on_app, B, app_assoc. reflexivity.
    + rewrite app_assoc, map_app. apply NoDup_app. split; [exact E|]. split; [|apply NoDup_singleton]. intros x X Y. cbn in Y. apply elem_of_list_singleton in Y as ->.
      apply elem_of_list_fmap in X as (m & X1 & X2). apply F, elem_of_list_lookup in X2 as [i X2]. pose proof (A _ _ X2). apply lookup_lt_Some in X2. lia.
    + intros m. rewrite app_assoc, !(elem_of_app _ [_]), F. reflexivity.
  - destruct (decide (e ∈ gone s)); [split; auto|]. destruct (first_for e c (queued s)) as [[m q]|] eqn:Q; [|split; auto].
    destruct (exec (m_req m) (spaces s e)) as [ns r] eqn:X. apply first_for_ok in Q as (l1 & l2 & Q & -> & Em & Cm & O).
    assert (P : ran s ++ queued s ≡ₚ (ran s ++ [m]) ++ l1 ++ l2) by (rewrite Q; solve_Permutation).
    assert (Fm : m ∉ ran s).
    { intros Y. rewrite Q, map_app in E. apply NoDup_app in E as (_ & E & _). apply (E (m_id m)); [apply elem_of_list_fmap; eauto|]. rewrite map_app. apply elem_of_app. right. left. }
    split; cbn [sent queued ran spaces replies gone]; auto.
    + intros e' c'. rewrite B, Q, !on_app, <- app_assoc. f_equal. unfold on at 2. destruct (decide (e' = e /\ c' = c)) as [[-> ->]|N].
      * rewrite O. cbn [app]. rewrite filter_cons_True by auto. unfold on. rewrite (filter_cons_True _ m []) by auto. reflexivity.
      * rewrite filter_cons_False by (intros [? ?]; apply N; split; congruence). unfold on. rewrite (filter_cons_False _ m []) by (intros [? ?]; apply N; split; congruence). reflexivity.
    + intros e'. rewrite for_app, after_app. unfold for_engine at 2. destruct (decide (e' = e)) as [->|N].
      * rewrite filter_cons_True by exact Em. cbn [after foldl]. rewrite <- C, X. reflexivity.
      * rewrite filter_cons_False by congruence. cbn [after foldl]. apply C.
    + intros i r'. rewrite lookup_insert_Some, D. split.
      * intros [[<- <-]|[Ne (m' & k1 & k2 & H1 & H2 & H3)]].
        -- exists m, (for_engine e (ran s)), []. rewrite Em, for_app. split; [reflexivity|]. split; [unfold for_engine at 2; rewrite filter_cons_True by exact Em; reflexivity|]. rewrite <- C, X. reflexivity.
        -- exists m', k1, (k2 ++ for_engine (m_engine m') [m]). rewrite for_app, H2, <- app_assoc. repeat split; auto.
      * intros (m' & k1 & k2 & H1 & H2 & H3). rewrite for_app in H2. destruct (decide (m_engine m' = e)) as [E'|N].
        -- unfold for_engine at 2 in H2. rewrite filter_cons_True in H2 by congruence. cbn [filter list_filter] in H2. rewrite E' in H2. destruct k2 as [|y k2 _] using rev_ind.
           ++ apply app_inj_tail in H2 as [H2 <-]. left. split; [exact H1|]. rewrite H3, <- H2, <- C, X. reflexivity.
           ++ right. rewrite app_comm_cons, app_assoc in H2. apply app_inj_tail in H2 as [H2 ->]. assert (Hr : m' ∈ ran s).
              { assert (Z : m' ∈ for_engine e (ran s)) by (rewrite H2; apply elem_of_app; right; left). apply elem_of_list_filter in Z. apply Z. }
              split.
              ** intros Y. rewrite Q, map_app in E. apply NoDup_app in E as (_ & E & _). apply (E (m_id m')); [apply elem_of_list_fmap; eauto|]. rewrite map_app, H1, <- Y. apply elem_of_app. right. left.
              ** exists m', k1, k2. rewrite E'. auto.
        -- unfold for_engine at 2 in H2. rewrite filter_cons_False in H2 by congruence. cbn [filter list_filter] in H2. rewrite app_nil_r in H2. right.
           assert (Hr : m' ∈ ran s). { assert (Z : m' ∈ for_engine (m_engine m') (ran s)) by (rewrite H2; apply elem_of_app; right; left). apply elem_of_list_filter in Z. apply Z. }
           split.
           ++ intros Y. rewrite Q, map_app in E. apply NoDup_app in E as (_ & E & _). apply (E (m_id m')); [apply elem_of_list_fmap; eauto|]. rewrite map_app, H1, <- Y. apply elem_of_app. right. left.
           ++ exists m', k1, k2. auto.
    + rewrite <- P. exact E.
    + intros m'. rewrite <- F, P. reflexivity.
  - split; auto.
Qed.
Lemma inv_run l : inv (run l).
Proof. unfold run. generalize inv_start. generalize start. induction l as [|e l IH]; intros s H; [exact H|]. cbn [foldl]. apply IH, inv_step, H. Qed.
End Engine.
