(** Symbolic execution for the scheduler monad, frame lemmas, reachability. *)
From stdpp Require Import base gmap sets list.
From Verif Require Import Dependency_Model Dependency_Spec Dependency_Proofs Sched_Trace Sched_Spec Sched_Model.
From Verif Require Prelude.
From Coq Require Import ZArith.

(** [wp m Q E s]: from [s], if [m] returns the result satisfies [Q], if it raises the state
    satisfies [E]. *)
Definition wp {A} (m : M A) (Q : A -> sched -> Prop) (E : sched -> Prop) (s : sched) : Prop :=
  match m s with Ret s' a => Q a s' | Exc s' => E s' | OutOfFuel => True end.

Lemma wp_bind {A B} (m : M A) (k : A -> M B) Q E s :
  wp m (fun a s' => wp (k a) Q E s') E s -> wp (seq_ m k) Q E s.
Proof. unfold wp, seq_. destruct (m s); auto. Qed.

Lemma wp_bind_inv {A B} (m : M A) (k : A -> M B) Q E s :
  wp (seq_ m k) Q E s -> wp m (fun a s' => wp (k a) Q E s') E s.
Proof. unfold wp, seq_. destruct (m s); auto. Qed.

Lemma wp_mono {A} (m : M A) (Q Q' : A -> sched -> Prop) (E E' : sched -> Prop) s :
  wp m Q E s -> (forall a s', Q a s' -> Q' a s') -> (forall s', E s' -> E' s') -> wp m Q' E' s.
Proof. unfold wp. destruct (m s); auto. Qed.

Lemma wp_ret {A} (a : A) (Q : A -> sched -> Prop) E s : Q a s -> wp (ret a) Q E s.
Proof. auto. Qed.
Lemma wp_raise {A} (Q : A -> sched -> Prop) (E : sched -> Prop) s : E s -> wp raise Q E s.
Proof. auto. Qed.
Lemma wp_get {A} (f : sched -> A) (Q : A -> sched -> Prop) E s : Q (f s) s -> wp (get f) Q E s.
Proof. auto. Qed.
Lemma wp_upd (f : sched -> sched) (Q : unit -> sched -> Prop) E s : Q tt (f s) -> wp (upd f) Q E s.
Proof. auto. Qed.
Lemma wp_of_option {A} (o : option A) (Q : A -> sched -> Prop) (E : sched -> Prop) s :
  (forall a, o = Some a -> Q a s) -> (o = None -> E s) -> wp (of_option o) Q E s.
Proof. unfold wp. destruct o; simpl; auto. Qed.
Lemma wp_get_job j (Q : job -> sched -> Prop) (E : sched -> Prop) s :
  (forall jb, s_jobs s !! j = Some jb -> Q jb s) -> (s_jobs s !! j = None -> E s) -> wp (get_job j) Q E s.
Proof. unfold wp, get_job. destruct (s_jobs s !! j); auto. Qed.
Lemma wp_swallow (m : M unit) (Q : unit -> sched -> Prop) E s :
  wp m Q (Q tt) s -> wp (swallow m) Q E s.
Proof. unfold wp, swallow. destruct (m s); auto. Qed.

(** Loops with an invariant. *)
Lemma wp_for_each {A} (l : list A) (body : A -> M unit) (I E : sched -> Prop) s :
  I s -> (forall x s', x ∈ l -> I s' -> wp (body x) (fun _ => I) E s') -> wp (for_each l body) (fun _ => I) E s.
Proof.
  revert s; induction l as [|x l IH]; intros s HI Hb; simpl; [exact HI|].
  apply wp_bind. eapply wp_mono; [apply Hb; [left|exact HI]| |auto].
  simpl. intros _ s' HI'. apply IH; [exact HI'|]. intros y s'' Hy. apply Hb. right; exact Hy.
Qed.

(** graph_remove touches only the graph. *)
Lemma wp_graph_remove jb (Q : unit -> sched -> Prop) (E : sched -> Prop) s :
  (forall g, Q tt (set_graph (fun _ => g) s)) -> (forall g, E (set_graph (fun _ => g) s)) ->
  wp (graph_remove jb) Q E s.
Proof.
  intros HQ HE. unfold graph_remove.
  eapply wp_mono with (Q := fun _ s' => exists g, s' = set_graph (fun _ => g) s)
                      (E := fun s' => exists g, s' = set_graph (fun _ => g) s);
    [|intros [] s' [g ->]; apply HQ|intros s' [g ->]; apply HE].
  apply wp_for_each with (I := fun s' => exists g, s' = set_graph (fun _ => g) s).
  - exists (s_graph s). destruct s; reflexivity.
  - intros mid s' _ [g ->]. apply wp_bind, wp_get. simpl.
    destruct (g !! mid) as [ds|].
    + destruct (decide (j_msg jb ∈ ds)).
      * apply wp_upd. eexists. destruct s; reflexivity.
      * apply wp_raise. eexists. reflexivity.
    + apply wp_ret. eexists. reflexivity.
Qed.

(** The graph part of save_unmet. *)
Lemma wp_save_graph m (l : list nat) (Q : unit -> sched -> Prop) (E : sched -> Prop) s :
  (forall g, Q tt (set_graph (fun _ => g) s)) ->
  wp (for_each l (fun d => upd (set_graph (fun g => <[d := {[m]} ∪ default ∅ (g !! d)]> g)))) Q E s.
Proof.
  intros HQ.
  eapply wp_mono with (Q := fun _ s' => exists g, s' = set_graph (fun _ => g) s) (E := fun _ => False);
    [|intros [] s' [g ->]; apply HQ|intros s' []].
  apply wp_for_each with (I := fun s' => exists g, s' = set_graph (fun _ => g) s).
  - exists (s_graph s). destruct s; reflexivity.
  - intros d s' _ [g ->]. apply wp_upd. eexists. destruct s; reflexivity.
Qed.

(** Association lists. *)
Lemma al_lookup_elem k v l : al_lookup k l = Some v -> (k, v) ∈ l.
Proof.
  induction l as [|[k' v'] l IH]; simpl; [discriminate|].
  destruct (decide (k = k')) as [->|]; intros H; [injection H as ->; left|right; auto].
Qed.
Lemma al_lookup_none k l : al_lookup k l = None -> forall v, (k, v) ∉ l.
Proof.
  induction l as [|[k' v'] l IH]; simpl; intros H v Hin; [inversion Hin|].
  destruct (decide (k = k')) as [->|]; [discriminate|].
  apply elem_of_cons in Hin as [Heq|Hin]; [congruence|]. eapply IH; eauto.
Qed.
Lemma al_insert_elem k v l x : x ∈ al_insert k v l -> x = (k, v) \/ x ∈ l.
Proof.
  induction l as [|[k' v'] l IH]; simpl; intros H.
  - apply elem_of_cons in H as [?|H]; [auto|inversion H].
  - destruct (decide (k = k')).
    + apply elem_of_cons in H as [?|H]; [auto|right; right; exact H].
    + apply elem_of_cons in H as [->|H]; [right; left|]. destruct (IH H); [auto|right; right; assumption].
Qed.
Lemma al_insert_keys k v l x : x ∈ (al_insert k v l).*1 <-> x = k \/ x ∈ l.*1.
Proof.
  induction l as [|[k' v'] l IH]; simpl.
  - rewrite elem_of_list_singleton. set_solver.
  - destruct (decide (k = k')) as [->|]; simpl; rewrite !elem_of_cons; [tauto|]. rewrite IH. tauto.
Qed.
Lemma al_insert_nodup k v l : NoDup l.*1 -> NoDup (al_insert k v l).*1.
Proof.
  induction l as [|[k' v'] l IH]; simpl; intros H.
  - apply NoDup_singleton.
  - apply NoDup_cons in H as [H1 H2]. destruct (decide (k = k')) as [->|]; simpl; apply NoDup_cons; auto.
    split; [|auto]. rewrite al_insert_keys. intros [?|?]; [congruence|contradiction].
Qed.
Lemma al_remove_elem k l x : x ∈ al_remove k l -> x ∈ l.
Proof.
  induction l as [|[k' v'] l IH]; simpl; intros H; [inversion H|].
  destruct (decide (k = k')); [right; exact H|].
  apply elem_of_cons in H as [->|H]; [left|right; auto].
Qed.
Lemma al_remove_keys k l x : x ∈ (al_remove k l).*1 -> x ∈ l.*1.
Proof.
  induction l as [|[k' v'] l IH]; simpl; intros H; [inversion H|].
  destruct (decide (k = k')); [right; exact H|]. simpl in H.
  apply elem_of_cons in H as [->|H]; [left|right; auto].
Qed.
Lemma al_remove_nodup k l : NoDup l.*1 -> NoDup (al_remove k l).*1 /\ k ∉ (al_remove k l).*1.
Proof.
  induction l as [|[k' v'] l IH]; simpl; intros H; [split; [constructor|inversion 1]|].
  apply NoDup_cons in H as [H1 H2]. destruct (decide (k = k')) as [->|]; [auto|].
  destruct (IH H2) as [H3 H4]. simpl. split.
  - apply NoDup_cons. split; [|assumption]. intros Hin. apply H1. eapply al_remove_keys; eauto.
  - rewrite elem_of_cons. intros [?|?]; [congruence|contradiction].
Qed.
Lemma al_remove_other k l m j : (m, j) ∈ l -> m <> k -> (m, j) ∈ al_remove k l.
Proof.
  induction l as [|[k' v'] l IH]; simpl; intros H Hne; [inversion H|].
  destruct (decide (k = k')) as [->|].
  - apply elem_of_cons in H as [H|H]; [congruence|exact H].
  - apply elem_of_cons in H as [H|H]; [rewrite H; left|right; auto].
Qed.
Lemma al_insert_length k v l : k ∉ l.*1 -> length (al_insert k v l) = S (length l).
Proof.
  induction l as [|[k' v'] l IH]; simpl; intros H; [reflexivity|].
  destruct (decide (k = k')) as [->|]; [exfalso; apply H; left|]. simpl. f_equal. apply IH.
  intros Hin. apply H. right; exact Hin.
Qed.
Lemma al_remove_length k v l : al_lookup k l = Some v -> S (length (al_remove k l)) = length l.
Proof.
  induction l as [|[k' v'] l IH]; simpl; intros H; [discriminate|].
  destruct (decide (k = k')) as [->|]; [reflexivity|]. simpl. f_equal. auto.
Qed.
Lemma al_lookup_insert_ne k k' v l : k <> k' -> al_lookup k (al_insert k' v l) = al_lookup k l.
Proof.
  intros Hne. induction l as [|[k2 v2] l IH]; simpl.
  - destruct (decide (k = k')); [congruence|reflexivity].
  - destruct (decide (k' = k2)) as [->|]; simpl.
    + destruct (decide (k = k2)); [congruence|reflexivity].
    + destruct (decide (k = k2)); [reflexivity|exact IH].
Qed.
Lemma al_lookup_insert k v l : al_lookup k (al_insert k v l) = Some v.
Proof.
  induction l as [|[k2 v2] l IH]; simpl.
  - destruct (decide (k = k)); [reflexivity|congruence].
  - destruct (decide (k = k2)) as [->|]; simpl.
    + destruct (decide (k2 = k2)); [reflexivity|congruence].
    + destruct (decide (k = k2)); [congruence|exact IH].
Qed.
Lemma al_lookup_remove_ne k k' l : k <> k' -> al_lookup k (al_remove k' l) = al_lookup k l.
Proof.
  intros Hne. induction l as [|[k2 v2] l IH]; simpl; [reflexivity|].
  destruct (decide (k' = k2)) as [->|]; simpl.
  - destruct (decide (k = k2)); [congruence|reflexivity].
  - destruct (decide (k = k2)); [reflexivity|exact IH].
Qed.
Lemma al_elem_lookup k v l : NoDup l.*1 -> (k, v) ∈ l -> al_lookup k l = Some v.
Proof.
  induction l as [|[k2 v2] l IH]; simpl; intros Hn Hin; [inversion Hin|].
  apply NoDup_cons in Hn as [H1 H2]. apply elem_of_cons in Hin as [Heq|Hin].
  - injection Heq as -> ->. destruct (decide (k2 = k2)); [reflexivity|congruence].
  - destruct (decide (k = k2)) as [->|]; [|auto].
    exfalso. apply H1. apply elem_of_list_fmap. exists (k2, v). auto.
Qed.

(** Positions *)
Lemma index_of_spec x l i : index_of x l = Some i -> l !! i = Some x.
Proof.
  revert i; induction l as [|y l IH]; simpl; intros i H; [discriminate|].
  destruct (decide (x = y)) as [->|]; [injection H as <-; reflexivity|].
  destruct (index_of x l); simpl in H; [|discriminate]. injection H as <-. simpl. auto.
Qed.
Lemma index_of_none x l : index_of x l = None -> x ∉ l.
Proof.
  induction l as [|y l IH]; simpl; intros H Hin; [inversion Hin|].
  destruct (decide (x = y)) as [->|]; [discriminate|].
  destruct (index_of x l) eqn:E; [discriminate|].
  apply elem_of_cons in Hin as [?|Hin]; [congruence|]. apply IH; auto.
Qed.
Lemma list_pop_elem {A} i (l : list A) x : x ∈ list_pop i l -> x ∈ l.
Proof.
  unfold list_pop. rewrite elem_of_app. intros [H|H].
  - rewrite <- (take_drop i l), elem_of_app. auto.
  - rewrite <- (take_drop (S i) l), elem_of_app. auto.
Qed.
Lemma rotate_perm {A} i (l : list A) : rotate i l ≡ₚ l.
Proof.
  unfold rotate, list_pop. destruct (l !! i) as [x|] eqn:E; [|reflexivity].
  rewrite <- (take_drop_middle l i x E) at 3. rewrite <- app_assoc.
  apply Permutation_app_head. rewrite Permutation_app_comm. reflexivity.
Qed.
Lemma rotate_elem {A} i (l : list A) x : x ∈ rotate i l <-> x ∈ l.
Proof. rewrite (rotate_perm i l). reflexivity. Qed.

(** * Reachable states: [ok trace ev] restricts the environment. *)
Section Reach.
Context (hwm : nat) (scheme : nat -> list Z -> nat) (ok : list obs -> event -> Prop).
Inductive reachable : sched -> Prop :=
| reach_init : reachable init
| reach_step s ev s' fuel :
    reachable s -> ok (s_log s) ev -> step hwm scheme fuel s ev = Some s' -> reachable s'.

Lemma reachable_inv (I : sched -> Prop) :
  I init ->
  (forall s ev fuel, I s -> ok (s_log s) ev -> wp (handle hwm scheme fuel ev) (fun _ => I) I s) ->
  forall s, reachable s -> I s.
Proof.
  intros H0 Hs s Hr. induction Hr as [|s ev s' fuel Hr IH Hok Hst]; [exact H0|].
  specialize (Hs s ev fuel IH Hok). unfold step, swallow in Hst. unfold wp in Hs.
  destruct (handle hwm scheme fuel ev s); congruence.
Qed.

Lemma run_reachable fuel evs s s' :
  reachable s ->
  (forall t ev, ev ∈ evs -> ok t ev) ->
  run hwm scheme fuel s evs = Some s' -> reachable s'.
Proof.
  revert s; induction evs as [|ev evs IH]; simpl; intros s Hr Hok H; [congruence|].
  destruct (step hwm scheme fuel s ev) as [s1|] eqn:E; [|discriminate].
  apply (IH s1).
  - refine (reach_step s ev s1 fuel Hr _ E). apply Hok. left.
  - intros t ev' Hin. apply Hok. right; exact Hin.
  - exact H.
Qed.
End Reach.
