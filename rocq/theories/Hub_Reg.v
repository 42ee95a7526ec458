(** Proofs about the registration of engines. *)
From Coq Require Import List Arith Bool Lia Permutation.
From Verif Require Import Hub_Spec Hub_Model.
Import ListNotations.

(* ---------------------------------------------------------------- dicts *)
Section D.
Context {A : Type}.
Implicit Types (d : list (nat * A)).
Lemma get_in k v d : get k d = Some v -> In (k, v) d.
Proof. induction d as [|[k' w] d IH]; simpl; [discriminate|]. destruct (Nat.eqb_spec k k') as [->|]; [intros [= ->]; auto|auto]. Qed.
Lemma get_none k d : get k d = None <-> ~ In k (map fst d).
Proof.
  induction d as [|[k' w] d IH]; simpl; [tauto|]. destruct (Nat.eqb_spec k k') as [->|N]; [split; [discriminate|tauto]|].
  rewrite IH. split; [intros H [E|E]; [congruence|tauto]|tauto].
Qed.
Lemma in_get k v d : NoDup (map fst d) -> In (k, v) d -> get k d = Some v.
Proof.
  induction d as [|[k' w] d IH]; simpl; [tauto|]. intros H Hi. inversion H as [|? ? H1 H2]; subst. destruct Hi as [E|Hi].
  - injection E as -> ->. rewrite Nat.eqb_refl. reflexivity.
  - destruct (Nat.eqb_spec k k') as [->|]; [|auto]. exfalso. apply H1. change k' with (fst (k', v)). apply in_map. exact Hi.
Qed.
Lemma is_some_get k d : is_some (get k d) = true <-> In k (map fst d).
Proof.
  destruct (get k d) as [v|] eqn:E; simpl.
  - split; [intros _|auto]. apply get_in in E. change k with (fst (k, v)). apply in_map. exact E.
  - apply get_none in E. split; [discriminate|tauto].
Qed.
Lemma set_new k v d : ~ In k (map fst d) -> set k v d = d ++ [(k, v)].
Proof.
  induction d as [|[k' w] d IH]; simpl; intros H; [reflexivity|]. destruct (Nat.eqb_spec k k') as [->|]; [tauto|]. rewrite IH by tauto. reflexivity.
Qed.
Lemma pop_map k d : map fst (pop k d) = filter (fun k' => negb (Nat.eqb k k')) (map fst d).
Proof. induction d as [|[k' w] d IH]; simpl; [reflexivity|]. destruct (Nat.eqb k k'); simpl; rewrite IH; reflexivity. Qed.
Lemma in_pop k d e : In e (pop k d) <-> In e d /\ fst e <> k.
Proof. unfold pop. rewrite filter_In, negb_true_iff, Nat.eqb_neq. intuition. Qed.
Lemma get_set_same k v d : get k (set k v d) = Some v.
Proof. induction d as [|[k' w] d IH]; simpl; [rewrite Nat.eqb_refl; reflexivity|]. destruct (Nat.eqb_spec k k') as [->|N]; simpl; [rewrite Nat.eqb_refl; reflexivity|]. rewrite (proj2 (Nat.eqb_neq _ _) N). exact IH. Qed.
Lemma get_set_other k k' v d : k' <> k -> get k' (set k v d) = get k' d.
Proof.
  intros N. induction d as [|[k2 w] d IH]; simpl; [rewrite (proj2 (Nat.eqb_neq _ _) N); reflexivity|]. destruct (Nat.eqb_spec k k2) as [->|N2]; simpl.
  - rewrite (proj2 (Nat.eqb_neq _ _) N). reflexivity.
  - destruct (Nat.eqb k' k2); auto.
Qed.
Lemma get_app k d d' : get k (d ++ d') = match get k d with Some v => Some v | None => get k d' end.
Proof. induction d as [|[k' w] d IH]; simpl; [reflexivity|]. destruct (Nat.eqb k k'); auto. Qed.
End D.
Lemma mem_In x l : mem x l = true <-> In x l.
Proof. unfold mem. rewrite existsb_exists. split; [intros (y & Hy & E); apply Nat.eqb_eq in E; subst; exact Hy|intros H; exists x; split; [exact H|apply Nat.eqb_refl]]. Qed.
Lemma mem_false x l : mem x l = false <-> ~ In x l.
Proof. rewrite <- mem_In. destruct (mem x l); split; congruence. Qed.
Lemma NoDup_app_remove {A} (a b c : list A) : NoDup (a ++ b ++ c) -> NoDup (a ++ c).
Proof.
  intros H. induction a as [|x a IH]; simpl in *.
  - induction b as [|y b IHb]; simpl in *; [exact H|]. inversion H; auto.
  - inversion H as [|? ? H1 H2]; subst. constructor; [|auto]. rewrite in_app_iff in *. rewrite in_app_iff in H1. tauto.
Qed.
Lemma NoDup_filter_l {A} (f : A -> bool) a b : NoDup (a ++ b) -> NoDup (filter f a ++ b).
Proof.
  induction a as [|x a IH]; simpl; intros H; [exact H|]. inversion H as [|? ? H1 H2]; subst. destruct (f x); simpl; [|auto]. constructor; [|auto].
  rewrite in_app_iff, filter_In in *. tauto.
Qed.
Lemma NoDup_app_l {A} (a b : list A) : NoDup (a ++ b) -> NoDup a.
Proof. intros H. rewrite <- (app_nil_r a). apply (NoDup_app_remove a b []). rewrite app_nil_r. exact H. Qed.
Lemma NoDup_app_r {A} (a b : list A) : NoDup (a ++ b) -> NoDup b.
Proof. intros H. induction a; simpl in *; [exact H|inversion H; auto]. Qed.
Lemma NoDup_app_comm {A} (a b : list A) : NoDup (a ++ b) -> NoDup (b ++ a).
Proof. apply Permutation_NoDup. apply Permutation_app_comm. Qed.
Lemma NoDup_app_disj {A} (a b : list A) x : NoDup (a ++ b) -> In x a -> ~ In x b.
Proof. intros H Ha Hb. induction a as [|y a IH]; [destruct Ha|]. simpl in H. inversion H; subst. destruct Ha as [->|Ha]; [apply H2; apply in_or_app; auto|auto]. Qed.
Lemma NoDup_snoc {A} (l : list A) x : NoDup l -> ~ In x l -> NoDup (l ++ [x]).
Proof. intros H Hx. apply (Permutation_NoDup (Permutation_cons_append l x)). constructor; assumption. Qed.

Lemma present_snoc ns n : present (ns ++ [n]) = present_step (present ns) n.
Proof. unfold present. rewrite fold_left_app. reflexivity. Qed.
Lemma been_snoc ns n : been (ns ++ [n]) = been ns ++ match n with Registered i u => [(i, u)] | _ => [] end.
Proof. unfold been. rewrite flat_map_app. simpl. rewrite app_nil_r. reflexivity. Qed.
Lemma gone_snoc ns n : gone (ns ++ [n]) = gone ns ++ match n with Unregistered i u => [(i, u)] | _ => [] end.
Proof. unfold gone. rewrite flat_map_app. simpl. rewrite app_nil_r. reflexivity. Qed.
Lemma changed_snoc ns n : changed_since_restart (ns ++ [n]) = match n with Registered _ _ | Unregistered _ _ => true | Restarted => false | _ => changed_since_restart ns end.
Proof. unfold changed_since_restart. rewrite fold_left_app. reflexivity. Qed.
Lemma granted_snoc ns n : granted (ns ++ [n]) = match n with Granted _ i _ => granted ns ++ [i] | Restarted => [] | _ => granted ns end.
Proof. unfold granted. rewrite fold_left_app. reflexivity. Qed.

Definition swap (e : nat * nat) : nat * nat := (snd e, fst e).

(** What concerns registration. *)
Record rinv (s : hub) : Prop := {
  ri_present : engines s = present (notices s);
  ri_ids : NoDup (map fst (engines s) ++ map snd (incoming s));
  ri_uuids : NoDup (map snd (engines s) ++ map fst (incoming s));
  ri_ident : by_ident s = map swap (engines s);
  ri_hearts : hearts s = map swap (engines s);
  ri_counter : Forall (fun i => i < counter s) (map fst (engines s) ++ map snd (incoming s));
  ri_been : Forall (fun e => fst e < counter s) (been (notices s));
  ri_granted : Forall (fun i => i < counter s) (granted (notices s));
  ri_file : changed_since_restart (notices s) = true ->
            match file s with
            | Some (es, n) => es = engines s /\ Forall (fun e => fst e < n) (been (notices s)) /\ Forall (fun e => fst e < n) es
            | None => engines s = [] /\ been (notices s) = []
            end }.

Lemma rinv_start : rinv start.
Proof. constructor; simpl; auto; try constructor. Qed.

(** Events that change nothing of this. *)
Definition same_reg (s s' : hub) : Prop :=
  counter s' = counter s /\ engines s' = engines s /\ incoming s' = incoming s /\ by_ident s' = by_ident s /\ hearts s' = hearts s /\ file s' = file s /\ notices s' = notices s.
Lemma same_refl s : same_reg s s.
Proof. repeat split. Qed.
Lemma same_trans s s' s'' : same_reg s s' -> same_reg s' s'' -> same_reg s s''.
Proof. unfold same_reg. intuition congruence. Qed.
Lemma rinv_same s s' : same_reg s s' -> rinv s -> rinv s'.
Proof. intros (E1 & E2 & E3 & E4 & E5 & E6 & E7) []. constructor; rewrite ?E1, ?E2, ?E3, ?E4, ?E5, ?E6, ?E7; auto. Qed.
Lemma same_update s m f : same_reg s (update_record s m f).
Proof. unfold update_record. destruct (get m (db s)); repeat split. Qed.
Lemma same_strand u ms : forall s, same_reg s (strand s u ms).
Proof.
  induction ms as [|m ms IH]; intros s; simpl; [apply same_refl|]. destruct (mem m (pending s)); [|apply same_refl].
  eapply same_trans; [|apply IH]. eapply same_trans; [|apply same_update]. repeat split.
Qed.
Lemma same_request s m u : same_reg s (save_request s m u).
Proof. unfold save_request. destruct (get m (db s)); repeat split. Qed.

Definition is_message (e : event) : bool :=
  match e with Register _ _ | NewHeart _ | StoppedHeart _ | Unregister _ | Stalled _ | Restart => false | _ => true end.
Lemma same_step s e : is_message e = true -> same_reg s (step s e).
Proof.
  destruct e; intros He; try discriminate; simpl.
  - destruct (existsb _ _); [|apply same_refl]. unfold handle_stranded_msgs. cbn [queues with_timers]. destruct (queues s id); [|repeat split].
    eapply same_trans; [|apply same_strand]. repeat split.
  - unfold save_queue_request. destruct (get u (by_ident s)) as [eid|]; [|apply same_refl]. eapply same_trans; [apply (same_request s m (Some u))|].
    destruct (queues _ eid); repeat split.
  - unfold save_queue_result. destruct (get u (by_ident s)) as [eid|]; [|apply same_refl]. destruct (mem m (pending s)).
    + cbn [queues completed with_sets]. destruct (queues s eid), (completed s eid); try (repeat split; fail). destruct (mem m l); [|repeat split].
      eapply same_trans; [|apply same_update]. repeat split.
    + destruct (mem m (all_completed s)); [apply same_update|apply same_refl].
  - unfold save_task_request. eapply same_trans; [|apply same_request]. repeat split.
  - unfold save_task_destination. destruct (get u (by_ident s)) as [eid|]; [|apply same_refl]. cbn [tasks with_sets]. destruct (tasks s eid); [|repeat split].
    eapply same_trans; [|apply same_update]. repeat split.
  - unfold save_task_result. cbn [pending with_sets]. destruct (mem m (pending s)); [|repeat split]. eapply same_trans; [|apply same_update].
    cbn [by_ident with_sets]. destruct (get u (by_ident s)) as [eid|]; [|repeat split]. cbn [completed tasks with_sets]. destruct (completed s eid), (tasks s eid); repeat split.
  - unfold save_broadcast_request. destruct (get m _); repeat split.
  - unfold save_broadcast_result. destruct (mem m (pending s)); [|repeat split]. eapply same_trans; [|apply same_update].
    cbn [by_ident with_sets]. destruct (get u (by_ident s)) as [eid|]; [|repeat split]. cbn [completed with_sets]. destruct (completed s eid); repeat split.
  - unfold resubmit. destruct (get m _); repeat split.
  - unfold purge_results. destruct (existsb _ _); repeat split.
Qed.

Lemma Forall_lt_le (l : list nat) a b : a <= b -> Forall (fun i => i < a) l -> Forall (fun i => i < b) l.
Proof. intros H. apply Forall_impl. intros; lia. Qed.
Lemma new_id_spec s r s1 eid c : new_engine_id s r = (s1, eid, c) -> rinv s ->
  engines s1 = engines s /\ incoming s1 = incoming s /\ by_ident s1 = by_ident s /\ hearts s1 = hearts s /\ file s1 = file s /\ notices s1 = notices s /\
  counter s <= counter s1 /\ eid < counter s1 /\ ~ In eid (map fst (engines s) ++ map snd (incoming s)) /\ (c = true -> eid = counter s).
Proof.
  intros E I. pose proof (ri_counter s I) as Hc. rewrite Forall_forall in Hc.
  assert (Hfresh : new_engine_id s None = (s1, eid, c) \/ exists i, r = Some i /\ ~ In i (map fst (engines s) ++ map snd (incoming s)) /\ eid = i /\ c = false /\
     s1 = with_reg s (max (i + 1) (counter s)) (engines s) (incoming s) (by_ident s) (hearts s)).
  { destruct r as [i|]; [|left; exact E]. unfold new_engine_id in E. destruct (is_some (get i (engines s))) eqn:E1; [left; exact E|].
    destruct (mem i (map snd (incoming s))) eqn:E2; [left; exact E|]. right. injection E as <- <- <-. exists i. repeat split.
    rewrite in_app_iff. intros [Hi|Hi]; [apply is_some_get in Hi; congruence|apply mem_In in Hi; congruence]. }
  destruct Hfresh as [E'|(i & -> & Hn & -> & -> & ->)].
  - simpl in E'. injection E' as <- <- <-. simpl. repeat split; auto; try lia. intros Hi. apply Hc in Hi. lia.
  - simpl. repeat split; auto; try lia; discriminate.
Qed.

Lemma rinv_register s u r : rinv s -> rinv (register_engine s u r).
Proof.
  intros I. unfold register_engine. destruct (new_engine_id s r) as [[s1 eid] c] eqn:E.
  destruct (new_id_spec _ _ _ _ _ E I) as (E1 & E2 & E3 & E4 & E5 & E6 & L & Le & Hn & Hc). destruct I as [J1 J2 J3 J4 J5 J6 J7 J8 J9].
  destruct (is_some (get u (by_ident s1))) eqn:F1; [|destruct (is_some (get u (incoming s1))) eqn:F2].
  1, 2: constructor; cbn [engines incoming by_ident hearts file notices counter tell]; rewrite ?E1, ?E2, ?E3, ?E4, ?E5, ?E6, ?present_snoc, ?been_snoc, ?granted_snoc, ?changed_snoc; cbn beta iota;
    rewrite ?app_nil_r; cbn [present_step]; auto; try (apply (Forall_lt_le _ _ _ L); assumption); try (eapply Forall_impl; [|exact J7]; simpl; intros; lia).
  constructor; cbn [engines incoming by_ident hearts file notices counter tell with_reg]; rewrite ?E1, ?E2, ?E3, ?E4, ?E5, ?E6, ?present_snoc, ?been_snoc, ?granted_snoc, ?changed_snoc; cbn beta iota; rewrite ?app_nil_r; cbn [present_step]; auto.
  1-3: assert (Hu : ~ In u (map fst (incoming s))) by (rewrite <- is_some_get; rewrite E2 in F2; congruence).
  1-3: rewrite set_new by exact Hu; rewrite map_app, app_assoc; cbn [map fst snd].
  - apply NoDup_snoc; assumption.
  - apply NoDup_snoc; [assumption|]. rewrite in_app_iff. intros [Hi|Hi]; [|contradiction].
    rewrite E3 in F1. assert (is_some (get u (by_ident s)) = true); [|congruence]. apply is_some_get. rewrite J4, map_map. exact Hi.
  - apply Forall_app. split; [apply (Forall_lt_le _ _ _ L); assumption|]. repeat constructor. exact Le.
  - eapply Forall_impl; [|exact J7]. simpl; intros; lia.
  - apply Forall_app. split; [apply (Forall_lt_le _ _ _ L); assumption|]. repeat constructor. exact Le.
Qed.

Lemma find_in_snd eid (l : list (nat * nat)) e : find (fun e => Nat.eqb (snd e) eid) l = Some e -> In e l /\ snd e = eid.
Proof. intros H. apply find_some in H as [H1 H2]. apply Nat.eqb_eq in H2. auto. Qed.
Lemma rinv_pop_incoming s u : rinv s -> rinv (with_reg s (counter s) (engines s) (pop u (incoming s)) (by_ident s) (hearts s)).
Proof.
  intros [J1 J2 J3 J4 J5 J6 J7 J8 J9]. constructor; cbn [engines incoming by_ident hearts file notices counter with_reg]; auto.
  - apply NoDup_app_comm. apply NoDup_app_comm in J2. clear - J2. induction (incoming s) as [|e l IH]; simpl in *; [exact J2|]. inversion J2 as [|? ? H1 H2]; subst.
    destruct (negb (u =? fst e)); simpl; [|auto]. constructor; [|auto]. rewrite in_app_iff in *. intros [Hi|Hi]; [|tauto]. apply H1. left.
    apply in_map_iff in Hi as (x & Ex & Hx). apply in_map_iff. exists x. unfold pop in Hx. apply filter_In in Hx. tauto.
  - rewrite pop_map. apply NoDup_app_comm, NoDup_filter_l, NoDup_app_comm. exact J3.
  - apply Forall_app in J6 as [J6 J6']. apply Forall_app. split; [exact J6|]. rewrite Forall_map in *. apply Forall_forall. intros e He. apply in_pop in He as [He _].
    rewrite Forall_forall in J6'. auto.
Qed.
Lemma pop_both (es : list (nat * nat)) eid u : NoDup (map fst es) -> NoDup (map snd es) -> In (eid, u) es ->
  pop u (map swap es) = map swap (pop eid es) /\ pop eid es = filter (fun e => negb (Nat.eqb eid (fst e) && Nat.eqb u (snd e))) es.
Proof.
  intros H1 H2 Hi.
  assert (Hk : forall e, In e es -> Nat.eqb eid (fst e) = Nat.eqb u (snd e)).
  { intros [i v] He. simpl. destruct (Nat.eqb_spec eid i) as [->|N]; destruct (Nat.eqb_spec u v) as [->|N']; auto; exfalso.
    - apply in_get in Hi; auto. apply in_get in He; auto. congruence.
    - apply N. assert (G : get v (map swap es) = Some eid /\ get v (map swap es) = Some i); [|destruct G; congruence].
      split; apply in_get; try (rewrite map_map; exact H2); apply in_map_iff; [exists (eid, v)|exists (i, v)]; auto. }
  split.
  - unfold pop. clear H1 H2 Hi. induction es as [|e es IH]; simpl; [reflexivity|]. rewrite (Hk e) by (left; reflexivity).
    rewrite IH by (intros; apply Hk; right; assumption). destruct (negb (u =? snd e)); reflexivity.
  - unfold pop. apply filter_ext_in. intros e He. rewrite (Hk e He). destruct (u =? snd e); reflexivity.
Qed.
Lemma rinv_unregister s eid : rinv s -> rinv (unregister_engine s eid).
Proof.
  intros I. unfold unregister_engine. destruct (get eid (engines s)) as [u|] eqn:E.
  - destruct I as [J1 J2 J3 J4 J5 J6 J7 J8 J9]. apply get_in in E.
    destruct (pop_both _ _ _ (NoDup_app_l _ _ J2) (NoDup_app_l _ _ J3) E) as [P1 P2].
    assert (Ff : Forall (fun e => fst e < counter s) (pop eid (engines s))).
    { apply Forall_forall. intros e He. apply in_pop in He as [He _]. apply Forall_app in J6 as [J6 _]. rewrite Forall_map, Forall_forall in J6. auto. }
    constructor; cbn [engines incoming by_ident hearts file notices counter tell with_reg save_engine_state with_file with_timers];
      rewrite ?present_snoc, ?been_snoc, ?granted_snoc, ?changed_snoc; cbn beta iota; rewrite ?app_nil_r; cbn [present_step]; auto.
    + rewrite <- J1. exact P2.
    + rewrite pop_map. apply NoDup_filter_l. exact J2.
    + clear - J3. induction (engines s) as [|e l IH]; simpl in *; [exact J3|]. inversion J3 as [|? ? H1 H2]; subst. destruct (negb (eid =? fst e)); simpl; [|auto].
      constructor; [|auto]. rewrite in_app_iff in *. intros [Hi|Hi]; [|tauto]. apply H1. left. apply in_map_iff in Hi as (x & Ex & Hx). apply in_map_iff. exists x. apply in_pop in Hx. tauto.
    + rewrite J4. exact P1.
    + rewrite J5. exact P1.
    + apply Forall_app in J6 as [J6 J6']. apply Forall_app. split; [|exact J6']. rewrite Forall_map. exact Ff.
  - destruct (find _ (incoming s)) as [[u i]|] eqn:Ef; [apply rinv_pop_incoming|]; exact I.
Qed.

(** The registration of an engine is completed. *)
Lemma finish_new s u eid : In (u, eid) (incoming s) -> NoDup (map fst (engines s) ++ map snd (incoming s)) -> NoDup (map snd (engines s) ++ map fst (incoming s)) ->
  by_ident s = map swap (engines s) -> hearts s = map swap (engines s) ->
  set eid u (engines s) = engines s ++ [(eid, u)] /\ set u eid (by_ident s) = map swap (engines s ++ [(eid, u)]) /\ set u eid (hearts s) = map swap (engines s ++ [(eid, u)]).
Proof.
  intros Hi H1 H2 E1 E2.
  assert (N1 : ~ In eid (map fst (engines s))) by (intros Hx; apply (NoDup_app_disj _ _ _ H1 Hx); change eid with (snd (u, eid)); apply in_map; exact Hi).
  assert (N2 : ~ In u (map fst (map swap (engines s)))).
  { rewrite map_map. intros Hx. apply (NoDup_app_disj _ _ _ H2 Hx). change u with (fst (u, eid)). apply in_map. exact Hi. }
  rewrite E1, E2, !set_new by assumption. rewrite map_app. auto.
Qed.
Lemma in_map_pop_snd u i (l : list (nat * nat)) : NoDup (map snd l) -> In (u, i) l -> ~ In i (map snd (pop u l)).
Proof.
  intros Hn Hi Hx. apply in_map_iff in Hx as ([u' i'] & Ex & Hx). simpl in Ex. subst i'. apply in_pop in Hx as [Hx Hne]. simpl in Hne. apply Hne.
  assert (G : get i (map swap l) = Some u' /\ get i (map swap l) = Some u); [|destruct G; congruence].
  split; apply in_get; try (rewrite map_map; exact Hn); apply in_map_iff; [exists (u', i)|exists (u, i)]; auto.
Qed.
Lemma NoDup_move (a b b' : list nat) x : NoDup (a ++ b) -> In x b -> ~ In x b' -> NoDup (a ++ b') -> NoDup ((a ++ [x]) ++ b').
Proof.
  intros H Hx Hn H'. rewrite <- app_assoc. simpl. apply NoDup_Add with (a := x) (l := a ++ b'). { apply Add_app. } split; [exact H'|].
  rewrite in_app_iff. intros [Hi|Hi]; [|contradiction]. apply (NoDup_app_disj _ _ _ H Hi Hx).
Qed.
Lemma NoDup_pop (f : nat * nat -> nat) (a : list nat) u (l : list (nat * nat)) : NoDup (a ++ map f l) -> NoDup (a ++ map f (pop u l)).
Proof.
  intros H. apply NoDup_app_comm. apply NoDup_app_comm in H. induction l as [|e l IH]; simpl in *; [exact H|]. inversion H as [|? ? H1 H2]; subst.
  destruct (negb (u =? fst e)); simpl; [|auto]. constructor; [|auto]. rewrite in_app_iff in *. intros [Hi|Hi]; [|tauto]. apply H1. left.
  apply in_map_iff in Hi as (x & Ex & Hx). apply in_map_iff. exists x. apply in_pop in Hx. tauto.
Qed.
Lemma rinv_finish s u : rinv s -> rinv (finish_registration true s u).
Proof.
  intros I. unfold finish_registration. destruct (get u (incoming s)) as [eid|] eqn:E; [|exact I]. apply get_in in E.
  destruct I as [J1 J2 J3 J4 J5 J6 J7 J8 J9]. destruct (finish_new _ _ _ E J2 J3 J4 J5) as (E1 & E2 & E3).
  assert (Hu : In u (map fst (incoming s))) by (change u with (fst (u, eid)); apply in_map; exact E).
  assert (He : In eid (map snd (incoming s))) by (change eid with (snd (u, eid)); apply in_map; exact E).
  assert (Hlt : eid < counter s) by (apply Forall_app in J6 as [_ J6]; rewrite Forall_forall in J6; auto).
  assert (Ff : Forall (fun i => i < counter s) (map fst (engines s ++ [(eid, u)]) ++ map snd (pop u (incoming s)))).
  { apply Forall_app in J6 as [J6 J6']. apply Forall_app. split.
    - rewrite map_app. apply Forall_app. split; [exact J6|]. repeat constructor. exact Hlt.
    - rewrite Forall_map in *. apply Forall_forall. intros x Hx. apply in_pop in Hx as [Hx _]. rewrite Forall_forall in J6'. auto. }
  constructor; cbn [engines incoming by_ident hearts file notices counter tell with_reg with_tables save_engine_state with_file];
    rewrite ?present_snoc, ?been_snoc, ?granted_snoc, ?changed_snoc, ?app_nil_r, ?E1, ?E2, ?E3; cbn [present_step]; auto.
  - rewrite <- J1. reflexivity.
  - rewrite map_app. apply (NoDup_move _ (map snd (incoming s))); auto; [|apply NoDup_pop; exact J2]. apply in_map_pop_snd; [apply (NoDup_app_r _ _ J2)|exact E].
  - rewrite map_app. apply (NoDup_move _ (map fst (incoming s))); auto; [|apply NoDup_pop; exact J3]. rewrite pop_map, filter_In, Nat.eqb_refl. simpl. intuition discriminate.
  - apply Forall_app. split; [exact J7|]. repeat constructor. exact Hlt.
  - intros _. split; [reflexivity|]. split; [apply Forall_app; split; [exact J7|repeat constructor; exact Hlt]|]. apply Forall_app in Ff as [Ff _]. rewrite Forall_map in Ff. exact Ff.
Qed.

(** Restoring the engines *)
Lemma load_fold es : forall s, incoming s = [] -> by_ident s = map swap (engines s) -> hearts s = map swap (engines s) ->
  NoDup (map fst (engines s ++ es)) -> NoDup (map snd (engines s ++ es)) ->
  let s' := fold_left (fun s e => finish_registration false (with_reg s (counter s) (engines s) (set (snd e) (fst e) (incoming s)) (by_ident s) (hearts s)) (snd e)) es s in
  engines s' = engines s ++ es /\ incoming s' = [] /\ by_ident s' = map swap (engines s ++ es) /\ hearts s' = map swap (engines s ++ es) /\ notices s' = notices s.
Proof.
  induction es as [|[eid u] es IH]; intros s Hi Hb Hh H1 H2.
  - simpl. rewrite app_nil_r. auto.
  - cbn [fold_left fst snd]. set (s1 := finish_registration false _ _).
    assert (E : engines s1 = engines s ++ [(eid, u)] /\ incoming s1 = [] /\ by_ident s1 = map swap (engines s ++ [(eid, u)]) /\ hearts s1 = map swap (engines s ++ [(eid, u)]) /\ notices s1 = notices s).
    { unfold s1, finish_registration. cbn [incoming with_reg]. rewrite Hi. cbn [set get]. rewrite Nat.eqb_refl.
      cbn [engines incoming by_ident hearts file notices counter tell with_reg with_tables save_engine_state with_file].
      rewrite !map_app in H1, H2. simpl in H1, H2.
      assert (N1 : ~ In eid (map fst (engines s))) by (intros Hx; apply (NoDup_app_disj _ _ _ H1 Hx); left; reflexivity).
      assert (N2 : ~ In u (map fst (map swap (engines s)))) by (rewrite map_map; intros Hx; apply (NoDup_app_disj _ _ _ H2 Hx); left; reflexivity).
      rewrite Hb, Hh, !set_new by assumption. rewrite map_app. repeat split. unfold pop. simpl. rewrite Nat.eqb_refl. reflexivity. }
    destruct E as (E1 & E2 & E3 & E4 & E5). replace (engines s ++ (eid, u) :: es) with (engines s1 ++ es) by (rewrite E1, <- app_assoc; reflexivity).
    destruct (IH s1) as (R1 & R2 & R3 & R4 & R5).
    + exact E2.
    + rewrite E1. exact E3.
    + rewrite E1. exact E4.
    + rewrite E1, <- app_assoc. exact H1.
    + rewrite E1, <- app_assoc. exact H2.
    + rewrite R5, E5. auto.
Qed.
Lemma present_restart ns : present (ns ++ [Restarted]) = present ns.
Proof. rewrite present_snoc. reflexivity. Qed.
Lemma rinv_restart s : rinv s -> changed_since_restart (notices s) = true -> rinv (restart s).
Proof.
  intros [J1 J2 J3 J4 J5 J6 J7 J8 J9] Hch. specialize (J9 Hch). unfold restart, load_engine_state. cbn [file].
  destruct (file s) as [[es n]|].
  - destruct J9 as (-> & Hb & Hl).
    destruct (load_fold (engines s) (Hub 0 [] [] [] [] (fun _ => None) (fun _ => None) (fun _ => None) [] [] [] (db s) [] (Some (engines s, n)) (notices s ++ [Restarted])) eq_refl eq_refl eq_refl) as (R1 & R2 & R3 & R4 & R5).
    { simpl. apply (NoDup_app_l _ _ J2). } { simpl. apply (NoDup_app_l _ _ J3). }
    cbn [engines app notices] in R1, R2, R3, R4, R5.
    constructor; cbn [engines incoming by_ident hearts file notices counter with_reg]; rewrite ?R1, ?R2, ?R3, ?R4, ?R5; rewrite ?present_snoc, ?been_snoc, ?granted_snoc, ?changed_snoc, ?app_nil_r; cbn [present_step map]; rewrite ?app_nil_r; auto.
    + apply (NoDup_app_l _ _ J2).
    + apply (NoDup_app_l _ _ J3).
    + rewrite Forall_map. exact Hl.
    + discriminate.
  - destruct J9 as (He & Hb). constructor; cbn [engines incoming by_ident hearts file notices counter]; rewrite ?present_snoc, ?been_snoc, ?granted_snoc, ?changed_snoc, ?app_nil_r; cbn [present_step map app]; auto; try constructor.
    + rewrite <- J1. symmetry. exact He.
    + rewrite Hb. constructor.
Qed.

(** A controller is not restarted twice without an engine coming or leaving in between. *)
Definition restarts_ok (es : list event) : Prop :=
  forall pre post, es = pre ++ Restart :: post -> changed_since_restart (notices (exec pre)) = true.
Lemma exec_snoc es e : exec (es ++ [e]) = step (exec es) e.
Proof. unfold exec. rewrite fold_left_app. reflexivity. Qed.
Lemma restarts_ok_snoc es e : restarts_ok (es ++ [e]) -> restarts_ok es /\ (e = Restart -> changed_since_restart (notices (exec es)) = true).
Proof.
  intros H. split.
  - intros pre post E. apply (H pre (post ++ [e])). rewrite E, <- app_assoc. reflexivity.
  - intros ->. apply (H es []). reflexivity.
Qed.
Lemma rinv_step s e : rinv s -> (e = Restart -> changed_since_restart (notices s) = true) -> rinv (step s e).
Proof.
  intros I Hr. destruct (is_message e) eqn:Em; [eapply rinv_same; [apply same_step; exact Em|exact I]|].
  destruct e; try discriminate; simpl.
  - apply rinv_register, I.
  - unfold handle_new_heart. destruct (is_some _); [apply rinv_finish|]; exact I.
  - unfold handle_stopped_heart. destruct (get u (hearts s)) as [eid|]; [|exact I]. destruct (is_some _); [apply rinv_unregister|]; exact I.
  - apply rinv_unregister, I.
  - unfold purge_stalled. destruct (is_some _); [apply rinv_pop_incoming|]; exact I.
  - apply rinv_restart; auto.
Qed.
Lemma rinv_exec es : restarts_ok es -> rinv (exec es).
Proof.
  induction es as [|e es IH] using rev_ind; intros H; [exact rinv_start|]. apply restarts_ok_snoc in H as [H He]. rewrite exec_snoc. apply rinv_step; auto.
Qed.
