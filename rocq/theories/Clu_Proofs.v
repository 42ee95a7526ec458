(** Proofs for C59: invariants of the cluster model. *)
From stdpp Require Import base gmap list strings pretty.
From Coq Require Import ZArith Lia.
From Verif Require Import Clu_Spec Clu_Model.

(** ** Association lists *)
Lemma get_key_Some : forall {A} k (l : list (string * A)) a, get_key k l = Some a -> (k, a) ∈ l.
Proof.
  intros A k l a. induction l as [|[x y] l IH]; [discriminate|]. cbn. destruct (String.eqb_spec x k) as [->|N]; intros H.
  - injection H as ->. left.
  - right. apply IH, H.
Qed.
Lemma get_key_In : forall {A} k (l : list (string * A)) a, NoDup l.*1 -> (k, a) ∈ l -> get_key k l = Some a.
Proof.
  intros A k l a. induction l as [|[x y] l IH]; intros N H; [apply elem_of_nil in H; destruct H|]. cbn in *. apply NoDup_cons in N. destruct N as [N1 N2].
  apply elem_of_cons in H. destruct H as [H|H].
  - injection H as -> ->. rewrite String.eqb_refl. reflexivity.
  - destruct (String.eqb_spec x k) as [->|_]; [|apply IH; assumption]. destruct N1. apply elem_of_list_fmap. exists (k, a). split; [reflexivity | exact H].
Qed.
Lemma get_key_None : forall {A} k (l : list (string * A)), get_key k l = None -> k ∉ l.*1.
Proof.
  intros A k l. induction l as [|[x y] l IH]; cbn; intros H E; [apply elem_of_nil in E; exact E|].
  destruct (String.eqb_spec x k) as [|N]; [discriminate|]. apply elem_of_cons in E. destruct E as [->|E]; [congruence | apply (IH H E)].
Qed.
Lemma drop_key_sub : forall {A} k (l : list (string * A)) x, x ∈ drop_key k l -> x ∈ l.
Proof.
  intros A k l x. induction l as [|[y a] l IH]; intros H; [exact H|]. cbn in H. destruct (String.eqb y k); [right; exact H|].
  apply elem_of_cons in H. destruct H as [->|H]; [left | right; apply IH, H].
Qed.
Lemma drop_key_keep : forall {A} k (l : list (string * A)) x, x ∈ l -> x.1 <> k -> x ∈ drop_key k l.
Proof.
  intros A k l x. induction l as [|[y a] l IH]; intros H N; [exact H|]. cbn. apply elem_of_cons in H. destruct H as [->|H].
  - destruct (String.eqb_spec y k) as [->|]; [cbn in N; congruence | left].
  - destruct (String.eqb y k); [exact H | right; apply IH; assumption].
Qed.
Lemma drop_key_NoDup : forall {A} k (l : list (string * A)), NoDup l.*1 -> NoDup (drop_key k l).*1 /\ k ∉ (drop_key k l).*1.
Proof.
  intros A k l. induction l as [|[y a] l IH]; intros N; [split; [exact N | apply not_elem_of_nil]|]. cbn in *. apply NoDup_cons in N. destruct N as [N1 N2].
  destruct (IH N2) as [I1 I2]. destruct (String.eqb_spec y k) as [->|M]; [split; assumption|]. cbn. split.
  - apply NoDup_cons. split; [|exact I1]. intros H. apply N1. apply elem_of_list_fmap in H. destruct H as (z & -> & Hz). apply elem_of_list_fmap. exists z. split; [reflexivity | eapply drop_key_sub, Hz].
  - intros H. apply elem_of_cons in H. destruct H as [->|H]; [congruence | apply I2, H].
Qed.
Lemma drop_key_NoDup2 : forall {A} k (l : list (string * A)), NoDup l.*2 -> NoDup (drop_key k l).*2.
Proof.
  intros A k l. induction l as [|[y a] l IH]; intros N; [exact N|]. cbn in *. apply NoDup_cons in N. destruct N as [N1 N2].
  destruct (String.eqb y k); [exact N2|]. cbn. apply NoDup_cons. split; [|apply IH, N2]. intros H. apply N1. apply elem_of_list_fmap in H. destruct H as (z & -> & Hz).
  apply elem_of_list_fmap. exists z. split; [reflexivity | eapply drop_key_sub, Hz].
Qed.
Lemma assign_fresh : forall k o l, k ∉ l.*1 -> assign k o l = l ++ [(k, o)].
Proof.
  intros k o l. induction l as [|[x y] l IH]; intros H; [reflexivity|]. cbn in *. rewrite not_elem_of_cons in H. destruct H as [H1 H2].
  destruct (String.eqb_spec x k) as [->|]; [congruence|]. rewrite IH by exact H2. reflexivity.
Qed.
Lemma NoDup_snoc : forall {A} (l : list A) x, NoDup l -> x ∉ l -> NoDup (l ++ [x]).
Proof. intros A l x N H. apply NoDup_app. split; [exact N|]. split; [|apply NoDup_singleton]. intros y Hy E. apply elem_of_list_singleton in E. subst. contradiction. Qed.

(** ** The structure *)
Definition tracked (s : st) (p : pid) : Prop :=
  ctl s = Some (Some p) \/ exists sid o i, owner s !! p = Some (Some (o, i)) /\ (sid, o) ∈ engines s.
Record Struct_ (P : pid -> Prop) (s : st) : Prop := {
  t_alive : forall p, p ∈ alive s -> P p -> lst s !! p = Some Running /\ tracked s p;
  t_fresh : forall p, next s <= p -> p ∉ alive s /\ lst s !! p = None /\ owner s !! p = None /\ p ∉ threads s /\ p ∉ pending s;
  t_pending : forall p, p ∈ pending s -> p ∉ alive s;
  t_known : forall p, p ∈ pending s \/ p ∈ threads s -> is_Some (lst s !! p);
  t_owner : forall p o i, owner s !! p = Some (Some (o, i)) -> lst s !! p = Some Running -> exists e, sets s !! o = Some e /\ (i, Some p) ∈ members e;
  t_member : forall o e i p, sets s !! o = Some e -> (i, Some p) ∈ members e -> owner s !! p = Some (Some (o, i)) /\ lst s !! p = Some Running;
  t_keys : forall o e, sets s !! o = Some e -> NoDup (members e).*1;
  t_after : forall o e, sets s !! o = Some e -> e_state e = After -> members e = [];
  t_sets : forall o e, sets s !! o = Some e -> o < nset s;
  t_engines : forall sid o, (sid, o) ∈ engines s -> exists e, sets s !! o = Some e /\ e_sid e = sid;
  t_ids : NoDup (engines s).*1;
  t_objs : NoDup (engines s).*2;
  t_ctl : forall p, ctl s = Some (Some p) -> owner s !! p = Some None /\ is_Some (lst s !! p);
  t_threads : forall p, lst s !! p = Some Running -> p ∈ threads s \/ p ∈ pending s;
  t_lst : forall p, is_Some (lst s !! p) -> lst s !! p = Some Running \/ lst s !! p = Some After;
  t_tasks : forall sid o, (sid, o) ∈ tasks s -> (forall o', (sid, o') ∈ engines s -> o' = o) /\ o < nset s /\
              (forall e i p, sets s !! o = Some e -> (i, Some p) ∈ members e -> p ∉ alive s) }.

Definition any (p : pid) : Prop := True.
Notation Struct := (Struct_ any).
Lemma Struct_init : Struct init.
Proof.
  constructor; cbn; intros; repeat match goal with
  | H : _ ∈ alive init |- _ => apply elem_of_empty in H; destruct H
  | H : _ ∈ ∅ |- _ => apply elem_of_empty in H; destruct H
  | H : _ ∈ [] |- _ => apply elem_of_nil in H; destruct H
  | H : _ \/ _ |- _ => destruct H
  | H : ∅ !! _ = Some _ |- _ => rewrite lookup_empty in H; discriminate
  | H : is_Some (∅ !! _) |- _ => rewrite lookup_empty in H; destruct H; discriminate
  end; try discriminate; try apply NoDup_nil_2.
  repeat split; try apply not_elem_of_empty; apply not_elem_of_nil.
Qed.

(** *** Things that do not matter for it *)
Lemma Struct_file : forall f s, Struct s -> Struct (put_file f s).
Proof. intros f s []. constructor; assumption. Qed.
Lemma Struct_notices : forall f s, Struct s -> Struct (put_notices f s).
Proof. intros f s []. constructor; assumption. Qed.
Section cluster.
Context (W : world) (saving : bool).
Notation update := (update_cluster_file saving).
Lemma Struct_update : forall s, Struct s -> Struct (update s).
Proof. intros s H. unfold update_cluster_file. destruct saving; [|exact H]. destruct (is_running s); apply Struct_file, H. Qed.

(** *** Ends of processes *)
Lemma Struct_die : forall A s, A ⊆ alive s -> Struct s -> Struct (put_alive A s).
Proof.
  intros A s HA []. constructor; cbn; try assumption.
  - intros p H X. apply t_alive0; [apply HA, H | exact X].
  - intros p H. destruct (t_fresh0 p H) as (F & R). split; [|exact R]. intros X. apply F, HA, X.
  - intros p H X. apply (t_pending0 p H), HA, X.
  - intros sid o H. destruct (t_tasks0 sid o H) as (T1 & T2 & T3). split; [exact T1|]. split; [exact T2|]. intros e i p He Hm X. apply (T3 e i p He Hm), HA, X.
Qed.
Lemma Struct_thread : forall p s, p ∉ alive s -> Struct s -> Struct (thread_ends p s).
Proof.
  intros p s D H. unfold thread_ends. case_bool_decide as T; [|exact H]. destruct H. constructor; cbn; try assumption.
  - intros q Hq. destruct (t_fresh0 q Hq) as (F1 & F2 & F3 & F4 & F5). repeat split; try assumption.
    + intros X. apply elem_of_difference in X. apply F4, X.
    + intros X. apply elem_of_app in X. destruct X as [X|X]; [exact (F5 X)|]. apply elem_of_list_singleton in X. subst. contradiction.
  - intros q Hq. apply elem_of_app in Hq. destruct Hq as [Hq|Hq]; [apply t_pending0, Hq|]. apply elem_of_list_singleton in Hq. subst. exact D.
  - intros q Hq. apply t_known0. destruct Hq as [Hq|Hq].
    + apply elem_of_app in Hq. destruct Hq as [Hq|Hq]; [left; exact Hq|]. apply elem_of_list_singleton in Hq. subst. right. exact T.
    + apply elem_of_difference in Hq. right. apply Hq.
  - intros q Hq. destruct (decide (q = p)) as [->|N]; [right; apply elem_of_app; right; apply elem_of_list_singleton; reflexivity|].
    destruct (t_threads0 q Hq) as [X|X]; [left; apply elem_of_difference; split; [exact X | intros Y; apply elem_of_singleton in Y; contradiction] | right; apply elem_of_app; left; exact X].
Qed.
(** What stopping processes leaves as it is *)
Record Same (s s' : st) : Prop := {
  m_next : next s' = next s; m_lst : lst s' = lst s; m_owner : owner s' = owner s; m_sets : sets s' = sets s; m_nset : nset s' = nset s;
  m_ctl : ctl s' = ctl s; m_engines : engines s' = engines s; m_file : file s' = file s; m_tasks : tasks s' = tasks s; m_notices : notices s' = notices s;
  m_alive : alive s' ⊆ alive s }.
Lemma Same_refl : forall s, Same s s. Proof. intros s. constructor; reflexivity. Qed.
Lemma Same_trans : forall a b c, Same a b -> Same b c -> Same a c.
Proof. intros a b c [] []. constructor; try congruence. etransitivity; eassumption. Qed.
Lemma Same_thread : forall p s, Same s (thread_ends p s).
Proof. intros p s. unfold thread_ends. case_bool_decide; constructor; reflexivity. Qed.
Lemma stop_process_spec : forall p s s' ok, Struct s -> stop_process W p s = (s', ok) ->
  Struct s' /\ Same s s' /\ (ok = true -> p ∉ alive s') /\ (ok = false -> p ∈ alive s' /\ immortal W p = true).
Proof.
  intros p s s' ok H E. unfold stop_process in E. case_bool_decide as R.
  - destruct (bool_decide (p ∈ alive s) && immortal W p) eqn:I.
    + injection E as <- <-. apply andb_true_iff in I. destruct I as [I1 I2]. apply bool_decide_eq_true in I1. split; [exact H|]. split; [apply Same_refl|]. split; [discriminate | split; assumption].
    + injection E as <- <-. split; [|split; [|split]].
      * apply Struct_thread; [cbn; intros X; apply elem_of_difference in X; destruct X as [_ X]; apply X, elem_of_singleton; reflexivity|].
        apply Struct_die; [apply subseteq_difference_l; reflexivity | exact H].
      * eapply Same_trans; [|apply Same_thread]. constructor; try reflexivity. cbn. apply subseteq_difference_l; reflexivity.
      * intros _. unfold thread_ends. assert (X : p ∉ alive s ∖ {[p]}) by (intros X; apply elem_of_difference in X; destruct X as [_ X]; apply X, elem_of_singleton; reflexivity).
        destruct (bool_decide (p ∈ threads _)); exact X.
      * discriminate.
  - injection E as <- <-. split; [exact H|]. split; [apply Same_refl|]. split; [|discriminate]. intros _ X. apply R. apply (t_alive _ _ H p X Logic.I).
Qed.
Lemma stop_processes_spec : forall l s s' ok, Struct s -> stop_processes W l s = (s', ok) ->
  Struct s' /\ Same s s' /\ (ok = true -> forall p, p ∈ l -> p ∉ alive s') /\ (ok = false -> exists p, p ∈ l /\ p ∈ alive s' /\ immortal W p = true).
Proof.
  induction l as [|p l IH]; intros s s' ok H E.
  - injection E as <- <-. split; [exact H|]. split; [apply Same_refl|]. split; [|discriminate]. intros _ p Hp. apply elem_of_nil in Hp. destruct Hp.
  - cbn in E. destruct (stop_process W p s) as [s1 ok1] eqn:E1. destruct (stop_processes W l s1) as [s2 ok2] eqn:E2. injection E as <- <-.
    destruct (stop_process_spec _ _ _ _ H E1) as (S1 & M1 & O1 & F1). destruct (IH _ _ _ S1 E2) as (S2 & M2 & O2 & F2).
    split; [exact S2|]. split; [eapply Same_trans; eassumption|]. split.
    + intros K. apply andb_true_iff in K. destruct K as [K1 K2]. intros q Hq. apply elem_of_cons in Hq. destruct Hq as [->|Hq]; [|apply O2; assumption].
      intros X. apply (O1 K1). apply (m_alive _ _ M2), X.
    + intros K. destruct ok2; [|destruct (F2 eq_refl) as (q & Q1 & Q2); exists q; split; [right; exact Q1 | exact Q2]].
      rewrite andb_true_r in K. destruct (F1 K) as [X I]. exists p. split; [left|]. split; [|exact I].
      (* an immortal process is not stopped by the others *)
      clear -X I E2. revert s1 s2 E2 X. generalize true. induction l as [|q l IH]; intros b s1 s2 E2 X; [injection E2 as <- _; exact X|].
      cbn in E2. destruct (stop_process W q s1) as [s3 ok3] eqn:E3. destruct (stop_processes W l s3) as [s4 ok4] eqn:E4. injection E2 as <- _.
      apply (IH _ _ _ E4). unfold stop_process in E3. case_bool_decide; [|injection E3 as <- _; exact X].
      destruct (bool_decide (q ∈ alive s1) && immortal W q) eqn:J; [injection E3 as <- _; exact X|].
      injection E3 as <- _. assert (N : p <> q) by (intros ->; rewrite I, bool_decide_eq_true_2 in J by exact X; discriminate).
      unfold thread_ends. destruct (bool_decide (q ∈ threads _)); cbn; apply elem_of_difference; (split; [exact X | intros Y; apply elem_of_singleton in Y; contradiction]).
Qed.

(** *** Stop notices *)
Lemma Struct_engine_stopped : forall p o i code s, Struct s -> p ∉ alive s -> owner s !! p = Some (Some (o, i)) -> lst s !! p = Some Running ->
  Struct (engine_stopped saving o i code (put_lst (<[p := After]> (lst s)) s)).
Proof.
  intros p o i code s H D O L. destruct (t_owner _ _ H _ _ _ O L) as (e & He & Hm).
  unfold engine_stopped. cbn [sets put_lst]. rewrite He. rewrite (get_key_In _ _ _ (t_keys _ _ H _ _ He) Hm).
  assert (G : forall x en, (x = After -> drop_key i (members e) = []) -> Struct (put_sets (<[o := ESet (e_sid e) (e_n e) x (drop_key i (members e)) en (e_callback e)]> (sets s)) (put_lst (<[p := After]> (lst s)) s))).
  { intros x en HA. destruct (drop_key_NoDup i (members e) (t_keys _ _ H _ _ He)) as [K1 K2]. constructor; cbn.
    - intros q Hq X. destruct (decide (q = p)) as [->|N]; [contradiction|]. rewrite lookup_insert_ne by congruence. exact (t_alive _ _ H q Hq X).
    - intros q Hq. destruct (t_fresh _ _ H q Hq) as (F1 & F2 & F3). split; [exact F1|]. split; [|exact F3]. rewrite lookup_insert_ne; [exact F2 | intros <-; congruence].
    - apply (t_pending _ _ H).
    - intros q Hq. destruct (decide (q = p)) as [->|N]; [rewrite lookup_insert; eexists; reflexivity | rewrite lookup_insert_ne by congruence; exact (t_known _ _ H q Hq)].
    - intros q o' i' Q1 Q2. destruct (decide (q = p)) as [->|N]; [rewrite lookup_insert in Q2; discriminate|]. rewrite lookup_insert_ne in Q2 by congruence.
      destruct (t_owner _ _ H _ _ _ Q1 Q2) as (e' & He' & Hm'). destruct (decide (o' = o)) as [->|No].
      + rewrite lookup_insert. eexists. split; [reflexivity|]. cbn. rewrite He in He'. injection He' as <-. apply drop_key_keep; [exact Hm'|]. cbn. intros ->.
        pose proof (get_key_In _ _ _ (t_keys _ _ H _ _ He) Hm) as X1. rewrite (get_key_In _ _ _ (t_keys _ _ H _ _ He) Hm') in X1. congruence.
      + rewrite lookup_insert_ne by congruence. exists e'. split; assumption.
    - intros o' e' i' q He' Hm'. assert (Q : owner s !! q = Some (Some (o', i')) /\ lst s !! q = Some Running /\ q <> p).
      { destruct (decide (o' = o)) as [->|No].
        - rewrite lookup_insert in He'. injection He' as <-. cbn in Hm'. destruct (t_member _ _ H _ _ _ _ He (drop_key_sub _ _ _ Hm')) as [Q1 Q2].
          split; [exact Q1|]. split; [exact Q2|]. intros ->. apply K2. apply elem_of_list_fmap. exists (i', Some p). split; [|exact Hm']. cbn. rewrite O in Q1. congruence.
        - rewrite lookup_insert_ne in He' by congruence. destruct (t_member _ _ H _ _ _ _ He' Hm') as [Q1 Q2]. split; [exact Q1|]. split; [exact Q2|]. intros ->. rewrite O in Q1. congruence. }
      destruct Q as (Q1 & Q2 & Q3). split; [exact Q1|]. rewrite lookup_insert_ne by congruence. exact Q2.
    - intros o' e' He'. destruct (decide (o' = o)) as [->|No]; [rewrite lookup_insert in He'; injection He' as <-; exact K1 | rewrite lookup_insert_ne in He' by congruence; exact (t_keys _ _ H _ _ He')].
    - intros o' e' He' X. destruct (decide (o' = o)) as [->|No]; [rewrite lookup_insert in He'; injection He' as <-; apply HA, X | rewrite lookup_insert_ne in He' by congruence; exact (t_after _ _ H _ _ He' X)].
    - intros o' e' He'. destruct (decide (o' = o)) as [->|No]; [exact (t_sets _ _ H _ _ He) | rewrite lookup_insert_ne in He' by congruence; exact (t_sets _ _ H _ _ He')].
    - intros sid o' Hs. destruct (t_engines _ _ H _ _ Hs) as (e' & He' & Hid). destruct (decide (o' = o)) as [->|No].
      + rewrite lookup_insert. eexists. split; [reflexivity|]. cbn. congruence.
      + rewrite lookup_insert_ne by congruence. exists e'. split; assumption.
    - apply (t_ids _ _ H).
    - apply (t_objs _ _ H).
    - intros q Hq. destruct (t_ctl _ _ H q Hq) as [Q1 Q2]. split; [exact Q1|]. destruct (decide (q = p)) as [->|N]; [rewrite lookup_insert; eexists; reflexivity | rewrite lookup_insert_ne by congruence; exact Q2].
    - intros q Hq. destruct (decide (q = p)) as [->|N]; [rewrite lookup_insert in Hq; discriminate|]. rewrite lookup_insert_ne in Hq by congruence. exact (t_threads _ _ H q Hq).
    - intros q Hq. destruct (decide (q = p)) as [->|N]; [rewrite lookup_insert; right; reflexivity|]. rewrite lookup_insert_ne in * by congruence. exact (t_lst _ _ H q Hq).
    - intros sid o' Ht. destruct (t_tasks _ _ H _ _ Ht) as (T1 & T2 & T3). split; [exact T1|]. split; [exact T2|]. intros e' i' q He' Hm'.
      destruct (decide (o' = o)) as [->|No].
      + rewrite lookup_insert in He'. injection He' as <-. cbn in Hm'. exact (T3 _ _ _ He (drop_key_sub _ _ _ Hm')).
      + rewrite lookup_insert_ne in He' by congruence. exact (T3 _ _ _ He' Hm'). }
  destruct (drop_key i (members e)) as [|m ms] eqn:Dk.
  - destruct (decide (e_state e = After)) as [A|A]; [apply G; intros; reflexivity|].
    destruct (e_callback e).
    + apply Struct_update, Struct_notices, G. intros; reflexivity.
    + apply G. intros; reflexivity.
  - apply G. intros X. pose proof (t_after _ _ H _ _ He X) as Y. rewrite Y in Hm. apply elem_of_nil in Hm. destruct Hm.
Qed.
Lemma Struct_after : forall p s, Struct s -> p ∉ alive s -> (forall x, owner s !! p <> Some (Some x)) -> is_Some (lst s !! p) -> Struct (put_lst (<[p := After]> (lst s)) s).
Proof.
  intros p s H D O L. assert (M : forall o e i q, sets s !! o = Some e -> (i, Some q) ∈ members e -> q <> p).
  { intros o e i q He Hm ->. destruct (t_member _ _ H _ _ _ _ He Hm) as [X _]. exact (O _ X). }
  destruct H. constructor; cbn; try assumption.
  - intros q Hq X. destruct (decide (q = p)) as [->|N]; [contradiction|]. rewrite lookup_insert_ne by congruence. exact (t_alive0 q Hq X).
  - intros q Hq. destruct (t_fresh0 q Hq) as (F1 & F2 & F3). split; [exact F1|]. split; [|exact F3]. rewrite lookup_insert_ne; [exact F2 | intros <-; rewrite F2 in L; destruct L; discriminate].
  - intros q Hq. destruct (decide (q = p)) as [->|N]; [rewrite lookup_insert; eexists; reflexivity | rewrite lookup_insert_ne by congruence; exact (t_known0 q Hq)].
  - intros q o i Q1 Q2. destruct (decide (q = p)) as [->|N]; [rewrite lookup_insert in Q2; discriminate|]. rewrite lookup_insert_ne in Q2 by congruence. exact (t_owner0 q o i Q1 Q2).
  - intros o e i q He Hm. rewrite lookup_insert_ne by (intros E; symmetry in E; exact (M _ _ _ _ He Hm E)). exact (t_member0 o e i q He Hm).
  - intros q Hq. destruct (t_ctl0 q Hq) as [Q1 Q2]. split; [exact Q1|]. destruct (decide (q = p)) as [->|N]; [rewrite lookup_insert; eexists; reflexivity | rewrite lookup_insert_ne by congruence; exact Q2].
  - intros q Hq. destruct (decide (q = p)) as [->|N]; [rewrite lookup_insert in Hq; discriminate|]. rewrite lookup_insert_ne in Hq by congruence. exact (t_threads0 q Hq).
  - intros q Hq. destruct (decide (q = p)) as [->|N]; [rewrite lookup_insert; right; reflexivity|]. rewrite lookup_insert_ne in * by congruence. exact (t_lst0 q Hq).
Qed.
Lemma Struct_notify : forall p s, Struct s -> p ∉ alive s -> is_Some (lst s !! p) -> Struct (notify_stop W saving p s).
Proof.
  intros p s H D L. unfold notify_stop. case_bool_decide as A; [exact H|]. cbn [owner put_lst].
  destruct (owner s !! p) as [[[o i]|]|] eqn:O.
  - destruct (t_lst _ _ H p L) as [R|R]; [|congruence]. apply Struct_engine_stopped; assumption.
  - apply Struct_update, Struct_notices, Struct_after; try assumption. intros x. rewrite O. discriminate.
  - apply Struct_after; try assumption. intros x. rewrite O. discriminate.
Qed.

(** *** Starting *)
Lemma lookup_neq : forall {A} (m : gmap nat A) p q x, p <> q -> <[p := x]> m !! q = m !! q.
Proof. intros. apply lookup_insert_ne. assumption. Qed.
Lemma Struct_spawn_ctl : forall s, Struct s -> ctl s = None -> Struct (put_ctl (Some (Some (next s))) (spawn None s)).
Proof.
  intros s H C. destruct (t_fresh _ _ H (next s) (Nat.le_refl _)) as (F1 & F2 & F3 & F4 & F5).
  assert (NE : forall q, is_Some (lst s !! q) -> next s <> q) by (intros q Q <-; rewrite F2 in Q; destruct Q; discriminate).
  destruct H. constructor; cbn; try assumption.
  - intros q Hq _. apply elem_of_union in Hq. destruct Hq as [Hq|Hq].
    + apply elem_of_singleton in Hq. subst. rewrite lookup_insert. split; [reflexivity|]. left. reflexivity.
    + destruct (t_alive0 q Hq Logic.I) as [L T]. rewrite lookup_neq by (apply NE; rewrite L; eexists; reflexivity). split; [exact L|]. right. destruct T as [T|T]; [congruence|].
      cbn. rewrite lookup_neq by (apply NE; rewrite L; eexists; reflexivity). exact T.
  - intros q Hq. destruct (t_fresh0 q ltac:(lia)) as (G1 & G2 & G3 & G4 & G5). assert (next s <> q) by lia. rewrite !lookup_neq by assumption.
    repeat split; try assumption; intros X; apply elem_of_union in X; destruct X as [X|X]; try (apply elem_of_singleton in X; congruence); contradiction.
  - intros q Hq X. apply elem_of_union in X. destruct X as [X|X]; [apply elem_of_singleton in X; subst; contradiction | exact (t_pending0 q Hq X)].
  - intros q Hq. destruct (decide (next s = q)) as [<-|N]; [rewrite lookup_insert; eexists; reflexivity|]. rewrite lookup_neq by exact N. apply t_known0.
    destruct Hq as [Hq|Hq]; [left; exact Hq|]. apply elem_of_union in Hq. destruct Hq as [Hq|Hq]; [apply elem_of_singleton in Hq; congruence | right; exact Hq].
  - intros q o i Q1 Q2. destruct (decide (next s = q)) as [<-|N]; [rewrite lookup_insert in Q1; discriminate|]. rewrite lookup_neq in Q1 by exact N. rewrite lookup_neq in Q2 by exact N. exact (t_owner0 q o i Q1 Q2).
  - intros o e i q He Hm. destruct (t_member0 o e i q He Hm) as [Q1 Q2]. assert (next s <> q) by (apply NE; rewrite Q2; eexists; reflexivity). rewrite !lookup_neq by assumption. split; assumption.
  - intros q Hq. injection Hq as <-. rewrite !lookup_insert. split; [reflexivity | eexists; reflexivity].
  - intros q Hq. destruct (decide (next s = q)) as [<-|N]; [left; apply elem_of_union; left; apply elem_of_singleton; reflexivity|]. rewrite lookup_neq in Hq by exact N.
    destruct (t_threads0 q Hq) as [X|X]; [left; apply elem_of_union; right; exact X | right; exact X].
  - intros q Hq. destruct (decide (next s = q)) as [<-|N]; [rewrite lookup_insert; left; reflexivity|]. rewrite lookup_neq in * by exact N. exact (t_lst0 q Hq).
  - intros sid o Ht. destruct (t_tasks0 sid o Ht) as (T1 & T2 & T3). split; [exact T1|]. split; [exact T2|]. intros e i q He Hm X. apply elem_of_union in X. destruct X as [X|X]; [|exact (T3 e i q He Hm X)].
    apply elem_of_singleton in X. subst. destruct (t_member0 o e i _ He Hm) as [_ Q2]. congruence.
Qed.
Lemma Struct_ctl : forall c s, Struct s -> (forall p, ctl s = Some (Some p) -> p ∉ alive s) -> c = None \/ c = Some None -> Struct (put_ctl c s).
Proof.
  intros c s [] D C. constructor; cbn; try assumption.
  - intros p Hp _. destruct (t_alive0 p Hp Logic.I) as [L [T|T]]; [destruct (D p T Hp)|]. split; [exact L | right; exact T].
  - intros p Hp. destruct C; subst; discriminate.
Qed.
Lemma Struct_set_change : forall P o e e' s, Struct_ P s -> sets s !! o = Some e -> (forall i p, (i, Some p) ∈ members e' <-> (i, Some p) ∈ members e) ->
  NoDup (members e').*1 -> (e_state e' = After -> members e' = []) -> e_sid e' = e_sid e -> Struct_ P (put_sets (<[o := e']> (sets s)) s).
Proof.
  intros P o e e' s H He M K A D. destruct H. constructor; cbn; try assumption.
  - intros p o' i Q1 Q2. destruct (t_owner0 p o' i Q1 Q2) as (e1 & E1 & E2). destruct (decide (o = o')) as [<-|N].
    + rewrite lookup_insert. exists e'. split; [reflexivity|]. apply M. congruence.
    + rewrite lookup_neq by exact N. exists e1. split; assumption.
  - intros o' e1 i p E1 E2. destruct (decide (o = o')) as [<-|N].
    + rewrite lookup_insert in E1. injection E1 as <-. apply M in E2. exact (t_member0 o e i p He E2).
    + rewrite lookup_neq in E1 by exact N. exact (t_member0 o' e1 i p E1 E2).
  - intros o' e1 E1. destruct (decide (o = o')) as [<-|N]; [rewrite lookup_insert in E1; injection E1 as <-; exact K | rewrite lookup_neq in E1 by exact N; exact (t_keys0 o' e1 E1)].
  - intros o' e1 E1 X. destruct (decide (o = o')) as [<-|N]; [rewrite lookup_insert in E1; injection E1 as <-; exact (A X) | rewrite lookup_neq in E1 by exact N; exact (t_after0 o' e1 E1 X)].
  - intros o' e1 E1. destruct (decide (o = o')) as [<-|N]; [exact (t_sets0 o e He) | rewrite lookup_neq in E1 by exact N; exact (t_sets0 o' e1 E1)].
  - intros sid o' Hs. destruct (t_engines0 sid o' Hs) as (e1 & E1 & E2). destruct (decide (o = o')) as [<-|N].
    + rewrite lookup_insert. exists e'. split; [reflexivity|]. congruence.
    + rewrite lookup_neq by exact N. exists e1. split; assumption.
  - intros sid o' Ht. destruct (t_tasks0 sid o' Ht) as (T1 & T2 & T3). split; [exact T1|]. split; [exact T2|]. intros e1 i p E1 E2.
    destruct (decide (o = o')) as [<-|N]; [rewrite lookup_insert in E1; injection E1 as <-; apply M in E2; exact (T3 e i p He E2) | rewrite lookup_neq in E1 by exact N; exact (T3 e1 i p E1 E2)].
Qed.
Lemma Struct_launch1 : forall sid o e i s, Struct s -> sets s !! o = Some e -> (sid, o) ∈ engines s -> e_state e <> After -> ident i ∉ (members e).*1 ->
  (forall sid', (sid', o) ∉ tasks s) ->
  Struct (put_sets (<[o := ESet (e_sid e) (e_n e) (e_state e) (members e ++ [(ident i, Some (next s))]) (ended e) (e_callback e)]> (sets s)) (spawn (Some (o, ident i)) s)).
Proof.
  intros sid o e i s H He Hs NA K NT. destruct (t_fresh _ _ H (next s) (Nat.le_refl _)) as (F1 & F2 & F3 & F4 & F5).
  assert (NE : forall q, is_Some (lst s !! q) -> next s <> q) by (intros q Q <-; rewrite F2 in Q; destruct Q; discriminate).
  assert (NO : forall q, is_Some (owner s !! q) -> next s <> q) by (intros q Q <-; rewrite F3 in Q; destruct Q; discriminate).
  destruct H. constructor; cbn; try assumption.
  - intros q Hq _. apply elem_of_union in Hq. destruct Hq as [Hq|Hq].
    + apply elem_of_singleton in Hq. subst. rewrite lookup_insert. split; [reflexivity|]. right. exists sid, o, (ident i). cbn. rewrite lookup_insert. split; [reflexivity | exact Hs].
    + destruct (t_alive0 q Hq Logic.I) as [L T]. assert (next s <> q) by (apply NE; rewrite L; eexists; reflexivity). rewrite lookup_neq by assumption. split; [exact L|].
      destruct T as [T|T]; [left; exact T | right; cbn; rewrite lookup_neq by assumption; exact T].
  - intros q Hq. destruct (t_fresh0 q ltac:(lia)) as (G1 & G2 & G3 & G4 & G5). assert (next s <> q) by lia. rewrite !lookup_neq by assumption.
    repeat split; try assumption; intros X; apply elem_of_union in X; destruct X as [X|X]; try (apply elem_of_singleton in X; congruence); contradiction.
  - intros q Hq X. apply elem_of_union in X. destruct X as [X|X]; [apply elem_of_singleton in X; subst; contradiction | exact (t_pending0 q Hq X)].
  - intros q Hq. destruct (decide (next s = q)) as [<-|N]; [rewrite lookup_insert; eexists; reflexivity|]. rewrite lookup_neq by exact N. apply t_known0.
    destruct Hq as [Hq|Hq]; [left; exact Hq|]. apply elem_of_union in Hq. destruct Hq as [Hq|Hq]; [apply elem_of_singleton in Hq; congruence | right; exact Hq].
  - intros q o' i' Q1 Q2. destruct (decide (next s = q)) as [<-|N].
    + rewrite lookup_insert in Q1. injection Q1 as <- <-. rewrite lookup_insert. eexists. split; [reflexivity|]. cbn. apply elem_of_app. right. apply elem_of_list_singleton. reflexivity.
    + rewrite lookup_neq in Q1 by exact N. rewrite lookup_neq in Q2 by exact N. destruct (t_owner0 q o' i' Q1 Q2) as (e1 & E1 & E2). destruct (decide (o = o')) as [<-|No].
      * rewrite lookup_insert. eexists. split; [reflexivity|]. cbn. apply elem_of_app. left. congruence.
      * rewrite lookup_neq by exact No. exists e1. split; assumption.
  - intros o' e1 i' q E1 E2. destruct (decide (o = o')) as [<-|No].
    + rewrite lookup_insert in E1. injection E1 as <-. cbn in E2. apply elem_of_app in E2. destruct E2 as [E2|E2].
      * destruct (t_member0 o e i' q He E2) as [Q1 Q2]. assert (next s <> q) by (apply NE; rewrite Q2; eexists; reflexivity). rewrite !lookup_neq by assumption. split; assumption.
      * apply elem_of_list_singleton in E2. injection E2 as -> ->. rewrite !lookup_insert. split; reflexivity.
    + rewrite lookup_neq in E1 by exact No. destruct (t_member0 o' e1 i' q E1 E2) as [Q1 Q2]. assert (next s <> q) by (apply NE; rewrite Q2; eexists; reflexivity). rewrite !lookup_neq by assumption. split; assumption.
  - intros o' e1 E1. destruct (decide (o = o')) as [<-|No]; [|rewrite lookup_neq in E1 by exact No; exact (t_keys0 o' e1 E1)].
    rewrite lookup_insert in E1. injection E1 as <-. cbn. rewrite fmap_app. apply NoDup_snoc; [exact (t_keys0 o e He) | exact K].
  - intros o' e1 E1 X. destruct (decide (o = o')) as [<-|No]; [|rewrite lookup_neq in E1 by exact No; exact (t_after0 o' e1 E1 X)].
    rewrite lookup_insert in E1. injection E1 as <-. cbn in X. contradiction.
  - intros o' e1 E1. destruct (decide (o = o')) as [<-|No]; [exact (t_sets0 o e He) | rewrite lookup_neq in E1 by exact No; exact (t_sets0 o' e1 E1)].
  - intros sid' o' Hs'. destruct (t_engines0 sid' o' Hs') as (e1 & E1 & E2). destruct (decide (o = o')) as [<-|No].
    + rewrite lookup_insert. eexists. split; [reflexivity|]. cbn. congruence.
    + rewrite lookup_neq by exact No. exists e1. split; assumption.
  - intros q Hq. destruct (t_ctl0 q Hq) as [Q1 Q2]. pose proof (NE q Q2). rewrite !lookup_neq by assumption. split; assumption.
  - intros q Hq. destruct (decide (next s = q)) as [<-|N]; [left; apply elem_of_union; left; apply elem_of_singleton; reflexivity|]. rewrite lookup_neq in Hq by exact N.
    destruct (t_threads0 q Hq) as [X|X]; [left; apply elem_of_union; right; exact X | right; exact X].
  - intros q Hq. destruct (decide (next s = q)) as [<-|N]; [rewrite lookup_insert; left; reflexivity|]. rewrite lookup_neq in * by exact N. exact (t_lst0 q Hq).
  - intros sid' o' Ht. destruct (t_tasks0 sid' o' Ht) as (T1 & T2 & T3). split; [exact T1|]. split; [exact T2|]. destruct (decide (o = o')) as [<-|No]; [destruct (NT _ Ht)|].
    intros e1 i' q E1 E2 X. rewrite lookup_neq in E1 by exact No. apply elem_of_union in X. destruct X as [X|X]; [|exact (T3 e1 i' q E1 E2 X)].
    apply elem_of_singleton in X. subst. destruct (t_member0 o' e1 i' _ E1 E2) as [_ Q2]. congruence.
Qed.
Record Launched (o : nat) (s s' : st) : Prop := {
  l_engines : engines s' = engines s; l_tasks : tasks s' = tasks s; l_ctl : ctl s' = ctl s; l_file : file s' = file s; l_nset : nset s' = nset s; l_next : next s <= next s';
  l_notices : notices s' = notices s; l_others : forall o', o' <> o -> sets s' !! o' = sets s !! o' }.
Lemma ident_inj : forall i j, ident i = ident j -> i = j.
Proof. intros i j H. unfold ident in H. exact (inj pretty _ _ H). Qed.
Lemma launch_spec : forall k sid o e i s, Struct s -> sets s !! o = Some e -> (sid, o) ∈ engines s -> e_state e <> After ->
  (forall x, x ∈ (members e).*1 -> exists j, j < i /\ x = ident j) -> (forall sid', (sid', o) ∉ tasks s) ->
  Struct (launch o k i s) /\ Launched o s (launch o k i s) /\
  exists e', sets (launch o k i s) !! o = Some e' /\ e_sid e' = e_sid e /\ e_n e' = e_n e /\ e_state e' = e_state e /\ ended e' = ended e /\ e_callback e' = e_callback e /\
    members e' = members e ++ imap (fun j _ => (ident (i + j), Some (next s + j))) (replicate k tt) /\ next (launch o k i s) = next s + k.
Proof.
  induction k as [|k IH]; intros sid o e i s H He Hs NA K NT.
  - cbn. split; [exact H|]. split; [constructor; reflexivity|]. exists e. rewrite app_nil_r. repeat split; try assumption; lia.
  - cbn [launch]. cbn [sets spawn]. rewrite He.
    set (s1 := put_sets _ (spawn (Some (o, ident i)) s)).
    assert (N : ident i ∉ (members e).*1) by (intros X; destruct (K _ X) as (j & J1 & J2); apply ident_inj in J2; lia).
    assert (S1 : Struct s1) by (apply (Struct_launch1 sid); assumption).
    assert (E1 : sets s1 !! o = Some (ESet (e_sid e) (e_n e) (e_state e) (members e ++ [(ident i, Some (next s))]) (ended e) (e_callback e))) by (cbn; apply lookup_insert).
    destruct (IH sid o _ (S i) s1 S1 E1 Hs NA) as (R1 & R2 & e' & R3 & R4 & R5 & R6 & R7 & R8 & R9 & R10).
    + intros x Hx. cbn in Hx. rewrite fmap_app in Hx. apply elem_of_app in Hx. destruct Hx as [Hx|Hx]; [destruct (K _ Hx) as (j & J1 & ->); exists j; split; [lia | reflexivity]|].
      apply elem_of_list_singleton in Hx. exists i. split; [lia | exact Hx].
    + exact NT.
    + split; [exact R1|]. split.
      * destruct R2. constructor; cbn in *; try assumption; [lia|]. intros o' No. rewrite l_others0 by exact No. apply lookup_insert_ne. congruence.
      * exists e'. repeat split; try assumption.
        -- rewrite R9. cbn. rewrite <- app_assoc. cbn. rewrite !Nat.add_0_r. f_equal. f_equal. apply imap_ext. intros j x _. cbn. f_equal; [f_equal; lia | f_equal; lia].
        -- rewrite R10. cbn. lia.
Qed.
Lemma Struct_new_set : forall sid n s, Struct s -> sid ∉ (engines s).*1 -> sid ∉ (tasks s).*1 ->
  Struct (St (alive s) (next s) (lst s) (owner s) (threads s) (pending s) (<[nset s := ESet sid n Before [] [] false]> (sets s)) (S (nset s)) (ctl s)
             (assign sid (nset s) (engines s)) (file s) (tasks s) (notices s)).
Proof.
  intros sid n s H F T. assert (NS : sets s !! nset s = None).
  { destruct (sets s !! nset s) eqn:E; [|reflexivity]. pose proof (t_sets _ _ H _ _ E). lia. }
  assert (NO : forall o, is_Some (sets s !! o) -> nset s <> o) by (intros o Q <-; rewrite NS in Q; destruct Q; discriminate).
  rewrite assign_fresh by exact F. destruct H. constructor; cbn; try assumption.
  - intros q Hq X. destruct (t_alive0 q Hq X) as [L T']. split; [exact L|]. destruct T' as [T'|(sid' & o & i & T1 & T2)]; [left; exact T'|]. right. exists sid', o, i. split; [exact T1|]. apply elem_of_app. left. exact T2.
  - intros q o i Q1 Q2. destruct (t_owner0 q o i Q1 Q2) as (e & E1 & E2). exists e. rewrite lookup_neq by (apply NO; rewrite E1; eexists; reflexivity). split; assumption.
  - intros o e i q E1 E2. destruct (decide (nset s = o)) as [<-|N]; [rewrite lookup_insert in E1; injection E1 as <-; apply elem_of_nil in E2; destruct E2|]. rewrite lookup_neq in E1 by exact N. exact (t_member0 o e i q E1 E2).
  - intros o e E1. destruct (decide (nset s = o)) as [<-|N]; [rewrite lookup_insert in E1; injection E1 as <-; apply NoDup_nil_2 | rewrite lookup_neq in E1 by exact N; exact (t_keys0 o e E1)].
  - intros o e E1 X. destruct (decide (nset s = o)) as [<-|N]; [rewrite lookup_insert in E1; injection E1 as <-; reflexivity | rewrite lookup_neq in E1 by exact N; exact (t_after0 o e E1 X)].
  - intros o e E1. destruct (decide (nset s = o)) as [<-|N]; [lia | rewrite lookup_neq in E1 by exact N; pose proof (t_sets0 o e E1); lia].
  - intros sid' o Hs. apply elem_of_app in Hs. destruct Hs as [Hs|Hs].
    + destruct (t_engines0 sid' o Hs) as (e & E1 & E2). exists e. rewrite lookup_neq by (apply NO; rewrite E1; eexists; reflexivity). split; assumption.
    + apply elem_of_list_singleton in Hs. injection Hs as -> ->. rewrite lookup_insert. eexists. split; reflexivity.
  - rewrite fmap_app. apply NoDup_snoc; assumption.
  - rewrite fmap_app. apply NoDup_snoc; [assumption|]. intros X. apply elem_of_list_fmap in X. destruct X as ([sid' o] & Y & X). cbn in Y. subst. destruct (t_engines0 _ _ X) as (e & E1 & _). congruence.
  - intros sid' o Ht. destruct (t_tasks0 sid' o Ht) as (T1 & T2 & T3). split; [|split; [lia|]].
    + intros o' Ho. apply elem_of_app in Ho. destruct Ho as [Ho|Ho]; [exact (T1 o' Ho)|]. apply elem_of_list_singleton in Ho. injection Ho as -> ->. destruct T. apply elem_of_list_fmap. exists (sid, o). split; [reflexivity | exact Ht].
    + intros e i q E1 E2. rewrite lookup_neq in E1 by lia. exact (T3 e i q E1 E2).
Qed.
Lemma Struct_start_engines : forall sid n fail s, Struct s -> sid ∉ (engines s).*1 -> sid ∉ (tasks s).*1 -> Struct (fst (start_engines saving sid n fail s)).
Proof.
  intros sid n fail s H F T. unfold start_engines. pose proof (Struct_new_set sid n s H F T) as H1. set (s1 := St _ _ _ _ _ _ _ _ _ _ _ _ _) in *.
  assert (E1 : sets s1 !! nset s = Some (ESet sid n Before [] [] false)) by (cbn; apply lookup_insert).
  assert (Hs : (sid, nset s) ∈ engines s1) by (cbn; rewrite assign_fresh by exact F; apply elem_of_app; right; apply elem_of_list_singleton; reflexivity).
  assert (NT : forall sid', (sid', nset s) ∉ tasks s1) by (intros sid' X; cbn in X; destruct (t_tasks _ _ H _ _ X) as (_ & Y & _); lia).
  assert (L : forall k, Struct (launch (nset s) k 0 s1) /\ exists e', sets (launch (nset s) k 0 s1) !! nset s = Some e' /\ e_sid e' = sid /\ e_state e' = Before /\
     members e' = imap (fun j _ => (ident j, Some (next s + j))) (replicate k tt)).
  { intros k. destruct (launch_spec k sid (nset s) _ 0 s1 H1 E1 Hs) as (R1 & _ & e' & R3 & R4 & _ & R6 & _ & _ & R9 & _); [discriminate | | exact NT|].
    - intros x Hx. apply elem_of_nil in Hx. destruct Hx.
    - split; [exact R1|]. exists e'. split; [exact R3|]. split; [exact R4|]. split; [exact R6|]. rewrite R9. reflexivity. }
  destruct fail as [[k b]|]; cbn [fst].
  - destruct (L (min k n)) as (R1 & e' & R3 & R4 & R6 & R9). destruct b; [|exact R1]. unfold change_set. rewrite R3. eapply Struct_set_change; [exact R1 | exact R3 | | | |reflexivity]; cbn.
    + intros i p. rewrite elem_of_app, elem_of_list_singleton. split; [intros [X|X]; [exact X | discriminate] | left; assumption].
    + rewrite fmap_app. apply NoDup_snoc; [exact (t_keys _ _ R1 _ _ R3)|]. rewrite R9. intros X. apply elem_of_list_fmap in X. destruct X as (y & Y & X). apply elem_of_lookup_imap in X. destruct X as (j & [] & -> & X).
      apply lookup_lt_Some in X. rewrite replicate_length in X. cbn in Y. apply ident_inj in Y. lia.
    + rewrite R6. discriminate.
  - destruct (L n) as (R1 & e' & R3 & R4 & R6 & R9). apply Struct_update. unfold change_set. rewrite R3. eapply Struct_set_change; [exact R1 | exact R3 | reflexivity | | discriminate | reflexivity].
    exact (t_keys _ _ R1 _ _ R3).
Qed.
Lemma Struct_start_controller : forall ok s, Struct s -> Struct (fst (start_controller saving ok s)).
Proof.
  intros ok s H. unfold start_controller. destruct (ctl s) eqn:C; [exact H|]. destruct ok; cbn [fst].
  - apply Struct_update, Struct_spawn_ctl; assumption.
  - apply Struct_ctl; [exact H | rewrite C; discriminate | right; reflexivity].
Qed.

(** *** Stopping *)
Lemma Struct_stop_controller : forall s, Struct s -> Struct (fst (stop_controller W saving s)).
Proof.
  intros s H. unfold stop_controller. destruct (ctl s) as [[p|]|] eqn:C; cbn [fst].
  - destruct (stop_process W p s) as [s1 ok] eqn:E. destruct (stop_process_spec _ _ _ _ H E) as (S1 & M & O & _). destruct ok; [|exact S1]. cbn [fst].
    apply Struct_update, Struct_ctl; [exact S1 | | left; reflexivity]. intros q Q. rewrite (m_ctl _ _ M), C in Q. injection Q as <-. exact (O eq_refl).
  - apply Struct_update, Struct_ctl; [exact H | rewrite C; discriminate | left; reflexivity].
  - apply Struct_update, Struct_ctl; [exact H | rewrite C; discriminate | left; reflexivity].
Qed.
Lemma in_pids : forall e p, p ∈ pids e <-> exists i, (i, Some p) ∈ members e.
Proof.
  intros e p. unfold pids. rewrite elem_of_list_omap. split.
  - intros ([i [q|]] & Hx & E); cbn in E; [|discriminate]. injection E as ->. exists i. exact Hx.
  - intros (i & Hx). exists (i, Some p). split; [exact Hx | reflexivity].
Qed.
Lemma Struct_task : forall sid o s, Struct s -> get_key sid (engines s) = Some o -> (forall e p, sets s !! o = Some e -> p ∈ pids e -> p ∉ alive s) -> Struct (put_tasks (tasks s ++ [(sid, o)]) s).
Proof.
  intros sid o s H G D. pose proof (get_key_Some _ _ _ G) as Gi. destruct (t_engines _ _ H _ _ Gi) as (e0 & E0 & _). pose proof (t_sets _ _ H _ _ E0) as Lo. pose proof (t_ids _ _ H) as ND. destruct H. constructor; cbn; try assumption.
  intros sid' o' Ht. apply elem_of_app in Ht. destruct Ht as [Ht|Ht]; [exact (t_tasks0 _ _ Ht)|]. apply elem_of_list_singleton in Ht. injection Ht as -> ->. split; [|split; [exact Lo|]].
  - intros o' Ho. pose proof (get_key_In _ _ _ ND Ho) as X. congruence.
  - intros e i p E1 E2. apply (D e p E1). apply in_pids. exists i. exact E2.
Qed.
Record Stopping (s s' : st) : Prop := {
  g_next : next s' = next s; g_lst : lst s' = lst s; g_owner : owner s' = owner s; g_sets : sets s' = sets s; g_nset : nset s' = nset s;
  g_ctl : ctl s' = ctl s; g_engines : engines s' = engines s; g_file : file s' = file s; g_notices : notices s' = notices s;
  g_alive : alive s' ⊆ alive s }.
Lemma stop_set_spec : forall sid s s' r, Struct s -> stop_set W sid s = (s', r) ->
  Struct s' /\ Stopping s s' /\ (tasks s' = tasks s \/ exists o, tasks s' = tasks s ++ [(sid, o)]) /\
  match get_key sid (engines s) with
  | None => r = Raised "KeyError" /\ s' = s
  | Some o => (r = Waiting /\ tasks s' = tasks s ++ [(sid, o)]) \/
              (r = Raised "TimeoutError" /\ tasks s' = tasks s /\ exists e p, sets s !! o = Some e /\ p ∈ pids e /\ p ∈ alive s' /\ immortal W p = true)
  end.
Proof.
  intros sid s s' r H E. unfold stop_set in E. destruct (get_key sid (engines s)) as [o|] eqn:G.
  - destruct (stop_processes W (match sets s !! o with Some e => pids e | None => [] end) s) as [s1 ok] eqn:E1.
    destruct (stop_processes_spec _ _ _ _ H E1) as (S1 & M & O & F). destruct ok; injection E as <- <-.
    + split; [|split; [|split]].
      * apply Struct_task; [exact S1 | rewrite (m_engines _ _ M); exact G|]. intros e p He Hp. rewrite (m_sets _ _ M) in He. apply O; [reflexivity|]. rewrite He. exact Hp.
      * destruct M. constructor; assumption.
      * right. exists o. cbn. rewrite (m_tasks _ _ M). reflexivity.
      * left. split; [reflexivity|]. cbn. rewrite (m_tasks _ _ M). reflexivity.
    + split; [exact S1|]. split; [destruct M; constructor; assumption|]. split; [left; apply (m_tasks _ _ M)|]. right. split; [reflexivity|]. split; [apply (m_tasks _ _ M)|].
      destruct (F eq_refl) as (p & P1 & P2). destruct (sets s !! o) as [e|]; [|apply elem_of_nil in P1; destruct P1]. exists e, p. split; [reflexivity|]. split; assumption.
  - injection E as <- <-. split; [exact H|]. split; [constructor; reflexivity|]. split; [left; reflexivity|]. split; reflexivity.
Qed.
Lemma Stopping_trans : forall a b c, Stopping a b -> Stopping b c -> Stopping a c.
Proof. intros a b c [] []. constructor; try congruence. etransitivity; eassumption. Qed.
Lemma Stopping_refl : forall a, Stopping a a. Proof. constructor; reflexivity. Qed.
Lemma worse_raised : forall a b, (forall e, worse a b <> Raised e) -> (forall e, a <> Raised e) /\ (forall e, b <> Raised e).
Proof. intros [| |x] [| |y] H; split; intros e; try discriminate; intros E; first [exact (H _ eq_refl)]. Qed.
(** an immortal process is not stopped *)
Lemma immortal_process : forall q p s, p ∈ alive s -> immortal W p = true -> p ∈ alive (fst (stop_process W q s)).
Proof.
  intros q p s X I. unfold stop_process. case_bool_decide; [|exact X].
  destruct (bool_decide (q ∈ alive s) && immortal W q) eqn:J; [exact X|]. cbn [fst].
  assert (N : p <> q) by (intros ->; rewrite I, bool_decide_eq_true_2 in J by exact X; discriminate).
  unfold thread_ends. destruct (bool_decide (q ∈ threads _)); cbn; apply elem_of_difference; (split; [exact X | intros Y; apply elem_of_singleton in Y; contradiction]).
Qed.
Lemma immortal_processes : forall l p s, p ∈ alive s -> immortal W p = true -> p ∈ alive (fst (stop_processes W l s)).
Proof.
  induction l as [|q l IH]; intros p s X I; [exact X|]. cbn. pose proof (immortal_process q p s X I) as Y. destruct (stop_process W q s) as [s1 ok1].
  pose proof (IH p s1 Y I) as Z. destruct (stop_processes W l s1) as [s2 ok2]. exact Z.
Qed.
Lemma immortal_set : forall sid p s, p ∈ alive s -> immortal W p = true -> p ∈ alive (fst (stop_set W sid s)).
Proof.
  intros sid p s X I. unfold stop_set. destruct (get_key sid (engines s)) as [o|]; [|exact X].
  pose proof (immortal_processes (match sets s !! o with Some e => pids e | None => [] end) p s X I) as Y. destruct (stop_processes W _ s) as [s1 []]; exact Y.
Qed.
Lemma immortal_sets : forall sids p s, p ∈ alive s -> immortal W p = true -> p ∈ alive (fst (stop_sets W sids s)).
Proof.
  induction sids as [|sid l IH]; intros p s X I; [exact X|]. cbn. pose proof (immortal_set sid p s X I) as Y. destruct (stop_set W sid s) as [s1 r1].
  pose proof (IH p s1 Y I) as Z. destruct (stop_sets W l s1) as [s2 r2]. exact Z.
Qed.
Lemma stop_sets_spec : forall sids s s' r, Struct s -> stop_sets W sids s = (s', r) ->
  Struct s' /\ Stopping s s' /\ (forall x, x ∈ tasks s -> x ∈ tasks s') /\
  ((forall e, r <> Raised e) -> forall sid o, sid ∈ sids -> get_key sid (engines s) = Some o -> (sid, o) ∈ tasks s') /\
  (forall e, r = Raised e -> (forall sid, sid ∈ sids -> is_Some (get_key sid (engines s))) -> exists p, p ∈ alive s' /\ immortal W p = true).
Proof.
  induction sids as [|sid sids IH]; intros s s' r H E.
  - injection E as <- <-. split; [exact H|]. split; [apply Stopping_refl|]. split; [auto|]. split; [intros _ sid o X; apply elem_of_nil in X; destruct X | discriminate].
  - cbn in E. destruct (stop_set W sid s) as [s1 r1] eqn:E1. destruct (stop_sets W sids s1) as [s2 r2] eqn:E2. injection E as <- <-.
    destruct (stop_set_spec _ _ _ _ H E1) as (S1 & M1 & T1 & C1). destruct (IH _ _ _ S1 E2) as (S2 & M2 & T2 & C2 & F2).
    split; [exact S2|]. split; [eapply Stopping_trans; eassumption|]. split; [|split].
    + intros x Hx. apply T2. destruct T1 as [->|[o ->]]; [exact Hx | apply elem_of_app; left; exact Hx].
    + intros NR sid' o Hi G. apply worse_raised in NR. destruct NR as [NR1 NR2]. apply elem_of_cons in Hi. destruct Hi as [->|Hi].
      * rewrite G in C1. destruct C1 as [[_ X]|[-> _]]; [|destruct (NR1 _ eq_refl)]. apply T2. rewrite X. apply elem_of_app. right. apply elem_of_list_singleton. reflexivity.
      * apply C2; [exact NR2 | exact Hi | rewrite (g_engines _ _ M1); exact G].
    + intros e X K. assert (A2 : s2 = fst (stop_sets W sids s1)) by (rewrite E2; reflexivity). destruct r2 as [| |e2].
      3: { apply (F2 e2 eq_refl). intros sid' Hi. rewrite (g_engines _ _ M1). apply K. right. exact Hi. }
      all: destruct r1 as [| |e1]; try discriminate.
      all: destruct (K sid) as [o G]; [left|]; rewrite G in C1; destruct C1 as [[? _]|(_ & _ & e0 & p & P1 & P2 & P3 & P4)]; [discriminate|].
      all: exists p; split; [|exact P4]; rewrite A2; apply immortal_sets; assumption.
Qed.
(** after a stop_engines call has waited *)
Lemma Struct_tasks : forall l s, Struct s -> (forall x, x ∈ l -> x ∈ tasks s) -> Struct (put_tasks l s).
Proof. intros l s [] H. constructor; cbn; try assumption. intros sid o Ht. apply t_tasks0, H, Ht. Qed.
Lemma Struct_pop : forall sid s, Struct s -> (forall o e i p, (sid, o) ∈ engines s -> sets s !! o = Some e -> (i, Some p) ∈ members e -> p ∉ alive s) -> Struct (put_engines (drop_key sid (engines s)) s).
Proof.
  intros sid s H D. pose proof (t_ids _ _ H) as ND. destruct H. constructor; cbn; try assumption.
  - intros p Hp X. destruct (t_alive0 p Hp X) as [L T]. split; [exact L|]. destruct T as [T|(sid' & o & i & T1 & T2)]; [left; exact T|]. right. exists sid', o, i. split; [exact T1|].
    cbn. apply drop_key_keep; [exact T2|]. cbn. intros ->. destruct (t_owner0 p o i T1 L) as (e & E1 & E2). exact (D o e i p T2 E1 E2 Hp).
  - intros sid' o Hs. apply t_engines0. eapply drop_key_sub, Hs.
  - apply drop_key_NoDup, ND.
  - apply drop_key_NoDup2. assumption.
  - intros sid' o Ht. destruct (t_tasks0 sid' o Ht) as (T1 & T2). split; [|exact T2]. intros o' Ho. apply T1. eapply drop_key_sub, Ho.
Qed.
Lemma Struct_resume : forall i s, Struct s -> Struct (fst (step W saving s (Resume i))).
Proof.
  intros i s H. cbn. destruct (tasks s !! i) as [[sid o]|] eqn:E; [|exact H]. cbn [fst]. pose proof (elem_of_list_lookup_2 _ _ _ E) as Ht.
  assert (H1 : Struct (put_tasks (delete i (tasks s)) s)).
  { apply Struct_tasks; [exact H|]. intros x Hx. rewrite delete_take_drop in Hx. apply elem_of_app in Hx. destruct Hx as [Hx|Hx].
    - apply elem_of_take in Hx. destruct Hx as (j & Hx & _). apply elem_of_list_lookup_2 in Hx. exact Hx.
    - apply elem_of_list_lookup in Hx. destruct Hx as (j & Hx). rewrite lookup_drop in Hx. apply elem_of_list_lookup_2 in Hx. exact Hx. }
  unfold finish_set. destruct (get_key sid _); [|exact H1]. apply Struct_update, Struct_pop; [exact H1|]. cbn. intros o' e j p Ho He Hm.
  destruct (t_tasks _ _ H _ _ Ht) as (T1 & T2 & T3). rewrite (T1 o' Ho) in *. exact (T3 e j p He Hm).
Qed.
Lemma update_pending : forall r s, update (put_pending r s) = put_pending r (update s).
Proof. intros r s. unfold update_cluster_file. destruct saving; [|reflexivity]. change (is_running (put_pending r s)) with (is_running s). destruct (is_running s); reflexivity. Qed.
Lemma notify_pending : forall p r s, notify_stop W saving p (put_pending r s) = put_pending r (notify_stop W saving p s).
Proof.
  intros p r s. unfold notify_stop. change (lst (put_pending r s)) with (lst s). case_bool_decide; [reflexivity|]. cbn [owner put_lst put_pending].
  destruct (owner s !! p) as [[[o i]|]|]; [|exact (update_pending r (put_notices (notices s ++ [(None, exit_code W p)]) (put_lst (<[p:=After]> (lst s)) s))) | reflexivity].
  unfold engine_stopped. cbn [sets put_lst put_pending]. destruct (sets s !! o) as [e|]; [|reflexivity]. destruct (get_key i (members e)); [|reflexivity].
  destruct (drop_key i (members e)); [|reflexivity]. destruct (decide (e_state e = After)); [reflexivity|]. destruct (e_callback e); [|reflexivity]. match goal with |- _ = put_pending r (update ?x) => exact (update_pending r x) end.
Qed.
Lemma lst_update : forall s, lst (update s) = lst s.
Proof. intros s. unfold update_cluster_file. destruct saving, (is_running s); reflexivity. Qed.
Lemma lst_engine_stopped : forall o i c s, lst (engine_stopped saving o i c s) = lst s.
Proof.
  intros. unfold engine_stopped. destruct (sets s !! o); [|reflexivity]. destruct (get_key _ _); [|reflexivity]. destruct (drop_key _ _); [|reflexivity].
  destruct (decide _); [reflexivity|]. destruct (e_callback _); [|reflexivity]. rewrite lst_update. reflexivity.
Qed.
Lemma lst_notify : forall p s, lst (notify_stop W saving p s) = <[p := After]> (lst s).
Proof.
  intros p s. unfold notify_stop. case_bool_decide as A; [rewrite insert_id by exact A; reflexivity|]. destruct (owner _ !! p) as [[[o i]|]|]; [rewrite lst_engine_stopped | rewrite lst_update |]; reflexivity.
Qed.
Lemma Struct_unpending : forall p r s, Struct s -> pending s = p :: r -> lst s !! p = Some After -> Struct (put_pending r s).
Proof.
  intros p r s H E L. destruct H. constructor; cbn; try assumption.
  - intros q Hq. destruct (t_fresh0 q Hq) as (F1 & F2 & F3 & F4 & F5). repeat split; try assumption. intros X. apply F5. rewrite E. right. exact X.
  - intros q Hq. apply t_pending0. rewrite E. right. exact Hq.
  - intros q Hq. apply t_known0. destruct Hq as [Hq|Hq]; [left; rewrite E; right; exact Hq | right; exact Hq].
  - intros q Hq. destruct (t_threads0 q Hq) as [X|X]; [left; exact X|]. rewrite E in X. apply elem_of_cons in X. destruct X as [->|X]; [congruence | right; exact X].
Qed.
Lemma pending_update : forall s, pending (update s) = pending s.
Proof. intros s. unfold update_cluster_file. destruct saving, (is_running s); reflexivity. Qed.
Lemma pending_notify : forall p s, pending (notify_stop W saving p s) = pending s.
Proof.
  intros p s. unfold notify_stop. case_bool_decide; [reflexivity|]. cbn [owner put_lst]. destruct (owner s !! p) as [[[o i]|]|]; [|rewrite pending_update; reflexivity | reflexivity].
  unfold engine_stopped. cbn [sets put_lst]. destruct (sets s !! o) as [e|]; [|reflexivity]. destruct (get_key i (members e)); [|reflexivity].
  destruct (drop_key i (members e)); [|reflexivity]. destruct (decide (e_state e = After)); [reflexivity|]. destruct (e_callback e); [|reflexivity]. rewrite pending_update; reflexivity.
Qed.
Lemma Struct_callback : forall s, Struct s -> Struct (fst (step W saving s Callback)).
Proof.
  intros s H. cbn [step fst]. destruct (pending s) as [|p r] eqn:E; [exact H|]. rewrite notify_pending.
  assert (Hp : p ∈ pending s) by (rewrite E; left).
  apply (Struct_unpending p); [|rewrite pending_notify; exact E | rewrite lst_notify; apply lookup_insert].
  apply Struct_notify; [exact H | exact (t_pending _ _ H p Hp) | apply (t_known _ _ H); left; exact Hp].
Qed.

(** ** The cluster file *)
Definition saved_pid (d : saved) (p : pid) : Prop := s_controller d = Some (Some p) \/ exists sid ss i, (sid, ss) ∈ s_sets d /\ (i, Some p) ∈ s_members ss.
Record wf_saved (nx : pid) (d : saved) : Prop := {
  w_ids : NoDup (s_sets d).*1;
  w_keys : forall sid ss, (sid, ss) ∈ s_sets d -> NoDup (s_members ss).*1 /\ s_state ss <> After;
  w_next : forall p, saved_pid d p -> p < nx;
  w_once : forall sid ss i sid' ss' i' p, (sid, ss) ∈ s_sets d -> (i, Some p) ∈ s_members ss -> (sid', ss') ∈ s_sets d -> (i', Some p) ∈ s_members ss' -> sid = sid' /\ i = i';
  w_ctl : forall p sid ss i, s_controller d = Some (Some p) -> (sid, ss) ∈ s_sets d -> (i, Some p) ∈ s_members ss -> False }.
Definition saves (s : st) (x : string * nat) : list (string * saved_set) :=
  match sets s !! snd x with Some e => if decide (e_state e = After) then [] else [(fst x, save_set e)] | None => [] end.
Lemma in_saves : forall s l sid ss, (sid, ss) ∈ flat_map (saves s) l <-> exists o e, (sid, o) ∈ l /\ sets s !! o = Some e /\ e_state e <> After /\ ss = save_set e.
Proof.
  intros s l sid ss. rewrite elem_of_list_In, in_flat_map. split.
  - intros ([k o] & H1 & H2). apply elem_of_list_In in H1. unfold saves in H2. cbn in H2. destruct (sets s !! o) as [e|] eqn:E; [|destruct H2]. destruct (decide (e_state e = After)); [destruct H2|].
    destruct H2 as [H2|[]]. injection H2 as H3 H4. subst. exists o, e. repeat split; assumption.
  - intros (o & e & H1 & H2 & H3 & ->). exists (sid, o). split; [apply elem_of_list_In, H1|]. unfold saves. cbn. rewrite H2. destruct (decide (e_state e = After)); [contradiction|]. left. reflexivity.
Qed.
Lemma saves_ids : forall s l, NoDup l.*1 -> NoDup (flat_map (saves s) l).*1.
Proof.
  intros s l. induction l as [|[k o] l IH]; intros N; [exact N|]. cbn in N. apply NoDup_cons in N. destruct N as [N1 N2]. cbn. rewrite fmap_app. apply NoDup_app. split; [|split; [|exact (IH N2)]].
  - unfold saves. destruct (sets s !! _); [|apply NoDup_nil_2]. destruct (decide _); [apply NoDup_nil_2 | apply NoDup_singleton].
  - intros x Hx Hy. assert (x = k). { unfold saves in Hx. cbn in Hx. destruct (sets s !! o); [|apply elem_of_nil in Hx; destruct Hx]. destruct (decide _); [apply elem_of_nil in Hx; destruct Hx|]. apply elem_of_list_singleton in Hx. exact Hx. }
    subst. apply elem_of_list_fmap in Hy. destruct Hy as ([k' ss] & Y1 & Y2). cbn in Y1. subst. apply in_saves in Y2. destruct Y2 as (o' & e & Y2 & _). apply N1. apply elem_of_list_fmap. exists (k', o'). split; [reflexivity | exact Y2].
Qed.
Lemma in_dict : forall s sid ss, (sid, ss) ∈ s_sets (to_dict s) <-> exists o e, (sid, o) ∈ engines s /\ sets s !! o = Some e /\ e_state e <> After /\ ss = save_set e.
Proof. intros s sid ss. apply (in_saves s (engines s)). Qed.
Lemma ctl_dict : forall s p, s_controller (to_dict s) = Some (Some p) <-> ctl s = Some (Some p) /\ ctl_state s (Some p) <> After.
Proof.
  intros s p. cbn. destruct (ctl s) as [c|]; [|split; [discriminate | intros [X _]; discriminate]]. destruct (decide (ctl_state s c = After)) as [A|A]; split; try discriminate.
  - intros [X Y]. injection X as ->. contradiction.
  - intros X. injection X as ->. split; [reflexivity | exact A].
  - intros [X Y]. exact X.
Qed.
Lemma to_dict_wf : forall s, Struct s -> wf_saved (next s) (to_dict s).
Proof.
  intros s H. assert (LT : forall p, is_Some (lst s !! p) -> p < next s).
  { intros p L. destruct (decide (p < next s)) as [|N]; [assumption|]. destruct (t_fresh _ _ H p ltac:(lia)) as (_ & X & _). rewrite X in L. destruct L; discriminate. }
  constructor.
  - apply (saves_ids s), (t_ids _ _ H).
  - intros sid ss Hs. apply in_dict in Hs. destruct Hs as (o & e & H1 & H2 & H3 & ->). split; [exact (t_keys _ _ H _ _ H2) | exact H3].
  - intros p [Hp|(sid & ss & i & Hs & Hm)].
    + apply ctl_dict in Hp. apply LT, (t_ctl _ _ H p (proj1 Hp)).
    + apply in_dict in Hs. destruct Hs as (o & e & H1 & H2 & H3 & ->). apply LT. destruct (t_member _ _ H _ _ _ _ H2 Hm) as [_ L]. rewrite L. eexists. reflexivity.
  - intros sid ss i sid' ss' i' p Hs Hm Hs' Hm'. apply in_dict in Hs. destruct Hs as (o & e & H1 & H2 & H3 & ->). apply in_dict in Hs'. destruct Hs' as (o' & e' & H1' & H2' & H3' & ->).
    destruct (t_member _ _ H _ _ _ _ H2 Hm) as [O _]. destruct (t_member _ _ H _ _ _ _ H2' Hm') as [O' _]. rewrite O in O'. injection O' as <- <-. split; [|reflexivity].
    destruct (t_engines _ _ H _ _ H1) as (x & X1 & X2). destruct (t_engines _ _ H _ _ H1') as (y & Y1 & Y2). congruence.
  - intros p sid ss i Hp Hs Hm. apply ctl_dict in Hp. apply in_dict in Hs. destruct Hs as (o & e & H1 & H2 & H3 & ->). destruct (t_member _ _ H _ _ _ _ H2 Hm) as [O _]. destruct (t_ctl _ _ H p (proj1 Hp)) as [O' _]. congruence.
Qed.
(** every live process is in what is saved *)
Lemma to_dict_all : forall s p, Struct s -> p ∈ alive s -> saved_pid (to_dict s) p.
Proof.
  intros s p H Hp. destruct (t_alive _ _ H p Hp Logic.I) as [L [T|(sid & o & i & T1 & T2)]].
  - left. apply ctl_dict. split; [exact T|]. cbn. rewrite L. cbn. discriminate.
  - right. destruct (t_owner _ _ H _ _ _ T1 L) as (e & E1 & E2). exists sid, (save_set e), i. split; [|exact E2]. apply in_dict. exists o, e. repeat split; try assumption.
    intros A. rewrite (t_after _ _ H _ _ E1 A) in E2. apply elem_of_nil in E2. destruct E2.
Qed.
Lemma running_all : forall s p, Struct s -> p ∈ alive s -> is_running s = true.
Proof.
  intros s p H Hp. unfold is_running. destruct (t_alive _ _ H p Hp Logic.I) as [L [T|(sid & o & i & T1 & T2)]].
  - rewrite T. cbn. rewrite L. cbn. rewrite bool_decide_eq_false_2 by discriminate. reflexivity.
  - apply orb_true_iff. right. apply existsb_exists. exists (sid, o). split; [apply elem_of_list_In, T2|]. destruct (t_owner _ _ H _ _ _ T1 L) as (e & E1 & E2).
    unfold set_state. cbn. rewrite E1. apply negb_true_iff, bool_decide_eq_false_2. intros A. rewrite (t_after _ _ H _ _ E1 A) in E2. apply elem_of_nil in E2. destruct E2.
Qed.
(** the file is well-formed, and every live process is in it *)
Definition FileOK (s : st) : Prop := forall d, file s = Some d -> wf_saved (next s) d.
Definition Cover (s : st) : Prop := forall p, p ∈ alive s -> exists d, file s = Some d /\ saved_pid d p.
Lemma FileOK_update : forall s, Struct s -> FileOK s -> FileOK (update s).
Proof.
  intros s H F d. unfold update_cluster_file. destruct saving; [|apply F]. destruct (is_running s); cbn; [|discriminate]. intros X. injection X as <-. apply to_dict_wf, H.
Qed.
Lemma Cover_update : forall s, Struct s -> saving = true -> Cover (update s).
Proof.
  intros s H -> p. unfold update_cluster_file. intros Hp. assert (A : p ∈ alive s) by (destruct (is_running s); exact Hp).
  rewrite (running_all s p H A). cbn. exists (to_dict s). split; [reflexivity | apply to_dict_all; assumption].
Qed.

(** ** Cluster.from_file *)
Lemma filter_In : forall {A} (f : A -> bool) l x, x ∈ List.filter f l <-> x ∈ l /\ f x = true.
Proof. intros. rewrite !elem_of_list_In. apply List.filter_In. Qed.
Lemma filter_keys : forall {A} (f : string * A -> bool) l, NoDup l.*1 -> NoDup (List.filter f l).*1.
Proof.
  intros A f l. induction l as [|[k a] l IH]; intros N; [exact N|]. cbn in N. apply NoDup_cons in N. destruct N as [N1 N2]. cbn. destruct (f (k, a)); [|exact (IH N2)].
  cbn. apply NoDup_cons. split; [|exact (IH N2)]. intros X. apply N1. apply elem_of_list_fmap in X. destruct X as (y & -> & Y). apply filter_In in Y. apply elem_of_list_fmap. exists y. split; [reflexivity | apply Y].
Qed.
Lemma fold_lst_in : forall (ms : list (string * option pid)) (m : gmap nat lstate) p i, (i, Some p) ∈ ms ->
  fold_right (fun x m => match snd x with Some p => <[p := Running]> m | None => m end) m ms !! p = Some Running.
Proof.
  induction ms as [|[j [q|]] ms IH]; intros m p i H; [apply elem_of_nil in H; destruct H| |]; cbn; apply elem_of_cons in H.
  - destruct (decide (q = p)) as [->|N]; [apply lookup_insert|]. rewrite lookup_insert_ne by exact N. destruct H as [H|H]; [congruence | apply (IH m p i H)].
  - destruct H as [H|H]; [discriminate | apply (IH m p i H)].
Qed.
Lemma fold_lst_out : forall (ms : list (string * option pid)) (m : gmap nat lstate) p, (forall i, (i, Some p) ∉ ms) ->
  fold_right (fun x m => match snd x with Some p => <[p := Running]> m | None => m end) m ms !! p = m !! p.
Proof.
  induction ms as [|[j [q|]] ms IH]; intros m p H; [reflexivity| |]; cbn.
  - rewrite lookup_insert_ne; [apply IH; intros i X; apply (H i); right; exact X|]. intros ->. apply (H j). left.
  - apply IH. intros i X. apply (H i). right. exact X.
Qed.
Lemma fold_owner_in : forall o (ms : list (string * option pid)) (m : gmap nat (option (nat * string))) p i, (forall j, (j, Some p) ∈ ms -> j = i) -> (i, Some p) ∈ ms ->
  fold_right (fun x m => match snd x with Some p => <[p := Some (o, fst x)]> m | None => m end) m ms !! p = Some (Some (o : nat, i)).
Proof.
  induction ms as [|[j [q|]] ms IH]; intros m p i U H; [apply elem_of_nil in H; destruct H| |]; cbn.
  - destruct (decide (q = p)) as [->|N].
    + rewrite lookup_insert. rewrite (U j) by left. reflexivity.
    + rewrite lookup_insert_ne by exact N. apply elem_of_cons in H. destruct H as [H|H]; [congruence|]. apply IH; [|exact H]. intros k X. apply U. right. exact X.
  - apply elem_of_cons in H. destruct H as [H|H]; [discriminate|]. apply IH; [|exact H]. intros k X. apply U. right. exact X.
Qed.
Lemma fold_owner_out : forall o (ms : list (string * option pid)) (m : gmap nat (option (nat * string))) p, (forall i, (i, Some p) ∉ ms) ->
  fold_right (fun x m => match snd x with Some p => <[p := Some (o : nat, fst x)]> m | None => m end) m ms !! p = m !! p.
Proof.
  induction ms as [|[j [q|]] ms IH]; intros m p H; [reflexivity| |]; cbn.
  - rewrite lookup_insert_ne; [apply IH; intros i X; apply (H i); right; exact X|]. intros ->. apply (H j). left.
  - apply IH. intros i X. apply (H i). right. exact X.
Qed.
Lemma fold_threads : forall (ms : list (string * option pid)) (m : gset pid) p,
  p ∈ fold_right (fun x m => match snd x with Some p => {[p]} ∪ m | None => m end) m ms <-> p ∈ m \/ exists i, (i, Some p) ∈ ms.
Proof.
  induction ms as [|[j [q|]] ms IH]; intros m p; cbn.
  - split; [left; assumption | intros [X|[i X]]; [exact X | apply elem_of_nil in X; destruct X]].
  - rewrite elem_of_union, elem_of_singleton, IH. split.
    + intros [->|[X|[i X]]]; [right; exists j; left | left; exact X | right; exists i; right; exact X].
    + intros [X|[i X]]; [right; left; exact X|]. apply elem_of_cons in X. destruct X as [X|X]; [left; congruence | right; right; exists i; exact X].
  - rewrite IH. split.
    + intros [X|[i X]]; [left; exact X | right; exists i; right; exact X].
    + intros [X|[i X]]; [left; exact X|]. apply elem_of_cons in X. destruct X as [X|X]; [discriminate | right; exists i; exact X].
Qed.
(** the controller and the sets of [l] have been restored *)
Definition from (d : saved) (l : list (string * saved_set)) (p : pid) : Prop :=
  s_controller d = Some (Some p) \/ exists sid ss i, (sid, ss) ∈ l /\ (i, Some p) ∈ s_members ss.
Record Restored (d : saved) (l : list (string * saved_set)) (s0 s : st) : Prop := {
  r_struct : Struct_ (from d l) s;
  r_alive : alive s = alive s0; r_next : next s = next s0; r_file : file s = file s0; r_notices : notices s = notices s0;
  r_tasks : tasks s = []; r_pending : pending s = [];
  r_owned : forall p, is_Some (owner s !! p) \/ is_Some (lst s !! p) -> from d l p;
  r_ids : forall sid, sid ∈ (engines s).*1 -> sid ∈ l.*1;
  r_ctl : forall p, p ∈ alive s0 -> s_controller d = Some (Some p) -> ctl s = Some (Some p);
  r_mem : forall p sid ss i, p ∈ alive s0 -> (sid, ss) ∈ l -> (i, Some p) ∈ s_members ss -> exists o, owner s !! p = Some (Some (o, i)) /\ (sid, o) ∈ engines s;
  r_known : forall p, is_Some (owner s !! p) -> is_Some (lst s !! p);
  r_lst : forall p x, lst s !! p = Some x -> x = Running;
  r_full : forall o e, sets s !! o = Some e -> members e <> [] /\ ended e = [] /\ e_callback e = true /\ e_n e <> 0 /\
    (forall i, (i, None) ∈ members e -> exists sid ss, (sid, ss) ∈ s_sets d /\ (i, None) ∈ s_members ss) }.
Lemma restored_start : forall d s, wf_saved (next s) d -> (forall p, p ∈ alive s -> p < next s) ->
  let s0 := St (alive s) (next s) ∅ ∅ ∅ [] ∅ 0 None [] (file s) [] (notices s) in Restored d [] s0 (restore_controller (s_controller d) s0).
Proof.
  intros d s Wf LT s0.
  assert (Z : Struct_ (fun _ => False) s0).
  { constructor; cbn; intros; repeat match goal with
    | H : False |- _ => destruct H
    | H : _ ∈ ∅ |- _ => apply elem_of_empty in H; destruct H
    | H : _ ∈ [] |- _ => apply elem_of_nil in H; destruct H
    | H : _ \/ _ |- _ => destruct H
    | H : ∅ !! _ = Some _ |- _ => rewrite lookup_empty in H; discriminate
    | H : is_Some (∅ !! _) |- _ => rewrite lookup_empty in H; destruct H; discriminate
    end; try discriminate; try apply NoDup_nil_2.
    repeat split; try apply not_elem_of_empty; try apply not_elem_of_nil. intros X. pose proof (LT p X). cbn in *. lia. }
  assert (N : (forall p, p ∈ alive s -> s_controller d <> Some (Some p)) -> forall c, c = None \/ c = Some None -> Restored d [] s0 (put_ctl c s0)).
  { intros K c Hc. constructor; try reflexivity; cbn.
    - destruct Z. constructor; cbn; try assumption.
      + intros p Hp [X|(sid & ss & i & X & _)]; [destruct (K p Hp X) | apply elem_of_nil in X; destruct X].
      + destruct Hc; subst; discriminate.
    - intros p [X|X]; rewrite lookup_empty in X; destruct X; discriminate.
    - intros sid X; exact X.
    - intros p Hp X. destruct (K p Hp X).
    - intros p sid ss i _ X. apply elem_of_nil in X. destruct X.
    - intros p X. rewrite lookup_empty in X. destruct X. discriminate.
    - intros p x X. rewrite lookup_empty in X. discriminate.
    - intros o e X. rewrite lookup_empty in X. discriminate. }
  unfold restore_controller. destruct (s_controller d) as [[p|]|] eqn:C.
  - case_bool_decide as A; [|apply (N ltac:(intros q Hq E; injection E as <-; contradiction) None); left; reflexivity].
    constructor; try reflexivity; cbn.
    + destruct Z. constructor; cbn; try assumption.
      * intros q Hq [X|(sid & ss & i & X & _)]; [|apply elem_of_nil in X; destruct X]. rewrite C in X. injection X as ->. rewrite lookup_insert. split; [reflexivity | left; reflexivity].
      * intros q Hq. assert (p <> q) by (pose proof (LT p A); lia). rewrite !lookup_insert_ne by assumption. rewrite !lookup_empty. repeat split; [|rewrite elem_of_union, elem_of_singleton; intros [X|X]; [congruence | apply elem_of_empty in X; exact X] | apply not_elem_of_nil].
        intros X. pose proof (LT q X). lia.
      * intros q [X|X]; [apply elem_of_nil in X; destruct X|]. apply elem_of_union in X. destruct X as [X|X]; [|apply elem_of_empty in X; destruct X]. apply elem_of_singleton in X. subst. rewrite lookup_insert. eexists; reflexivity.
      * intros q o i Q. destruct (decide (p = q)) as [<-|Nq]; [rewrite lookup_insert in Q; discriminate | rewrite lookup_insert_ne in Q by exact Nq; rewrite lookup_empty in Q; discriminate].
      * intros o e i q X. rewrite lookup_empty in X. discriminate.
      * intros q Q. injection Q as <-. rewrite !lookup_insert. split; [reflexivity | eexists; reflexivity].
      * intros q Q. destruct (decide (p = q)) as [<-|Nq]; [left; apply elem_of_union; left; apply elem_of_singleton; reflexivity | rewrite lookup_insert_ne in Q by exact Nq; rewrite lookup_empty in Q; discriminate].
      * intros q Q. destruct (decide (p = q)) as [<-|Nq]; [left; apply lookup_insert | rewrite lookup_insert_ne in Q by exact Nq; rewrite lookup_empty in Q; destruct Q; discriminate].
    + intros q Q. left. rewrite C. destruct (decide (p = q)) as [<-|Nq]; [reflexivity|]. rewrite !lookup_insert_ne, !lookup_empty in Q by exact Nq. destruct Q as [[? Q]|[? Q]]; discriminate.
    + intros sid X; exact X.
    + intros q Hq X. rewrite C in X. exact X.
    + intros q sid ss i _ X. apply elem_of_nil in X. destruct X.
    + intros q X. destruct (decide (p = q)) as [<-|Nq]; [rewrite lookup_insert; eexists; reflexivity | rewrite lookup_insert_ne, lookup_empty in X by exact Nq; destruct X; discriminate].
    + intros q x X. destruct (decide (p = q)) as [<-|Nq]; [rewrite lookup_insert in X; congruence | rewrite lookup_insert_ne, lookup_empty in X by exact Nq; discriminate].
    + intros o e X. rewrite lookup_empty in X. discriminate.
  - apply (N ltac:(intros; discriminate) (Some None)). right; reflexivity.
  - apply (N ltac:(intros; discriminate) None). left; reflexivity.
Qed.
Lemma restored_set : forall d l s0 s sid ss, wf_saved (next s0) d -> Restored d l s0 s -> (forall x, x ∈ l -> x ∈ s_sets d) -> (sid, ss) ∈ s_sets d -> sid ∉ l.*1 ->
  (forall p, p ∈ alive s0 -> p < next s0) -> Restored d (l ++ [(sid, ss)]) s0 (restore_set sid ss s).
Proof.
  intros d l s0 s sid ss Wf R Sub Hd Nl LT. unfold restore_set.
  replace (List.filter (restore_member (alive s)) (s_members ss)) with (List.filter (restore_member (alive s0)) (s_members ss)) by (rewrite (r_alive _ _ _ _ R); reflexivity).
  set (ms := List.filter (restore_member (alive s0)) (s_members ss)).
  assert (Mi : forall i p, (i, Some p) ∈ ms <-> (i, Some p) ∈ s_members ss /\ p ∈ alive s0).
  { intros i p. unfold ms. rewrite filter_In. unfold restore_member. cbn. rewrite bool_decide_eq_true. reflexivity. }
  assert (Mn : forall i, (i, None) ∈ ms -> (i, None) ∈ s_members ss) by (intros i; unfold ms; rewrite filter_In; intros [X _]; exact X).
  assert (Fr : forall p, from d (l ++ [(sid, ss)]) p <-> from d l p \/ exists i, (i, Some p) ∈ s_members ss).
  { intros p. unfold from. split.
    - intros [X|(k & kk & i & X & Y)]; [left; left; exact X|]. apply elem_of_app in X. destruct X as [X|X]; [left; right; exists k, kk, i; split; assumption|].
      apply elem_of_list_singleton in X. injection X as -> ->. right. exists i. exact Y.
    - intros [[X|(k & kk & i & X & Y)]|[i Y]]; [left; exact X | right; exists k, kk, i; split; [apply elem_of_app; left; exact X | exact Y]|].
      right. exists sid, ss, i. split; [apply elem_of_app; right; apply elem_of_list_singleton; reflexivity | exact Y]. }
  assert (Old : forall p i, (i, Some p) ∈ s_members ss -> ~ from d l p).
  { intros p i Hi [X|(k & kk & j & X & Y)]; [exact (w_ctl _ _ Wf _ _ _ _ X Hd Hi)|].
    destruct (w_once _ _ Wf _ _ _ _ _ _ _ (Sub _ X) Y Hd Hi) as [-> _]. apply Nl. apply elem_of_list_fmap. exists (sid, kk). split; [reflexivity | exact X]. }
  assert (Uniq : forall p i j, (i, Some p) ∈ s_members ss -> (j, Some p) ∈ s_members ss -> j = i).
  { intros p i j Hi Hj. symmetry. exact (proj2 (w_once _ _ Wf _ _ _ _ _ _ _ Hd Hi Hd Hj)). }
  assert (Base : ms = [] -> Restored d (l ++ [(sid, ss)]) s0 s).
  { intros Z. destruct R. constructor; try assumption.
    - destruct r_struct0. constructor; try assumption. intros p Hp X. apply Fr in X. destruct X as [X|[i X]]; [exact (t_alive0 p Hp X)|].
      assert (Y : (i, Some p) ∈ ms) by (apply Mi; split; [exact X | congruence]). rewrite Z in Y. apply elem_of_nil in Y. destruct Y.
    - intros p Hp. apply Fr. left. exact (r_owned0 p Hp).
    - intros k Hk. rewrite fmap_app. apply elem_of_app. left. exact (r_ids0 k Hk).
    - intros p k kk i Hp X Y. apply elem_of_app in X. destruct X as [X|X]; [exact (r_mem0 p k kk i Hp X Y)|]. apply elem_of_list_singleton in X. injection X as -> ->.
      assert (Q : (i, Some p) ∈ ms) by (apply Mi; split; assumption). rewrite Z in Q. apply elem_of_nil in Q. destruct Q. }
  assert (Ne : sid ∉ (engines s).*1) by (intros X; apply Nl, (r_ids _ _ _ _ R), X).
  assert (Kd : NoDup ms.*1) by (apply filter_keys, (w_keys _ _ Wf _ _ Hd)).
  assert (Nd : s_state ss <> After) by apply (w_keys _ _ Wf _ _ Hd).
  clearbody ms. destruct ms as [|m0 ms0] eqn:Ms; [exact (Base eq_refl)|]. rewrite <- Ms in *. assert (NE : ms <> []) by congruence. clear Base Ms m0 ms0.
  rewrite assign_fresh by exact Ne.
  pose proof (r_struct _ _ _ _ R) as H.
  assert (NS : forall o, is_Some (sets s !! o) -> nset s <> o) by (intros o [e Q] <-; pose proof (t_sets _ _ H _ _ Q); lia).
  assert (L1 : forall p i, (i, Some p) ∈ ms -> fold_right (fun x m => match snd x with Some p => <[p := Running]> m | None => m end) (lst s) ms !! p = Some Running) by (intros p i Q; apply (fold_lst_in ms (lst s) p i Q)).
  assert (L2 : forall p, from d l p \/ next s <= p -> fold_right (fun x m => match snd x with Some p => <[p := Running]> m | None => m end) (lst s) ms !! p = lst s !! p).
  { intros p Q. apply fold_lst_out. intros i X. apply Mi in X. destruct Q as [Q|Q]; [exact (Old p i (proj1 X) Q)|]. pose proof (LT p (proj2 X)). rewrite (r_next _ _ _ _ R) in Q. lia. }
  assert (O1 : forall p i, (i, Some p) ∈ ms -> fold_right (fun x m => match snd x with Some p => <[p := Some (nset s, fst x)]> m | None => m end) (owner s) ms !! p = Some (Some (nset s, i))).
  { intros p i Q. apply fold_owner_in; [|exact Q]. intros j Y. apply Mi in Q, Y. apply (Uniq p); [apply Q | apply Y]. }
  assert (O2 : forall p, from d l p \/ next s <= p -> fold_right (fun x m => match snd x with Some p => <[p := Some (nset s, fst x)]> m | None => m end) (owner s) ms !! p = owner s !! p).
  { intros p Q. apply fold_owner_out. intros i X. apply Mi in X. destruct Q as [Q|Q]; [exact (Old p i (proj1 X) Q)|]. pose proof (LT p (proj2 X)). rewrite (r_next _ _ _ _ R) in Q. lia. }
  set (L' := fold_right (fun x m => match snd x with Some p => <[p := Running]> m | None => m end) (lst s) ms) in *.
  set (O' := fold_right (fun x m => match snd x with Some p => <[p := Some (nset s, fst x)]> m | None => m end) (owner s) ms) in *.
  assert (L3 : forall p, is_Some (L' !! p) -> (exists i, (i, Some p) ∈ ms) \/ (from d l p /\ L' !! p = lst s !! p)).
  { intros p Q. destruct (decide (Exists (fun x => snd x = Some p) ms)) as [X|X].
    - left. apply Exists_exists in X. destruct X as ([i q] & X1 & X2). cbn in X2. subst. exists i. exact X1.
    - right. assert (E : L' !! p = lst s !! p) by (apply fold_lst_out; intros i Y; apply X, Exists_exists; exists (i, Some p); split; [exact Y | reflexivity]).
      split; [|exact E]. apply (r_owned _ _ _ _ R). right. rewrite <- E. exact Q. }
  assert (O3 : forall p, is_Some (O' !! p) -> (exists i, (i, Some p) ∈ ms) \/ (from d l p /\ O' !! p = owner s !! p)).
  { intros p Q. destruct (decide (Exists (fun x => snd x = Some p) ms)) as [X|X].
    - left. apply Exists_exists in X. destruct X as ([i q] & X1 & X2). cbn in X2. subst. exists i. exact X1.
    - right. assert (E : O' !! p = owner s !! p) by (apply fold_owner_out; intros i Y; apply X, Exists_exists; exists (i, Some p); split; [exact Y | reflexivity]).
      split; [|exact E]. apply (r_owned _ _ _ _ R). left. rewrite <- E. exact Q. }
  clearbody L' O'. destruct R. constructor; cbn; try assumption.
  - constructor; cbn.
    + intros p Hp X. apply Fr in X. destruct X as [X|[i X]].
      * destruct (t_alive _ _ H p Hp X) as [Q T]. rewrite L2 by (left; exact X). split; [exact Q|]. destruct T as [T|(k & o & j & T1 & T2)]; [left; exact T|]. right. exists k, o, j. cbn. rewrite O2 by (left; exact X). split; [exact T1|]. apply elem_of_app. left. exact T2.
      * assert (Y : (i, Some p) ∈ ms) by (apply Mi; split; [exact X | congruence]). split; [apply (L1 p i Y)|]. right. exists sid, (nset s), i. cbn. split; [apply (O1 p i Y)|]. apply elem_of_app. right. apply elem_of_list_singleton. reflexivity.
    + intros p Hp. destruct (t_fresh _ _ H p Hp) as (F1 & F2 & F3 & F4 & F5). rewrite L2, O2 by (right; exact Hp). repeat split; try assumption. rewrite fold_threads. intros [X|[i X]]; [contradiction|]. apply Mi in X. pose proof (LT p (proj2 X)). lia.
    + exact (t_pending _ _ H).
    + intros p [X|X]; [rewrite r_pending0 in X; apply elem_of_nil in X; destruct X|]. apply fold_threads in X. destruct X as [X|[i X]]; [|rewrite (L1 p i X); eexists; reflexivity].
      pose proof (t_known _ _ H p (or_intror X)) as Q. rewrite L2; [exact Q|]. left. apply r_owned0. right. exact Q.
    + intros p o i Q1 Q2. destruct (O3 p) as [[j X]|[X E]]; [rewrite Q1; eexists; reflexivity| |].
      * rewrite (O1 p j X) in Q1. injection Q1 as <- <-. rewrite lookup_insert. eexists. split; [reflexivity | exact X].
      * rewrite E in Q1. rewrite L2 in Q2 by (left; exact X). destruct (t_owner _ _ H p o i Q1 Q2) as (e & E1 & E2). exists e. rewrite lookup_insert_ne by (apply NS; rewrite E1; eexists; reflexivity). split; assumption.
    + intros o e i p E1 E2. destruct (decide (nset s = o)) as [<-|N].
      * rewrite lookup_insert in E1. injection E1 as <-. cbn in E2. split; [apply (O1 p i E2) | apply (L1 p i E2)].
      * rewrite lookup_insert_ne in E1 by exact N. destruct (t_member _ _ H o e i p E1 E2) as [Q1 Q2]. assert (X : from d l p) by (apply r_owned0; left; rewrite Q1; eexists; reflexivity). rewrite L2, O2 by (left; exact X). split; assumption.
    + intros o e E1. destruct (decide (nset s = o)) as [<-|N]; [rewrite lookup_insert in E1; injection E1 as <-; exact Kd | rewrite lookup_insert_ne in E1 by exact N; exact (t_keys _ _ H o e E1)].
    + intros o e E1 X. destruct (decide (nset s = o)) as [<-|N]; [rewrite lookup_insert in E1; injection E1 as <-; contradiction | rewrite lookup_insert_ne in E1 by exact N; exact (t_after _ _ H o e E1 X)].
    + intros o e E1. destruct (decide (nset s = o)) as [<-|N]; [lia | rewrite lookup_insert_ne in E1 by exact N; pose proof (t_sets _ _ H o e E1); lia].
    + intros k o Hs. apply elem_of_app in Hs. destruct Hs as [Hs|Hs].
      * destruct (t_engines _ _ H k o Hs) as (e & E1 & E2). exists e. rewrite lookup_insert_ne by (apply NS; rewrite E1; eexists; reflexivity). split; assumption.
      * apply elem_of_list_singleton in Hs. injection Hs as -> ->. rewrite lookup_insert. eexists. split; reflexivity.
    + rewrite fmap_app. apply NoDup_snoc; [exact (t_ids _ _ H) | exact Ne].
    + rewrite fmap_app. apply NoDup_snoc; [exact (t_objs _ _ H)|]. intros X. apply elem_of_list_fmap in X. destruct X as ([k o] & Y & X). cbn in Y. subst. destruct (t_engines _ _ H _ _ X) as (e & E1 & _). apply (NS (nset s)); [rewrite E1; eexists; reflexivity | reflexivity].
    + intros p Hp. destruct (t_ctl _ _ H p Hp) as [Q1 Q2]. assert (X : from d l p) by (apply r_owned0; left; rewrite Q1; eexists; reflexivity). rewrite L2, O2 by (left; exact X). split; assumption.
    + intros p Q. left. apply fold_threads. destruct (L3 p) as [X|[X E]]; [rewrite Q; eexists; reflexivity | right; exact X|]. rewrite E in Q. destruct (t_threads _ _ H p Q) as [Y|Y]; [left; exact Y | rewrite r_pending0 in Y; apply elem_of_nil in Y; destruct Y].
    + intros p Q. destruct (L3 p Q) as [[i X]|[X E]]; [left; apply (L1 p i X)|]. rewrite E in *. exact (t_lst _ _ H p Q).
    + intros k o Ht. rewrite r_tasks0 in Ht. apply elem_of_nil in Ht. destruct Ht.
  - intros p [Q|Q]; apply Fr; [destruct (O3 p Q) as [[i X]|[X _]] | destruct (L3 p Q) as [[i X]|[X _]]]; try (left; exact X); right; exists i; apply Mi in X; apply X.
  - intros k Hk. rewrite fmap_app. rewrite fmap_app in Hk. apply elem_of_app. apply elem_of_app in Hk. destruct Hk as [Hk|Hk]; [left; exact (r_ids0 k Hk) | right; exact Hk].
  - intros p k kk i Hp X Y. apply elem_of_app in X. destruct X as [X|X].
    + destruct (r_mem0 p k kk i Hp X Y) as (o & Q1 & Q2). exists o. rewrite O2 by (left; right; exists k, kk, i; split; assumption). split; [exact Q1|]. apply elem_of_app. left. exact Q2.
    + apply elem_of_list_singleton in X. injection X as -> ->. exists (nset s). split; [apply O1, Mi; split; assumption|]. apply elem_of_app. right. apply elem_of_list_singleton. reflexivity.
  - intros p X. destruct (O3 p X) as [[i Y]|[Y Z]]; [rewrite (L1 p i Y); eexists; reflexivity|]. rewrite L2 by (left; exact Y). apply r_known0. rewrite <- Z. exact X.
  - intros p x X. destruct (L3 p) as [[i Y]|[_ Y]]; [rewrite X; eexists; reflexivity | rewrite (L1 p i Y) in X; congruence | rewrite Y in X; exact (r_lst0 p x X)].
  - intros o e E1. destruct (decide (nset s = o)) as [<-|N]; [rewrite lookup_insert in E1; injection E1 as <-; split; [exact NE|]; split; [reflexivity|]; split; [reflexivity|]; split; [cbn; destruct ms; [contradiction | discriminate]|]; cbn; intros i X; exists sid, ss; split; [exact Hd | exact (Mn i X)] | rewrite lookup_insert_ne in E1 by exact N; exact (r_full0 o e E1)].
Qed.
Lemma restored_sets : forall d s0 l' l s, wf_saved (next s0) d -> (forall p, p ∈ alive s0 -> p < next s0) -> l ++ l' = s_sets d -> Restored d l s0 s ->
  Restored d (s_sets d) s0 (fold_left (fun s x => restore_set (fst x) (snd x) s) l' s).
Proof.
  intros d s0 l'. induction l' as [|[sid ss] l' IH]; intros l s Wf LT E R; cbn.
  - rewrite app_nil_r in E. rewrite <- E. exact R.
  - apply (IH (l ++ [(sid, ss)])); try assumption; [rewrite <- app_assoc; exact E|]. apply restored_set; try assumption.
    + intros x Hx. rewrite <- E. apply elem_of_app. left. exact Hx.
    + rewrite <- E. apply elem_of_app. right. left.
    + pose proof (w_ids _ _ Wf) as N. rewrite <- E, fmap_app in N. apply NoDup_app in N. destruct N as (_ & N & _). intros X. apply (N _ X). left.
Qed.
Lemma alive_lt : forall P s p, Struct_ P s -> p ∈ alive s -> p < next s.
Proof. intros P s p H Hp. destruct (decide (p < next s)) as [|N]; [assumption|]. destruct (t_fresh _ _ H p ltac:(lia)) as (X & _). contradiction. Qed.
Lemma reload_restored : forall s d, Struct s -> FileOK s -> file s = Some d ->
  exists s1, reload saving s = (if decide (to_dict s1 = d) then s1 else update s1) /\
    Restored d (s_sets d) (St (alive s) (next s) ∅ ∅ ∅ [] ∅ 0 None [] (file s) [] (notices s)) s1.
Proof.
  intros s d H F E. unfold reload. rewrite E. unfold restore. eexists. split; [reflexivity|].
  assert (LT : forall p, p ∈ alive s -> p < next s) by (intros p; apply (alive_lt _ _ _ H)).
  apply (restored_sets d _ (s_sets d) []); [exact (F d E) | exact LT | reflexivity|]. rewrite <- E. apply restored_start; [exact (F d E) | exact LT].
Qed.
Lemma Restored_Struct : forall d s0 s, Restored d (s_sets d) s0 s -> (forall p, p ∈ alive s0 -> saved_pid d p) -> Struct s.
Proof. intros d s0 s [[] ?] C. constructor; try assumption. intros p Hp _. apply t_alive0; [exact Hp|]. apply C. congruence. Qed.
Lemma Struct_empty : forall nx f nt, Struct (St ∅ nx ∅ ∅ ∅ [] ∅ 0 None [] f [] nt).
Proof.
  intros. constructor; cbn; intros; repeat match goal with
  | H : _ ∈ ∅ |- _ => apply elem_of_empty in H; destruct H
  | H : _ ∈ [] |- _ => apply elem_of_nil in H; destruct H
  | H : _ \/ _ |- _ => destruct H
  | H : ∅ !! _ = Some _ |- _ => rewrite lookup_empty in H; discriminate
  | H : is_Some (∅ !! _) |- _ => rewrite lookup_empty in H; destruct H; discriminate
  end; try discriminate; try apply NoDup_nil_2.
  repeat split; try apply not_elem_of_empty; apply not_elem_of_nil.
Qed.

(** ** What the file says is right *)
(** where a process belongs: the controller, or (engine set id, identifier) *)
Definition at_ (s : st) (p : pid) (x : option (string * string)) : Prop :=
  match x with None => ctl s = Some (Some p) | Some (sid, i) => exists o, owner s !! p = Some (Some (o, i)) /\ (sid, o) ∈ engines s end.
Definition says (d : saved) (p : pid) (x : option (string * string)) : Prop :=
  match x with None => s_controller d = Some (Some p) | Some (sid, i) => exists ss, (sid, ss) ∈ s_sets d /\ (i, Some p) ∈ s_members ss end.
Definition synced (s : st) : Prop := file s = if is_running s then Some (to_dict s) else None.
(** all engine sets were started well *)
Definition SetsOK (s : st) : Prop := forall o e, sets s !! o = Some e -> e_callback e = true /\ (members e = [] -> e_state e = After \/ e_n e = 0) /\ (forall i, (i, None) ∉ members e).
Record Filed (s : st) : Prop := {
  f_ok : FileOK s; f_cover : Cover s;
  f_agree : forall d p x, file s = Some d -> p ∈ alive s -> says d p x -> at_ s p x;
  f_nonempty : forall d, file s = Some d -> d <> Saved None [];
  f_running : forall d, file s = Some d -> is_running s = true;
  f_started : forall d sid ss i, file s = Some d -> (sid, ss) ∈ s_sets d -> (i, None) ∉ s_members ss }.
Lemma running_dict : forall s, is_running s = true -> to_dict s <> Saved None [].
Proof.
  intros s R E. unfold is_running in R. apply orb_true_iff in R. destruct R as [R|R].
  - pose proof (f_equal s_controller E) as E1. cbn in E1. destruct (ctl s) as [c|]; [|discriminate]. apply negb_true_iff, bool_decide_eq_false in R. destruct (decide (ctl_state s c = After)); [contradiction | discriminate].
  - apply existsb_exists in R. destruct R as ([sid o] & R1 & R2). apply elem_of_list_In in R1. apply negb_true_iff, bool_decide_eq_false in R2. unfold set_state in R2. cbn in R2.
    destruct (sets s !! o) as [e|] eqn:Eo; [|congruence]. assert (X : (sid, save_set e) ∈ s_sets (to_dict s)) by (apply in_dict; exists o, e; repeat split; assumption).
    rewrite E in X. apply elem_of_nil in X. exact X.
Qed.
Lemma dict_running : forall s, to_dict s <> Saved None [] -> is_running s = true.
Proof.
  intros s N. destruct (is_running s) eqn:R; [reflexivity|]. destruct N. unfold is_running in R. apply orb_false_iff in R. destruct R as [R1 R2].
  destruct (to_dict s) as [c l] eqn:E. f_equal.
  - pose proof (f_equal s_controller E) as E1. cbn in E1. rewrite <- E1. destruct (ctl s) as [c'|]; [|reflexivity]. apply negb_false_iff, bool_decide_eq_true in R1. destruct (decide (ctl_state s c' = After)); [reflexivity | contradiction].
  - destruct l as [|[sid ss] l]; [reflexivity|]. assert (X : (sid, ss) ∈ s_sets (to_dict s)) by (rewrite E; left). apply in_dict in X. destruct X as (o & e & X1 & X2 & X3 & _).
    assert (Y : existsb (fun x => negb (bool_decide (set_state s (snd x) = After))) (engines s) = true).
    { apply existsb_exists. exists (sid, o). split; [apply elem_of_list_In, X1|]. unfold set_state. cbn. rewrite X2. apply negb_true_iff, bool_decide_eq_false_2, X3. }
    congruence.
Qed.
Lemma says_at : forall s p x, Struct s -> says (to_dict s) p x -> at_ s p x.
Proof.
  intros s p [[sid i]|] H S; cbn [says at_] in *.
  - destruct S as (ss & S1 & S2). apply in_dict in S1. destruct S1 as (o & e & E1 & E2 & E3 & ->). exists o. split; [apply (t_member _ _ H _ _ _ _ E2 S2) | exact E1].
  - apply ctl_dict in S. apply S.
Qed.
Lemma Filed_synced : forall s, Struct s -> SetsOK s -> synced s -> Filed s.
Proof.
  intros s H SO Y. unfold synced in Y. constructor.
  - intros d E. rewrite E in Y. destruct (is_running s); [|discriminate]. injection Y as ->. apply to_dict_wf, H.
  - intros p Hp. rewrite (running_all s p H Hp) in Y. exists (to_dict s). split; [exact Y | apply to_dict_all; assumption].
  - intros d p x E Hp S. rewrite E in Y. destruct (is_running s); [|discriminate]. injection Y as ->. apply says_at; assumption.
  - intros d E. rewrite E in Y. destruct (is_running s) eqn:R; [|discriminate]. injection Y as ->. apply running_dict, R.
  - intros d E. rewrite E in Y. destruct (is_running s) eqn:R; [reflexivity | discriminate].
  - intros d sid ss i E Hs. rewrite E in Y. destruct (is_running s) eqn:R; [|discriminate]. injection Y as ->. apply in_dict in Hs. destruct Hs as (o & e & _ & E2 & _ & ->). apply (SO o e E2).
Qed.
Record Kept (s s' : st) : Prop := {
  k_next : next s <= next s'; k_file : file s' = file s; k_alive : alive s' ⊆ alive s;
  k_at : forall p x, p ∈ alive s' -> at_ s p x -> at_ s' p x; k_run : is_running s = true -> is_running s' = true }.
Lemma Filed_Kept : forall s s', Filed s -> Kept s s' -> Filed s'.
Proof.
  intros s s' [] []. constructor.
  - intros d E. rewrite k_file0 in E. destruct (f_ok0 d E). constructor; try assumption. intros p Hp. pose proof (w_next0 p Hp). lia.
  - intros p Hp. rewrite k_file0. apply f_cover0, k_alive0, Hp.
  - intros d p x E Hp S. rewrite k_file0 in E. apply k_at0; [exact Hp|]. apply (f_agree0 d); [exact E | apply k_alive0, Hp | exact S].
  - intros d E. rewrite k_file0 in E. exact (f_nonempty0 d E).
  - intros d E. rewrite k_file0 in E. apply k_run0, (f_running0 d E).
  - intros d sid ss i E. rewrite k_file0 in E. apply (f_started0 d sid ss i E).
Qed.
Lemma is_running_file : forall f s, is_running (put_file f s) = is_running s. Proof. reflexivity. Qed.
Lemma synced_update : forall s, saving = true -> synced (update s).
Proof. intros s E. unfold synced, update_cluster_file. rewrite E. destruct (is_running s) eqn:R; rewrite is_running_file, R; reflexivity. Qed.
Lemma Kept_same : forall s s', next s <= next s' -> file s' = file s -> alive s' ⊆ alive s -> ctl s' = ctl s -> owner s' = owner s -> engines s' = engines s -> lst s' = lst s -> sets s' = sets s -> Kept s s'.
Proof.
  intros s s' E1 E2 E3 E4 E5 E6 E7 E8. constructor; try assumption.
  - intros p [[sid i]|] _; cbn; [rewrite E5, E6 | rewrite E4]; auto.
  - unfold is_running, ctl_state, set_state. rewrite E4, E6, E7, E8. auto.
Qed.
Lemma Same_Kept : forall s s', Same s s' -> Kept s s'.
Proof. intros s s' []. apply Kept_same; try assumption. lia. Qed.
Lemma Stopping_Kept : forall s s', Stopping s s' -> Kept s s'.
Proof. intros s s' []. apply Kept_same; try assumption. lia. Qed.

Lemma sets_update : forall s, sets (update s) = sets s.
Proof. intros s. unfold update_cluster_file. destruct saving, (is_running s); reflexivity. Qed.
Lemma SetsOK_same : forall s s', sets s' = sets s -> SetsOK s -> SetsOK s'.
Proof. intros s s' E H. unfold SetsOK. rewrite E. exact H. Qed.
Lemma SetsOK_insert : forall o e s s', sets s' = <[o := e]> (sets s) -> SetsOK s -> e_callback e = true /\ (members e = [] -> e_state e = After \/ e_n e = 0) /\ (forall i, (i, None) ∉ members e) -> SetsOK s'.
Proof. intros o e s s' E H He o' e' E'. rewrite E in E'. destruct (decide (o = o')) as [<-|N]; [rewrite lookup_insert in E'; injection E' as <-; exact He | rewrite lookup_insert_ne in E' by exact N; exact (H o' e' E')]. Qed.
Lemma SetsOK_notify : forall p s, SetsOK s -> SetsOK (notify_stop W saving p s).
Proof.
  intros p s H. unfold notify_stop. case_bool_decide; [exact H|]. cbn [owner put_lst]. destruct (owner s !! p) as [[[o i]|]|]; [|eapply SetsOK_same; [apply sets_update | exact H] | exact H].
  unfold engine_stopped. cbn [sets put_lst]. destruct (sets s !! o) as [e|] eqn:E; [|exact H]. destruct (get_key i (members e)); [|exact H].
  assert (B : forall x en, e_callback (ESet (e_sid e) (e_n e) x (drop_key i (members e)) en (e_callback e)) = true /\ (forall j, (j, None) ∉ drop_key i (members e))).
  { intros x en. destruct (H o e E) as (B1 & _ & B3). split; [exact B1|]. intros j X. apply (B3 j). eapply drop_key_sub, X. }
  destruct (drop_key i (members e)) as [|m ms] eqn:D.
  - destruct (decide (e_state e = After)) as [A|A].
    + eapply SetsOK_insert; [reflexivity | exact H|]. split; [apply (B Before [])|]. split; [left; exact A | apply (B Before [])].
    + rewrite (proj1 (H o e E)). eapply SetsOK_insert; [rewrite sets_update; reflexivity | exact H|]. split; [reflexivity|]. split; [left; reflexivity | apply (B Before [])].
  - eapply SetsOK_insert; [reflexivity | exact H|]. split; [apply (B Before [])|]. split; [discriminate | apply (B Before [])].
Qed.
(** a stop notice *)
Lemma running_change : forall o e e' s, sets s !! o = Some e -> e_state e' = e_state e -> is_running (put_sets (<[o := e']> (sets s)) s) = is_running s.
Proof.
  intros o e e' s E A. unfold is_running. f_equal. assert (X : forall o', set_state (put_sets (<[o := e']> (sets s)) s) o' = set_state s o').
  { intros o'. unfold set_state. cbn. destruct (decide (o = o')) as [<-|N]; [rewrite lookup_insert, E; exact A | rewrite lookup_insert_ne by exact N; reflexivity]. }
  cbn [engines put_sets]. induction (engines s) as [|[k o'] l IH]; [reflexivity|]. cbn [existsb]. rewrite X, IH. reflexivity.
Qed.
Lemma running_lst : forall p x s, ctl s <> Some (Some p) -> is_running (put_lst (<[p := x]> (lst s)) s) = is_running s.
Proof.
  intros p x s N. unfold is_running. f_equal. cbn. destruct (ctl s) as [[q|]|]; [|reflexivity|reflexivity]. unfold ctl_state. cbn. rewrite lookup_insert_ne by congruence. reflexivity.
Qed.
Lemma Filed_notify : forall p s, saving = true -> Struct s -> SetsOK s -> p ∉ alive s -> is_Some (lst s !! p) -> Filed s -> Filed (notify_stop W saving p s).
Proof.
  intros p s V H SO D L F. pose proof (Struct_notify p s H D L) as H'. pose proof (SetsOK_notify p s SO) as SO'. unfold notify_stop in *. case_bool_decide as A; [exact F|]. cbn [owner put_lst] in *.
  destruct (owner s !! p) as [[[o i]|]|] eqn:O.
  - assert (NC : ctl s <> Some (Some p)) by (intros X; destruct (t_ctl _ _ H p X); congruence).
    unfold engine_stopped in *. cbn [sets put_lst] in *. destruct (t_lst _ _ H p L) as [R|R]; [|contradiction]. destruct (t_owner _ _ H _ _ _ O R) as (e & He & Hm). rewrite He in *.
    rewrite (get_key_In _ _ _ (t_keys _ _ H _ _ He) Hm) in *. destruct (drop_key i (members e)) as [|m ms].
    + destruct (decide (e_state e = After)) as [Af|Af].
      * rewrite (t_after _ _ H _ _ He Af) in Hm. apply elem_of_nil in Hm. destruct Hm.
      * rewrite (proj1 (SO o e He)) in *. apply Filed_synced; [exact H' | exact SO' | apply synced_update, V].
    + apply (Filed_Kept s); [exact F|]. constructor; try reflexivity.
      * intros q [[k j]|] _; cbn; auto.
      * rewrite <- (running_lst p After s NC). intros Q. rewrite <- Q.
        exact (running_change o e (ESet (e_sid e) (e_n e) (e_state e) (m :: ms) (ended e ++ [(i, exit_code W p)]) (e_callback e)) (put_lst (<[p := After]> (lst s)) s) He eq_refl).
  - apply Filed_synced; [exact H' | exact SO' | apply synced_update, V].
  - apply (Filed_Kept s); [exact F|]. constructor; try reflexivity; [intros q [[k j]|] _; cbn; auto|]. rewrite running_lst; [auto|]. intros X. destruct (t_ctl _ _ H p X); congruence.
Qed.

(** ** All steps *)
Definition fresh_id (s : st) (x : op) : Prop := match x with StartEngines sid _ _ => sid ∉ (engines s).*1 /\ sid ∉ (tasks s).*1 | _ => True end.
Lemma stop_cluster_eq : forall s, step W saving s StopCluster =
  (fst (stop_sets W (map fst (engines (fst (stop_controller W saving s)))) (fst (stop_controller W saving s))),
   worse (snd (stop_controller W saving s)) (snd (stop_sets W (map fst (engines (fst (stop_controller W saving s)))) (fst (stop_controller W saving s))))).
Proof. intros s. cbn [step]. destruct (stop_controller W saving s) as [s1 r1]. cbn [fst snd]. destruct (stop_sets W (map fst (engines s1)) s1) as [s2 r2]. reflexivity. Qed.
Lemma Struct_poll : forall s, Struct s -> Struct (fst (step W saving s PollController)).
Proof.
  intros s H. cbn [step fst]. destruct (ctl s) as [[p|]|] eqn:C; [|exact H|exact H]. case_bool_decide as A; [exact H|]. apply Struct_notify; [exact H | exact A | apply (t_ctl _ _ H p C)].
Qed.
Lemma Struct_step : forall s x, Struct s -> x <> Reload -> fresh_id s x -> Struct (fst (step W saving s x)).
Proof.
  intros s x H NR FR. destruct x as [ok|sid n fail| |sid| | | |p|p| |i|].
  - apply Struct_start_controller, H.
  - destruct FR. apply Struct_start_engines; assumption.
  - apply Struct_stop_controller, H.
  - cbn [step]. destruct (stop_set W sid s) as [s' r] eqn:E. apply (stop_set_spec _ _ _ _ H E).
  - cbn [step]. destruct (stop_sets W (map fst (engines s)) s) as [s' r] eqn:E. apply (stop_sets_spec _ _ _ _ H E).
  - rewrite stop_cluster_eq. cbn [fst]. pose proof (Struct_stop_controller s H) as H1. destruct (stop_sets W _ _) as [s' r] eqn:E. apply (stop_sets_spec _ _ _ _ H1 E).
  - apply Struct_poll, H.
  - cbn [step fst]. apply Struct_die; [apply subseteq_difference_l; reflexivity | exact H].
  - cbn [step fst]. case_bool_decide as A; [exact H | apply Struct_thread; assumption].
  - apply Struct_callback, H.
  - apply Struct_resume, H.
  - contradiction.
Qed.
Record Good (s : st) : Prop := { g_struct : Struct s; g_filed : Filed s; g_ok : SetsOK s }.
Lemma Filed_thread : forall p s, Filed s -> Filed (thread_ends p s).
Proof. intros p s F. apply (Filed_Kept s); [exact F | apply Same_Kept, Same_thread]. Qed.
Lemma Good_stop_sets : forall sids s, Good s -> Good (fst (stop_sets W sids s)).
Proof.
  intros sids s []. destruct (stop_sets W sids s) as [s' r] eqn:E. destruct (stop_sets_spec _ _ _ _ g_struct0 E) as (S' & M & _). cbn. constructor; [exact S' | apply (Filed_Kept s), Stopping_Kept; assumption | apply (SetsOK_same s); [apply (g_sets _ _ M) | assumption]].
Qed.
Lemma SetsOK_stop_controller : forall s, Struct s -> SetsOK s -> SetsOK (fst (stop_controller W saving s)).
Proof.
  intros s H SO. unfold stop_controller. destruct (ctl s) as [[p|]|]; cbn [fst]; [|eapply SetsOK_same; [apply sets_update | assumption]..].
  destruct (stop_process W p s) as [s1 ok] eqn:E. destruct (stop_process_spec _ _ _ _ H E) as (S1 & M & _). destruct ok; cbn [fst]; [eapply SetsOK_same; [apply sets_update|]; cbn|]; (apply (SetsOK_same s); [apply (m_sets _ _ M) | assumption]).
Qed.
Lemma Good_stop_controller : forall s, saving = true -> Good s -> Good (fst (stop_controller W saving s)).
Proof.
  intros s V []. pose proof (SetsOK_stop_controller s g_struct0 g_ok0) as SO'. constructor; [apply Struct_stop_controller; assumption | | exact SO'].
  pose proof (Struct_stop_controller s g_struct0) as H'. unfold stop_controller in *. destruct (ctl s) as [[p|]|]; cbn [fst] in *; [|apply Filed_synced; [exact H' | exact SO' | apply synced_update, V]..].
  destruct (stop_process W p s) as [s1 ok] eqn:E. destruct (stop_process_spec _ _ _ _ g_struct0 E) as (S1 & M & _). destruct ok; [apply Filed_synced; [exact H' | exact SO' | apply synced_update, V]|]. apply (Filed_Kept s); [assumption | apply Same_Kept, M].
Qed.
Lemma SetsOK_start_engines : forall sid n s, Struct s -> SetsOK s -> fresh_id s (StartEngines sid n None) -> SetsOK (fst (start_engines saving sid n None s)).
Proof.
  intros sid n s H SO [F T].
  unfold start_engines. pose proof (Struct_new_set sid n s H F T) as H1. set (s1 := St _ _ _ _ _ _ _ _ _ _ _ _ _) in *.
  assert (E1 : sets s1 !! nset s = Some (ESet sid n Before [] [] false)) by (cbn; apply lookup_insert).
  assert (Hs : (sid, nset s) ∈ engines s1) by (cbn; rewrite assign_fresh by exact F; apply elem_of_app; right; apply elem_of_list_singleton; reflexivity).
  assert (NT : forall sid', (sid', nset s) ∉ tasks s1) by (intros sid' X; cbn in X; destruct (t_tasks _ _ H _ _ X) as (_ & Y & _); lia).
  destruct (launch_spec n sid (nset s) _ 0 s1 H1 E1 Hs) as (R1 & R2 & e' & R3 & R4 & R5 & R6 & R7 & R8 & R9 & R10); [discriminate | intros x Hx; apply elem_of_nil in Hx; destruct Hx | exact NT|].
  cbn [fst]. apply (SetsOK_same (change_set (nset s) (fun e => ESet (e_sid e) (e_n e) Running (members e) (ended e) true) (launch (nset s) n 0 s1))); [apply sets_update|].
  unfold change_set. rewrite R3. intros o e He. cbn in He. destruct (decide (nset s = o)) as [<-|N].
  - rewrite lookup_insert in He. injection He as <-. cbn. split; [reflexivity|]. rewrite R9, R5. cbn. split.
    + destruct n; [intros _; right; reflexivity | discriminate].
    + intros i X. apply elem_of_lookup_imap in X. destruct X as (j & y & X & _). discriminate.
  - rewrite lookup_insert_ne in He by exact N. rewrite (l_others _ _ _ R2 o) in He by congruence. cbn in He. rewrite lookup_insert_ne in He by exact N. exact (SO o e He).
Qed.
Lemma Good_start_engines : forall sid n s, saving = true -> Good s -> fresh_id s (StartEngines sid n None) -> Good (fst (start_engines saving sid n None s)).
Proof.
  intros sid n s V [] FR. pose proof (SetsOK_start_engines sid n s g_struct0 g_ok0 FR) as SO'. destruct FR as [F T]. pose proof (Struct_start_engines sid n None s g_struct0 F T) as H'.
  constructor; [exact H' | apply Filed_synced; [exact H' | exact SO' | apply synced_update, V] | exact SO'].
Qed.
Lemma at_inj : forall s p x y, Struct s -> at_ s p x -> at_ s p y -> x = y.
Proof.
  intros s p [[sid i]|] [[sid' i']|] H X Y; cbn in *.
  - destruct X as (o & X1 & X2), Y as (o' & Y1 & Y2). rewrite X1 in Y1. injection Y1 as <- <-. destruct (t_engines _ _ H _ _ X2) as (e & E1 & E2). destruct (t_engines _ _ H _ _ Y2) as (e' & E1' & E2'). congruence.
  - destruct X as (o & X1 & _). destruct (t_ctl _ _ H p Y) as [Z _]. congruence.
  - destruct Y as (o & Y1 & _). destruct (t_ctl _ _ H p X) as [Z _]. congruence.
  - reflexivity.
Qed.
Lemma saved_says : forall d p, saved_pid d p -> exists x, says d p x.
Proof. intros d p [X|(sid & ss & i & X & Y)]; [exists None; exact X | exists (Some (sid, i)); exists ss; split; assumption]. Qed.
Lemma at_update : forall s p x, at_ (update s) p x <-> at_ s p x.
Proof. intros s p [[sid i]|]; unfold update_cluster_file; destruct saving, (is_running s); reflexivity. Qed.
Lemma restored_members : forall d l s0 s, Restored d l s0 s -> forall o e, sets s !! o = Some e -> members e <> [] /\ e_callback e = true.
Proof. intros d l s0 s R o e He. destruct (r_full _ _ _ _ R o e He) as (A & _ & B & _). split; assumption. Qed.
Lemma Good_reload : forall s, saving = true -> Good s -> Good (reload saving s) /\ forall p x, p ∈ alive s -> at_ s p x -> at_ (reload saving s) p x.
Proof.
  intros s V [H F SO]. destruct (file s) as [d|] eqn:E.
  - destruct (reload_restored s d H (f_ok _ F) E) as (s1 & Er & R).
    assert (C : forall p, p ∈ alive s -> saved_pid d p) by (intros p Hp; destruct (f_cover _ F p Hp) as (d' & E' & X); congruence).
    pose proof (Restored_Struct _ _ _ R C) as H1.
    assert (SO1 : SetsOK s1).
    { intros o e He. destruct (r_full _ _ _ _ R o e He) as (A & _ & B & _ & N). split; [exact B|]. split; [contradiction|]. intros i X.
      destruct (N i X) as (sid & ss & N1 & N2). exact (f_started _ F d sid ss i E N1 N2). }
    assert (AT : forall p x, p ∈ alive s -> at_ s p x -> at_ s1 p x).
    { intros p x Hp X. destruct (saved_says d p (C p Hp)) as [y Y]. pose proof (f_agree _ F d p y E Hp Y) as Z. rewrite (at_inj s p x y H X Z).
      destruct y as [[sid i]|]; cbn in *; [destruct Y as (ss & Y1 & Y2); exact (r_mem _ _ _ _ R p sid ss i Hp Y1 Y2) | exact (r_ctl _ _ _ _ R p Hp Y)]. }
    rewrite Er. destruct (decide (to_dict s1 = d)) as [D|D].
    + split; [|exact AT]. constructor; [exact H1 | | exact SO1]. apply Filed_synced; [exact H1 | exact SO1|]. unfold synced. rewrite (r_file _ _ _ _ R). cbn. rewrite E.
      rewrite dict_running; [congruence|]. rewrite D. exact (f_nonempty _ F d E).
    + split; [|intros p x Hp X; apply at_update, AT; assumption]. pose proof (Struct_update s1 H1) as H2. assert (SO2 : SetsOK (update s1)) by (apply (SetsOK_same s1); [apply sets_update | exact SO1]).
      constructor; [exact H2 | apply Filed_synced; [exact H2 | exact SO2 | apply synced_update, V] | exact SO2].
  - assert (A : alive s = ∅). { apply set_eq. intros p. split; intros Hp; [|apply elem_of_empty in Hp; destruct Hp]. destruct (f_cover _ F p Hp) as (d & X & _). congruence. }
    unfold reload. rewrite E. rewrite A. split; [|intros p x Hp; apply elem_of_empty in Hp; destruct Hp]. pose proof (Struct_empty (next s) None (notices s)) as H1.
    assert (SO1 : SetsOK (St ∅ (next s) ∅ ∅ ∅ [] ∅ 0 None [] None [] (notices s))) by (intros o e X; cbn in X; rewrite lookup_empty in X; discriminate).
    constructor; [exact H1 | apply Filed_synced; [exact H1 | exact SO1 | reflexivity] | exact SO1].
Qed.
Lemma Good_step : forall s x, saving = true -> Good s -> starts_well x = true -> fresh_id s x -> Good (fst (step W saving s x)).
Proof.
  intros s x V G SW FR. destruct x as [ok|sid n fail| |sid| | | |p|p| |i|].
  - destruct G. pose proof (Struct_start_controller ok s g_struct0) as H'. cbn [step]. unfold start_controller in *. destruct (ctl s) eqn:C; [constructor; assumption|]. destruct ok; cbn [fst] in *.
    + match goal with |- Good (update ?y) => assert (SO' : SetsOK (update y)) by (eapply SetsOK_same; [apply sets_update | exact g_ok0]) end. constructor; [exact H' | apply Filed_synced; [exact H' | exact SO' | apply synced_update, V] | exact SO'].
    + constructor; [exact H' | | exact g_ok0]. apply (Filed_Kept s); [exact g_filed0|]. constructor; try reflexivity.
      * intros q [[k j]|] _; cbn; [auto | rewrite C; discriminate].
  - destruct fail; [discriminate|]. apply Good_start_engines; assumption.
  - apply Good_stop_controller; assumption.
  - cbn [step]. destruct G. destruct (stop_set W sid s) as [s' r] eqn:E. destruct (stop_set_spec _ _ _ _ g_struct0 E) as (S' & M & _). cbn [fst]. constructor; [exact S' | apply (Filed_Kept s), Stopping_Kept; assumption | apply (SetsOK_same s); [apply (g_sets _ _ M) | assumption]].
  - apply Good_stop_sets, G.
  - rewrite stop_cluster_eq. cbn [fst]. apply Good_stop_sets, Good_stop_controller; assumption.
  - destruct G. constructor; [apply Struct_poll; assumption | |]; cbn [step fst]; (destruct (ctl s) as [[p|]|] eqn:C; [|assumption|assumption]); (case_bool_decide as A; [assumption|]).
    + apply Filed_notify; try assumption. apply (t_ctl _ _ g_struct0 p C).
    + apply SetsOK_notify; assumption.
  - destruct G. constructor; [apply Struct_step; [assumption | discriminate | exact I] | | assumption]. cbn [step fst]. apply (Filed_Kept s); [assumption|]. apply Kept_same; try reflexivity. cbn. apply subseteq_difference_l; reflexivity.
  - destruct G. constructor; [apply Struct_step; [assumption | discriminate | exact I] | |]; cbn [step fst]; (case_bool_decide as A; [assumption|]).
    + apply Filed_thread; assumption.
    + apply (SetsOK_same s); [apply (m_sets _ _ (Same_thread p s)) | assumption].
  - destruct G. constructor; [apply Struct_callback; assumption | |]; cbn [step fst]; (destruct (pending s) as [|p r] eqn:E; [assumption|]); rewrite notify_pending.
    + assert (Hp : p ∈ pending s) by (rewrite E; left). assert (F : Filed (notify_stop W saving p s)) by (apply Filed_notify; try assumption; [apply (t_pending _ _ g_struct0 p Hp) | apply (t_known _ _ g_struct0); left; exact Hp]).
      apply (Filed_Kept (notify_stop W saving p s)); [exact F | apply Kept_same; reflexivity].
    + apply (SetsOK_same (notify_stop W saving p s)); [reflexivity | apply SetsOK_notify; assumption].
  - destruct G. pose proof (Struct_resume i s g_struct0) as H'. cbn [step] in *. destruct (tasks s !! i) as [[sid o]|]; [|constructor; assumption]. cbn [fst] in *. unfold finish_set in *. destruct (get_key sid _).
    + match goal with |- Good (update ?y) => assert (SO' : SetsOK (update y)) by (eapply SetsOK_same; [apply sets_update | exact g_ok0]) end. constructor; [exact H' | apply Filed_synced; [exact H' | exact SO' | apply synced_update, V] | exact SO'].
    + constructor; [exact H' | | exact g_ok0]. apply (Filed_Kept s); [assumption | apply Kept_same; reflexivity].
  - apply Good_reload; assumption.
Qed.
Lemma Good_init : Good init.
Proof.
  constructor; [apply Struct_init | | intros o e X; cbn in X; rewrite lookup_empty in X; discriminate]. apply Filed_synced; [apply Struct_init | intros o e X; cbn in X; rewrite lookup_empty in X; discriminate | reflexivity].
Qed.
End cluster.
