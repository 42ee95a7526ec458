(** The invariant that connects the parts: ids, engines, and where every task is. *)
From stdpp Require Import base gmap sets list.
From Verif Require Import Dependency_Model Sched_Trace Sched_Spec Sched_Model Sched_Env Sched_Base Sched_Load Sched_Once Sched_Strand Sched_Idle_Inv.
From Verif Require Import Sys_Model Sys_Log Sys_Trace.
From Verif Require Client_Model.
From Coq Require Import ZArith Lia.

Definition loc (s : sys) : list (nat * nat) := inbox s ++ busy s ++ map fst (outbox s) ++ lost s.
Definition log (s : sys) : list obs := s_log (sch s).

Lemma filter_all {A} (P : A -> Prop) `{forall x, Decision (P x)} (l : list A) : (forall x, x ∈ l -> P x) -> filter P l = l.
Proof.
  induction l as [|x l IH]; intros Hl; [reflexivity|]. rewrite filter_cons_True by (apply Hl; left). f_equal. apply IH. intros y Hy. apply Hl. right. exact Hy.
Qed.
Lemma filter_both (e : nat) (l : list (nat * nat)) : l ≡ₚ filter (fun x => fst x <> e) l ++ filter (fun x => fst x = e) l.
Proof.
  induction l as [|x l IH]; [reflexivity|]. destruct (decide (fst x = e)) as [Y|N].
  - rewrite filter_cons_False, filter_cons_True by tauto. rewrite <- Permutation_middle. constructor. exact IH.
  - rewrite filter_cons_True, filter_cons_False by tauto. cbn [app]. constructor. exact IH.
Qed.

(** the tasks of client c *)
Notation mine s c := (fun m => client_of s m = Some c).
Lemma perm_move {A} (l l1 : list A) x l2 : l ++ x :: l1 ++ l2 ≡ₚ l ++ l1 ++ x :: l2.
Proof. rewrite (Permutation_middle l1 l2 x). reflexivity. Qed.
Lemma filter_none {A} (P : A -> Prop) `{forall x, Decision (P x)} (l : list A) : (forall x, x ∈ l -> ~ P x) -> filter P l = [].
Proof.
  induction l as [|x l IH]; intros Hl; [reflexivity|]. rewrite filter_cons_False by (apply Hl; left). apply IH. intros y Hy. apply Hl. right. exact Hy.
Qed.
Lemma filter_cong {A} (P Q : A -> Prop) `{forall x, Decision (P x)} `{forall x, Decision (Q x)} (l : list A) : (forall x, x ∈ l -> P x <-> Q x) -> filter P l = filter Q l.
Proof.
  induction l as [|x l IH]; intros Hl; [reflexivity|]. assert (E : filter P l = filter Q l) by (apply IH; intros y Hy; apply Hl; right; exact Hy). pose proof (Hl x (elem_of_list_here _ _)) as Hx.
  destruct (decide (P x)) as [Y|N]; [rewrite !filter_cons_True by tauto; f_equal; exact E|rewrite !filter_cons_False by tauto; exact E].
Qed.

Section Core.
Context (scheme : nat -> list Z -> nat).
Notation sreach := (Sched_Base.reachable 1 scheme genuine).

Record core (s : sys) : Prop := Core {
  c_sched : sreach (sch s);
  c_placed : placed (log s) (loc s);
  c_ids : submits (log s) ++ (to_sched s).*1 ≡ₚ seq 0 (next_id s);
  c_owners : length (owners s) = next_id s;
  c_joined : forall c, c ∈ owners s -> c ∈ joined s;
  c_order : forall c, filter (mine s c) (submits (log s) ++ (to_sched s).*1) = filter (mine s c) (seq 0 (next_id s));
  c_hub : proper (ann (log s) ++ hub_s s) (connected s) (noticed s);
  c_conn : NoDup (connected s);
  c_noticed : NoDup (noticed s);
  c_nd : forall e, e ∈ noticed s -> e ∈ dead s;
  c_dc : forall e, e ∈ dead s -> e ∈ connected s;
  c_busy : forall e m, (e, m) ∈ busy s -> e ∈ connected s /\ e ∉ dead s;
  c_lost : forall e m, (e, m) ∈ lost s -> e ∈ dead s }.

Lemma sreach_sound sc : sreach sc -> sound (s_log sc).
Proof. intros H m. apply (life_cycle scheme). exact H. Qed.

(** ** The scheduler handles an event *)
Lemma sched_next sc ev sc' : sreach sc -> genuine (s_log sc) ev -> sched_step scheme sc ev sc' -> sreach sc'.
Proof. intros H G [fuel E]. eapply reach_step; eauto. Qed.

Lemma dead_unregistered s e : core s -> e ∈ s_strand_timers (sch s) -> registered (log s) e = false /\ e ∈ noticed s.
Proof.
  intros C Hin. pose proof (I11_reachable scheme _ (c_sched s C)) as H11.
  destruct (w_tm _ _ _ _ _ _ _ _ _ _ _ H11 e (or_introl Hin)) as [A B].
  assert (H10 : I10 1 (sch s)) by (eapply (I10_reachable 1 scheme genuine); [apply genuine_registration|apply c_sched, C]).
  assert (R : registered (log s) e = false).
  { destruct (registered (log s) e) eqn:E; [|reflexivity]. exfalso. apply A. apply (l_reg _ _ _ _ H10). exact E. }
  split; [exact R|]. pose proof (registered_ann _ _ _ _ e (c_hub s C)) as X.
  apply (h_dead _ _ _ (c_hub s C)). apply elem_of_app. left. destruct (decide ((false, e) ∈ ann (log s))) as [Y|N]; [exact Y|].
  exfalso. assert (registered (log s) e = true) by (apply X; split; [apply ann_reg; exact B|exact N]). congruence.
Qed.

(** genuine events *)
Lemma ids_nodup s : core s -> NoDup (submits (log s) ++ (to_sched s).*1).
Proof. intros C. rewrite (c_ids s C). apply NoDup_ListNoDup, seq_NoDup. Qed.
Lemma ids_lt s m : core s -> m ∈ submits (log s) ++ (to_sched s).*1 <-> m < next_id s.
Proof. intros C. rewrite (c_ids s C), elem_of_seq. lia. Qed.
Lemma ids_client s m : core s -> m < next_id s <-> exists c, client_of s m = Some c.
Proof.
  intros C. unfold client_of. split.
  - intros Hm. destruct (lookup_lt_is_Some_2 (owners s) m) as [c Hc]; [rewrite (c_owners s C); exact Hm|]. eauto.
  - intros [c Hc]. rewrite <- (c_owners s C). eapply lookup_lt_Some, Hc.
Qed.
Lemma gen_submit s m md l1 l2 : core s -> to_sched s = l1 ++ (m, md) :: l2 -> genuine (log s) (EvSubmit m md).
Proof.
  intros C E. cbn [genuine]. intros X. apply submits_elem in X. pose proof (ids_nodup s C) as N'. rewrite E in N'. apply NoDup_app in N' as (_ & N' & _).
  apply (N' m X). rewrite fmap_app. apply elem_of_app. right. left.
Qed.
Lemma gen_result s e m o l1 l2 : core s -> outbox s = l1 ++ (e, m, o) :: l2 -> phase_of (log s) m = OnEngine e.
Proof.
  intros C E. apply (proj2 (c_placed s C)). unfold loc. rewrite E, map_app. cbn [map fst].
  rewrite !elem_of_app, elem_of_cons. auto 10.
Qed.
Lemma gen_register s e l : core s -> hub_s s = (true, e) :: l -> genuine (log s) (EvRegister e).
Proof.
  intros C E. cbn [genuine]. intros X. apply ann_reg in X. pose proof (h_nodup _ _ _ (c_hub s C)) as N. rewrite E in N.
  apply NoDup_app in N as (_ & N & _). apply (N _ X). left.
Qed.

(** What an event does to the log *)
Lemma submit_log s m md l1 l2 sc : core s -> to_sched s = l1 ++ (m, md) :: l2 -> sched_step scheme (sch s) (EvSubmit m md) sc ->
  sreach sc /\ s_strand_timers sc = s_strand_timers (sch s) /\ exists u, s_log sc = log s ++ ObsSubmit m md :: u /\ since s sc = ObsSubmit m md :: u /\ Forall own u.
Proof.
  intros C E St. split; [eapply sched_next; eauto using c_sched, gen_submit|]. destruct St as [f St]. apply step_submit in St as (A & u & B & D).
  split; [exact A|]. exists u. split; [exact B|]. split; [apply since_app, B|exact D].
Qed.
Lemma result_log s e m o l1 l2 sc : core s -> outbox s = l1 ++ (e, m, o) :: l2 -> sched_step scheme (sch s) (EvResult m e (kind_of o)) sc ->
  sreach sc /\ s_strand_timers sc = s_strand_timers (sch s) /\
  exists u, s_log sc = log s ++ ObsResult m e (kind_of o) :: u /\ since s sc = ObsResult m e (kind_of o) :: u /\
    Forall (fun x => own x \/ (kind_of o <> RUnmet /\ x = ObsReply m (FromEngine e (okb (kind_of o))))) u.
Proof.
  intros C E St. split; [eapply sched_next; [apply c_sched, C| |exact St]; cbn; eapply gen_result; eauto|].
  destruct St as [f St]. apply step_result in St as (A & u & B & D).
  split; [exact A|]. exists u. split; [exact B|]. split; [apply since_app, B|exact D].
Qed.
Lemma register_log s e l sc : core s -> hub_s s = (true, e) :: l -> sched_step scheme (sch s) (EvRegister e) sc ->
  sreach sc /\ s_strand_timers sc = s_strand_timers (sch s) /\ exists u, s_log sc = log s ++ ObsRegister e :: u /\ since s sc = ObsRegister e :: u /\ Forall own u.
Proof.
  intros C E St. split; [eapply sched_next; eauto using c_sched, gen_register|]. destruct St as [f St]. apply step_register in St as (A & u & B & D).
  split; [exact A|]. exists u. split; [exact B|]. split; [apply since_app, B|exact D].
Qed.
Lemma unregister_log s e sc : core s -> sched_step scheme (sch s) (EvUnregister e) sc ->
  sreach sc /\ length (s_strand_timers sc) <= S (length (s_strand_timers (sch s))) /\ s_log sc = log s ++ [ObsUnregister e] /\ since s sc = [ObsUnregister e].
Proof.
  intros C St. split; [eapply sched_next; [apply c_sched, C| |exact St]; exact I|]. destruct St as [f St]. apply step_unregister in St as (A & B).
  split; [exact A|]. split; [exact B|]. apply since_app, B.
Qed.
Lemma timeout_log s j tid sc : core s -> sched_step scheme (sch s) (EvJobTimer j tid) sc ->
  sreach sc /\ s_strand_timers sc = s_strand_timers (sch s) /\ exists u, s_log sc = log s ++ u /\ since s sc = u /\ Forall own u.
Proof.
  intros C St. split; [eapply sched_next; [apply c_sched, C| |exact St]; exact I|]. destruct St as [f St]. apply step_job_timer in St as (A & u & B & D).
  split; [exact A|]. exists u. split; [exact B|]. split; [apply since_app, B|exact D].
Qed.
Lemma strand_log s e sc : core s -> e ∈ s_strand_timers (sch s) -> sched_step scheme (sch s) (EvStrandTimer e) sc ->
  sreach sc /\ S (length (s_strand_timers sc)) = length (s_strand_timers (sch s)) /\
  (exists u, s_log sc = log s ++ u /\ since s sc = u /\ Forall (for_dead e) u /\ (forall m, ObsSend m e ∉ u)) /\
  (forall m, phase_of (s_log sc) m <> OnEngine e).
Proof.
  intros C Hin St. assert (R : sreach sc) by (eapply sched_next; [apply c_sched, C| |exact St]; exact I).
  split; [exact R|]. destruct St as [f St]. pose proof (step_strand _ _ _ _ _ _ Hin St) as (A & u & B & D). fold (log s) in B.
  split; [exact A|]. destruct (dead_unregistered s e C Hin) as [Hreg _].
  assert (Hno : forall m, ObsSend m e ∉ u).
  { intros m Hm. apply elem_of_list_split in Hm as (u1 & u2 & ->).
    assert (registered (log s ++ u1) e = true).
    { eapply (sends_to_registered 1 scheme sc); [|rewrite B, app_assoc; reflexivity].
      clear - R. induction R as [|x ev x' fuel Hr IH Hok Hst]; [constructor|]. econstructor; [exact IH|apply genuine_registration, Hok|exact Hst]. }
    assert (Hu : Forall (for_dead e) u1) by (apply Forall_app in D; tauto).
    assert (registered (log s ++ u1) e = false); [|congruence].
    clear - Hreg Hu. induction u1 as [|o u1 IH] using rev_ind; [rewrite app_nil_r; exact Hreg|]. apply Forall_app in Hu as [Hu Ho].
    apply Forall_cons in Ho as [Ho _]. rewrite app_assoc, registered_snoc. destruct Ho as [Ho|[[m ->]|[m ->]]]; [destruct o; try destruct Ho|..]; apply IH, Hu. }
  split; [exists u; auto using since_app|].
  intros m E. destruct (phase_of (log s) m) eqn:P.
  5:{ exfalso. apply (sreach_sound _ (c_sched s C) m). exact P. }
  1-2,4: exfalso.
  4:{ destruct (decide (e0 = e)) as [->|Hne].
      - assert (Hsub : submitted (log s) m) by (apply phase_submitted; [apply sreach_sound, c_sched, C|congruence]). destruct Hsub as [md Hmd].
        destruct (strand_recovered scheme (sch s) sc f e m md (c_sched s C) Hreg P Hmd St) as (_ & X & _). contradiction.
      - revert E. rewrite B, phase_app, P. clear - Hno Hne D. assert (X : forall p, p <> OnEngine e -> foldl (phase_step m) p u <> OnEngine e); [|apply X; congruence].
        induction u as [|o u IH]; intros p Hp; [exact Hp|]. apply Forall_cons in D as [_ D]. cbn [foldl]. apply IH; [exact D|intros x Hx; apply (Hno x); right; exact Hx|].
        destruct o as [m0 md|e1|e1|m0 e1|m0 e1 k|m0 r]; cbn [phase_step]; auto; destruct (decide (m = m0)) as [->|]; auto; destruct p; try congruence.
        + intros X. injection X as ->. apply (Hno m0). left.
        + destruct (decide _); congruence. }
  all: revert E; rewrite B, phase_app, P; clear - Hno; assert (X : forall p, p <> OnEngine e -> foldl (phase_step m) p u <> OnEngine e); [|apply X; congruence].
  all: induction u as [|o u IH]; intros p Hp; [exact Hp|]; cbn [foldl]; apply IH; [intros x Hx; apply (Hno x); right; exact Hx|].
  all: destruct o as [m0 md|e1|e1|m0 e1|m0 e1 k|m0 r]; cbn [phase_step]; auto; destruct (decide (m = m0)) as [->|]; auto; destruct p; try congruence.
  all: try (intros X; injection X as ->; apply (Hno m0); left).
  all: destruct (decide _); congruence.
Qed.

(** ** The invariant holds *)
Lemma core_start : core start.
Proof.
  split; cbn; try (constructor; fail); try (intros e H; inversion H; fail); try (intros e m H; inversion H; fail); try (intros c; reflexivity).
  - split; [constructor|]. intros e m. split; [intros H; inversion H|discriminate].
  - split; [constructor|intros e; split; intros H; inversion H..|]. intros l1 e l2 H. destruct l1; discriminate.
Qed.

Lemma placed_sent t u l l' : placed t l -> sound (t ++ u) -> Forall no_result u -> l' ≡ₚ l ++ to_engines u -> placed (t ++ u) l'.
Proof.
  intros P S N E. eapply placed_perm; [symmetry; exact E|]. rewrite <- moves_no_result by exact N. apply placed_fold; assumption.
Qed.
Lemma proper_shift H conn noticed a b : H = a ++ b -> proper H conn noticed -> proper (a ++ b) conn noticed.
Proof. intros ->. auto. Qed.

Context (allowed : sys -> nat -> taskmd -> Prop).
Lemma core_ext s s' : core s -> external scheme allowed s s' -> core s'.
Proof.
  intros C St. destruct St as [s c md Hj Ha|s c Hj|s e He|s e He Hd|s e m o l1 l2 He E Hlast|s j tid sc St].
  - destruct (C) as [C1 C2 C3 CO CJ CR C4 C5 C6 C7 C8 C9 C10]. split; try assumption; unfold log in *; cbn [sch to_sched next_id owners joined] in *.
    + rewrite fmap_app, app_assoc, C3. rewrite seq_S. reflexivity.
    + rewrite app_length, CO. cbn. lia.
    + intros c' X. apply elem_of_app in X as [X|X]; [auto|]. apply elem_of_list_singleton in X as ->. exact Hj.
    + intros c'. rewrite fmap_app, app_assoc, seq_S, !filter_app. f_equal.
      assert (Old : forall m, m < next_id s -> client_of (Sys (events s ++ [(c, Client_Model.Send (Client_Model.Plain (next_id s)) None)]) (S (next_id s)) (to_sched s ++ [(next_id s, md)]) (sch s)
          (inbox s) (busy s) (lost s) (outbox s) (replies s) (hub_s s) (hub_c s) (connected s) (dead s) (noticed s) (begun s) (ended s) (owners s ++ [c]) (joined s)) m = client_of s m).
      { intros m Hm. unfold client_of. cbn [owners]. apply lookup_app_l. rewrite CO. exact Hm. }
      rewrite <- !filter_app. etransitivity; [apply filter_cong with (Q := mine s c')|etransitivity; [apply CR|symmetry; apply filter_cong]].
      * intros m Hm. apply (ids_lt s m C) in Hm. rewrite Old by exact Hm. reflexivity.
      * intros m Hm. apply elem_of_seq in Hm. rewrite Old by lia. reflexivity.
  - destruct C as [C1 C2 C3 CO CJ CR C4 C5 C6 C7 C8 C9 C10]. split; try assumption. cbn [owners joined]. intros c' X. right. auto.
  - destruct C as [C1 C2 C3 CO CJ CR C4 C5 C6 C7 C8 C9 C10]. split; try assumption; unfold log in *; cbn [connected dead noticed hub_s sch] in *.
    + rewrite app_assoc. destruct C4 as [H1 H2 H3 H4]. split.
      * apply NoDup_app. split; [exact H1|]. split; [|apply NoDup_singleton]. intros x Hx Hx'. apply elem_of_list_singleton in Hx' as ->. apply H2 in Hx. contradiction.
      * intros e'. rewrite elem_of_app, elem_of_list_singleton, H2, elem_of_cons. split; [intros [?|X]; [auto|left; congruence]|intros [->|?]; auto].
      * intros e'. rewrite elem_of_app, elem_of_list_singleton, H3. split; [intros [?|X]; [auto|discriminate]|auto].
      * intros l1 e' l2 E. destruct l2 as [|y l2 _] using rev_ind; [apply app_inj_tail in E as [_ E]; discriminate|].
        rewrite app_comm_cons, app_assoc in E. apply app_inj_tail in E as [E _]. exact (H4 l1 e' l2 E).
    + constructor; assumption.
    + intros x Hx. right. apply C8, Hx.
    + intros x m Hx. destruct (C9 x m Hx). split; [right; assumption|assumption].
  - destruct C as [C1 C2 C3 CO CJ CR C4 C5 C6 C7 C8 C9 C10]. split; try assumption; unfold log in *; cbn [connected dead noticed busy lost sch] in *.
    + eapply placed_perm; [|exact C2]. unfold loc. cbn [inbox busy outbox lost]. apply Permutation_app_head. 
      rewrite (filter_both e (busy s)) at 1. solve_Permutation.
    + intros x Hx. right. apply C7, Hx.
    + intros x Hx. apply elem_of_cons in Hx as [->|Hx]; [exact He|apply C8, Hx].
    + intros x m Hx. apply elem_of_list_filter in Hx as [Hne Hx]. cbn in Hne. destruct (C9 x m Hx). split; [assumption|]. rewrite elem_of_cons. tauto.
    + intros x m Hx. apply elem_of_app in Hx as [Hx|Hx]; [right; eapply C10; eauto|]. apply elem_of_list_filter in Hx as [Hx _]. cbn in Hx. rewrite Hx. left.
  - destruct C as [C1 C2 C3 CO CJ CR C4 C5 C6 C7 C8 C9 C10]. split; try assumption; unfold log in *; cbn [connected dead noticed busy lost sch] in *.
    + eapply placed_perm; [|exact C2]. unfold loc. cbn [inbox busy outbox lost]. rewrite E, !map_app. cbn [map fst]. do 2 apply Permutation_app_head. solve_Permutation.
    + intros x y Hx. apply elem_of_app in Hx as [Hx|Hx]; [eapply C10; eauto|]. apply elem_of_list_singleton in Hx as [= -> ->]. exact He.
  - destruct (timeout_log s j tid sc C St) as (R & _ & u & E & Es & Hu). destruct C as [C1 C2 C3 CO CJ CR C4 C5 C6 C7 C8 C9 C10].
    unfold after_sched. split; try assumption; unfold log in *; cbn [sch connected dead noticed to_sched next_id hub_s] in *; rewrite ?E.
    + eapply placed_sent; [exact C2|rewrite <- E; apply sreach_sound, R|apply own_no_result, Hu|]. unfold loc. cbn [inbox busy outbox lost]. rewrite Es. solve_Permutation.
    + rewrite submits_app, (submits_own u Hu), app_nil_r. exact C3.
    + intros c. rewrite submits_app, (submits_own u Hu), app_nil_r. exact (CR c).
    + rewrite ann_app, (ann_own u Hu), app_nil_r. exact C4.
Qed.

Lemma core_int s s' : core s -> internal scheme s s' -> core s'.
Proof.
  intros C St. destruct St as [s m md l1 l2 sc E Hfst St|s e m o l1 l2 sc E Hfst St|s a l sc E St|s e sc Hin Hno St|s e m l1 l2 He Hd E Hfst Hb|s e m l1 l2 He Hd E Hfst Hb|s e m o l1 l2 E Ho|s e He Hn|s c m r l1 l2 us Hc E Hfst|s c a l1 l2 E Hfst].
  - destruct (submit_log s m md l1 l2 sc C E St) as (R & _ & u & El & Es & Hu). destruct C as [C1 C2 C3 CO CJ CR C4 C5 C6 C7 C8 C9 C10].
    unfold set_to_sched, after_sched. split; try assumption; unfold log in *; cbn [sch connected dead noticed to_sched next_id hub_s] in *; rewrite ?El.
    + eapply placed_sent; [exact C2|rewrite <- El; apply sreach_sound, R|constructor; [exact I|apply own_no_result, Hu]|]. unfold loc. cbn [inbox busy outbox lost]. rewrite Es. solve_Permutation.
    + rewrite submits_app. cbn [submits omap list_omap]. fold (submits u). rewrite (submits_own u Hu). rewrite E in C3. rewrite <- C3, <- app_assoc, !fmap_app. exact (perm_move (submits (s_log (sch s))) l1.*1 m l2.*1).
    + intros c. rewrite submits_app. cbn [submits omap list_omap]. fold (submits u). rewrite (submits_own u Hu). etransitivity; [|exact (CR c)]. rewrite E, <- app_assoc, !fmap_app. cbn [app fmap list_fmap fst].
      rewrite !filter_app. f_equal. change (filter (mine s c) (m :: l1.*1 ++ l2.*1) = filter (mine s c) l1.*1 ++ filter (mine s c) (m :: l2.*1)).
      destruct (decide (client_of s m = Some c)) as [Y|N]; [|rewrite !filter_cons_False by exact N; apply filter_app].
      rewrite !filter_cons_True by exact Y. rewrite filter_app. rewrite (filter_none _ l1.*1); [reflexivity|].
      intros x Hx Hx'. apply elem_of_list_fmap in Hx as ([x' md'] & -> & Hx). cbn in Hx'. apply (Hfst x' md' Hx). rewrite Y. exact Hx'.
    + rewrite ann_app. cbn [ann omap list_omap]. fold (ann u). rewrite (ann_own u Hu), app_nil_r. exact C4.
  - destruct (result_log s e m o l1 l2 sc C E St) as (R & _ & u & El & Es & Hu).
    assert (Hnr : Forall no_result u). { eapply Forall_impl; [exact Hu|]. intros x [Hx|[_ ->]]; [destruct x; try destruct Hx; exact I|exact I]. }
    assert (Ha : submits u = [] /\ ann u = []).
    { clear - Hu. induction u as [|x u IH]; [auto|]. apply Forall_cons in Hu as [Hx Hu]. destruct (IH Hu). destruct Hx as [Hx|[_ ->]]; [destruct x; try destruct Hx|]; auto. }
    pose proof (gen_result s e m o l1 l2 C E) as Hph. destruct C as [C1 C2 C3 CO CJ CR C4 C5 C6 C7 C8 C9 C10].
    unfold set_outbox, after_sched. split; try assumption; unfold log in *; cbn [sch connected dead noticed to_sched next_id hub_s] in *; rewrite ?El.
    + replace (s_log (sch s) ++ ObsResult m e (kind_of o) :: u) with ((s_log (sch s) ++ [ObsResult m e (kind_of o)]) ++ u) in * by (rewrite <- app_assoc; reflexivity).
      assert (Hs : sound ((s_log (sch s) ++ [ObsResult m e (kind_of o)]) ++ u)) by (rewrite <- El; apply sreach_sound, R).
      eapply placed_sent with (l := inbox s ++ busy s ++ map fst (l1 ++ l2) ++ lost s); [|exact Hs|exact Hnr|].
      * pose proof (placed_step _ (ObsResult m e (kind_of o)) _ C2 (sound_prefix _ _ Hs)) as P. eapply placed_perm; [|exact P]. cbn [moves].
        assert (Q : loc s ≡ₚ (e, m) :: (inbox s ++ busy s ++ map fst (l1 ++ l2) ++ lost s)) by (unfold loc; rewrite E, !map_app; cbn [map fst]; solve_Permutation).
        destruct C2 as [N _]. rewrite Q in N. apply NoDup_cons in N as [N _]. rewrite Q. rewrite filter_cons_False by tauto.
        rewrite filter_all; [reflexivity|]. intros x Hx ->. contradiction.
      * unfold loc. cbn [inbox busy outbox lost]. rewrite Es. cbn [to_engines omap list_omap]. fold (to_engines u). solve_Permutation.
    + rewrite submits_app. cbn [submits omap list_omap]. fold (submits u). rewrite (proj1 Ha), app_nil_r. exact C3.
    + intros c. rewrite submits_app. cbn [submits omap list_omap]. fold (submits u). rewrite (proj1 Ha), app_nil_r. exact (CR c).
    + rewrite ann_app. cbn [ann omap list_omap]. fold (ann u). rewrite (proj2 Ha), app_nil_r. exact C4.
  - destruct a as [[] e]; cbn [announcement fst snd] in St.
    + destruct (register_log s e l sc C E St) as (R & _ & u & El & Es & Hu). destruct C as [C1 C2 C3 CO CJ CR C4 C5 C6 C7 C8 C9 C10].
      unfold set_hub_s, after_sched. split; try assumption; unfold log in *; cbn [sch connected dead noticed to_sched next_id hub_s] in *; rewrite ?El.
      * eapply placed_sent; [exact C2|rewrite <- El; apply sreach_sound, R|constructor; [exact I|apply own_no_result, Hu]|]. unfold loc. cbn [inbox busy outbox lost]. rewrite Es. solve_Permutation.
      * rewrite submits_app. cbn [submits omap list_omap]. fold (submits u). rewrite (submits_own u Hu), app_nil_r. exact C3.
      * intros c. rewrite submits_app. cbn [submits omap list_omap]. fold (submits u). rewrite (submits_own u Hu), app_nil_r. exact (CR c).
      * rewrite ann_app. cbn [ann omap list_omap]. fold (ann u). rewrite (ann_own u Hu). rewrite E in C4. rewrite <- app_assoc. exact C4.
    + destruct (unregister_log s e sc C St) as (R & _ & El & Es). destruct C as [C1 C2 C3 CO CJ CR C4 C5 C6 C7 C8 C9 C10].
      unfold set_hub_s, after_sched. split; try assumption; unfold log in *; cbn [sch connected dead noticed to_sched next_id hub_s] in *; rewrite ?El.
      * eapply placed_sent; [exact C2|rewrite <- El; apply sreach_sound, R|repeat constructor|]. unfold loc. cbn [inbox busy outbox lost]. rewrite Es. solve_Permutation.
      * rewrite submits_app. cbn [submits omap list_omap]. rewrite app_nil_r. exact C3.
      * intros c. rewrite submits_app. cbn [submits omap list_omap]. rewrite app_nil_r. exact (CR c).
      * rewrite ann_app. cbn [ann omap list_omap]. rewrite E in C4. rewrite <- app_assoc. exact C4.
  - destruct (strand_log s e sc C Hin St) as (R & _ & (u & El & Es & Hu & Hns) & Hgone).
    assert (Ha : submits u = [] /\ ann u = []).
    { clear - Hu. induction u as [|x u IH]; [auto|]. apply Forall_cons in Hu as [Hx Hu]. destruct (IH Hu). destruct Hx as [Hx|[[m ->]|[m ->]]]; [destruct x; try destruct Hx|..]; auto. }
    destruct (dead_unregistered s e C Hin) as [_ Hdead]. destruct C as [C1 C2 C3 CO CJ CR C4 C5 C6 C7 C8 C9 C10].
    unfold forget, after_sched. split; try assumption; unfold log in *; cbn [sch connected dead noticed to_sched next_id hub_s busy lost] in *; rewrite ?El.
    + rewrite El in Hgone. assert (Hs : sound (s_log (sch s) ++ u)) by (rewrite <- El; apply sreach_sound, R).
      pose proof (placed_fold u _ _ C2 Hs) as P. eapply placed_perm; [|exact P].
      rewrite <- (filter_all (fun x => fst x <> e) (foldl moves (loc s) u)) at 1.
      2:{ intros [e' m'] Hx. cbn. intros ->. apply (Hgone m'). apply (proj2 P). exact Hx. }
      rewrite moves_dead by assumption. unfold loc. cbn [inbox busy outbox lost]. rewrite Es, !filter_app.
      rewrite (filter_all _ (busy s)). 2:{ intros [e' m'] Hx. cbn. intros ->. apply C9 in Hx. apply C7 in Hdead. tauto. }
      rewrite (filter_all _ (map fst (outbox s))).
      2:{ intros [e' m'] Hx. cbn. intros ->. apply elem_of_list_fmap in Hx as ([[e1 m1] o1] & Hx & Hx'). cbn in Hx. injection Hx as <- <-. exact (Hno _ _ Hx'). }
      rewrite (filter_all _ (to_engines u)). 2:{ intros [e' m'] Hx. cbn. intros ->. apply to_engines_elem in Hx. exact (Hns _ Hx). }
      solve_Permutation.
    + rewrite submits_app, (proj1 Ha), app_nil_r. exact C3.
    + intros c. rewrite submits_app, (proj1 Ha), app_nil_r. exact (CR c).
    + rewrite ann_app, (proj2 Ha), app_nil_r. exact C4.
    + intros x y Hx. apply elem_of_list_filter in Hx as [_ Hx]. eapply C10; eauto.
  - destruct C as [C1 C2 C3 CO CJ CR C4 C5 C6 C7 C8 C9 C10]. split; try assumption; unfold log in *; cbn [connected dead noticed busy lost sch] in *.
    + eapply placed_perm; [|exact C2]. unfold loc. cbn [inbox busy outbox lost]. rewrite E. solve_Permutation.
    + intros x y Hx. apply elem_of_cons in Hx as [[= -> ->]|Hx]; [auto|eapply C9; eauto].
  - destruct C as [C1 C2 C3 CO CJ CR C4 C5 C6 C7 C8 C9 C10]. split; try assumption; unfold log in *; cbn [connected dead noticed busy lost sch] in *.
    eapply placed_perm; [|exact C2]. unfold loc. cbn [inbox busy outbox lost]. rewrite E, map_app. cbn [map fst]. solve_Permutation.
  - destruct C as [C1 C2 C3 CO CJ CR C4 C5 C6 C7 C8 C9 C10]. split; try assumption; unfold log in *; cbn [connected dead noticed busy lost sch] in *.
    + eapply placed_perm; [|exact C2]. unfold loc. cbn [inbox busy outbox lost]. rewrite E, map_app. cbn [map fst]. solve_Permutation.
    + intros x y Hx. apply (C9 x y). rewrite E. apply elem_of_app in Hx as [?|?]; apply elem_of_app; [auto|right; right; assumption].
  - destruct C as [C1 C2 C3 CO CJ CR C4 C5 C6 C7 C8 C9 C10]. split; try assumption; unfold log in *; cbn [connected dead noticed busy lost sch hub_s] in *.
    + rewrite app_assoc. destruct C4 as [H1 H2 H3 H4]. split.
      * apply NoDup_app. split; [exact H1|]. split; [|apply NoDup_singleton]. intros x Hx Hx'. apply elem_of_list_singleton in Hx' as ->. apply H3 in Hx. contradiction.
      * intros e'. rewrite elem_of_app, elem_of_list_singleton, H2. split; [intros [?|X]; [auto|discriminate]|auto].
      * intros e'. rewrite elem_of_app, elem_of_list_singleton, H3, elem_of_cons. split; [intros [?|X]; [auto|left; congruence]|intros [->|?]; auto].
      * intros l1 e' l2 E. destruct l2 as [|y l2 _] using rev_ind.
        -- apply app_inj_tail in E as [<- E]. injection E as <-. apply H2. apply C8, He.
        -- rewrite app_comm_cons, app_assoc in E. apply app_inj_tail in E as [E _]. exact (H4 l1 e' l2 E).
    + constructor; assumption.
    + intros x Hx. apply elem_of_cons in Hx as [->|Hx]; [exact He|apply C7, Hx].
  - destruct C as [C1 C2 C3 CO CJ CR C4 C5 C6 C7 C8 C9 C10]. split; assumption.
  - destruct C as [C1 C2 C3 CO CJ CR C4 C5 C6 C7 C8 C9 C10]. split; assumption.
Qed.
Lemma core_reachable s : reachable scheme allowed s -> core s.
Proof. induction 1; [apply core_start|eapply core_ext; eauto|eapply core_int; eauto]. Qed.
End Core.
