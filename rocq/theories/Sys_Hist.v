(** What has been executed, where, and how it ended. *)
From stdpp Require Import base gmap sets list.
From Verif Require Import Dependency_Model Sched_Trace Sched_Spec Sched_Model Sched_Env Sched_Base Sched_Load Sched_Once Sched_Strand Sched_Idle_Inv.
From Verif Require Import Sys_Model Sys_Log Sys_Trace Sys_Core.
From Verif Require Client_Model.
From Coq Require Import ZArith Lia.

(** ** More about logs *)
Lemma fresh_on_engine t m e : sound t -> no_repeat t -> phase_of t m = OnEngine e -> forall k, ObsResult m e k ∉ t.
Proof.
  induction t as [|o t IH] using rev_ind; intros Hs Hn Hp k; [discriminate Hp|]. rewrite phase_snoc in Hp.
  assert (IH' := IH (sound_prefix _ _ Hs) (no_repeat_prefix _ _ Hn)).
  rewrite elem_of_app, elem_of_list_singleton. intros [X|X].
  - destruct o as [m0 md|e0|e0|m0 e0|m0 e0 k0|m0 r]; cbn [phase_step] in Hp; try (apply (IH' Hp k X)).
    all: destruct (decide (m = m0)) as [->|]; [|apply (IH' Hp k X)]; destruct (phase_of t m0) eqn:P; try discriminate.
    + injection Hp as ->. apply (Hn t m0 e [] eq_refl k X).
    + destruct (decide _); discriminate.
  - subst o. cbn [phase_step] in Hp. rewrite decide_True in Hp by reflexivity. destruct (phase_of t m) eqn:P; try discriminate. destruct (decide _); discriminate.
Qed.
Definition answers (t : list obs) : list (nat * nat) := omap (fun o => match o with ObsResult m e _ => Some (m, e) | _ => None end) t.
Lemma answers_elem t m e : (m, e) ∈ answers t <-> exists k, ObsResult m e k ∈ t.
Proof.
  unfold answers. rewrite elem_of_list_omap. split.
  - intros ([] & H & E); try discriminate. injection E as -> ->. eauto.
  - intros [k H]. eexists. split; [exact H|reflexivity].
Qed.
Lemma answers_nodup t : sound t -> no_repeat t -> NoDup (answers t).
Proof.
  induction t as [|o t IH] using rev_ind; intros Hs Hn; [constructor|]. unfold answers. rewrite omap_app. fold (answers t).
  assert (IH' := IH (sound_prefix _ _ Hs) (no_repeat_prefix _ _ Hn)).
  destruct o as [| | | |m e k|]; cbn [omap list_omap]; rewrite ?app_nil_r; try exact IH'.
  apply NoDup_app. split; [exact IH'|]. split; [|apply NoDup_singleton]. intros x Hx Hx'. apply elem_of_list_singleton in Hx' as ->.
  apply answers_elem in Hx as [k' Hx]. pose proof (Hs m) as H0. rewrite phase_snoc in H0. cbn [phase_step] in H0. rewrite decide_True in H0 by reflexivity.
  destruct (phase_of t m) eqn:P; try congruence. destruct (decide (e = e0)) as [->|]; [|congruence].
  revert Hx. apply fresh_on_engine; [eapply sound_prefix; eauto|eapply no_repeat_prefix; eauto|exact P].
Qed.

Record hist (L : list obs) (ib bz : list (nat * nat)) (ob : list (nat * nat * outcome)) (dd : list nat) (bg : list (nat * nat)) (en : list (nat * nat * outcome)) : Prop := Hist {
  y_sent : forall m e, (m, e) ∈ bg -> ObsSend m e ∈ L;
  y_sent' : forall m e o, (m, e, o) ∈ en -> ObsSend m e ∈ L;
  y_inbox : forall m e, (e, m) ∈ ib -> (m, e) ∉ bg /\ forall o, (m, e, o) ∉ en;
  y_busy : forall m e, (e, m) ∈ bz -> (m, e) ∈ bg /\ forall o, (m, e, o) ∉ en;
  y_one : NoDup bz.*1;
  y_out : forall m e o, (e, m, o) ∈ ob -> (m, e, o) ∈ en;
  y_begun : NoDup bg;
  y_ended : NoDup en.*1;
  y_after : forall m e, (m, e) ∈ bg -> (e, m) ∈ bz \/ (exists o, o <> Aborted /\ (m, e, o) ∈ en) \/ e ∈ dd;
  y_before : forall m e o, (m, e, o) ∈ en -> o <> Aborted -> (m, e) ∈ bg;
  y_abort : forall m e, (m, e, Aborted) ∈ en -> (m, e) ∉ bg;
  y_result : forall m e k, ObsResult m e k ∈ L -> (exists o, k = kind_of o /\ (m, e, o) ∈ en) \/ (k = RErr /\ e ∈ dd) }.
Definition history (s : sys) : Prop := hist (log s) (inbox s) (busy s) (outbox s) (dead s) (begun s) (ended s).

Lemma hist_sched L u ib bz ob dd bg en ib' ob' : hist L ib bz ob dd bg en -> sound (L ++ u) -> no_repeat (L ++ u) ->
  (forall x, x ∈ ib' -> x ∈ ib ++ to_engines u) -> (forall x, x ∈ ob' -> x ∈ ob) ->
  (forall m e k, ObsResult m e k ∈ u -> (exists o, k = kind_of o /\ (m, e, o) ∈ en) \/ (k = RErr /\ e ∈ dd)) ->
  hist (L ++ u) ib' bz ob' dd bg en.
Proof.
  intros [H1 H2 H3 H4 H5 H6 H7 H8 H9 H10 H11 H12] Hs Hn Hi Ho Hr. split; auto.
  - intros m e H. apply elem_of_app. left. auto.
  - intros m e o H. apply elem_of_app. left. eauto.
  - intros m e H. apply Hi, elem_of_app in H as [H|H]; [auto|]. apply to_engines_elem in H.
    assert (F : ObsSend m e ∉ L).
    { apply elem_of_list_split in H as (u1 & u2 & ->). rewrite app_assoc in Hs, Hn. pose proof (send_once _ _ _ _ Hs Hn) as X. intros Y. apply X, elem_of_app. auto. }
    split; [intros X; apply F, H1, X|intros o X; eapply F, H2, X].
  - intros m e k H. apply elem_of_app in H as [H|H]; auto.
Qed.

Section Hist.
Context (scheme : nat -> list Z -> nat) (allowed : sys -> nat -> taskmd -> Prop).
Notation sreach := (Sched_Base.reachable 1 scheme genuine).

Lemma hist_start : history start.
Proof.
  split; cbn; try (constructor; fail); try (intros m e H; inversion H; fail); intros m e o H; inversion H.
Qed.
Lemma hist_ext s s' : core scheme s -> history s -> external scheme allowed s s' -> history s'.
Proof.
  intros C H St. destruct St as [s c md Hj Ha|s c Hj|s e He|s e He Hd|s e m o l1 l2 He E Hlast|s j tid sc St]; try exact H.
  - unfold history, log in *. cbn [sch inbox busy outbox dead begun ended] in *. destruct H as [H1 H2 H3 H4 H5 H6 H7 H8 H9 H10 H11 H12]. split; auto.
    + intros m x Hx. apply elem_of_list_filter in Hx as [_ Hx]. auto.
    + clear - H5. induction (busy s) as [|[a b] l IH]; [constructor|]. apply NoDup_cons in H5 as [N H5]. destruct (decide (a = e)).
      * rewrite filter_cons_False by tauto. auto.
      * rewrite filter_cons_True by assumption. cbn [fmap list_fmap]. constructor; [|auto]. intros X. apply N. apply elem_of_list_fmap in X as (y & -> & X).
        apply elem_of_list_filter in X as [_ X]. apply elem_of_list_fmap. eauto.
    + intros m x Hx. destruct (H9 m x Hx) as [X|[X|X]]; [|auto|right; right; right; exact X]. destruct (decide (x = e)) as [->|Hne]; [right; right; left|].
      left. apply elem_of_list_filter. auto.
    + intros m x k Hx. destruct (H12 m x k Hx) as [X|[X Y]]; [auto|right; split; [exact X|right; exact Y]].
  - unfold history, log in *. cbn [sch inbox busy outbox dead begun ended] in *. destruct H as [H1 H2 H3 H4 H5 H6 H7 H8 H9 H10 H11 H12]. split; auto.
    intros m' e' o' Hx. apply H6. rewrite E. apply elem_of_app in Hx as [?|?]; apply elem_of_app; [auto|right; right; assumption].
  - destruct (timeout_log scheme s j tid sc C St) as (R & _ & u & El & Es & Hu). unfold history, log in *. unfold after_sched. cbn [sch inbox busy outbox dead begun ended] in *.
    rewrite El, Es. eapply hist_sched; [exact H|rewrite <- El; eapply sreach_sound, R|rewrite <- El; exact (never_back scheme _ R)|auto|auto|].
    intros m e k X. pose proof (Forall_forall own u) as F. apply F in X; [destruct X|exact Hu].
Qed.

Lemma hist_int s s' : core scheme s -> history s -> internal scheme s s' -> history s'.
Proof.
  intros C H St. destruct St as [s m md l1 l2 sc E Hfst St|s e m o l1 l2 sc E Hfst St|s a l sc E St|s e sc Hin Hno St|s e m l1 l2 He Hd E Hfst Hb|s e m l1 l2 He Hd E Hfst Hb|s e m o l1 l2 E Ho|s e He Hn|s c m r l1 l2 us Hc E Hfst|s c a l1 l2 E Hfst]; try exact H.
  - destruct (submit_log scheme s m md l1 l2 sc C E St) as (R & _ & u & El & Es & Hu). unfold history, log in *. unfold set_to_sched, after_sched. cbn [sch inbox busy outbox dead begun ended] in *.
    rewrite El, Es. eapply hist_sched; [exact H|rewrite <- El; eapply sreach_sound, R|rewrite <- El; exact (never_back scheme _ R)|auto|auto|].
    intros m' e k X. apply elem_of_cons in X as [X|X]; [discriminate|]. pose proof (Forall_forall own u) as F. apply F in X; [destruct X|exact Hu].
  - destruct (result_log scheme s e m o l1 l2 sc C E St) as (R & _ & u & El & Es & Hu). unfold history, log in *. unfold set_outbox, after_sched. cbn [sch inbox busy outbox dead begun ended] in *.
    rewrite El, Es. eapply hist_sched; [exact H|rewrite <- El; eapply sreach_sound, R|rewrite <- El; exact (never_back scheme _ R)|auto| |].
    + intros x Hx. rewrite E. apply elem_of_app in Hx as [?|?]; apply elem_of_app; [auto|right; right; assumption].
    + intros m' e' k X. apply elem_of_cons in X as [[= -> -> ->]|X].
      * left. exists o. split; [reflexivity|]. apply (y_out _ _ _ _ _ _ _ H). rewrite E. apply elem_of_app. right. left.
      * rewrite Forall_forall in Hu. apply Hu in X as [[]|[_ X]]. discriminate X.
  - destruct a as [[] e]; cbn [announcement fst snd] in St.
    + destruct (register_log scheme s e l sc C E St) as (R & _ & u & El & Es & Hu). unfold history, log in *. unfold set_hub_s, after_sched. cbn [sch inbox busy outbox dead begun ended] in *.
      rewrite El, Es. eapply hist_sched; [exact H|rewrite <- El; eapply sreach_sound, R|rewrite <- El; exact (never_back scheme _ R)|auto|auto|].
      intros m' e' k X. apply elem_of_cons in X as [X|X]; [discriminate|]. rewrite Forall_forall in Hu. destruct (Hu _ X).
    + destruct (unregister_log scheme s e sc C St) as (R & _ & El & Es). unfold history, log in *. unfold set_hub_s, after_sched. cbn [sch inbox busy outbox dead begun ended] in *.
      rewrite El, Es. eapply hist_sched; [exact H|rewrite <- El; eapply sreach_sound, R|rewrite <- El; exact (never_back scheme _ R)|auto|auto|].
      intros m' e' k X. apply elem_of_list_singleton in X. discriminate.
  - destruct (strand_log scheme s e sc C Hin St) as (R & _ & (u & El & Es & Hu & _) & _). destruct (dead_unregistered scheme s e C Hin) as [_ Hdead].
    apply (c_nd _ _ C) in Hdead. unfold history, log in *. unfold forget, after_sched. cbn [sch inbox busy outbox dead begun ended] in *.
    rewrite El, Es. eapply hist_sched; [exact H|rewrite <- El; eapply sreach_sound, R|rewrite <- El; exact (never_back scheme _ R)| |auto|].
    + intros x Hx. apply elem_of_list_filter in Hx as [_ Hx]. exact Hx.
    + intros m' e' k X. rewrite Forall_forall in Hu. destruct (Hu _ X) as [[]|[[m2 Y]|[m2 Y]]]; [|discriminate]. injection Y as -> -> ->. auto.
  - assert (Hpl : phase_of (log s) m = OnEngine e).
    { apply (c_placed _ _ C). unfold loc. rewrite E, !elem_of_app, elem_of_cons. auto. }
    assert (Hnb : (e, m) ∉ l1 ++ l2).
    { pose proof (proj1 (c_placed _ _ C)) as N. unfold loc in N. rewrite E in N. apply NoDup_app in N as (N & _). rewrite <- Permutation_middle in N. apply NoDup_cons in N. tauto. }
    unfold history, log in *. cbn [sch inbox busy outbox dead begun ended] in *. destruct H as [H1 H2 H3 H4 H5 H6 H7 H8 H9 H10 H11 H12].
    assert (Hin : (e, m) ∈ inbox s) by (rewrite E; apply elem_of_app; right; left). destruct (H3 m e Hin) as [F1 F2].
    assert (Hsend : ObsSend m e ∈ s_log (sch s)).
    { pose proof (c_sched _ _ C) as R. clear - Hpl R. pose proof (sreach_sound scheme _ R) as Hs. unfold log in *. revert Hpl Hs. generalize (s_log (sch s)).
      intros t. induction t as [|o t IH] using rev_ind; intros Hp Hs; [discriminate|]. rewrite phase_snoc in Hp. apply elem_of_app.
      assert (IH' := fun X => IH X (sound_prefix _ _ Hs)).
      destruct o as [m0 md|e0|e0|m0 e0|m0 e0 k0|m0 r]; cbn [phase_step] in Hp; auto.
      all: destruct (decide (m = m0)) as [->|]; auto; destruct (phase_of t m0) eqn:P; try discriminate.
      - injection Hp as ->. right. left.
      - destruct (decide _); discriminate. }
    split; auto.
    + intros m' e' Hx. apply elem_of_app in Hx as [Hx|Hx]; [auto|]. apply elem_of_list_singleton in Hx as [= -> ->]. exact Hsend.
    + intros m' e' Hx. destruct (H3 m' e') as [A B]; [rewrite E; apply elem_of_app in Hx as [?|?]; apply elem_of_app; [auto|right; right; assumption]|].
      split; [|exact B]. rewrite elem_of_app, elem_of_list_singleton. intros [?|[= -> ->]]; contradiction.
    + intros m' e' Hx. rewrite elem_of_app, elem_of_list_singleton. apply elem_of_cons in Hx as [[= -> ->]|Hx]; [auto|]. destruct (H4 m' e' Hx). auto.
    + cbn [fmap list_fmap fst]. constructor; [|exact H5]. intros X. apply elem_of_list_fmap in X as ([e' m'] & Y & X). cbn in Y. subst e'. exact (Hb _ X).
    + apply NoDup_app. split; [exact H7|]. split; [|apply NoDup_singleton]. intros x Hx Hx'. apply elem_of_list_singleton in Hx' as ->. contradiction.
    + intros m' e' Hx. apply elem_of_app in Hx as [Hx|Hx]; [|apply elem_of_list_singleton in Hx as [= -> ->]; left; left]. destruct (H9 m' e' Hx) as [?|?]; [left; right; assumption|auto].
    + intros m' e' o' Hx Ho'. apply elem_of_app. eauto.
    + intros m' e' Hx. rewrite elem_of_app, elem_of_list_singleton. intros [X|[= -> ->]]; [eapply H11; eauto|eapply F2; eauto].
  - assert (Hpl : phase_of (log s) m = OnEngine e).
    { apply (c_placed _ _ C). unfold loc. rewrite E, !elem_of_app, elem_of_cons. auto. }
    assert (Hnd := proj1 (c_placed _ _ C)). unfold loc in Hnd.
    assert (Hsend : ObsSend m e ∈ s_log (sch s)).
    { pose proof (c_sched _ _ C) as R. clear - Hpl R. pose proof (sreach_sound scheme _ R) as Hs. unfold log in *. revert Hpl Hs. generalize (s_log (sch s)).
      intros t. induction t as [|o t IH] using rev_ind; intros Hp Hs; [discriminate|]. rewrite phase_snoc in Hp. apply elem_of_app.
      assert (IH' := fun X => IH X (sound_prefix _ _ Hs)).
      destruct o as [m0 md|e0|e0|m0 e0|m0 e0 k0|m0 r]; cbn [phase_step] in Hp; auto.
      all: destruct (decide (m = m0)) as [->|]; auto; destruct (phase_of t m0) eqn:P; try discriminate.
      - injection Hp as ->. right. left.
      - destruct (decide _); discriminate. }
    assert (Hnb : (e, m) ∉ l1 ++ l2).
    { rewrite E in Hnd. apply NoDup_app in Hnd as (N & _). rewrite <- Permutation_middle in N. apply NoDup_cons in N. tauto. }
    unfold history, log in *. cbn [sch inbox busy outbox dead begun ended] in *. destruct H as [H1 H2 H3 H4 H5 H6 H7 H8 H9 H10 H11 H12].
    assert (Hin : (e, m) ∈ inbox s) by (rewrite E; apply elem_of_app; right; left). destruct (H3 m e Hin) as [F1 F2].
    assert (Hne : (m, e) ∉ (ended s).*1).
    { intros X. apply elem_of_list_fmap in X as ([[m1 e1] o1] & Y & X). cbn in Y. injection Y as <- <-. exact (F2 _ X). }
    split; auto.
    + intros m' e' o' Hx. apply elem_of_app in Hx as [Hx|Hx]; [eauto|]. apply elem_of_list_singleton in Hx as [= -> -> ->]. exact Hsend.
    + intros m' e' Hx. destruct (H3 m' e') as [A B]; [rewrite E; apply elem_of_app in Hx as [?|?]; apply elem_of_app; [auto|right; right; assumption]|].
      split; [exact A|]. intros o'. rewrite elem_of_app, elem_of_list_singleton. intros [?|[= -> -> _]]; [eapply B; eauto|contradiction].
    + intros m' e' Hx. destruct (H4 m' e' Hx) as [A B]. split; [exact A|]. intros o'. rewrite elem_of_app, elem_of_list_singleton. intros [?|[= -> -> _]]; [eapply B; eauto|contradiction].
    + intros m' e' o' Hx. apply elem_of_app in Hx as [Hx|Hx]; apply elem_of_app; [auto|]. right. apply elem_of_list_singleton in Hx as [= -> -> ->]. left.
    + rewrite fmap_app. apply NoDup_app. split; [exact H8|]. split; [|apply NoDup_singleton]. intros x Hx Hx'. apply elem_of_list_singleton in Hx' as ->. contradiction.
    + intros m' e' Hx. destruct (H9 m' e' Hx) as [?|[(o' & A & B)|?]]; [auto| |auto]. right. left. exists o'. split; [exact A|]. apply elem_of_app. auto.
    + intros m' e' o' Hx Ho'. apply elem_of_app in Hx as [Hx|Hx]; [eauto|]. apply elem_of_list_singleton in Hx as [= -> -> ->]. contradiction.
    + intros m' e' Hx. apply elem_of_app in Hx as [Hx|Hx]; [auto|]. apply elem_of_list_singleton in Hx as [= -> ->]. exact F1.
    + intros m' e' k Hx. destruct (H12 m' e' k Hx) as [(o' & A & B)|?]; [left|auto]. exists o'. split; [exact A|]. apply elem_of_app. auto.
  - unfold history, log in *. cbn [sch inbox busy outbox dead begun ended] in *. destruct H as [H1 H2 H3 H4 H5 H6 H7 H8 H9 H10 H11 H12].
    assert (Hin : (e, m) ∈ busy s) by (rewrite E; apply elem_of_app; right; left). destruct (H4 m e Hin) as [F1 F2].
    assert (Hnd := proj1 (c_placed _ _ C)). unfold loc in Hnd.
    assert (Hnb : (e, m) ∉ l1 ++ l2 /\ (e, m) ∉ inbox s).
    { rewrite E in Hnd. apply NoDup_app in Hnd as (_ & N1 & N). split.
      - apply NoDup_app in N as (N & _). rewrite <- Permutation_middle in N. apply NoDup_cons in N. tauto.
      - intros X. apply (N1 _ X). rewrite !elem_of_app, elem_of_cons. auto. }
    assert (Hne : (m, e) ∉ (ended s).*1).
    { intros X. apply elem_of_list_fmap in X as ([[m1 e1] o1] & Y & X). cbn in Y. injection Y as <- <-. exact (F2 _ X). }
    split; auto.
    + intros m' e' o' Hx. apply elem_of_app in Hx as [Hx|Hx]; [eauto|]. apply elem_of_list_singleton in Hx as [= -> -> ->]. auto.
    + intros m' e' Hx. destruct (H3 m' e' Hx) as [A B]. split; [exact A|]. intros o'. rewrite elem_of_app, elem_of_list_singleton. intros [?|[= -> -> _]]; [eapply B; eauto|tauto].
    + intros m' e' Hx. assert (Hx' : (e', m') ∈ busy s) by (rewrite E; apply elem_of_app in Hx as [?|?]; apply elem_of_app; [auto|right; right; assumption]).
      destruct (H4 m' e' Hx') as [A B]. split; [exact A|]. intros o'. rewrite elem_of_app, elem_of_list_singleton. intros [?|[= -> -> _]]; [eapply B; eauto|tauto].
    + rewrite E in H5. rewrite fmap_app in *. cbn [fmap list_fmap] in H5. rewrite <- Permutation_middle in H5. apply NoDup_cons in H5. tauto.
    + intros m' e' o' Hx. apply elem_of_app in Hx as [Hx|Hx]; apply elem_of_app; [auto|]. right. apply elem_of_list_singleton in Hx as [= -> -> ->]. left.
    + rewrite fmap_app. apply NoDup_app. split; [exact H8|]. split; [|apply NoDup_singleton]. intros x Hx Hx'. apply elem_of_list_singleton in Hx' as ->. contradiction.
    + intros m' e' Hx. destruct (H9 m' e' Hx) as [X|[(o' & A & B)|?]]; [| |auto].
      * rewrite E in X. rewrite <- Permutation_middle in X. apply elem_of_cons in X as [[= -> ->]|X]; [|auto]. right. left. exists o. split; [exact Ho|]. apply elem_of_app. right. left.
      * right. left. exists o'. split; [exact A|]. apply elem_of_app. auto.
    + intros m' e' o' Hx Ho'. apply elem_of_app in Hx as [Hx|Hx]; [eauto|]. apply elem_of_list_singleton in Hx as [= -> -> ->]. exact F1.
    + intros m' e' Hx. apply elem_of_app in Hx as [Hx|Hx]; [auto|]. apply elem_of_list_singleton in Hx as [= -> -> X]. congruence.
    + intros m' e' k Hx. destruct (H12 m' e' k Hx) as [(o' & A & B)|?]; [left|auto]. exists o'. split; [exact A|]. apply elem_of_app. auto.
Qed.
Lemma hist_reachable s : reachable scheme allowed s -> history s.
Proof.
  induction 1 as [|s s' R IH St|s s' R IH St]; [apply hist_start|eapply hist_ext|eapply hist_int]; eauto using core_reachable.
Qed.
End Hist.
