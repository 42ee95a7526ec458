(** Reading the scheduler's log: where tasks are, announcements of engines, ids. *)
From stdpp Require Import base gmap sets list.
From Verif Require Import Dependency_Model Sched_Trace Sched_Spec Sched_Model Sched_Env Sched_Base Sched_Load Sched_Once Sched_Strand Sched_Idle_Inv.
From Verif Require Import Sys_Model Sys_Log.
From Verif Require Client_Model.
From Coq Require Import ZArith Lia.

(** ** Where the tasks are *)
Definition placed (t : list obs) (l : list (nat * nat)) : Prop :=
  NoDup l /\ forall e m, (e, m) ∈ l <-> phase_of t m = OnEngine e.
Definition moves (l : list (nat * nat)) (o : obs) : list (nat * nat) :=
  match o with ObsSend m e => l ++ [(e, m)] | ObsResult m e _ => filter (fun x => x <> (e, m)) l | _ => l end.
Definition sound (t : list obs) : Prop := forall m, phase_of t m <> Broken.

Lemma sound_prefix t u : sound (t ++ u) -> sound t.
Proof. intros H m E. apply (H m). rewrite phase_app, E. apply broken_forever. Qed.
Lemma placed_perm t l l' : l ≡ₚ l' -> placed t l -> placed t l'.
Proof. intros P [A B]. split; [rewrite <- P; exact A|]. intros e m. rewrite <- P. apply B. Qed.

Lemma placed_step t o l : placed t l -> sound (t ++ [o]) -> placed (t ++ [o]) (moves l o).
Proof.
  intros [A B] H.
  assert (Hother : forall m, about o <> Some m -> phase_of (t ++ [o]) m = phase_of t m) by (intros m Hm; apply phase_other, Hm).
  destruct o as [m0 md|e0|e0|m0 e0|m0 e0 k|m0 r]; cbn [moves].
  - split; [exact A|]. intros e m. rewrite B. destruct (decide (m = m0)) as [->|Hne]; [|rewrite Hother by (cbn; congruence); tauto].
    specialize (H m0). rewrite phase_snoc in *. cbn [phase_step] in *. rewrite decide_True in * by reflexivity. destruct (phase_of t m0); try congruence; split; congruence.
  - split; [exact A|]. intros e m. rewrite B, Hother by (cbn; congruence). tauto.
  - split; [exact A|]. intros e m. rewrite B, Hother by (cbn; congruence). tauto.
  - pose proof (H m0) as H0. rewrite phase_snoc in H0. cbn [phase_step] in H0. rewrite decide_True in H0 by reflexivity.
    assert (Hw : phase_of t m0 = Waiting) by (destruct (phase_of t m0); congruence). split.
    + apply NoDup_app. split; [exact A|]. split; [|apply NoDup_singleton]. intros x Hx Hx'. apply elem_of_list_singleton in Hx' as ->. apply B in Hx. congruence.
    + intros e m. rewrite elem_of_app, elem_of_list_singleton, B. destruct (decide (m = m0)) as [->|Hne].
      * rewrite phase_send by exact Hw. rewrite Hw. split; [intros [?|E]; congruence|intros E; right; congruence].
      * rewrite Hother by (cbn; congruence). split; [intros [?|E]; congruence|auto].
  - pose proof (H m0) as H0. rewrite phase_snoc in H0. cbn [phase_step] in H0. rewrite decide_True in H0 by reflexivity.
    assert (Hw : phase_of t m0 = OnEngine e0).
    { destruct (phase_of t m0); try congruence. destruct (decide (e0 = e)); congruence. }
    split; [apply NoDup_filter, A|]. intros e m. rewrite elem_of_list_filter, B. destruct (decide (m = m0)) as [->|Hne].
    + rewrite phase_result by exact Hw. rewrite Hw. split; [intros [X E]; congruence|discriminate].
    + rewrite Hother by (cbn; congruence). split; [tauto|]. intros E. split; [congruence|exact E].
  - split; [exact A|]. intros e m. rewrite B. destruct (decide (m = m0)) as [->|Hne]; [|rewrite Hother by (cbn; congruence); tauto].
    specialize (H m0). rewrite phase_snoc in *. cbn [phase_step] in *. rewrite decide_True in * by reflexivity. destruct (phase_of t m0); try congruence; split; congruence.
Qed.
Lemma placed_fold u : forall t l, placed t l -> sound (t ++ u) -> placed (t ++ u) (foldl moves l u).
Proof.
  induction u as [|o u IH]; intros t l Hp Hs; [rewrite app_nil_r; exact Hp|]. cbn [foldl].
  replace (t ++ o :: u) with ((t ++ [o]) ++ u) in * by (rewrite <- app_assoc; reflexivity).
  apply IH; [|exact Hs]. apply placed_step; [exact Hp|]. eapply sound_prefix; eauto.
Qed.
Definition no_result (o : obs) : Prop := match o with ObsResult _ _ _ => False | _ => True end.
Lemma moves_no_result u : forall l, Forall no_result u -> foldl moves l u = l ++ to_engines u.
Proof.
  induction u as [|o u IH]; intros l H; [symmetry; apply app_nil_r|]. apply Forall_cons in H as [Ho H]. cbn [foldl]. rewrite IH by exact H.
  destruct o; cbn [moves to_engines omap list_omap]; try reflexivity; [rewrite <- app_assoc; reflexivity|destruct Ho].
Qed.
Lemma own_no_result u : Forall own u -> Forall no_result u.
Proof. intros H. eapply Forall_impl; [exact H|]. intros [] Ho; exact Ho || exact I. Qed.
Lemma to_engines_app u u' : to_engines (u ++ u') = to_engines u ++ to_engines u'.
Proof. apply omap_app. Qed.

(** while the tasks of a dead engine [e] are given up *)
Lemma moves_dead e u : forall l, Forall (for_dead e) u -> (forall m, ObsSend m e ∉ u) ->
  filter (fun x => fst x <> e) (foldl moves l u) = filter (fun x => fst x <> e) l ++ to_engines u.
Proof.
  induction u as [|o u IH]; intros l H Hs; [symmetry; apply app_nil_r|]. apply Forall_cons in H as [Ho H]. cbn [foldl].
  assert (Hs' : forall m, ObsSend m e ∉ u) by (intros m Hin; apply (Hs m); right; exact Hin). rewrite IH by assumption.
  destruct o as [m0 md|e0|e0|m0 e0|m0 e0 k|m0 r]; cbn [moves to_engines omap list_omap]; try reflexivity.
  - rewrite filter_app, <- app_assoc. f_equal. rewrite filter_cons_True; [reflexivity|]. cbn. intros ->. apply (Hs m0). left.
  - destruct Ho as [[]|[(m & E)|(m & E)]]; [|discriminate]. injection E as -> -> ->. f_equal. rewrite list_filter_filter.
    apply list_filter_iff. intros [e' m']. cbn. split; [tauto|]. intros X. split; congruence.
Qed.

(** ** Every delivery is to another engine *)
Lemma send_once t m e u : sound (t ++ ObsSend m e :: u) -> no_repeat (t ++ ObsSend m e :: u) -> ObsSend m e ∉ t.
Proof.
  intros Hs Hn Hin. apply elem_of_list_split in Hin as (t1 & t2 & ->).
  assert (E : (t1 ++ ObsSend m e :: t2) ++ ObsSend m e :: u = t1 ++ ObsSend m e :: t2 ++ ObsSend m e :: u) by (rewrite <- app_assoc; reflexivity).
  destruct (phase_two_sends t1 t2 u m e e) as [k Hk]; [rewrite <- E; apply Hs|].
  apply (Hn (t1 ++ ObsSend m e :: t2) m e u eq_refl k). apply elem_of_app. right. right. exact Hk.
Qed.
Lemma to_engines_elem t e m : (e, m) ∈ to_engines t <-> ObsSend m e ∈ t.
Proof.
  unfold to_engines. rewrite elem_of_list_omap. split.
  - intros ([] & H & E); try discriminate. injection E as -> ->. exact H.
  - intros H. eexists. split; [exact H|reflexivity].
Qed.
Lemma no_repeat_prefix t u : no_repeat (t ++ u) -> no_repeat t.
Proof. intros H t0 m e t' E k. apply (H t0 m e (t' ++ u)). rewrite E, <- app_assoc. reflexivity. Qed.
Lemma to_engines_nodup t : sound t -> no_repeat t -> NoDup (to_engines t).
Proof.
  induction t as [|o t IH] using rev_ind; intros Hs Hn; [constructor|]. rewrite to_engines_app.
  assert (IH' : NoDup (to_engines t)) by (apply IH; [eapply sound_prefix|eapply no_repeat_prefix]; eassumption).
  destruct o; cbn [to_engines omap list_omap]; rewrite ?app_nil_r; try exact IH'.
  apply NoDup_app. split; [exact IH'|]. split; [|apply NoDup_singleton]. intros x Hx Hx'. apply elem_of_list_singleton in Hx' as ->.
  apply to_engines_elem in Hx. revert Hx. apply (send_once t m e []); assumption.
Qed.

(** ** Announcements of engines *)
Definition ann (t : list obs) : list (bool * nat) :=
  omap (fun o => match o with ObsRegister e => Some (true, e) | ObsUnregister e => Some (false, e) | _ => None end) t.
Lemma ann_app t u : ann (t ++ u) = ann t ++ ann u.
Proof. apply omap_app. Qed.
Lemma ann_own u : Forall own u -> ann u = [].
Proof. induction u as [|o u IH]; [reflexivity|]. intros H. apply Forall_cons in H as [Ho H]. destruct o; try destruct Ho; cbn; apply IH, H. Qed.
Lemma ann_reg t e : (true, e) ∈ ann t <-> ObsRegister e ∈ t.
Proof. unfold ann. rewrite elem_of_list_omap. split; [intros ([] & H & E); try discriminate; injection E as ->; exact H|intros H; eexists; split; [exact H|reflexivity]]. Qed.
Lemma ann_unreg t e : (false, e) ∈ ann t <-> ObsUnregister e ∈ t.
Proof. unfold ann. rewrite elem_of_list_omap. split; [intros ([] & H & E); try discriminate; injection E as ->; exact H|intros H; eexists; split; [exact H|reflexivity]]. Qed.

(** what the Hub announces: every engine once, and its death later, once *)
Record proper (H : list (bool * nat)) (conn noticed : list nat) : Prop := Proper {
  h_nodup : NoDup H;
  h_conn : forall e, (true, e) ∈ H <-> e ∈ conn;
  h_dead : forall e, (false, e) ∈ H <-> e ∈ noticed;
  h_order : forall l1 e l2, H = l1 ++ (false, e) :: l2 -> (true, e) ∈ l1 }.

Lemma registered_ann t : forall H' conn noticed e, proper (ann t ++ H') conn noticed ->
  registered t e = true <-> (true, e) ∈ ann t /\ (false, e) ∉ ann t.
Proof.
  intros H' conn noticed e P. revert H' P. induction t as [|o t IH] using rev_ind; intros H' P.
  { cbn. split; [discriminate|intros [X _]; inversion X]. }
  rewrite registered_snoc. rewrite ann_app in P |- *. rewrite <- app_assoc in P. specialize (IH _ P).
  destruct o as [|e'|e'| | |]; cbn [ann omap list_omap app] in *; rewrite ?app_nil_r; try exact IH; fold (ann t) in *.
  - destruct (decide (e = e')) as [->|Hne].
    + split; [|reflexivity]. intros _. split; [apply elem_of_app; right; left|]. rewrite elem_of_app, elem_of_list_singleton. intros [X|X]; [|discriminate].
      apply elem_of_list_split in X as (l1 & l2 & X). rewrite X in P.
      pose proof (h_order _ _ _ P l1 e' (l2 ++ (true, e') :: H')) as O. rewrite <- app_assoc in P, O. specialize (O eq_refl).
      pose proof (h_nodup _ _ _ P) as N. apply NoDup_app in N as (_ & N & _). apply (N _ O). right. apply elem_of_app. right. left.
    + rewrite IH, !elem_of_app, !elem_of_list_singleton. split; [intros [A B]; split; [auto|intros [?|?]; [contradiction|discriminate]]|intros [[A|A] B]; [tauto|congruence]].
  - destruct (decide (e = e')) as [->|Hne].
    + split; [discriminate|]. intros [_ X]. exfalso. apply X, elem_of_app. right. left.
    + rewrite IH, !elem_of_app, !elem_of_list_singleton. split; [intros [A B]; split; [auto|intros [?|?]; [contradiction|congruence]]|intros [[A|A] B]; [tauto|congruence]].
Qed.

(** ** Submissions and replies *)
Lemma submits_app t u : submits (t ++ u) = submits t ++ submits u.
Proof. apply omap_app. Qed.
Lemma submits_own u : Forall own u -> submits u = [].
Proof. induction u as [|o u IH]; [reflexivity|]. intros H. apply Forall_cons in H as [Ho H]. destruct o; try destruct Ho; cbn; apply IH, H. Qed.
Lemma submits_elem t m : m ∈ submits t <-> submitted t m.
Proof.
  unfold submits, submitted. rewrite elem_of_list_omap. split.
  - intros ([] & H & E); try discriminate. injection E as ->. eauto.
  - intros [md H]. eexists. split; [exact H|reflexivity].
Qed.
Definition replied (t : list obs) : list nat := omap (fun o => match o with ObsReply m _ => Some m | _ => None end) t.
Lemma replied_app t u : replied (t ++ u) = replied t ++ replied u.
Proof. apply omap_app. Qed.
Lemma replied_elem t m : m ∈ replied t <-> exists r, ObsReply m r ∈ t.
Proof.
  unfold replied. rewrite elem_of_list_omap. split.
  - intros ([] & H & E); try discriminate. injection E as ->. eauto.
  - intros [r H]. eexists. split; [exact H|reflexivity].
Qed.
Lemma replied_nodup t : sound t -> NoDup (replied t).
Proof.
  induction t as [|o t IH] using rev_ind; intros Hs; [constructor|]. rewrite replied_app.
  assert (IH' : NoDup (replied t)) by (apply IH; eapply sound_prefix; eassumption).
  destruct o as [| | | | |m r]; cbn [replied omap list_omap]; rewrite ?app_nil_r; try exact IH'.
  apply NoDup_app. split; [exact IH'|]. split; [|apply NoDup_singleton]. intros x Hx Hx'. apply elem_of_list_singleton in Hx' as ->.
  apply replied_elem in Hx as [r' Hx]. apply elem_of_list_split in Hx as (t1 & t2 & ->). apply (Hs m). rewrite <- app_assoc. cbn [app]. apply phase_two_replies.
Qed.
Lemma to_client_fst o u : (to_client o u).*1 = replied u.
Proof. induction u as [|x u IH]; [reflexivity|]. destruct x; cbn [to_client replied omap list_omap]; try exact IH. cbn. f_equal. exact IH. Qed.
Lemma to_client_elem o u m x : (m, x) ∈ to_client o u -> exists r, x = content o r /\ ObsReply m r ∈ u.
Proof. unfold to_client. rewrite elem_of_list_omap. intros ([] & H & E); try discriminate. injection E as -> <-. eauto. Qed.

Lemma since_app s sc u : s_log sc = s_log (sch s) ++ u -> since s sc = u.
Proof. unfold since. intros ->. apply drop_app. Qed.
