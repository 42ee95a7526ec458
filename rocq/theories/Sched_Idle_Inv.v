(** Work conservation with dependencies, high-water mark 1: the invariant and its elementary steps. *)
From stdpp Require Import base gmap sets list.
From Verif Require Import Dependency_Model Dependency_Spec Dependency_Proofs Sched_Trace Sched_Spec Sched_Model Sched_Env
  Sched_Base Sched_Traverse Sched_Safety Sched_Load Sched_Once Sched_Strand Sched_Idle_Spec.
From Verif Require Prelude.
From Coq Require Import ZArith Lia.

(** * Reading traces *)
Lemma told_ok_snoc t o : told_ok (t ++ [o]) =
  told_ok t ∪ match o with ObsReply m (FromEngine _ true) => {[m]} | _ => ∅ end.
Proof.
  unfold told_ok. rewrite omap_app, list_to_set_app_L. f_equal.
  destruct o as [| | | | |m [e []|w]]; simpl; set_solver.
Qed.
Lemma told_bad_snoc t o : told_bad (t ++ [o]) =
  told_bad t ∪ match o with ObsReply m (FromEngine _ false) => {[m]} | ObsReply m (Unreachable _) => {[m]} | _ => ∅ end.
Proof.
  unfold told_bad. rewrite omap_app, list_to_set_app_L. f_equal.
  destruct o as [| | | | |m [e []|w]]; simpl; set_solver.
Qed.
Lemma told_on_elem e b t m : m ∈ told_on e b t <-> ObsReply m (FromEngine e b) ∈ t.
Proof.
  unfold told_on. rewrite elem_of_list_to_set, elem_of_list_omap. split.
  - intros (o & Ho & E). destruct o as [| | | | |m' [e' b'|w]]; try discriminate.
    destruct (decide _) as [[-> ->]|]; [|discriminate]. injection E as ->. exact Ho.
  - intros H. exists (ObsReply m (FromEngine e b)). split; [exact H|]. rewrite decide_True by auto. reflexivity.
Qed.
Lemma told_ok_elem t m : m ∈ told_ok t <-> exists e, ObsReply m (FromEngine e true) ∈ t.
Proof.
  unfold told_ok. rewrite elem_of_list_to_set, elem_of_list_omap. split.
  - intros (o & Ho & E). destruct o as [| | | | |m' [e' []|w]]; try discriminate. injection E as ->. eauto.
  - intros [e H]. exists (ObsReply m (FromEngine e true)). auto.
Qed.
Lemma told_bad_elem t m : m ∈ told_bad t -> exists r, ObsReply m r ∈ t /\ forall e, r <> FromEngine e true.
Proof.
  unfold told_bad. rewrite elem_of_list_to_set, elem_of_list_omap.
  intros (o & Ho & E). destruct o as [| | | | |m' [e' []|w]]; try discriminate; injection E as ->; eexists; split;
    try exact Ho; intros; congruence.
Qed.
Lemma reply_replied t m r : phase_of t m <> Broken -> ObsReply m r ∈ t -> phase_of t m = Replied.
Proof.
  intros Hb Hin. apply elem_of_list_split in Hin as (t1 & t2 & ->). rewrite phase_app in *. cbn [foldl] in *.
  assert (Hp : phase_step m (phase_of t1 m) (ObsReply m r) = Replied \/ phase_step m (phase_of t1 m) (ObsReply m r) = Broken).
  { simpl. rewrite decide_True by reflexivity. destruct (phase_of t1 m); auto. }
  apply (replied_or_broken t2 m) in Hp. destruct Hp; [assumption|contradiction].
Qed.
Lemma reply_unique t m r1 r2 : phase_of t m <> Broken -> ObsReply m r1 ∈ t -> ObsReply m r2 ∈ t -> r1 = r2.
Proof.
  intros Hb H1 H2. apply elem_of_list_split in H1 as (t1 & t2 & ->).
  apply elem_of_app in H2 as [H2|H2].
  - apply elem_of_list_split in H2 as (u1 & u2 & ->). exfalso. apply Hb. rewrite <- app_assoc. cbn [app]. apply phase_two_replies.
  - apply elem_of_cons in H2 as [H2|H2]; [congruence|]. apply elem_of_list_split in H2 as (u1 & u2 & ->).
    exfalso. apply Hb. apply phase_two_replies.
Qed.
Lemma submit_unique t m md1 md2 : phase_of t m <> Broken -> ObsSubmit m md1 ∈ t -> ObsSubmit m md2 ∈ t -> md1 = md2.
Proof.
  intros Hb. 
  assert (Hk : forall p u, p <> Unknown -> foldl (phase_step m) p u <> Unknown).
  { intros p u. revert p. induction u as [|o u IH]; intros p Hp; [exact Hp|]. cbn [foldl]. apply IH.
    destruct o; simpl; auto; destruct (decide _); auto; destruct p; try congruence; destruct (decide _); congruence. }
  assert (Htwo : forall t1 t2 t3 a b, phase_of (t1 ++ ObsSubmit m a :: t2 ++ ObsSubmit m b :: t3) m = Broken).
  { intros. rewrite phase_app. cbn [foldl]. rewrite foldl_app. cbn [foldl].
    match goal with |- foldl _ (phase_step m ?p _) _ = _ => assert (p <> Unknown) as Hp end.
    { apply Hk. simpl. rewrite decide_True by reflexivity. destruct (phase_of t1 m); discriminate. }
    match goal with |- foldl _ (phase_step m ?p _) _ = _ => set (q := p) in * end.
    replace (phase_step m q (ObsSubmit m b)) with Broken; [apply broken_forever|].
    simpl. rewrite decide_True by reflexivity. destruct q; congruence. }
  intros H1 H2. apply elem_of_list_split in H1 as (t1 & t2 & ->).
  apply elem_of_app in H2 as [H2|H2].
  - apply elem_of_list_split in H2 as (u1 & u2 & ->). exfalso. apply Hb. rewrite <- app_assoc. cbn [app]. apply Htwo.
  - apply elem_of_cons in H2 as [H2|H2]; [congruence|]. apply elem_of_list_split in H2 as (u1 & u2 & ->).
    exfalso. apply Hb. apply Htwo.
Qed.

(** * Tasks that can never run *)
Definition deps (d : dep_dict) : gset nat := list_to_set (dep_tasks d).
Definition dead (log : list obs) (m : nat) : Prop := exists md, ObsSubmit m md ∈ log /\
  ((exists x, (x ∈ deps (t_after md) \/ x ∈ deps (t_follow md)) /\ x ∈ told_bad log) \/
   (exists m1 m2 e1 e2 b1 b2, m1 ∈ deps (t_follow md) /\ m2 ∈ deps (t_follow md) /\ e1 <> e2 /\
      ObsReply m1 (FromEngine e1 b1) ∈ log /\ ObsReply m2 (FromEngine e2 b2) ∈ log) \/
   (t_targets md <> [] /\ forall e, e ∈ t_targets md ->
      (ObsRegister e ∈ log /\ registered log e = false) \/ exists k, ObsResult m e k ∈ log)).

Definition not_again (log : list obs) (o : obs) : Prop := forall e, o = ObsRegister e -> ObsRegister e ∉ log.
Lemma dead_snoc log o m : not_again log o -> dead log m -> dead (log ++ [o]) m.
Proof.
  intros Hn (md & Hmd & H). exists md. split; [apply elem_of_app; auto|].
  destruct H as [(x & Hx & Hb)|[(m1 & m2 & e1 & e2 & b1 & b2 & A1 & A2 & A3 & A4 & A5)|[Hne H]]].
  - left. exists x. split; [exact Hx|]. rewrite told_bad_snoc. set_solver.
  - right. left. exists m1, m2, e1, e2, b1, b2. repeat split; auto; apply elem_of_app; auto.
  - right. right. split; [exact Hne|]. intros e He. destruct (H e He) as [[A B]|[k A]].
    + left. split; [apply elem_of_app; auto|]. rewrite registered_snoc. destruct o as [|e'|e'| | |]; auto.
      * destruct (decide (e = e')) as [->|]; [|exact B]. exfalso. exact (Hn e' eq_refl A).
      * destruct (decide _); auto.
    + right. exists k. apply elem_of_app. auto.
Qed.

Definition dflt (d : dep) : Prop := d_all d = true /\ d_success d = true /\ d_failure d = false.
Lemma check_dflt d c f : dflt d -> check d c f = true <-> d_ids d ⊆ c.
Proof.
  intros (A & B & C). unfold check. rewrite A, B, C. destruct (decide (d_ids d = ∅)) as [E|E]; [set_solver|].
  rewrite bool_decide_eq_true. reflexivity.
Qed.
Lemma unreachable_dflt d c f : dflt d -> unreachable d c f = true -> exists x, x ∈ d_ids d /\ x ∈ f.
Proof.
  intros (A & B & C). unfold unreachable. rewrite A, B, C. destruct (decide (d_ids d = ∅)) as [E|E]; [discriminate|].
  intros H. apply negb_true_iff, bool_decide_eq_false in H. apply not_disjoint in H as (x & Hx & Hf). exists x. set_solver.
Qed.

(** What a Job object says about its task. *)
Definition static (log : list obs) (jb : job) : Prop := exists md, ObsSubmit (j_msg jb) md ∈ log /\
  dflt (j_after jb) /\ dflt (j_follow jb) /\
  d_ids (j_after jb) ⊆ deps (t_after md) /\ d_ids (j_follow jb) ⊆ deps (t_follow md) /\
  (t_targets md = [] -> j_targets jb = ∅) /\
  (forall e, e ∈ t_targets md -> e ∈ j_targets jb \/ e ∈ j_blacklist jb) /\
  (forall e, e ∈ j_blacklist jb -> exists k, ObsResult (j_msg jb) e k ∈ log).
Lemma static_snoc log o jb : static log jb -> static (log ++ [o]) jb.
Proof.
  intros (md & A & B & C & D & E & F & G & H). exists md. split; [apply elem_of_app; auto|].
  repeat (split; [assumption|]). intros e He. destruct (H e He) as [k Hk]. exists k. apply elem_of_app. auto.
Qed.

(** [Y]: Job objects being placed (not queued yet); [D]: a task just finished whose entry of the
    graph is about to be popped; [L]: the queue and what was popped from it. *)
Record invN (Y : list nat) (D : option nat) (jobs : gmap nat job) (tg L : list nat) (qm : gmap nat nat)
  (g : gmap nat (gset nat)) (pd : gmap nat (list (nat * nat))) (co fa : gmap nat (gset nat))
  (ids ac af ad : gset nat) (dest : gmap nat nat) (log : list obs) : Prop := InvN {
  n_job : forall j jb, jobs !! j = Some jb -> static log jb;
  n_targets : forall m md, ObsSubmit m md ∈ log -> ordinary_dep (t_after md) /\ ordinary_dep (t_follow md) /\
      forall e, e ∈ t_targets md -> ObsRegister e ∈ log;
  n_ids : forall x, submitted log x -> x ∈ ids;
  n_y : forall j jb, j ∈ Y -> jobs !! j = Some jb -> qm !! j_msg jb = None;
  n_saved : forall j jb, j ∈ L -> jobs !! j = Some jb -> j_removed jb = false -> qm !! j_msg jb = Some j;
  n_qm : forall m j, qm !! m = Some j -> exists jb, jobs !! j = Some jb /\ j_msg jb = m /\ j ∈ L /\ j_removed jb = false /\
      forall d X, d ∈ dependents jb -> g !! d = Some X -> m ∈ X;
  n_graph : forall d X m, g !! d = Some X -> m ∈ X -> exists j jb, qm !! m = Some j /\ jobs !! j = Some jb /\ d ∈ dependents jb;
  n_gdone : forall d, is_Some (g !! d) -> d ∉ ad \/ D = Some d;
  n_wait : forall m, phase_of log m = Waiting -> dead log m \/ is_Some (qm !! m) \/
      exists j jb, j ∈ Y /\ jobs !! j = Some jb /\ j_msg jb = m;
  n_cf : forall e, e ∈ tg \/ (exists l, pd !! e = Some l /\ l <> []) -> is_Some (co !! e) /\ is_Some (fa !! e);
  n_on : forall e c, co !! e = Some c -> told_on e true log ⊆ c;
  n_from : forall m e b, ObsReply m (FromEngine e b) ∈ log -> ObsRegister e ∈ log;
  n_reg : forall e, registered log e = true -> e ∈ tg;
  n_ok : told_ok log ⊆ ac;
  n_bad : af ⊆ told_bad log;
  n_dest : forall m, m ∈ ac -> exists e, dest !! m = Some e /\ ObsReply m (FromEngine e true) ∈ log;
  n_acd : ac ⊆ ad;
  n_eng : forall m e j jb, phase_of log m = OnEngine e -> jobs !! j = Some jb -> j_msg jb = m -> dependents jb ⊆ ad;
  n_cod : forall e c, co !! e = Some c -> c ⊆ ad;
  n_cover : forall m j jb d, qm !! m = Some j -> jobs !! j = Some jb -> d ∈ dependents jb -> d ∉ ad -> is_Some (g !! d);
  n_D : forall d, D = Some d -> d ∈ ad }.

Definition NS (Y F : list nat) (D : option nat) (s : sched) : Prop :=
  invN Y D (s_jobs s) (s_targets s) (F ++ s_queue s) (s_qmap s) (s_graph s) (s_pending s) (s_completed s) (s_failed s)
    (s_all_ids s) (s_all_completed s) (s_all_failed s) (s_all_done s) (s_dest s) (s_log s).

Ltac open_N H := destruct H as [N1 N2 N3 N4 N5 N6 N7 N8 N9 N10 N11 N12 N13 N14 N15 N16 N17 N18 N19 N20 N21].

(** [L] matters only as a set; a removed job may leave it. *)
Lemma invN_L Y D jobs tg L L' qm g pd co fa ids ac af ad dest log :
  (forall j, j ∈ L' -> j ∈ L) ->
  (forall j jb, j ∈ L -> jobs !! j = Some jb -> j_removed jb = false -> j ∈ L') ->
  invN Y D jobs tg L qm g pd co fa ids ac af ad dest log -> invN Y D jobs tg L' qm g pd co fa ids ac af ad dest log.
Proof.
  intros H1 H2 H. open_N H. split; auto.
  - intros m j Hq. destruct (N6 m j Hq) as (jb & A & B & C & E & F). exists jb. repeat (split; [assumption|]). split; [eauto|auto].
Qed.
(** A job that will never run may leave [Y]. *)
Lemma invN_Y Y Y' D jobs tg L qm g pd co fa ids ac af ad dest log :
  (forall j, j ∈ Y' -> j ∈ Y) ->
  (forall j jb, j ∈ Y -> jobs !! j = Some jb -> j ∈ Y' \/ phase_of log (j_msg jb) <> Waiting \/ dead log (j_msg jb)) ->
  invN Y D jobs tg L qm g pd co fa ids ac af ad dest log -> invN Y' D jobs tg L qm g pd co fa ids ac af ad dest log.
Proof.
  intros H1 H2 H. open_N H. split; auto.
  - eauto.
  - intros m Hm. destruct (N9 m Hm) as [A|[A|(j & jb & A & B & C)]]; [auto|auto|].
    destruct (H2 j jb A B) as [E|[E|E]]; [right; right; eauto|congruence|left; congruence].
Qed.

(** update_graph pops the entry of the finished task. *)
Lemma invN_pop Y D jobs tg L qm g pd co fa ids ac af ad dest log :
  invN Y D jobs tg L qm g pd co fa ids ac af ad dest log ->
  invN Y None jobs tg L qm (match D with Some d => delete d g | None => g end) pd co fa ids ac af ad dest log.
Proof.
  intros H. destruct D as [d|]; [|exact H]. open_N H. split; auto.
  - intros m j Hq. destruct (N6 m j Hq) as (jb & A & B & C & E & F). exists jb. repeat (split; [assumption|]).
    intros d' X Hd HX. apply lookup_delete_Some in HX as [_ HX]. eauto.
  - intros d' X m HX. apply lookup_delete_Some in HX as [_ HX]. eauto.
  - intros d' [X HX]. apply lookup_delete_Some in HX as [Hne HX]. destruct (N8 d' (ex_intro _ X HX)) as [?|E]; [auto|congruence].
  - intros m j jb d' Hq Hj Hd Hn. rewrite lookup_delete_ne; [eauto|]. intros ->. apply Hn. auto.
  - discriminate.
Qed.

(** A change of a Job object that loses nothing. *)
Definition same_job (jb jb' : job) : Prop :=
  j_msg jb' = j_msg jb /\ j_after jb' = j_after jb /\ j_follow jb' = j_follow jb /\
  j_blacklist jb' = j_blacklist jb /\ (j_targets jb = ∅ -> j_targets jb' = ∅) /\
  (forall e, e ∈ j_targets jb -> e ∈ j_targets jb' \/ e ∈ j_blacklist jb).
Lemma static_same log jb jb' : same_job jb jb' -> static log jb -> static log jb'.
Proof.
  intros (S1 & S2 & S3 & S4 & S5 & S6) (md & A & B & C & D & E & F & G & H). exists md.
  rewrite S1, S2, S3, S4. do 5 (split; [assumption|]). split; [auto|]. split; [|exact H].
  intros e He. destruct (G e He) as [Ht|Hb]; [|auto]. auto.
Qed.
Lemma same_job_refl jb : same_job jb jb.
Proof. repeat split; auto. Qed.

Section Alter.
Context (jobs : gmap nat job) (j : nat) (jb : job) (f : job -> job) (Hj : jobs !! j = Some jb) (Hf : same_job jb (f jb)).
Lemma alter_back j' jb' : alter f j jobs !! j' = Some jb' ->
  exists jb0, jobs !! j' = Some jb0 /\ same_job jb0 jb' /\ (j' <> j -> jb' = jb0) /\ (j' = j -> jb' = f jb).
Proof.
  rewrite lookup_alter_Some. intros [(-> & jb0 & E & ->)|(Hne & E)].
  - rewrite Hj in E. injection E as <-. exists jb. split; [exact Hj|]. split; [exact Hf|]. split; [congruence|auto].
  - exists jb'. split; [exact E|]. split; [apply same_job_refl|]. split; [auto|]. congruence.
Qed.
Lemma alter_fwd j' jb0 : jobs !! j' = Some jb0 -> exists jb', alter f j jobs !! j' = Some jb' /\ same_job jb0 jb' /\
  (j' <> j -> jb' = jb0) /\ (j' = j -> jb' = f jb).
Proof.
  intros E. destruct (decide (j' = j)) as [->|Hne].
  - rewrite Hj in E. injection E as <-. exists (f jb). rewrite lookup_alter, Hj. repeat split; auto; try apply Hf; congruence.
  - exists jb0. rewrite lookup_alter_ne by congruence. split; [exact E|]. split; [apply same_job_refl|]. split; [auto|congruence].
Qed.
End Alter.
Lemma same_dependents jb jb' : same_job jb jb' -> dependents jb' = dependents jb.
Proof. intros (_ & A & B & _). unfold dependents. rewrite A, B. reflexivity. Qed.

(** The scheduler reports that a task cannot run. *)
Lemma invN_fail Y jobs tg L qm g pd co fa ids ac af ad dest log j jb f w :
  let m := j_msg jb in
  invN Y None jobs tg L qm g pd co fa ids ac af ad dest log ->
  jobs !! j = Some jb -> phase_of log m = Waiting -> same_job jb (f jb) -> j_removed (f jb) = true ->
  (forall j' jb', jobs !! j' = Some jb' -> j_msg jb' = m -> j' = j) ->
  invN Y (Some m) (alter f j jobs) tg L (delete m qm) ((fun X => X ∖ {[m]}) <$> g) pd co fa ids ac ({[m]} ∪ af) ({[m]} ∪ ad) dest
    (log ++ [ObsReply m (Unreachable w)]).
Proof.
  intros m H Hj Hw Hf Hr Hu. set (o := ObsReply m (Unreachable w)). open_N H.
  assert (Hm : phase_of (log ++ [o]) m = Replied) by (apply phase_reply; exact Hw).
  assert (Hp : forall m', m' <> m -> phase_of (log ++ [o]) m' = phase_of log m').
  { intros m' Hne. apply phase_other. simpl. congruence. }
  assert (Hna : not_again log o) by (intros e E; discriminate).
  assert (Hno : forall e b m', ObsReply m' (FromEngine e b) ∈ log ++ [o] -> ObsReply m' (FromEngine e b) ∈ log).
  { intros e b m' Hin. apply elem_of_app in Hin as [Hin|Hin]; [exact Hin|]. apply elem_of_list_singleton in Hin. discriminate. }
  split; auto.
  - intros j' jb' Hj'. destruct (alter_back _ _ _ _ Hj Hf _ _ Hj') as (jb0 & A & B & _).
    eapply static_same; [exact B|]. apply static_snoc. eauto.
  - intros m' md Hin. apply elem_of_app in Hin as [Hin|Hin]; [|apply elem_of_list_singleton in Hin; discriminate].
    destruct (N2 m' md Hin) as (A & B & C). split; [exact A|]. split; [exact B|]. intros e He. apply elem_of_app. auto.
  - intros x [md Hin]. apply elem_of_app in Hin as [Hin|Hin]; [apply N3; exists md; exact Hin|apply elem_of_list_singleton in Hin; discriminate].
  - intros j' jb' Hy Hj'. destruct (alter_back _ _ _ _ Hj Hf _ _ Hj') as (jb0 & A & (B & _) & _).
    rewrite B. apply lookup_delete_None. right. eauto.
  - intros j' jb' HL Hj' Hr'. destruct (alter_back _ _ _ _ Hj Hf _ _ Hj') as (jb0 & A & _ & C & E).
    destruct (decide (j' = j)) as [->|Hne]; [rewrite (E eq_refl) in Hr'; congruence|].
    rewrite (C Hne) in *. rewrite lookup_delete_ne; [eauto|]. intros E'. apply Hne. apply (Hu j' jb0 A). congruence.
  - intros m' j' Hq. apply lookup_delete_Some in Hq as [Hne Hq]. destruct (N6 m' j' Hq) as (jb0 & A & B & C & E & F).
    assert (Hnj : j' <> j) by (intros ->; rewrite Hj in A; injection A as <-; apply Hne; exact B).
    exists jb0. rewrite lookup_alter_ne by congruence. repeat (split; [assumption|]).
    intros d X Hd HX. rewrite lookup_fmap in HX. destruct (g !! d) as [X0|] eqn:E0; [|discriminate]. injection HX as <-.
    specialize (F d X0 Hd E0). set_solver.
  - intros d X m' HX Hin. rewrite lookup_fmap in HX. destruct (g !! d) as [X0|] eqn:E0; [|discriminate]. injection HX as <-.
    apply elem_of_difference in Hin as [Hin Hne]. destruct (N7 d X0 m' E0 Hin) as (j' & jb0 & A & B & C).
    assert (m' <> m) by set_solver.
    destruct (alter_fwd _ _ _ _ Hj Hf _ _ B) as (jb' & A' & B' & _). exists j', jb'.
    rewrite lookup_delete_ne by congruence. split; [exact A|]. split; [exact A'|]. rewrite (same_dependents _ _ B'). exact C.
  - intros d [X HX]. rewrite lookup_fmap in HX. destruct (g !! d) as [X0|] eqn:E0; [|discriminate].
    destruct (N8 d (ex_intro _ X0 E0)) as [A|A]; [|discriminate]. destruct (decide (d = m)) as [->|]; [auto|left; set_solver].
  - intros m' Hm'. destruct (decide (m' = m)) as [->|Hne]; [congruence|]. rewrite Hp in Hm' by exact Hne.
    destruct (N9 m' Hm') as [A|[A|(j' & jb0 & A & B & C)]].
    + left. apply dead_snoc; assumption.
    + right. left. rewrite lookup_delete_ne by congruence. exact A.
    + right. right. destruct (alter_fwd _ _ _ _ Hj Hf _ _ B) as (jb' & A' & (B' & _) & _). exists j', jb'. rewrite B'. auto.
  - intros e c Hc x Hx. apply (N11 e c Hc). apply told_on_elem in Hx. apply told_on_elem. auto.
  - intros m' e b Hin. apply elem_of_app. left. eauto.
  - intros e. rewrite registered_snoc. apply N13.
  - rewrite told_ok_snoc. set_solver.
  - rewrite told_bad_snoc. set_solver.
  - intros m' Hin. destruct (N16 m' Hin) as (e & A & B). exists e. split; [exact A|]. apply elem_of_app. auto.
  - set_solver.
  - intros m' e j' jb' Hon Hj' Hm'. destruct (decide (m' = m)) as [->|Hne]; [congruence|]. rewrite Hp in Hon by exact Hne.
    destruct (alter_back _ _ _ _ Hj Hf _ _ Hj') as (jb0 & A & B & _). rewrite (same_dependents _ _ B).
    assert (dependents jb0 ⊆ ad); [|set_solver]. eapply N18; eauto. destruct B as [B _]. congruence.
  - intros e c Hc. specialize (N19 e c Hc). set_solver.
  - intros m' j' jb' d Hq Hj' Hd Hn. apply lookup_delete_Some in Hq as [Hne Hq].
    destruct (alter_back _ _ _ _ Hj Hf _ _ Hj') as (jb0 & A & B & _). rewrite (same_dependents _ _ B) in Hd.
    rewrite lookup_fmap. apply fmap_is_Some. eapply N20; eauto. set_solver.
  - intros d E. injection E as <-. set_solver.
Qed.

(** The same, when forgetting the task in the graph raises: the task is lost. *)
Lemma invN_lost Y D jobs tg L qm g pd co fa ids ac af ad dest log j jb f :
  invN Y D jobs tg L qm g pd co fa ids ac af ad dest log ->
  jobs !! j = Some jb -> same_job jb (f jb) -> qm !! j_msg jb = None ->
  (forall j' jb', jobs !! j' = Some jb' -> j_msg jb' = j_msg jb -> j' = j) -> j_removed (f jb) = true ->
  invN Y D (alter f j jobs) tg L qm g pd co fa ids ac af ad dest log.
Proof.
  intros H Hj Hf Hq Hu Hr. open_N H. split; auto.
  - intros j' jb' Hj'. destruct (alter_back _ _ _ _ Hj Hf _ _ Hj') as (jb0 & A & B & _). eapply static_same; [exact B|]. eauto.
  - intros j' jb' Hy Hj'. destruct (alter_back _ _ _ _ Hj Hf _ _ Hj') as (jb0 & A & (B & _) & _). rewrite B. eauto.
  - intros j' jb' HL Hj' Hr'. destruct (alter_back _ _ _ _ Hj Hf _ _ Hj') as (jb0 & A & _ & C & E).
    destruct (decide (j' = j)) as [->|Hne]; [rewrite (E eq_refl) in Hr'; congruence|]. rewrite (C Hne) in *. eauto.
  - intros m' j' Hq'. destruct (N6 m' j' Hq') as (jb0 & A & B & C).
    assert (Hnj : j' <> j) by (intros ->; rewrite Hj in A; injection A as <-; congruence).
    exists jb0. rewrite lookup_alter_ne by congruence. auto.
  - intros d X m' HX Hin. destruct (N7 d X m' HX Hin) as (j' & jb0 & A & B & C).
    destruct (alter_fwd _ _ _ _ Hj Hf _ _ B) as (jb' & A' & B' & _). exists j', jb'.
    split; [exact A|]. split; [exact A'|]. rewrite (same_dependents _ _ B'). exact C.
  - intros m' Hm'. destruct (N9 m' Hm') as [A|[A|(j' & jb0 & A & B & C)]]; [auto|auto|].
    right. right. destruct (alter_fwd _ _ _ _ Hj Hf _ _ B) as (jb' & A' & (B' & _) & _). exists j', jb'. rewrite B'. auto.
  - intros m' e j' jb' Hon Hj' Hm'. destruct (alter_back _ _ _ _ Hj Hf _ _ Hj') as (jb0 & A & B & _).
    rewrite (same_dependents _ _ B). eapply N18; eauto. destruct B as [B _]. congruence.
  - intros m' j' jb' d Hq' Hj' Hd Hn. destruct (alter_back _ _ _ _ Hj Hf _ _ Hj') as (jb0 & A & B & _).
    rewrite (same_dependents _ _ B) in Hd. eauto.
Qed.

(** check_targets shrinks the wish list. *)
Lemma invN_alter Y D jobs tg L qm g pd co fa ids ac af ad dest log j jb f :
  invN Y D jobs tg L qm g pd co fa ids ac af ad dest log ->
  jobs !! j = Some jb -> same_job jb (f jb) -> j_removed (f jb) = j_removed jb ->
  invN Y D (alter f j jobs) tg L qm g pd co fa ids ac af ad dest log.
Proof.
  intros H Hj Hf Hr. open_N H. split; auto.
  - intros j' jb' Hj'. destruct (alter_back _ _ _ _ Hj Hf _ _ Hj') as (jb0 & A & B & _). eapply static_same; [exact B|]. eauto.
  - intros j' jb' Hy Hj'. destruct (alter_back _ _ _ _ Hj Hf _ _ Hj') as (jb0 & A & (B & _) & _). rewrite B. eauto.
  - intros j' jb' HL Hj' Hr'. destruct (alter_back _ _ _ _ Hj Hf _ _ Hj') as (jb0 & A & (B & _) & C & E).
    destruct (decide (j' = j)) as [->|Hne]; [|rewrite (C Hne) in *; eauto].
    rewrite B. rewrite Hj in A. injection A as <-. rewrite (E eq_refl), Hr in Hr'. eauto.
  - intros m' j' Hq'. destruct (N6 m' j' Hq') as (jb0 & A & B & C & E & F).
    destruct (alter_fwd _ _ _ _ Hj Hf _ _ A) as (jb' & A' & B' & C' & E'). exists jb'.
    split; [exact A'|]. split; [destruct B' as [B' _]; congruence|]. split; [exact C|]. rewrite (same_dependents _ _ B').
    split; [|exact F]. destruct (decide (j' = j)) as [->|Hne]; [|rewrite (C' Hne); exact E].
    rewrite (E' eq_refl), Hr. rewrite Hj in A. injection A as <-. exact E.
  - intros d X m' HX Hin. destruct (N7 d X m' HX Hin) as (j' & jb0 & A & B & C).
    destruct (alter_fwd _ _ _ _ Hj Hf _ _ B) as (jb' & A' & B' & _). exists j', jb'.
    split; [exact A|]. split; [exact A'|]. rewrite (same_dependents _ _ B'). exact C.
  - intros m' Hm'. destruct (N9 m' Hm') as [A|[A|(j' & jb0 & A & B & C)]]; [auto|auto|].
    right. right. destruct (alter_fwd _ _ _ _ Hj Hf _ _ B) as (jb' & A' & (B' & _) & _). exists j', jb'. rewrite B'. auto.
  - intros m' e j' jb' Hon Hj' Hm'. destruct (alter_back _ _ _ _ Hj Hf _ _ Hj') as (jb0 & A & B & _).
    rewrite (same_dependents _ _ B). eapply N18; eauto. destruct B as [B _]. congruence.
  - intros m' j' jb' d Hq' Hj' Hd Hn. destruct (alter_back _ _ _ _ Hj Hf _ _ Hj') as (jb0 & A & B & _).
    rewrite (same_dependents _ _ B) in Hd. eauto.
Qed.

(** A task is sent. *)
Lemma invN_send Y Y' jobs tg tg' L L' qm g pd co fa ids ac af ad dest log j jb target l :
  let m := j_msg jb in
  invN Y None jobs tg L qm g pd co fa ids ac af ad dest log ->
  jobs !! j = Some jb -> phase_of log m = Waiting ->
  (forall j' jb', jobs !! j' = Some jb' -> j_msg jb' = m -> j' = j) ->
  (forall j', j' ∈ L' <-> j' ∈ L /\ j' <> j) -> (forall j', j' ∈ Y' <-> j' ∈ Y /\ j' <> j) ->
  (forall e, e ∈ tg' <-> e ∈ tg) -> target ∈ tg -> dependents jb ⊆ ad ->
  invN Y' None jobs tg' L' (delete m qm) ((fun X => X ∖ {[m]}) <$> g) (<[target := l]> pd) co fa ids ac af ad dest
    (log ++ [ObsSend m target]).
Proof.
  intros m H Hj Hw Hu HL HY Htg Hin Hdep. set (o := ObsSend m target). open_N H.
  assert (Hm : phase_of (log ++ [o]) m = OnEngine target) by (apply phase_send; exact Hw).
  assert (Hp : forall m', m' <> m -> phase_of (log ++ [o]) m' = phase_of log m').
  { intros m' Hne. apply phase_other. simpl. congruence. }
  assert (Hna : not_again log o) by (intros e E; discriminate).
  assert (Hno : forall e b m', ObsReply m' (FromEngine e b) ∈ log ++ [o] -> ObsReply m' (FromEngine e b) ∈ log).
  { intros e b m' Hi. apply elem_of_app in Hi as [Hi|Hi]; [exact Hi|]. apply elem_of_list_singleton in Hi. discriminate. }
  split; auto.
  - intros j' jb' Hj'. apply static_snoc. eauto.
  - intros m' md Hi. apply elem_of_app in Hi as [Hi|Hi]; [|apply elem_of_list_singleton in Hi; discriminate].
    destruct (N2 m' md Hi) as (A & B & C). split; [exact A|]. split; [exact B|]. intros e He. apply elem_of_app. auto.
  - intros x [md Hi]. apply elem_of_app in Hi as [Hi|Hi]; [apply N3; exists md; exact Hi|apply elem_of_list_singleton in Hi; discriminate].
  - intros j' jb' Hy Hj'. apply HY in Hy as [Hy _]. apply lookup_delete_None. right. eauto.
  - intros j' jb' Hl Hj' Hr'. apply HL in Hl as [Hl Hne]. rewrite lookup_delete_ne; [eauto|]. intros E'. apply Hne. apply (Hu j' jb' Hj'). congruence.
  - intros m' j' Hq. apply lookup_delete_Some in Hq as [Hne Hq]. destruct (N6 m' j' Hq) as (jb0 & A & B & C & E & F).
    assert (Hnj : j' <> j) by (intros ->; rewrite Hj in A; injection A as <-; apply Hne; exact B).
    exists jb0. split; [exact A|]. split; [exact B|]. split; [apply HL; auto|]. split; [exact E|].
    intros d X Hd HX. rewrite lookup_fmap in HX. destruct (g !! d) as [X0|] eqn:E0; [|discriminate]. injection HX as <-.
    specialize (F d X0 Hd E0). set_solver.
  - intros d X m' HX Hi. rewrite lookup_fmap in HX. destruct (g !! d) as [X0|] eqn:E0; [|discriminate]. injection HX as <-.
    apply elem_of_difference in Hi as [Hi Hne]. destruct (N7 d X0 m' E0 Hi) as (j' & jb0 & A & B & C).
    assert (m' <> m) by set_solver. exists j', jb0. rewrite lookup_delete_ne by congruence. auto.
  - intros d [X HX]. rewrite lookup_fmap in HX. destruct (g !! d) as [X0|] eqn:E0; [|discriminate]. apply (N8 d). eauto.
  - intros m' Hm'. destruct (decide (m' = m)) as [->|Hne]; [congruence|]. rewrite Hp in Hm' by exact Hne.
    destruct (N9 m' Hm') as [A|[A|(j' & jb0 & A & B & C)]].
    + left. apply dead_snoc; assumption.
    + right. left. rewrite lookup_delete_ne by congruence. exact A.
    + right. right. exists j', jb0. split; [apply HY; split; [exact A|]|auto]. intros ->. rewrite Hj in B. injection B as <-. apply Hne. symmetry. exact C.
  - intros e He. apply N10. destruct He as [He|(l' & Hl & Hnn)]; [left; apply Htg; exact He|].
    apply lookup_insert_Some in Hl as [(<- & _)|(Hne & Hl)]; [left; exact Hin|right; eauto].
  - intros e c Hc x Hx. apply (N11 e c Hc). apply told_on_elem in Hx. apply told_on_elem. auto.
  - intros m' e b Hi. apply elem_of_app. left. eauto.
  - intros e. rewrite registered_snoc. intros He. apply Htg. auto.
  - rewrite told_ok_snoc. set_solver.
  - rewrite told_bad_snoc. set_solver.
  - intros m' Hi. destruct (N16 m' Hi) as (e & A & B). exists e. split; [exact A|]. apply elem_of_app. auto.
  - intros m' e j' jb' Hon Hj' Hm'. destruct (decide (m' = m)) as [->|Hne].
    + assert (j' = j) by (eapply Hu; eauto). subst j'. rewrite Hj in Hj'. injection Hj' as <-. exact Hdep.
    + rewrite Hp in Hon by exact Hne. eauto.
  - intros m' j' jb' d Hq Hj' Hd Hn. apply lookup_delete_Some in Hq as [Hne Hq]. rewrite lookup_fmap. apply fmap_is_Some. eauto.
Qed.
