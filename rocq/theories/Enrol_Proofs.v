(** Proofs about the registration of engines from end to end. *)
From Coq Require Import List Arith Bool Lia.
From Verif Require Import Hub_Spec Hub_Model Hub_Reg Heart_Spec Enrol_Spec Enrol_Model.
From Verif Require Heart_Model Heart_Proofs Heart_Props.
Import ListNotations.

(* ------------------------------------------------------------ the histories *)
Lemma exec_snoc max es e : Enrol_Model.exec max (es ++ [e]) = Enrol_Model.step max (Enrol_Model.exec max es) e.
Proof. unfold Enrol_Model.exec. rewrite fold_left_app. reflexivity. Qed.
Lemma rounds_snoc es e : rounds (es ++ [e]) = match e with Beat r => rounds es ++ [r] | Reboot => [] | _ => rounds es end.
Proof. unfold rounds. rewrite fold_left_app. reflexivity. Qed.
Lemma since_snoc ns n : since_start (ns ++ [n]) = match n with Restarted => [] | _ => since_start ns ++ [n] end.
Proof. unfold since_start. rewrite fold_left_app. reflexivity. Qed.
Lemma in_present_step l n e : In e (present_step l n) -> In e l \/ exists i u, n = Registered i u /\ e = (i, u).
Proof.
  destruct n; simpl; auto.
  - rewrite in_app_iff. intros [H|[H|[]]]; eauto.
  - rewrite filter_In. tauto.
Qed.
Lemma present_step_mono l l' n e : (In e l -> In e l') -> In e (present_step l n) -> In e (present_step l' n).
Proof. intros H. destruct n; simpl; auto; [rewrite !in_app_iff|rewrite !filter_In]; tauto. Qed.
Lemma present_since ns e : In e (present (since_start ns)) -> In e (present ns).
Proof.
  induction ns as [|n ns IH] using rev_ind; [auto|]. rewrite since_snoc, (present_snoc ns). destruct n; try (rewrite present_snoc; apply present_step_mono; exact IH).
  intros [].
Qed.
Lemma since_all ns : ~ In Restarted ns -> since_start ns = ns.
Proof.
  induction ns as [|n ns IH] using rev_ind; intros H; [reflexivity|]. rewrite in_app_iff in H. rewrite since_snoc, IH by tauto. destruct n; auto. exfalso. apply H. right. left. reflexivity.
Qed.

Definition reboots_ok (max : nat) (es : list act) : Prop :=
  forall pre post, es = pre ++ Reboot :: post -> changed_since_restart (told max pre) = true.
Lemma reboots_snoc max es e : reboots_ok max (es ++ [e]) -> reboots_ok max es /\ (e = Reboot -> changed_since_restart (told max es) = true).
Proof.
  intros H. split.
  - intros pre post E. apply (H pre (post ++ [e])). rewrite E, <- app_assoc. reflexivity.
  - intros ->. apply (H es []). reflexivity.
Qed.

(* ------------------------------------------------------------ the Hub *)
(** [A]: the hearts that have beaten; [V]: the hearts that beat, as far as the Hub has been told *)
Record good (A V : nat -> Prop) (s : Hub_Model.hub) : Prop := {
  g_reg : rinv s;
  g_view : forall i u, In (i, u) (present (since_start (notices s))) -> V u;
  g_inc : forall u i, In (u, i) (incoming s) -> exists c, In (Granted u i c) (since_start (notices s));
  g_been : forall i u, In (Registered i u) (since_start (notices s)) -> A u /\ exists c, In (Granted u i c) (since_start (notices s)) }.
Lemma good_impl (A A' V V' : nat -> Prop) s : (forall u, A u -> A' u) -> (forall u, V u -> V' u) -> good A V s -> good A' V' s.
Proof.
  intros HA HV [G1 G2 G3 G4]. constructor; auto.
  - intros i u H. apply HV, (G2 _ _ H).
  - intros i u H. destruct (G4 _ _ H). auto.
Qed.
Lemma good_start A : good A (fun _ => False) Hub_Model.start.
Proof. constructor; [apply rinv_start| | |]; simpl; intros ? ? []. Qed.
Lemma good_same A V s s' : same_reg s s' -> good A V s -> good A V s'.
Proof.
  intros Hs [G1 G2 G3 G4]. pose proof (rinv_same _ _ Hs G1) as R. destruct Hs as (E1 & E2 & E3 & E4 & E5 & E6 & E7).
  constructor; rewrite ?E3, ?E7; auto.
Qed.
Lemma in_set {B} k v (d : list (nat * B)) e : In e (Hub_Model.set k v d) -> e = (k, v) \/ In e d.
Proof. induction d as [|[k' w] d IH]; simpl; [intuition|]. destruct (Nat.eqb k k'); simpl; intuition. Qed.
Lemma good_register A V s u r : good A V s -> good A V (register_engine s u r).
Proof.
  intros [G1 G2 G3 G4]. pose proof (rinv_register s u r G1) as R. unfold register_engine in *. destruct (new_engine_id s r) as [[s1 eid] c] eqn:E.
  destruct (new_id_spec _ _ _ _ _ E G1) as (E1 & E2 & E3 & E4 & E5 & E6 & _).
  destruct (is_some (get u (by_ident s1))); [|destruct (is_some (get u (incoming s1)))].
  1, 2: constructor; [exact R| | |]; cbn [notices tell incoming]; rewrite ?E2, ?E6, since_snoc, ?present_snoc; [exact G2| |];
    [intros u' i H; destruct (G3 _ _ H) as (c' & Hc); exists c'; apply in_or_app; auto|];
    intros i u'; rewrite in_app_iff; intros [H|[H|[]]]; [|discriminate]; destruct (G4 _ _ H) as (Ha & c' & Hc); split; [exact Ha|]; exists c'; apply in_or_app; auto.
  constructor; [exact R| | |]; cbn [notices tell with_reg incoming]; rewrite ?E2, ?E6, since_snoc, ?present_snoc.
  - exact G2.
  - intros u' i H. apply in_set in H as [H|H].
    + injection H as -> ->. exists c. apply in_or_app. right. left. reflexivity.
    + destruct (G3 _ _ H) as (c' & Hc). exists c'. apply in_or_app. auto.
  - intros i u'. rewrite in_app_iff. intros [H|[H|[]]]; [|discriminate]. destruct (G4 _ _ H) as (Ha & c' & Hc). split; [exact Ha|]. exists c'. apply in_or_app. auto.
Qed.
Lemma good_unregister A V s i : good A V s -> good A V (unregister_engine s i).
Proof.
  intros [G1 G2 G3 G4]. pose proof (rinv_unregister s i G1) as R. unfold unregister_engine in *. destruct (get i (engines s)) as [u|].
  - constructor; [exact R| | |]; cbn [notices tell save_engine_state with_file with_reg with_timers incoming]; rewrite since_snoc, ?present_snoc.
    + intros i' u' H. cbn [present_step] in H. rewrite filter_In in H. apply (G2 i' u'). tauto.
    + intros u' i' H. destruct (G3 _ _ H) as (c' & Hc). exists c'. apply in_or_app. auto.
    + intros i' u'. rewrite in_app_iff. intros [H|[H|[]]]; [|discriminate]. destruct (G4 _ _ H) as (Ha & c' & Hc). split; [exact Ha|]. exists c'. apply in_or_app. auto.
  - destruct (find _ (incoming s)) as [[u i']|]; [|constructor; auto]. constructor; [exact R| | |]; cbn [notices with_reg incoming]; auto.
    intros u' i2 H. apply in_pop in H as [H _]. auto.
Qed.
Lemma good_purge A V s u : good A V s -> good A V (Hub_Model.purge_stalled s u).
Proof.
  intros [G1 G2 G3 G4]. unfold Hub_Model.purge_stalled. destruct (is_some _); [|constructor; auto].
  constructor; [apply rinv_pop_incoming; exact G1| | |]; cbn [notices with_reg incoming]; auto. intros u' i2 H. apply in_pop in H as [H _]. auto.
Qed.
Lemma good_new (A V : nat -> Prop) s u : A u -> good A V s -> good A (fun u' => u' = u \/ V u') (handle_new_heart s u).
Proof.
  intros Ha G. unfold handle_new_heart. destruct (is_some (get u (incoming s))) eqn:E; [|apply (good_impl A A V); auto].
  destruct G as [G1 G2 G3 G4]. pose proof (rinv_finish s u G1) as R. unfold finish_registration in *. destruct (get u (incoming s)) as [i|] eqn:Eg; [|discriminate].
  apply get_in in Eg. constructor; [exact R| | |]; cbn [notices save_engine_state with_file with_tables tell with_reg incoming]; rewrite since_snoc, ?present_snoc.
  - intros i' u' H. cbn [present_step] in H. rewrite in_app_iff in H. destruct H as [H|[H|[]]]; [right; apply (G2 _ _ H)|]. left. congruence.
  - intros u' i' H. apply in_pop in H as [H _]. destruct (G3 _ _ H) as (c' & Hc). exists c'. apply in_or_app. auto.
  - intros i' u'. rewrite in_app_iff. intros [H|[H|[]]].
    + destruct (G4 _ _ H) as (Ha' & c' & Hc). split; [exact Ha'|]. exists c'. apply in_or_app. auto.
    + injection H as -> ->. split; [exact Ha|]. destruct (G3 _ _ Eg) as (c' & Hc). exists c'. apply in_or_app. auto.
Qed.
Lemma stopped_gone s u : rinv s -> ~ In u (map snd (engines (handle_stopped_heart s u))).
Proof.
  intros R. unfold handle_stopped_heart. rewrite (ri_hearts s R). destruct (get u (map swap (engines s))) as [eid|] eqn:E.
  - apply get_in in E. apply in_map_iff in E as ([i v] & Ee & Hin). injection Ee as -> ->.
    pose proof (in_get _ _ _ (NoDup_app_l _ _ (ri_ids s R)) Hin) as Eg. unfold unregister_engine. rewrite Eg.
    cbn [is_some engines tell save_engine_state with_file with_reg with_timers].
    intros H. apply in_map_iff in H as ([i v] & Ev & H). simpl in Ev. subst v. apply in_pop in H as [H Hne]. simpl in Hne. apply Hne.
    assert (G : get u (map swap (engines s)) = Some i /\ get u (map swap (engines s)) = Some eid); [|destruct G; congruence].
    split; apply in_get; try (rewrite map_map; apply (NoDup_app_l _ _ (ri_uuids s R))); apply in_map_iff; [exists (i, u)|exists (eid, u)]; auto.
  - apply get_none in E. rewrite map_map in E. exact E.
Qed.
Lemma good_stopped A V s u : good A V s -> good A (fun u' => u' <> u /\ V u') (handle_stopped_heart s u).
Proof.
  intros G. assert (G' : good A V (handle_stopped_heart s u)).
  { unfold handle_stopped_heart. destruct (get u (Hub_Model.hearts s)) as [eid|]; [|exact G]. destruct (is_some _); [apply good_unregister|]; exact G. }
  pose proof (stopped_gone s u (g_reg _ _ _ G)) as N. destruct G' as [G1 G2 G3 G4]. constructor; auto.
  intros i u' H. split; [|apply (G2 _ _ H)]. intros ->. apply N. rewrite (ri_present _ G1). apply in_map_iff. exists (i, u). split; [reflexivity|]. apply present_since, H.
Qed.
Lemma good_news (A : nat -> Prop) hs : (forall u, In u hs -> A u) -> forall V s, good A V s -> good A (fun u => In u hs \/ V u) (fold_left handle_new_heart hs s).
Proof.
  induction hs as [|h hs IH]; intros HA V s G; cbn [fold_left]; [apply (good_impl A A V); auto|].
  eapply good_impl; [intros u H; exact H| |apply IH; [|apply (good_new A V s h); [|exact G]]]; simpl; auto.
  - cbn. intros u. intuition.
  - intros u Hu. apply HA. right. exact Hu.
  - apply HA. left. reflexivity.
Qed.
Lemma good_stops A hs : forall V s, good A V s -> good A (fun u => ~ In u hs /\ V u) (fold_left handle_stopped_heart hs s).
Proof.
  induction hs as [|h hs IH]; intros V s G; cbn [fold_left]; [apply (good_impl A A V); auto|].
  eapply good_impl; [intros u H; exact H| |apply IH, (good_stopped A V s h), G].
  cbn. intros u. intuition.
Qed.

(** What a message says *)
Definition about (m : msg) : list nat := match m with NewHearts hs | StoppedHearts hs => hs end.
Definition view (V : nat -> Prop) (m : msg) : nat -> Prop :=
  match m with NewHearts hs => fun u => In u hs \/ V u | StoppedHearts hs => fun u => ~ In u hs /\ V u end.
Lemma good_handle (A V : nat -> Prop) s m : (forall u, In u (about m) -> A u) -> good A V s -> good A (view V m) (handle s m).
Proof. destruct m as [hs|hs]; simpl; intros HA G; [apply good_news; auto|apply good_stops; auto]. Qed.
Lemma good_handle_all (A : nat -> Prop) ms : (forall m u, In m ms -> In u (about m) -> A u) -> forall V s, good A V s -> good A (fold_left view ms V) (handle_all s ms).
Proof.
  induction ms as [|m ms IH]; intros HA V s G; [exact G|]. unfold handle_all in *. cbn [fold_left]. apply IH.
  - intros m' u Hm. apply HA. right. exact Hm.
  - apply good_handle; [|exact G]. intros u. apply HA. left. reflexivity.
Qed.
Lemma good_other A V s e : is_message e = true \/ (exists u r, e = Register u r) \/ (exists i, e = Unregister i) -> good A V s -> good A V (Hub_Model.step s e).
Proof.
  intros [H|[(u & r & ->)|(i & ->)]] G; [eapply good_same; [apply same_step; exact H|exact G]|apply good_register, G|apply good_unregister, G].
Qed.
Lemma good_restart A V s : good A V s -> changed_since_restart (notices s) = true -> good (fun _ => False) (fun _ => False) (restart s).
Proof.
  intros G Hc. pose proof (rinv_restart s (g_reg _ _ _ G) Hc) as R.
  assert (E : notices (restart s) = notices s ++ [Restarted] /\ incoming (restart s) = []).
  { destruct G as [[J1 J2 J3 J4 J5 J6 J7 J8 J9] _ _ _]. specialize (J9 Hc). unfold restart, load_engine_state. cbn [file]. destruct (file s) as [[es n]|]; [|auto].
    destruct J9 as (-> & _).
    destruct (load_fold (engines s) (Hub 0 [] [] [] [] (fun _ => None) (fun _ => None) (fun _ => None) [] [] [] (db s) [] (Some (engines s, n)) (notices s ++ [Restarted])) eq_refl eq_refl eq_refl) as (R1 & R2 & R3 & R4 & R5).
    { simpl. apply (NoDup_app_l _ _ J2). } { simpl. apply (NoDup_app_l _ _ J3). }
    cbn [notices incoming with_reg] in *. auto. }
  destruct E as [E1 E2]. constructor; [exact R| | |]; rewrite ?E1, ?E2, ?since_snoc; simpl; intros ? ? [].
Qed.

(* ------------------------------------------------------------ the watching process *)
Lemma run_snoc max rs r : Heart_Model.run max (rs ++ [r]) =
  let '(m1, ns) := Heart_Model.run max rs in let '(m2, n) := Heart_Model.do_round max m1 r in (m2, ns ++ [n]).
Proof. apply Heart_Proofs.run_from_app. Qed.
Lemma round_hearts max m r m' n : Heart_Model.do_round max m r = (m', n) ->
  forall u, In u (Heart_Model.hearts m') <-> ~ In u (Heart_Model.stopped_heart n) /\ (In u (Heart_Model.new_heart n) \/ In u (Heart_Model.hearts m)).
Proof.
  unfold Heart_Model.do_round, Heart_Model.beat. set (m0 := fold_left _ _ m). destruct (Heart_Model.check_missed _ _ _ _) as [f p]. intros E u.
  assert (Hm : Heart_Model.hearts m0 = Heart_Model.hearts m) by apply Heart_Proofs.pongs_fields.
  injection E as <- <-. cbn [Heart_Model.hearts Heart_Model.stopped_heart Heart_Model.new_heart].
  rewrite Heart_Proofs.In_removes, Heart_Proofs.In_adds, Hm. tauto.
Qed.
Lemma in_send n m : In m (send n) <-> (m = NewHearts (Heart_Model.new_heart n) /\ Heart_Model.new_heart n <> []) \/ (m = StoppedHearts (Heart_Model.stopped_heart n) /\ Heart_Model.stopped_heart n <> []).
Proof.
  unfold send. rewrite in_app_iff. destruct (Heart_Model.new_heart n) as [|a l], (Heart_Model.stopped_heart n) as [|b l']; simpl; intuition (try congruence).
Qed.
Lemma view_send n V u : fold_left view (send n) V u <-> ~ In u (Heart_Model.stopped_heart n) /\ (In u (Heart_Model.new_heart n) \/ V u).
Proof.
  unfold send. rewrite fold_left_app. destruct (Heart_Model.new_heart n) as [|a l], (Heart_Model.stopped_heart n) as [|b l']; simpl; tauto.
Qed.
Lemma view_ext ms : forall V W : nat -> Prop, (forall u, V u <-> W u) -> forall u, fold_left view ms V u <-> fold_left view ms W u.
Proof.
  induction ms as [|m ms IH]; intros V W H u; [apply H|]. cbn [fold_left]. apply IH. intros u'. destruct m; simpl; rewrite H; tauto.
Qed.

(* ------------------------------------------------------------ together *)
Section S.
Context (max : nat).
Notation exec := (Enrol_Model.exec max).

Record inv (es : list act) : Prop := {
  iv_run : exists ns, Heart_Model.run max (rounds es) = (mon (exec es), ns);
  iv_hub : exists V, good (fun u => exists j, answered (rounds es) u j) V (hub (exec es)) /\
                     forall u, fold_left view (queue (exec es)) V u <-> In u (Heart_Model.hearts (mon (exec es)));
  iv_queue : forall m u, In m (queue (exec es)) -> In u (about m) -> exists j, answered (rounds es) u j }.

Lemma answered_more rs r u : (exists j, answered rs u j) -> exists j, answered (rs ++ [r]) u j.
Proof. intros (j & H). exists j. apply Heart_Proofs.answered_app; [apply (Heart_Proofs.answered_lt _ _ _ H)|exact H]. Qed.

(** What a beat tells *)
Lemma beat_tells rs m ns r m' n : Heart_Model.run max rs = (m, ns) -> Heart_Model.do_round max m r = (m', n) ->
  Heart_Model.run max (rs ++ [r]) = (m', ns ++ [n]) /\
  (forall u, In u (Heart_Model.stopped_heart n) <-> missed (rs ++ [r]) u (length rs) (max + 1)) /\
  (forall u, In u (Heart_Model.new_heart n) -> answered (rs ++ [r]) u (length rs)).
Proof.
  intros E Er. assert (Es : Heart_Model.run max (rs ++ [r]) = (m', ns ++ [n])) by (rewrite run_snoc, E, Er; reflexivity).
  assert (Hn : nth_error (ns ++ [n]) (length rs) = Some n).
  { rewrite <- (Heart_Props.C18_every_beat _ _ _ _ E). rewrite nth_error_app2, Nat.sub_diag by lia. reflexivity. }
  split; [exact Es|]. split; intros u.
  - apply (Heart_Props.C18_dead_iff_missed _ _ _ _ _ _ Es Hn).
  - intros H. apply (Heart_Props.C19_new _ _ _ _ _ _ Es Hn) in H. tauto.
Qed.
Lemma missed_answered rs u i k : missed rs u i k -> exists j, answered rs u j.
Proof. intros (j & (_ & H & _) & _). eauto. Qed.

Lemma inv_step es e : inv es -> (e = Reboot -> changed_since_restart (told max es) = true) -> inv (es ++ [e]).
Proof.
  intros [(ns & E) (V & G & HV) Hq] Hr. unfold told in Hr. destruct (exec es) as [h m q] eqn:Ex. cbn [hub mon queue] in *.
  destruct e as [r| |u k| |e].
  - (* Beat *)
    destruct (Heart_Model.do_round max m r) as [m' n] eqn:Er. destruct (beat_tells _ _ _ _ _ _ E Er) as (Es & Hs & Hn).
    constructor; rewrite exec_snoc, Ex, rounds_snoc; cbn [Enrol_Model.step hub mon queue]; rewrite Er; cbn [hub mon queue].
    + eexists. exact Es.
    + exists V. split; [apply (good_impl (fun u => exists j, answered (rounds es) u j) _ V); [apply answered_more|auto|exact G]|].
      intros u. rewrite fold_left_app, view_send, HV, (round_hearts _ _ _ _ _ Er). tauto.
    + intros m1 u Hm Hu. apply in_app_iff in Hm as [Hm|Hm]; [apply answered_more, (Hq _ _ Hm Hu)|].
      apply in_send in Hm as [[-> _]|[-> _]]; simpl in Hu; [exists (length (rounds es)); apply Hn, Hu|]. eapply missed_answered, Hs, Hu.
  - (* Deliver *)
    constructor; rewrite exec_snoc, Ex, rounds_snoc; cbn [Enrol_Model.step hub mon queue]; destruct q as [|m1 q]; cbn [hub mon queue]; eauto.
    + exists (view V m1). split; [|exact HV]. apply good_handle; [|exact G]. intros u. apply Hq. left. reflexivity.
    + intros m2 u Hm. apply Hq. right. exact Hm.
  - (* Timeout *)
    constructor; rewrite exec_snoc, Ex, rounds_snoc; cbn [Enrol_Model.step]; unfold Enrol_Model.purge_stalled; cbn [hub mon queue]; eauto.
    + exists (fold_left view (firstn k q) V). split.
      * apply good_purge, good_handle_all; [|exact G]. intros m1 v Hm. apply Hq. rewrite <- (firstn_skipn k q). apply in_or_app. auto.
      * intros v. rewrite <- fold_left_app, firstn_skipn. apply HV.
    + intros m1 v Hm. apply Hq. rewrite <- (firstn_skipn k q). apply in_or_app. auto.
  - (* Reboot *)
    constructor; rewrite exec_snoc, Ex, rounds_snoc; cbn [Enrol_Model.step hub mon queue].
    + exists []. reflexivity.
    + exists (fun _ => False). split; [|simpl; tauto]. eapply good_impl; [| |eapply good_restart; [exact G|auto]]; simpl; tauto.
    + intros ? ? [].
  - (* AtHub *)
    constructor; rewrite exec_snoc, Ex, rounds_snoc; cbn [Enrol_Model.step hub mon queue].
    + destruct e; cbn [hub mon queue]; eauto.
    + exists V. destruct e; cbn [hub mon queue]; (split; [|exact HV]); try exact G; apply good_other; auto; eauto.
    + destruct e; cbn [hub mon queue]; eauto.
Qed.
Lemma inv_exec es : reboots_ok max es -> inv es.
Proof.
  induction es as [|e es IH] using rev_ind; intros H.
  - constructor; simpl.
    + exists []. reflexivity.
    + exists (fun _ => False). split; [apply good_start|simpl; tauto].
    + intros ? ? [].
  - apply reboots_snoc in H as [H He]. apply inv_step; auto.
Qed.

(* ------------------------------------------------------------ the way of one engine *)
Section One.
Context (u i : nat).
Definition waits (s : Hub_Model.hub) : Prop := In (u, i) (incoming s).
Definition is_in (s : Hub_Model.hub) : Prop := In (i, u) (engines s).

Lemma set_keep {B} k (v : B) (d : list (nat * B)) (e : nat * B) : In e d -> fst e <> k -> In e (Hub_Model.set k v d).
Proof. induction d as [|[k' w] d IH]; simpl; [tauto|]. intros [<-|H] N; destruct (Nat.eqb_spec k k') as [->|]; simpl in *; auto; congruence. Qed.
Lemma in_fst {B} k (v : B) (d : list (nat * B)) : In (k, v) d -> In k (map fst d).
Proof. intros H. change k with (fst (k, v)). apply in_map, H. Qed.
Lemma in_snd {B} (k : B) v (d : list (B * nat)) : In (k, v) d -> In v (map snd d).
Proof. intros H. change v with (snd (k, v)). apply in_map, H. Qed.

Lemma new_one s : rinv s -> waits s \/ is_in s -> is_in (handle_new_heart s u).
Proof.
  intros R H. unfold handle_new_heart, is_in, waits in *. destruct (is_some (get u (incoming s))) eqn:E.
  - unfold finish_registration. destruct (get u (incoming s)) as [i'|] eqn:Eg; [|discriminate]. apply get_in in Eg.
    destruct (finish_new _ _ _ Eg (ri_ids s R) (ri_uuids s R) (ri_ident s R) (ri_hearts s R)) as (E1 & _).
    cbn [engines save_engine_state with_file with_tables tell with_reg]. rewrite E1. apply in_or_app. destruct H as [H|H]; [|auto]. right. left. f_equal.
    apply in_get in Eg; [|apply (NoDup_app_r _ _ (ri_uuids s R))]. apply in_get in H; [congruence|apply (NoDup_app_r _ _ (ri_uuids s R))].
  - destruct H as [H|H]; [|exact H]. assert (is_some (get u (incoming s)) = true); [|congruence]. apply is_some_get. eapply in_fst, H.
Qed.
Lemma new_other s v : rinv s -> v <> u -> (waits s -> waits (handle_new_heart s v)) /\ (is_in s -> is_in (handle_new_heart s v)).
Proof.
  intros R N. unfold handle_new_heart, is_in, waits. destruct (is_some (get v (incoming s))); [|auto].
  unfold finish_registration. destruct (get v (incoming s)) as [i'|] eqn:Eg; [|auto]. apply get_in in Eg.
  destruct (finish_new _ _ _ Eg (ri_ids s R) (ri_uuids s R) (ri_ident s R) (ri_hearts s R)) as (E1 & _).
  cbn [engines incoming save_engine_state with_file with_tables tell with_reg]. rewrite E1. split; intros H; [apply in_pop; auto|apply in_or_app; auto].
Qed.
Lemma unregister_other s j : rinv s -> j <> i -> (waits s -> waits (unregister_engine s j)) /\ (is_in s -> is_in (unregister_engine s j)).
Proof.
  intros R N. unfold unregister_engine, is_in, waits. destruct (get j (engines s)) as [v|] eqn:E.
  - cbn [engines incoming tell save_engine_state with_file with_reg with_timers]. split; [auto|]. intros H. apply in_pop. auto.
  - destruct (find _ (incoming s)) as [[v j']|] eqn:Ef; [|auto]. apply find_in_snd in Ef as [Ef Ej]. simpl in Ej. subst j'.
    cbn [engines incoming with_reg]. split; [|auto]. intros H. apply in_pop. split; [exact H|]. simpl. intros <-.
    apply in_get in Ef; [|apply (NoDup_app_r _ _ (ri_uuids s R))]. apply in_get in H; [congruence|apply (NoDup_app_r _ _ (ri_uuids s R))].
Qed.
Lemma stopped_other s v : rinv s -> v <> u -> (waits s -> waits (handle_stopped_heart s v)) /\ (is_in s -> is_in (handle_stopped_heart s v)).
Proof.
  intros R N. unfold handle_stopped_heart. destruct (get v (Hub_Model.hearts s)) as [j|] eqn:E; [|auto].
  destruct (get j (engines s)) as [w|] eqn:Ew; cbn [is_some]; [|auto].
  rewrite (ri_hearts s R) in E. apply get_in in E. apply in_map_iff in E as ([j' v'] & Ee & Hin). injection Ee as -> ->.
  unfold unregister_engine. rewrite Ew. unfold waits, is_in. cbn [engines incoming tell save_engine_state with_file with_reg with_timers]. split; [auto|].
  intros H. apply in_pop. split; [exact H|]. simpl. intros ->.
  apply in_get in Hin; [|apply (NoDup_app_l _ _ (ri_ids s R))]. apply in_get in H; [congruence|apply (NoDup_app_l _ _ (ri_ids s R))].
Qed.
Lemma register_keeps s v r : rinv s -> (waits s -> waits (register_engine s v r)) /\ (is_in s -> is_in (register_engine s v r)).
Proof.
  intros R. unfold register_engine, waits, is_in. destruct (new_engine_id s r) as [[s1 eid] c] eqn:E.
  destruct (new_id_spec _ _ _ _ _ E R) as (E1 & E2 & E3 & E4 & E5 & E6 & _).
  destruct (is_some (get v (by_ident s1))); cbn [engines incoming tell with_reg]; [rewrite E1, E2; auto|].
  destruct (is_some (get v (incoming s1))) eqn:F; cbn [engines incoming tell with_reg]; rewrite ?E1, ?E2; [auto|]. split; [|auto].
  intros H. apply set_keep; [exact H|]. simpl. intros ->. rewrite E2 in F. assert (is_some (get v (incoming s)) = true); [|congruence]. apply is_some_get. eapply in_fst, H.
Qed.

Definition keeps (s s' : Hub_Model.hub) : Prop := (waits s -> waits s' \/ is_in s') /\ (is_in s -> is_in s').
Lemma keeps_trans s s' s'' : keeps s s' -> keeps s' s'' -> keeps s s''.
Proof. unfold keeps. tauto. Qed.
Lemma rinv_new s v : rinv s -> rinv (handle_new_heart s v).
Proof. intros R. apply (rinv_step s (NewHeart v) R). discriminate. Qed.
Lemma rinv_stopped s v : rinv s -> rinv (handle_stopped_heart s v).
Proof. intros R. apply (rinv_step s (StoppedHeart v) R). discriminate. Qed.
Lemma news_keep hs : forall s, rinv s -> keeps s (fold_left handle_new_heart hs s) /\ rinv (fold_left handle_new_heart hs s) /\ (In u hs -> waits s \/ is_in s -> is_in (fold_left handle_new_heart hs s)).
Proof.
  induction hs as [|v hs IH]; intros s R; cbn [fold_left]; [unfold keeps; split; [tauto|]; split; [exact R|intros []]|].
  destruct (IH _ (rinv_new s v R)) as (K & R' & Hu).
  destruct (Nat.eq_dec v u) as [->|N].
  - assert (K0 : keeps s (handle_new_heart s u)) by (split; intros H; [right|]; apply new_one; auto).
    split; [apply (keeps_trans _ _ _ K0 K)|]. split; [exact R'|]. intros _ H. apply K, new_one; auto.
  - destruct (new_other s v R N) as [N1 N2]. assert (K0 : keeps s (handle_new_heart s v)) by (unfold keeps; tauto).
    split; [apply (keeps_trans _ _ _ K0 K)|]. split; [exact R'|]. intros [->|Hi] H; [congruence|]. apply Hu; [exact Hi|]. tauto.
Qed.
Lemma stops_keep hs : ~ In u hs -> forall s, rinv s -> keeps s (fold_left handle_stopped_heart hs s) /\ rinv (fold_left handle_stopped_heart hs s).
Proof.
  induction hs as [|v hs IH]; intros Hn s R; cbn [fold_left]; [unfold keeps; tauto|].
  destruct (IH ltac:(intros H; apply Hn; right; exact H) _ (rinv_stopped s v R)) as (K & R').
  destruct (stopped_other s v R ltac:(intros ->; apply Hn; left; reflexivity)) as [N1 N2].
  split; [|exact R']. apply (keeps_trans _ (handle_stopped_heart s v)); [unfold keeps; tauto|exact K].
Qed.
(** Messages that do not say that [u] has stopped *)
Definition kind (m : msg) : Prop := match m with StoppedHearts hs => ~ In u hs | _ => True end.
Definition announces (m : msg) : Prop := match m with NewHearts hs => In u hs | _ => False end.
Lemma handle_keep m s : kind m -> rinv s -> keeps s (handle s m) /\ rinv (handle s m) /\ (announces m -> waits s \/ is_in s -> is_in (handle s m)).
Proof.
  destruct m as [hs|hs]; simpl; intros Hk R; [apply news_keep; exact R|]. destruct (stops_keep hs Hk s R) as [K R']. split; [exact K|]. split; [exact R'|tauto].
Qed.
Lemma handle_all_keep ms : Forall kind ms -> forall s, rinv s -> keeps s (handle_all s ms) /\ rinv (handle_all s ms) /\ (Exists announces ms -> waits s \/ is_in s -> is_in (handle_all s ms)).
Proof.
  unfold handle_all. induction 1 as [|m ms Hm H IH]; intros s R; cbn [fold_left].
  - unfold keeps. split; [tauto|]. split; [exact R|]. intros Hx. inversion Hx.
  - destruct (handle_keep m s Hm R) as (K & R' & Ha). destruct (IH _ R') as (K2 & R2 & Ha2). split; [apply (keeps_trans _ _ _ K K2)|]. split; [exact R2|].
    intros Hx H0. inversion Hx as [? ? H1|? ? H1]; subst; [apply K2, Ha; auto|apply Ha2; [exact H1|]]. destruct K as [K1 K2']. destruct H0 as [H0|H0]; auto.
Qed.

(** From the moment on when its registration has been granted *)
Record on_way (es : list act) : Prop := {
  ow_kind : Forall kind (queue (exec es));
  ow_state : (waits (hub (exec es)) /\ (In u (Heart_Model.hearts (mon (exec es))) -> Exists announces (queue (exec es)))) \/ is_in (hub (exec es));
  ow_alive : (exists j, answered (rounds es) u j) -> In u (Heart_Model.hearts (mon (exec es))) }.

Definition ready (es : list act) (k : nat) : Prop := length (on_the_way max es) <= k /\ exists j, answered (rounds es) u j.
Lemma missed_end es r j k : missed (rounds es) u j k -> j < length (rounds es) -> missed (rounds es ++ [r]) u j k.
Proof. intros H L. apply Heart_Proofs.missed_app; auto. Qed.

Lemma on_way_step es e : inv es -> on_way es -> ~ interferes u i e (ready es) -> (forall j, j < length (rounds (es ++ [e])) -> ~ missed (rounds (es ++ [e])) u j (max + 1)) -> on_way (es ++ [e]).
Proof.
  intros [(ns & E) (V & G & HV) Hq] [Hk Hs Ha] Hi Hm. pose proof (g_reg _ _ _ G) as R. unfold ready, on_the_way in Hi.
  destruct (exec es) as [h m q] eqn:Ex. cbn [hub mon queue] in *. rewrite rounds_snoc in Hm.
  destruct e as [r| |v k| |e]; cbn [interferes] in Hi.
  - (* Beat *)
    destruct (Heart_Model.do_round max m r) as [m' n] eqn:Er. destruct (beat_tells _ _ _ _ _ _ E Er) as (Es & Hst & Hn).
    assert (Hns : ~ In u (Heart_Model.stopped_heart n)) by (rewrite Hst; apply Hm; rewrite app_length; simpl; lia).
    constructor; rewrite exec_snoc, Ex, ?rounds_snoc; cbn [Enrol_Model.step hub mon queue]; rewrite Er; cbn [hub mon queue].
    + apply Forall_app. split; [exact Hk|]. apply Forall_forall. intros x Hx. apply in_send in Hx as [[-> _]|[-> _]]; simpl; auto.
    + destruct Hs as [[Hw Hx]|Hs]; [left|right; exact Hs]. split; [exact Hw|]. rewrite (round_hearts _ _ _ _ _ Er). intros (_ & [Hu|Hu]).
      * apply Exists_app. right. apply Exists_exists. exists (NewHearts (Heart_Model.new_heart n)). split; [|exact Hu]. apply in_send. left. split; [reflexivity|]. intros H0. rewrite H0 in Hu. destruct Hu.
      * apply Exists_app. left. auto.
    + intros (j & Hj). pose proof (Heart_Proofs.answered_lt _ _ _ Hj) as L. rewrite app_length in L. simpl in L.
      destruct (Nat.eq_dec j (length (rounds es))) as [->|N].
      * apply (Heart_Props.C19_live _ _ _ _ Es). exists (length (rounds es)). rewrite app_length. simpl. split; [lia|exact Hj].
      * rewrite (round_hearts _ _ _ _ _ Er). split; [exact Hns|]. right. apply Ha. exists j. apply (Heart_Proofs.answered_fw _ r); [exact Hj|lia].
  - (* Deliver *)
    constructor; rewrite exec_snoc, Ex, ?rounds_snoc; cbn [Enrol_Model.step hub mon queue]; destruct q as [|m1 q]; cbn [hub mon queue]; auto.
    + inversion Hk; assumption.
    + inversion Hk as [|? ? H1 H2]; subst. destruct (handle_keep m1 h H1 R) as (K & _ & Han). destruct Hs as [[Hw Hx]|Hs]; [|right; apply K, Hs].
      destruct m1 as [hs|hs]; [destruct (in_dec Nat.eq_dec u hs) as [Hin|Hni]; [right; apply Han; auto|]|].
      1, 2: destruct K as [K _]; destruct (K Hw) as [K'|K']; [left; split; [exact K'|]|right; exact K']; intros Hu; specialize (Hx Hu);
        inversion Hx as [? ? Hx1|? ? Hx1]; subst; [simpl in Hx1; tauto|exact Hx1].
  - (* Timeout *)
    assert (Hk1 : Forall kind (firstn k q)) by (rewrite <- (firstn_skipn k q) in Hk; apply Forall_app in Hk; tauto).
    assert (Hk2 : Forall kind (skipn k q)) by (rewrite <- (firstn_skipn k q) in Hk; apply Forall_app in Hk; tauto).
    destruct (handle_all_keep _ Hk1 h R) as (K & R' & Han).
    constructor; rewrite exec_snoc, Ex, ?rounds_snoc; cbn [Enrol_Model.step]; unfold Enrol_Model.purge_stalled; cbn [hub mon queue]; auto.
    assert (Hp : forall s v', v' <> u -> (waits s -> waits (Hub_Model.purge_stalled s v')) /\ (is_in s -> is_in (Hub_Model.purge_stalled s v'))).
    { intros s v' N. unfold Hub_Model.purge_stalled. destruct (is_some _); [|auto]. unfold waits, is_in. cbn [incoming engines with_reg]. split; [|auto].
      intros H. apply in_pop. split; [exact H|]. simpl. congruence. }
    assert (Hp2 : forall s v', is_in s -> is_in (Hub_Model.purge_stalled s v')).
    { intros s v'. unfold Hub_Model.purge_stalled. destruct (is_some _); auto. }
    destruct Hs as [[Hw Hx]|Hs]; [|right; apply Hp2, K, Hs].
    destruct (Nat.eq_dec v u) as [->|N].
    + right. apply Hp2, Han; [|auto]. destruct (le_lt_dec (length q) k) as [L|L].
      * rewrite firstn_all2 by exact L. apply Hx. destruct (in_dec Nat.eq_dec u (Heart_Model.hearts m)) as [Hin|Hni]; [exact Hin|]. exfalso. apply Hi. split; [reflexivity|].
        intros (_ & Hj). apply Hni, Ha, Hj.
      * exfalso. apply Hi. split; [reflexivity|]. intros (L' & _). lia.
    + destruct (Exists_dec announces (firstn k q)) as [Hd|Hd]; [intros [hs|hs]; simpl; [apply in_dec, Nat.eq_dec|tauto]| |].
      * right. apply Hp; [exact N|]. apply Han; auto.
      * destruct K as [K _]. destruct (K Hw) as [K'|K']; [|right; apply Hp; auto]. left. split; [apply Hp; auto|]. intros Hu. specialize (Hx Hu).
        rewrite <- (firstn_skipn k q) in Hx. apply Exists_app in Hx as [Hx|Hx]; [contradiction|exact Hx].
  - tauto.
  - (* AtHub *)
    assert (K : forall e', e' = e -> is_message e' = true \/ (exists v r, e' = Register v r) \/ (exists j, e' = Unregister j) ->
       (waits h -> waits (Hub_Model.step h e')) /\ (is_in h -> is_in (Hub_Model.step h e'))).
    { intros e' Ee [H|[(v & r & H)|(j & H)]].
      - destruct (same_step h e' H) as (_ & E2 & E3 & _). unfold waits, is_in. rewrite E2, E3. auto.
      - subst e'. rewrite H. apply register_keeps, R.
      - subst e'. rewrite H in *. simpl in Hi. apply unregister_other; [exact R|]. intros ->. apply Hi. reflexivity. }
    constructor; rewrite exec_snoc, Ex, ?rounds_snoc; cbn [Enrol_Model.step].
    + destruct e; exact Hk.
    + destruct e; cbn [hub mon queue]; try exact Hs; (destruct Hs as [[Hw Hx]|Hs]; [left; split; [|exact Hx]|right]); (eapply K; [reflexivity|eauto|auto]).
    + destruct e; exact Ha.
Qed.
Lemma on_way_granted es r c : inv es -> told max (es ++ [AtHub (Register u r)]) = told max es ++ [Granted u i c] -> (forall j, ~ answered (rounds es) u j) ->
  on_way (es ++ [AtHub (Register u r)]).
Proof.
  intros [(ns & E) (V & G & HV) Hq] Ht Hf. unfold told in Ht. rewrite exec_snoc in Ht. destruct (exec es) as [h m q] eqn:Ex. cbn [hub mon queue] in *.
  cbn [Enrol_Model.step hub] in Ht.
  constructor; rewrite exec_snoc, Ex, ?rounds_snoc; cbn [Enrol_Model.step hub mon queue].
  - apply Forall_forall. intros x Hx. destruct x as [hs|hs]; simpl; [exact I|]. intros Hu. destruct (Hq _ _ Hx Hu) as (j & Hj). apply (Hf j Hj).
  - left. split.
    + cbn [Hub_Model.step] in Ht |- *. unfold register_engine, waits in *. destruct (new_engine_id h r) as [[s1 eid] c'] eqn:En.
      destruct (new_id_spec _ _ _ _ _ En (g_reg _ _ _ G)) as (E1 & E2 & E3 & E4 & E5 & E6 & _).
      destruct (is_some (get u (by_ident s1))); [|destruct (is_some (get u (incoming s1)))]; cbn [notices tell with_reg] in Ht; rewrite E6 in Ht; apply app_inj_tail in Ht as [_ Ht]; try discriminate.
      injection Ht as -> _. cbn [incoming tell with_reg]. apply get_in. apply get_set_same.
    + intros Hu. exfalso. apply (proj2 (Heart_Props.C19_live _ _ _ _ E)) in Hu as (j & _ & Hj). apply (Hf j Hj).
  - intros (j & Hj). destruct (Hf j Hj).
Qed.
End One.

Lemma rounds_prefix es post : ~ In Reboot post -> exists rest, rounds (es ++ post) = rounds es ++ rest.
Proof.
  induction post as [|e post IH] using rev_ind; intros Hn; [exists []; rewrite !app_nil_r; reflexivity|]. rewrite in_app_iff in Hn.
  destruct IH as (rest & Er); [tauto|]. rewrite app_assoc, rounds_snoc, Er.
  destruct e; eauto; [exists (rest ++ [r]); rewrite app_assoc; reflexivity|]. exfalso. apply Hn. right. left. reflexivity.
Qed.
Lemma missed_prefix rs rest u j k : missed rs u j k -> j < length rs -> missed (rs ++ rest) u j k.
Proof.
  intros H L. induction rest as [|r rest IH] using rev_ind; [rewrite app_nil_r; exact H|]. rewrite app_assoc. apply Heart_Proofs.missed_app; [rewrite app_length; lia|exact IH].
Qed.

(** Without a restart of the controller, the Hub does not speak of one. *)
Definition no_restart (s : Hub_Model.hub) : Prop := ~ In Restarted (notices s).
Lemma nr_tell s n : n <> Restarted -> no_restart s -> no_restart (tell s n).
Proof. unfold no_restart. cbn [notices tell]. rewrite in_app_iff. intros N H [H'|[H'|[]]]; auto. Qed.
Lemma nr_unregister s j : no_restart s -> no_restart (unregister_engine s j).
Proof.
  intros H. unfold unregister_engine. destruct (get j (engines s)); [apply nr_tell; [discriminate|exact H]|]. destruct (find _ _) as [[]|]; exact H.
Qed.
Lemma nr_new s v : no_restart s -> no_restart (handle_new_heart s v).
Proof.
  intros H. unfold handle_new_heart, finish_registration. destruct (get v (incoming s)); cbn [is_some]; [|exact H].
  unfold no_restart. cbn [notices save_engine_state with_file]. apply nr_tell; [discriminate|exact H].
Qed.
Lemma nr_stopped s v : no_restart s -> no_restart (handle_stopped_heart s v).
Proof. intros H. unfold handle_stopped_heart. destruct (get v _); [|exact H]. destruct (is_some _); [apply nr_unregister|]; exact H. Qed.
Lemma nr_handle s m : no_restart s -> no_restart (handle s m).
Proof.
  destruct m as [hs|hs]; simpl; revert s; induction hs as [|x hs IH]; intros s H; cbn [fold_left]; auto; apply IH; [apply nr_new|apply nr_stopped]; exact H.
Qed.
Lemma nr_register s v r : no_restart s -> no_restart (register_engine s v r).
Proof.
  intros H. unfold register_engine. destruct (new_engine_id s r) as [[s1 eid] c] eqn:E.
  assert (H1 : no_restart s1).
  { unfold new_engine_id in E. destruct r as [x|]; [destruct (is_some _); [|destruct (mem _ _)]|]; injection E as <- <- <-; exact H. }
  destruct (is_some _); [apply nr_tell; [discriminate|exact H1]|]. destruct (is_some _); [apply nr_tell; [discriminate|exact H1]|].
  unfold no_restart. cbn [notices with_reg]. apply nr_tell; [discriminate|exact H1].
Qed.
Lemma no_restart_told es : ~ In Reboot es -> ~ In Restarted (told max es).
Proof.
  induction es as [|e es IH] using rev_ind; intros Hn; [intros []|]. rewrite in_app_iff in Hn. assert (H : no_restart (hub (exec es))) by (apply IH; tauto).
  unfold told. rewrite exec_snoc. fold (no_restart (hub (Enrol_Model.step max (exec es) e))). destruct e as [r| |v k| |e]; cbn [Enrol_Model.step].
  - destruct (Heart_Model.do_round _ _ _). exact H.
  - destruct (queue (exec es)); [exact H|]. apply nr_handle, H.
  - unfold Enrol_Model.purge_stalled. cbn [hub]. assert (H' : no_restart (handle_all (hub (exec es)) (firstn k (queue (exec es))))).
    { revert H. generalize (hub (exec es)), (firstn k (queue (exec es))). intros s ms. revert s. induction ms as [|m ms IHm]; intros s H; [exact H|]. apply IHm, nr_handle, H. }
    unfold Hub_Model.purge_stalled. destruct (is_some _); exact H'.
  - exfalso. apply Hn. right. left. reflexivity.
  - destruct e; cbn [hub]; try exact H.
    1: apply nr_register, H.
    1: apply nr_unregister, H.
    all: match goal with |- no_restart (Hub_Model.step _ ?e) => destruct (same_step (hub (exec es)) e eq_refl) as (_ & _ & _ & _ & _ & _ & E7); unfold no_restart; rewrite E7; exact H end.
Qed.
End S.
