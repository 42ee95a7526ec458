(** The client's side: every reply is true, the client's history is genuine. *)
From stdpp Require Import base gmap sets list.
From Verif Require Import Dependency_Model Sched_Trace Sched_Spec Sched_Model Sched_Env Sched_Base Sched_Load Sched_Once Sched_Strand Sched_Idle_Inv.
From Verif Require Import Sys_Model Sys_Log Sys_Trace Sys_Core Sys_Hist.
From Verif Require Client_Model Client_Spec Client_Proofs Client_Props.
From Coq Require Import ZArith Lia.

Notation cevent := Client_Model.event.
Definition ann_ev (l : list cevent) : list (bool * nat) :=
  omap (fun x => match x with Client_Model.Register e _ => Some (true, e) | Client_Model.Unregister e => Some (false, e) | _ => None end) l.
Definition received (l : list cevent) : list (nat * Client_Model.reply) :=
  omap (fun x => match x with Client_Model.Reply _ (Client_Model.Plain m) _ r => Some (m, r) | _ => None end) l.

Definition true_reply (s : sys) (m : nat) (r : Client_Model.reply) : Prop :=
  match r with
  | Client_Model.ROk v => exists e, (m, e, Returned v) ∈ ended s /\ ObsReply m (FromEngine e true) ∈ log s
  | Client_Model.RError (Client_Model.Failure c) _ =>
      (exists e x, c = exception x /\ (m, e, Raised x) ∈ ended s /\ ObsReply m (FromEngine e false) ∈ log s) \/
      (exists w, c = code w /\ ObsReply m (Unreachable w) ∈ log s)
  | Client_Model.RError (Client_Model.EngineDied e) _ => e ∈ dead s /\ ObsReply m (FromEngine e false) ∈ log s
  | Client_Model.RAborted => exists e, (m, e, Aborted) ∈ ended s /\ ObsReply m (FromEngine e false) ∈ log s
  | _ => False
  end.
Lemma true_reply_mono s s' m r : (forall x, x ∈ ended s -> x ∈ ended s') -> (forall x, x ∈ dead s -> x ∈ dead s') -> (forall x, x ∈ log s -> x ∈ log s') ->
  true_reply s m r -> true_reply s' m r.
Proof.
  intros A B D. destruct r as [v| |[]| |]; cbn; auto.
  - intros (e & X & Y). eauto.
  - intros [(e' & x & X & Y & Z)|(w & X & Y)]; [left|right]; eauto 10.
  - intros (X & Y). auto.
  - intros (e & X & Y). eauto.
Qed.

(** ** One client: [own] are the tasks it submitted *)
Record client_ok (ev : list cevent) (own : nat -> Prop) : Prop := ClientOk {
  k_genuine : Client_Spec.genuine ev;
  k_tasks : forall m, m ∈ Client_Spec.tasks (Client_Spec.seen ev) <-> exists n, own n /\ m = Client_Model.Plain n;
  k_requests : Client_Spec.requests (Client_Spec.seen ev) = ∅;
  k_out : forall m, m ∈ Client_Spec.out (Client_Spec.seen ev) <-> exists n, own n /\ m = Client_Model.Plain n /\ n ∉ (received ev).*1;
  k_route : forall m, Client_Spec.routes (Client_Spec.seen ev) m = [];
  k_live : forall e u, Client_Spec.live (Client_Spec.seen ev) !! e = Some u -> u = e /\ (true, e) ∈ ann_ev ev;
  k_res : forall n r, Client_Spec.res (Client_Spec.seen ev) !! Client_Model.Plain n = Some r <-> exists x, (n, x) ∈ received ev /\ Client_Spec.outcome x = Some r }.

Lemma client_new : client_ok [] (fun _ => False).
Proof.
  split; cbn; try reflexivity; try exact I.
  - intros m. split; [intros H; apply elem_of_empty in H as []|intros (n & [] & _)].
  - intros m. split; [intros H; apply elem_of_empty in H as []|intros (n & [] & _)].
  - intros e u H. rewrite lookup_empty in H. discriminate.
  - intros n r. rewrite lookup_empty. split; [discriminate|]. intros (x & X & _). inversion X.
Qed.
Lemma client_same ev (own own' : nat -> Prop) : (forall n, own' n <-> own n) -> client_ok ev own -> client_ok ev own'.
Proof.
  intros E [K1 K2 K3 K4 K5 K6 K7]. split; try assumption.
  - intros m. rewrite K2. split; intros (n & A & B); exists n; (split; [apply E; exact A|exact B]).
  - intros m. rewrite K4. split; intros (n & A & B); exists n; (split; [apply E; exact A|exact B]).
Qed.
Lemma client_send ev (own own' : nat -> Prop) n : client_ok ev own -> ~ own n -> n ∉ (received ev).*1 -> (forall x, own' x <-> own x \/ x = n) ->
  client_ok (ev ++ [Client_Model.Send (Client_Model.Plain n) None]) own'.
Proof.
  intros [K1 K2 K3 K4 K5 K6 K7] Hn Hfresh E.
  assert (Eann : ann_ev (ev ++ [Client_Model.Send (Client_Model.Plain n) None]) = ann_ev ev) by (unfold ann_ev; rewrite omap_app; cbn; apply app_nil_r).
  assert (Erec : received (ev ++ [Client_Model.Send (Client_Model.Plain n) None]) = received ev) by (unfold received; rewrite omap_app; cbn; apply app_nil_r).
  split; rewrite ?Eann, ?Erec.
  - apply Client_Props.genuine_app. split; [exact K1|]. fold (Client_Spec.seen ev). cbn. split; [|exact I].
    exists n. split; [reflexivity|]. unfold Client_Spec.fresh, Client_Spec.used. rewrite K3. split; [|intros u]; rewrite elem_of_union, K2; intros [(x & A & B)|A]; try (apply elem_of_empty in A as []); [|discriminate B].
    injection B as <-. contradiction.
  - intros m. rewrite Client_Props.seen_app. cbn. rewrite elem_of_union, elem_of_singleton, K2. split.
    + intros [->|(x & A & B)]; [exists n|exists x]; (split; [apply E; auto|auto]).
    + intros (x & A & B). apply E in A as [A| ->]; [right; eauto|left; exact B].
  - rewrite Client_Props.seen_app. cbn. exact K3.
  - intros m. rewrite Client_Props.seen_app. cbn. rewrite elem_of_union, elem_of_singleton, K4. split.
    + intros [->|(x & A & B & D)]; [exists n|exists x]; (split; [apply E; auto|auto]).
    + intros (x & A & B & D). apply E in A as [A| ->]; [right; eauto|left; exact B].
  - intros m. rewrite Client_Props.seen_app. cbn. unfold Client_Spec.routes, Client_Spec.issued. cbn [Client_Spec.route]. destruct (decide (m = Client_Model.Plain n)) as [->|Hne].
    + rewrite lookup_insert. reflexivity.
    + rewrite lookup_insert_ne by congruence. apply K5.
  - intros e u. rewrite Client_Props.seen_app. cbn. apply K6.
  - intros x r. rewrite Client_Props.seen_app. cbn. apply K7.
Qed.
Lemma client_reply ev (own : nat -> Prop) m us r : client_ok ev own -> own m -> m ∉ (received ev).*1 -> (exists y, Client_Spec.outcome r = Some y) ->
  client_ok (ev ++ [Client_Model.Reply false (Client_Model.Plain m) us r]) own.
Proof.
  intros [K1 K2 K3 K4 K5 K6 K7] Hm Hnew [y Hy].
  assert (Hout : Client_Model.Plain m ∈ Client_Spec.out (Client_Spec.seen ev)) by (apply K4; eauto).
  set (x := Client_Model.Reply false (Client_Model.Plain m) us r) in *.
  assert (Eann : ann_ev (ev ++ [x]) = ann_ev ev) by (unfold ann_ev; rewrite omap_app; cbn; apply app_nil_r).
  assert (Erec : received (ev ++ [x]) = received ev ++ [(m, r)]) by (unfold received; rewrite omap_app; reflexivity).
  assert (Eseen : Client_Spec.seen (ev ++ [x]) = Client_Spec.answered (Client_Model.Plain m) (Client_Spec.outcome r) (Client_Spec.seen ev)).
  { rewrite Client_Props.seen_app. cbn [fold_left Client_Spec.happens x]. rewrite bool_decide_eq_true_2 by exact Hout. reflexivity. }
  split; rewrite ?Eann, ?Erec, ?Eseen; try assumption.
  - apply Client_Props.genuine_app. split; [exact K1|]. fold (Client_Spec.seen ev). split; [|exact I]. cbn [Client_Spec.may x].
    split; [apply K2; eauto|]. split; [left; exact Hout|]. intros _ u Hu. rewrite K5 in Hu. inversion Hu.
  - intros m'. cbn [Client_Spec.answered Client_Spec.out]. rewrite elem_of_difference, elem_of_singleton, K4, fmap_app. split.
    + intros [(n & A & B & D) Hne]. exists n. split; [exact A|]. split; [exact B|]. rewrite elem_of_app. cbn. rewrite elem_of_list_singleton. intros [?|?]; [contradiction|]. congruence.
    + intros (n & A & B & D). rewrite elem_of_app in D. cbn in D. rewrite elem_of_list_singleton in D. split; [exists n; tauto|]. intros ->. injection B as ->. tauto.
  - intros n r'. cbn [Client_Spec.answered Client_Spec.res]. rewrite Hy.
    destruct (decide (n = m)) as [->|Hne].
    + rewrite lookup_insert. split.
      * intros [= <-]. exists r. split; [apply elem_of_app; right; left|exact Hy].
      * intros (x' & X & Y). apply elem_of_app in X as [X|X]; [exfalso; apply Hnew, elem_of_list_fmap; exists (m, x'); auto|]. apply elem_of_list_singleton in X as [= ->]. congruence.
    + rewrite lookup_insert_ne by congruence. rewrite K7. split; intros (x' & X & Y); exists x'; (split; [|exact Y]).
      * apply elem_of_app. auto.
      * apply elem_of_app in X as [X|X]; [exact X|]. apply elem_of_list_singleton in X as [= -> ->]. contradiction.
Qed.
Lemma client_register ev (own : nat -> Prop) e : client_ok ev own -> (true, e) ∉ ann_ev ev -> client_ok (ev ++ [Client_Model.Register e e]) own.
Proof.
  intros [K1 K2 K3 K4 K5 K6 K7] Hnew. set (x := Client_Model.Register e e) in *.
  assert (Eann : ann_ev (ev ++ [x]) = ann_ev ev ++ [(true, e)]) by (unfold ann_ev; rewrite omap_app; reflexivity).
  assert (Erec : received (ev ++ [x]) = received ev) by (unfold received; rewrite omap_app; cbn; apply app_nil_r).
  split; rewrite ?Eann, ?Erec, ?Client_Props.seen_app; cbn [fold_left Client_Spec.happens x]; try assumption.
  - apply Client_Props.genuine_app. split; [exact K1|]. fold (Client_Spec.seen ev). split; [|exact I]. cbn [Client_Spec.may]. right. split.
    + destruct (Client_Spec.live _ !! e) as [u|] eqn:L; [|reflexivity]. apply K6 in L. tauto.
    + intros e' L. apply K6 in L as [-> L]. contradiction.
  - intros e' u. cbn [Client_Spec.live]. rewrite lookup_insert_Some, elem_of_app, elem_of_list_singleton. intros [[-> ->]|[_ L]]; [auto|]. apply K6 in L. tauto.
Qed.
Lemma client_unregister ev (own : nat -> Prop) e : client_ok ev own -> client_ok (ev ++ [Client_Model.Unregister e]) own.
Proof.
  intros [K1 K2 K3 K4 K5 K6 K7]. set (x := Client_Model.Unregister e) in *.
  assert (Eann : ann_ev (ev ++ [x]) = ann_ev ev ++ [(false, e)]) by (unfold ann_ev; rewrite omap_app; reflexivity).
  assert (Erec : received (ev ++ [x]) = received ev) by (unfold received; rewrite omap_app; cbn; apply app_nil_r).
  assert (Hseen : let w := Client_Spec.seen ev in let w' := Client_Spec.seen (ev ++ [x]) in
    Client_Spec.tasks w' = Client_Spec.tasks w /\ Client_Spec.requests w' = Client_Spec.requests w /\ Client_Spec.out w' = Client_Spec.out w /\
    Client_Spec.route w' = Client_Spec.route w /\ Client_Spec.res w' = Client_Spec.res w /\ forall e' u, Client_Spec.live w' !! e' = Some u -> Client_Spec.live w !! e' = Some u).
  { cbv zeta. rewrite Client_Props.seen_app. cbn [fold_left Client_Spec.happens x]. destruct (Client_Spec.live _ !! e) as [u|] eqn:L; [|auto 10].
    cbn [Client_Spec.tasks Client_Spec.requests Client_Spec.out Client_Spec.route Client_Spec.res Client_Spec.live].
    assert (F : filter (fun m => u ∈ Client_Spec.routes (Client_Spec.seen ev) m) (Client_Spec.out (Client_Spec.seen ev)) = ∅).
    { apply set_eq. intros y. rewrite elem_of_filter, K5. split; [intros [X _]; inversion X|intros X; apply elem_of_empty in X as []]. }
    rewrite F, gset_to_gmap_empty, difference_empty_L, (left_id_L ∅ (∪)). repeat (split; [reflexivity|]). intros e' u'. rewrite lookup_delete_Some. tauto. }
  cbv zeta in Hseen. destruct Hseen as (S1 & S2 & S3 & S4 & S5 & S6).
  split; rewrite ?Eann, ?Erec, ?S1, ?S2, ?S3, ?S5; try assumption.
  - apply Client_Props.genuine_app. split; [exact K1|]. split; exact I.
  - intros m. unfold Client_Spec.routes. rewrite S4. apply K5.
  - intros e' u L. apply S6, K6 in L. rewrite elem_of_app. tauto.
Qed.

(** ** What is for a client *)
Lemma for_client_app {A} c (l l' : list (nat * A)) : for_client c (l ++ l') = for_client c l ++ for_client c l'.
Proof. apply omap_app. Qed.
Lemma for_client_cons {A} c (x : nat * A) l : for_client c (x :: l) = (if decide (fst x = c) then [snd x] else []) ++ for_client c l.
Proof. unfold for_client. cbn [omap list_omap]. destruct (decide _); reflexivity. Qed.
Lemma for_client_none {A} c (l : list (nat * A)) : (forall a, (c, a) ∉ l) -> for_client c l = [].
Proof.
  induction l as [|[c' a] l IH]; intros H; [reflexivity|]. rewrite for_client_cons. cbn [fst snd]. destruct (decide (c' = c)) as [->|]; [exfalso; apply (H a); left|].
  apply IH. intros b X. apply (H b). right. exact X.
Qed.
Lemma for_client_elem {A} c (l : list (nat * A)) a : a ∈ for_client c l <-> (c, a) ∈ l.
Proof.
  unfold for_client. rewrite elem_of_list_omap. split.
  - intros ([c' b] & X & Y). cbn in Y. destruct (decide (c' = c)) as [->|]; [|discriminate]. injection Y as ->. exact X.
  - intros X. exists (c, a). split; [exact X|]. cbn. rewrite decide_True by reflexivity. reflexivity.
Qed.
Lemma for_client_all {A} c (l : list nat) (a : A) : NoDup l -> for_client c (map (fun c => (c, a)) l) = if decide (c ∈ l) then [a] else [].
Proof.
  induction l as [|x l IH]; intros N; [destruct (decide _) as [X|]; [inversion X|reflexivity]|]. apply NoDup_cons in N as [N1 N2]. cbn [map]. rewrite for_client_cons, (IH N2). cbn [fst snd].
  destruct (decide (x = c)) as [->|Hne]; [rewrite decide_False by exact N1; rewrite decide_True by left; reflexivity|].
  destruct (decide (c ∈ l)) as [Y|Y]; [rewrite decide_True by (right; exact Y)|rewrite decide_False by (rewrite elem_of_cons; intros [?|?]; [congruence|contradiction])]; reflexivity.
Qed.
Lemma for_client_one {A B} c c' (f : B -> A) (l : list B) : for_client c' (map (fun e => (c, f e)) l) = if decide (c = c') then map f l else [].
Proof.
  induction l as [|x l IH]; [destruct (decide _); reflexivity|]. cbn [map]. rewrite for_client_cons, IH. cbn [fst snd]. destruct (decide (c = c')); reflexivity.
Qed.

Section Client.
Context (scheme : nat -> list Z -> nat) (allowed : sys -> nat -> taskmd -> Prop).
Notation sreach := (Sched_Base.reachable 1 scheme genuine).

(** the announcements for one client: no more than there are, each once *)
Definition informed (H : list (bool * nat)) (conn noticed : list nat) : Prop :=
  NoDup H /\ (forall e, (true, e) ∈ H -> e ∈ conn) /\ (forall e, (false, e) ∈ H -> e ∈ noticed).
Lemma informed_mono H conn noticed conn' noticed' : (forall e, e ∈ conn -> e ∈ conn') -> (forall e, e ∈ noticed -> e ∈ noticed') -> informed H conn noticed -> informed H conn' noticed'.
Proof. intros A B (C & D & E). split; [exact C|]. split; auto. Qed.

Record told (s : sys) : Prop := Told {
  v_joined : NoDup (joined s);
  v_hub : forall c, informed (ann_ev (events_of c s) ++ for_client c (hub_c s)) (connected s) (noticed s);
  v_new : forall c, c ∉ joined s -> events_of c s = [] /\ for_client c (hub_c s) = [];
  v_replies : forall c, filter (mine s c) (replied (log s)) = (received (events_of c s)).*1 ++ filter (mine s c) (replies s).*1;
  v_true : forall m r, (m, r) ∈ replies s \/ (exists c, (m, r) ∈ received (events_of c s)) -> true_reply s m r;
  v_client : forall c, client_ok (events_of c s) (mine s c) }.

Lemma told_start : told start.
Proof.
  split; cbn.
  - constructor.
  - intros c. split; [constructor|]. split; intros e H; inversion H.
  - auto.
  - reflexivity.
  - intros m r [H|[c H]]; inversion H.
  - intros c. eapply client_same; [|apply client_new]. intros n. split; [discriminate|intros []].
Qed.

(** The scheduler handles an event. *)
Lemma told_sched s s' o u :
  told s -> events s' = events s -> owners s' = owners s -> joined s' = joined s -> hub_c s' = hub_c s -> log s' = log s ++ u -> replies s' = replies s ++ to_client o u ->
  connected s' = connected s -> noticed s' = noticed s -> ended s' = ended s -> dead s' = dead s ->
  (forall m r, ObsReply m r ∈ u -> true_reply s' m (content o r)) -> told s'.
Proof.
  intros [V1 V2 V3 V4 V5 V6] E1 E2 Ej E3 E4 E5 Ec En E7 E8 Ht. split; unfold events_of, client_of in *; rewrite ?E1, ?E2, ?E3, ?Ej, ?Ec, ?En; try assumption.
  - intros c. rewrite E4, E5, replied_app, fmap_app, to_client_fst, !filter_app, app_assoc, V4. reflexivity.
  - rewrite E5. intros m r [X|X].
    + apply elem_of_app in X as [X|X]; [|apply to_client_elem in X as (r' & -> & X); apply Ht, X].
      eapply true_reply_mono; [| | |apply V5; left; exact X]; [rewrite E7; auto|rewrite E8; auto|rewrite E4; intros x Hx; apply elem_of_app; auto].
    + eapply true_reply_mono; [| | |apply V5; right; exact X]; [rewrite E7; auto|rewrite E8; auto|rewrite E4; intros x Hx; apply elem_of_app; auto].
Qed.
Lemma own_true s m r o w : r = Unreachable w -> ObsReply m r ∈ log s -> true_reply s m (content o r).
Proof. intros ->. cbn. eauto. Qed.
Lemma own_replies s u o : Forall own u -> (forall x, x ∈ u -> x ∈ log s) -> forall m r, ObsReply m r ∈ u -> true_reply s m (content o r).
Proof.
  intros Hu Hl m r Hx. rewrite Forall_forall in Hu. pose proof (Hu _ Hx) as Ho. destruct r as [|w]; [destruct Ho|]. apply (own_true s m _ o w eq_refl). apply Hl, Hx.
Qed.

Lemma replied_known s m : core scheme s -> m ∈ replied (log s) -> m < next_id s.
Proof.
  intros C X. apply replied_elem in X as [r' X'].
  assert (Hsub : submitted (log s) m).
  { apply phase_submitted; [apply (sreach_sound scheme), C|]. rewrite (reply_replied _ _ r'); [discriminate|apply (sreach_sound scheme), C|exact X']. }
  apply submits_elem in Hsub. apply (ids_lt scheme s m C), elem_of_app. auto.
Qed.
Lemma received_own s c m : told s -> m ∈ (received (events_of c s)).*1 -> m ∈ replied (log s) /\ client_of s m = Some c.
Proof.
  intros V X. assert (Y : m ∈ filter (mine s c) (replied (log s))) by (rewrite (v_replies _ V c); apply elem_of_app; auto). apply elem_of_list_filter in Y as [A B]. split; [exact B|exact A].
Qed.
Lemma true_logged s m r : true_reply s m r -> exists r', ObsReply m r' ∈ log s.
Proof.
  destruct r as [v| |[v|c|e|] b| |]; cbn; intros H; try (destruct H; fail).
  - destruct H as (e & _ & X). eauto.
  - destruct H as [(e & x & _ & _ & X)|(w & _ & X)]; eauto.
  - destruct H as (_ & X). eauto.
  - destruct H as (e & _ & X). eauto.
Qed.

Lemma told_ext s s' : core scheme s -> history s -> told s -> external scheme allowed s s' -> told s'.
Proof.
  intros C Hi V St. destruct St as [s c md Hj Ha|s c Hj|s e He|s e He Hd|s e m o l1 l2 He E Hlast|s j tid sc St].
  - pose proof V as [V1 V2 V3 V4 V5 V6]. set (x := Client_Model.Send (Client_Model.Plain (next_id s)) None) in *. set (s' := Sys _ _ _ _ _ _ _ _ _ _ _ _ _ _ _ _ _ _).
    assert (Ev : forall c', events_of c' s' = events_of c' s ++ if decide (c = c') then [x] else []).
    { intros c'. unfold events_of, s'. cbn [events]. rewrite for_client_app, for_client_cons, app_nil_r. reflexivity. }
    assert (Eann : forall c', ann_ev (events_of c' s') = ann_ev (events_of c' s)).
    { intros c'. rewrite Ev. unfold ann_ev. rewrite omap_app. destruct (decide _); apply app_nil_r. }
    assert (Erec : forall c', received (events_of c' s') = received (events_of c' s)).
    { intros c'. rewrite Ev. unfold received. rewrite omap_app. destruct (decide _); apply app_nil_r. }
    assert (Ow : forall m, client_of s' m = if decide (m = next_id s) then Some c else client_of s m).
    { intros m. unfold client_of, s'. cbn [owners]. rewrite <- (c_owners _ _ C). destruct (decide (m = length (owners s))) as [->|N]; [apply list_lookup_middle; reflexivity|].
      destruct (decide (m < length (owners s))); [apply lookup_app_l; assumption|]. rewrite !lookup_ge_None_2; [reflexivity|lia|rewrite app_length; cbn; lia]. }
    assert (Hno : client_of s (next_id s) = None) by (unfold client_of; apply lookup_ge_None_2; rewrite (c_owners _ _ C); lia).
    assert (Hfresh : forall c', next_id s ∉ (received (events_of c' s)).*1).
    { intros c' X. apply (received_own s c' _ V) in X as [X _]. apply (replied_known s _ C) in X. lia. }
    split.
    + exact V1.
    + intros c'. rewrite Eann. exact (V2 c').
    + intros c' Hc'. destruct (V3 c' Hc') as [A B]. split; [|exact B]. rewrite Ev, A, decide_False; [reflexivity|]. intros ->. contradiction.
    + intros c'. rewrite Erec. etransitivity; [|etransitivity; [exact (V4 c')|f_equal]].
      * apply filter_cong. intros m Hm. rewrite Ow, decide_False; [reflexivity|]. apply (replied_known s m C) in Hm. lia.
      * apply filter_cong. intros m Hm. rewrite Ow. destruct (decide _) as [->|]; [|reflexivity]. exfalso.
        apply elem_of_list_fmap in Hm as ([m0 r0] & Em & Hm). cbn in Em. subst m0. destruct (true_logged s _ _ (V5 _ _ (or_introl Hm))) as [r1 Y].
        assert (Z : next_id s ∈ replied (log s)) by (apply replied_elem; eauto). apply (replied_known s _ C) in Z. lia.
    + intros m r X. eapply true_reply_mono with (s := s); auto. apply V5. destruct X as [X|[c' X]]; [left; exact X|right; exists c'; rewrite Erec in X; exact X].
    + intros c'. rewrite Ev. destruct (decide (c = c')) as [<-|N].
      * eapply client_send; [apply V6| |apply Hfresh|].
        -- cbn. rewrite Hno. discriminate.
        -- intros m. cbn. rewrite Ow. destruct (decide _) as [->|]; [rewrite Hno; split; auto|]. split; [auto|intros [?|?]; [assumption|contradiction]].
      * rewrite app_nil_r. eapply client_same; [|apply V6]. intros m. cbn. rewrite Ow. destruct (decide _) as [->|]; [rewrite Hno; split; [congruence|discriminate]|reflexivity].
  - destruct V as [V1 V2 V3 V4 V5 V6]. destruct (V3 c Hj) as [N1 N2]. split; try assumption; cbn [joined hub_c connected noticed].
    + constructor; assumption.
    + intros c'. rewrite for_client_app, for_client_one. destruct (decide (c = c')) as [<-|N]; [|rewrite app_nil_r; apply V2].
      change (events_of c _) with (events_of c s). rewrite N1, N2. cbn [ann_ev omap list_omap app]. split; [|split].
      * apply (NoDup_fmap_2 (pair true)), NoDup_filter, C.
      * intros e X. apply elem_of_list_fmap in X as (e' & [= <-] & X). apply elem_of_list_filter in X. tauto.
      * intros e X. apply elem_of_list_fmap in X as (e' & ? & X). discriminate.
    + intros c' X. rewrite elem_of_cons in X. rewrite for_client_app, for_client_one, decide_False by (intros ->; tauto). rewrite app_nil_r. apply V3. tauto.
  - destruct V as [V1 V2 V3 V4 V5 V6]. split; try assumption; cbn [joined hub_c connected noticed].
    + intros c. rewrite for_client_app. unfold to_all. rewrite (for_client_all c (joined s) _ V1). change (events_of c _) with (events_of c s).
      destruct (V2 c) as (A & B & D). destruct (decide (c ∈ joined s)) as [_|_].
      * rewrite app_assoc. split; [|split].
        -- apply NoDup_app. split; [exact A|]. split; [|apply NoDup_singleton]. intros x X Y. apply elem_of_list_singleton in Y as ->. apply B in X. contradiction.
        -- intros e' X. apply elem_of_app in X as [X|X]; [right; auto|]. apply elem_of_list_singleton in X as [= ->]. left.
        -- intros e' X. apply elem_of_app in X as [X|X]; [auto|]. apply elem_of_list_singleton in X. discriminate.
      * rewrite app_nil_r. eapply informed_mono; [..|exact (V2 c)]; [intros; right; assumption|auto].
    + intros c Hc. rewrite for_client_app. unfold to_all. rewrite (for_client_all c (joined s) _ V1), decide_False, app_nil_r by exact Hc. apply V3, Hc.
  - destruct V as [V1 V2 V3 V4 V5 V6]. split; try assumption.
    intros m r X. eapply true_reply_mono; [..|apply V5, X]; auto. cbn. intros x Hx. right. exact Hx.
  - destruct V as [V1 V2 V3 V4 V5 V6]. split; assumption.
  - destruct (timeout_log scheme s j tid sc C St) as (R & _ & u & El & Es & Hu). eapply told_sched with (o := None) (u := u); [exact V|reflexivity|reflexivity|reflexivity|reflexivity| | |reflexivity|reflexivity|reflexivity|reflexivity|].
    + exact El.
    + unfold after_sched. cbn [replies]. rewrite Es. reflexivity.
    + apply own_replies; [exact Hu|]. intros x Hx. unfold log, after_sched. cbn [sch]. rewrite El. apply elem_of_app. auto.
Qed.

Lemma told_int s s' : core scheme s -> history s -> told s -> internal scheme s s' -> told s'.
Proof.
  intros C Hi V St. destruct St as [s m md l1 l2 sc E Hfst St|s e m o l1 l2 sc E Hfst St|s a l sc E St|s e sc Hin Hno St|s e m l1 l2 He Hd E Hfst Hb|s e m l1 l2 He Hd E Hfst Hb|s e m o l1 l2 E Ho|s e He Hn|s c m r l1 l2 us Hc E Hfst|s c a l1 l2 E Hfst].
  - destruct (submit_log scheme s m md l1 l2 sc C E St) as (R & _ & u & El & Es & Hu). eapply told_sched with (o := None) (u := ObsSubmit m md :: u); [exact V|reflexivity|reflexivity|reflexivity|reflexivity| | |reflexivity|reflexivity|reflexivity|reflexivity|].
    + exact El.
    + unfold set_to_sched, after_sched. cbn [replies]. rewrite Es. reflexivity.
    + intros m' r X. apply elem_of_cons in X as [X|X]; [discriminate|]. revert m' r X. apply own_replies; [exact Hu|]. intros x Hx. unfold log, set_to_sched, after_sched. cbn [sch]. rewrite El. apply elem_of_app. right. right. exact Hx.
  - destruct (result_log scheme s e m o l1 l2 sc C E St) as (R & _ & u & El & Es & Hu).
    assert (Ho : (m, e, o) ∈ ended s) by (apply (y_out _ _ _ _ _ _ _ Hi); rewrite E; apply elem_of_app; right; left).
    assert (Ha : ann u = []).
    { clear - Hu. induction u as [|x u IH]; [auto|]. apply Forall_cons in Hu as [Hx Hu]. rewrite <- (IH Hu). destruct Hx as [Hx|[_ ->]]; [destruct x; try destruct Hx|]; auto. }
    eapply told_sched with (o := Some o) (u := ObsResult m e (kind_of o) :: u); [exact V|reflexivity|reflexivity|reflexivity|reflexivity| | |reflexivity|reflexivity|reflexivity|reflexivity|].
    + exact El.
    + unfold set_outbox, after_sched. cbn [replies]. rewrite Es. reflexivity.
    + intros m' r X. apply elem_of_cons in X as [X|X]; [discriminate|]. rewrite Forall_forall in Hu.
      assert (Hl : ObsReply m' r ∈ s_log sc) by (rewrite El; apply elem_of_app; right; right; exact X).
      destruct (Hu _ X) as [Hx|[Hk Hx]]; [destruct r as [|w]; [destruct Hx|]; (apply (own_true _ m' _ (Some o) w eq_refl); exact Hl)|].
      injection Hx as -> ->. destruct o as [v|x| |]; cbn [content message kind_of okb true_reply] in *; unfold log, set_outbox, after_sched; cbn [sch ended].
      * exists e. auto.
      * left. exists e, x. auto.
      * exfalso. apply Hk. reflexivity.
      * exists e. auto.
  - destruct a as [[] e]; cbn [announcement fst snd] in St.
    + destruct (register_log scheme s e l sc C E St) as (R & _ & u & El & Es & Hu). eapply told_sched with (o := None) (u := ObsRegister e :: u); [exact V|reflexivity|reflexivity|reflexivity|reflexivity| | |reflexivity|reflexivity|reflexivity|reflexivity|].
      * exact El.
      * unfold set_hub_s, after_sched. cbn [replies]. rewrite Es. reflexivity.
      * intros m' r X. apply elem_of_cons in X as [X|X]; [discriminate|]. revert m' r X. apply own_replies; [exact Hu|]. intros x Hx. unfold log, set_hub_s, after_sched. cbn [sch]. rewrite El. apply elem_of_app. right. right. exact Hx.
    + destruct (unregister_log scheme s e sc C St) as (R & _ & El & Es). eapply told_sched with (o := None) (u := [ObsUnregister e]); [exact V|reflexivity|reflexivity|reflexivity|reflexivity| | |reflexivity|reflexivity|reflexivity|reflexivity|].
      * exact El.
      * unfold set_hub_s, after_sched. cbn [replies]. rewrite Es. reflexivity.
      * intros m' r X. apply elem_of_list_singleton in X. discriminate.
  - destruct (strand_log scheme s e sc C Hin St) as (R & _ & (u & El & Es & Hu & _) & _). destruct (dead_unregistered scheme s e C Hin) as [_ Hdead].
    apply (c_nd _ _ C) in Hdead.
    assert (Ha : ann u = []).
    { clear - Hu. induction u as [|x u IH]; [auto|]. apply Forall_cons in Hu as [Hx Hu]. rewrite <- (IH Hu). destruct Hx as [Hx|[[m ->]|[m ->]]]; [destruct x; try destruct Hx|..]; auto. }
    eapply told_sched with (o := None) (u := u); [exact V|reflexivity|reflexivity|reflexivity|reflexivity| | |reflexivity|reflexivity|reflexivity|reflexivity|].
    + exact El.
    + unfold forget, after_sched. cbn [replies]. rewrite Es. reflexivity.
    + intros m r X. rewrite Forall_forall in Hu. assert (Hl : ObsReply m r ∈ s_log sc) by (rewrite El; apply elem_of_app; right; exact X).
      destruct (Hu _ X) as [Hx|[[m2 Y]|[m2 Y]]]; [destruct r as [|w]; [destruct Hx|]; (apply (own_true _ m _ None w eq_refl); exact Hl)|discriminate|].
      injection Y as -> ->. cbn. split; [exact Hdead|exact Hl].
  - destruct V as [V1 V2 V3 V4 V5 V6]. split; assumption.
  - destruct V as [V1 V2 V3 V4 V5 V6]. split; try assumption. intros m' r X. eapply true_reply_mono; [..|apply V5, X]; auto. cbn. intros x Hx. apply elem_of_app. auto.
  - destruct V as [V1 V2 V3 V4 V5 V6]. split; try assumption. intros m' r X. eapply true_reply_mono; [..|apply V5, X]; auto. cbn. intros x Hx. apply elem_of_app. auto.
  - destruct V as [V1 V2 V3 V4 V5 V6]. split; try assumption; cbn [joined hub_c connected noticed].
    + intros c. rewrite for_client_app. unfold to_all. rewrite (for_client_all c (joined s) _ V1). change (events_of c _) with (events_of c s).
      destruct (V2 c) as (A & B & D). destruct (decide (c ∈ joined s)) as [_|_].
      * rewrite app_assoc. split; [|split].
        -- apply NoDup_app. split; [exact A|]. split; [|apply NoDup_singleton]. intros x X Y. apply elem_of_list_singleton in Y as ->. apply D in X. contradiction.
        -- intros e' X. apply elem_of_app in X as [X|X]; [auto|]. apply elem_of_list_singleton in X. discriminate.
        -- intros e' X. apply elem_of_app in X as [X|X]; [right; auto|]. apply elem_of_list_singleton in X as [= ->]. left.
      * rewrite app_nil_r. eapply informed_mono; [..|exact (V2 c)]; [auto|intros; right; assumption].
    + intros c Hc. rewrite for_client_app. unfold to_all. rewrite (for_client_all c (joined s) _ V1), decide_False, app_nil_r by exact Hc. apply V3, Hc.
  - (* a reply arrives *)
    pose proof V as [V1 V2 V3 V4 V5 V6]. set (x := Client_Model.Reply false (Client_Model.Plain m) us r) in *. set (s' := set_replies _ _).
    assert (Ev : forall c', events_of c' s' = events_of c' s ++ if decide (c = c') then [x] else []).
    { intros c'. unfold events_of, s', set_replies, tell. cbn [events]. rewrite for_client_app, for_client_cons, app_nil_r. reflexivity. }
    assert (Eann : forall c', ann_ev (events_of c' s') = ann_ev (events_of c' s)).
    { intros c'. rewrite Ev. unfold ann_ev. rewrite omap_app. destruct (decide _); apply app_nil_r. }
    assert (Erec : forall c', received (events_of c' s') = received (events_of c' s) ++ if decide (c = c') then [(m, r)] else []).
    { intros c'. rewrite Ev. unfold received. rewrite omap_app. destruct (decide _); reflexivity. }
    assert (Htrue : true_reply s m r) by (apply V5; left; rewrite E; apply elem_of_app; right; left).
    assert (Hfl : filter (mine s c) (replies s).*1 = m :: filter (mine s c) (l1 ++ l2).*1).
    { rewrite E, !fmap_app, !filter_app. cbn [fmap list_fmap fst]. rewrite filter_cons_True by exact Hc. rewrite (filter_none _ l1.*1); [reflexivity|].
      intros y Hy. apply elem_of_list_fmap in Hy as ([m' r'] & -> & Hy). exact (Hfst m' r' Hy). }
    assert (Hnew : m ∉ (received (events_of c s)).*1).
    { pose proof (replied_nodup (log s) (sreach_sound scheme _ (c_sched _ _ C))) as N. apply (NoDup_filter (mine s c)) in N. rewrite (V4 c), Hfl in N. apply NoDup_app in N as (_ & N & _). intros X. apply (N _ X). left. }
    assert (Hj : c ∈ joined s) by (apply (c_joined _ _ C); eapply elem_of_list_lookup_2; exact Hc).
    split.
    + exact V1.
    + intros c'. rewrite Eann. exact (V2 c').
    + intros c' Hc'. destruct (V3 c' Hc') as [A B]. split; [|exact B]. rewrite Ev, A, decide_False; [reflexivity|]. intros ->. contradiction.
    + intros c'. rewrite Erec, fmap_app. change (filter (mine s c') (replied (log s)) = ((received (events_of c' s)).*1 ++ (if decide (c = c') then [(m, r)] else []).*1) ++ filter (mine s c') (l1 ++ l2).*1).
      rewrite V4, <- app_assoc. f_equal. destruct (decide (c = c')) as [<-|N]; [rewrite Hfl; reflexivity|]. rewrite E, !fmap_app, !filter_app. cbn [fmap list_fmap fst app]. rewrite filter_cons_False by congruence. reflexivity.
    + intros m' r' X. change (true_reply s m' r'). destruct X as [X|[c' X]].
      * apply V5. left. rewrite E. change (replies s') with (l1 ++ l2) in X. apply elem_of_app in X as [?|?]; apply elem_of_app; [auto|right; right; assumption].
      * rewrite Erec in X. apply elem_of_app in X as [X|X]; [apply V5; eauto|]. destruct (decide _); [|inversion X]. apply elem_of_list_singleton in X as [= -> ->]. exact Htrue.
    + intros c'. rewrite Ev. change (mine s' c') with (mine s c'). destruct (decide (c = c')) as [<-|N]; [|rewrite app_nil_r; apply V6].
      apply client_reply; [apply V6|exact Hc|exact Hnew|]. destruct r as [v| |y b| |]; cbn in Htrue |- *; eauto; destruct Htrue.
  - (* an announcement arrives *)
    pose proof V as [V1 V2 V3 V4 V5 V6]. set (s' := set_hub_c _ _).
    assert (Ev : forall c', events_of c' s' = events_of c' s ++ if decide (c = c') then [notice a] else []).
    { intros c'. unfold events_of, s', set_hub_c, tell. cbn [events]. rewrite for_client_app, for_client_cons, app_nil_r. reflexivity. }
    assert (Erec : forall c', received (events_of c' s') = received (events_of c' s)).
    { intros c'. rewrite Ev. unfold received. rewrite omap_app. destruct (decide _); destruct a as [[] ?]; apply app_nil_r. }
    assert (Eann : forall c', ann_ev (events_of c' s') = ann_ev (events_of c' s) ++ if decide (c = c') then [a] else []).
    { intros c'. rewrite Ev. unfold ann_ev. rewrite omap_app. destruct (decide _); destruct a as [[] ?]; reflexivity. }
    assert (Hh : for_client c (hub_c s) = a :: for_client c (l1 ++ l2)).
    { rewrite E, !for_client_app, for_client_cons. cbn [fst snd]. rewrite decide_True by reflexivity. rewrite (for_client_none c l1) by exact Hfst. reflexivity. }
    assert (Hh' : forall c', c <> c' -> for_client c' (hub_c s) = for_client c' (l1 ++ l2)).
    { intros c' N. rewrite E, !for_client_app, for_client_cons. cbn [fst snd]. rewrite decide_False by exact N. reflexivity. }
    split.
    + exact V1.
    + intros c'. rewrite Eann. change (hub_c s') with (l1 ++ l2). pose proof (V2 c') as X. destruct (decide (c = c')) as [<-|N].
      * rewrite Hh in X. rewrite <- app_assoc. exact X.
      * rewrite app_nil_r, <- (Hh' c' N). exact X.
    + intros c' Hc'. destruct (V3 c' Hc') as [A B]. change (hub_c s') with (l1 ++ l2).
      destruct (decide (c = c')) as [<-|N]; [rewrite Hh in B; discriminate|]. rewrite Ev, A, <- (Hh' c' N), decide_False by exact N. auto.
    + intros c'. rewrite Erec. exact (V4 c').
    + intros m' r' X. change (true_reply s m' r'). apply V5. destruct X as [X|[c' X]]; [left; exact X|right; exists c'; rewrite Erec in X; exact X].
    + intros c'. rewrite Ev. change (mine s' c') with (mine s c'). destruct (decide (c = c')) as [<-|N]; [|rewrite app_nil_r; apply V6].
      destruct a as [[] e]; cbn [notice fst snd]; [|apply client_unregister, V6]. apply client_register; [apply V6|].
      destruct (V2 c) as (X & _). rewrite Hh in X. apply NoDup_app in X as (_ & X & _). intros Y. apply (X _ Y). left.
Qed.
Lemma told_reachable s : reachable scheme allowed s -> told s.
Proof.
  induction 1 as [|s s' R IH St|s s' R IH St]; [apply told_start|eapply told_ext|eapply told_int]; eauto using core_reachable, hist_reachable.
Qed.
End Client.
