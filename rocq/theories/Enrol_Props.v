(** C79: the engines of a cluster, from their first request until they fall silent. *)
From Coq Require Import List Arith Bool Lia.
From Verif Require Import Hub_Spec Heart_Spec Enrol_Spec Enrol_Model.
From Verif Require Hub_Model Hub_Reg Heart_Model Heart_Props Enrol_Proofs.
Import ListNotations.

(** The controller is not restarted twice without an engine coming or leaving in between (see C27 for what happens otherwise). *)
Definition restarts_ok (max : nat) (es : list act) : Prop :=
  forall pre post, es = pre ++ Reboot :: post -> changed_since_restart (told max pre) = true.

(** The Hub has handled everything it was sent: each engine that came since the controller was started has answered one of the last
    max+1 pings (or has left). *)
Theorem C79_alive : forall max es i u, restarts_ok max es -> on_the_way max es = [] ->
  In (i, u) (present (since_start (told max es))) ->
  exists j, j < length (rounds es) <= j + max + 1 /\ answered (rounds es) u j.
Proof.
  intros max es i u Hr Hq H. destruct (Enrol_Proofs.inv_exec max es Hr) as [(ns & E) (V & G & HV) _].
  apply (proj2 (Heart_Props.C19_live _ _ _ _ E)), HV. unfold on_the_way in Hq. rewrite Hq. simpl. apply (Enrol_Proofs.g_view _ _ _ G i), H.
Qed.
(** Whenever an engine that came since the controller was started is registered but has not answered any of the last max+1 pings,
    the message that says so is on the way to the Hub. *)
Lemma stopped_on_the_way ms u : forall V : nat -> Prop, V u -> ~ fold_left Enrol_Proofs.view ms V u -> exists hs, In (StoppedHearts hs) ms /\ In u hs.
Proof.
  induction ms as [|m ms IH]; intros V Hv Hn; [contradiction|]. cbn [fold_left] in Hn.
  destruct m as [hs|hs]; simpl in Hn.
  - destruct (IH (fun u => In u hs \/ V u)) as (hs' & H1 & H2); auto. exists hs'. split; [right; exact H1|exact H2].
  - destruct (in_dec Nat.eq_dec u hs) as [Hi|Hi]; [exists hs; split; [left; reflexivity|exact Hi]|].
    destruct (IH (fun u => ~ In u hs /\ V u)) as (hs' & H1 & H2); auto. exists hs'. split; [right; exact H1|exact H2].
Qed.
Theorem C79_silent : forall max es i u, restarts_ok max es ->
  In (i, u) (present (since_start (told max es))) ->
  (forall j, j < length (rounds es) <= j + max + 1 -> ~ answered (rounds es) u j) ->
  exists hs, In (StoppedHearts hs) (on_the_way max es) /\ In u hs.
Proof.
  intros max es i u Hr H Hn. destruct (Enrol_Proofs.inv_exec max es Hr) as [(ns & E) (V & G & HV) _].
  apply (stopped_on_the_way _ u V); [apply (Enrol_Proofs.g_view _ _ _ G i), H|]. intros Hx. apply HV in Hx.
  apply (proj2 (Heart_Props.C19_live _ _ _ _ E)) in Hx as (j & L & Ha). apply (Hn j L Ha).
Qed.


(** If the controller was never restarted, this is every registered engine: engines that die leave, at the latest, with the beat that ends
    the max+1st round without an answer (as soon as the Hub hears of it). *)
Theorem C79_alive_unless_restarted : forall max es i u, ~ In Reboot es -> on_the_way max es = [] -> registered max es i u ->
  exists j, j < length (rounds es) <= j + max + 1 /\ answered (rounds es) u j.
Proof.
  intros max es i u Hn Hq H. assert (Hr : restarts_ok max es).
  { intros pre post ->. exfalso. apply Hn, in_or_app. right. left. reflexivity. }
  apply (C79_alive max es i u Hr Hq). rewrite Enrol_Proofs.since_all by (apply Enrol_Proofs.no_restart_told, Hn).
  destruct (Enrol_Proofs.inv_exec max es Hr) as [_ (V & G & _) _]. unfold told. rewrite <- (Hub_Reg.ri_present _ (Enrol_Proofs.g_reg _ _ _ G)). exact H.
Qed.

(** Nothing is registered that was not granted and whose heart did not beat, since the controller was started. *)
Theorem C79_granted_and_beating : forall max es i u, restarts_ok max es ->
  In (Registered i u) (since_start (told max es)) ->
  (exists chosen, In (Granted u i chosen) (since_start (told max es))) /\ exists j, answered (rounds es) u j.
Proof.
  intros max es i u Hr H. destruct (Enrol_Proofs.inv_exec max es Hr) as [_ (V & G & _) _]. destruct (Enrol_Proofs.g_been _ _ _ G _ _ H). auto.
Qed.
(** What was registered stays so until the Hub says otherwise: an engine that is no longer registered has been reported as gone. *)
Theorem C79_leaving_is_told : forall max es i u, restarts_ok max es -> In (Registered i u) (told max es) ->
  registered max es i u \/ In (Unregistered i u) (told max es).
Proof.
  intros max es i u Hr H. destruct (Enrol_Proofs.inv_exec max es Hr) as [_ (V & G & _) _]. unfold registered. rewrite (Hub_Reg.ri_present _ (Enrol_Proofs.g_reg _ _ _ G)).
  fold (told max es). revert H. generalize (told max es). clear. intros ns. induction ns as [|n ns IH] using rev_ind; [intros []|].
  rewrite Hub_Reg.present_snoc, !in_app_iff. intros [H|[H|[]]].
  - destruct (IH H) as [Hp|Hp]; [|auto]. destruct n; simpl; auto.
    + left. apply in_or_app. auto.
    + destruct (Nat.eq_dec id i) as [->|N]; [destruct (Nat.eq_dec u0 u) as [->|N]|]; [auto| |]; left; apply filter_In; (split; [exact Hp|]); simpl.
      * rewrite (proj2 (Nat.eqb_neq _ _) N), andb_false_r. reflexivity.
      * rewrite (proj2 (Nat.eqb_neq _ _) N). reflexivity.
  - subst n. left. simpl. apply in_or_app. right. left. reflexivity.
Qed.

(** An engine that has not been heard of since the controller was started asks to be registered and is granted the id [i]. Then nothing interferes
    (it does not leave, the controller is not restarted; the time limit for the registration does not pass before the Hub has everything that
    the watching process sent, with an answer of the engine among that), it answers, and never misses more than max beats in a row from then on. Once the Hub has
    handled all messages, the engine is registered under this id. *)
Theorem C79_joins : forall max es1 u r i chosen es2,
  let before := es1 ++ [AtHub (Register u r)] in
  let es := before ++ es2 in
  restarts_ok max es1 ->
  told max before = told max es1 ++ [Granted u i chosen] ->
  (forall j, ~ answered (rounds es1) u j) ->
  (forall pre e post, es2 = pre ++ e :: post ->
     ~ interferes u i e (fun k => length (on_the_way max (before ++ pre)) <= k /\ exists j, answered (rounds (before ++ pre)) u j)) ->
  (exists j, answered (rounds es) u j) -> (forall j, j < length (rounds es) -> ~ missed (rounds es) u j (max + 1)) ->
  on_the_way max es = [] ->
  registered max es i u.
Proof.
  intros max es1 u r i c es2 before es Hr Hg Hf Hi Ha Hm Hq.
  assert (Hnb : forall pre e post, es2 = pre ++ e :: post -> e <> Reboot) by (intros pre e post E ->; apply (Hi _ _ _ E); exact I).
  assert (H1 : Enrol_Proofs.inv max es1) by (apply Enrol_Proofs.inv_exec; exact Hr).
  assert (H2 : Enrol_Proofs.inv max before) by (apply Enrol_Proofs.inv_step; [exact H1|discriminate]).
  assert (H3 : Enrol_Proofs.on_way max u i before) by (apply (Enrol_Proofs.on_way_granted max u i es1 r c); assumption).
  assert (H4 : forall pre post, es2 = pre ++ post -> Enrol_Proofs.inv max (before ++ pre) /\ Enrol_Proofs.on_way max u i (before ++ pre)).
  { induction pre as [|e pre IH] using rev_ind; intros post E; [rewrite app_nil_r; auto|].
    rewrite <- app_assoc in E. destruct (IH _ E) as [I1 I2]. rewrite app_assoc. split.
    - apply Enrol_Proofs.inv_step; [exact I1|]. intros ->. exfalso. apply (Hnb _ _ _ E). reflexivity.
    - apply Enrol_Proofs.on_way_step; [exact I1|exact I2|apply (Hi _ _ _ E)|].
      intros j L Hj. unfold es in Hm. rewrite E in Hm. change (e :: post) with ([e] ++ post) in Hm. rewrite !app_assoc in Hm.
      destruct (Enrol_Proofs.rounds_prefix ((before ++ pre) ++ [e]) post) as (rest & Er).
      { intros Hx. apply in_split in Hx as (p1 & p2 & ->). apply (Hnb (pre ++ [e] ++ p1) Reboot p2); [rewrite E; rewrite <- !app_assoc; reflexivity|reflexivity]. }
      apply (Hm j); rewrite Er; [rewrite app_length; lia|]. apply Enrol_Proofs.missed_prefix; assumption. }
  destruct (H4 es2 []) as [_ [_ Hs Hal]]; [rewrite app_nil_r; reflexivity|]. fold es in Hs, Hal. unfold on_the_way in Hq. rewrite Hq in Hs.
  destruct Hs as [[_ Hx]|Hs]; [|exact Hs]. specialize (Hx (Hal Ha)). inversion Hx.
Qed.

Print Assumptions C79_alive.
Print Assumptions C79_silent.
Print Assumptions C79_alive_unless_restarted.
Print Assumptions C79_granted_and_beating.
Print Assumptions C79_leaving_is_told.
Print Assumptions C79_joins.

(* ------------------------------------------------------------ examples *)
(** At most one miss. Engine 7 asks, beats, is registered under 0, misses one beat, beats again; the time limit passes when all is settled. Engine 8 comes,
    is registered, and dies. *)
Definition ex_before := [Beat (Round [] 10)].
Definition ex_after :=
  [Beat (Round [] 10); AtHub (Register 8 None); Beat (Round [(7, 20); (8, 20)] 10); Timeout 7 1; Beat (Round [] 10); Beat (Round [(7, 30)] 10); Deliver].
Definition ex := (ex_before ++ [AtHub (Register 7 None)]) ++ ex_after.
Example C79_example : map (fun n => match n with Registered i u => Some (i, u, true) | Unregistered i u => Some (i, u, false) | _ => None end) (told 1 ex) = [None; None; Some (0, 7, true); Some (1, 8, true); Some (1, 8, false)] /\
  on_the_way 1 ex = [] /\ Hub_Model.engines (hub (exec 1 ex)) = [(0, 7)].
Proof. vm_compute. auto. Qed.
Example C79_joins_nonvacuous : restarts_ok 1 ex_before /\ told 1 (ex_before ++ [AtHub (Register 7 None)]) = told 1 ex_before ++ [Granted 7 0 true] /\
  (forall j, ~ answered (rounds ex_before) 7 j) /\
  (forall pre e post, ex_after = pre ++ e :: post -> ~ interferes 7 0 e (fun k => length (on_the_way 1 ((ex_before ++ [AtHub (Register 7 None)]) ++ pre)) <= k /\ exists j, answered (rounds ((ex_before ++ [AtHub (Register 7 None)]) ++ pre)) 7 j)) /\
  (exists j, answered (rounds ex) 7 j) /\ (forall j, j < length (rounds ex) -> ~ missed (rounds ex) 7 j (1 + 1)).
Proof.
  assert (A2 : answered (rounds ex) 7 2).
  { exists (Round [(7, 20); (8, 20)] 10), 20. vm_compute. auto. }
  assert (A4 : answered (rounds ex) 7 4).
  { exists (Round [(7, 30)] 10), 30. vm_compute. auto. }
  split; [|split; [reflexivity|split; [|split; [|split; [exists 2; exact A2|]]]]].
  - intros pre post E. apply (f_equal (fun l => existsb (fun e => match e with Reboot => true | _ => false end) l)) in E. rewrite existsb_app in E. simpl in E. destruct (existsb _ pre); discriminate.
  - intros j (r & t & Hn & Hi & _). destruct j as [|[|j]]; simpl in Hn; [injection Hn as <-; destruct Hi|discriminate..].
  - intros pre e post E. unfold ex_after in E.
    do 3 (destruct pre as [|x pre]; [injection E as <- <-; simpl; tauto|injection E as <- E]).
    destruct pre as [|x pre]; [injection E as <- <-|injection E as <- E].
    { intros (_ & Hx). apply Hx. split; [vm_compute; auto|]. exists 2, (Round [(7, 20); (8, 20)] 10), 20. vm_compute. auto. }
    do 3 (destruct pre as [|x pre]; [injection E as <- <-; simpl; tauto|injection E as <- E]). destruct pre; discriminate.
  - intros j L (k & (Hk & Hak & Hno) & Ej). change (length (rounds ex)) with 5 in L. assert (k = 0 \/ k = 1 \/ k = 2) as [ -> | [ -> | -> ]] by lia.
    + apply (Hno 2); [lia|exact A2].
    + apply (Hno 2); [lia|exact A2].
    + apply (Hno 4); [lia|exact A4].
Qed.

(* ------------------------------------------------------------ what does not hold *)
Definition only_beats (es : list act) : Prop := Forall (fun e => match e with Beat _ | Deliver => True | _ => False end) es.
Lemma exec_app max es es' : exec max (es ++ es') = fold_left (step max) es' (exec max es).
Proof. unfold exec. rewrite fold_left_app. reflexivity. Qed.
(** An engine is announced to the Hub only once, and has to be expected then. *)
Lemma never_registers max es : only_beats es -> forall s, Hub_Model.incoming (hub s) = [] -> Hub_Model.engines (hub s) = [] -> Hub_Model.hearts (hub s) = [] ->
  Hub_Model.engines (hub (fold_left (step max) es s)) = [].
Proof.
  induction 1 as [|e es He H IH]; intros s H1 H2 H3; [exact H2|]. cbn [fold_left].
  assert (Hh : forall m, handle (hub s) m = hub s).
  { intros [hs|hs]; simpl; induction hs as [|h hs IHs]; cbn [fold_left]; auto.
    - unfold Hub_Model.handle_new_heart at 2. rewrite H1. exact IHs.
    - unfold Hub_Model.handle_stopped_heart at 2. rewrite H3. exact IHs. }
  destruct e; try contradiction; apply IH; cbn [step].
  1-3: destruct (Heart_Model.do_round _ _ _); assumption.
  all: destruct (queue s); cbn [hub]; rewrite ?Hh; assumption.
Qed.
(** "An engine that has been granted an id and whose heart beats becomes registered": not if the first beat comes after the time limit
    (hub.py 1066-1074, 418-419; heartmonitor.py 160, 191: the watching process announces a heart once). However long the engine answers, it never becomes an engine of the cluster,
    and it does not notice. *)
Theorem C79_late_beat_refuted : exists es, told 1 es = [Granted 7 0 true] /\
  forall more, only_beats more -> forall i u, ~ registered 1 (es ++ more) i u.
Proof.
  exists [AtHub (Register 7 None); Timeout 7 0]. split; [reflexivity|]. intros more H i u. unfold registered. rewrite exec_app.
  rewrite (never_registers 1 more H) by reflexivity. intros [].
Qed.
(** "An engine that answers again, after having been silent, is again an engine of the cluster": no *)
Theorem C79_silence_is_for_ever_refuted : exists es, Hub_Model.engines (hub (exec 1 es)) = [] /\ told 1 es = [Granted 7 0 true; Registered 0 7; Unregistered 0 7] /\
  forall more, only_beats more -> forall i u, ~ registered 1 (es ++ more) i u.
Proof.
  exists [AtHub (Register 7 None); Beat (Round [(7, 0)] 10); Deliver; Beat (Round [] 10); Beat (Round [] 10); Deliver]. split; [reflexivity|]. split; [reflexivity|].
  intros more H i u. unfold registered. rewrite exec_app. rewrite (never_registers 1 more H) by reflexivity. intros [].
Qed.
(** "An engine that is dead leaves the cluster": not if it died while the controller was restarted; the new watching process has never heard of it, and so
    never misses it (hub.py 1110-1131; heartmonitor.py 157-158). *)
Lemma stays_registered max es : only_beats es -> forall s rs ns, Heart_Model.run max rs = (mon s, ns) -> (forall j, ~ answered (rs ++ rounds es) 7 j) ->
  (forall m, In m (queue s) -> ~ In 7 (Enrol_Proofs.about m)) ->
  Hub_Model.incoming (hub s) = [] -> Hub_Model.engines (hub s) = [(0, 7)] -> Hub_Model.hearts (hub s) = [(7, 0)] ->
  Hub_Model.engines (hub (fold_left (step max) es s)) = [(0, 7)].
Proof.
  assert (Hcons : forall e l, only_beats (e :: l) -> rounds (e :: l) = match e with Beat r => [r] | _ => [] end ++ rounds l).
  { assert (Hg : forall l, only_beats l -> forall a, fold_left (fun l e => match e with Beat r => l ++ [r] | Reboot => [] | _ => l end) l a = a ++ rounds l).
    { intros l Hl. induction Hl as [|e l He Hl IHl]; intros a; [rewrite app_nil_r; reflexivity|]. unfold rounds. cbn [fold_left]. rewrite !IHl. destruct e; try contradiction; cbn [app]; [rewrite <- app_assoc|]; reflexivity. }
    intros e l Hl. inversion Hl as [|? ? He Hl']; subst. unfold rounds at 1. cbn [fold_left]. rewrite Hg by exact Hl'. destruct e; try contradiction; reflexivity. }
  induction 1 as [|e es He H IH]; intros s rs ns E Ha Hq H1 H2 H3; [exact H2|]. cbn [fold_left]. rewrite Hcons in Ha by (constructor; assumption).
  destruct e as [r| | | |]; try contradiction; cbn [step].
  - destruct (Heart_Model.do_round max (mon s) r) as [m' n] eqn:Er. destruct (Enrol_Proofs.beat_tells _ _ _ _ _ _ _ E Er) as (Es & Hst & Hn).
    assert (Ha' : forall j, ~ answered (rs ++ [r]) 7 j).
    { intros j Hj. apply (Ha j). revert Hj. rewrite app_assoc. generalize (rs ++ [r]), (rounds es). intros l rest Hj.
      induction rest as [|x rest IHr] using rev_ind; [rewrite app_nil_r; exact Hj|]. rewrite app_assoc. apply Heart_Proofs.answered_app; [apply (Heart_Proofs.answered_lt _ _ _ IHr)|exact IHr]. }
    apply (IH _ (rs ++ [r]) (ns ++ [n])); cbn [hub mon queue]; auto.
    + rewrite <- app_assoc. exact Ha.
    + intros m Hm. apply in_app_iff in Hm as [Hm|Hm]; [apply Hq, Hm|]. apply Enrol_Proofs.in_send in Hm as [[-> _]|[-> _]]; simpl; intros Hx.
      * apply (Ha' _ (Hn _ Hx)).
      * apply Hst in Hx. destruct (Enrol_Proofs.missed_answered _ _ _ _ Hx) as (j & Hj). apply (Ha' _ Hj).
  - destruct (queue s) as [|m q] eqn:Eq; [apply (IH _ rs ns); rewrite ?Eq; auto|].
    assert (Hh : handle (hub s) m = hub s).
    { specialize (Hq m (or_introl eq_refl)). clear Eq. destruct m as [hs|hs]; simpl in *.
      - clear Hq. induction hs as [|h hs IHs]; cbn [fold_left]; auto. unfold Hub_Model.handle_new_heart at 2. rewrite H1. exact IHs.
      - induction hs as [|h hs IHs]; cbn [fold_left]; auto. unfold Hub_Model.handle_stopped_heart at 2. rewrite H3. cbn [Hub_Model.get].
        rewrite (proj2 (Nat.eqb_neq h 7)) by (intros ->; apply Hq; left; reflexivity). apply IHs. intros Hx. apply Hq. right. exact Hx. }
    apply (IH _ rs ns); cbn [hub mon queue]; rewrite ?Hh; auto. intros m' Hm'. apply Hq. right. exact Hm'.
Qed.
Theorem C79_dead_after_restart_refuted : exists es, Hub_Model.engines (hub (exec 1 es)) = [(0, 7)] /\ rounds es = [] /\
  forall more, only_beats more -> (forall j, ~ answered (rounds more) 7 j) -> registered 1 (es ++ more) 0 7.
Proof.
  exists [AtHub (Register 7 None); Beat (Round [(7, 0)] 10); Deliver; Reboot]. split; [reflexivity|]. split; [reflexivity|].
  intros more H Ha. unfold registered. rewrite exec_app. rewrite (stays_registered 1 more H _ [] []); [left; reflexivity|reflexivity|exact Ha|intros m []|reflexivity..].
Qed.
