(** C78: view.executor. *)
From Coq Require Import String.
From Coq Require Import List Arith Bool Lia.
From Verif Require Import Async_Spec Async_Model Async_Proofs Imap_Spec Imap_Model Imap_Proofs Exec_Model Exec_Proofs.
Import ListNotations.
Open Scope nat_scope.

(** C78.  When shutdown(wait=True), called at some moment, has returned: every task sent by submit() before the call has its result, and of every map begun before the call
    and not cancelled all inputs have been taken (up to the end, or to an exception, of its arguments), and all their tasks have their results. *)
Theorem C78_shutdown : forall (V : Type) lb es1 es2 (s1 s : est V),
  erun lb init es1 = Some s1 -> erun lb s1 (Shutdown :: es2) = Some s -> now s = Returned ->
  (forall i, i < directs s1 -> In i (ended s)) /\
  (forall m p x, nth_error (maps s1) m = Some (p, x) -> exists x', nth_error (maps s) m = Some (p, x') /\
     (~ In (InMap m Cancel) (es1 ++ es2) ->
        (ends_after (inputs p) (pos x') \/ exists k, pos x' = S k /\ fails_after (inputs p) k) /\ (forall k, k < pos x' -> In k (finished x')))).
Proof.
  intros V lb es1 es2 s1 s H1 H2 Hr. assert (Hsd := H2). cbn [erun] in H2. destruct (estep lb s1 Shutdown) as [s2|] eqn:E; [|discriminate].
  assert (E2 : s2 = Est (maps s1) (history s1) (directs s1) (ended s1) (if lb then Polling else NoAttribute)) by (cbn [estep] in E; destruct (now s1); congruence).
  assert (Hp : now s2 = Polling).
  { rewrite E2. destruct lb; [reflexivity|exfalso]. assert (G : forall es (a b : est V), erun false a es = Some b -> now a = NoAttribute -> now b = NoAttribute).
    { clear. induction es as [|e es IH]; intros a b; cbn [erun]; [congruence|]. destruct (estep false a e) as [c|] eqn:E; [|discriminate]. intros H Hn.
      destruct (now_step _ _ _ _ E) as [N|[(_ & N)|[(_ & N & _)|(_ & ids' & N & _)]]]; try congruence. apply (IH c b H). congruence. }
    rewrite E2 in H2. apply G in H2; [congruence|reflexivity]. }
  destruct (returned_polled lb es2 s2 s H2 Hp Hr) as (ea & eb & s3 & -> & R1 & R2 & R3 & R4).
  assert (H3 : erun lb init (es1 ++ Shutdown :: ea) = Some s3) by (rewrite erun_app, H1; cbn [erun]; rewrite E; exact R1).
  assert (H4 : erun lb init (es1 ++ Shutdown :: ea ++ eb) = Some s) by (rewrite erun_app, H1; exact Hsd).
  assert (I3 := einv_run lb _ _ H3). assert (I4 := einv_run lb _ _ H4). pose proof (later_run lb _ _ _ R1) as L23. pose proof (later_run lb _ _ _ R2) as L34. split.
  - intros i Hi. assert (Hd : i < directs s3) by (destruct L23 as (L & _); rewrite E2 in L; cbn [directs] in L; lia).
    specialize (R4 _ (e_direct _ _ I3 i Hd)). cbn [has_result] in R4. apply mem_iff, R4.
  - intros m p x Hm. assert (Hm2 : nth_error (maps s2) m = Some (p, x)) by (rewrite E2; exact Hm).
    destruct L23 as (_ & _ & _ & L23). destruct (L23 m p x Hm2) as (y & Hy & _). destruct L34 as (_ & _ & _ & L34). destruct (L34 m p y Hy) as (z & Hz & Hfin & _ & Hrec). exists z. split; [exact Hz|].
    intros Hc. assert (Ry : recorded y = false). { rewrite forallb_forall in R3. specialize (R3 (p, y) (nth_error_In _ _ Hy)). cbn [snd] in R3. apply negb_true_iff, R3. }
    destruct (e_maps _ _ I3 m p y Hy) as (l & Rl & Ll). destruct (e_maps _ _ I4 m p z Hz) as (l' & Rl' & Ll').
    assert (Sy : ends_after (inputs p) (pos y) \/ exists k, pos y = S k /\ fails_after (inputs p) k).
    { apply (over_stopped _ _ _ _ _ l y Rl Ry). intros Hl. apply Hc. apply Ll in Hl. rewrite in_app_iff in *. cbn [In] in Hl. rewrite in_app_iff. destruct Hl as [Hl|[Hl|Hl]]; [auto|discriminate|auto]. }
    assert (Sz : ends_after (inputs p) (pos z) \/ exists k, pos z = S k /\ fails_after (inputs p) k).
    { apply (over_stopped _ _ _ _ _ l' z Rl' (Hrec Ry)). intros Hl. apply Hc. apply Ll' in Hl. rewrite in_app_iff in *. cbn [In] in Hl. destruct Hl as [Hl|[Hl|Hl]]; [auto|discriminate|auto]. }
    split; [exact Sz|]. rewrite (stopped_unique (inputs p) (outcome_of p) _ _ Sz Sy). intros k Hk. destruct (e_sent _ _ I3 m p y k Hy Hk) as [(_ & Hin)|Hin]; [|apply Hfin, Hin].
    specialize (R4 _ Hin). cbn [has_result] in R4. rewrite Hz in R4. apply mem_iff, R4.
Qed.

(** C78.  shutdown(wait=True) of a load-balanced view does return: when nothing more happens by itself (no task is without result, no input is left to take), it has returned, whether or not
    anybody iterates over the maps, unless an exception came out of a map. *)
Theorem C78_returns : forall (V : Type) es (s : est V), erun true init es = Some s -> now s <> Running ->
  (forall m p x e, nth_error (maps s) m = Some (p, x) -> at_user x <> Raised e) ->
  (forall i, estep true s (Result i) = None) -> estep true s Poll = None -> estep true s Return = None ->
  (forall m e, e = Worker \/ (exists k, e = Finish k) \/ e = CbCheck \/ e = CbSubmit -> estep true s (InMap m e) = None) ->
  now s = Returned.
Proof.
  intros V es s H Hn Hu Hres Hpoll Hret Hmap. assert (I := einv_run true _ _ H).
  assert (Hq : forall m p x, nth_error (maps s) m = Some (p, x) -> forall e, e = Worker \/ (exists k, e = Finish k) \/ e = CbCheck \/ e = CbSubmit ->
            Imap_Model.step (ordered p) (limit p) (ret p) (inputs p) (outcome_of p) x e = None).
  { intros m p x Hm e He. specialize (Hmap m e He). cbn [estep] in Hmap. unfold map_step in Hmap. rewrite Hm in Hmap. destruct (Imap_Model.step _ _ _ _ _ x e); [discriminate|reflexivity]. }
  assert (Hna : now s <> NoAttribute).
  { clear - H. assert (G : forall es (a b : est V), erun true a es = Some b -> now a <> NoAttribute -> now b <> NoAttribute).
    { clear. induction es as [|e es IH]; intros a b; cbn [erun]; [congruence|]. destruct (estep true a e) as [c|] eqn:E; [|discriminate]. intros H Hn. apply (IH c b H).
      destruct (now_step _ _ _ _ E) as [N|[(-> & N)|[(_ & _ & _ & ->)|(-> & ids' & N & F)]]]; [congruence| |discriminate|]; cbn [estep] in E; rewrite N in E; [|rewrite F in E]; injection E as <-; discriminate. }
    apply (G es init s H). discriminate. }
  destruct (now s) as [| |ids| |] eqn:E; [congruence| | |reflexivity|congruence]; exfalso.
  - cbn [estep] in Hpoll. rewrite E in Hpoll. destruct (forallb _ _) eqn:F; [discriminate|]. assert (X : forallb (fun px : params V * st => negb (recorded (snd px))) (maps s) = true); [|congruence].
    apply forallb_forall. intros [p x] Hin. apply In_nth_error in Hin as (m & Hm). cbn [snd]. destruct (e_maps _ _ I m p x Hm) as (l & R & _).
    rewrite (quiet_done _ _ _ _ _ l x R); [reflexivity|intros e; apply (Hu m p x e Hm)| | | |]; intros; apply (Hq m p x Hm); eauto.
  - cbn [estep] in Hret. rewrite E in Hret. destruct (forallb _ _) eqn:F; [discriminate|]. assert (X : forallb (has_result s) ids = true); [|congruence].
    apply forallb_forall. intros t Ht. apply (e_wait _ _ I ids E) in Ht. pose proof (e_known _ _ I t Ht) as K. destruct t as [i|m k]; cbn [has_result].
    + specialize (Hres i). cbn [estep] in Hres. destruct (mem i (ended s)) eqn:Em; [reflexivity|]. apply Nat.ltb_lt in K. rewrite K in Hres. discriminate.
    + destruct K as (p & x & Hm & Hk). rewrite Hm. apply mem_iff. refine (quiet_finished _ _ _ _ _ x _ k Hk). intros j. apply (Hq m p x Hm). eauto.
Qed.

(** C78.  Threads: the task that a call sends is in view.history when the call returns, whatever other threads did, if no message was sent by the client between the call's count of messages and its copy of their ids. *)
Theorem C78_recorded : forall es1 es2 es3 t n i,
  let s1 := rrun rinit es1 in calls s1 t = Sent n i ->
  let s2 := rrun (rstep s1 (Step t)) es2 in ~ In (Step t) es2 -> client_history s2 = client_history s1 ->
  let s3 := rstep s2 (Step t) in calls s3 t = Done i /\ In i (view_history (rrun s3 es3)).
Proof.
  intros es1 es2 es3 t n i s1 H1 s2 Hn Hc s3.
  assert (I : forall u, ok_call s1 (calls s1 u)) by (apply rrun_ok; intros u; exact Logic.I). pose proof (I t) as It. rewrite H1 in It. cbn [ok_call] in It. destruct It as [L1 L2].
  assert (E2 : calls s2 t = Counted (length (client_history s1) - n) i).
  { unfold s2. rewrite rrun_idle by exact Hn. cbn [rstep]. rewrite H1. cbn [calls]. unfold upd. rewrite Nat.eqb_refl. reflexivity. }
  unfold s3. split.
  - cbn [rstep]. rewrite E2. cbn [calls]. unfold upd. rewrite Nat.eqb_refl. reflexivity.
  - apply rrun_view. cbn [rstep]. rewrite E2. cbn [view_history]. apply in_or_app. right. apply in_last_ones; rewrite Hc; [exact L2|]. lia.
Qed.

(** Non-vacuity: one submitted task, one map of two inputs (max_outstanding=1) over which nobody iterates; shutdown returns. *)
Definition demo_map : params nat := Params true 1 false (fun k => nth k [Args; Args] Stop) (fun k => Val (10 * k)).
Definition inm (l : list event) : list (eevent nat) := map (InMap 0) l.
Definition demo_before : list (eevent nat) := [Submit; StartMap demo_map] ++ inm [Worker; Worker; Worker; Worker; Worker].
Definition demo_after : list (eevent nat) :=
  [Result 0] ++ inm [Finish 0; CbCheck; CbSubmit; Worker; Worker; Worker; Worker; Worker; Finish 1; CbCheck; CbSubmit; Worker; Worker; Worker; Worker] ++ [Poll; Return].
Example demo_shutdown : exists s1 s, erun true init demo_before = Some s1 /\ erun true s1 (Shutdown :: demo_after) = Some s /\ now s = Returned /\ directs s1 = 1 /\ length (maps s1) = 1.
Proof. do 2 eexists. split; [vm_compute; reflexivity|]. split; [vm_compute; reflexivity|]. repeat split. Qed.
Example demo_recorded : exists s1, s1 = rrun rinit [Step 1; Step 0; Step 1; Step 0; Other; Step 1] /\ calls s1 0 = Sent 0 1 /\
  view_history (rrun s1 [Step 0; Step 1; Step 0]) = [0; 1; 2; 0; 1; 2].
Proof. eexists. split; [reflexivity|]. split; vm_compute; reflexivity. Qed.

(** REFUTED: shutdown(wait=True) returns once the tasks have ended.  A map from which the exception of a task came out stays outstanding for ever:
    whatever happens afterwards (short of calling cancel() of that map), shutdown does not return.  So  with view.executor as ex: list(ex.map(f, xs))  hangs if f raises. *)
Definition bad_map : params nat := Params true 1 false (fun _ => Args) (fun _ => Remote "ValueError" 3).
Definition bad_history : list (eevent nat) := [StartMap bad_map] ++ inm [Worker; Worker; Worker; Worker; Worker; Finish 0; User []; User []; User []; CbCheck; CbSubmit] ++ [Shutdown].
Theorem C78_error_hangs_refuted : exists s, erun true init bad_history = Some s /\ now s = Polling /\
  (forall p x, nth_error (maps s) 0 = Some (p, x) -> at_user x = Raised (RemoteError "ValueError" 3) /\ forall k, k < pos x -> In k (finished x)) /\
  forall es s', ~ In (InMap 0 Cancel) es -> erun true s es = Some s' -> now s' = Polling.
Proof.
  eexists. split; [vm_compute; reflexivity|]. split; [reflexivity|]. split; [intros p x [= <- <-]; split; [reflexivity|]; intros [|k] Hk; [left; reflexivity|cbn in Hk; lia]|].
  match goal with |- forall es s', _ -> erun true ?s _ = _ -> _ => assert (Hs : nth_error (maps s) 0 = nth_error (maps s) 0 /\ now s = Polling) by (split; reflexivity); revert Hs; generalize (nth_error (maps s) 0) at 2; intros x0; remember s as s0 eqn:E0 end.
  intros (Hm & Hn). assert (Hx : x0 = match erun true init bad_history with Some a => nth_error (maps a) 0 | None => None end) by (rewrite <- Hm, E0; vm_compute; reflexivity). clear E0.
  intros es. revert s0 Hm Hn. induction es as [|e es IH]; intros s0 Hm Hn s' Hc; cbn [erun]; [intros [= <-]; exact Hn|]. destruct (estep true s0 e) as [s1|] eqn:E; [|discriminate].
  assert (Hall : nth_error (maps s1) 0 = x0 /\ now s1 = Polling); [|destruct Hall as [G1 G2]; apply (IH s1 G1 G2 s'); intros Hi; apply Hc; right; exact Hi].
  assert (Hlen : exists px l, maps s0 = px :: l /\ x0 = Some px) by (destruct (maps s0) as [|px l]; [rewrite <- Hm in Hx; vm_compute in Hx; discriminate|exists px, l; split; [reflexivity|symmetry; exact Hm]]).
  destruct Hlen as (px & l & El & Ex).
  destruct e as [|i|p|m e| | |]; cbn [estep] in E.
  - injection E as <-. auto.
  - destruct (_ && _); [|discriminate]. injection E as <-. auto.
  - injection E as <-. cbn [maps now]. rewrite El. split; [symmetry; exact Ex|exact Hn].
  - unfold map_step in E. destruct m as [|m].
    + rewrite Hm, Hx in E. vm_compute in Hx. destruct e as [|k| | |ks|]; try (vm_compute in E; discriminate); [|destruct Hc; left; reflexivity].
      exfalso. revert E. vm_compute (erun true init bad_history). cbn [maps nth_error]. cbn [Imap_Model.step]. unfold finish. cbn [pos finished callbacks].
      destruct k as [|k]; [vm_compute; discriminate|]. change (S k <? 1) with false. cbn [andb]. discriminate.
    + destruct (nth_error (maps s0) (S m)) as [[p x]|]; [|discriminate]. destruct (Imap_Model.step _ _ _ _ _ x e); [|discriminate]. injection E as <-. cbn [maps now].
      rewrite El in *. cbn [replace nth_error]. split; [symmetry; exact Ex|exact Hn].
  - rewrite Hn in E. discriminate.
  - rewrite Hn in E. destruct (forallb _ (maps s0)) eqn:F; [|discriminate]. exfalso. rewrite El in F. cbn [forallb] in F. apply andb_true_iff in F as [F _]. rewrite Ex in Hx. vm_compute in Hx. injection Hx as ->. discriminate.
  - rewrite Hn in E. discriminate.
Qed.
(** REFUTED: every view's executor can be shut down.  That of a DirectView raises AttributeError (also at the end of a with statement). *)
Theorem C78_direct_refuted : exists s : est nat, erun false init [Submit; Result 0; Shutdown] = Some s /\ now s = NoAttribute.
Proof. eexists. split; reflexivity. Qed.
(** REFUTED: the tasks of a cancelled map have their results when shutdown returns.  One may be sent afterwards. *)
Theorem C78_cancelled_refuted : exists s, erun true init ([StartMap demo_map] ++ inm [Worker; Worker; Cancel] ++ [Shutdown; Poll; Return] ++ inm [Worker]) = Some s /\
  now s = Returned /\ history s = [Mapped 0 0] /\ has_result s (Mapped 0 0) = false.
Proof. eexists. split; [vm_compute; reflexivity|]. repeat split. Qed.
(** REFUTED: the tasks sent by the calls that have returned are in view.history, which shutdown and view.wait() wait for.  Two threads of which one sends between the other's count and copy. *)
Theorem C78_threads_refuted : exists es i, let s := rrun rinit es in calls s 0 = Done i /\ ~ In i (view_history s).
Proof.
  exists [Step 0; Step 0; Step 0; Other; Step 0], 0. split; [vm_compute; reflexivity|]. vm_compute. intros [[=]|[]].
Qed.

Print Assumptions C78_shutdown.
Print Assumptions C78_returns.
Print Assumptions C78_recorded.
