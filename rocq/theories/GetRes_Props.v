(** Property theorems C50 (Client.get_result) and C51 (results fetched from the Hub). *)
From stdpp Require Import base gmap list.
From Verif Require Import Result_Model Result_Spec GetRes_Spec GetRes_Model GetRes_Proofs.

(** A list of jobs all of which come from the same source gives one result object for exactly the messages the jobs
    stand for, in the order of the jobs: local for what is awaited or cached here, otherwise from the Hub. *)
Theorem C50_list : forall history futures results js idss s, js <> [] ->
  Forall2 (stands_for history) js idss ->
  Forall2 (comes_from (fun m => m ∈ futures) (fun m => m ∈ results) s) js idss ->
  get_result history futures results (Some (Many js)) =
  match s with Remote => Hub false (concat idss) | _ => Local false (concat idss) end.
Proof.
  intros history futures results js idss s Hne Hs Hc. unfold get_result, from_jobs.
  rewrite (add_jobs_source _ _ _ s js idss) by assumption.
  assert (Hn : concat idss <> []).
  { destruct Hs as [| j ids js idss Hj Hr]; [contradiction |]. cbn [concat]. intros X. apply app_eq_nil in X.
    apply (stands_nonempty _ _ _ Hj), (proj1 X). }
  destruct s; cbn [app].
  - destruct (map (child_of Awaited) (concat idss)) as [| c cs] eqn:E.
    + apply map_eq_nil in E. contradiction.
    + rewrite <- E. apply make_source; [exact Hn | discriminate].
  - destruct (map (child_of Cached) (concat idss)) as [| c cs] eqn:E.
    + apply map_eq_nil in E. contradiction.
    + rewrite <- E. apply make_source; [exact Hn | discriminate].
  - destruct (concat idss); [contradiction | reflexivity].
Qed.
Print Assumptions C50_list.

(** A single job (or none: the last message of the history) that stands for one message gives the result of that message
    alone. *)
Theorem C50_one : forall history futures results r m s,
  let j := match r with Some j => j | None => Index (-1) end in
  stands_for history j [m] -> comes_from (fun m => m ∈ futures) (fun m => m ∈ results) s j [m] ->
  get_result history futures results (option_map One r) = match s with Remote => Hub true [m] | _ => Local true [m] end.
Proof.
  intros history futures results r m s j Hs Hc. unfold get_result.
  assert (E : match option_map One r with Some r => r | None => One (Index (-1)) end = One j) by (destruct r; reflexivity).
  rewrite E. unfold from_jobs.
  pose proof (add_jobs_source history futures results s [j] [[m]]) as A. rewrite A by (repeat constructor; assumption).
  destruct s; reflexivity.
Qed.
Print Assumptions C50_one.

(** Whatever the jobs: the result is about messages that were asked for, in the order of the jobs; a local one from a list
    is about all of them. *)
Theorem C50_asked_only : forall history futures results js single ids,
  (forall hub l, In (Handle hub l) js -> l <> []) ->
  get_result history futures results (Some (Many js)) = Local single ids \/
  get_result history futures results (Some (Many js)) = Hub single ids ->
  exists idss, Forall2 (stands_for history) js idss /\ single = false /\ kept ids (concat idss) /\
    (get_result history futures results (Some (Many js)) = Local single ids -> ids = concat idss).
Proof.
  intros history futures results js single ids Hne H. unfold get_result, from_jobs in *.
  destruct (add_jobs history futures results js ([], [])) as [[fs ms] |] eqn:E; [| destruct H; discriminate].
  destruct (add_jobs_any history futures results js Hne [] [] fs ms E) as (idss & nf & nm & Hs & -> & -> & K1 & K2 & K3).
  cbn [app] in *. exists idss. split; [exact Hs |]. destruct nm as [| m nm].
  - assert (X : make false (match nf with [] => [] | f :: _ => nf end) = make false nf) by (destruct nf; reflexivity).
    rewrite X in *. destruct H as [H | H]; [| destruct (make_not_hub _ _ _ _ H)].
    destruct (make_ids _ _ _ _ H) as [-> ->]. split; [reflexivity |]. split; [exact K2 | intros _; apply K3; reflexivity].
  - destruct H as [H | H]; [discriminate |]. injection H as <- <-. split; [reflexivity |]. split; [exact K1 | discriminate].
Qed.
Print Assumptions C50_asked_only.

(** ** C51 *)
(** Waiting for a result that comes from the Hub.  If it says that the result is ready, then all messages were finished and
    the result has the value of each message, in the order of the messages, or their errors, in that order; the owner of the
    results removes them from the client's cache, and nothing else changes there.  If it says it is not ready, a
    message was still pending when the Hub was asked last.  It raises only errors of these messages which the client did
    not have, and then the cache has them.  Nothing the cache has is lost in the last two cases. *)
Theorem C51_wait : forall (V F : Type) (deser : list F -> option (V * list F)) (h : hub_result V) truth polls res,
  result h = None -> NoDup (ids h) -> polls <> [] ->
  truthful deser truth polls (ids h) -> lasting polls (ids h) ->
  (forall m o, m ∈ ids h -> res !! m = Some o -> o = truth m) ->
  match wait deser polls h res with
  | (Ready, h', res') => ids h' = ids h /\ owner h' = owner h /\
      ((exists vs, result h' = Some (Values vs) /\ map truth (ids h) = map Value vs) \/
       (exists es, es <> [] /\ result h' = Some (Errors es) /\ es = omap error_of (map truth (ids h)))) /\
      (forall m, m ∈ ids h -> is_Some (res !! m) \/ exists hub, hub ∈ polls /\ hub m <> Pending) /\
      (forall m, m ∉ ids h -> res' !! m = res !! m) /\
      (forall m, m ∈ ids h -> res' !! m = if owner h then None else Some (truth m))
  | (NotReady, h', res') => h' = h /\
      (exists hub m, last polls = Some hub /\ m ∈ ids h /\ hub m = Pending) /\
      (forall m, m ∉ ids h -> res' !! m = res !! m) /\
      (forall m o, m ∈ ids h -> res !! m = Some o -> res' !! m = Some o) /\
      (forall m o, m ∈ ids h -> res' !! m = Some o -> o = truth m)
  | (Failure es, h', res') => h' = h /\ es <> [] /\
      (forall e, e ∈ es -> exists m, m ∈ ids h /\ truth m = Error e /\ res !! m = None /\ res' !! m = Some (Error e)) /\
      (forall m, m ∉ ids h -> res' !! m = res !! m) /\
      (forall m o, m ∈ ids h -> res !! m = Some o -> res' !! m = Some o) /\
      (forall m o, m ∈ ids h -> res' !! m = Some o -> o = truth m)
  | _ => False
  end.
Proof.
  intros V F deser h truth polls res Hn Hnd Hp Ht Hl Hc. unfold wait. rewrite Hn.
  set (f := fun m => negb (bool_decide (is_Some (res !! m)))).
  assert (Hf : forall m, m ∈ List.filter f (ids h) <-> m ∈ ids h /\ res !! m = None).
  { intros m. rewrite !elem_of_list_In, List.filter_In. unfold f. rewrite negb_true_iff, bool_decide_eq_false.
    rewrite <- eq_None_not_Some. tauto. }
  assert (Hnr : NoDup (List.filter f (ids h))).
  { apply NoDup_ListNoDup, List.NoDup_filter, NoDup_ListNoDup, Hnd. }
  remember (List.filter f (ids h)) as remote eqn:Er.
  assert (Hin : forall m, m ∈ ids h -> m ∈ remote \/ res !! m = Some (truth m)).
  { intros m Hm. destruct (res !! m) as [o |] eqn:E; [right; rewrite (Hc m o Hm E); reflexivity | left; apply Hf; auto]. }
  assert (Hout : forall m, m ∉ ids h -> m ∉ remote) by (intros m Hm X; apply Hm, Hf, X).
  assert (Done : forall res1, (forall m, m ∉ remote -> res1 !! m = res !! m) -> (forall m, m ∈ remote -> res1 !! m = Some (truth m)) ->
    (forall m, m ∈ remote -> is_Some (res !! m) \/ exists hub, hub ∈ polls /\ hub m <> Pending) ->
    match finish h res1 with
    | (Ready, h', res') => ids h' = ids h /\ owner h' = owner h /\
      ((exists vs, result h' = Some (Values vs) /\ map truth (ids h) = map Value vs) \/
       (exists es, es <> [] /\ result h' = Some (Errors es) /\ es = omap error_of (map truth (ids h)))) /\
      (forall m, m ∈ ids h -> is_Some (res !! m) \/ exists hub, hub ∈ polls /\ hub m <> Pending) /\
      (forall m, m ∉ ids h -> res' !! m = res !! m) /\
      (forall m, m ∈ ids h -> res' !! m = if owner h then None else Some (truth m))
    | _ => False
    end).
  { intros res1 A B C. destruct (finish_ok h res1 truth Hnd) as (h' & res' & -> & E1 & E2 & E3 & E4).
    { intros m Hm. destruct (Hin m Hm) as [Y | Y]; [apply B, Y |].
      rewrite A; [exact Y |]. intros X. apply Hf in X. destruct X as [_ X]. congruence. }
    split; [exact E1 |]. split; [exact E2 |]. split; [exact E3 |]. split; [| split].
    - intros m Hm. destruct (Hin m Hm) as [Y | Y]; [apply C, Y | left; eauto].
    - intros m Hm. rewrite E4. rewrite (decide_False (P := m ∈ ids h)) by exact Hm. rewrite A by (apply Hout, Hm). destruct (owner h); reflexivity.
    - intros m Hm. rewrite E4. destruct (owner h); [rewrite decide_True by exact Hm; reflexivity |].
      destruct (Hin m Hm) as [Y | Y]; [apply B, Y |].
      rewrite A; [exact Y |]. intros X. apply Hf in X. destruct X as [_ X]. congruence. }
  destruct remote as [| r0 rr] eqn:Err.
  - assert (D := Done res (fun _ _ => eq_refl) ltac:(intros m X; inversion X) ltac:(intros m X; inversion X)).
    destruct (finish h res) as [[[] h'] res']; try contradiction. exact D.
  - rewrite <- Err in *. clear Err.
    pose proof (poll_ok deser truth remote h polls Hnr Hnd res) as P.
    assert (P' := P ltac:(exact Hin) ltac:(intros hub m Hh Hm; apply Ht; [exact Hh | apply Hf, Hm])
       ltac:(intros i j x y m Hij Hx Hy Hm; apply (Hl i j x y m Hij Hx Hy), Hf, Hm)
       ltac:(intros m o Hm E; apply Hf in Hm; destruct Hm as [_ Hm]; congruence)). clear P.
    assert (Rest : forall res' : gmap nat (outcome V), (forall m, m ∉ remote -> res' !! m = res !! m) ->
      (forall m o, m ∈ remote -> res' !! m = Some o -> o = truth m) ->
      (forall m, m ∉ ids h -> res' !! m = res !! m) /\
      (forall m o, m ∈ ids h -> res !! m = Some o -> res' !! m = Some o) /\
      (forall m o, m ∈ ids h -> res' !! m = Some o -> o = truth m)).
    { intros res' A B. split; [intros m Hm; apply A, Hout, Hm |].
      assert (K : forall m o, m ∈ ids h -> res !! m = Some o -> res' !! m = Some o).
      { intros m o Hm E. rewrite A; [exact E |]. intros X. apply Hf in X. destruct X as [_ X]. congruence. }
      split; [exact K |]. intros m o Hm E. destruct (decide (m ∈ remote)) as [Y | N]; [apply (B m o Y E) |].
      rewrite A in E by exact N. apply (Hc m o Hm E). }
    destruct (poll deser polls remote h res) as [[w h'] res']. destruct w; try contradiction.
    + destruct P' as (res1 & E & A & B & C). specialize (Done res1 A B C). rewrite E in Done. exact Done.
    + destruct P' as (-> & A & B & C & D). split; [reflexivity |]. split; [| apply Rest; assumption].
      destruct (last polls) as [hub |] eqn:El; [| exfalso; apply Hp, last_None, El].
      destruct (A hub eq_refl) as (m & Hm & X). exists hub, m. split; [reflexivity |]. split; [apply Hf, Hm | exact X].
    + destruct P' as (-> & A & B & C & D & G). split; [reflexivity |]. split; [exact A |]. split; [| apply Rest; assumption].
      intros e He. destruct (B e He) as (m & Hm & X & Y). exists m. apply Hf in Hm. tauto.
Qed.
Print Assumptions C51_wait.

(** Once everything is finished without errors when the Hub is asked for the last time, the result is ready; and a result that is ready
    stays as it is. *)
Theorem C51_ready : forall (V F : Type) (deser : list F -> option (V * list F)) (h : hub_result V) truth polls hub res,
  result h = None -> NoDup (ids h) -> last polls = Some hub ->
  truthful deser truth polls (ids h) -> lasting polls (ids h) ->
  (forall m o, m ∈ ids h -> res !! m = Some o -> o = truth m) ->
  (forall m, m ∈ ids h -> hub m <> Pending) -> (forall m e, m ∈ ids h -> truth m <> Error e) ->
  exists h' res' vs, wait deser polls h res = (Ready, h', res') /\ result h' = Some (Values vs) /\
    map truth (ids h) = map Value vs /\ forall polls' res'', wait deser polls' h' res'' = (Ready, h', res'').
Proof.
  intros V F deser h truth polls hub res Hn Hnd Hlast Ht Hl Hc Hdone Hok.
  assert (Hp : polls <> []) by (intros ->; discriminate).
  pose proof (C51_wait V F deser h truth polls res Hn Hnd Hp Ht Hl Hc) as H.
  destruct (wait deser polls h res) as [[w h'] res']. destruct w; try contradiction.
  - destruct H as (_ & _ & [(vs & E & E2) | (es & Hne & _ & E)] & _).
    + exists h', res', vs. split; [reflexivity |]. split; [exact E |]. split; [exact E2 |].
      intros polls' res''. unfold wait. rewrite E. reflexivity.
    + exfalso. destruct es as [| e es]; [contradiction |]. assert (X : e ∈ omap error_of (map truth (ids h))) by (rewrite <- E; left).
      apply elem_of_list_omap in X. destruct X as (o & Ho & X). apply elem_of_list_In, in_map_iff in Ho.
      destruct Ho as (m & <- & Hm). apply (Hok m e); [apply elem_of_list_In, Hm |]. destruct (truth m); [discriminate |].
      cbn in X. congruence.
  - destruct H as (_ & (x & m & E & Hm & X) & _). exfalso. apply (Hdone m Hm). congruence.
  - destruct H as (_ & Hne & He & _). exfalso. destruct es as [| e es]; [contradiction |].
    destruct (He e (elem_of_list_here _ _)) as (m & Hm & X & _). apply (Hok m e Hm X).
Qed.
Print Assumptions C51_ready.

(** ** Examples *)
Example C50_example :
  stands_for [5; 6; 7] (Index 1) [6] /\ stands_for [5; 6; 7] (Index (-1)) [7] /\
  get_result [5; 6; 7] {[6; 7]} {[5]} (Some (Many [Index 1; Id 7])) = Local false [6; 7] /\
  get_result [5; 6; 7] {[6]} {[5; 7]} (Some (Many [Index (-1); Handle false [3; 4]; Id 5])) = Local false [7; 3; 4; 5] /\
  get_result [5; 6; 7] ∅ {[5]} (Some (Many [Id 9; Handle true [3; 4]; Index 1])) = Hub false [9; 3; 4; 6] /\
  get_result [5; 6; 7] ∅ {[5]} None = Hub true [7].
Proof.
  split; [apply (sf_index _ 1); reflexivity |]. split; [apply (sf_index_end _ 0 7 [5; 6] []); reflexivity |].
  repeat split; vm_compute; reflexivity.
Qed.

Definition read (b : list nat) : option (nat * list nat) := match b with [] => None | x :: r => Some (x, r) end.
Definition early (m : nat) : state nat nat := match m with 1 => Done Applied [10] | 2 => Pending | 3 => Pending | _ => Unknown end.
Definition later (m : nat) : state nat nat :=
  match m with 1 => Done Applied [10] | 2 => Done Applied [20] | 3 => Done (Failed 7) [] | _ => Unknown end.
Definition the_truth (m : nat) : outcome nat := match m with 1 => Value 10 | 2 => Value 20 | _ => Error 7 end.
Example C51_example :
  truthful read the_truth [early; later] [3; 1; 2] /\ lasting [early; later] [3; 1; 2] /\
  fst (fst (wait read [early] (HubResult [2; 1] true None) ∅)) = NotReady /\
  (exists res, wait read [early; later] (HubResult [2; 1] true None) ∅ = (Ready, HubResult [2; 1] true (Some (Values [20; 10])), res)) /\
  (exists res res', wait read [early; later] (HubResult [3; 1; 2] false None) ∅ = (Failure [7], HubResult [3; 1; 2] false None, res) /\
     wait read [later] (HubResult [3; 1; 2] false None) res = (Ready, HubResult [3; 1; 2] false (Some (Errors [7])), res')).
Proof.
  split; [| split; [| split; [vm_compute; reflexivity |]]].
  - intros hub m Hh Hm. repeat (apply elem_of_cons in Hh; destruct Hh as [-> | Hh]; [
      repeat (apply elem_of_cons in Hm; destruct Hm as [-> | Hm];
        [first [left; reflexivity | right; cbn; auto; fail | right; cbn; eexists; split; [reflexivity | intros; reflexivity]] |]); inversion Hm |]).
    inversion Hh.
  - intros i j hub hub' m Hij Hi Hj Hm Hp.
    destruct i as [| [| i]]; cbn in Hi; try discriminate; injection Hi as <-;
    destruct j as [| [| j]]; cbn in Hj; try discriminate; try lia; injection Hj as <-; try exact Hp.
    repeat (apply elem_of_cons in Hm; destruct Hm as [-> | Hm]; [cbn; congruence |]). inversion Hm.
  - split; [eexists; vm_compute; reflexivity |]. eexists _, _. split; vm_compute; reflexivity.
Qed.

(** ** Refuted *)
(** "get_result gives the results of the jobs asked for": the AsyncResult of several messages gives only the first; *)
Theorem C50_handle_refuted : get_result [] ∅ {[1; 2]} (Some (One (Handle false [1; 2]))) = Local true [1].
Proof. vm_compute. reflexivity. Qed.
(** what this client has or awaits is dropped from a list that also has a message for the Hub; *)
Theorem C50_mixed_refuted : get_result [1; 2] {[2]} {[1]} (Some (Many [Id 1; Id 2; Id 9])) = Hub false [9].
Proof. vm_compute. reflexivity. Qed.
(** a list of a finished and an awaited message raises AttributeError or, in the other order, KeyError; the empty list IndexError. *)
Theorem C50_awaited_refuted : get_result [1; 2] {[2]} {[1]} (Some (Many [Id 1; Id 2])) = AttributeError /\
  get_result [1; 2] {[2]} {[1]} (Some (Many [Id 2; Id 1])) = KeyError /\ get_result [1; 2] {[2]} {[1]} (Some (Many [])) = IndexError.
Proof. vm_compute. auto. Qed.
(** "wait (and ready) return whether the result is there": they raise the error of a task the first time it is seen, even
    while other tasks are pending.  See C51_example for errors after everything is finished. *)
Theorem C51_raises_refuted : exists hub, hub 2 = Pending /\ fst (fst (wait read [hub] (HubResult [3; 2] true None) ∅)) = Failure [7].
Proof. exists (fun m => match m with 3 => Done (Failed 7) [] | _ => Pending end). vm_compute. auto. Qed.
(** A message asked for twice, with the default owner=True: wait raises KeyError, though the result is ready. *)
Theorem C51_twice_refuted : exists h res, wait read [later] (HubResult [1; 1] true None) {[1 := Value 10]} = (PopKeyError, h, res) /\
  result h = Some (Values [10; 10]).
Proof. eexists _, _. split; vm_compute; reflexivity. Qed.
