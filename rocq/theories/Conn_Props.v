(** C75: client.ids is the list of the Hub's engines. *)
From stdpp Require Import base gmap list sorting.
From Coq Require Import Lia.
From Verif Require Import RDict_Model Client_Model Hub_Spec Conn_Spec Conn_Model Conn_Proofs.
From Verif Require Hub_Model Hub_Reg.

(** The notices the Hub has published between two moments *)
Definition between (w w' : world) : list notice :=
  filter is_public (drop (length (Hub_Model.notices (hub w))) (Hub_Model.notices (hub w'))).
(** An engine id of which the Hub has told something between two moments *)
Definition heard_of (w w' : world) (i : nat) : Prop := exists n, n ∈ between w w' /\ about n = Some i.
Definition at_hub (w : world) (i u : nat) : Prop := In (i, u) (Hub_Model.engines (hub w)).

Lemma notes_local h i : forall f g, f i = g i -> notes h f i = notes h g i.
Proof.
  induction h as [|n h IH]; intros f g E; [exact E|]. cbn. apply IH. destruct n as [| |j u|j u|]; cbn [note]; try exact E; destruct (decide _); auto.
Qed.
Lemma notes_quiet h i : (forall n, n ∈ h -> about n <> Some i) -> forall f, notes h f i = f i.
Proof.
  induction h as [|n h IH]; intros H f; [reflexivity|]. cbn. rewrite IH by (intros m Hm; apply H; right; exact Hm). pose proof (H n ltac:(left)) as Hn.
  destruct n as [| |j u|j u|]; cbn [note about] in *; try reflexivity; rewrite decide_False by congruence; reflexivity.
Qed.
Lemma notes_heard h i n : n ∈ h -> about n = Some i -> forall f g, notes h f i = notes h g i.
Proof.
  intros Hn Ha. apply elem_of_list_split in Hn as (l1 & l2 & ->). intros f g. rewrite !notes_app. cbn. apply notes_local.
  destruct n as [| |j u|j u|]; cbn [about note] in *; try discriminate; injection Ha as ->; rewrite !decide_True by reflexivity; reflexivity.
Qed.
Lemma at_hub_reg w i u : keys_ok (hub w) -> at_hub w i u <-> reg (hub w) i = Some u.
Proof. intros K. split; [apply Hub_Reg.in_get, K|apply Hub_Reg.get_in]. Qed.

(** C75.  Let the Hub answer the client's connection request after [w1], and the client's subscription take effect after [w2].  At any later time,
    whatever has happened, client.ids is sorted, without repetition, and names exactly the engines the client can address; and there was a moment since the
    subscription (after [past]) such that the Hub's notices since then are those the client has still to handle, and the client knows exactly the engines, and their
    uuids, that the Hub had then – except for an engine of which the Hub told something between answer and subscription and nothing more until that moment:
    of this one the client still knows what was in the answer. *)
Theorem C75_ids : forall enum w1 w2 w3, Answer ∉ w1 -> Subscribe ∉ w2 -> AtHub Restart ∉ w2 ++ w3 ->
  let answered := run enum (w1 ++ [Answer]) in let subscribed := run enum (w1 ++ Answer :: w2 ++ [Subscribe]) in let now := run enum (w1 ++ Answer :: w2 ++ Subscribe :: w3) in
  begun now = true ->
  Sorted.StronglySorted lt (ids now) /\ (forall i, i ∈ ids now <-> is_Some (uuid_of now i)) /\
  exists past rest, w3 = past ++ rest /\ let then_ := run enum (w1 ++ Answer :: w2 ++ Subscribe :: past) in
    between then_ now = inbox now /\
    forall i, (~ heard_of answered subscribed i \/ heard_of subscribed then_ i -> forall u, uuid_of now i = Some u <-> at_hub then_ i u) /\
              (~ heard_of subscribed then_ i -> forall u, uuid_of now i = Some u <-> at_hub answered i u).
Proof.
  intros enum w1 w2 w3 H1 H2 H3 w v s Hb.
  assert (Hr2 : no_restart w2) by (intros H; apply H3, elem_of_app; left; exact H). assert (Hr3 : no_restart w3) by (intros H; apply H3, elem_of_app; right; exact H).
  assert (E0 : forall es, run enum es = go enum es start_world) by reflexivity.
  assert (Iw0 : winv (run enum w1)) by (apply winv_go, winv_start).
  assert (Ha0 : answer (run enum w1) = None).
  { clear - H1. induction w1 as [|e w1 IH] using rev_ind; [reflexivity|]. change (run enum (w1 ++ [e])) with (go enum (w1 ++ [e]) start_world). rewrite go_app. change (go enum w1 start_world) with (run enum w1).
    change (go enum [e] (run enum w1)) with (Conn_Model.step enum (run enum w1) e). assert (Hi : answer (run enum w1) = None) by (apply IH; intros H; apply H1, elem_of_app; left; exact H).
    destruct e; cbn [Conn_Model.step]; rewrite ?Hi; repeat case_match; cbn; try exact Hi; try reflexivity; try congruence. destruct H1. apply elem_of_app. right. left. }
  assert (Ew : w = Conn_Model.step enum (run enum w1) Answer) by (unfold w; rewrite !E0, go_app; reflexivity).
  set (a := Hub_Model.engines (hub (run enum w1))) in *.
  assert (Ew' : w = World (hub (run enum w1)) (Some a) (Conn_Model.subscribed (run enum w1)) (begun (run enum w1)) (inbox (run enum w1)) (cl (run enum w1))).
  { rewrite Ew. cbn [Conn_Model.step]. rewrite Ha0. reflexivity. }
  assert (Iw : winv w) by (rewrite Ew; apply winv_step, Iw0). pose proof (w_ans _ Iw0) as Hs0. rewrite Ha0 in Hs0. destruct Hs0 as [Hs0 Hb0].
  assert (Vw : forall i, view w a i = Hub_Model.get i a) by (intros i; unfold view; rewrite Ew'; cbn [begun]; rewrite Hb0; reflexivity).
  destruct (missed_go enum w2 w Iw Hr2 H2 a ltac:(rewrite Ew'; reflexivity) ltac:(rewrite Ew'; exact Hs0) Vw) as (Ax & Sx & Vx & ms & Em & Hpre & Rx).
  set (x := go enum w2 w) in *. assert (Ix : winv x) by (apply winv_go, Iw).
  assert (Ev : v = Conn_Model.step enum x Subscribe). { unfold v, x, w. rewrite !E0. change (Answer :: w2 ++ [Subscribe]) with ([Answer] ++ (w2 ++ [Subscribe])). rewrite !go_app. reflexivity. }
  assert (Ev' : v = World (hub x) (Some a) true (begun x) (inbox x) (cl x)) by (rewrite Ev; cbn [Conn_Model.step]; rewrite Ax; reflexivity).
  assert (Iv : winv v) by (rewrite Ev; apply winv_step, Ix). assert (Hhv : hub v = hub x) by (rewrite Ev'; reflexivity).
  assert (Vv : forall i, view v a i = Hub_Model.get i a) by (intros i; rewrite Ev'; exact (Vx i)).
  assert (Iv0 : inbox v = []) by (rewrite Ev'; exact (w_inbox _ Ix Sx)).
  pose proof (since_go enum v a Iv ltac:(rewrite Ev'; reflexivity) ltac:(rewrite Ev'; reflexivity) Iv0 Vv) as Hsince.
  assert (Es : forall p, run enum (w1 ++ Answer :: w2 ++ Subscribe :: p) = go enum p v).
  { intros p. unfold v. rewrite !E0. change (w1 ++ Answer :: w2 ++ Subscribe :: p) with (w1 ++ (Answer :: (w2 ++ ([Subscribe] ++ p)))). rewrite (app_assoc w2), (app_comm_cons _ p), app_assoc, go_app. reflexivity. }
  assert (Es0 : s = go enum w3 v) by apply Es. destruct (Hsince w3 Hr3) as (_ & _ & Hn3 & R3 & h & Eh & Vh & _). rewrite <- Es0 in *.
  assert (Is : winv s) by (rewrite Es0; apply winv_go, Iv). pose proof (w_cl _ Is) as C. rewrite Hb in C. destruct C as [C Cs].
  assert (Hu : forall i, uuid_of s i = notes h (fun j => Hub_Model.get j a) i) by (intros i; rewrite <- Vh; unfold view; rewrite Hb; reflexivity).
  split; [exact Cs|]. split.
  { intros i. unfold ids, uuid_of. rewrite (d_in _ _ C). split; [intros [k E]; rewrite E; apply (d_keys _ _ C) in E as (? & ? & _ & ->); eauto|].
    destruct (fwd (engines (cl s)) !! inl i) as [k|]; [eauto|intros [? ?]; discriminate]. }
  destruct (told_prefix enum v Iv w3 Hr3) as [_ Hp]. destruct (Hp h (inbox s) Eh) as (past & rest & E3 & Eh'). exists past, rest. split; [exact E3|]. rewrite Es. set (t := go enum past v) in *.
  assert (Hrp : no_restart past) by (intros H; apply Hr3; rewrite E3; apply elem_of_app; left; exact H).
  destruct (Hsince past Hrp) as (_ & _ & (np & Ep) & Rp & _). fold t in Ep, Rp. destruct Hn3 as (n3 & En3). unfold told_in in Eh, Eh'. rewrite <- Es0 in Eh. fold t in Eh'.
  assert (Hnt : exists nt : list notice, Hub_Model.notices (hub s) = Hub_Model.notices (hub t) ++ nt).
  { rewrite Es0, E3, go_app. fold t. assert (It : winv t) by (apply winv_go, Iv). assert (Hrr : no_restart rest) by (intros H; apply Hr3; rewrite E3; apply elem_of_app; right; exact H).
    destruct (told_prefix enum t It rest Hrr) as [Hx _]. exact Hx. }
  destruct Hnt as (nt & Ent). split.
  { unfold between. change (filter is_public ?l) with (public l). rewrite Ent, drop_app. rewrite Ent, Ep, <- app_assoc, drop_app in Eh. rewrite Ep, drop_app in Eh'.
    unfold public in Eh, Eh' |- *. rewrite filter_app, Eh' in Eh. apply app_inv_head in Eh. exact Eh. }
  assert (Hbt : between v t = h) by exact Eh'.
  assert (Hbw : between w v = ms) by (unfold between; rewrite Hhv; exact Em).
  assert (Kt : keys_ok (hub t)) by (apply (w_keys _ (winv_go enum past v Iv))).
  assert (Rw : forall i, reg (hub w) i = Hub_Model.get i a) by (intros i; rewrite Ew'; reflexivity).
  assert (Rt : forall i, reg (hub t) i = notes h (reg (hub v)) i). { intros i. rewrite Rp. unfold told_in. fold t. rewrite Eh'. reflexivity. }
  intros i. unfold heard_of. rewrite Hbt, Hbw. split.
  - intros Hor u. rewrite at_hub_reg by exact Kt. rewrite Rt, Hu. enough (E : notes h (fun j => Hub_Model.get j a) i = notes h (reg (hub v)) i) by (rewrite E; reflexivity).
    destruct Hor as [Hq|(n & Hn & Ha)]; [|apply notes_heard with n; assumption]. apply notes_local. rewrite Hhv, Rx, Rw || rewrite Hhv, Rx.
    rewrite notes_quiet by (intros n Hn Ha; apply Hq; eauto). symmetry. apply Rw.
  - intros Hq u. rewrite at_hub_reg by exact (w_keys _ Iw). rewrite Hu, Rw, notes_quiet by (intros n Hn Ha; apply Hq; eauto). reflexivity.
Qed.
Print Assumptions C75_ids.

(** In particular, if no engine has come or left between answer and subscription, and the client has handled all notices, client.ids lists the ids of the Hub's engines. *)
Theorem C75_up_to_date : forall enum w1 w2 w3, Answer ∉ w1 -> Subscribe ∉ w2 -> AtHub Restart ∉ w2 ++ w3 ->
  let answered := run enum (w1 ++ [Answer]) in let subscribed := run enum (w1 ++ Answer :: w2 ++ [Subscribe]) in let now := run enum (w1 ++ Answer :: w2 ++ Subscribe :: w3) in
  begun now = true -> between answered subscribed = [] -> inbox now = [] ->
  (forall i, i ∈ ids now <-> exists u, at_hub now i u) /\ (forall i u, uuid_of now i = Some u <-> at_hub now i u).
Proof.
  intros enum w1 w2 w3 H1 H2 H3 w v s Hb Hw Hi. destruct (C75_ids enum w1 w2 w3 H1 H2 H3 Hb) as (_ & Hids & past & rest & E3 & Ht & Hk). fold s in Ht, Hk, Hids. rewrite Hi in Ht.
  assert (Hq : forall i, ~ heard_of w v i) by (intros i (n & Hn & _); rewrite Hw in Hn; inversion Hn).
  assert (Hru : forall i u, uuid_of s i = Some u <-> at_hub s i u).
  { intros i u. destruct (Hk i) as [Hk1 _]. rewrite (Hk1 (or_introl (Hq i))).
    set (t := run enum (w1 ++ Answer :: w2 ++ Subscribe :: past)) in *.
    assert (It : winv t) by apply winv_go, winv_start. assert (Es : s = go enum rest t).
    { unfold s, t, run, go. rewrite <- fold_left_app. f_equal. rewrite E3, <- app_assoc. cbn [app]. rewrite <- app_assoc. reflexivity. }
    assert (Hrr : no_restart rest) by (intros H; apply H3; rewrite E3, !elem_of_app; auto).
    assert (Rs : forall j, reg (hub s) j = reg (hub t) j).
    { intros j. rewrite Es. unfold between in Ht. rewrite Es in Ht. clear - It Hrr Ht. revert Ht. generalize (told_prefix enum t It).
      induction rest as [|e rest IH] using rev_ind; intros Hp Ht; [reflexivity|].
      destruct (Hp rest (no_restart_app _ _ Hrr)) as [Hn _]. destruct (told_step enum t rest e It Hrr Hn) as (_ & l & El & _ & Rl & _).
      unfold told_in, public in El. rewrite Ht in El. symmetry in El. apply app_nil in El as [El1 ->]. rewrite Rl. apply IH; [exact (no_restart_app _ _ Hrr)|exact Hp|exact El1]. }
    assert (Is : winv s) by (rewrite Es; apply winv_go, It). rewrite !at_hub_reg by (apply w_keys; assumption). rewrite Rs. reflexivity. }
  split; [|exact Hru]. intros i. rewrite Hids. split; [intros [u E]; exists u; apply Hru, E|intros [u E]; exists u; apply Hru, E].
Qed.
Print Assumptions C75_up_to_date.

(* ---------------------------------------------------------------- examples, and what is not true *)
Definition join (u : nat) : list (Conn_Spec.event Client_Model.event) := [AtHub (Register u None); AtHub (NewHeart u)].
(** Engine 0 joins before, engine 1 after the connection, 0 leaves; the client has handled the first notice only, and is sending a task. *)
Example C75_example : let w3 := join 11 ++ [Begin; AtHub (Unregister 0); Deliver; Own (Send (Plain 1) (Some 11))] in
  let s := run elements (join 10 ++ Answer :: [] ++ Subscribe :: w3) in
  begun s = true /\ ids s = [0; 1] /\ inbox s = [Unregistered 0 10] /\ Hub_Model.engines (hub s) = [(1, 11)] /\
  ids (run elements (join 10 ++ Answer :: [] ++ Subscribe :: w3 ++ [Deliver])) = [1] /\ between (run elements (join 10 ++ [Answer])) (run elements (join 10 ++ Answer :: [] ++ [Subscribe])) = [].
Proof. vm_compute. repeat split. Qed.

Lemma hub_still enum l : forall w3, (forall e, AtHub e ∉ w3) -> hub (run enum (l ++ w3)) = hub (run enum l).
Proof.
  intros w3. induction w3 as [|e w3 IH] using rev_ind; intros H; [rewrite app_nil_r; reflexivity|]. rewrite <- IH by (intros x Hx; apply (H x), elem_of_app; left; exact Hx).
  unfold run at 1. rewrite app_assoc, fold_left_app. fold (run enum (l ++ w3)). generalize (run enum (l ++ w3)). intros w. cbn [fold_left].
  destruct e as [e| | | | |e]; cbn [Conn_Model.step]; repeat case_match; try reflexivity; destruct (H e); apply elem_of_app; right; left.
Qed.
Lemma race w1 w2 w3 i : Answer ∉ w1 -> Subscribe ∉ w2 -> AtHub Restart ∉ w2 -> (forall e, AtHub e ∉ w3) ->
  let s := run elements (w1 ++ Answer :: w2 ++ Subscribe :: w3) in begun s = true ->
  hub s = hub (run elements (w1 ++ Answer :: w2 ++ [Subscribe])) /\ (i ∈ ids s <-> exists u, at_hub (run elements (w1 ++ [Answer])) i u).
Proof.
  intros H1 H2 H2' Hw3 s Hb. assert (Hh : forall w3, (forall e, AtHub e ∉ w3) -> hub (run elements (w1 ++ Answer :: w2 ++ Subscribe :: w3)) = hub (run elements (w1 ++ Answer :: w2 ++ [Subscribe]))).
  { intros w4 H4. rewrite <- (hub_still elements (w1 ++ Answer :: w2 ++ [Subscribe]) w4 H4). do 2 f_equal. rewrite <- app_assoc. cbn [app]. rewrite <- app_assoc. reflexivity. }
  split; [apply Hh, Hw3|]. destruct (C75_ids elements w1 w2 w3 H1 H2) as (_ & Hids & past & rest & E & _ & Hk).
  { intros H. apply elem_of_app in H as [H|H]; [exact (H2' H)|exact (Hw3 _ H)]. }
  { exact Hb. }
  fold s in Hids, Hk. rewrite Hids. destruct (Hk i) as [_ Hk2].
  assert (Hq : ~ heard_of (run elements (w1 ++ Answer :: w2 ++ [Subscribe])) (run elements (w1 ++ Answer :: w2 ++ Subscribe :: past)) i).
  { intros (n & Hn & Ha). assert (Hp : forall e, AtHub e ∉ past) by (intros e He; apply (Hw3 e); rewrite E; apply elem_of_app; left; exact He).
    unfold between in Hn. rewrite (Hh past Hp), drop_all in Hn. inversion Hn. }
  split; [intros [u Hu]; exists u; apply Hk2; assumption|intros [u Hu]; exists u; apply Hk2; assumption].
Qed.
Ltac absent := let H := fresh in intros H; repeat (apply elem_of_cons in H as [H|H]; [discriminate|]); inversion H.
(** The race: the client subscribes only after it has the answer.  An engine that registers in between is never seen by the client, whatever it does,
    unless the Hub tells something more: here the Hub has engines 0 and 1, and client.ids remains [0]. *)
Theorem C75_race_new_refuted : exists w1 w2, forall w3, (forall e, AtHub e ∉ w3) -> let s := run elements (w1 ++ Answer :: w2 ++ Subscribe :: w3) in
  begun s = true -> Hub_Model.engines (hub s) = [(0, 10); (1, 11)] /\ 1 ∉ ids s.
Proof.
  exists (join 10), (join 11). intros w3 Hw3 s Hb. destruct (race (join 10) (join 11) w3 1 ltac:(absent) ltac:(absent) ltac:(absent) Hw3 Hb) as [Eh Hi]. split; [unfold s; rewrite Eh; vm_compute; reflexivity|].
  fold s in Hi. rewrite Hi. intros [u Hu]. vm_compute in Hu. destruct Hu as [[=]|[]].
Qed.
Print Assumptions C75_race_new_refuted.
(** ... and an engine that leaves in between remains in client.ids: requests sent to it are never answered, and never fail. *)
Theorem C75_race_dead_refuted : exists w1 w2, forall w3, (forall e, AtHub e ∉ w3) -> let s := run elements (w1 ++ Answer :: w2 ++ Subscribe :: w3) in
  begun s = true -> Hub_Model.engines (hub s) = [] /\ 0 ∈ ids s.
Proof.
  exists (join 10), [AtHub (Unregister 0)]. intros w3 Hw3 s Hb. destruct (race (join 10) [AtHub (Unregister 0)] w3 0 ltac:(absent) ltac:(absent) ltac:(absent) Hw3 Hb) as [Eh Hi].
  split; [unfold s; rewrite Eh; vm_compute; reflexivity|]. apply Hi. exists 10. vm_compute. auto.
Qed.
Print Assumptions C75_race_dead_refuted.
