(** C89: `X_sync(...)` gives what `X` comes to. *)
From Coq Require Import String List Bool PeanoNat Lia.
Import ListNotations.
From Verif Require Import Sync_Spec Sync_Model Sync_Proofs.

(** What coroutine [c] has done. *)
Definition did (c : nat) (lg : list (nat * act)) : list act :=
  map snd (filter (fun p => fst p =? c) lg).

(** A caller that is given an outcome is given that of its own call, and then
    the coroutine has run, once, to its end: whatever other calls are made at
    the same time, from whatever threads. *)
Theorem C89_own T s c o : reach T s -> pcs s c = Done (Out o) ->
  exists x, nth_error T c = Some x /\ o = out x /\ did c (log s) = body x.
Proof.
  intros R E. pose proof (inv_reach T s R) as [N I P L].
  destruct (L c) as [x Hx]; [congruence|]. exists x. specialize (P c). unfold good_pc in P.
  rewrite E in P. destruct P as [P1 P2]. unfold bod in P1. unfold outc in P2. rewrite Hx in P1, P2. auto.
Qed.
Print Assumptions C89_own.

(** No coroutine does more than once what it is written to do, nor out of
    order. *)
Theorem C89_once T s c x : reach T s -> nth_error T c = Some x ->
  exists rest, body x = did c (log s) ++ rest.
Proof.
  intros R Hx. pose proof (inv_reach T s R) as [N I P L]. specialize (P c). unfold good_pc in P.
  assert (B : bod T c = body x) by (unfold bod; rewrite Hx; reflexivity).
  assert (Z : acts c (log s) = [] -> exists rest, body x = did c (log s) ++ rest).
  { intro Z. exists (body x). change (did c (log s)) with (acts c (log s)). rewrite Z. reflexivity. }
  assert (F : acts c (log s) = bod T c -> exists rest, body x = did c (log s) ++ rest).
  { intro F. exists []. change (did c (log s)) with (acts c (log s)). rewrite F, B, app_nil_r. reflexivity. }
  destruct (pcs s c) as [| | | | | |e| | |l|c' l|r]; try (apply Z; apply P).
  - destruct P as [P|[P _]]; [|apply F, P].
    apply ids_in in P as (t & i & l & Hi & V). destruct (I _ _ _ _ Hi V) as (a & _).
    exists l. rewrite <- B, <- a. reflexivity.
  - exists l. rewrite <- B. symmetry. apply P.
  - exists l. rewrite <- B. symmetry. apply P.
  - destruct r as [o| |]; [apply F, P|apply Z, P|apply Z, P].
Qed.
Print Assumptions C89_once.

(** A caller that gets one of the two errors of the wrapper: its coroutine did
    nothing. *)
Theorem C89_not_begun T s c : reach T s -> pcs s c = Done NoLoop \/ pcs s c = Done Twice ->
  did c (log s) = [].
Proof.
  intros R E. pose proof (inv_reach T s R) as [N I P L]. specialize (P c). unfold good_pc in P.
  destruct E as [E|E]; rewrite E in P; apply P.
Qed.
Print Assumptions C89_not_begun.

(** Every call returns: if no coroutine makes `_sync` calls, in every
    interleaving there are only so many steps; and if none ends in a
    cancellation or exit, when nothing can happen any more every call has
    returned. *)
Theorem C89_ends T n s : no_sync T -> steps T n init s ->
  n <= fold_right (fun x a => 20 + length (body x) + a) 0 T /\
  (no_base T -> (forall b s', ~ step T b s s') ->
   forall c, c < length T -> exists r, pcs s c = Done r).
Proof.
  intros NS H. split.
  - pose proof (steps_meas T n s NS H) as M. rewrite meas_init in M. unfold total in M. lia.
  - intros NB ST. apply stuck_done; auto. exists n. exact H.
Qed.
Print Assumptions C89_ends.

(** If, until there is a loop, no two calls are at the beginning at once, and
    the thread takes less than five seconds to start, no call gets the errors
    of the wrapper. *)
Theorem C89_calm T s c r : no_sync T -> calm T init s -> pcs s c = Done r -> exists o, r = Out o.
Proof.
  intros NS H E. destruct (j_res s (calm_run T s NS H) c) as [A B].
  destruct r; [eauto|congruence|congruence].
Qed.
Print Assumptions C89_calm.

(** Nor, however many are made at once, does any call begun after there is a
    loop, *)
Theorem C89_up T s n s' c r : reach T s -> loop s <> None -> pcs s c = Idle ->
  steps T n s s' -> pcs s' c = Done r -> exists o, r = Out o.
Proof.
  intros R U E H D. destruct (up_steps T n s s' (aux_reach T s R) U H) as (_ & _ & S).
  specialize (S c). rewrite E, D in S. specialize (S I). destruct r; [eauto|destruct S|destruct S].
Qed.
Print Assumptions C89_up.

Definition No_answer (T : list call) (s : st) : Prop :=
  forall c x, nth_error T c = Some x -> in_loop x = true ->
    (forall l, pcs s c <> Own l) /\ (forall c' l, pcs s c <> OwnIn c' l) /\
    (loop s = None -> pcs s c <> Fut /\ forall o, pcs s c <> Done (Out o)).
Lemma no_answer_reach T s : reach T s -> No_answer T s.
Proof.
  intros [n H]. remember init as s0 eqn:E0.
  induction H as [s|n b s1 s2 s3 H IH J]; [subst|].
  - intros c x _ _. cbn. split; [|split]; intros; try split; intros; discriminate.
  - specialize (IH E0). assert (AX : Aux s2) by (apply (aux_reach T); exists n; subst s1; exact H).
    assert (K : forall c p,
       (forall x, nth_error T c = Some x -> in_loop x = true ->
          (forall l, p <> Own l) /\ (forall c' l, p <> OwnIn c' l) /\
          (loop s2 = None -> p <> Fut /\ forall o, p <> Done (Out o))) ->
       forall c0 x, nth_error T c0 = Some x -> in_loop x = true ->
          (forall l, upd (pcs s2) c p c0 <> Own l) /\ (forall c' l, upd (pcs s2) c p c0 <> OwnIn c' l) /\
          (loop s2 = None -> upd (pcs s2) c p c0 <> Fut /\ forall o, upd (pcs s2) c p c0 <> Done (Out o))).
    { intros c p Hp c0 x Hx Ix. destruct (Nat.eq_dec c0 c) as [->|ne]; [rewrite upd_eq; eauto|].
      rewrite upd_ne by assumption. exact (IH c0 x Hx Ix). }
    destruct J; unfold No_answer, set_pc, note, set_ev, set_tha, set_th, set_pool, set_loop, raise_ev; cbn [pcs loop];
      try exact IH;
      try (apply K; intros x0 Hx0 Ix0; split; [discriminate|split; [discriminate|intros _; split; [discriminate|intro; discriminate]]]).
    + apply K. intros x0 Hx0 Ix0. assert (x0 = x) by congruence. subst x0. unfold entry. rewrite Ix0.
      split; [discriminate|split; [discriminate|intros _; split; [discriminate|intro; discriminate]]].
    + apply K. intros x0 _ _. split; [discriminate|split; [discriminate|congruence]].
    + apply K. intros x0 Hx0 Ix0. split; [discriminate|split; [discriminate|]]. intro D.
      destruct (IH c x0 Hx0 Ix0) as (_ & _ & Q). destruct (Q D) as [Q' _]. congruence.
    + apply K. intros x0 Hx0 Ix0. exfalso. destruct (IH c x0 Hx0 Ix0) as (Q & _). exact (Q _ H0).
    + apply K. intros x0 Hx0 Ix0. exfalso. destruct (IH c x0 Hx0 Ix0) as (Q & _). exact (Q _ H0).
    + intros c0 x0 Hx0 Ix0. destruct (Nat.eq_dec c0 c) as [->|ne].
      * exfalso. destruct (IH c x0 Hx0 Ix0) as (Q & _). exact (Q _ H0).
      * rewrite (upd_ne _ c) by assumption. revert c0 x0 Hx0 Ix0 ne.
        intros c0 x0 Hx0 Ix0 _. apply (K c' Chk) with (x := x0); auto.
        intros _ _ _. split; [discriminate|split; [discriminate|intros _; split; [discriminate|intro; discriminate]]].
    + apply K. intros x0 Hx0 Ix0. exfalso. destruct (IH c x0 Hx0 Ix0) as (_ & Q & _). exact (Q _ _ H0).
    + intros c0 x0 Hx0 Ix0. destruct (IH c0 x0 Hx0 Ix0) as (A & B & _). split; [exact A|split; [exact B|discriminate]].
    + intros c0 x0 Hx0 Ix0. destruct (out x); exact (IH c0 x0 Hx0 Ix0).
Qed.

(** and there is one as soon as one call from a thread with a running event
    loop has been given its outcome. *)
Theorem C89_up_since T s c x o : reach T s -> nth_error T c = Some x -> in_loop x = true ->
  pcs s c = Done (Out o) -> loop s <> None.
Proof.
  intros R Hx Ix E D. destruct (no_answer_reach T s R c x Hx Ix) as (_ & _ & Q).
  destruct (Q D) as [_ Q']. exact (Q' o E).
Qed.
Print Assumptions C89_up_since.

(** `dir` lists [X_sync] for exactly the methods that are coroutine functions
    as the object sees them; each of these can be called so, *)
Lemma dir_class_spec c : forall seen acc k,
  (In k (fst (dir_class c seen acc)) <-> In k seen \/ lookup k c <> None) /\
  (In k (snd (dir_class c seen acc)) <-> In k acc \/ (~ In k seen /\ lookup k c = Some Coro)).
Proof.
  induction c as [|[k' m] r IH]; intros seen acc k; cbn [dir_class lookup].
  - cbn. split; intuition congruence.
  - destruct (existsb (String.eqb k') seen) eqn:X.
    + apply existsb_exists in X as (y & Hy & Ey). apply String.eqb_eq in Ey. subst y.
      destruct (IH seen acc k) as [A B]. rewrite A, B.
      destruct (String.eqb_spec k k') as [->|ne]; [|tauto].
      split; split; intros; intuition congruence.
    + assert (NX : ~ In k' seen).
      { intro Hi. assert (existsb (String.eqb k') seen = true); [|congruence].
        apply existsb_exists. exists k'. split; [exact Hi|apply String.eqb_refl]. }
      destruct (IH (k' :: seen) (match m with Coro => acc ++ [k'] | _ => acc end) k) as [A B].
      rewrite A, B. destruct (String.eqb_spec k k') as [->|ne].
      * split; [cbn; intuition congruence|].
        destruct m; rewrite ?in_app_iff; cbn [In]; intuition congruence.
      * split; [cbn; intuition congruence|].
        assert (Y : In k (match m with Coro => acc ++ [k'] | _ => acc end) <-> In k acc).
        { destruct m; try reflexivity. rewrite in_app_iff. cbn. intuition congruence. }
        rewrite Y. cbn [In]. intuition congruence.
Qed.
Lemma dir_mro_spec mro : forall seen acc k,
  In k (dir_mro mro seen acc) <-> In k acc \/ (~ In k seen /\ in_mro k mro = Some Coro).
Proof.
  induction mro as [|c r IH]; intros seen acc k; cbn [dir_mro in_mro].
  - intuition congruence.
  - destruct (dir_class_spec c seen acc k) as [A B].
    destruct (dir_class c seen acc) as [seen' acc'] eqn:E. cbn [fst snd] in A, B.
    rewrite IH, A, B. destruct (lookup k c) eqn:L.
    + intuition congruence.
    + intuition congruence.
Qed.
Theorem C89_dir mro x : In x (dir_sync mro) <-> in_mro x mro = Some Coro.
Proof. unfold dir_sync. rewrite dir_mro_spec. cbn. intuition. Qed.
Print Assumptions C89_dir.
Theorem C89_dir_works inst mro x : In x (dir_sync mro) -> lookup x inst = None -> has_sync inst mro x = true.
Proof. intros H L. apply C89_dir in H. unfold has_sync, getattribute. rewrite L, H. reflexivity. Qed.
Print Assumptions C89_dir_works.
(** and what is no coroutine function cannot. *)
Theorem C89_no_sync inst mro x : getattribute inst mro x = Some Other \/ getattribute inst mro x = None ->
  has_sync inst mro x = false.
Proof. intros [E|E]; unfold has_sync; rewrite E; reflexivity. Qed.
Print Assumptions C89_no_sync.
Example C89_ex_dir :
  let mro := [[("start"%string, Coro); ("n"%string, Other)]; [("start"%string, Other); ("stop"%string, Coro)]] in
  dir_sync mro = ["start"%string; "stop"%string] /\ has_sync [] mro "stop" = true /\ has_sync [] mro "n" = false.
Proof. split; [reflexivity|split; reflexivity]. Qed.
(** A classmethod can be called so, but is not listed. *)
Theorem C89_dir_all_refuted : ~ (forall mro x, has_sync [] mro x = true -> In x (dir_sync mro)).
Proof.
  intro H. specialize (H [[("from_file"%string, WrappedCoro)]] "from_file"%string eq_refl). cbn in H. exact H.
Qed.

(** ** Runs *)
Lemma go T b s s1 (P : st -> Prop) : step T b s s1 ->
  (exists n s', steps T n s1 s' /\ P s') -> exists n s', steps T n s s' /\ P s'.
Proof.
  intros H (n & s' & R & Q). exists (S n), s'. split; [|exact Q].
  clear Q. induction R as [s1|n b' a1 a2 a3 R IH J].
  - eapply RCons; [apply RNil|exact H].
  - eapply RCons; [apply IH; exact H|exact J].
Qed.
Lemma here T s (P : st -> Prop) : P s -> exists n s', steps T n s s' /\ P s'.
Proof. intro H. exists 0, s. split; [constructor|exact H]. Qed.
Tactic Notation "st" open_constr(H) := eapply go; [eapply H; try reflexivity;
  try (intros (?c & ?c' & ?l & Hb); cbn in Hb; intuition discriminate) |].

(** Two calls, one in a thread with a running loop, one without, both return
    what they are to return. *)
Definition T2 := [Call true [Yield; Yield] (Ret 7); Call false [Yield] (Raise 3)].
Example C89_ex_two : no_sync T2 /\ no_base T2 /\
  exists n s, steps T2 n init s /\ pcs s 0 = Done (Out (Ret 7)) /\ pcs s 1 = Done (Out (Raise 3)).
Proof.
  split; [|split].
  - intros x c [<-|[<-|[]]] H; cbn in H; intuition discriminate.
  - intros x e [<-|[<-|[]]] _; discriminate.
  - st (SCall T2 init 0). st (SChkNew T2 _ 0). st (SMkEv T2 _ 0). st (SMkTh T2 _ 0).
    st (SStart T2 _ 0 0). st (SRd T2 _ 0). st (SCall T2 _ 1). st (SOwnYield T2 _ 1).
    st (ST38 T2 _ 0). st (ST39 T2 _ 0 0). st (SSetEv T2 _ 0 0 [] []). st (SWait T2 _ 0 0).
    st (SSub T2 _ 0 _ 0). st (SCoYield T2 _ 0 0 [Yield] [] []). st (SOwnEnd T2 _ 1).
    st (SCoYield T2 _ 0 0 [] [] []). st (SCoEnd T2 _ 0 0 _ [] []). st (SFut T2 _ 0).
    apply here. split; reflexivity.
Qed.

(** A coroutine that ends in a cancellation (or exit) in the background: its
    caller waits for ever. *)
Definition Tc := [Call true [] (Base 0)].
Ltac none := match goal with
  | H : upd _ _ _ ?c = _ |- _ => destruct c as [|[|?c]]; cbn in H; discriminate end.
Theorem C89_cancelled_refuted : exists T, no_sync T /\ exists s, reach T s /\ pcs s 0 = Fut /\ forall b s', ~ step T b s s'.
Proof.
  exists Tc. split; [intros x c [<-|[]] []|].
  assert (G : exists n s, steps Tc n init s /\ (pcs s 0 = Fut /\ fut s 0 = None /\ (forall c, pcs s (S c) = Idle) /\
      pool s = [] /\ ths s 0 = Run /\ forall t, ths s (S t) = Off)).
  { st (SCall Tc init 0). st (SChkNew Tc _ 0). st (SMkEv Tc _ 0). st (SMkTh Tc _ 0).
    st (SStart Tc _ 0 0). st (SRd Tc _ 0). st (ST38 Tc _ 0). st (ST39 Tc _ 0 0).
    st (SSetEv Tc _ 0 0 [] []). st (SWait Tc _ 0 0). st (SSub Tc _ 0 _ 0). st (SCoEnd Tc _ 0 0 _ [] []).
    apply here. repeat split. }
  destruct G as (n & s & R & A & B & C & D & E & F). exists s. split; [exists n; exact R|]. split; [exact A|].
  assert (PC : forall c p, pcs s c = p -> p = Fut /\ c = 0 \/ p = Idle /\ exists c0, c = S c0).
  { intros [|c] p Hp; [left; split; [congruence|reflexivity]|right; rewrite C in Hp; split; [congruence|eauto]]. }
  assert (TH : forall t p, ths s t = p -> p = Run \/ p = Off).
  { intros [|t] p Hp; [left; congruence|right; rewrite F in Hp; congruence]. }
  intros b s' H. destruct H;
    try (match goal with H : pcs s ?k = _ |- _ => destruct (PC _ _ H) as [[Z1 Z2]|[Z1 [c0 Z2]]]; try discriminate; subst k end);
    try (match goal with H : ths s _ = _ |- _ => destruct (TH _ _ H) as [Z|Z]; discriminate end);
    try congruence;
    try (match goal with H : pool s = _ |- _ => rewrite D in H; destruct p1; discriminate end).
  - destruct c0; discriminate.
  - destruct c0; discriminate.
Qed.

(** A coroutine in the background that makes a `_sync` call itself: it and its
    caller wait for ever, and so does everybody else in that loop. *)
Definition Tn := [Call true [Sync 1] (Ret 1); Call true [] (Ret 2)].
Theorem C89_nested_refuted : exists T, no_base T /\ exists s, reach T s /\ pcs s 0 = Fut /\ pcs s 1 = Fut /\ forall b s', ~ step T b s s'.
Proof.
  exists Tn. split; [intros x e [<-|[<-|[]]] _; discriminate|].
  assert (G : exists n s, steps Tn n init s /\ (pcs s 0 = Fut /\ pcs s 1 = Fut /\ (forall c, fut s c = None) /\
      (forall c, pcs s (S (S c)) = Idle) /\
      pool s = [(0, InC 0 1 []); (0, Co 1 [])] /\ ths s 0 = Run /\ forall t, ths s (S t) = Off)).
  { st (SCall Tn init 0). st (SChkNew Tn _ 0). st (SMkEv Tn _ 0). st (SMkTh Tn _ 0).
    st (SStart Tn _ 0 0). st (SRd Tn _ 0). st (ST38 Tn _ 0). st (ST39 Tn _ 0 0).
    st (SSetEv Tn _ 0 0 [] []). st (SWait Tn _ 0 0). st (SSub Tn _ 0 _ 0). st (SCoSync Tn _ 0 0 1 _ [] [] []).
    st (SChkOld Tn _ 1 0). st (SSub Tn _ 1 _ 0).
    apply here. repeat split. }
  destruct G as (n & s & R & A & A' & B & C & D & E & F). exists s. split; [exists n; exact R|]. split; [exact A|]. split; [exact A'|].
  assert (PC : forall c p, pcs s c = p -> p = Fut \/ p = Idle /\ exists c0, c = S (S c0)).
  { intros [|[|c]] p Hp; [left; congruence|left; congruence|right; rewrite C in Hp; split; [congruence|eauto]]. }
  assert (TH : forall t p, ths s t = p -> (p = Run /\ t = 0) \/ p = Off).
  { intros [|t] p Hp; [left; split; congruence|right; rewrite F in Hp; congruence]. }
  assert (BL : blocked s 0) by (exists 0, 1, []; rewrite D; left; reflexivity).
  assert (PL : forall p1 t i p2, pool s = p1 ++ (t, i) :: p2 -> t = 0 /\ (i = InC 0 1 [] \/ i = Co 1 [])).
  { intros p1 t i p2 Hp. assert (Hi : In (t, i) (pool s)) by (rewrite Hp; apply in_elt).
    rewrite D in Hi. destruct Hi as [Hi|[Hi|[]]]; injection Hi as <- <-; auto. }
  intros b s' H. destruct H;
    try (match goal with H : pool s = _ |- _ => destruct (PL _ _ _ _ H) as [Z0 [Z|Z]]; subst t; try discriminate end);
    try contradiction;
    try (match goal with H : pcs s _ = _ |- _ => destruct (PC _ _ H) as [Z1|[Z1 [c0 Z2]]]; discriminate end);
    try (match goal with H : ths s _ = _ |- _ => destruct (TH _ _ H) as [[Z1 Z2]|Z1]; discriminate end).
  - destruct (PC _ _ H0) as [Z1|[Z1 [c0 Z2]]]; [discriminate|]. subst c. destruct c0; discriminate.
  - rewrite B in H0. discriminate.
Qed.

(** Two threads that are the first to make a `_sync` call: one of them can get
    an AttributeError, and, another time, a RuntimeError. *)
Definition Tr := [Call true [] (Ret 1); Call true [] (Ret 2)].
Theorem C89_race_refuted :
  (exists n s, steps Tr n init s /\ pcs s 1 = Done NoLoop) /\
  (exists n s, steps Tr n init s /\ pcs s 1 = Done Twice).
Proof.
  split.
  - st (SCall Tr init 0). st (SCall Tr _ 1). st (SChkNew Tr _ 0). st (SMkEv Tr _ 0). st (SMkTh Tr _ 0).
    st (SChkOld Tr _ 1 0). st (SSubNo Tr _ 1). apply here. reflexivity.
  - st (SCall Tr init 0). st (SCall Tr _ 1). st (SChkNew Tr _ 0). st (SChkNew Tr _ 1).
    st (SMkEv Tr _ 0). st (SMkEv Tr _ 1). st (SMkTh Tr _ 1). st (SMkTh Tr _ 0).
    st (SStart Tr _ 0 0). st (STwice Tr _ 1 0); [cbn; discriminate|]. apply here. reflexivity.
Qed.

(** A call from its own loop may make `_sync` calls. *)
Definition To := [Call false [Sync 1; Yield] (Ret 1); Call true [] (Ret 2)].
Example C89_ex_inner : exists n s, steps To n init s /\ pcs s 0 = Done (Out (Ret 1)) /\ pcs s 1 = Done (Out (Ret 2)).
Proof.
  st (SCall To init 0). st (SOwnSync To _ 0 1). st (SChkNew To _ 1). st (SMkEv To _ 1). st (SMkTh To _ 1).
  st (SStart To _ 1 1). st (SRd To _ 1). st (ST38 To _ 1). st (ST39 To _ 1 1).
  st (SSetEv To _ 1 1 [] []). st (SWait To _ 1 1). st (SSub To _ 1 _ 1). st (SCoEnd To _ 1 1 _ [] []).
  st (SFut To _ 1). st (SOwnBack To _ 0 1). st (SOwnYield To _ 0). st (SOwnEnd To _ 0).
  apply here. split; reflexivity.
Qed.
(** A calm run. *)
Example C89_ex_calm : exists s, calm Tr init s /\ pcs s 0 = StartTh /\ loop s = None.
Proof.
  eexists. split.
  - eapply CCons; [eapply CCons; [eapply CCons; [eapply CCons; [apply CNil| |]| |]| |]| |].
    + eapply (SCall Tr init 0); reflexivity.
    + intros c _ _. right. intros c' H. exact H.
    + eapply (SChkNew Tr _ 0); reflexivity.
    + intros c E. destruct c as [|c]; cbn in E; [discriminate|]. intro H. destruct H.
    + eapply (SMkEv Tr _ 0); reflexivity.
    + intros c E. destruct c as [|c]; cbn in E; [discriminate|]. intro H. destruct H.
    + eapply (SMkTh Tr _ 0); reflexivity.
    + intros c E. destruct c as [|c]; cbn in E; [discriminate|]. intro H. destruct H.
  - split; reflexivity.
Qed.
