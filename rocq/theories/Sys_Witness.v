(** Executing concrete histories of the composed system. *)
From stdpp Require Import base gmap sets list.
From Verif Require Import Dependency_Model Sched_Trace Sched_Model Sched_Witness.
From Verif Require Import Sys_Model.
From Verif Require Client_Model.
From Coq Require Import ZArith.

Inductive act :=
| Join (c : nat) | Submit (c : nat) (md : taskmd) | Connect (e : nat) | Die (e : nat) | Lose (e m : nat) (o : outcome) | Timeout (j tid : nat)
| SSubmit (c : nat) | SResult (e : nat) | SHub | SStrand (e : nat) | Begin (e : nat) | Abort (e : nat) | End (e : nat) (o : outcome) | Notice (e : nat) | CReply (c : nat) | CTold (c : nat).

Definition none (e : nat) (l : list (nat * nat)) : bool := forallb (fun x => negb (fst x =? e)) l.
Lemma none_ok e l : none e l = true -> forall m, (e, m) ∉ l.
Proof. intros H m X. unfold none in H. rewrite forallb_forall in H. apply elem_of_list_In, H in X. cbn in X. rewrite Nat.eqb_refl in X. discriminate. Qed.
Fixpoint first (e : nat) (l : list (nat * nat)) : option (list (nat * nat) * nat * list (nat * nat)) :=
  match l with
  | [] => None
  | (a, b) :: l => if a =? e then Some ([], b, l) else match first e l with Some (l1, m, l2) => Some ((a, b) :: l1, m, l2) | None => None end
  end.
Lemma first_ok e l : forall l1 m l2, first e l = Some (l1, m, l2) -> l = l1 ++ (e, m) :: l2 /\ forall m', (e, m') ∉ l1.
Proof.
  induction l as [|[a b] l IH]; intros l1 m l2; cbn [first]; [discriminate|]. destruct (a =? e) eqn:E.
  - intros [= <- <- <-]. apply Nat.eqb_eq in E as ->. split; [reflexivity|]. intros m' X. inversion X.
  - destruct (first e l) as [[[k1 m0] k2]|]; [|discriminate]. intros [= <- <- <-]. destruct (IH _ _ _ eq_refl) as [-> H]. split; [reflexivity|].
    apply Nat.eqb_neq in E. intros m' X. apply elem_of_cons in X as [X|X]; [congruence|]. exact (H m' X).
Qed.
Fixpoint first3 (e : nat) (l : list (nat * nat * outcome)) : option (list (nat * nat * outcome) * nat * outcome * list (nat * nat * outcome)) :=
  match l with
  | [] => None
  | (a, b, o) :: l => if a =? e then Some ([], b, o, l) else match first3 e l with Some (l1, m, o', l2) => Some ((a, b, o) :: l1, m, o', l2) | None => None end
  end.
Lemma first3_ok e l : forall l1 m o l2, first3 e l = Some (l1, m, o, l2) -> l = l1 ++ (e, m, o) :: l2 /\ forall m' o', (e, m', o') ∉ l1.
Proof.
  induction l as [|[[a b] c] l IH]; intros l1 m o l2; cbn [first3]; [discriminate|]. destruct (a =? e) eqn:E.
  - intros [= <- <- <- <-]. apply Nat.eqb_eq in E as ->. split; [reflexivity|]. intros m' o' X. inversion X.
  - destruct (first3 e l) as [[[[k1 m0] o0] k2]|]; [|discriminate]. intros [= <- <- <- <-]. destruct (IH _ _ _ _ eq_refl) as [-> H]. split; [reflexivity|].
    apply Nat.eqb_neq in E. intros m' o' X. apply elem_of_cons in X as [X|X]; [congruence|]. exact (H m' o' X).
Qed.
Definition none3 (e : nat) (l : list (nat * nat * outcome)) : bool := forallb (fun x => negb (fst (fst x) =? e)) l.
Lemma none3_ok e l : none3 e l = true -> forall m o, (e, m, o) ∉ l.
Proof. intros H m o X. unfold none3 in H. rewrite forallb_forall in H. apply elem_of_list_In, H in X. cbn in X. rewrite Nat.eqb_refl in X. discriminate. Qed.

Fixpoint first_of {A} (f : A -> bool) (l : list A) : option (list A * A * list A) :=
  match l with
  | [] => None
  | x :: l => if f x then Some ([], x, l) else match first_of f l with Some (l1, y, l2) => Some (x :: l1, y, l2) | None => None end
  end.
Lemma first_of_ok {A} (f : A -> bool) l : forall l1 x l2, first_of f l = Some (l1, x, l2) -> l = l1 ++ x :: l2 /\ f x = true /\ forall y, y ∈ l1 -> f y = false.
Proof.
  induction l as [|a l IH]; intros l1 x l2; cbn [first_of]; [discriminate|]. destruct (f a) eqn:E.
  - intros [= <- <- <-]. split; [reflexivity|]. split; [exact E|]. intros y X. inversion X.
  - destruct (first_of f l) as [[[k1 m0] k2]|]; [|discriminate]. intros [= <- <- <-]. destruct (IH _ _ _ eq_refl) as (-> & H1 & H2). split; [reflexivity|]. split; [exact H1|].
    intros y X. apply elem_of_cons in X as [->|X]; [exact E|exact (H2 y X)].
Qed.
Definition of_client {A} (s : sys) (c : nat) (x : nat * A) : bool := bool_decide (client_of s (fst x) = Some c).

Section Drive.
Context (allowed : sys -> nat -> taskmd -> Prop) (allowedb : sys -> nat -> taskmd -> bool) (Hb : forall s c md, allowedb s c md = true -> allowed s c md).
Notation st := (step 1 ll 50).
Definition perform (s : sys) (a : act) : option sys :=
  match a with
  | Join c => if decide (c ∉ joined s) then Some (Sys (events s) (next_id s) (to_sched s) (sch s) (inbox s) (busy s) (lost s) (outbox s) (replies s) (hub_s s)
      (hub_c s ++ map (fun e => (c, (true, e))) (filter (fun e => e ∉ noticed s) (connected s)))
      (connected s) (dead s) (noticed s) (begun s) (ended s) (owners s) (c :: joined s)) else None
  | Submit c md => if decide (c ∈ joined s) then if allowedb s c md then Some (Sys (events s ++ [(c, Client_Model.Send (Client_Model.Plain (next_id s)) None)]) (S (next_id s)) (to_sched s ++ [(next_id s, md)]) (sch s)
      (inbox s) (busy s) (lost s) (outbox s) (replies s) (hub_s s) (hub_c s) (connected s) (dead s) (noticed s) (begun s) (ended s) (owners s ++ [c]) (joined s)) else None else None
  | Connect e => if decide (e ∉ connected s) then Some (Sys (events s) (next_id s) (to_sched s) (sch s) (inbox s) (busy s) (lost s) (outbox s) (replies s) (hub_s s ++ [(true, e)]) (hub_c s ++ to_all s (true, e))
      (e :: connected s) (dead s) (noticed s) (begun s) (ended s) (owners s) (joined s)) else None
  | Die e => if decide (e ∈ connected s) then if decide (e ∉ dead s) then
      Some (Sys (events s) (next_id s) (to_sched s) (sch s) (inbox s) (filter (fun x => fst x <> e) (busy s)) (lost s ++ filter (fun x => fst x = e) (busy s))
      (outbox s) (replies s) (hub_s s) (hub_c s) (connected s) (e :: dead s) (noticed s) (begun s) (ended s) (owners s) (joined s)) else None else None
  | Lose e m o => if decide (e ∈ dead s) then match first3 e (outbox s) with
      | Some (l1, m', o', l2) => if none3 e l2 then Some (Sys (events s) (next_id s) (to_sched s) (sch s) (inbox s) (busy s) (lost s ++ [(e, m')])
      (l1 ++ l2) (replies s) (hub_s s) (hub_c s) (connected s) (dead s) (noticed s) (begun s) (ended s) (owners s) (joined s)) else None | None => None end else None
  | Timeout j tid => match st (sch s) (EvJobTimer j tid) with Some sc => Some (after_sched None s sc) | None => None end
  | SSubmit c => match first_of (of_client s c) (to_sched s) with Some (l1, (m, md), l2) => match st (sch s) (EvSubmit m md) with Some sc => Some (set_to_sched (l1 ++ l2) (after_sched None s sc)) | None => None end | None => None end
  | SResult e => match first3 e (outbox s) with Some (l1, m, o, l2) => match st (sch s) (EvResult m e (kind_of o)) with
      Some sc => Some (set_outbox (l1 ++ l2) (after_sched (Some o) s sc)) | None => None end | None => None end
  | SHub => match hub_s s with a :: l => match st (sch s) (announcement a) with Some sc => Some (set_hub_s l (after_sched None s sc)) | None => None end | [] => None end
  | SStrand e => if decide (e ∈ s_strand_timers (sch s)) then if none3 e (outbox s) then match st (sch s) (EvStrandTimer e) with
      Some sc => Some (forget e (after_sched None s sc)) | None => None end else None else None
  | Begin e => if decide (e ∈ connected s) then if decide (e ∉ dead s) then match first e (inbox s) with Some (l1, m, l2) => if none e (busy s) then
      Some (Sys (events s) (next_id s) (to_sched s) (sch s) (l1 ++ l2) ((e, m) :: busy s) (lost s) (outbox s) (replies s) (hub_s s) (hub_c s)
      (connected s) (dead s) (noticed s) (begun s ++ [(m, e)]) (ended s) (owners s) (joined s)) else None | None => None end else None else None
  | Abort e => if decide (e ∈ connected s) then if decide (e ∉ dead s) then match first e (inbox s) with Some (l1, m, l2) => if none e (busy s) then
      Some (Sys (events s) (next_id s) (to_sched s) (sch s) (l1 ++ l2) (busy s) (lost s) (outbox s ++ [(e, m, Aborted)]) (replies s) (hub_s s) (hub_c s)
      (connected s) (dead s) (noticed s) (begun s) (ended s ++ [(m, e, Aborted)]) (owners s) (joined s)) else None | None => None end else None else None
  | End e o => match o with Aborted => None | _ => match first e (busy s) with Some (l1, m, l2) =>
      Some (Sys (events s) (next_id s) (to_sched s) (sch s) (inbox s) (l1 ++ l2) (lost s) (outbox s ++ [(e, m, o)]) (replies s) (hub_s s) (hub_c s)
      (connected s) (dead s) (noticed s) (begun s) (ended s ++ [(m, e, o)]) (owners s) (joined s)) | None => None end end
  | Notice e => if decide (e ∈ dead s) then if decide (e ∉ noticed s) then
      Some (Sys (events s) (next_id s) (to_sched s) (sch s) (inbox s) (busy s) (lost s) (outbox s) (replies s) (hub_s s ++ [(false, e)]) (hub_c s ++ to_all s (false, e))
      (connected s) (dead s) (e :: noticed s) (begun s) (ended s) (owners s) (joined s)) else None else None
  | CReply c => match first_of (of_client s c) (replies s) with Some (l1, (m, r), l2) => Some (set_replies (l1 ++ l2) (tell c (Client_Model.Reply false (Client_Model.Plain m) [] r) s)) | None => None end
  | CTold c => match first_of (fun x => bool_decide (fst x = c)) (hub_c s) with Some (l1, (_, a), l2) => Some (set_hub_c (l1 ++ l2) (tell c (notice a) s)) | None => None end
  end.
Lemma perform_ok s a s' : reachable ll allowed s -> perform s a = Some s' -> reachable ll allowed s'.
Proof.
  intros R. destruct a as [c|c md|e|e|e m o|j tid|c|e| |e|e|e|e o|e|c|c]; cbn [perform].
  - destruct (decide _); [|discriminate]. intros [= <-]. eapply r_ext; [exact R|]. apply x_join. assumption.
  - destruct (decide _); [|discriminate]. destruct (allowedb s c md) eqn:E; [|discriminate]. intros [= <-]. eapply r_ext; [exact R|]. apply x_submit; auto.
  - destruct (decide _); [|discriminate]. intros [= <-]. eapply r_ext; [exact R|]. apply x_connect. assumption.
  - destruct (decide _); [|discriminate]. destruct (decide _); [|discriminate]. intros [= <-]. eapply r_ext; [exact R|]. apply x_die; assumption.
  - destruct (decide _); [|discriminate]. destruct (first3 e (outbox s)) as [[[[l1 m'] o'] l2]|] eqn:E; [|discriminate]. destruct (none3 e l2) eqn:N; [|discriminate]. intros [= <-].
    apply first3_ok in E as [E _]. eapply r_ext; [exact R|]. eapply x_lose; [assumption|exact E|apply none3_ok, N].
  - destruct (st (sch s) (EvJobTimer j tid)) as [sc|] eqn:E; [|discriminate]. intros [= <-]. eapply r_ext; [exact R|]. eapply x_timeout. exists 50. exact E.
  - destruct (first_of _ (to_sched s)) as [[[l1 [m md]] l2]|] eqn:El; [|discriminate]. destruct (st _ _) as [sc|] eqn:E; [|discriminate]. intros [= <-]. apply first_of_ok in El as (El & Hc & Hn).
    apply bool_decide_eq_true in Hc. cbn [fst] in Hc. eapply r_int; [exact R|]. eapply i_submit; [exact El| |exists 50; exact E]. intros m' md' X. apply Hn, bool_decide_eq_false in X. rewrite Hc. exact X.
  - destruct (first3 e (outbox s)) as [[[[l1 m'] o'] l2]|] eqn:El; [|discriminate]. destruct (st _ _) as [sc|] eqn:E; [|discriminate]. intros [= <-].
    apply first3_ok in El as [El Hn]. eapply r_int; [exact R|]. eapply i_result; [exact El|exact Hn|]. exists 50. exact E.
  - destruct (hub_s s) as [|a l] eqn:El; [discriminate|]. destruct (st _ _) as [sc|] eqn:E; [|discriminate]. intros [= <-]. eapply r_int; [exact R|]. eapply i_hub; [exact El|]. exists 50. exact E.
  - destruct (decide _); [|discriminate]. destruct (none3 e (outbox s)) eqn:N; [|discriminate]. destruct (st _ _) as [sc|] eqn:E; [|discriminate]. intros [= <-]. eapply r_int; [exact R|].
    eapply i_strand; [assumption|apply none3_ok, N|]. exists 50. exact E.
  - destruct (decide _); [|discriminate]. destruct (decide _); [|discriminate]. destruct (first e (inbox s)) as [[[l1 m] l2]|] eqn:E; [|discriminate]. destruct (none e (busy s)) eqn:N; [|discriminate]. intros [= <-].
    apply first_ok in E as [E F]. eapply r_int; [exact R|]. eapply i_begin; try eassumption. apply none_ok, N.
  - destruct (decide _); [|discriminate]. destruct (decide _); [|discriminate]. destruct (first e (inbox s)) as [[[l1 m] l2]|] eqn:E; [|discriminate]. destruct (none e (busy s)) eqn:N; [|discriminate]. intros [= <-].
    apply first_ok in E as [E F]. eapply r_int; [exact R|]. eapply i_abort; try eassumption. apply none_ok, N.
  - destruct o; try discriminate; (destruct (first e (busy s)) as [[[l1 m] l2]|] eqn:E; [|discriminate]); intros [= <-]; apply first_ok in E as [E F]; (eapply r_int; [exact R|]); eapply i_end; try exact E; discriminate.
  - destruct (decide _); [|discriminate]. destruct (decide _); [|discriminate]. intros [= <-]. eapply r_int; [exact R|]. apply i_notice; assumption.
  - destruct (first_of _ (replies s)) as [[[l1 [m r]] l2]|] eqn:El; [|discriminate]. intros [= <-]. apply first_of_ok in El as (El & Hc & Hn). apply bool_decide_eq_true in Hc. cbn [fst] in Hc.
    eapply r_int; [exact R|]. eapply i_reply; [exact Hc|exact El|]. intros m' r' X. apply Hn, bool_decide_eq_false in X. exact X.
  - destruct (first_of _ (hub_c s)) as [[[l1 [c' a]] l2]|] eqn:El; [|discriminate]. intros [= <-]. apply first_of_ok in El as (El & Hc & Hn). apply bool_decide_eq_true in Hc. cbn [fst] in Hc. subst c'.
    eapply r_int; [exact R|]. eapply i_told; [exact El|]. intros a' X. apply Hn, bool_decide_eq_false in X. exact (X eq_refl).
Qed.
Fixpoint drive (s : sys) (l : list act) : option sys :=
  match l with [] => Some s | a :: l => match perform s a with Some s' => drive s' l | None => None end end.
Lemma drive_ok l : forall s s', reachable ll allowed s -> drive s l = Some s' -> reachable ll allowed s'.
Proof.
  induction l as [|a l IH]; cbn [drive]; intros s s' R; [intros [= <-]; exact R|]. destruct (perform s a) as [s1|] eqn:E; [|discriminate]. apply IH. eapply perform_ok; eauto.
Qed.
End Drive.
