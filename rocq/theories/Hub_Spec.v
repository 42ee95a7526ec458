(** What the Hub sees, and what is asked of it.  Independent of the code.
    Engines are known by a uuid, messages by a number. *)
From Coq Require Import List Arith Bool.
Import ListNotations.

Inductive result := Value (v : nat) | EngineDied.

Inductive event :=
| Register (u : nat) (id : option nat)        (* an engine asks to be registered, perhaps with an id *)
| NewHeart (u : nat)                          (* its heart beats *)
| StoppedHeart (u : nat)                      (* ... no longer *)
| Unregister (id : nat)                       (* an engine leaves, or says that it shuts down *)
| Stalled (u : nat)                           (* the time limit for completing a registration passes *)
| DeathTimer (id u : nat)                     (* the time to wait for late results of an engine that left is over *)
| Restart                                     (* the controller is killed, and started again, restoring the engines *)
| QueueRequest (u m : nat) | QueueResult (u m v : nat)                        (* message m, sent to engine u *)
| TaskRequest (m : nat) | TaskDestination (m u : nat) | TaskResult (m u : nat) (aborted : bool) (v : nat)
| BroadcastRequest (m : nat) | BroadcastResult (m u : nat) (aborted : bool) (v : nat)
| Resubmit (m : nat)                          (* a task is submitted again under the new number m *)
| Purge (ms : list nat).

(** What the Hub tells the others: answers to registrations, and notifications. *)
Inductive notice :=
| Granted (u id : nat) (chosen : bool)        (* chosen: the Hub chose the id itself *)
| Refused (u : nat)
| Registered (id u : nat)
| Unregistered (id u : nat)
| Restarted.

(** The engines that have left so far *)
Definition gone (ns : list notice) : list (nat * nat) :=
  flat_map (fun n => match n with Unregistered i u => [(i, u)] | _ => [] end) ns.
(** ... those that have been registered *)
Definition been (ns : list notice) : list (nat * nat) :=
  flat_map (fun n => match n with Registered i u => [(i, u)] | _ => [] end) ns.

(** The engines that are registered, in order: every registration adds one, also if it should have the id of another one. *)
Definition present_step (l : list (nat * nat)) (n : notice) : list (nat * nat) :=
  match n with
  | Registered i u => l ++ [(i, u)]
  | Unregistered i u => filter (fun e => negb (Nat.eqb i (fst e) && Nat.eqb u (snd e))) l
  | _ => l
  end.
Definition present (ns : list notice) : list (nat * nat) := fold_left present_step ns [].
(** Since the last restart an engine has come or left. *)
Definition changed_since_restart (ns : list notice) : bool :=
  fold_left (fun b n => match n with Registered _ _ | Unregistered _ _ => true | Restarted => false | _ => b end) ns true.
(** The ids granted since the last restart *)
Definition granted (ns : list notice) : list nat :=
  fold_left (fun l n => match n with Granted _ i _ => l ++ [i] | Restarted => [] | _ => l end) ns [].

Definition request_of (e : event) : list nat :=
  match e with QueueRequest _ m | TaskRequest m | BroadcastRequest m | Resubmit m => [m] | _ => [] end.
Definition result_of (e : event) : list nat :=
  match e with QueueResult _ m _ | TaskResult m _ _ _ | BroadcastResult m _ _ _ => [m] | _ => [] end.

(** Message numbers are used once; results answer requests, through the same channel; and no engine takes over the uuid or
    the id of an engine that has left. [past]: what has happened before, [ns]: what the Hub has told. *)
Definition plausible (past : list event) (ns : list notice) (e : event) : Prop :=
  match e with
  | Register u r => ~ In u (map snd (gone ns)) /\ forall i, r = Some i -> ~ In i (map fst (gone ns))
  | Restart => False
  | QueueRequest _ m | BroadcastRequest m | Resubmit m => ~ In m (flat_map request_of past)
  | TaskRequest m => (forall e, In e past -> request_of e = [m] -> e = Resubmit m) /\ ~ In m (flat_map result_of past)
  | QueueResult u m _ => In (QueueRequest u m) past
  | TaskResult m _ _ _ => In (TaskRequest m) past
  | BroadcastResult m _ _ _ => In (BroadcastRequest m) past
  | TaskDestination m u => In u (map snd (been ns)) /\ ~ In m (flat_map result_of past)
  | _ => True
  end.

(** The life of a message, seen from the outside: what the next event makes of it. [ns]: what the Hub has told so far. *)
Inductive status := Unknown | Pending | Done.
Definition sent_to (past : list event) (u m : nat) : bool :=
  existsb (fun e => match e with QueueRequest u' m' => Nat.eqb u u' && Nat.eqb m m' | _ => false end) past.
Definition is_registered (ns : list notice) (u : nat) : bool := existsb (fun e => Nat.eqb u (snd e)) (present ns).
Definition has_left (ns : list notice) (i u : nat) : bool := existsb (fun e => Nat.eqb i (fst e) && Nat.eqb u (snd e)) (gone ns).
Definition next (past : list event) (ns : list notice) (e : event) (m : nat) (st : status) : status :=
  match st with
  | Unknown =>
      match e with
      | QueueRequest u m' => if Nat.eqb m m' && is_registered ns u then Pending else Unknown
      | TaskRequest m' | BroadcastRequest m' | Resubmit m' => if Nat.eqb m m' then Pending else Unknown
      | _ => Unknown
      end
  | Pending =>
      match e with
      | QueueResult u m' _ => if Nat.eqb m m' && is_registered ns u then Done else Pending
      | TaskResult m' _ _ _ | BroadcastResult m' _ _ _ => if Nat.eqb m m' then Done else Pending
      | DeathTimer i u => if has_left ns i u && sent_to past u m then Done else Pending
      | _ => Pending
      end
  | Done => Done
  end.

(** What an event makes of the lists of an engine: the messages sent to it that are not finished, those it has finished, and the
    tasks assigned to it. [st]: the statuses before. *)
Fixpoint remove_one (x : nat) (l : list nat) : list nat :=
  match l with [] => [] | y :: r => if Nat.eqb x y then r else y :: remove_one x r end.
Definition is_pending (st : status) : bool := match st with Pending => true | _ => false end.
Definition lists_next (u : nat) (e : event) (st : nat -> status) (l : list nat * list nat * list nat) : list nat * list nat * list nat :=
  let '(queue, completed, tasks) := l in
  match e with
  | QueueRequest u' m => if Nat.eqb u u' then (queue ++ [m], completed, tasks) else l
  | QueueResult u' m _ => if Nat.eqb u u' && is_pending (st m) then (remove_one m queue, completed ++ [m], tasks) else l
  | TaskDestination m u' => if Nat.eqb u u' then (queue, completed, tasks ++ [m]) else l
  | TaskResult m u' aborted _ =>
      if Nat.eqb u u' && is_pending (st m) then (queue, if aborted then completed else completed ++ [m], remove_one m tasks) else l
  | BroadcastResult m u' aborted _ =>
      if Nat.eqb u u' && is_pending (st m) then (queue, if aborted then completed else completed ++ [m], tasks) else l
  | _ => l
  end.

(** What an event makes of the result kept for a message (None: none is kept). A result that comes after the engine was taken for dead
    replaces that verdict, if the engine is registered. *)
Definition stored_next (past : list event) (ns : list notice) (e : event) (m : nat) (st : nat -> status) (r : option result) : option result :=
  match st m, e with
  | Pending, QueueResult u m' v => if Nat.eqb m m' && is_registered ns u then Some (Value v) else r
  | Pending, TaskResult m' _ _ v | Pending, BroadcastResult m' _ _ v => if Nat.eqb m m' then Some (Value v) else r
  | Pending, DeathTimer i u => if has_left ns i u && sent_to past u m then Some EngineDied else r
  | Done, QueueResult u m' v => if Nat.eqb m m' && is_registered ns u then match r with Some _ => Some (Value v) | None => None end else r
  | Done, Purge ms => if existsb (Nat.eqb m) ms && forallb (fun m' => negb (is_pending (st m'))) ms then None else r
  | _, _ => r
  end.
