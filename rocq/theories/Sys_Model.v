(** Clients with load-balanced views, the task scheduler and its engines together: the models of the client (Client_Model) and of the
    task scheduler (Sched_Model, with the default high-water mark 1) connected by message queues, and engines that take one task at a time.
    - each client's queue to the scheduler and back: client/client.py 1247-1320 (send), 901-1028 (replies); scheduler.py 60-110
    - engines: engine/kernel.py: messages are handled in order, one at a time; the reply is sent when the task has ended
    - the Hub announces engines to the scheduler and to the clients, and tells a new client the engines there are (hub.py 868-878, client.py 753 and 790): controller/hub.py 1058-1061 and 994-997 (registration and unregistration notifications); client.py 845-866; task_scheduler.py 256-299
    Simplifications: clients stay; a new client misses no announcement; message ids are numbers in the order of submission; the engine id and the identity of an engine are the same number; messages on one connection stay in order
    and are not lost, except what a dying engine has not got out; the Hub declares only dead engines dead; the scheduler's 5 s timer for a dead
    engine (task_scheduler.py 294-296) fires when no result of that engine is still on its way. *)
From stdpp Require Import base gmap sets list.
From Verif Require Import Dependency_Model Sched_Trace Sched_Spec Sched_Model.
From Verif Require Client_Model.
From Coq Require Import ZArith.

(** How a task ends on an engine: it returned a value, raised an exception, refused to run (UnmetDependency), or was aborted before it began. *)
Inductive outcome := Returned (v : nat) | Raised (x : nat) | Refused | Aborted.
(** how the scheduler reads it, task_scheduler.py 625-626 *)
Definition kind_of (o : outcome) : rkind := match o with Returned _ => ROk | Refused => RUnmet | _ => RErr end.

(** The client's results are numbers of exceptions; those of the scheduler come first. *)
Definition code (w : why) : nat := match w with ImpossibleDep => 0 | InvalidDep => 1 | TaskTimeout => 2 end.
Definition exception (x : nat) : nat := 4 + x.
(** the message from the engine *)
Definition message (o : outcome) : Client_Model.reply :=
  match o with
  | Returned v => Client_Model.ROk v
  | Raised x => Client_Model.RError (Client_Model.Failure (exception x)) true
  | Refused => Client_Model.RError (Client_Model.Failure 3) true
  | Aborted => Client_Model.RAborted
  end.
(** what is in a reply the scheduler sends while it handles the message [o] from an engine (650), or a dead engine (308-327), or otherwise (467-485) *)
Definition content (o : option outcome) (r : reply) : Client_Model.reply :=
  match r with
  | FromEngine e _ => match o with Some o => message o | None => Client_Model.RError (Client_Model.EngineDied e) false end
  | Unreachable w => Client_Model.RError (Client_Model.Failure (code w)) false
  end.

Record sys := Sys {
  events : list (nat * Client_Model.event);      (* what has happened to the clients: (client, event) *)
  next_id : nat;                                 (* message ids are new each time *)
  to_sched : list (nat * taskmd);                (* submissions on their way *)
  sch : sched;
  inbox : list (nat * nat);                      (* tasks on their way to or waiting at an engine: (engine, task) *)
  busy : list (nat * nat);                       (* the tasks being executed *)
  lost : list (nat * nat);                       (* the tasks that ended with their engine *)
  outbox : list (nat * nat * outcome);           (* results on their way to the scheduler *)
  replies : list (nat * Client_Model.reply);     (* replies on their way to the clients that submitted the tasks *)
  hub_s : list (bool * nat);                     (* announcements for the scheduler: (true, e): e is there; (false, e): e is dead *)
  hub_c : list (nat * (bool * nat));             (* and for the clients *)
  connected : list nat;                          (* all engines ever *)
  dead : list nat;                               (* the dead ones *)
  noticed : list nat;                            (* the dead ones the Hub knows of *)
  begun : list (nat * nat);                      (* history: (task, engine), when an execution begins *)
  ended : list (nat * nat * outcome);            (* history: when it ends *)
  owners : list nat;                             (* the client that submitted each task *)
  joined : list nat }.                           (* the clients *)
(** the client that submitted task m *)
Definition client_of (s : sys) (m : nat) : option nat := owners s !! m.
(** what is for client c, or has happened to it *)
Definition for_client {A} (c : nat) (l : list (nat * A)) : list A := omap (fun x => if decide (fst x = c) then Some (snd x) else None) l.
Definition events_of (c : nat) (s : sys) : list Client_Model.event := for_client c (events s).

(** the scheduler's messages since the state [s]: to engines, and to the clients *)
Definition since (s : sys) (sc : sched) : list obs := drop (length (s_log (sch s))) (s_log sc).
Definition to_engines (l : list obs) : list (nat * nat) := omap (fun o => match o with ObsSend m e => Some (e, m) | _ => None end) l.
Definition to_client (o : option outcome) (l : list obs) : list (nat * Client_Model.reply) :=
  omap (fun x => match x with ObsReply m r => Some (m, content o r) | _ => None end) l.
(** the scheduler goes to state [sc] while it handles a message *)
Definition after_sched (o : option outcome) (s : sys) (sc : sched) : sys :=
  Sys (events s) (next_id s) (to_sched s) sc (inbox s ++ to_engines (since s sc)) (busy s) (lost s) (outbox s)
      (replies s ++ to_client o (since s sc)) (hub_s s) (hub_c s) (connected s) (dead s) (noticed s) (begun s) (ended s) (owners s) (joined s).

(** the other parts *)
Definition set_to_sched l s := Sys (events s) (next_id s) l (sch s) (inbox s) (busy s) (lost s) (outbox s) (replies s) (hub_s s) (hub_c s) (connected s) (dead s) (noticed s) (begun s) (ended s) (owners s) (joined s).
Definition set_outbox l s := Sys (events s) (next_id s) (to_sched s) (sch s) (inbox s) (busy s) (lost s) l (replies s) (hub_s s) (hub_c s) (connected s) (dead s) (noticed s) (begun s) (ended s) (owners s) (joined s).
Definition set_hub_s l s := Sys (events s) (next_id s) (to_sched s) (sch s) (inbox s) (busy s) (lost s) (outbox s) (replies s) l (hub_c s) (connected s) (dead s) (noticed s) (begun s) (ended s) (owners s) (joined s).
(** what was with a dead engine is gone for good *)
Definition forget (e : nat) s := Sys (events s) (next_id s) (to_sched s) (sch s) (filter (fun x => fst x <> e) (inbox s)) (busy s) (filter (fun x => fst x <> e) (lost s)) (outbox s) (replies s) (hub_s s) (hub_c s) (connected s) (dead s) (noticed s) (begun s) (ended s) (owners s) (joined s).
(** something happens to client c *)
Definition tell (c : nat) (x : Client_Model.event) s := Sys (events s ++ [(c, x)]) (next_id s) (to_sched s) (sch s) (inbox s) (busy s) (lost s) (outbox s) (replies s) (hub_s s) (hub_c s) (connected s) (dead s) (noticed s) (begun s) (ended s) (owners s) (joined s).
Definition set_replies l s := Sys (events s) (next_id s) (to_sched s) (sch s) (inbox s) (busy s) (lost s) (outbox s) l (hub_s s) (hub_c s) (connected s) (dead s) (noticed s) (begun s) (ended s) (owners s) (joined s).
Definition set_hub_c l s := Sys (events s) (next_id s) (to_sched s) (sch s) (inbox s) (busy s) (lost s) (outbox s) (replies s) (hub_s s) l (connected s) (dead s) (noticed s) (begun s) (ended s) (owners s) (joined s).

Definition start : sys := Sys [] 0 [] init [] [] [] [] [] [] [] [] [] [] [] [] [] [].
(** an announcement to all clients *)
Definition to_all (s : sys) (a : bool * nat) : list (nat * (bool * nat)) := map (fun c => (c, a)) (joined s).

Section System.
Context (scheme : nat -> list Z -> nat).
(** which tasks the users submit *)
Context (allowed : sys -> nat -> taskmd -> Prop).

Definition sched_step (s : sched) (ev : event) (s' : sched) : Prop := exists fuel, step 1 scheme fuel s ev = Some s'.
Definition announcement (a : bool * nat) : event := if fst a then EvRegister (snd a) else EvUnregister (snd a).
Definition notice (a : bool * nat) : Client_Model.event :=
  if fst a then Client_Model.Register (snd a) (snd a) else Client_Model.Unregister (snd a).

(** From outside: submissions (view.apply with the given targets, dependencies, retries; client.py 1247-1320), new engines, dying engines, the timeouts of tasks *)
Inductive external : sys -> sys -> Prop :=
| x_submit s c md : c ∈ joined s -> allowed s c md ->
    external s (Sys (events s ++ [(c, Client_Model.Send (Client_Model.Plain (next_id s)) None)]) (S (next_id s)) (to_sched s ++ [(next_id s, md)]) (sch s)
      (inbox s) (busy s) (lost s) (outbox s) (replies s) (hub_s s) (hub_c s) (connected s) (dead s) (noticed s) (begun s) (ended s) (owners s ++ [c]) (joined s))
| x_join s c : c ∉ joined s ->
    external s (Sys (events s) (next_id s) (to_sched s) (sch s) (inbox s) (busy s) (lost s) (outbox s) (replies s) (hub_s s)
      (hub_c s ++ map (fun e => (c, (true, e))) (filter (fun e => e ∉ noticed s) (connected s)))
      (connected s) (dead s) (noticed s) (begun s) (ended s) (owners s) (c :: joined s))
| x_connect s e : e ∉ connected s ->
    external s (Sys (events s) (next_id s) (to_sched s) (sch s) (inbox s) (busy s) (lost s) (outbox s) (replies s) (hub_s s ++ [(true, e)]) (hub_c s ++ to_all s (true, e))
      (e :: connected s) (dead s) (noticed s) (begun s) (ended s) (owners s) (joined s))
| x_die s e : e ∈ connected s -> e ∉ dead s ->
    external s (Sys (events s) (next_id s) (to_sched s) (sch s) (inbox s) (filter (fun x => fst x <> e) (busy s)) (lost s ++ filter (fun x => fst x = e) (busy s))
      (outbox s) (replies s) (hub_s s) (hub_c s) (connected s) (e :: dead s) (noticed s) (begun s) (ended s) (owners s) (joined s))
| x_lose s e m o l1 l2 : e ∈ dead s -> outbox s = l1 ++ (e, m, o) :: l2 -> (forall m' o', (e, m', o') ∉ l2) ->     (* the last result did not get out *)
    external s (Sys (events s) (next_id s) (to_sched s) (sch s) (inbox s) (busy s) (lost s ++ [(e, m)])
      (l1 ++ l2) (replies s) (hub_s s) (hub_c s) (connected s) (dead s) (noticed s) (begun s) (ended s) (owners s) (joined s))
| x_timeout s j tid sc : sched_step (sch s) (EvJobTimer j tid) sc -> external s (after_sched None s sc).

(** By itself *)
Inductive internal : sys -> sys -> Prop :=
| i_submit s m md l1 l2 sc : to_sched s = l1 ++ (m, md) :: l2 -> (forall m' md', (m', md') ∈ l1 -> client_of s m' <> client_of s m) -> sched_step (sch s) (EvSubmit m md) sc ->
    internal s (set_to_sched (l1 ++ l2) (after_sched None s sc))
| i_result s e m o l1 l2 sc : outbox s = l1 ++ (e, m, o) :: l2 -> (forall m' o', (e, m', o') ∉ l1) -> sched_step (sch s) (EvResult m e (kind_of o)) sc ->
    internal s (set_outbox (l1 ++ l2) (after_sched (Some o) s sc))
| i_hub s a l sc : hub_s s = a :: l -> sched_step (sch s) (announcement a) sc ->
    internal s (set_hub_s l (after_sched None s sc))
| i_strand s e sc : e ∈ s_strand_timers (sch s) -> (forall m o, (e, m, o) ∉ outbox s) -> sched_step (sch s) (EvStrandTimer e) sc ->
    internal s (forget e (after_sched None s sc))
| i_begin s e m l1 l2 : e ∈ connected s -> e ∉ dead s -> inbox s = l1 ++ (e, m) :: l2 -> (forall m', (e, m') ∉ l1) -> (forall m', (e, m') ∉ busy s) ->
    internal s (Sys (events s) (next_id s) (to_sched s) (sch s) (l1 ++ l2) ((e, m) :: busy s) (lost s) (outbox s) (replies s) (hub_s s) (hub_c s)
      (connected s) (dead s) (noticed s) (begun s ++ [(m, e)]) (ended s) (owners s) (joined s))
| i_abort s e m l1 l2 : e ∈ connected s -> e ∉ dead s -> inbox s = l1 ++ (e, m) :: l2 -> (forall m', (e, m') ∉ l1) -> (forall m', (e, m') ∉ busy s) ->
    internal s (Sys (events s) (next_id s) (to_sched s) (sch s) (l1 ++ l2) (busy s) (lost s) (outbox s ++ [(e, m, Aborted)]) (replies s) (hub_s s) (hub_c s)
      (connected s) (dead s) (noticed s) (begun s) (ended s ++ [(m, e, Aborted)]) (owners s) (joined s))
| i_end s e m o l1 l2 : busy s = l1 ++ (e, m) :: l2 -> o <> Aborted ->
    internal s (Sys (events s) (next_id s) (to_sched s) (sch s) (inbox s) (l1 ++ l2) (lost s) (outbox s ++ [(e, m, o)]) (replies s) (hub_s s) (hub_c s)
      (connected s) (dead s) (noticed s) (begun s) (ended s ++ [(m, e, o)]) (owners s) (joined s))
| i_notice s e : e ∈ dead s -> e ∉ noticed s ->
    internal s (Sys (events s) (next_id s) (to_sched s) (sch s) (inbox s) (busy s) (lost s) (outbox s) (replies s) (hub_s s ++ [(false, e)]) (hub_c s ++ to_all s (false, e))
      (connected s) (dead s) (e :: noticed s) (begun s) (ended s) (owners s) (joined s))
| i_reply s c m r l1 l2 us : client_of s m = Some c -> replies s = l1 ++ (m, r) :: l2 -> (forall m' r', (m', r') ∈ l1 -> client_of s m' <> Some c) ->
    internal s (set_replies (l1 ++ l2) (tell c (Client_Model.Reply false (Client_Model.Plain m) us r) s))
| i_told s c a l1 l2 : hub_c s = l1 ++ (c, a) :: l2 -> (forall a', (c, a') ∉ l1) -> internal s (set_hub_c (l1 ++ l2) (tell c (notice a) s)).

Inductive reachable : sys -> Prop :=
| r_start : reachable start
| r_ext s s' : reachable s -> external s s' -> reachable s'
| r_int s s' : reachable s -> internal s s' -> reachable s'.
End System.

(** What the user sees: the future of task m in the client that submitted it *)
Definition future (enum : gset Client_Model.mid -> list Client_Model.mid) (s : sys) (m : nat) : option (option Client_Model.result) :=
  c ← client_of s m; Client_Model.msg_future (Client_Model.run enum Client_Model.empty_client (events_of c s)) !! Client_Model.Plain m.
