(** Model of Client.wait_for_engines (client/client.py 1449-1607), the engine notices (845-873, 661-668) and the stop callbacks of engine sets (cluster/launcher.py 261-298).
    The waits are numbered.  Simplified: each event is handled as a whole (the callbacks of the IO thread and of the cluster do not interleave; the three steps of a call
    do interleave with them); n is given; progress bars are left out. *)
From stdpp Require Import base list gmap.
From Verif Require Import Await_Spec.
Local Open Scope nat_scope.

Record wait := Wait { w_n : nat; w_timeout : bool; w_out : option outcome }.
Record state := State {
  ids : list nat;                  (* Client._ids *)
  callbacks : list nat;            (* Client._registration_callbacks: the waits whose [notify] is there *)
  stops : list (list nat);         (* for each engine set of the cluster, its stop_callbacks: the waits whose [_signal_stopped] is there *)
  after : list nat;                (* the engine sets that have stopped *)
  waits : gmap nat wait }.
Definition start (sets : nat) : state := State [] [] (replicate sets []) [] ∅.

(** list.remove *)
Fixpoint remove_one (x : nat) (l : list nat) : list nat := match l with [] => [] | a :: l => if a =? x then l else a :: remove_one x l end.
(** future.set_result, set_exception and their callbacks: 1545-1549 and 1584 (and through the cancelled engine_stop_future 1531-1543) *)
Definition finish (w : nat) (o : outcome) (s : state) : state :=
  match waits s !! w with
  | Some (Wait n t None) => State (ids s) (remove_one w (callbacks s)) (map (remove_one w) (stops s)) (after s) (<[w := Wait n t (Some o)]> (waits s))
  | _ => s
  end.
(** Python's loop over a list that may change: by position.  k: how often at most *)
Fixpoint loop (k i : nat) (get : state -> list nat) (f : nat -> state -> state) (s : state) : state :=
  match k with 0 => s | S k => match get s !! i with None => s | Some w => loop k (S i) get f (f w s) end end.
Definition for_each (get : state -> list nat) (f : nat -> state -> state) (s : state) : state := loop (length (get s)) 0 get f s.

(** notify, 1559-1581 *)
Definition notify_registered (w : nat) (s : state) : state :=
  match waits s !! w with Some (Wait n _ None) => if n <=? length (ids s) then finish w Ready s else s | _ => s end.
Definition notify_unregistered (e w : nat) (s : state) : state := finish w (EngineGone e) s.
(** 1522-1529, 1551-1557 *)
Definition signal_stopped (k w : nat) (s : state) : state := finish w (SetStopped k) s.
(** 1530-1537: es.on_stop for each engine set.  The first one that has stopped already ends the wait *)
Definition watch (w : nat) (s : state) : state :=
  match find (fun k => bool_decide (k ∈ after s)) (seq 0 (length (stops s))) with
  | Some k => finish w (SetStopped k) s
  | None => match waits s !! w with Some (Wait _ _ None) => State (ids s) (callbacks s) (map (fun l => l ++ [w]) (stops s)) (after s) (waits s) | _ => s end
  end.
Definition install (w : nat) (s : state) : state :=
  match waits s !! w with Some (Wait _ _ None) => State (ids s) (callbacks s ++ [w]) (stops s) (after s) (waits s) | _ => s end.
(** on_timeout, 1586-1599 *)
Definition on_timeout (w : nat) (s : state) : state :=
  match waits s !! w with
  | Some (Wait n true None) => finish w (if n <=? length (ids s) then Ready else TimedOut) s
  | _ => s
  end.

Definition set_ids (l : list nat) (s : state) : state := State l (callbacks s) (stops s) (after s) (waits s).
Definition step (s : state) (ev : event) : state :=
  match ev with
  | Call w n t => State (ids s) (callbacks s) (stops s) (after s) (<[w := Wait n t (if n <=? length (ids s) then Some Ready else None)]> (waits s))
  | Watch w => watch w s
  | Install w => install w s
  | Register e => for_each callbacks notify_registered (set_ids (if bool_decide (e ∈ ids s) then ids s else e :: ids s) s)
  | Unregister e => for_each callbacks (notify_unregistered e) (set_ids (remove_one e (ids s)) s)
  | Stop k => if bool_decide (k ∈ after s) || negb (k <? length (stops s)) then s       (* launcher.py 287-289 *)
              else for_each (fun s => default [] (stops s !! k)) (signal_stopped k) (State (ids s) (callbacks s) (stops s) (k :: after s) (waits s))
  | Timer w => on_timeout w s
  end.
Definition run (sets : nat) (evs : list event) : state := foldl step (start sets) evs.
Definition result (s : state) (w : nat) : option outcome := match waits s !! w with Some x => w_out x | None => None end.
(** waiting: called, and not yet returned or failed *)
Definition pending (s : state) (w n : nat) : Prop := exists t, waits s !! w = Some (Wait n t None).

(** Histories: each wait is called once, then watches, then installs its callback; the timer runs only then, and only if asked for *)
Definition well_formed_after (evs : list event) (ev : event) : Prop :=
  match ev with
  | Call w _ _ => forall n t, Call w n t ∉ evs
  | Watch w => (exists n t, Call w n t ∈ evs) /\ Watch w ∉ evs
  | Install w => Watch w ∈ evs /\ Install w ∉ evs
  | Timer w => Install w ∈ evs /\ exists n, Call w n true ∈ evs
  | _ => True
  end.
Inductive history : list event -> Prop :=
| h_nil : history []
| h_snoc evs ev : history evs -> well_formed_after evs ev -> history (evs ++ [ev]).
