(** Model of IPEngine's heart beat monitoring, engine/app.py. *)
From Coq Require Import List ZArith Bool.
From Verif Require Import Beat_Spec.
Import ListNotations.

(** 283-292: _hb_last_pinged, _hb_last_monitored, _hb_missed_beats; the pings waiting at _hb_listener; whether the loop was stopped; what was sent to the registrar *)
Record engine := Engine { last_pinged : Z; last_monitored : Z; missed : nat; waiting : nat; stopped : bool; sent : list nat }.
Definition fresh : engine := Engine 0 0 0 0 false [].

(** _report_ping, 570-573 *)
Definition report_ping (t : Z) (s : engine) : engine := Engine t (last_monitored s) (missed s) (pred (waiting s)) (stopped s) (sent s).
(** ZMQStream.flush: all that is waiting.  Simplified: the same reading of the clock for all of them. *)
Definition flush (t : Z) (s : engine) : engine := Nat.iter (waiting s) (report_ping t) s.
(** _hb_monitor, 863-892; [id] is the engine's id *)
Definition hb_monitor (max id : nat) (t t' : Z) (s : engine) : engine :=
  let s := flush t s in
  let m := if Z.ltb (last_pinged s) (last_monitored s) then S (missed s) else 0 in
  let s := Engine (last_pinged s) (last_monitored s) m (waiting s) (stopped s) (sent s) in
  let s := if Nat.leb max (missed s) then Engine (last_pinged s) (last_monitored s) (missed s) (waiting s) true (sent s ++ [id]) else s in
  Engine (last_pinged s) t' (missed s) (waiting s) (stopped s) (sent s).

(** One event.  The loop handles nothing more when it is stopped; with max_heartbeat_misses = 0 there are neither pings nor checks (start_heartbeat, 798-843). *)
Definition step (max id : nat) (s : engine) (e : event) : engine :=
  if stopped s || (max =? 0)%nat then s else
  match e with
  | Arrive => Engine (last_pinged s) (last_monitored s) (missed s) (S (waiting s)) (stopped s) (sent s)
  | Handle t => match waiting s with 0 => s | S _ => report_ping t s end
  | Check t t' => hb_monitor max id t t' s
  end.
Definition run (max id : nat) (l : list event) : engine := fold_left (step max id) l fresh.
(** hb_check_period, 831 *)
Definition check_period (hb_period : nat) : nat := hb_period + 500.
