(** Model of the registration of engines from end to end: ipyparallel/controller/hub.py (Hub_Model) and heartmonitor.py (Heart_Model), which
    run in two processes; the second one sends messages to the first one, in order (heartmonitor.py 190-217, hub.py 396-414).
    Simplifications: those of the two models; the messages are neither lost nor reordered (a zmq XPUB connected to the monitor of the Hub,
    which has subscribed: heartmonitor.py 139-141 waits for that); a message takes any time. *)
From Coq Require Import List Arith Bool.
From Verif Require Import Enrol_Spec.
From Verif Require Hub_Spec Hub_Model Heart_Spec Heart_Model.
Import ListNotations.

(** heartmonitor.py 194-202, 206-214: the messages *)
Inductive msg := NewHearts (hs : list nat) | StoppedHearts (hs : list nat).
Record sys := Sys { hub : Hub_Model.hub; mon : Heart_Model.monitor; queue : list msg }.
Definition start : sys := Sys Hub_Model.start Heart_Model.start [].

(** heartmonitor.py 160-168 (with 190-217): a message is sent only if there is something to tell *)
Definition send (n : Heart_Model.notice) : list msg :=
  (match Heart_Model.new_heart n with [] => [] | hs => [NewHearts hs] end) ++
  (match Heart_Model.stopped_heart n with [] => [] | hs => [StoppedHearts hs] end).

(** hub.py 396-414: heartmonitor_message *)
Definition handle (h : Hub_Model.hub) (m : msg) : Hub_Model.hub :=
  match m with
  | NewHearts hs => fold_left Hub_Model.handle_new_heart hs h
  | StoppedHearts hs => fold_left Hub_Model.handle_stopped_heart hs h
  end.
Definition handle_all (h : Hub_Model.hub) (ms : list msg) : Hub_Model.hub := fold_left handle ms h.

(** hub.py 1066-1074: _purge_stalled_registration; [k]: what monitor.flush() finds *)
Definition purge_stalled (s : sys) (u k : nat) : sys :=
  Sys (Hub_Model.purge_stalled (handle_all (hub s) (firstn k (queue s))) u) (mon s) (skipn k (queue s)).

(** [max]: HeartMonitor.max_heartmonitor_misses *)
Definition step (max : nat) (s : sys) (e : act) : sys :=
  match e with
  | Beat r => let '(m, n) := Heart_Model.do_round max (mon s) r in Sys (hub s) m (queue s ++ send n)
  | Deliver => match queue s with [] => s | m :: q => Sys (handle (hub s) m) (mon s) q end
  | Timeout u k => purge_stalled s u k
  | Reboot => Sys (Hub_Model.restart (hub s)) Heart_Model.start []
  | AtHub e =>
      match e with
      | Hub_Spec.NewHeart _ | Hub_Spec.StoppedHeart _ | Hub_Spec.Stalled _ | Hub_Spec.Restart => s     (* they are what the acts above are made of *)
      | _ => Sys (Hub_Model.step (hub s) e) (mon s) (queue s)
      end
  end.
Definition exec (max : nat) (es : list act) : sys := fold_left (step max) es start.
(** What the Hub has told; the engines it knows; the messages that it has still to handle *)
Definition told (max : nat) (es : list act) : list Hub_Spec.notice := Hub_Model.notices (hub (exec max es)).
Definition on_the_way (max : nat) (es : list act) : list msg := queue (exec max es).
(** [id u] is an engine of the cluster: in Hub.engines (this is what the answers to clients and the notifications for the schedulers are made of) *)
Definition registered (max : nat) (es : list act) (i u : nat) : Prop := In (i, u) (Hub_Model.engines (hub (exec max es))).
