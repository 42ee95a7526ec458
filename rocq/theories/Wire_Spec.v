(** The addresses of the controller's sockets (C69, C70). *)
From stdpp Require Import base list strings.

(** Where a port may come from: the ports configured for engines, for clients, or for all *)
Inductive pool := Engine | Client | Common.

(** An address: interface, separator (':' or '-') and port *)
Record url := Url { u_interface : string; u_sep : string; u_port : nat }.

(** The processes of the controller, and the sides at which they listen.  A broadcast scheduler is known by its place in the tree: the root is [false], the
    children of p are p ++ [false] and p ++ [true]. *)
Inductive device := Hub | HeartMonitor | IOPub | Direct | Control | Task | Broadcast (place : list bool).
Inductive side := ToClients | ToEngines | ToChild (b : bool) | Registration | Notification | Monitor | Ping | Pong.

(** What clients and engines connect to *)
Inductive channel := ChControl | ChMux | ChTask | ChIopub.
Definition device_of (c : channel) : device := match c with ChControl => Control | ChMux => Direct | ChTask => Task | ChIopub => IOPub end.

(** How many sockets a controller with 2^D leaves of the broadcast tree needs ports for: registration; control, mux, task, iopub and two for heart beats for
    the engines; one for each leaf; control, mux, task, iopub, notification and broadcast for the clients; one for each broadcast scheduler but the root; and the monitor. *)
Definition engine_need (D : nat) : nat := 1 + 6 + 2 ^ D.
Definition client_need : nat := 6.
Definition internal_need (D : nat) : nat := (2 ^ (D + 1) - 2) + 1.
Definition total_need (D : nat) : nat := engine_need D + client_need + internal_need D.
