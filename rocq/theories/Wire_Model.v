(** Model of how the controller chooses its ports and connects its processes: controller/app.py 345-470 (pools), 591-640 (next_port, construct_url), 760-850
    (init_hub), 700-745 (connection files), 997-1075 (launch_broadcast_schedulers), 1076-1165 (init_schedulers), traitlets.py 50-100, util.py 343-359;
    the other ends: engine/app.py 606-700, client/client.py 505-515 and 765-790, controller/broadcast_scheduler.py 47-62. *)
From stdpp Require Import base list strings.
From Verif Require Import Wire_Spec.
Local Open Scope nat_scope.

(** ** Ports *)
(** traitlets.py 65-77, parse_port_range, on ranges already split at ',' and '-' into numbers *)
Definition port_range (l : list (nat * option nat)) : list nat := concat (map (fun r => match r with (a, Some b) => seq a (S b - a) | (a, None) => [a] end) l).
(** 85-100, validate *)
Definition valid_ports (l : list nat) : bool := forallb (fun p => (1 <=? p) && (p <=? 2 ^ 16)) l.

Record pools := Pools { e_ports : list nat; c_ports : list nat; ports : list nat;  (* engine_ports, client_ports, ports *)
  e_idx : nat; c_idx : nat; p_idx : nat;                                           (* how many of each are used *)
  taken : list nat;                                                                (* util._random_ports *)
  offers : list nat;                                                               (* what the operating system will offer *)
  randoms : nat }.                                                                 (* _random_port_count *)
Definition fresh (e c p : list nat) (t o : list nat) : pools := Pools e c p 0 0 0 t o 0.

(** util.py 349-352: until the offered port is not one of those chosen before.  None: waits for ever *)
Fixpoint select (t o : list nat) : option (nat * list nat) :=
  match o with [] => None | x :: o => if bool_decide (x ∈ t) then select t o else Some (x, o) end.
(** from the common pool, or random: app.py 613-626 *)
Definition next_common (p : pools) : option (nat * pools) :=
  match ports p !! p_idx p with
  | Some x => Some (x, Pools (e_ports p) (c_ports p) (ports p) (e_idx p) (c_idx p) (S (p_idx p)) (taken p) (offers p) (randoms p))
  | None => match select (taken p) (offers p) with
      | None => None
      | Some (x, o) => Some (x, Pools (e_ports p) (c_ports p) (ports p) (e_idx p) (c_idx p) (p_idx p) (x :: taken p) o (S (randoms p)))
      end
  end.
(** next_port, 591-626 *)
Definition next_port (k : pool) (p : pools) : option (nat * pools) :=
  match k with
  | Client => match c_ports p !! c_idx p with
      | Some x => Some (x, Pools (e_ports p) (c_ports p) (ports p) (e_idx p) (S (c_idx p)) (p_idx p) (taken p) (offers p) (randoms p))
      | None => next_common p end
  | Engine => match e_ports p !! e_idx p with
      | Some x => Some (x, Pools (e_ports p) (c_ports p) (ports p) (S (e_idx p)) (c_idx p) (p_idx p) (taken p) (offers p) (randoms p))
      | None => next_common p end
  | Common => next_common p
  end.
(** n times *)
Fixpoint draw (k : pool) (n : nat) (p : pools) : option (list nat * pools) :=
  match n with
  | 0 => Some ([], p)
  | S n => match next_port k p with None => None | Some (x, p) => match draw k n p with None => None | Some (l, p) => Some (x :: l, p) end end
  end.

(** the observers of the deprecated settings mux, task, control, iopub = (a, b): 428-433 *)
Definition scheduler_ports (ab : nat * nat) (p : pools) : pools :=
  Pools (e_ports p ++ [fst ab]) (c_ports p ++ [fst ab]) (ports p) (e_idx p) (c_idx p) (p_idx p) (taken p) (offers p) (randoms p).

(** ** init_hub: the connection dicts *)
Record engine_info := EI { ei_reg : nat; ei_control : nat; ei_mux : nat; ei_task : nat; ei_iopub : nat; ei_ping : nat; ei_pong : nat; ei_bcast : list nat }.
Record client_info := CI { ci_reg : nat; ci_control : nat; ci_mux : nat; ci_task : nat; ci_iopub : nat; ci_notif : nat; ci_bcast : nat }.
Notation "'let*' ' ( x , p ) := a 'in' b" := (match a with None => None | Some (x, p) => b end) (at level 200, x name, p name, only parsing).

(** format(i, f"0{w}b") for i < 2^w; the most significant bit first *)
Definition format_bits (i w : nat) : list bool := map (fun j => Nat.testbit i (w - 1 - j)) (seq 0 w).
(** int(identity, 2) *)
Definition int2 (l : list bool) : nat := foldl (fun a b => 2 * a + Nat.b2n b) 0 l.
(** 811-815 *)
Definition broadcast_ids (D : nat) : list (list bool) := concat (map (fun d => map (fun i => format_bits i (d + 1)) (seq 0 (2 ^ d))) (seq 1 D)).

Record info := Info { eng : engine_info; cli : client_info; internal : list (list bool * nat); mon : nat }.
(** 776-792 *)
Definition new_engine_info (D reg : nat) (p : pools) : option (engine_info * pools) :=
  let* '(control, p) := next_port Engine p in let* '(mux, p) := next_port Engine p in let* '(task, p) := next_port Engine p in let* '(iopub, p) := next_port Engine p in
  let* '(ping, p) := next_port Engine p in let* '(pong, p) := next_port Engine p in let* '(bcast, p) := draw Engine (2 ^ D) p in
  Some (EI reg control mux task iopub ping pong bcast, p).
(** 794-805 *)
Definition new_client_info (reg : nat) (p : pools) : option (client_info * pools) :=
  let* '(control, p) := next_port Client p in let* '(mux, p) := next_port Client p in let* '(task, p) := next_port Client p in let* '(iopub, p) := next_port Client p in
  let* '(notif, p) := next_port Client p in let* '(bcast, p) := next_port Client p in
  Some (CI reg control mux task iopub notif bcast, p).
(** 767-824.  [old]: the dicts loaded from the connection files with reuse_files, 706-745 (both or none; that the two files agree is checked there) *)
Definition init_hub (D : nat) (old : option (engine_info * client_info)) (p : pools) : option (info * pools) :=
  let* '(ec, p) := match old with
    | Some ec => Some (ec, p)
    | None => let* '(reg, p) := next_port Engine p in let* '(e, p) := new_engine_info D reg p in let* '(c, p) := new_client_info reg p in Some ((e, c), p)
    end in
  let* '(ip, p) := draw Common (length (broadcast_ids D)) p in let* '(m, p) := next_port Common p in
  Some (Info (fst ec) (snd ec) (zip (broadcast_ids D) ip) m, p).

(** the ports of the engines' and of the clients' dict, but for the common port of the registration, and of the inner sockets *)
Definition engine_ports_of (e : engine_info) : list nat := [ei_control e; ei_mux e; ei_task e; ei_iopub e; ei_ping e; ei_pong e] ++ ei_bcast e.
Definition client_ports_of (c : client_info) : list nat := [ci_control c; ci_mux c; ci_task c; ci_iopub c; ci_notif c; ci_bcast c].
Definition inner_ports_of (i : info) : list nat := map snd (internal i) ++ [mon i].
Definition ports_of (i : info) : list nat := ei_reg (eng i) :: engine_ports_of (eng i) ++ client_ports_of (cli i) ++ inner_ports_of i.

Global Instance url_eq_dec : EqDecision url.
Proof. solve_decision. Defined.
Global Instance device_eq_dec : EqDecision device.
Proof. solve_decision. Defined.
Global Instance side_eq_dec : EqDecision side.
Proof. solve_decision. Defined.

(** ** The processes and their addresses *)
Section Addresses.
(** depth of the tree; the interfaces: transport, and address of each side.  Simplified: addresses that stand for themselves (not a wildcard) *)
Context (D : nat) (transport : string) (engine_ip client_ip internal_ip monitor_ip : string) (i : info).

Definition interface (ip : string) : string := (transport ++ "://" ++ ip)%string.
(** construct_url, 628-643 *)
Definition the_sep : string := if String.eqb transport "ipc" then "-" else ":".
Definition engine_url (port : nat) : url := Url (interface engine_ip) the_sep port.
Definition client_url (port : nat) : url := Url (interface client_ip) the_sep port.
Definition internal_url (place : list bool) : option url :=
  match find (fun x => bool_decide (fst x = place)) (internal i) with Some (_, port) => Some (Url (interface internal_ip) the_sep port) | None => None end.
Definition engine_bcast_url (n : nat) : option url := match ei_bcast (eng i) !! n with Some port => Some (engine_url port) | None => None end.

(** a broadcast scheduler: where it listens, where it connects.  None: KeyError or IndexError while starting it *)
Record scheduler := Sched { place : list bool; depth : nat; leaf : bool; inward : url; outward : list url }.
(** 1013-1069 *)
Definition make (id : list bool) (d : nat) : option scheduler :=
  let is_leaf := (d =? D) in
  match (if (d =? 0) then Some (client_url (ci_bcast (cli i))) else internal_url id) with
  | None => None
  | Some u => if is_leaf then match engine_bcast_url (int2 id) with Some o => Some (Sched id d true u [o]) | None => None end
              else match internal_url (id ++ [false]), internal_url (id ++ [true]) with Some a, Some b => Some (Sched id d false u [a; b]) | _, _ => None end
  end.
(** recursively_start_schedulers; k: levels left *)
Fixpoint launch (k : nat) (id : list bool) (d : nat) : option (list scheduler) :=
  match make id d with
  | None => None
  | Some s => match k with
      | 0 => Some [s]
      | S k => match launch k (id ++ [false]) (d + 1), launch k (id ++ [true]) (d + 1) with Some a, Some b => Some (s :: a ++ b) | _, _ => None end
      end
  end.
Definition schedulers : option (list scheduler) := launch D [false] 0.

(** what a broadcast scheduler binds (broadcast_scheduler.py 212-233): the root its inward address, all of them the outward ones *)
Definition sched_binds (s : scheduler) : list (device * side * url) :=
  (if depth s =? 0 then [(Broadcast (place s), ToClients, inward s)] else []) ++
  (if leaf s then map (fun u => (Broadcast (place s), ToEngines, u)) (outward s)
   else zip_with (fun b u => (Broadcast (place s), ToChild b, u)) [false; true] (outward s)).
(** everything else that is bound: app.py 859-890, 1098-1140; heartmonitor.py start_heartmonitor *)
Definition other_binds : list (device * side * url) :=
  [(HeartMonitor, Ping, engine_url (ei_ping (eng i))); (HeartMonitor, Pong, engine_url (ei_pong (eng i)));
   (Hub, Notification, client_url (ci_notif (cli i))); (Hub, Monitor, Url (interface monitor_ip) ":" (mon i));
   (IOPub, ToEngines, engine_url (ei_iopub (eng i))); (IOPub, ToClients, client_url (ci_iopub (cli i)));
   (Direct, ToClients, client_url (ci_mux (cli i))); (Direct, ToEngines, engine_url (ei_mux (eng i)));
   (Control, ToClients, client_url (ci_control (cli i))); (Control, ToEngines, engine_url (ei_control (eng i)));
   (Task, ToClients, client_url (ci_task (cli i))); (Task, ToEngines, engine_url (ei_task (eng i)))].
(** 846-857: the registration listens at the clients' address, and at the engines' too if that is another *)
Definition registrations : list url := client_url (ci_reg (cli i)) :: (if bool_decide (client_ip = engine_ip) then [] else [engine_url (ei_reg (eng i))]).
Definition binds (l : list scheduler) : list (device * side * url) := map (fun u => (Hub, Registration, u)) registrations ++ other_binds ++ concat (map sched_binds l).

(** ** Clients and engines, from the connection files *)
(** client.py 505-515: always with ':' *)
Definition client_connects (c : channel) : url :=
  Url (interface client_ip) ":" match c with ChControl => ci_control (cli i) | ChMux => ci_mux (cli i) | ChTask => ci_task (cli i) | ChIopub => ci_iopub (cli i) end.
Definition client_broadcast : url := Url (interface client_ip) ":" (ci_bcast (cli i)).
(** engine/app.py 615-620, 642, 663, 678 *)
Definition engine_connects (c : channel) : url :=
  Url (interface engine_ip) ":" match c with ChControl => ei_control (eng i) | ChMux => ei_mux (eng i) | ChTask => ei_task (eng i) | ChIopub => ei_iopub (eng i) end.
(** 637-640 *)
Definition engine_broadcast (id : nat) : option url :=
  match ei_bcast (eng i) !! (id mod length (ei_bcast (eng i))) with Some port => Some (Url (interface engine_ip) ":" port) | None => None end.

(** client.py 765-770, engine/app.py 615-640 *)
Definition client_registration : url := Url (interface client_ip) ":" (ci_reg (cli i)).
Definition engine_registration : url := Url (interface engine_ip) ":" (ei_reg (eng i)).

(** ** The way of a broadcast message to an engine *)
(** broadcast_scheduler.py 50-63: which outward stream *)
Definition next_idx (d id : nat) : nat := match format_bits (id mod 2 ^ D) (D + 1) !! (d + 1) with Some true => 1 | _ => 0 end.
(** the scheduler, other than the root, that is connected to an address *)
Definition connected (l : list scheduler) (u : url) : list scheduler := filter (fun s => depth s <> 0 /\ inward s = u) l.
(** k hops from a scheduler to the one connected to the stream it chooses *)
Fixpoint route (l : list scheduler) (k : nat) (s : scheduler) (id : nat) : option scheduler :=
  match k with
  | 0 => Some s
  | S k => match outward s !! next_idx (depth s) id with
      | None => None
      | Some u => match connected l u with [t] => route l k t id | _ => None end end
  end.
End Addresses.
