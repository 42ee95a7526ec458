(** Control requests (C58): signals, aborts, shutdown, and the nanny process that stands before each engine.
    What a user may expect, told from what goes in and what comes out. *)
From stdpp Require Import base list strings.
From Coq Require Import ZArith.

(** ** Messages *)
Inductive sigv := SNum (z : Z) | SName (s : string).          (* a signal, by number or by name *)
Inductive content := CSig (s : sigv) | CIds (l : list string) | CRestart (b : bool) | COther (s : string).
Record message := Msg { mtype : string; mid : string; mcontent : content }.
Definition wire := list string.                               (* a message as it is sent: frames *)
Definition DELIM : string := "<IDS|MSG>".
Inductive status := Ok | Error (name : string).

(** The frames before the delimiter say where the answer is to go. *)
Fixpoint address (w : wire) : option (list string) :=
  match w with
  | [] => None
  | f :: r => if String.eqb f DELIM then Some [] else option_map (cons f) (address r)
  end.

(** ** What happens to a nanny *)
Inductive event :=
| FromClients (w : wire) (m : option message) (fails : option string)
    (* a control message: what it says, if it can be read and verified; if it asks for a signal, whether the operating system refuses *)
| FromEngine (w : wire)                                       (* a message from the engine, for the clients *)
| PipeEvent | ProcessEnds                                     (* two ways in which the end of the engine is noticed *)
| Turn.                                                       (* the event loop gets to its next callback *)
(** ** What it does *)
Inductive action :=
| ToEngine (w : wire) | ToClients (w : wire)
| Reply (address : list string) (type : string) (parent : string) (s : status)
| Signal (z : Z)                                              (* a signal is sent to the engine's process *)
| Unregister (id : Z).                                        (* the Hub is told that this engine is gone *)

Definition SIGNAL : string := "signal_request".
(** a message which can be read *)
Definition readable (e : event) : option (wire * list string * message) :=
  match e with
  | FromClients w (Some m) _ => match address w with Some (a :: l) => Some (w, a :: l, m) | _ => None end
  | _ => None
  end.
Definition for_engine (e : event) : list wire :=
  match readable e with Some (w, _, m) => if String.eqb (mtype m) SIGNAL then [] else [w] | None => [] end.
Definition for_clients (e : event) : list wire := match e with FromEngine w => [w] | _ => [] end.
(** [names]: the signals this system has *)
Definition meant (names : string -> option Z) (c : content) : option Z :=
  match c with CSig (SNum z) => Some z | CSig (SName s) => names s | _ => None end.
(** the signal requests: where the answer goes, the id of the request, and the signal sent if all is well *)
Definition asked (names : string -> option Z) (e : event) : list (list string * string * option Z) :=
  match readable e, e with
  | Some (_, a, m), FromClients _ _ fails =>
      if String.eqb (mtype m) SIGNAL then [(a, mid m, match fails with None => meant names (mcontent m) | Some _ => None end)] else []
  | _, _ => []
  end.

Definition to_engine (x : action) : list wire := match x with ToEngine w => [w] | _ => [] end.
Definition to_clients (x : action) : list wire := match x with ToClients w => [w] | _ => [] end.
Definition signals (x : action) : list Z := match x with Signal z => [z] | _ => [] end.
Definition replies (x : action) : list (list string * string * bool) :=
  match x with Reply a _ p s => [(a, p, match s with Ok => true | Error _ => false end)] | _ => [] end.
Definition told_hub (x : action) : list Z := match x with Unregister i => [i] | _ => [] end.
Definition ends (e : event) : bool := match e with PipeEvent | ProcessEnds => true | _ => false end.
Definition turns (evs : list event) : nat := length (List.filter (fun e => match e with Turn => true | _ => false end) evs).

(** ** The client *)
Inductive exn := ENoEngines | EType | EIndex | EKey | EValue | ENotImplemented | ERemote (name : string).
Inductive ending := Done | Futures (l : list string) | Raises (e : exn) | Hangs.
Record request (U : Type) := Req { r_to : U; r_msg : message }.
Arguments Req {U} r_to r_msg. Arguments r_to {U} r. Arguments r_msg {U} r.
(** What the client does in a call, in order *)
Inductive act (U : Type) := ASend (r : request U) | AReplied (id : string) | AHub | AClose.
Arguments ASend {U} r. Arguments AReplied {U} id. Arguments AHub {U}. Arguments AClose {U}.
(** What can be given as jobs *)
Inductive job := JId (s : string) | JResult (ids : list string) | JOther.
Inductive jobs := JNone | JOne (j : job) | JMany (l : list job).
Definition job_ids (j : job) : list string := match j with JId s => [s] | JResult l => l | JOther => [] end.
Definition valid (j : job) : Prop := j <> JOther.
Definition asked_jobs (outstanding : list string) (js : jobs) : list job :=
  match js with JNone => map JId outstanding | JOne j => [j] | JMany l => l end.
