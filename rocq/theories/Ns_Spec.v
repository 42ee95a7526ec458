(** The namespaces of the engines, as the user of a DirectView or BroadcastView sees them (C67, C68). *)
From stdpp Require Import base gmap strings list.

(** Values: anything without structure, and sequences: lists, tuples, and others that can be sliced and counted (range, str). *)
Inductive kind := KList | KTuple | KOther.
Inductive val := VNone | VAtom (n : nat) | VSeq (k : kind) (items : list val).
Notation namespace := (gmap string val).
Inductive problem := NameError | SyntaxError | TypeErr | UserError (n : nat) | UnknownKey.
Inductive reply := RVal (v : val) | RErr (p : problem).

(** What an engine is asked to do: push, pull of one name or of several, BroadcastView.map's task on some sequences by name, and any other function or code. *)
Inductive req := Push (kvs : list (string * val)) | Pull (name : string) | PullAll (names : list string) | MapOn (f : nat) (names : list string) | Code (c : nat).

(** A message to an engine: on which channel (each view has one; load-balanced, multiplexed and broadcast views have different ones), with a new id. *)
Record msg := Msg { m_engine : nat; m_chan : nat; m_id : nat; m_req : req }.

(** Plain Python names *)
Definition keywords : list string :=
  ["False"; "None"; "True"; "and"; "as"; "assert"; "async"; "await"; "break"; "class"; "continue"; "def"; "del"; "elif"; "else"; "except"; "finally"; "for";
   "from"; "global"; "if"; "import"; "in"; "is"; "lambda"; "nonlocal"; "not"; "or"; "pass"; "raise"; "return"; "try"; "while"; "with"; "yield"]%string.
Definition letter (a : Ascii.ascii) : bool := let n := Ascii.nat_of_ascii a in ((65 <=? n) && (n <=? 90)) || ((97 <=? n) && (n <=? 122)) || (n =? 95).
Definition digit (a : Ascii.ascii) : bool := let n := Ascii.nat_of_ascii a in (48 <=? n) && (n <=? 57).
Fixpoint all_chars (p : Ascii.ascii -> bool) (s : string) : bool := match s with EmptyString => true | String a s => p a && all_chars p s end.
Definition identifier (s : string) : bool :=
  match s with EmptyString => false | String a r => letter a && all_chars (fun a => letter a || digit a) r && negb (bool_decide (s ∈ keywords)) end.

(** The items of a sequence *)
Definition items_of (v : val) : option (list val) := match v with VSeq _ l => Some l | _ => None end.

(** What can happen: the client sends a message, an engine executes the next message of a channel, an engine dies. *)
Inductive event := Send (e c : nat) (r : req) | Run (e c : nat) | Die (e : nat).
(** What the client sent, in order: the i-th message has the id i *)
Definition is_send (ev : event) : Prop := match ev with Send _ _ _ => True | _ => False end.
Global Instance is_send_dec ev : Decision (is_send ev).
Proof. destruct ev; cbn; apply _. Defined.
Definition sends (h : list event) : list event := filter is_send h.

(** A request does not touch the name x, in whichever namespace it is executed *)
Definition leaves (exec : req -> namespace -> namespace * reply) (r : req) (x : string) : Prop := forall ns, fst (exec r ns) !! x = ns !! x.

(** Executing messages one after the other: the namespace at the end and the reply to each *)
Fixpoint serially (exec : req -> namespace -> namespace * reply) (ns : namespace) (l : list msg) : namespace * list (nat * reply) :=
  match l with
  | [] => (ns, [])
  | m :: l => let '(ns1, r) := exec (m_req m) ns in let '(ns2, rs) := serially exec ns1 l in (ns2, (m_id m, r) :: rs)
  end.
(** The messages of a list to engine e on channel c *)
Definition channel (e c : nat) (l : list msg) : list msg := filter (fun m => m_engine m = e /\ m_chan m = c) l.
(** The i-th message of a history *)
Definition nth_sent (h : list event) (i : nat) : option msg := match sends h !! i with Some (Send e c r) => Some (Msg e c i r) | _ => None end.
