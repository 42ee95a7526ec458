(** The life of a cluster of local processes (C59): what can happen to it, and what may be expected. *)
From stdpp Require Import base gmap list strings.
From Coq Require Import ZArith.

Notation pid := nat (only parsing).
(** What happens.  The first are calls of methods of Cluster; the others happen by themselves. *)
Inductive op :=
| StartController (ok : bool)                                  (* ok: the process could be started *)
| StartEngines (sid : string) (n : nat) (fail : option (nat * bool))
    (* n engines; fail = Some (k, b): after k engines have been started there is an error (b: in starting an engine) *)
| StopController | StopEngines (sid : string) | StopAllEngines | StopCluster
| PollController                                               (* get_connection_info looks whether the controller still runs *)
| Die (p : pid)                                                (* a process ends *)
| ThreadSees (p : pid)                                         (* the thread that waits for it finds out *)
| Callback                                                     (* the event loop runs the next stop notice *)
| Resume (i : nat)                                             (* ... resumes a stop_engines call that has waited for the processes *)
| Reload.                                                      (* this Python process goes away; another one calls Cluster.from_file *)
Inductive outcome := Returned | Waiting | Raised (e : string).

(** The operating system: which processes survive even a KILL, and the exit codes *)
Record world := World { immortal : pid -> bool; exit_code : pid -> option Z }.

Definition happens (o : op) : bool :=
  match o with Die _ | ThreadSees _ | Callback | Resume _ => true | _ => false end.
(** no start of engines fails *)
Definition starts_well (o : op) : bool := match o with StartEngines _ _ (Some _) => false | _ => true end.

(** no engine set is started with 0 engines *)
Definition some_engines (o : op) : bool := match o with StartEngines _ 0 _ => false | _ => true end.

(** The exit code of an engine set: the first that is not 0 or unknown, in the order in which the ends were noticed;
    if there is none, the first that is known. *)
Definition bad_code (c : option Z) : bool := match c with Some z => negb (z =? 0)%Z | None => false end.
Definition known (c : option Z) : bool := match c with Some _ => true | None => false end.
Definition set_code (l : list (option Z)) : option Z :=
  match List.find bad_code l with Some c => c | None => match List.find known l with Some c => c | None => None end end.
(** how often engines were started with an engine set id, and how often there was a stop notice with it *)
Definition starts_of (sid : string) (h : list op) : nat :=
  length (List.filter (fun x => match x with StartEngines k _ _ => String.eqb k sid | _ => false end) h).
Definition notices_of (sid : string) (l : list (option string * option Z)) : nat :=
  length (List.filter (fun n => match fst n with Some k => String.eqb k sid | None => false end) l).
