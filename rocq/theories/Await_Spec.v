(** wait_for_engines (C71): how a wait can end *)
From stdpp Require Import base list.

Inductive outcome :=
| Ready                       (* the wait returns *)
| TimedOut                    (* TimeoutError *)
| EngineGone (e : nat)        (* EngineError: engine e unregistered while waiting *)
| SetStopped (k : nat).       (* EngineError: engine set k of the cluster stopped *)

(** What happens: in the threads that wait, and to the client *)
Inductive event :=
| Call (w n : nat) (timeout : bool)   (* wait w begins: wait_for_engines(n, timeout): looks at the engines known *)
| Watch (w : nat)                     (* it has its callbacks at the engine sets of the cluster *)
| Install (w : nat)                   (* and at the client: now it waits *)
| Register (e : nat)                  (* a notice of the Hub that engine e is there, or gone *)
| Unregister (e : nat)
| Stop (k : nat)                      (* engine set k stops *)
| Timer (w : nat).                    (* the timeout of w *)

(** Which elements of a list a Python loop over it reaches, if some, when reached, are removed from it: the next one is then skipped *)
Fixpoint reached (gone : nat -> bool) (skip : bool) (l : list nat) : list nat :=
  match l with [] => [] | a :: l => if skip then reached gone false l else a :: reached gone (gone a) l end.
