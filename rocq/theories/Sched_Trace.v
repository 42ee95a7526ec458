(** The observable alphabet of the task scheduler (ipyparallel/controller/task_scheduler.py):
    what clients, engines and the Hub exchange with it.  Line numbers refer to that file. *)
From stdpp Require Import base gmap sets list.
From Verif Require Import Dependency_Model.

(** Kinds of results an engine sends back (metadata, 625-626). *)
Inductive rkind := ROk | RErr | RUnmet.

(** Reasons given by [fail_unreachable]. *)
Inductive why := ImpossibleDep | InvalidDep | TaskTimeout.

(** Content of a final reply to the client. *)
Inductive reply :=
| FromEngine (e : nat) (ok : bool)     (* relayed result, 650 *)
| Unreachable (w : why).               (* made by fail_unreachable, 479-485 *)

(** The metadata of a submitted task (view.py 1420-1427). *)
Record taskmd := TaskMd {
  t_targets : list nat; t_retries : nat; t_after : dep_dict; t_follow : dep_dict; t_timeout : bool }.

Inductive obs :=
| ObsSubmit (m : nat) (md : taskmd)      (* a client submitted task m *)
| ObsRegister (e : nat)                  (* engine e announced by the Hub *)
| ObsUnregister (e : nat)                (* engine e declared dead by the Hub *)
| ObsSend (m e : nat)                    (* task m sent to engine e, 588-589 *)
| ObsResult (m e : nat) (k : rkind)      (* result of m from e processed (real or stranded), 607 *)
| ObsReply (m : nat) (r : reply).        (* final reply for m sent to its client *)

