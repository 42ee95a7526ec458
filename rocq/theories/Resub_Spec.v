(** What resubmitting tasks should do (C52). *)
From stdpp Require Import base gmap list.

Section spec.
Context {C : Type}.           (* contents, buffers, the rest of headers, metadata *)

(** A task as stored by the Hub: what was asked for, and everything else (its result, ...). *)
Record task := Task { kind : C; content : C; buffers : C; metadata : option C; resubmitted : option nat; rest : option C }.

(** [t'] is a new task that asks for the same as [t], with no result yet. *)
Definition fresh_copy (t t' : task) : Prop :=
  kind t' = kind t /\ content t' = content t /\ buffers t' = buffers t /\ resubmitted t' = None /\ rest t' = None.
(** [t'] is [t] except that it names its copy. *)
Definition points_to (m : nat) (t t' : task) : Prop :=
  kind t' = kind t /\ content t' = content t /\ buffers t' = buffers t /\ metadata t' = metadata t /\ rest t' = rest t /\
  resubmitted t' = Some m.
End spec.
Arguments task C : clear implicits.
