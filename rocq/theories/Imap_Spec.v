(** What a user of LoadBalancedView.imap relies on (C32). *)
From Coq Require Import List Arith Permutation.
From Verif Require Import Async_Spec.
Import ListNotations.

(** What the argument iterator gives when asked for the [k]-th time: arguments, the end, or an exception (of the iterator
    or of sending the task). *)
Inductive input := Args | Stop | Fail.
(** The iterator ends after [n] inputs: it gives [n] times arguments and then stops. *)
Definition ends_after (inputs : nat -> input) (n : nat) : Prop := inputs n = Stop /\ forall k, k < n -> inputs k = Args.
(** ... or raises an exception *)
Definition fails_after (inputs : nat -> input) (n : nat) : Prop := inputs n = Fail /\ forall k, k < n -> inputs k = Args.
(** The [k]-th call does not fail. *)
Definition fine {V} (outcome_of : nat -> outcome V) (k : nat) : Prop := exists v, outcome_of k = Val v.
