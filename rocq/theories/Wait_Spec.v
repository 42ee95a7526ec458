(** Waiting for several results, and their times (C76, C77).  Independent of the code.  Time is counted in microseconds. *)
From Coq Require Import List Arith.
Import ListNotations.

(** When to stop waiting *)
Inductive when := AllCompleted | FirstCompleted | FirstException.

(** What has to be there for that, of [n] results of which some are there and some are failures *)
Definition enough (rw : when) (n : nat) (there failed : nat -> Prop) : Prop :=
  match rw with
  | AllCompleted => forall i, i < n -> there i
  | FirstCompleted => exists i, i < n /\ there i
  | FirstException => (forall i, i < n -> there i) \/ exists i, i < n /\ there i /\ failed i
  end.

(** [t] is the end of waiting for something, begun at [t0], perhaps with a deadline: the first moment at which it is there, or the deadline. *)
Definition end_of_wait (there : nat -> Prop) (t0 : nat) (deadline : option nat) (t : nat) : Prop :=
  t0 <= t /\ (there t \/ deadline = Some t \/ exists d, deadline = Some d /\ d <= t0 /\ t = t0) /\
  forall t', t0 <= t' < t -> ~ there t' /\ forall d, deadline = Some d -> t' < d.

(** The times of a task: when the client sent it and got its result (by the client's clock), and when the engine began and finished it
    (by the engine's clock; the start of a task whose engine died is not known). *)
Record times := Times { engine : nat; submitted : nat; started : option nat; completed : option nat; received : nat }.
(** Two tasks that one engine executes one after the other *)
Definition one_after_the_other (a b : times) : Prop :=
  forall sa ca sb cb, started a = Some sa -> completed a = Some ca -> started b = Some sb -> completed b = Some cb -> ca <= sb \/ cb <= sa.
