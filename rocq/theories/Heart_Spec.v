(** What heartbeats are supposed to tell.  Independent of the code.
    A history is a list of rounds; a round is what arrives between two beats, then the time that has passed
    when the beat takes place. An answer (pong) carries the number of the ping it answers: the lifetime of
    the monitor when the ping was sent. *)
From Coq Require Import List Arith.
Import ListNotations.

Record round := Round { pongs : list (nat * nat); elapsed : nat }.

(** The time at which round [i] began: the number of its ping. *)
Fixpoint ping_of (rs : list round) (i : nat) : nat :=
  match i, rs with
  | S i, r :: rs => elapsed r + ping_of rs i
  | _, _ => 0
  end.

(** Engine [h] answers in round [i], in time: the ping of this round or of the round before. *)
Definition answered (rs : list round) (h i : nat) : Prop :=
  exists r t, nth_error rs i = Some r /\ In (h, t) (pongs r) /\ (t = ping_of rs i \/ t = ping_of rs (pred i)).

(** The last answer was in round [j]; the rounds after it, up to and including [i], were missed. *)
Definition last_answer (rs : list round) (h i j : nat) : Prop :=
  j <= i /\ answered rs h j /\ forall m, j < m <= i -> ~ answered rs h m.

(** After round [i]: missed [n] beats in a row since it last answered. *)
Definition missed (rs : list round) (h i n : nat) : Prop := exists j, last_answer rs h i j /\ i = j + n.
