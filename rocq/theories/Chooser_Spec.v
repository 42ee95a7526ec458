(** Specification of drawing an engine with probability inversely proportional to its load. *)
From Coq Require Import List ZArith QArith.
Import ListNotations.

Definition qsum (l : list Q) : Q := fold_right Qplus 0%Q l.
(** The share of an engine of the given load. *)
Definition share (load : Z) : Q := (1 / ((1 # 1000000) + inject_Z load))%Q.
(** [u] in [0, 1) falls into the i-th of the intervals of lengths proportional to the shares. *)
Definition falls_into (u : Q) (loads : list Z) (i : nat) : Prop :=
  let shares := map share loads in
  (i < length loads)%nat /\
  (i = 0%nat \/ (qsum (firstn i shares) < u * qsum shares)%Q) /\
  (u * qsum shares <= qsum (firstn (S i) shares))%Q.
