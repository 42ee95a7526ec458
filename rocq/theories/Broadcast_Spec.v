(** What a broadcast is.  Independent of the code. *)
From Coq Require Import List Arith Bool.
Import ListNotations.

(** An engine, as a target of a broadcast: its connection (uuid) and its id *)
Definition target : Type := nat * nat.

(** A broadcast: its number, whether the replies are coalesced, the targets *)
Record broadcast := Bc { msg : nat; coalescing : bool; targets : list target }.

(** A workload: distinct numbers; each broadcast names distinct engines, with their ids ([id_of]: the id of the engine behind
    a connection). *)
Definition workload (id_of : nat -> nat) (bs : list broadcast) : Prop :=
  NoDup (map msg bs) /\
  Forall (fun b => NoDup (map fst (targets b)) /\ Forall (fun t => snd t = id_of (fst t)) (targets b)) bs.

(** Everything that must be executed: (engine, broadcast) *)
Definition due (bs : list broadcast) : list (nat * nat) :=
  flat_map (fun b => map (fun t => (fst t, msg b)) (targets b)) bs.

(** The order in which a tree of depth [d] visits the targets: at each level first those whose id has the bit 0, then those with
    the bit 1, the most significant of the [d] lowest bits first. *)
Fixpoint tree_order (d : nat) (ts : list target) : list target :=
  match d with
  | O => ts
  | S d => tree_order d (filter (fun t => negb (Nat.testbit (snd t) d)) ts) ++ tree_order d (filter (fun t => Nat.testbit (snd t) d) ts)
  end.
