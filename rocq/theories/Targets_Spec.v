(** Choosing engines (C49): what the documentation says. *)
From stdpp Require Import base gmap list sorting strings.
From Coq Require Import ZArith Ascii.

(** What can be given as targets. *)
Inductive target :=
| TNone
| TStr (s : string)
| TInt (z : Z)
| TSlice (start stop step : option Z)
| TList (l : list Z)                          (* a list, tuple or range *)
| TOther.                                     (* anything else: a set, a float, ... *)

Inductive outcome (U : Type) :=
| Chosen (idents : list U) (ids : list Z)
| NoEnginesRegistered | TypeError | IndexError | KeyError | ValueError.
Arguments Chosen {U} _ _. Arguments NoEnginesRegistered {U}. Arguments TypeError {U}. Arguments IndexError {U}.
Arguments KeyError {U}. Arguments ValueError {U}.

(** Engines come and go. *)
Inductive event (U : Type) := Register (e : nat) (u : U) | Unregister (e : nat).
Arguments Register {U} e u. Arguments Unregister {U} e.
Definition about {U} (e : nat) (ev : event U) : bool := match ev with Register x _ | Unregister x => Nat.eqb e x end.
(** Engine [e] is there after the history [h] (latest event last), with uuid [u]: the last event about it
    was its registration. *)
Definition present {U} (h : list (event U)) (e : nat) (u : U) : Prop :=
  exists h1 h2, h = h1 ++ Register e u :: h2 /\ forall ev, ev ∈ h2 -> about e ev = false.

(** The positions a slice selects in a sequence of length [n]: start, start+step, ... as long as they are
    on the right side of stop.  Negative bounds count from the end; bounds are cut off at the ends. *)
Definition bound (n step : Z) (x : Z) : Z :=
  let x := if (x <? 0)%Z then (x + n)%Z else x in
  if (0 <? step)%Z then Z.max 0 (Z.min x n) else Z.max (-1) (Z.min x (n - 1)).
Definition slice_start (n step : Z) (start : option Z) : Z :=
  match start with Some x => bound n step x | None => if (0 <? step)%Z then 0 else n - 1 end%Z.
Definition slice_stop (n step : Z) (stop : option Z) : Z :=
  match stop with Some x => bound n step x | None => if (0 <? step)%Z then n else -1 end%Z.
Definition selected (n : Z) (start stop : option Z) (step : Z) (positions : list Z) : Prop :=
  let a := slice_start n step start in
  let b := slice_stop n step stop in
  (forall k i, positions !! k = Some i -> i = a + Z.of_nat k * step)%Z /\
  (forall k, k < length positions <-> if (0 <? step)%Z then (a + Z.of_nat k * step < b)%Z else (a + Z.of_nat k * step > b)%Z).

(** "all", in any capitals *)
Definition says_all (s : string) : Prop :=
  exists a l l', s = String a (String l (String l' EmptyString)) /\ a ∈ ["a"; "A"]%char /\ l ∈ ["l"; "L"]%char /\ l' ∈ ["l"; "L"]%char.

(** The ids chosen, if [ids] are the ids there, in increasing order. *)
Definition choice (ids : list nat) (t : target) (out : list Z) : Prop :=
  match t with
  | TNone => out = map Z.of_nat ids
  | TStr s => says_all s /\ out = map Z.of_nat ids
  | TInt z => if (z <? 0)%Z then exists e, ids !! Z.to_nat (z + Z.of_nat (length ids)) = Some e /\ (0 <= z + Z.of_nat (length ids))%Z /\ out = [Z.of_nat e]
              else exists e, e ∈ ids /\ z = Z.of_nat e /\ out = [z]
  | TSlice a b c => exists step positions, step = default 1%Z c /\ step <> 0%Z /\ selected (Z.of_nat (length ids)) a b step positions /\
      Forall2 (fun i x => (0 <= i)%Z /\ exists e, ids !! Z.to_nat i = Some e /\ x = Z.of_nat e) positions out
  | TList l => out = l /\ forall x, x ∈ l -> exists e, e ∈ ids /\ x = Z.of_nat e
  | TOther => False
  end.
