(** Model of the scheduling policies ("schemes"), ipyparallel/controller/task_scheduler.py 22-81.
    A call of [randint(0, n-1)] is an argument [r : nat] assumed to satisfy [r < n] (Python's
    contract), a call of [random()] an argument [u : Q] with [0 <= u < 1].  Loads are integers.
    Simplification: [weighted] computes with exact rationals instead of floats. *)
From Coq Require Import List Arith ZArith QArith Lia.
Import ListNotations.

(** 22-25 *)
Definition plainrandom (r : nat) (loads : list Z) : nat := r.

(** 28-35 *)
Definition lru (loads : list Z) : nat := 0.

(** 38-48 *)
Definition twobin (a b : nat) (loads : list Z) : nat := Nat.min a b.

(** Python's [min(loads)] and [loads.index(v)]; both raise ValueError on failure ([None]). *)
Definition py_min (l : list Z) : option Z :=
  match l with [] => None | x :: r => Some (fold_left Z.min r x) end.
Fixpoint py_index (v : Z) (l : list Z) : option nat :=
  match l with
  | [] => None
  | x :: r => if Z.eqb x v then Some 0%nat else option_map S (py_index v r)
  end.

(** 74-81 *)
Definition leastload (loads : list Z) : option nat :=
  match py_min loads with None => None | Some m => py_index m loads end.

(** 57: the weight of a load, 1 / (1e-6 + load) *)
Definition weight (load : Z) : Q := (/ ((1 # 1000000) + inject_Z load))%Q.

(** 58: cumulative sums *)
Fixpoint cumsum_from (acc : Q) (l : list Q) : list Q :=
  match l with [] => [] | w :: r => (acc + w)%Q :: cumsum_from (acc + w)%Q r end.
Definition cumsum (l : list Q) : list Q := cumsum_from 0%Q l.

(** 64-67: [while sums[idx] < x: idx += 1]; [None] is the IndexError past the end. *)
Fixpoint scan (sums : list Q) (x : Q) : option nat :=
  match sums with
  | [] => None
  | s :: r => if Qlt_le_dec s x then option_map S (scan r x) else Some 0%nat
  end.

(** 51-71; [sums[-1]] of an empty vector is an IndexError ([None]). *)
Definition weighted (u v : Q) (loads : list Z) : option nat :=
  let weights := map weight loads in
  let sums := cumsum weights in
  match sums with
  | [] => None
  | _ =>
      let t := last sums 0%Q in
      match scan sums (u * t)%Q, scan sums (v * t)%Q with
      | Some idx, Some idy =>
          match nth_error weights idx, nth_error weights idy with
          | Some wx, Some wy => if Qlt_le_dec wx wy then Some idy else Some idx   (* 68-71 *)
          | _, _ => None
          end
      | _, _ => None
      end
  end.
