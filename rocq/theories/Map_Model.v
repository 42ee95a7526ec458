(** Model of ipyparallel/client/map.py and of ParallelFunction.__call__
    (ipyparallel/client/remotefunction.py). *)
From Verif Require Import Prelude.
Local Open Scope Z_scope.

(** Python [l[low:high]] for integers 0 <= low <= high (the only ones that occur):
    positions beyond the end are ignored.
    map.py 53-58; the [islice] fallback for unsliceable objects returns the same
    items as a list, so both branches are this function. *)
Definition py_slice {A} (l : list A) (low high : Z) : list A :=
  firstn (Z.to_nat (high - low)) (skipn (Z.to_nat low) l).

(** Python [range(start, stop, step)] for step > 0 (used by extended slices). *)
Definition py_range (start stop step : nat) : list nat :=
  map (fun k => (start + k * step)%nat)
      (seq 0 (Nat.div (stop - start + (step - 1)) step)).

(** Python [l[p:n:q]] for 0 <= p, 0 <= n, q > 0: the indices are
    [range(min(p,len), min(n,len), q)].  map.py 85.
    For q = 0 Python raises ValueError; the model guards for it in [rr_getPartition]. *)
Definition py_stride {A} (l : list A) (p n q : nat) : list A :=
  flat_map (fun i => match nth_error l i with Some x => [x] | None => [] end)
           (py_range p (Nat.min n (length l)) q).

(** map.py 32-60, [Map.getPartition(seq, p, q, n)].
    [n] is always explicit here (line 38's default is [length l]). *)
Definition block_getPartition {A} (l : list A) (p q n : Z) : res (list A) :=
  if (p <? 0) || (q <=? p) then Raise ValueError                (* 40-41 *)
  else
    let remainder := n mod q in                                 (* 43 *)
    let basesize := n / q in                                    (* 44 *)
    if p <? remainder then                                      (* 46 *)
      let low := p * (basesize + 1) in                          (* 47 *)
      let high := low + basesize + 1 in                         (* 48 *)
      Ok (py_slice l low high)
    else
      let low := p * basesize + remainder in                    (* 50 *)
      let high := low + basesize in                             (* 51 *)
      Ok (py_slice l low high).

(** map.py 83-85, [RoundRobinMap.getPartition].  All callers pass [p] from
    [enumerate], i.e. 0 <= p; a zero slice step is Python's ValueError.
    Simplification: negative p is not modelled (sent to 0 by [Z.to_nat]). *)
Definition rr_getPartition {A} (l : list A) (p q n : Z) : res (list A) :=
  if q <=? 0 then Raise ValueError
  else Ok (py_stride l (Z.to_nat p) (Z.to_nat n) (Z.to_nat q)).

(** map.py 123, the two distributions. *)
Inductive dist := DistBlock | DistRR.

Definition getPartition {A} (d : dist) (l : list A) (p q n : Z) : res (list A) :=
  match d with
  | DistBlock => block_getPartition l p q n
  | DistRR => rr_getPartition l p q n
  end.

(** map.py 62-74 for a first partition that is a list or tuple:
    [list(chain.from_iterable(parts))].  [parts[0]] of an empty list is IndexError.
    The numpy and scalar branches are not modelled here (see Scatter_Model). *)
Definition block_join {A} (parts : list (list A)) : res (list A) :=
  match parts with
  | [] => Raise IndexError
  | _ => Ok (concat parts)
  end.

(** map.py 107-111, [flatten_list]. *)
Definition flatten_list {A} (parts : list (list A)) : res (list A) :=
  match parts with
  | [] => Raise IndexError
  | p0 :: _ =>
      Ok (flat_map
            (fun i => flat_map (fun part : list A =>
                         match nth_error part i with Some x => [x] | None => [] end) parts)
            (seq 0 (length p0)))
  end.

(** map.py 62-63 / 87-94. *)
Definition joinPartitions {A} (d : dist) (parts : list (list A)) : res (list A) :=
  match d with
  | DistBlock => block_join parts
  | DistRR => flatten_list parts
  end.

(** Scatter of a list on [q] engines: view.py 813-824 without [flatten]: partition
    [index] goes to the engine at [index] of the targets. *)
Definition scatter_parts {A} (d : dist) (l : list A) (q : nat) : res (list (list A)) :=
  traverse (fun i => getPartition d l (Z.of_nat i) (Z.of_nat q) (Z.of_nat (length l)))
           (seq 0 q).

(** view.py 839-864 gather: the partitions of the engines in target order, joined. *)
Definition gather {A} (d : dist) (parts : list (list A)) : res (list A) :=
  joinPartitions d parts.

(** remotefunction.py 144-145 [list(map(f, *parts))] on the engine: the builtin map
    takes one item of each sequence, left to right, and stops as soon as one of them
    is exhausted. *)
Fixpoint heads_tails {A} (ls : list (list A)) : option (list A * list (list A)) :=
  match ls with
  | [] => Some ([], [])
  | [] :: _ => None
  | (x :: xs) :: r =>
      match heads_tails r with
      | None => None
      | Some (hs, ts) => Some (x :: hs, xs :: ts)
      end
  end.

Fixpoint zip_from {A} (first : list A) (rest : list (list A)) : list (list A) :=
  match first with
  | [] => []
  | x :: xs =>
      match heads_tails rest with
      | None => []
      | Some (hs, ts) => (x :: hs) :: zip_from xs ts
      end
  end.

Definition py_zip {A} (ls : list (list A)) : list (list A) :=
  match ls with [] => [] | first :: rest => zip_from first rest end.

Definition remote_map {A B} (f : list A -> B) (parts : list (list A)) : list B :=
  map f (py_zip parts).

(** remotefunction.py 218-234: the running maximum and minimum, starting at -1. *)
Definition maxlen {A} (seqs : list (list A)) : Z :=
  fold_left (fun m s => let n := Z.of_nat (length s) in if m <? n then n else m) seqs (-1).
Definition minlen {A} (seqs : list (list A)) : Z :=
  fold_left (fun m s => let n := Z.of_nat (length s) in
                        if (m =? -1) || (n <? m) then n else m) seqs (-1).

(** remotefunction.py 245-265: the view kind decides the number of partitions.
    [Multiplexed t]: DirectView with [t] targets.  [Balanced c]: LoadBalancedView;
    chunksize 0 and None are both falsy.  Negative chunk sizes are not modelled. *)
Inductive viewkind := Multiplexed (ntargets : nat) | Balanced (chunksize : nat).

Definition nparts (v : viewkind) (maxl : Z) : nat :=
  match v with
  | Multiplexed t => t
  | Balanced O => Z.to_nat maxl                                        (* 250 *)
  | Balanced c =>
      let c := Z.of_nat c in
      Z.to_nat (maxl / c + (if maxl mod c >? 0 then 1 else 0))         (* 248 *)
  end.

(** remotefunction.py 274-301: the argument lists of the tasks that are submitted, in
    order; a partition with no items at all is skipped (280-281). *)
Definition total_len {A} (args : list (list A)) : nat :=
  fold_right (fun a n => (length a + n)%nat) 0%nat args.

Definition pf_tasks {A} (d : dist) (v : viewkind) (seqs : list (list A))
  : res (list (list (list A))) :=
  let maxl := maxlen seqs in
  let np := nparts v maxl in
  bind (traverse (fun i =>
          traverse (fun s => getPartition d s (Z.of_nat i) (Z.of_nat np) maxl) seqs)
        (seq 0 np))
       (fun parts => Ok (filter (fun args => negb (Nat.eqb (total_len args) 0)) parts)).

(** remotefunction.py 283-284, 300: the chunk sizes recorded for the tasks when mapping. *)
Definition min_len_arg {A} (args : list (list A)) : nat :=
  match args with
  | [] => 0
  | a :: r => fold_left (fun m b => Nat.min m (length b)) r (length a)
  end.

(** remotefunction.py 208-319 with [__ipp_mapping=True] (view.map), every task having
    returned: the list [get()] gives (asyncresult.py 1088-1102 without exceptions). *)
Definition parallel_map {A B} (d : dist) (v : viewkind) (f : list A -> B)
           (seqs : list (list A)) : res (list B) :=
  if maxlen seqs =? 0 then Ok []                                       (* 236-238 *)
  else bind (pf_tasks d v seqs) (fun tasks =>
         joinPartitions d (map (remote_map f) tasks)).
