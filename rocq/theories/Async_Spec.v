(** What a user of AsyncResult relies on (C30, C31, C42-C44). *)
From Coq Require Import List Arith String Permutation.
Import ListNotations.

(** What a task ends with: a value, an error that came from an engine (its type's name and everything else that is
    known about it), or another exception (TaskAborted, ...). *)
Inductive outcome (V : Type) := Val (v : V) | Remote (ename : string) (about : nat) | Other (n : nat).
Arguments Val {V} v. Arguments Remote {V} ename about. Arguments Other {V} n.

(** The errors that came from engines, in the order of the tasks. *)
Inductive failures {V} : list (outcome V) -> list (string * nat) -> Prop :=
| fail_nil : failures [] []
| fail_val : forall v rs es, failures rs es -> failures (Val v :: rs) es
| fail_other : forall n rs es, failures rs es -> failures (Other n :: rs) es
| fail_remote : forall en a rs es, failures rs es -> failures (Remote en a :: rs) ((en, a) :: es).

(** No error is called "CompositeError". *)
Definition plain_names {V} (rs : list (outcome V)) : Prop := forall en a, In (Remote en a) rs -> en <> "CompositeError"%string.

(** What happens to a set of tasks that are waited for: the next one on the list is looked at, or the result
    of a task arrives. *)
Inductive event := Look | Arrive (c : nat).
(** Tasks that have arrived *)
Definition arrived (es : list event) (c : nat) : Prop := In (Arrive c) es.
(** Every result arrives once, and all tasks are looked at. *)
Definition once (es : list event) : Prop := NoDup (flat_map (fun e => match e with Arrive c => [c] | Look => [] end) es).
Definition looks (es : list event) : nat := List.length (filter (fun e => match e with Look => true | _ => false end) es).

(** The chunks one after another, in some order *)
Definition chunks_in_some_order {I} (chunks : list (list I)) (items : list I) : Prop :=
  exists chunks', Permutation chunks chunks' /\ items = List.concat chunks'.

(** The sum of the sizes of the messages [ms] that satisfy [p] *)
Inductive total (size : nat -> nat) (p : nat -> Prop) : list nat -> nat -> Prop :=
| total_nil : total size p [] 0
| total_yes : forall m ms n, p m -> total size p ms n -> total size p (m :: ms) (size m + n)
| total_no : forall m ms n, ~ p m -> total size p ms n -> total size p (m :: ms) n.

(** What a map that may return exceptions gives: the items of the tasks in the order of the tasks, a failed task
    being replaced by its exception. *)
Inductive laid_out {I} : list (outcome (list I)) -> list (outcome I) -> Prop :=
| laid_nil : laid_out [] []
| laid_val : forall l rs items, laid_out rs items -> laid_out (Val l :: rs) (map Val l ++ items)
| laid_remote : forall en a rs items, laid_out rs items -> laid_out (Remote en a :: rs) (Remote en a :: items)
| laid_other : forall n rs items, laid_out rs items -> laid_out (Other n :: rs) (Other n :: items).
