(** What a bidirectional dictionary is (C36): a set of pairs, readable in both directions. *)
From stdpp Require Import base gmap list.
From Verif Require Import RDict_Model.

Section spec.
Context {K : Type} `{Countable K}.

(** The pairs after a sequence of operations: setting adds a pair, popping a key removes its pair. *)
Definition pairs_after (B : gset (K * K)) (o : op K) : gset (K * K) :=
  match o with
  | Set_ k v => {[(k, v)]} ∪ B
  | Pop k => filter (fun p => fst p <> k) B
  end.
Definition pairs (l : list (op K)) : gset (K * K) := fold_left pairs_after l ∅.

(** The new pair does not clash: no other pair mentions one of its sides, and the two differ. *)
Definition fits (B : gset (K * K)) (k v : K) : Prop :=
  k <> v /\ forall a b, (a, b) ∈ B -> (a, b) = (k, v) \/ (a <> k /\ a <> v /\ b <> k /\ b <> v).
(** A sequence of operations without clashes. *)
Fixpoint tidy_from (B : gset (K * K)) (l : list (op K)) : Prop :=
  match l with
  | [] => True
  | o :: r => match o with Set_ k v => fits B k v | Pop _ => True end /\ tidy_from (pairs_after B o) r
  end.
Definition tidy (l : list (op K)) : Prop := tidy_from ∅ l.
End spec.
