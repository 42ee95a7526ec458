(** What is expected of classes that are sent to engines (property C92). *)
From Coq Require Import List Arith Bool.
Import ListNotations.

(** A class: its name, its attributes with their values (the class's own),
    whether it was defined in [__main__]; and its method resolution order. A
    class is known by its number. *)
Record class := Class {
  name : nat;
  attrs : list (nat * nat);
  in_main : bool;
  mro : list nat }.
(** All classes there are. Number 0 is [object]. *)
Definition heap := list class.

(** Two names of attributes are special: [__weakref__] and [__dict__]. *)
Definition weakref := 0.
Definition dict := 1.

(** [C.a]: the first class in the order that has [a] (what is found as it is;
    descriptors are not asked). *)
Fixpoint own (a : nat) (l : list (nat * nat)) : option nat :=
  match l with [] => None | (b, v) :: r => if Nat.eqb a b then Some v else own a r end.
Fixpoint first (h : heap) (a : nat) (l : list nat) : option nat :=
  match l with
  | [] => None
  | c :: r => match nth_error h c with
              | Some k => match own a (attrs k) with Some v => Some v | None => first h a r end
              | None => first h a r
              end
  end.
Definition get (h : heap) (c a : nat) : option nat :=
  match nth_error h c with Some k => first h a (mro k) | None => None end.

(** [issubclass(c, p)] *)
Definition subclass (h : heap) (c p : nat) : Prop := exists k, nth_error h c = Some k /\ In p (mro k).

(** [l] is [m] with some left out. *)
Inductive sub : list nat -> list nat -> Prop :=
| sub_nil l : sub [] l
| sub_take x l m : sub l m -> sub (x :: l) (x :: m)
| sub_skip x l m : sub l m -> sub l (x :: m).
