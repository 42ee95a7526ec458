(** Python values as they occur in task records and queries, with Python's own ==, <, in, %, and
    dict operations.  This is the language, not code of /repo.
    Simplifications: booleans are the integers 0 and 1 (as in Python); floats are left out; ordering of
    lists, bytes and dicts is treated as raising TypeError. *)
From Coq Require Import List ZArith String Bool Lia.
From Verif Require Import Prelude.
Import ListNotations.
Local Open Scope string_scope.

Inductive value : Type :=
| VNone
| VInt (z : Z)
| VStr (s : string)
| VTime (t : Z)                            (* datetime with a timezone *)
| VNaive (t : Z)                           (* datetime without one *)
| VBytes (b : list nat)                    (* bytes or memoryview *)
| VList (l : list value)
| VDict (d : list (string * value)).

(** Dicts keep insertion order; keys are unique. *)
Definition dict (A : Type) := list (string * A).
Fixpoint dget {A} (k : string) (d : dict A) : option A :=
  match d with [] => None | (k', v) :: r => if String.eqb k k' then Some v else dget k r end.
Fixpoint dset {A} (k : string) (v : A) (d : dict A) : dict A :=
  match d with [] => [(k, v)] | (k', v') :: r => if String.eqb k k' then (k, v) :: r else (k', v') :: dset k v r end.
Fixpoint ddel {A} (k : string) (d : dict A) : dict A :=
  match d with [] => [] | (k', v) :: r => if String.eqb k k' then r else (k', v) :: ddel k r end.
Definition dupdate {A} (d new : dict A) : dict A := fold_left (fun d kv => dset (fst kv) (snd kv) d) new d.
Definition dkeys {A} (d : dict A) : list string := map fst d.

(** == *)
Fixpoint list_eqb (l1 l2 : list nat) : bool :=
  match l1, l2 with [], [] => true | x :: r, y :: s => Nat.eqb x y && list_eqb r s | _, _ => false end.
Fixpoint py_eq (a b : value) {struct a} : bool :=
  match a, b with
  | VNone, VNone => true
  | VInt x, VInt y => Z.eqb x y
  | VStr x, VStr y => String.eqb x y
  | VTime x, VTime y => Z.eqb x y
  | VNaive x, VNaive y => Z.eqb x y
  | VBytes x, VBytes y => list_eqb x y
  | VList x, VList y =>
      (fix go (x y : list value) : bool :=
         match x, y with [], [] => true | u :: x, v :: y => py_eq u v && go x y | _, _ => false end) x y
  | VDict x, VDict y =>
      Nat.eqb (List.length x) (List.length y) &&
      (fix go (x : list (string * value)) : bool :=
         match x with
         | [] => true
         | (k, u) :: x => match dget k y with Some v => py_eq u v | None => false end && go x
         end) x
  | _, _ => false
  end.

(** Truth value. *)
Definition truthy (v : value) : bool :=
  match v with
  | VNone => false | VInt z => negb (Z.eqb z 0) | VStr s => negb (String.eqb s "")
  | VTime _ | VNaive _ => true
  | VBytes l => negb (Nat.eqb (List.length l) 0) | VList l => negb (Nat.eqb (List.length l) 0)
  | VDict l => negb (Nat.eqb (List.length l) 0)
  end.

(** < ; a TypeError for values that have no order. *)
Definition py_lt (a b : value) : res bool :=
  match a, b with
  | VInt x, VInt y => Ok (Z.ltb x y)
  | VStr x, VStr y => Ok (match String.compare x y with Lt => true | _ => false end)
  | VTime x, VTime y => Ok (Z.ltb x y)
  | VNaive x, VNaive y => Ok (Z.ltb x y)
  | _, _ => Raise TypeError
  end.
(** <= *)
Definition py_le (a b : value) : res bool := bind (py_lt a b) (fun r => Ok (r || py_eq a b)).

(** [a in b], for lists (element), dicts (key) and strings (substring). *)
Definition py_in (a b : value) : res bool :=
  match b with
  | VList l => Ok (existsb (fun x => py_eq a x) l)
  | VDict d => Ok (match a with VStr s => match dget s d with Some _ => true | None => false end | _ => false end)
  | VStr s => match a with VStr x => Ok (match String.index 0 x s with Some _ => true | None => false end) | _ => Raise TypeError end
  | _ => Raise TypeError
  end.

(** [a % b] on integers. *)
Definition py_mod (a b : value) : res value :=
  match a, b with
  | VInt x, VInt y => if Z.eqb y 0 then Raise ValueError else Ok (VInt (Z.modulo x y))   (* ZeroDivisionError *)
  | _, _ => Raise TypeError
  end.
(** [b[i]] *)
Definition py_item (b : value) (i : nat) : res value :=
  match b with VList l => match nth_error l i with Some v => Ok v | None => Raise IndexError end | _ => Raise TypeError end.
(** Iterating over a value. *)
Definition py_iter (b : value) : res (list value) :=
  match b with
  | VList l => Ok l
  | VDict d => Ok (map (fun kv => VStr (fst kv)) d)
  | VStr s => Ok (map (fun c => VStr (String c "")) (list_ascii_of_string s))
  | _ => Raise TypeError
  end.
