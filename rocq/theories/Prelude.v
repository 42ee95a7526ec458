(** Shared vocabulary: Python exceptions as values, and a result type.
    Nothing here models a particular line of /repo. *)
From Coq Require Export List Arith ZArith Lia Bool.
Export ListNotations.

(** Names of the Python / ipyparallel exceptions that the modelled code raises. *)
Inductive exn : Type :=
| ValueError | IndexError | KeyError | TypeError | AttributeError
| TimeoutErr | InvalidState.

(** [Ok v]: normal return of [v]; [Raise e]: the exception [e] escapes. *)
Inductive res (A : Type) : Type :=
| Ok (a : A)
| Raise (e : exn).
Arguments Ok {A} a.
Arguments Raise {A} e.

Definition bind {A B} (r : res A) (k : A -> res B) : res B :=
  match r with Ok a => k a | Raise e => Raise e end.

(** [traverse f l]: run [f] on the elements of [l] from left to right, stop at the
    first exception. *)
Section Traverse.
Context {A B : Type} (f : A -> res B).
Fixpoint traverse (l : list A) : res (list B) :=
  match l with
  | [] => Ok []
  | x :: xs => bind (f x) (fun y => bind (traverse xs) (fun ys => Ok (y :: ys)))
  end.
End Traverse.

(** All of [l] are [Some], or nothing. *)
Fixpoint sequence {A} (l : list (option A)) : option (list A) :=
  match l with
  | [] => Some []
  | None :: _ => None
  | Some x :: r => match sequence r with Some xs => Some (x :: xs) | None => None end
  end.
