(** What is expected of the `_sync` wrappers (property C89). *)
From Coq Require Import String List.
Import ListNotations.

(** What a coroutine comes to: a value, an exception, or one of the
    exceptions that are not [Exception]s (a cancellation, an exit). *)
Inductive outcome := Ret (v : nat) | Raise (e : nat) | Base (e : nat).

(** What a coroutine does on its way: it gives way to others, or it makes
    itself a `_sync` call, number [c] of the table of calls. *)
Inductive act := Yield | Sync (c : nat).

(** One call `obj.X_sync(...)`: whether it is made in a thread with a running
    event loop, what `X` does, what `X` comes to. *)
Record call := Call { in_loop : bool; body : list act; out : outcome }.

(** What the caller gets. *)
Inductive result :=
| Out (o : outcome)      (* what the coroutine came to *)
| NoLoop                 (* AttributeError: there is no loop to run it in *)
| Twice.                 (* RuntimeError: a thread can be started once *)

(** No coroutine makes a `_sync` call itself. *)
Definition no_sync (T : list call) : Prop :=
  forall x c, In x T -> ~ In (Sync c) (body x).
(** No coroutine run in the background ends in a cancellation or exit. *)
Definition no_base (T : list call) : Prop :=
  forall x e, In x T -> in_loop x = true -> out x <> Base e.

(** Methods as `dir` and attribute access see them: coroutine functions, the
    same wrapped in classmethod or staticmethod, anything else. *)
Inductive meth := Coro | WrappedCoro | Other.
Definition class_ := list (string * meth).
