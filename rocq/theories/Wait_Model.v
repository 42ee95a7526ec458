(** Model of waiting for a part of the results: AsyncResult.wait, get with return_when, split and wait_interactive, and of the timing
    statistics, ipyparallel/client/asyncresult.py.  The children are numbered; child [i] ends with [res i] at time [arrives i]
    (never: None).  concurrent.futures.wait is taken to do what its documentation says; a thread that waits goes on some time ([delay]) after
    what it waits for is there.  Callbacks of a future run in the order of their registration before a waiting thread goes on; the result of all
    children is there with the last of them (C42).  AsyncMapResult and AsyncHubResult have their own get (C30, C51) and are left out. *)
From Coq Require Import List Arith Bool ZArith.
From Verif Require Import Async_Spec Async_Model Wait_Spec.
Import ListNotations.

Section Waiting.
Context {V : Type} (res : nat -> outcome V) (arrives : nat -> option nat) (n : nat) (single return_exceptions : bool).

Definition arrived (t i : nat) : bool := match arrives i with Some a => a <=? t | None => false end.
Definition children : list nat := seq 0 n.
(** 373-378: ready(), and _ready *)
Definition ready (t : nat) : bool := forallb (arrived t) children.
(** 424-456: split; what the i-th part ends with: a part is self if there is only one child, else an AsyncResult for a single result *)
Definition part_answer (i : nat) : answer (shape (V := V)) :=
  if n =? 1 then _resolve_result single return_exceptions [res i] else _resolve_result true return_exceptions [res i].
(** 531-535: _success *)
Definition success (i : nat) : bool := match part_answer i with Ret _ => true | Raise _ => false end.
(** concurrent.futures.wait: when it returns, and what *)
Definition there (rw : when) (t : nat) : bool :=
  match rw with
  | AllCompleted => forallb (arrived t) children
  | FirstCompleted => existsb (arrived t) children
  | FirstException => forallb (arrived t) children || existsb (fun i => arrived t i && negb (success i)) children
  end.
(** 494-501: wait(return_when) that goes on at time [t] *)
Definition wait_parts (t : nat) : list nat * list nat := (filter (arrived t) children, filter (fun i => negb (arrived t i)) children).

(** 308-371: get(return_when=FIRST_EXCEPTION) called at [t0]; the thread goes on at [t1]; [order]: how the set [done] is enumerated;
    [arg]: the argument return_exceptions *)
Definition get_first_exception (arg : option bool) (order : list nat -> list nat) (t0 t1 : nat) : answer (shape (V := V)) :=
  let all := Some (map res children) in
  if ready t0 then get single return_exceptions arg all                                                   (* 343-344, 350-358 *)
  else if ready t1 then get single return_exceptions arg all
  else match find (fun i => negb (success i)) (order (fst (wait_parts t1))) with                            (* 364-367 *)
       | Some i => get true return_exceptions (Some (match arg with Some b => b | None => return_exceptions end)) (Some [res i])
       | None => Raise TimeoutError                                                                        (* 368 *)
       end.

(** 867-881: the loop of wait_interactive.  [finished], 873-881: for return_when=None (which ALL_COMPLETED becomes, 861-862): the answer of
    wait; else computed from done and pending *)
Definition finished (rw : when) (t : nat) : bool :=
  match rw with
  | AllCompleted => ready t
  | FirstCompleted => match fst (wait_parts t) with [] => false | _ => true end
  | FirstException => match snd (wait_parts t) with [] => true | _ => existsb (fun i => negb (success i)) (fst (wait_parts t)) end
  end.
(** The first moment from [t] on, at most [k] later, at which it is there, else [k] later: wait(interval) *)
Fixpoint wait_until (p : nat -> bool) (t k : nat) : nat := if p t then t else match k with 0 => t | S k => wait_until p (S t) k end.
Context (progress_at : nat -> nat).                                                                         (* 792-800, C44 *)
(** [Loop rw interval timeout tic t fin bar t' bar']: from the head of the loop at time [t], with [fin] and the bar at [bar], it ends at [t'] with the bar at [bar']. *)
Inductive Loop (rw : when) (interval : nat) (timeout : option nat) (tic : nat) (delay : nat -> nat) : nat -> bool -> Z -> nat -> Z -> Prop :=
| Loop_end t fin bar : fin = true \/ (exists T, timeout = Some T /\ T < t - tic) ->                          (* 868-870 *)
    Loop rw interval timeout tic delay t fin bar t (bar + (Z.of_nat (progress_at t) - bar))%Z              (* 884 *)
| Loop_round t bar t' bar' : (forall T, timeout = Some T -> t - tic <= T) ->
    let t1 := wait_until (there rw) t interval in let t2 := t1 + delay t1 in                                (* 871 *)
    Loop rw interval timeout tic delay t2 (finished rw t2) (bar + (Z.of_nat (progress_at t2) - bar))%Z t' bar' ->   (* 872-881 *)
    Loop rw interval timeout tic delay t false bar t' bar'.
(** 841-885: wait_interactive called at [t0]; [timeout]: None for -1 or None *)
Definition wait_interactive (rw : when) (interval : nat) (timeout : option nat) (delay : nat -> nat) (t0 t1 : nat) (bar : Z) : Prop :=
  Loop rw interval timeout t0 delay t0 (ready t0) 0%Z t1 bar.
End Waiting.

(* ------------------------------------------------------------------ times *)
(** 758-790: timedelta with min and max *)
Definition minimum (l : list nat) : option nat := match l with [] => None | x :: r => Some (fold_left Nat.min r x) end.
Definition maximum (l : list nat) : option nat := match l with [] => None | x :: r => Some (fold_left Nat.max r x) end.
Definition timedelta (starts ends : list nat) : option Z :=
  match minimum starts, maximum ends with Some a, Some b => Some (Z.of_nat b - Z.of_nat a)%Z | _, _ => None end.
(** 829-839: wall_time *)
Definition wall_time (ts : list times) : option Z := timedelta (map submitted ts) (map received ts).
(** 816-827: serial_time; None: it raises AttributeError (util.py 601-603: None has no tzinfo), for a task without start or end *)
Definition serial_time (ts : list times) : option Z :=
  fold_left (fun acc t => match acc, started t, completed t with Some x, Some s, Some c => Some (x + (Z.of_nat c - Z.of_nat s))%Z | _, _, _ => None end) ts (Some 0%Z).
(** 802-815: elapsed, at time [now]; [ready]: the results are there.  submitted stamps are known from the start *)
Definition elapsed (ready : bool) (now : nat) (ts : list times) : option Z :=
  if ready then wall_time ts
  else Some (Z.of_nat now - Z.of_nat (fold_left (fun s t => if (submitted t <? s)%nat then submitted t else s) ts now))%Z.
