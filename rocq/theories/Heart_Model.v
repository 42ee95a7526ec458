(** Model of ipyparallel/controller/heartmonitor.py, class HeartMonitor (92-262).
    Simplifications: times are natural numbers (clock ticks), and their decimal forms are compared as the
    numbers; sets are lists, in some order, without duplicates; pings cannot get lost on the way out (an
    engine that does not get one does not answer). *)
From Coq Require Import List Arith Bool.
From Verif Require Import Heart_Spec.
Import ListNotations.

(** 124-131 *)
Record monitor := Mon { hearts : list nat; responses : list nat; on_probation : list (nat * nat); last_ping : nat; lifetime : nat }.
Definition start : monitor := Mon [] [] [] 0 0.

Definition mem (x : nat) (l : list nat) : bool := existsb (Nat.eqb x) l.
Definition add (x : nat) (l : list nat) : list nat := if mem x l then l else l ++ [x].
Definition inter (a b : list nat) : list nat := filter (fun x => mem x b) a.
Definition diff (a b : list nat) : list nat := filter (fun x => negb (mem x b)) a.
Definition remove (x : nat) (l : list nat) : list nat := filter (fun y => negb (Nat.eqb x y)) l.
Fixpoint count (x : nat) (d : list (nat * nat)) : nat :=
  match d with [] => 0 | (k, v) :: r => if Nat.eqb x k then v else count x r end.

(** 219-244: handle_pong *)
Definition handle_pong (m : monitor) (msg : nat * nat) : monitor :=
  let '(h, t) := msg in
  if Nat.eqb t (lifetime m) || Nat.eqb t (last_ping m)
  then Mon (hearts m) (add h (responses m)) (on_probation m) (last_ping m) (lifetime m)
  else m.

(** 177-188: _check_missed *)
Definition check_missed (max : nat) (missed_beats : list nat) (prob : list (nat * nat)) (hs : list nat) : list nat * list (nat * nat) :=
  let cur := filter (fun b => mem b hs) missed_beats in
  (filter (fun h => Nat.ltb max (count h prob + 1)) cur,
   map (fun h => (h, count h prob + 1)) (filter (fun h => negb (Nat.ltb max (count h prob + 1))) cur)).

(** What the Hub is told at a beat: 190-202 handle_new_hearts, 204-217 handle_heart_failure *)
Record notice := Notice { new_heart : list nat; stopped_heart : list nat }.

(** 148-175: beat *)
Definition beat (max : nat) (m : monitor) (passed : nat) : monitor * notice :=
  let good_hearts := inter (hearts m) (responses m) in
  let missed_beats := diff (hearts m) good_hearts in
  let new_hearts := diff (responses m) good_hearts in
  let hs := fold_left (fun l h => add h l) new_hearts (hearts m) in                        (* 191-192 *)
  let '(failures, prob) := check_missed max missed_beats (on_probation m) hs in
  let hs := fold_left (fun l h => remove h l) failures hs in                               (* 213-215 *)
  (Mon hs [] prob (lifetime m) (lifetime m + passed), Notice new_hearts failures).

Definition do_round (max : nat) (m : monitor) (r : round) : monitor * notice :=
  beat max (fold_left handle_pong (pongs r) m) (elapsed r).

(** The monitor after a history, and what the Hub was told at each beat *)
Fixpoint run_from (max : nat) (m : monitor) (rs : list round) : monitor * list notice :=
  match rs with
  | [] => (m, [])
  | r :: rs => let '(m1, n) := do_round max m r in let '(m2, ns) := run_from max m1 rs in (m2, n :: ns)
  end.
Definition run (max : nat) (rs : list round) := run_from max start rs.
