(** The engine watches the controller's heart beat (C66). *)
From Coq Require Import List ZArith Bool.
Import ListNotations.

(** What happens to the engine: a ping of the controller arrives, the engine has time to handle the next one (reading the clock), or its periodic check is due.
    The check reads the clock for the pings it still finds, and again at its end. *)
Inductive event := Arrive | Handle (t : Z) | Check (t t' : Z).

(** Checks in a row, the last ones, for which no ping had come since the check before.  The first check never counts. *)
Record tally := Tally { checked : bool; pinged : bool; quiet_checks : nat }.
Definition count (c : tally) (e : event) : tally :=
  match e with
  | Arrive => Tally (checked c) true (quiet_checks c)
  | Handle _ => c
  | Check _ _ => Tally true false (if checked c && negb (pinged c) then S (quiet_checks c) else 0)
  end.
Definition silence (l : list event) : nat := quiet_checks (fold_left count l (Tally false false 0)).

(** The readings of the clock *)
Fixpoint readings (l : list event) : list Z :=
  match l with [] => [] | Arrive :: l => readings l | Handle t :: l => t :: readings l | Check t t' :: l => t :: t' :: readings l end.
(** The clock does not go back; it goes on *)
Fixpoint ordered (lt : Z -> Z -> Prop) (t : Z) (l : list Z) : Prop := match l with [] => True | t' :: l => lt t t' /\ ordered lt t' l end.
Definition steady (l : list event) : Prop := ordered Z.le 0 (readings l).
Definition advancing (l : list event) : Prop := ordered Z.lt 0 (readings l).
