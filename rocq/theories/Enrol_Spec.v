(** How an engine becomes, and stops to be, one of the engines of a cluster: what happens at the Hub (Hub_Spec) and at the process that
    watches the heartbeats (Heart_Spec), and the messages between them.  Independent of the code. *)
From Coq Require Import List Arith Bool.
From Verif Require Hub_Spec Heart_Spec.
Import ListNotations.

Inductive act :=
| Beat (r : Heart_Spec.round)        (* the answers that came since the last beat, and then the next beat *)
| Deliver                            (* the Hub handles the oldest message of the watching process that it has not handled *)
| Timeout (u k : nat)                (* the time limit for the registration of [u] passes; [k] messages of the watching process have come until then *)
| Reboot                             (* the controller is killed and started again: the Hub restores its engines, the watching process starts anew *)
| AtHub (e : Hub_Spec.event).        (* anything else that happens at the Hub *)

(** The rounds of heartbeats since the controller was started *)
Definition rounds (es : list act) : list Heart_Spec.round :=
  fold_left (fun l e => match e with Beat r => l ++ [r] | Reboot => [] | _ => l end) es [].
(** What the Hub has told since the controller was started *)
Definition since_start (ns : list Hub_Spec.notice) : list Hub_Spec.notice :=
  fold_left (fun l n => match n with Hub_Spec.Restarted => [] | _ => l ++ [n] end) ns [].

(** What interferes with the registration of engine [u] under the id [i]: the engine leaves (or the one who knows its id says so), or the
    time limit passes; [ready]: the time limit does not matter any more *)
Definition interferes (u i : nat) (e : act) (ready : nat -> Prop) : Prop :=
  match e with
  | Reboot => True
  | Timeout u' k => u' = u /\ ~ ready k
  | AtHub (Hub_Spec.Unregister i') => i' = i
  | _ => False
  end.
