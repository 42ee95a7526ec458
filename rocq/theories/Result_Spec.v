(** What result_status should say (C39). *)
From stdpp Require Import base gmap list.
From Verif Require Import Result_Model.

Section spec.
Context {V F : Type} (deser : list F -> option (V * list F)).

(** [o] is the result the Hub has for [m]; a value in buffers is read from them whatever follows. *)
Definition stored (hub : nat -> state V F) (m : nat) (o : outcome V) : Prop :=
  match hub m with
  | Done Applied b => exists v, o = Value v /\ forall rest, deser (b ++ rest) = Some (v, rest)
  | Done (Executed v) b => o = Value v /\ b = []
  | Done (Failed e) b => o = Error e /\ b = []
  | _ => False
  end.
(** The Hub knows the task: it is pending, or its result can be read. *)
Definition known (hub : nat -> state V F) (m : nat) : Prop := hub m = Pending \/ exists o, stored hub m o.

(** The ids the client does ask the Hub for, and those it answers from its cache: after an id found in
    the cache, the next one is not looked up. *)
Fixpoint asked (local : nat -> bool) (l : list nat) : list nat :=
  match l with
  | [] => []
  | x :: l => if local x then match l with [] => [] | y :: l => y :: asked local l end else x :: asked local l
  end.
Fixpoint from_cache (local : nat -> bool) (l : list nat) : list nat :=
  match l with
  | [] => []
  | x :: l => if local x then x :: match l with [] => [] | _ :: l => from_cache local l end else from_cache local l
  end.
End spec.
