(** What a task dependency means, independently of the code. *)
From stdpp Require Import base gmap sets.

(** A history of finished tasks: ids that completed and ids that failed. *)
Record history := Hist { h_ok : gset nat; h_bad : gset nat }.

(** A task finishes at most once, in one way. *)
Definition coherent (h : history) : Prop := h_ok h ## h_bad h.

(** [later h h'] : [h'] is a possible continuation of [h]. *)
Definition later (h h' : history) : Prop := h_ok h ⊆ h_ok h' ∧ h_bad h ⊆ h_bad h'.

(** Task [m] has finished in a way the flags accept. *)
Definition accepted (success failure : bool) (h : history) (m : nat) : Prop :=
  (success = true ∧ m ∈ h_ok h) ∨ (failure = true ∧ m ∈ h_bad h).

(** Task [m] has finished. *)
Definition finished (h : history) (m : nat) : Prop := m ∈ h_ok h ∨ m ∈ h_bad h.

(** The documented meaning of "the dependency is met". *)
Definition met (ids : gset nat) (all success failure : bool) (h : history) : Prop :=
  if all then ∀ m, m ∈ ids → accepted success failure h m
  else ids = ∅ ∨ ∃ m, m ∈ ids ∧ accepted success failure h m.
