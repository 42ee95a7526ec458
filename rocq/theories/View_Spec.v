(** What users of views rely on, in terms of values, flags and message ids only. *)
From stdpp Require Import base gmap sets list.
From Verif Require Import Dependency_Model Dependency_Spec View_Model.
From Coq Require Import ZArith.

(** The tasks a dependency argument names, and the flags it carries (the documented defaults unless
    it is a Dependency object). *)
Fixpoint named (v : value) : gset nat :=
  match v with
  | VStr m => {[m]}
  | VAsync ms => list_to_set ms
  | VSeq l => ⋃ (map named l)
  | VDep d => d_ids d
  | VDict _ d => list_to_set (default [] (k_dependencies d))
  | _ => ∅
  end.
Definition needs_all (v : value) : bool := match v with VDep d => d_all d | VDict _ d => default true (k_all d) | _ => true end.
Definition on_success (v : value) : bool := match v with VDep d => d_success d | VDict _ d => default true (k_success d) | _ => true end.
Definition on_failure (v : value) : bool := match v with VDep d => d_failure d | VDict _ d => default false (k_failure d) | _ => false end.
(** The argument, read as the documentation says, is fulfilled in the history [h]. *)
Definition fulfilled (v : value) (h : history) : Prop :=
  met (named v) (needs_all v) (on_success v) (on_failure v) h.

(** Dependency objects accept successes or failures (the constructor refuses others). *)
Definition constructed (v : value) : Prop :=
  match v with VDep d => d_success d || d_failure d = true | _ => True end.

(** Attributes hold values of their type (traitlets checks every assignment). *)
Definition has_type (f : flag) (v : value) : Prop :=
  match f with
  | Block | Track => exists b, v = VBool b
  | Timeout => exists z, v = VFloat z
  | Retries => (exists z, v = VInt z) \/ (exists b, v = VBool b)
  | _ => True
  end.
Definition well_typed (k : kind) (s : flags) : Prop := forall f, f ∈ flag_names k -> has_type f (s f).
(** Additionally the dependencies are acceptable and the timeout is not negative. *)
Definition acceptable (v : value) : Prop :=
  match v with
  | VNone | VStr _ | VAsync _ | VDep _ => True
  | VSeq l => forall x, x ∈ l -> (exists m, x = VStr m) \/ (exists ms, x = VAsync ms)
  | _ => False
  end.
Definition sound (k : kind) (s : flags) : Prop :=
  well_typed k s /\
  match k with
  | Direct => True
  | Balanced => acceptable (s Follow) /\ acceptable (s After) /\ forall z, s Timeout = VFloat z -> (0 <= z)%Z
  end.

(** The body calls no recording method of view [v]. *)
Fixpoint quiet (v : nat) (a : act) : Prop :=
  match a with
  | Call v' saves body => (v' <> v \/ saves = false) /\ foldr (fun a P => quiet v a /\ P) True body
  | _ => True
  end.
Definition quiet_all (v : nat) (body : list act) : Prop := foldr (fun a P => quiet v a /\ P) True body.

(** Every recording call on [v], also nested ones, sends at least one message. *)
Fixpoint sending (v : nat) (a : act) : Prop :=
  match a with
  | Call v' saves body =>
      (v' = v -> saves = true -> forall w, w_chist (fst (execs body w)) <> w_chist w) /\
      foldr (fun a P => sending v a /\ P) True body
  | _ => True
  end.

(** What an attribute holds after an assignment: numbers given as timeout become floats. *)
Definition held (f : flag) (v : value) : value :=
  match f, v with
  | Timeout, VInt z => VFloat z
  | Timeout, VBool b => VFloat (if b then 1 else 0)
  | _, _ => v
  end.
