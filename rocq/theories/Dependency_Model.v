(** Model of class Dependency, ipyparallel/controller/dependency.py 128-215.
    Message ids (strings) are natural numbers. *)
From stdpp Require Import base gmap sets.
From Verif Require Prelude.

(** The attributes of a Dependency object (a [set] subclass), dependency.py 149-151, 173-178. *)
Record dep := Dep { d_ids : gset nat; d_all : bool; d_success : bool; d_failure : bool }.

(** dependency.py 160-178: construction from a list of ids.
    AsyncResult arguments contribute their msg_ids (168-169), i.e. they are ids here;
    ill-typed entries (170-171) are not modelled. *)
Definition mk_dep (ids : list nat) (all success failure : bool) : Prelude.res dep :=
  if negb (success || failure) then Prelude.Raise Prelude.ValueError           (* 175-176 *)
  else Prelude.Ok (Dep (list_to_set ids) all success failure).

(** The JSON dict form; absent keys are [None]. *)
Record dep_dict := DepDict {
  k_dependencies : option (list nat); k_all : option bool;
  k_success : option bool; k_failure : option bool }.

(** dependency.py 153-159: construction from a dict with the default arguments
    success=True, failure=False. *)
Definition from_dict (d : dep_dict) : Prelude.res dep :=
  mk_dep (default [] (k_dependencies d)) (default true (k_all d))
         (default true (k_success d)) (default false (k_failure d)).

(** dependency.py 208-215 *)
Definition as_dict (d : dep) : dep_dict :=
  DepDict (Some (elements (d_ids d))) (Some (d_all d)) (Some (d_success d)) (Some (d_failure d)).

(** dependency.py 180-192.  [failed] is always given by the callers in the scheduler. *)
Definition check (d : dep) (completed failed : gset nat) : bool :=
  if decide (d_ids d = ∅) then true                                            (* 182 *)
  else
    let against := if d_success d then completed else ∅ in                     (* 184-186 *)
    let against := if d_failure d then against ∪ failed else against in        (* 187-188 *)
    if d_all d then bool_decide (d_ids d ⊆ against)                            (* 190 *)
    else negb (bool_decide (d_ids d ## against)).                              (* 192 *)

(** dependency.py 194-206 *)
Definition unreachable (d : dep) (completed failed : gset nat) : bool :=
  if decide (d_ids d = ∅) then false
  else
    let against := if d_success d then ∅ else completed in
    let against := if d_failure d then against else against ∪ failed in
    if d_all d then negb (bool_decide (d_ids d ## against))
    else bool_decide (d_ids d ⊆ against).
