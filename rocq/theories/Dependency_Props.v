(** Property theorems C06-C08 (controller/dependency.py). *)
From stdpp Require Import base gmap sets.
From Verif Require Import Dependency_Spec Dependency_Model Dependency_Proofs.
From Verif Require Prelude.

(** C06 *)
Theorem C06_check_means_met : forall (d : dep) (h : history),
  check d (h_ok h) (h_bad h) = true <-> met (d_ids d) (d_all d) (d_success d) (d_failure d) h.
Proof. exact check_iff. Qed.
Print Assumptions C06_check_means_met.

Theorem C06_construction : forall ids all success failure,
  (mk_dep ids all success failure = Prelude.Raise Prelude.ValueError <-> success = false /\ failure = false) /\
  (forall d, mk_dep ids all success failure = Prelude.Ok d ->
     d = Dep (list_to_set ids) all success failure /\ (success = true \/ failure = true)).
Proof. exact (fun ids all s f => conj (mk_dep_rejects ids all s f) (mk_dep_ok ids all s f)). Qed.
Print Assumptions C06_construction.

(** A dependency that came as a dict: what is not said is: no ids, all, success only. *)
Theorem C06_defaults : forall (k : dep_dict) (d : dep) (h : history),
  let said {A} (o : option A) (otherwise : A) := match o with Some a => a | None => otherwise end in
  from_dict k = Prelude.Ok d ->
  (check d (h_ok h) (h_bad h) = true <->
   met (list_to_set (said (k_dependencies k) [])) (said (k_all k) true) (said (k_success k) true) (said (k_failure k) false) h).
Proof.
  intros [ids al su fa] d h said. unfold from_dict. cbn [k_dependencies k_all k_success k_failure]. intros E.
  apply mk_dep_ok in E as (-> & _). rewrite check_iff. destruct ids, al, su, fa; reflexivity.
Qed.
Print Assumptions C06_defaults.
Example C06_defaults_example : from_dict (DepDict (Some [3]) None None None) = Prelude.Ok (Dep (list_to_set [3]) true true false).
Proof. reflexivity. Qed.

(** C07 *)
Theorem C07_unreachable_is_forever : forall (d : dep) (h h' : history),
  unreachable d (h_ok h) (h_bad h) = true -> later h h' -> coherent h' ->
  check d (h_ok h') (h_bad h') = false.
Proof. exact unreachable_sound. Qed.
Print Assumptions C07_unreachable_is_forever.

Theorem C07_decided_when_all_finished : forall (d : dep) (h : history),
  (d_success d = true \/ d_failure d = true) -> coherent h ->
  (forall m, m ∈ d_ids d -> finished h m) ->
  unreachable d (h_ok h) (h_bad h) = negb (check d (h_ok h) (h_bad h)).
Proof. exact decided_when_finished. Qed.
Print Assumptions C07_decided_when_all_finished.

(** C08 *)
Theorem C08_check_monotone : forall (d : dep) (h h' : history),
  later h h' -> check d (h_ok h) (h_bad h) = true -> check d (h_ok h') (h_bad h') = true.
Proof. exact check_mono. Qed.
Print Assumptions C08_check_monotone.

Theorem C08_dict_roundtrip : forall d : dep,
  (d_success d = true \/ d_failure d = true) -> from_dict (as_dict d) = Prelude.Ok d.
Proof. exact dict_roundtrip. Qed.
Print Assumptions C08_dict_roundtrip.

(** The scheduler's shortcut of dropping finished ids from an all-dependency is harmless. *)
Theorem C08_reduction_harmless : forall ids s f (X : gset nat) (h h' : history),
  (forall m, m ∈ X -> accepted s f h m) -> later h h' -> coherent h' ->
  check (Dep (ids ∖ X) true s f) (h_ok h') (h_bad h') = check (Dep ids true s f) (h_ok h') (h_bad h') /\
  unreachable (Dep (ids ∖ X) true s f) (h_ok h') (h_bad h') = unreachable (Dep ids true s f) (h_ok h') (h_bad h').
Proof. exact reduce_all. Qed.
Print Assumptions C08_reduction_harmless.

(** Non-vacuity: an "all, success only" dependency on tasks 1 and 2 where 2 failed. *)
Definition ex_dep := Dep {[1; 2]} true true false.
Definition ex_hist := Hist {[1]} {[2]}.
Example C07_example :
  unreachable ex_dep (h_ok ex_hist) (h_bad ex_hist) = true /\ coherent ex_hist /\
  later ex_hist (Hist {[1; 3]} {[2]}) /\ coherent (Hist {[1; 3]} {[2]}).
Proof. split; [vm_compute; reflexivity|]. unfold coherent, later; simpl. set_solver. Qed.
Example C06_example_any_failure :
  check (Dep {[1; 2]} false false true) (h_ok ex_hist) (h_bad ex_hist) = true.
Proof. vm_compute. reflexivity. Qed.
Example C07_example_finished : forall m, m ∈ d_ids ex_dep -> finished ex_hist m.
Proof. unfold finished, ex_dep, ex_hist; simpl. set_solver. Qed.
