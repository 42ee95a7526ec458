(** What get_result and results fetched from the Hub should give (C50, C51). *)
From stdpp Require Import base gmap list.
From Verif Require Import Result_Model Result_Spec.

(** ** C50: what can be asked for *)
(** An entry of the client's history, a message id, or the AsyncResult of some messages ([hub] if it gets its results
    from the Hub). *)
Inductive job := Index (i : Z) | Id (m : nat) | Handle (hub : bool) (ids : list nat).
Inductive request := One (j : job) | Many (js : list job).

(** The messages a job stands for; negative indices count from the end of the history. *)
Inductive stands_for (history : list nat) : job -> list nat -> Prop :=
| sf_index : forall i m, history !! i = Some m -> stands_for history (Index (Z.of_nat i)) [m]
| sf_index_end : forall i m before after, history = before ++ m :: after -> length after = i ->
    stands_for history (Index (- Z.of_nat (S i))) [m]
| sf_id : forall m, stands_for history (Id m) [m]
| sf_handle : forall hub ids, ids <> [] -> stands_for history (Handle hub ids) ids.

(** Where the results are to come from. *)
Inductive source := Awaited | Cached | Remote.
(** Every message of the job is awaited by this client / has its result in this client (or is held by a handle that is
    not a Hub result) / is not known to this client. *)
Definition comes_from (awaited finished : nat -> Prop) (s : source) (j : job) (ids : list nat) : Prop :=
  match j with
  | Handle hub _ => match s with Awaited => False | Cached => hub = false | Remote => hub = true end
  | _ => Forall (fun m => match s with
                          | Awaited => awaited m
                          | Cached => ~ awaited m /\ finished m
                          | Remote => ~ awaited m /\ ~ finished m
                          end) ids
  end.

(** The elements of the first list are some of those of the second, in the same order. *)
Inductive kept {A} : list A -> list A -> Prop :=
| kept_nil : kept [] []
| kept_take : forall x l l', kept l l' -> kept (x :: l) (x :: l')
| kept_drop : forall x l l', kept l l' -> kept l (x :: l').

(** ** C51: the Hub in the course of time *)
Section time.
Context {V F : Type} (deser : list F -> option (V * list F)).
(** In each of its states the Hub has the true result of a message, or the message is pending. *)
Definition truthful (truth : nat -> outcome V) (polls : list (nat -> state V F)) (ids : list nat) : Prop :=
  forall hub m, hub ∈ polls -> m ∈ ids -> hub m = Pending \/ stored deser hub m (truth m).
(** A message that was finished stays finished. *)
Definition lasting (polls : list (nat -> state V F)) (ids : list nat) : Prop :=
  forall i j hub hub' m, i <= j -> polls !! i = Some hub -> polls !! j = Some hub' -> m ∈ ids ->
    hub m <> Pending -> hub' m <> Pending.
(** The errors among some outcomes *)
Definition error_of (o : outcome V) : option nat := match o with Error e => Some e | Value _ => None end.
End time.
