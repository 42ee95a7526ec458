(** Specification vocabulary for the engine (C35, C47, C48): histories of messages, and what was
    observed while a request was handled. *)
From stdpp Require Import base gmap list strings.
From Coq Require Import String.
From Verif Require Import Engine_Model.
Open Scope string_scope.
Open Scope list_scope.

(** The ids named by an abort request. *)
Definition names (a : abort_arg) (id : string) : Prop :=
  match a with ANone => False | AStr s => s = id | AList l => id ∈ l end.

(** [armed id h]: after the history [h], the task [id] has been aborted, and no request with this id
    has arrived since. *)
Definition armed {V} (id : string) (h : list (msg V)) : Prop :=
  exists h1 c a h2, h = h1 ++ Abort c a :: h2 /\ names a id /\
                    forall m, Shell m ∈ h2 -> shell_id m <> id.

(** [id] is named by some abort request of the history. *)
Definition aborted_in {V} (id : string) (h : list (msg V)) : Prop :=
  exists c a, Abort c a ∈ h /\ names a id.

(** The ids of the requests of a history. *)
Fixpoint request_ids {V} (h : list (msg V)) : list string :=
  match h with
  | [] => []
  | Shell m :: r => shell_id m :: request_ids r
  | _ :: r => request_ids r
  end.

Definition is_reply {V} (o : out V) : bool := match o with OReply _ _ _ _ _ _ _ => true | _ => false end.
Definition is_call {V} (o : out V) : bool := match o with OCall _ _ _ _ => true | _ => false end.
(** User code of some kind: a function, a dependency check, an import, a cell. *)
Definition is_user {V} (o : out V) : bool :=
  match o with OCheck _ | OImport _ _ | OCall _ _ _ _ | OCell _ => true | _ => false end.
Definition replies {V} (o : list (out V)) : list (out V) := List.filter is_reply o.
Definition calls {V} (o : list (out V)) : list (out V) := List.filter is_call o.

(** The temporary names used for a task. *)
Definition temp_names (id : string) : list string :=
  let p := ("_" ++ replace_dash id ++ "_")%string in
  [(p ++ "f")%string; (p ++ "args")%string; (p ++ "kwargs")%string; (p ++ "result")%string].

(** Evidence that a dependency of the task does not hold on this engine: the exception it amounts to. *)
Inductive unsatisfied {V} (C : code V) : out V -> exc -> Prop :=
| un_false v : is_false C v = true -> unsatisfied C (OCheck (Ret v)) (Exc "UnmetDependency" "" false)
| un_raise e : unsatisfied C (OCheck (Rse e)) e
| un_import m e : x_name e = "ImportError" \/ x_name e = "ModuleNotFoundError" ->
    unsatisfied C (OImport m (Rse e)) (Exc "UnmetDependency" m false)
| un_other m e : x_name e <> "ImportError" -> x_name e <> "ModuleNotFoundError" ->
    unsatisfied C (OImport m (Rse e)) e.
