(** What Client.db_query should return (C40).  Independent of the model. *)
From Coq Require Import List String Bool.
From Verif Require Import Prelude PyValue DictDB_Spec.
Import ListNotations.
Local Open Scope string_scope.

(** The argument keys of Client.db_query: None, one key or a list of keys. *)
Inductive keys_arg := KNone | KStr (s : string) | KList (l : list string).
Definition asked_for (k : keys_arg) : list string :=
  match k with KNone => [] | KStr s => [s] | KList l => l end.

(** The buffers stored with a record under a key: none if there is no list there. *)
Definition stored_buffers (r : record) (key : string) : value :=
  match dget key r with Some (VList l) => VList l | _ => VList [] end.
Definition is_buffers (k : string) : bool := String.eqb k "buffers" || String.eqb k "result_buffers".
(** [r'] is what is to be returned for the stored record [r] if [keys] were asked for; if none were:
    everything but the buffers. *)
Definition answer (keys : list string) (r r' : record) : Prop := forall k,
  dget k r' =
  match keys with
  | [] => if is_buffers k then None else dget k r
  | l => if existsb (String.eqb k) l then (if is_buffers k then Some (stored_buffers r k) else dget k r)
         else if String.eqb k "msg_id" then dget k r else None
  end.
