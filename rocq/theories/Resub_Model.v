(** Model of Client.resubmit (client/client.py 2166-2203) with Hub.resubmit_task (controller/hub.py 1269-1349).
    The database is a list of records in its own order; the query {'msg_id': {'$in': ids}} gives those whose id is in [ids]
    (proved of the databases in C20, C38); adding and updating records do not fail.  [new]: the ids which session.msg makes,
    one after the other.  Dates are left out.  'rest' of a record is everything init_record sets to None or ''. *)
From stdpp Require Import base gmap list.
From Verif Require Import Resub_Spec.

Section model.
Context {C : Type}.
Notation db := (list (nat * task C)).

(** A message to the task scheduler: 1320-1331 *)
Record message := Msg { m_id : nat; m_kind : C; m_content : C; m_buffers : C; m_metadata : option C }.
Inductive reply := Resubmitted (mapping : list (nat * nat)) | Inconsistent | NoSuch (missing : list nat).

(** 1284-1291 *)
Definition find (d : db) (ids : list nat) : db := List.filter (fun r => bool_decide (fst r ∈ ids)) d.
(** The loop, 1318-1338: messages sent, mapping, new records.  session.msg has no metadata argument: the message's is {} *)
Fixpoint send_all (recs : db) (new : nat -> nat) (k : nat) : list message * list (nat * nat) * db :=
  match recs with
  | [] => ([], [], [])
  | (m, t) :: recs =>
      let '(ms, mapping, d) := send_all recs new (S k) in
      (Msg (new k) (kind t) (content t) (buffers t) None :: ms, (m, new k) :: mapping,
       (new k, Task (kind t) (content t) (buffers t) None None None) :: d)
  end.
(** db.update_record(msg_id, {'resubmitted': resubmit_id}), 1344-1346 *)
Definition update (d : db) (e : nat * nat) : db :=
  map (fun r => if decide (fst r = fst e)
                then (fst r, let t := snd r in Task (kind t) (content t) (buffers t) (metadata t) (Some (snd e)) (rest t)) else r) d.
(** resubmit_task *)
Definition resubmit_task (d : db) (pending : gset nat) (ids : list nat) (new : nat -> nat) : reply * list message * db * gset nat :=
  let recs := find d ids in
  if decide (length ids < length recs) then (Inconsistent, [], d, pending)                                    (* 1296-1304 *)
  else if decide (length recs < length ids)
  then (NoSuch (List.filter (fun m => negb (bool_decide (m ∈ map fst recs))) ids), [], d, pending)            (* 1305-1311 *)
  else
    let '(ms, mapping, added) := send_all recs new 0 in
    (Resubmitted mapping, ms, fold_left update mapping (d ++ added), list_to_set (map m_id ms) ∪ pending).

(** client.py 2188-2198: the ids of the result, or the Hub's error; None is KeyError at 2196 *)
Inductive answer := Result (ids : list nat) | Failed (r : reply) | KeyError.
Fixpoint lookup (l : list (nat * nat)) (m : nat) : option nat :=
  match l with [] => None | (k, v) :: l => if decide (m = k) then Some v else lookup l m end.
Definition resubmit (d : db) (pending : gset nat) (ids : list nat) (new : nat -> nat) : answer * list message * db * gset nat :=
  let '(r, ms, d', p') := resubmit_task d pending ids new in
  (match r with
   | Resubmitted mapping => match mapM (lookup mapping) ids with Some l => Result l | None => KeyError end
   | _ => Failed r
   end, ms, d', p').
End model.
