(** Model of Hub.db_query (ipyparallel/controller/hub.py 1460-1503) and Client.db_query
    (ipyparallel/client/client.py 2553-2600) on top of the in-memory database (DictDB_Model).
    Simplifications: what is stored under 'buffers' and 'result_buffers' is a list or None (anything else
    counts as None); the conversion of dates to text and back on the way (extract_dates, 2583-2588) is the
    identity; an error of the query travels to the client as the exception it was. *)
From Coq Require Import List ZArith String Bool.
From Verif Require Import Prelude PyValue DictDB_Spec DictDB_Model DbQuery_Spec.
Import ListNotations.
Local Open Scope string_scope.

Section DbQuery.
Context (glob : string -> string -> bool).

(** client.py 2566-2567 *)
Definition keys_list (k : keys_arg) : option (list string) :=
  match k with KNone => None | KStr s => Some [s] | KList l => Some l end.

(** What is sent back, hub.py 1488-1493 *)
Record reply := Reply {
  records : list record;
  buffer_lens : option (list nat);
  result_buffer_lens : option (list nat);
  buffers : list value
}.
(** rec.pop(key, empty) or empty, 1479 and 1483 *)
Definition pop (key : string) (rec : record) : record * list value :=
  (ddel key rec, match dget key rec with Some (VList l) => l | _ => [] end).
(** buffer_lens.append(len(b)); buffers.extend(b), 1480-1482 and 1484-1486; [lens] is None if not asked for *)
Definition put (lens : option (list nat)) (bufs b : list value) : option (list nat) * list value :=
  match lens with Some l => (Some (l ++ [List.length b])%list, (bufs ++ b)%list) | None => (None, bufs) end.
(** The loop, 1477-1486 *)
Fixpoint detach (recs : list record) (acc : reply) : reply :=
  match recs with
  | [] => acc
  | rec :: recs =>
      let (rec, b) := pop "buffers" rec in
      let (lens, bufs) := put (buffer_lens acc) (buffers acc) b in
      let (rec, rb) := pop "result_buffers" rec in
      let (rlens, bufs) := put (result_buffer_lens acc) bufs rb in
      detach recs (Reply (records acc ++ [rec])%list lens rlens bufs)
  end.
(** 1470-1475 *)
Definition wanted (key : string) (keys : option (list string)) : option (list nat) :=
  match keys with
  | Some l => if existsb (String.eqb key) l then Some [] else None
  | None => None
  end.
(** 1460-1503 *)
Definition hub_db_query (d : db) (query : query) (keys : option (list string)) : res reply :=
  bind (find_records glob d query (match keys with Some l => l | None => [] end)) (fun recs =>
    Ok (detach recs (Reply [] (wanted "buffers" keys) (wanted "result_buffers" keys) []))).

(** client.py 2590-2595: [lens] are the lengths left, one per record; IndexError if there is none *)
Definition take_bufs (key : string) (lens : option (list nat)) (bufs : list value) (rec : record)
  : res (option (list nat) * list value * record) :=
  match lens with
  | None => Ok (None, bufs, rec)
  | Some [] => Raise IndexError
  | Some (n :: lens) => Ok (Some lens, skipn n bufs, dset key (VList (firstn n bufs)) rec)
  end.
(** 2581-2595 *)
Fixpoint relink (recs : list record) (lens rlens : option (list nat)) (bufs : list value) : res (list record * list value) :=
  match recs with
  | [] => Ok ([], bufs)
  | rec :: recs =>
      bind (take_bufs "buffers" lens bufs rec) (fun '(lens, bufs, rec) =>
      bind (take_bufs "result_buffers" rlens bufs rec) (fun '(rlens, bufs, rec) =>
      bind (relink recs lens rlens bufs) (fun '(recs, bufs) => Ok (rec :: recs, bufs))))
  end.
(** 2553-2597; also gives the buffers that are left over *)
Definition db_query (d : db) (query : query) (keys : keys_arg) : res (list record * list value) :=
  bind (hub_db_query d query (keys_list keys)) (fun r =>
    relink (records r) (buffer_lens r) (result_buffer_lens r) (buffers r)).
End DbQuery.
