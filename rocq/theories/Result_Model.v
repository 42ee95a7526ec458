(** Model of Client.result_status, ipyparallel/client/client.py 2205-2303, together with the part of
    Hub.get_results (controller/hub.py 1357-1444) which builds the answer.  Message ids are natural numbers
    in the order in which sorted() puts them.  Serialization is abstract: [deser] is
    serialize.deserialize_object.  Metadata and the format of the headers are left out. *)
From stdpp Require Import base gmap list sorting.

Section model.
Context {V F : Type}.                                  (* values, frames *)
Context (deser : list F -> option (V * list F)).

(** A stored result: of apply (its value is in the buffers), of execute (it is in the content), an error,
    or an aborted task. *)
Inductive record := Applied | Executed (v : V) | Failed (e : nat) | WasAborted.
Inductive outcome := Value (v : V) | Error (e : nat).
(** What the Hub knows of a message; the result buffers are stored with the record. *)
Inductive state := Pending | Done (r : record) (buffers : list F) | Unknown.

(** ** The Hub: get_results, 1383-1444 *)
Fixpoint insert (x : nat) (l : list nat) : list nat :=
  match l with [] => [x] | y :: r => if decide (x < y) then x :: l else if decide (x = y) then l else y :: insert x r end.
(** sorted(set(ids)), 1386 *)
Definition sorted_set (l : list nat) : list nat := foldr insert [] l.
Record reply := Reply {
  pending : list nat;
  completed : list nat;
  entries : list (nat * record);                       (* content[msg_id] *)
  buffers : list F
}.
Inductive hub_reply := Ok (r : reply) | NoSuchMessage (m : nat).
(** The loop, 1410-1436 *)
Fixpoint collect (hub : nat -> state) (status_only : bool) (ids : list nat) (r : reply) : hub_reply :=
  match ids with
  | [] => Ok r
  | m :: ids =>
      match hub m with
      | Pending => collect hub status_only ids (Reply (pending r ++ [m]) (completed r) (entries r) (buffers r))
      | Done x b =>
          collect hub status_only ids
            (if status_only then Reply (pending r) (completed r ++ [m]) (entries r) (buffers r)
             else Reply (pending r) (completed r ++ [m]) (entries r ++ [(m, x)]) (buffers r ++ b))
      | Unknown => NoSuchMessage m
      end
  end.
Definition get_results (hub : nat -> state) (ids : list nat) (status_only : bool) : hub_reply :=
  collect hub status_only (sorted_set ids) (Reply [] [] [] []).

(** ** The client *)
(** theids.remove(x): the first occurrence *)
Fixpoint remove (x : nat) (l : list nat) : list nat :=
  match l with [] => [] | y :: r => if decide (x = y) then r else y :: remove x r end.
(** The loop over the list that is modified on the way, 2237-2241: [i] is the position of the iterator.
    Gives the ids answered locally and the ids that are left. *)
Fixpoint local_loop (fuel : nat) (local : nat -> bool) (i : nat) (theids done : list nat) : list nat * list nat :=
  match fuel with
  | 0 => (done, theids)
  | S fuel =>
      match theids !! i with
      | None => (done, theids)
      | Some m => if local m then local_loop fuel local (S i) (remove m theids) (done ++ [m])
                  else local_loop fuel local (S i) theids done
      end
  end.
Definition answer_locally (local : nat -> bool) (theids : list nat) : list nat * list nat :=
  local_loop (S (length theids)) local 0 theids [].

(** content[msg_id]: a record from the Hub, or the result put there *)
Inductive entry := Rec (r : record) | Res (o : outcome).
Inductive answer :=
| Content (pend compl : list nat) (values : gmap nat outcome)
| HubError (m : nat)                                   (* no such message *)
| Raised (failures : list nat)                         (* one failure, or CompositeError *)
| Crash.                                               (* TypeError, KeyError or a failure to deserialize *)

(** The loop over sorted(theids), 2264-2296 *)
Fixpoint load (ids compl : list nat) (content : gmap nat entry) (bufs : list F) (results : gmap nat outcome)
    (failures : list nat) : option (gmap nat entry * gmap nat outcome * list nat) * gmap nat outcome :=
  match ids with
  | [] => (Some (content, results, failures), results)
  | m :: ids =>
      if decide (m ∈ compl) then
        let store o bufs failures := load ids compl (<[m := Res o]> content) bufs (<[m := o]> results) failures in
        match content !! m with
        | Some (Rec Applied) => match deser bufs with
                                | Some (v, rest) => store (Value v) rest failures
                                | None => (None, results)
                                end
        | Some (Rec (Executed v)) => store (Value v) bufs failures
        | Some (Rec (Failed e)) => store (Error e) bufs (failures ++ [e])
        | Some (Rec WasAborted) => (None, results)                        (* KeyError: no 'ename' *)
        | Some (Res _) | None => (None, results)
        end
      else load ids compl content bufs results failures
  end.
Definition values_of (c : gmap nat entry) : gmap nat outcome :=
  omap (fun e => match e with Res o => Some o | Rec _ => None end) c.

(** result_status, 2232-2303; the answer, and the client's results afterwards *)
Definition result_status (hub : nat -> state) (results : gmap nat outcome) (msg_ids : list nat) (status_only : bool)
  : answer * gmap nat outcome :=
  let '(done, theids) := answer_locally (fun m => bool_decide (is_Some (results !! m))) msg_ids in
  match (match theids with [] => Ok (Reply [] [] [] []) | _ => get_results hub theids status_only end) with
  | NoSuchMessage m => (HubError m, results)
  | Ok r =>
      let compl := completed r ++ done in                                 (* 2255 *)
      if status_only then (Content (pending r) compl ∅, results)
      else
        let content := fold_left (fun c m => match results !! m with Some o => <[m := Res o]> c | None => c end) done
                         (list_to_map (map (fun e => (fst e, Rec (snd e))) (entries r))) in   (* 2262 *)
        match load (merge_sort Nat.le theids) compl content (buffers r) results [] with
        | (None, res) => (Crash, res)
        | (Some (content, _, []), res) => (Content (pending r) compl (values_of content), res)
        | (Some (_, _, failures), res) => (Raised failures, res)          (* 2298-2301 *)
        end
  end.
End model.
Arguments outcome V : clear implicits.
Arguments record V : clear implicits.
Arguments state V F : clear implicits.
Arguments answer V : clear implicits.
