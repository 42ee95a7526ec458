(** Model of how ipyparallel/controller/hub.py records tasks: 54-115 (empty_record, init_record), 443-855
    (save_queue_request ... save_iopub_message), 999-1030 (_handle_stranded_msgs), 1326-1357 (the records that
    resubmit_task makes).
    Simplifications: a record is a function from keys to values, in which an absent key counts as None (the
    code reads absent keys with [record.get(key, None)]); msg_id, date and session of a header, and the started date
    of the metadata, are separate fields of the message; an engine has one registration under its uuid, so that the
    lists of [self.queues] are found by the uuid instead of by the id that [self.by_ident] gives for it;
    [self.unassigned], [self.tasks] and [self.completed], which do not matter for the records, are left out (they are
    in Hub_Model). The database refuses to add a record that exists and does not update one that does not
    (DictDB and SQLiteDB, see C22 and C54), and forgets nothing by itself. *)
From Coq Require Import List String Bool Arith.
From Verif Require Import Rec_Spec.
Import ListNotations.
Local Open Scope string_scope.

Definition record := col -> val.
(** a dict that has only some of the keys *)
Definition partial := col -> option val.

(** 54-80 *)
Definition empty_record : record :=
  fun k => match k with Stdout | Stderr => VText "" | _ => VNone end.
(** 88-115 *)
Definition init_record (q : request) : record :=
  fun k => match k with
           | MsgId => VText (q_id q)
           | Header => VDict (q_header q)
           | Content => VDict (q_content q)
           | Metadata => VDict (q_metadata q)
           | Buffers => VBufs (q_buffers q)
           | Submitted => VTime (q_date q)
           | Label => of_text (lookup "label" (q_metadata q))
           | Stdout | Stderr => VText ""
           | _ => VNone
           end.
Definition col_eqb (a b : col) : bool :=
  match a, b with
  | MsgId, MsgId | Header, Header | Metadata, Metadata | Content, Content | Buffers, Buffers | Submitted, Submitted | ClientUuid, ClientUuid
  | EngineUuid, EngineUuid | Started, Started | Completed, Completed | Resubmitted, Resubmitted | Received, Received | ResultHeader, ResultHeader
  | ResultMetadata, ResultMetadata | ResultContent, ResultContent | ResultBuffers, ResultBuffers | Queue, Queue | ExecuteInput, ExecuteInput
  | ExecuteResult, ExecuteResult | Error, Error | Stdout, Stdout | Stderr, Stderr | Label, Label | DisplayData, DisplayData => true
  | _, _ => false
  end.
(** [record[k] = v] *)
Definition set (k : col) (v : val) (r : record) : record := fun j => if col_eqb j k then v else r j.
(** [r.update(d)] *)
Definition update (r : record) (d : partial) : record := fun k => match d k with Some v => v | None => r k end.
(** the keys a record dict made by init_record or empty_record has *)
Definition is_column (k : col) : bool := match k with DisplayData => false | _ => true end.
Definition as_dict (r : record) : partial := fun k => if is_column k then Some (r k) else None.

Record hub := Hub {
  by_ident : list string;                            (* registered engines *)
  queues : list (string * string);                   (* (engine, message), in order *)
  pending : list string; all_completed : list string;
  db : list (string * record) }.
Definition with_db (s : hub) d := Hub (by_ident s) (queues s) (pending s) (all_completed s) d.

Fixpoint get_record (m : string) (d : list (string * record)) : option record :=
  match d with [] => None | (i, r) :: d => if String.eqb i m then Some r else get_record m d end.
Section Db.
(** [strict]: the database has a fixed set of columns (SQLiteDB) *)
Context (strict : bool).
(** sqlitedb 376-383 (other keys are not stored), dictdb 240-256; an exception if there is one already *)
Definition add_record (m : string) (r : record) (d : list (string * record)) : list (string * record) :=
  match get_record m d with
  | Some _ => d
  | None => (m, if strict then fun k => if is_column k then r k else VNone else r) :: d
  end.
(** sqlitedb 396-408 (an unknown column is an error of SQL), dictdb 258-266; an exception, or nothing, if there is none *)
Fixpoint update_record (m : string) (u : partial) (d : list (string * record)) : list (string * record) :=
  if strict && match u DisplayData with Some _ => true | None => false end then d else
  match d with
  | [] => []
  | (i, r) :: d => if String.eqb i m then (i, update r u) :: d else (i, r) :: update_record m u d
  end.

Definition mem (m : string) (l : list string) : bool := existsb (String.eqb m) l.
Definition del (m : string) (l : list string) : list string := filter (fun x => negb (String.eqb x m)) l.
Definition add (m : string) (l : list string) : list string := if mem m l then l else m :: l.

(** 468-489, with [skip] the keys that the loop leaves out (none here): what is known already is kept where the
    request has nothing *)
Definition merge (skip : col -> bool) (existing : record) (d : partial) : partial :=
  fun k =>
    if skip k then d k
    else if truthy (existing k) && negb (truthy (match d k with Some v => v | None => VNone end)) then Some (existing k) else d k.

(** 443-502 *)
Definition save_queue_request (s : hub) (u : string) (q : request) : hub :=
  if mem u (by_ident s) then                                                       (* 460-464 *)
    let record := set Queue (VText "mux") (set ClientUuid (VText (q_session q)) (set EngineUuid (VText u) (init_record q))) in
    let m := q_id q in
    let d := match get_record m (db s) with
             | Some existing => update_record m (merge (fun _ => false) existing (as_dict record)) (db s)
             | None => add_record m record (db s)
             end in
    Hub (by_ident s) (queues s ++ [(u, m)]) (add m (pending s)) (all_completed s) d   (* 501-502 *)
  else s.
(** 540-552 *)
Definition result_dict (r : result) (now : nat) : partial :=
  fun k => match k with
           | ResultHeader => Some (VDict (r_header r))
           | ResultMetadata => Some (VDict (r_metadata r))
           | ResultContent => Some (VDict (r_content r))
           | Received => Some (VTime now)
           | Started => Some (of_time (r_started r))
           | Completed => Some (VTime (r_date r))
           | ResultBuffers => Some (VBufs (r_buffers r))
           | _ => None
           end.
Fixpoint queue_remove (u m : string) (l : list (string * string)) : option (list (string * string)) :=
  match l with
  | [] => None
  | (v, n) :: l => if String.eqb v u && String.eqb n m then Some l else option_map (cons (v, n)) (queue_remove u m l)
  end.
(** 504-560 *)
Definition save_queue_result (s : hub) (u m : string) (r : result) (now : nat) : hub :=
  if mem u (by_ident s) then                                                       (* 521-524 *)
    if mem m (pending s) then                                                      (* 530-535 *)
      let s := Hub (by_ident s) (queues s) (del m (pending s)) (add m (all_completed s)) (db s) in
      match queue_remove u m (queues s) with
      | Some l => Hub (by_ident s) l (pending s) (all_completed s) (update_record m (result_dict r now) (db s))
      | None => s                                                                  (* ValueError *)
      end
    else if mem m (all_completed s) then with_db s (update_record m (result_dict r now) (db s))
    else s                                                                         (* 536-540 *)
  else s.

(** 563-585 *)
Definition save_broadcast_request (s : hub) (q : request) : hub :=
  let record := set ClientUuid (VText (q_session q)) (init_record q) in
  Hub (by_ident s) (queues s) (add (q_id q) (pending s)) (all_completed s) (add_record (q_id q) record (db s)).
(** 601-603, 729-731: [md.get('engine', '')] *)
Definition engine_name (r : result) : string := match lookup "engine" (r_metadata r) with Some u => u | None => "" end.
Definition with_engine (u : string) (d : partial) : partial := fun k => match k with EngineUuid => Some (VText u) | _ => d k end.
(** 587-636 and 702-765: results of broadcasts and of tasks are recorded alike *)
Definition save_task_result (s : hub) (m : string) (r : result) (now : nat) : hub :=
  if mem m (pending s) then
    Hub (by_ident s) (queues s) (del m (pending s)) (add m (all_completed s))
        (update_record m (with_engine (engine_name r) (result_dict r now)) (db s))
  else s.
Definition save_broadcast_result := save_task_result.

(** 640-700 *)
Definition save_task_request (s : hub) (q : request) : hub :=
  let record := set Queue (VText "task") (set ClientUuid (VText (q_session q)) (init_record q)) in
  let m := q_id q in
  let d := match get_record m (db s) with
           | Some existing =>
               let record := if truthy (existing Resubmitted)                       (* 663-669 *)
                             then fun k => match k with Submitted | ClientUuid | Buffers => None | _ => as_dict record k end
                             else as_dict record in
               update_record m (merge (fun k => match k with Buffers | ResultBuffers => true | _ => false end) existing record) (db s)
           | None => add_record m record (db s)
           end in
  Hub (by_ident s) (queues s) (add m (pending s)) (all_completed s) d.

(** 767-785; a KeyError for an unknown engine *)
Definition save_task_destination (s : hub) (m u : string) : hub :=
  if mem u (by_ident s) then
    with_db s (update_record m (fun k => match k with EngineUuid => Some (VText u) | _ => None end) (db s))
  else s.

(** 829-847: the key and the value, given what is in the record *)
Definition output_item (rec : option record) (o : output) : option (col * val) :=
  match o with
  | Stream e t =>
      let name := if e then Stderr else Stdout in
      Some (name, match rec with
                  | None => VText ("" ++ t)
                  | Some r => match r name with VText x => VText (x ++ t) | v => v end   (* another value cannot be there *)
                  end)
  | ErrorOut c => Some (Error, VDict c)
  | InputOut c => Some (ExecuteInput, VText c)
  | ResultOut c => Some (ExecuteResult, VDict c)
  | DisplayOut c => Some (DisplayData, VDict c)
  | OtherOut => None
  end.
(** 813-862 *)
Definition save_iopub_message (s : hub) (m : string) (o : output) : hub :=
  let rec := get_record m (db s) in
  match output_item rec o with
  | None => s
  | Some (k, v) =>
      match rec with
      | None => with_db s (add_record m (set k v (set MsgId (VText m) empty_record)) (db s))
      | Some _ => with_db s (update_record m (fun j => if col_eqb j k then Some v else None) (db s))
      end
  end.

(** 1012-1030, for each message in turn; [pending.remove] raises KeyError if it is not there *)
Fixpoint strand (u : string) (now : nat) (content : dict) (l : list string) (s : hub) : hub :=
  match l with
  | [] => s
  | m :: l =>
      if mem m (pending s) then
        strand u now content l
          (Hub (by_ident s) (queues s) (del m (pending s)) (add m (all_completed s))
               (update_record m (fun k => match k with
                                          | ResultContent => Some (VDict content)
                                          | ResultHeader => Some (VDict [("engine", u)])
                                          | ResultBuffers => Some (VBufs [])
                                          | Completed => Some (VTime now)
                                          | EngineUuid => Some (VText u)
                                          | _ => None
                                          end) (db s)))
      else s
  end.
(** 999-1030; simplified: the date in the made-up header, which is also the completion date, is left out of the header *)
Definition handle_stranded_msgs (s : hub) (u : string) (now : nat) (content : dict) : hub :=
  strand u now content (map snd (filter (fun p => String.eqb (fst p) u) (queues s))) s.

(** 1340-1357 *)
Definition resubmit (s : hub) (old : string) (q : request) : hub :=
  let d := add_record (q_id q) (init_record q) (db s) in
  Hub (by_ident s) (queues s) (add (q_id q) (pending s)) (all_completed s)
      (update_record old (fun k => match k with Resubmitted => Some (VText (q_id q)) | _ => None end) d).

(** The handlers: 160-180, dispatch_monitor_traffic 321-337; registration 1032-1060 and 948-998 as far as it matters here *)
Definition step (s : hub) (e : event) : hub :=
  match e with
  | Register u => Hub (add u (by_ident s)) (filter (fun p => negb (String.eqb (fst p) u)) (queues s)) (pending s) (all_completed s) (db s)
  | Unregister u => Hub (del u (by_ident s)) (queues s) (pending s) (all_completed s) (db s)
  | Died u now c => handle_stranded_msgs s u now c
  | Request Task q => save_task_request s q
  | Request (Mux u) q => save_queue_request s u q
  | Request Broadcast q => save_broadcast_request s q
  | Destination m u => save_task_destination s m u
  | Result Task m r now => save_task_result s m r now
  | Result (Mux u) m r now => save_queue_result s u m r now
  | Result Broadcast m r now => save_broadcast_result s m r now
  | Output m o => save_iopub_message s m o
  | Resubmit old q => resubmit s old q
  end.
Definition init : hub := Hub [] [] [] [] [].
Fixpoint run (h : history) : hub := match h with [] => init | e :: h => step (run h) e end.
End Db.
