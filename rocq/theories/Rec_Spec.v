(** What should be in the Hub's record of a task (C56), told from the messages that arrived, without
    saying how the Hub keeps it. A history lists what arrived, newest first. *)
From Coq Require Import List String Bool Arith.
Import ListNotations.
Local Open Scope string_scope.

Definition dict := list (string * string).
(** What a column of a record can hold; Python's truth value of it *)
Inductive val := VNone | VText (s : string) | VDict (d : dict) | VBufs (l : list string) | VTime (t : nat).
Definition truthy (v : val) : bool :=
  match v with
  | VNone => false | VText s => negb (String.eqb s "") | VDict d => negb (Nat.eqb (List.length d) 0)
  | VBufs l => negb (Nat.eqb (List.length l) 0) | VTime _ => true
  end.

Inductive col :=
| MsgId | Header | Metadata | Content | Buffers | Submitted | ClientUuid | EngineUuid | Started | Completed | Resubmitted | Received
| ResultHeader | ResultMetadata | ResultContent | ResultBuffers | Queue | ExecuteInput | ExecuteResult | Error | Stdout | Stderr | Label
| DisplayData.                                       (* not one of the columns; a dict may have it all the same *)

(** A request as it was sent, a result as it was sent *)
Record request := Req { q_id : string; q_header : dict; q_content : dict; q_metadata : dict; q_buffers : list string; q_date : nat; q_session : string }.
Record result := Res { r_header : dict; r_metadata : dict; r_content : dict; r_buffers : list string; r_date : nat; r_started : option nat }.

(** Which way a request went: to a scheduler, to engine [u], to many engines *)
Inductive kind := Task | Mux (u : string) | Broadcast.
Inductive output :=
| Stream (err : bool) (text : string) | ErrorOut (c : dict) | InputOut (code : string) | ResultOut (c : dict) | DisplayOut (c : dict)
| OtherOut.                                          (* data_pub, comm messages, ... *)

Inductive event :=
| Register (u : string) | Unregister (u : string)
| Died (u : string) (now : nat) (content : dict)     (* the waiting time for results of an engine that left is over *)
| Request (k : kind) (q : request)
| Destination (m u : string)                         (* the scheduler tells the engine chosen for a task *)
| Result (k : kind) (m : string) (r : result) (now : nat) (* a result arrives at time now *)
| Output (m : string) (o : output)
| Resubmit (old : string) (q : request).             (* the Hub itself sends [q], which repeats [old] *)
Definition history := list event.                    (* newest first *)

Definition lookup (k : string) (d : dict) : option string :=
  option_map snd (find (fun p => String.eqb k (fst p)) d).

(** Engine [u] is registered *)
Fixpoint registered (h : history) (u : string) : bool :=
  match h with
  | [] => false
  | Register v :: h => String.eqb v u || registered h u
  | Unregister v :: h => negb (String.eqb v u) && registered h u
  | _ :: h => registered h u
  end.
(** The request [m] that arrived. One for an engine that is not registered does not count. *)
Fixpoint request_of (h : history) (m : string) : option (kind * request) :=
  match h with
  | [] => None
  | Request k q :: h =>
      if String.eqb (q_id q) m && match k with Mux u => registered h u | _ => true end then Some (k, q) else request_of h m
  | _ :: h => request_of h m
  end.
(** The request that the Hub itself sent under the id [m] *)
Fixpoint resubmission (h : history) (m : string) : option request :=
  match h with
  | [] => None
  | Resubmit _ q :: h => if String.eqb (q_id q) m then Some q else resubmission h m
  | _ :: h => resubmission h m
  end.
(** What is known of the request *)
Definition sent (h : history) (m : string) : option request :=
  match request_of h m with Some (_, q) => Some q | None => resubmission h m end.

(** How a task ended: with a result that arrived at time [now], or with its engine *)
Inductive outcome := Finished (r : result) (now : nat) | Lost (u : string) (now : nat) (content : dict).
(** The first result of a task or broadcast counts; of a request to one engine the last one does, if the
    engine is registered when it arrives; when the engine is given up, those without a result are lost. *)
Fixpoint outcome_of (h : history) (m : string) : option outcome :=
  match h with
  | [] => None
  | Result k m' r now :: h =>
      if String.eqb m' m then
        match request_of h m, k with
        | Some _, Mux u => if registered h u then Some (Finished r now) else outcome_of h m
        | Some _, _ => match outcome_of h m with Some o => Some o | None => Some (Finished r now) end
        | None, _ => outcome_of h m
        end
      else outcome_of h m
  | Died u now c :: h =>
      match request_of h m, outcome_of h m with
      | Some (Mux v, _), None => if String.eqb u v then Some (Lost u now c) else None
      | _, o => o
      end
  | _ :: h => outcome_of h m
  end.
(** The engine last named: by the request, the scheduler, or the result that counts *)
Fixpoint engine_of (h : history) (m : string) : val :=
  match h with
  | [] => VNone
  | Request k q :: h' =>
      match k with
      | Mux u => if String.eqb (q_id q) m && registered h' u then VText u else engine_of h' m
      | _ => engine_of h' m
      end
  | Destination m' u :: h => if String.eqb m' m && registered h u then VText u else engine_of h m
  | Result k m' r _ :: h =>
      if String.eqb m' m then
        match request_of h m, outcome_of h m, k with
        | Some _, None, Task | Some _, None, Broadcast => VText (match lookup "engine" (r_metadata r) with Some u => u | None => "" end)
        | _, _, _ => engine_of h m
        end
      else engine_of h m
  | _ :: h => engine_of h m
  end.
(** All that was printed, in the order of arrival *)
Fixpoint printed (err : bool) (h : history) (m : string) : string :=
  match h with
  | [] => ""
  | Output m' (Stream e t) :: h => if String.eqb m' m && Bool.eqb e err then printed err h m ++ t else printed err h m
  | _ :: h => printed err h m
  end.
(** The last output of a sort *)
Fixpoint last_output (pick : output -> option val) (h : history) (m : string) : val :=
  match h with
  | [] => VNone
  | Output m' o :: h =>
      match pick o with Some v => if String.eqb m' m then v else last_output pick h m | None => last_output pick h m end
  | _ :: h => last_output pick h m
  end.
Definition an_error (o : output) : option val := match o with ErrorOut c => Some (VDict c) | _ => None end.
Definition an_input (o : output) : option val := match o with InputOut c => Some (VText c) | _ => None end.
Definition a_result (o : output) : option val := match o with ResultOut c => Some (VDict c) | _ => None end.
Definition a_display (o : output) : option val := match o with DisplayOut c => Some (VDict c) | _ => None end.
(** The last task that repeats this one *)
Fixpoint repeated_by (h : history) (m : string) : val :=
  match h with
  | [] => VNone
  | Resubmit old q :: h => if String.eqb old m then VText (q_id q) else repeated_by h m
  | _ :: h => repeated_by h m
  end.
(** Something is known about [m] *)
Fixpoint printed_any (h : history) (m : string) : bool :=
  match h with
  | [] => false
  | Output m' o :: h => (String.eqb m' m && match o with OtherOut => false | _ => true end) || printed_any h m
  | _ :: h => printed_any h m
  end.
Definition known (h : history) (m : string) : bool :=
  match sent h m with Some _ => true | None => printed_any h m end.

Definition of_text (o : option string) : val := match o with Some s => VText s | None => VNone end.
Definition of_time (o : option nat) : val := match o with Some t => VTime t | None => VNone end.
(** What column [k] of the record of [m] should hold. [strict]: the database has a fixed set of columns. *)
Definition expected (strict : bool) (h : history) (m : string) (k : col) : val :=
  let req f := match sent h m with Some q => f q | None => VNone end in
  let out f g := match outcome_of h m with Some (Finished r now) => f r now | Some (Lost u now c) => g u now c | None => VNone end in
  match k with
  | MsgId => VText m
  | Header => req (fun q => VDict (q_header q))
  | Metadata => req (fun q => VDict (q_metadata q))
  | Content => req (fun q => VDict (q_content q))
  | Buffers => req (fun q => VBufs (q_buffers q))
  | Submitted => req (fun q => VTime (q_date q))
  | Label => req (fun q => of_text (lookup "label" (q_metadata q)))
  | ClientUuid => match request_of h m with Some (_, q) => VText (q_session q) | None => VNone end
  | Queue => match request_of h m with Some (Task, _) => VText "task" | Some (Mux _, _) => VText "mux" | _ => VNone end
  | EngineUuid => engine_of h m
  | Resubmitted => repeated_by h m
  | ResultHeader => out (fun r _ => VDict (r_header r)) (fun u _ _ => VDict [("engine", u)])
  | ResultMetadata => out (fun r _ => VDict (r_metadata r)) (fun _ _ _ => VNone)
  | ResultContent => out (fun r _ => VDict (r_content r)) (fun _ _ c => VDict c)
  | ResultBuffers => out (fun r _ => VBufs (r_buffers r)) (fun _ _ _ => VBufs [])
  | Completed => out (fun r _ => VTime (r_date r)) (fun _ now _ => VTime now)
  | Started => out (fun r _ => of_time (r_started r)) (fun _ _ _ => VNone)
  | Received => out (fun _ now => VTime now) (fun _ _ _ => VNone)
  | Stdout => VText (printed false h m)
  | Stderr => VText (printed true h m)
  | Error => last_output an_error h m
  | ExecuteInput => last_output an_input h m
  | ExecuteResult => last_output a_result h m
  | DisplayData => if strict then VNone else last_output a_display h m
  end.
(** An empty error, input or result may be recorded as no value. *)
Definition agrees (k : col) (v w : val) : Prop :=
  v = w \/ (match k with Error | ExecuteInput | ExecuteResult => True | _ => False end /\ truthy v = false /\ truthy w = false).

Fixpoint ever (h : history) (u : string) : bool :=
  match h with [] => false | Register v :: h => String.eqb v u || ever h u | _ :: h => ever h u end.
Fixpoint given_up (h : history) (u : string) : bool :=
  match h with [] => false | Died v _ _ :: h => String.eqb v u || given_up h u | _ :: h => given_up h u end.

Definition same_way (j k : kind) : Prop :=
  match j, k with Task, Task | Broadcast, Broadcast => True | Mux u, Mux v => u = v | _, _ => False end.
(** What the sockets and schedulers guarantee: ids are used once; results come the way the request went, and
    results and destinations after the request; an engine registers once under its name, and is given up only once,
    after it left; what the Hub resubmits comes back to it unchanged. Outputs come at any time (but see the
    broadcasts). *)
Definition may_happen (h : history) (e : event) : Prop :=
  match e with
  | Register u => ever h u = false
  | Unregister _ => True
  | Died u _ _ => ever h u = true /\ registered h u = false /\ given_up h u = false
  | Request k q =>
      request_of h (q_id q) = None /\
      match k with
      | Task => match resubmission h (q_id q) with Some q' => q' = q | None => True end
      | Mux _ => resubmission h (q_id q) = None
      | Broadcast => known h (q_id q) = false
      end
  | Destination m _ => match request_of h m with Some (Task, _) => True | _ => False end
  | Result k m _ _ => match request_of h m with Some (j, _) => same_way j k | None => resubmission h m = None end
  | Output _ _ => True
  | Resubmit old q => known h (q_id q) = false /\ request_of h old <> None
  end.
Fixpoint orderly (h : history) : Prop :=
  match h with [] => True | e :: h => may_happen h e /\ orderly h end.

(** The messages that are not outputs of [m]; the outputs of [m] *)
Definition is_output_of (m : string) (e : event) : bool := match e with Output m' _ => String.eqb m' m | _ => false end.
