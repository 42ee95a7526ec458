(** Model of the client's bookkeeping of messages, ipyparallel/client/client.py (and the broadcast part
    of client/view.py).  Everything here runs in one thread at a time (sending in the user's thread,
    the handlers in the IO thread): each event is atomic.  Engine ids, uuids and values are natural
    numbers; a result is what the user gets from the future.  Metadata contents, printing, the 'pure'
    scheme and registration callbacks are left out. *)
From stdpp Require Import base gmap list sorting.
From Verif Require Import RDict_Model.

(** A message id; [Derived m u] is the id f'{m}_{u}' which a broadcast uses for engine [u]. *)
Inductive mid := Plain (n : nat) | Derived (n u : nat).
Global Instance mid_eq_dec : EqDecision mid.
Proof. solve_decision. Defined.
Global Instance mid_countable : Countable mid.
Proof.
  apply (inj_countable' (fun m => match m with Plain n => inl n | Derived n u => inr (n, u) end)
           (fun s => match s with inl n => Plain n | inr (n, u) => Derived n u end)).
  intros []; reflexivity.
Defined.

(** Keys of the dictionary of engines: [inl eid], [inr uuid]. *)
Notation key := (nat + nat)%type.

Inductive result := Value (v : nat) | Failure (e : nat) | EngineDied (u : nat) | TaskAborted.
(** The content of a reply: ok with a value or with buffers which cannot be deserialized; an error,
    with or without engine_info; aborted; resubmitted. *)
Inductive reply := ROk (v : nat) | RUnreadable | RError (r : result) (engine_info : bool) | RAborted | RResubmitted.

Inductive failure := KeyErr | InvalidState | RuntimeErr | DeserializeErr.

Record client := Client {
  engines : rdict key;                       (* self._engines *)
  eids : list nat;                           (* self._ids *)
  history : list mid;
  outstanding : gset mid;
  on_engine : gmap nat (gset mid);           (* self._outstanding_dict: a defaultdict(set) *)
  results : gmap mid result;
  metadata : gset mid;                       (* the keys of self.metadata *)
  futures : gset mid;                        (* the keys of self._futures *)
  output_futures : gset mid;                 (* the keys of self._output_futures *)
  (* the future objects, which users hold: their results once done *)
  msg_future : gmap mid (option result);
  out_future : gmap mid bool;
  hooked : gset mid;                         (* messages with the cleanup callback of _send *)
  coalesced : gmap mid (list nat)            (* coalesced broadcasts: the engines with _rm_outstanding *)
}.

Definition empty_client : client :=
  Client (RDict ∅ ∅) [] [] ∅ ∅ ∅ ∅ ∅ ∅ ∅ ∅ ∅ ∅.

(** Updates *)
Definition set_engines x i s := Client x i (history s) (outstanding s) (on_engine s) (results s) (metadata s) (futures s) (output_futures s) (msg_future s) (out_future s) (hooked s) (coalesced s).
Definition set_hist x s := Client (engines s) (eids s) x (outstanding s) (on_engine s) (results s) (metadata s) (futures s) (output_futures s) (msg_future s) (out_future s) (hooked s) (coalesced s).
Definition set_outst x s := Client (engines s) (eids s) (history s) x (on_engine s) (results s) (metadata s) (futures s) (output_futures s) (msg_future s) (out_future s) (hooked s) (coalesced s).
Definition set_on x s := Client (engines s) (eids s) (history s) (outstanding s) x (results s) (metadata s) (futures s) (output_futures s) (msg_future s) (out_future s) (hooked s) (coalesced s).
Definition set_results x s := Client (engines s) (eids s) (history s) (outstanding s) (on_engine s) x (metadata s) (futures s) (output_futures s) (msg_future s) (out_future s) (hooked s) (coalesced s).
Definition set_meta x s := Client (engines s) (eids s) (history s) (outstanding s) (on_engine s) (results s) x (futures s) (output_futures s) (msg_future s) (out_future s) (hooked s) (coalesced s).
Definition set_dicts f o s := Client (engines s) (eids s) (history s) (outstanding s) (on_engine s) (results s) (metadata s) f o (msg_future s) (out_future s) (hooked s) (coalesced s).
Definition set_msgf x s := Client (engines s) (eids s) (history s) (outstanding s) (on_engine s) (results s) (metadata s) (futures s) (output_futures s) x (out_future s) (hooked s) (coalesced s).
Definition set_outf x s := Client (engines s) (eids s) (history s) (outstanding s) (on_engine s) (results s) (metadata s) (futures s) (output_futures s) (msg_future s) x (hooked s) (coalesced s).
Definition set_hooks h c s := Client (engines s) (eids s) (history s) (outstanding s) (on_engine s) (results s) (metadata s) (futures s) (output_futures s) (msg_future s) (out_future s) h c.

Definition on (s : client) (u : nat) : gset mid := default ∅ (on_engine s !! u).
Definition on_add (u : nat) (m : mid) (s : client) : client := set_on (<[u := {[m]} ∪ on s u]> (on_engine s)) s.
Definition on_del (u : nat) (m : mid) (s : client) : client := set_on (<[u := on s u ∖ {[m]}]> (on_engine s)) s.

(** ident_str in self._engines.values(), 1284 *)
Definition is_engine (s : client) (u : nat) : bool :=
  bool_decide (inr u ∈ map snd (map_to_list (fwd (engines s)))).

(** ** Futures *)
(** cleanup, 1301-1306: called when all futures of the message are done *)
Definition all_done (m : mid) (s : client) : bool :=
  match msg_future s !! m with
  | Some (Some _) => match out_future s !! m with Some false => false | _ => true end
  | _ => false
  end.
Definition cleanup (m : mid) (s : client) : client :=
  if bool_decide (m ∈ hooked s) && all_done m s then
    set_dicts (futures s ∖ {[m]}) (output_futures s ∖ {[m]})
      (set_meta (metadata s ∖ {[m]}) (set_results (delete m (results s)) s))
  else s.
(** view.py 960-966: _rm_outstanding, called when the result of a coalesced broadcast is there *)
Definition rm_outstanding (m : mid) (s : client) : client :=
  match coalesced s !! m with
  | Some us => fold_left (fun s u => on_del u m s) us s
  | None => s
  end.
(** future.set_result: its callbacks run at once; InvalidStateError if it is done already *)
Definition set_result (m : mid) (r : result) (s : client) : client * option failure :=
  match msg_future s !! m with
  | Some None => (cleanup m (rm_outstanding m (set_msgf (<[m := Some r]> (msg_future s)) s)), None)
  | _ => (s, Some InvalidState)
  end.
(** out_future = self._output_futures.get(msg_id); if out_future and not done: set_result(None) *)
Definition output_done (m : mid) (s : client) : client :=
  if bool_decide (m ∈ output_futures s) then
    match out_future s !! m with
    | Some false => cleanup m (set_outf (<[m := true]> (out_future s)) s)
    | _ => s
    end
  else s.
(** create_message_futures, 1227-1245 *)
Definition create_futures (m : mid) (async_result : bool) (s : client) : client :=
  let s := set_msgf (<[m := None]> (msg_future s)) (set_dicts ({[m]} ∪ futures s) (output_futures s) s) in
  if async_result then
    set_meta ({[m]} ∪ metadata s)
      (set_outf (<[m := false]> (out_future s)) (set_dicts (futures s) ({[m]} ∪ output_futures s) s))
  else s.

(** ** Sending *)
(** The part of _send that registers a message, 1273-1308; [ident]: the engine it is routed to. *)
Definition register_sent (m : mid) (tracked : bool) (ident : option nat) (s : client) : client :=
  if tracked then
    let s := set_hist (history s ++ [m]) (set_outst ({[m]} ∪ outstanding s) s) in              (* 1276-1277 *)
    match ident with
    | Some u => if is_engine s u then on_add u m s else s                                      (* 1279-1287 *)
    | None => s
    end
  else s.
(** _send, 1247-1320.  Tasks are tracked and have outputs; control requests are neither. *)
Definition send (m : mid) (tracked : bool) (ident : option nat) (s : client) : client :=
  let s := create_futures m tracked (register_sent m tracked ident s) in
  set_hooks ({[m]} ∪ hooked s) (coalesced s) s.
(** BroadcastView._really_apply with _make_async_result, view.py 934-968, as message_future_hook *)
Definition broadcast_hook (n : nat) (idents : list nat) (coalescing : bool) (s : client) : client :=
  if coalescing then
    let s := fold_left (fun s u => on_add u (Plain n) s) idents
               (set_outst ({[Plain n]} ∪ outstanding s) s) in                                  (* 952-954 *)
    set_hooks (hooked s) (<[Plain n := idents]> (coalesced s)) s
  else
    fold_left (fun s u =>
      let m := Derived n u in
      on_add u m (set_outst ({[m]} ∪ outstanding s) (create_futures m true s))) idents s.      (* 938-948 *)
Definition broadcast (n : nat) (idents : list nat) (coalescing : bool) (s : client) : client :=
  let m := Plain n in
  let s := create_futures m true (register_sent m true None s) in
  let s := broadcast_hook n idents coalescing s in                                             (* 1296-1297 *)
  set_hooks ({[m]} ∪ hooked s) (coalesced s) s.

(** ** Replies *)
(** _handle_apply_reply, 965-1028; with [execute], _handle_execute_reply, 901-959, which differs in not
    printing the old result.  [us]: the engine uuids of the metadata. *)
Definition handle_reply (execute : bool) (m : mid) (us : list nat) (r : reply) (s : client)
  : client * option failure :=
  let fut := bool_decide (m ∈ futures s) in                                                    (* 973 *)
  if negb (bool_decide (m ∈ outstanding s)) && bool_decide (m ∈ history s) && negb execute
     && negb (bool_decide (is_Some (results s !! m)))
  then (s, Some KeyErr)                                                                        (* 977 *)
  else
    let s := set_outst (outstanding s ∖ {[m]}) s in                                            (* 982 *)
    let s := set_meta ({[m]} ∪ metadata s) s in                                                (* 987 *)
    let s := fold_left (fun s u => on_del u m s) us s in                                       (* 995-999 *)
    let finish s :=
      if fut then match results s !! m with
                  | Some x => set_result m x s                                                 (* 1028 *)
                  | None => (s, Some KeyErr)
                  end
      else (s, None) in
    match r with
    | ROk v => finish (set_results (<[m := Value v]> (results s)) s)
    | RUnreadable => (s, Some DeserializeErr)                                                  (* 1011 *)
    | RAborted => finish (output_done m (set_results (<[m := TaskAborted]> (results s)) s))    (* 1013-1016 *)
    | RResubmitted => finish (output_done m s)                                                 (* 1017-1026 *)
    | RError x info =>
        let s := set_results (<[m := x]> (results s)) s in                                     (* 1021 *)
        finish (if info then s else output_done m s)                                           (* 1022-1026 *)
    end.
(** _dispatch_single_reply, 1087-1092: replies to control and query requests *)
Definition single_reply (m : mid) (v : nat) (s : client) : client * option failure :=
  if bool_decide (m ∈ futures s) then set_result m (Value v) s else (s, None).
(** _dispatch_iopub, 1114-1163, for the status 'idle' *)
Definition idle (m : mid) (s : client) : client :=
  if bool_decide (m ∈ metadata s) then output_done m s else s.

(** ** Engines *)
(** _update_engines for one engine, 663-669 *)
Definition register_engine (e u : nat) (s : client) : client * option failure :=
  let ids := if contains (engines s) (inl e) then eids s else eids s ++ [e] in
  match setitem (engines s) (inl e) (inr u) with
  | Done d => (set_engines d (merge_sort Nat.le ids) s, None)
  | KeyError d => (set_engines d ids s, Some KeyErr)
  end.
(** _handle_stranded_msgs, 874-899, for the messages [l] (in some order) *)
Fixpoint stranded (u : nat) (l : list mid) (s : client) : client * option failure :=
  match l with
  | [] => (s, None)
  | m :: l =>
      if bool_decide (is_Some (results s !! m)) then stranded u l s                            (* 885-887 *)
      else match handle_reply false m [u] (RError (EngineDied u) false) s with
           | (s, None) => stranded u l s
           | (s, Some e) => (s, Some e)
           end
  end.
(** _unregister_engine, 856-866; [enum] gives the order in which Python enumerates a set. *)
Definition unregister_engine (enum : gset mid -> list mid) (e : nat) (s : client) : client * option failure :=
  if bool_decide (e ∈ eids s) then
    let ids := filter (fun x => x <> e) (eids s) in
    match fwd (engines s) !! inl e, pop (engines s) (inl e) with
    | Some (inr u), Done d =>
        let s := set_engines d ids s in
        stranded u (enum (on s u)) s
    | _, a => (set_engines (state_of a) ids s, Some KeyErr)
    end
  else (s, None).

(** ** purge_local_results, 2436-2458, with ids or 'all' *)
Definition purge (ids : gset mid) (s : client) : client * option failure :=
  if decide (outstanding s ∩ ids = ∅) then
    (set_dicts (futures s ∖ ids) (output_futures s ∖ ids)
       (set_meta (metadata s ∖ ids) (set_results (filter (fun p => fst p ∉ ids) (results s)) s)), None)
  else (s, Some RuntimeErr).
Definition purge_all (s : client) : client * option failure :=
  if decide (outstanding s = ∅) then
    (set_dicts ∅ ∅ (set_meta ∅ (set_results ∅ s)), None)
  else (s, Some RuntimeErr).

(** ** wait, 1615-1660, for message ids: None when it returns True at once, else the futures it waits for *)
Definition wait (ids : gset mid) (s : client) : option (gset mid) :=
  if decide (ids ∩ outstanding s = ∅) then None else Some (ids ∩ futures s).

Inductive event :=
| Send (m : mid) (ident : option nat)                        (* a task *)
| Request (m : mid)                                          (* a control or query request *)
| Broadcast (n : nat) (idents : list nat) (coalescing : bool)
| Reply (execute : bool) (m : mid) (us : list nat) (r : reply)
| Single (m : mid) (v : nat)
| Idle (m : mid)
| Register (e u : nat)
| Unregister (e : nat)
| Purge (ids : gset mid)
| PurgeAll.

Definition step (enum : gset mid -> list mid) (s : client) (e : event) : client * option failure :=
  match e with
  | Send m ident => (send m true ident s, None)
  | Request m => (send m false None s, None)
  | Broadcast n idents c => (broadcast n idents c s, None)
  | Reply x m us r => handle_reply x m us r s
  | Single m v => single_reply m v s
  | Idle m => (idle m s, None)
  | Register e u => register_engine e u s
  | Unregister e => unregister_engine enum e s
  | Purge ids => purge ids s
  | PurgeAll => purge_all s
  end.
(** An exception in a handler is logged by the IO loop; the next event is handled. *)
Definition run (enum : gset mid -> list mid) (s : client) (l : list event) : client :=
  fold_left (fun s e => fst (step enum s e)) l s.
