(** Model of the engine's nanny, ipyparallel/engine/nanny.py 42-258 (KernelNanny), and of the client's control
    requests, ipyparallel/client/client.py 1681-1824 (_send_control_request, send_signal, clear, abort, shutdown).
    Simplifications: the nanny's start-up (192-235) and the zmq sockets are left out; sockets keep messages in order.
    The session's deserialize is jupyter_client's: whether it can read a message, and what it reads, come with the event.
    Sending the notice to the Hub does not fail.  After the loop's stop callback nothing more is handled.
    A client's call finds its targets by [build_targets] of Targets_Model. *)
From stdpp Require Import base gmap list strings.
From Coq Require Import ZArith.
From Verif Require Import Ctl_Spec.
From Verif Require Targets_Spec Targets_Model.

(** ** The nanny *)
Inductive callback := CFinish | CStop.
Record nanny := Nanny {
  finish_called : bool;                     (* _finish_called, 80 *)
  pipe_watched : bool;                      (* the pipe handler is registered, 226-232 *)
  waiting : bool;                           (* the thread of 82-93 is running *)
  callbacks : list callback;                (* those the loop has still to run *)
  stopped : bool;
  out : list action }.                      (* what has been done, oldest first *)
Definition start : nanny := Nanny false true true [] false [].
Definition emit (l : list action) (s : nanny) : nanny :=
  Nanny (finish_called s) (pipe_watched s) (waiting s) (callbacks s) (stopped s) (out s ++ l).

(** session.feed_identities: the frames before and after the first delimiter; None: ValueError *)
Fixpoint feed_identities (w : wire) : option (list string * list string) :=
  match w with
  | [] => None
  | f :: r => if String.eqb f DELIM then Some ([], r)
              else match feed_identities r with Some (i, b) => Some (f :: i, b) | None => None end
  end.
(** str[-n:] *)
Definition last_chars (n : nat) (s : string) : string := String.substring (String.length s - n) n s.
(** 154-158 *)
Definition reply_type (msg_type : string) : string :=
  if String.eqb (last_chars 8 msg_type) "_request" then last_chars 8 msg_type else "error".

Section nanny.
Variable engine_id : Z.
Variable names : string -> option Z.       (* getattr(signal, name); None: AttributeError *)

(** signal_request, 182-190.  [fails]: the exception of Process.send_signal, if it raises *)
Definition signal_request (c : content) (fails : option string) : list action * status :=
  match c with
  | CSig sig =>
      match (match sig with SName s => names s | SNum z => Some z end) with
      | None => ([], Error "AttributeError")
      | Some z => match fails with Some e => ([], Error e) | None => ([Signal z], Ok) end
      end
  | _ => ([], Error "KeyError")
  end.

(** dispatch_control, 137-174.  Without identities the log message of 159 raises IndexError. *)
Definition dispatch_control (w : wire) (m : option message) (fails : option string) (s : nanny) : nanny :=
  match feed_identities w with
  | None => s                                                                   (* 143-145 *)
  | Some (idents, _) =>
      match m with
      | None => s                                                               (* 149-152 *)
      | Some m =>
          match idents with
          | [] => s                                                             (* 159 *)
          | _ =>
              if String.eqb (mtype m) "signal_request" then                     (* 161 *)
                let '(acts, content) := signal_request (mcontent m) fails in    (* 168-172 *)
                emit (acts ++ [Reply idents (reply_type (mtype m)) (mid m) content]) s   (* 174 *)
              else emit [ToEngine w] s                                          (* 162-166 *)
          end
      end
  end.
(** dispatch_parent, 176-178 *)
Definition dispatch_parent (w : wire) (s : nanny) : nanny := emit [ToClients w] s.
(** notify_exit, 113-127 *)
Definition notify_exit (s : nanny) : nanny := emit [Unregister engine_id] s.
(** finish, 129-135 *)
Definition finish (s : nanny) : nanny :=
  if finish_called s then s
  else let s := notify_exit (Nanny true (pipe_watched s) (waiting s) (callbacks s) (stopped s) (out s)) in
       Nanny (finish_called s) (pipe_watched s) (waiting s) (callbacks s ++ [CStop]) (stopped s) (out s).
(** pipe_handler, 95-111 *)
Definition pipe_handler (s : nanny) : nanny :=
  if pipe_watched s then finish (Nanny (finish_called s) false (waiting s) (callbacks s) (stopped s) (out s)) else s.
(** wait_for_parent_thread, 82-93 *)
Definition parent_exited (s : nanny) : nanny :=
  if waiting s then Nanny (finish_called s) (pipe_watched s) false (callbacks s ++ [CFinish]) (stopped s) (out s) else s.
Definition turn (s : nanny) : nanny :=
  match callbacks s with
  | [] => s
  | CFinish :: r => finish (Nanny (finish_called s) (pipe_watched s) (waiting s) r (stopped s) (out s))
  | CStop :: r => Nanny (finish_called s) (pipe_watched s) (waiting s) r true (out s)
  end.
Definition step (s : nanny) (e : event) : nanny :=
  if stopped s then s else
  match e with
  | FromClients w m fails => dispatch_control w m fails s
  | FromEngine w => dispatch_parent w s
  | PipeEvent => pipe_handler s
  | ProcessEnds => parent_exited s
  | Turn => turn s
  end.
Definition run (evs : list event) : nanny := fold_left step evs start.
End nanny.

(** ** The client *)
Section client.
Context {U : Type}.
Variable fresh : nat -> string.            (* the ids given to the messages of the call *)
Variable answer : string -> option status. (* the status in the reply to a message; None: it never comes *)

Definition target_error (o : Targets_Spec.outcome U) : exn :=
  match o with
  | Targets_Spec.Chosen _ _ => EType | Targets_Spec.NoEnginesRegistered => ENoEngines | Targets_Spec.TypeError => EType
  | Targets_Spec.IndexError => EIndex | Targets_Spec.KeyError => EKey | Targets_Spec.ValueError => EValue
  end.
(** the loops of 1685-1688 and 1796-1805: one request for each identity *)
Definition requests (us : list U) (type : string) (c : content) : list (request U) :=
  imap (fun i u => Req u (Msg type (fresh i) c)) us.
(** 1691-1695 *)
Fixpoint wait_each (l : list (request U)) : list (act U) * ending :=
  match l with
  | [] => ([], Done)
  | r :: l =>
      match answer (mid (r_msg r)) with
      | None => ([], Hangs)
      | Some (Error e) => ([AReplied (mid (r_msg r))], Raises (ERemote e))
      | Some Ok => let '(a, x) := wait_each l in (AReplied (mid (r_msg r)) :: a, x)
      end
  end.
(** _send_control_request, 1681-1695 *)
Definition send_control_request (reg : Targets_Model.registry) (t : Targets_Spec.target) (type : string) (c : content) (block : bool)
  : list (act U) * ending :=
  match Targets_Model.build_targets reg t with
  | Targets_Spec.Chosen us _ =>
      let rs := requests us type c in
      if block then let '(a, x) := wait_each rs in (map ASend rs ++ a, x)
      else (map ASend rs, Futures (map (fun r => mid (r_msg r)) rs))
  | e => ([], Raises (target_error e))
  end.
(** self.block if block is None else block *)
Definition the_block (client_block : bool) (block : option bool) : bool := match block with Some b => b | None => client_block end.

(** send_signal, 1697-1716 *)
Definition send_signal reg (client_block : bool) (sig : sigv) t (block : option bool) :=
  send_control_request reg t "signal_request" (CSig sig) (the_block client_block block).
(** clear, 1718-1723 *)
Definition clear reg (client_block : bool) t (block : option bool) :=
  send_control_request reg t "clear_request" (COther "") (the_block client_block block).
(** abort, 1725-1766.  [outstanding]: list(self.outstanding), in whatever order the set gives *)
Definition abort reg (client_block : bool) (outstanding : list string) (js : jobs) t (block : option bool) :=
  let jobs := match js with JNone => map JId outstanding | JOne j => [j] | JMany l => l end in
  if existsb (fun j => match j with JOther => true | _ => false end) jobs then ([], Raises EType)           (* 1749-1753 *)
  else send_control_request reg t "abort_request" (CIds (flat_map job_ids jobs)) (the_block client_block block).
(** the loop of 1807-1812: [error] is the last one *)
Fixpoint wait_all (l : list (request U)) (error : option string) : list (act U) * option (option string) :=
  match l with
  | [] => ([], Some error)
  | r :: l =>
      match answer (mid (r_msg r)) with
      | None => ([], None)
      | Some st => let '(a, x) := wait_all l (match st with Ok => error | Error e => Some e end) in (AReplied (mid (r_msg r)) :: a, x)
      end
  end.
(** shutdown, 1768-1824.  [hub_answer]: the Hub's reply *)
Definition shutdown (hub_answer : option status) reg (client_block : bool) (t : Targets_Spec.target) (restart hub : bool) (block : option bool)
  : list (act U) * ending :=
  if restart then ([], Raises ENotImplemented) else
  let t := if hub then Targets_Spec.TStr "all" else t in
  match (match Targets_Model.build_targets reg t with
         | Targets_Spec.Chosen us _ => inl us
         | Targets_Spec.NoEnginesRegistered => inl []
         | e => inr (target_error e)
         end) with
  | inr e => ([], Raises e)
  | inl us =>
      let rs := requests us "shutdown_request" (CRestart restart) in
      let '(a, err) := if the_block client_block block || hub then wait_all rs None else ([], Some None) in
      match err with
      | None => (map ASend rs ++ a, Hangs)
      | Some error =>
          if hub then
            match hub_answer with
            | None => (map ASend rs ++ a ++ [AHub], Hangs)
            | Some st =>
                match (match st with Ok => error | Error e => Some e end) with
                | None => (map ASend rs ++ a ++ [AHub; AClose], Done)
                | Some e => (map ASend rs ++ a ++ [AHub], Raises (ERemote e))
                end
            end
          else (map ASend rs ++ a, match error with None => Done | Some e => Raises (ERemote e) end)
      end
  end.
End client.
