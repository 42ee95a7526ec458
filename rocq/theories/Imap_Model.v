(** Model of LoadBalancedView.imap and LazyMapIterator (client/view.py 1184-1208, 1520-1715): the threads of an imap as an interleaving
    of atomic steps.
    Threads: the consumer of the inputs (one worker of a ThreadPoolExecutor), the thread that receives results and runs callbacks,
    the user who iterates, and anybody who calls cancel().
    Simplifications: polls that find nothing (time.sleep, a wait that times out) are no steps; the callback of a task that is
    already finished when the callback is registered runs as if on the other thread; a wait for the first completed results gives any
    nonempty part of those that are finished, in any order (the snapshot of 1631 may be old); the tail of the unordered iteration gives
    finished results likewise; the first call of consume_next is not awaited (1685, it does not raise); max_outstanding >= 0. *)
From Coq Require Import List Arith Bool.
From Verif Require Import Async_Spec Async_Model Imap_Spec.
Import ListNotations.

Section Imap.
Context {V : Type}.
Context (ordered : bool) (limit : nat) (return_exceptions : bool).   (* the keyword arguments; limit: max_outstanding *)
Context (inputs : nat -> input) (outcome_of : nat -> outcome V).     (* the argument iterator; what the k-th task ends with *)

(** Where the worker is in consume_next (1652-1679); [k]: the number of the input *)
Inductive worker :=
| Idle
| Started                (* before 1653 *)
| Checked                (* before 1656 *)
| Submitted (k : nat)    (* task k was sent; before 1672 *)
| Listed (k : nat)       (* before 1674 *)
| Broken (k : nat)       (* input k raised; before 1666 *)
| Ending.                (* before signal_done, 1659 or 1669 *)

(** Where the user is in iter_results (1692-1713) *)
Inductive user :=
| Loop                   (* at 1695 *)
| Waiting                (* in wait_for_ready, 1618-1641 *)
| Getting (ks : list nat)   (* before 1698, for the results in the list *)
| Closing                (* leaving "with consumer_pool": it waits for the worker *)
| Rest                   (* at 1702 or 1706 *)
| RestGetting (ks : list nat) (* before 1703 or 1711 *)
| Over                   (* StopIteration *)
| Raised (e : exc).      (* an exception came out of the generator: it is finished *)

Record st := St {
  pos : nat;                      (* inputs taken from the iterator (for which there is a future) *)
  jobs : nat;                     (* calls of consume_next in the queue of the pool *)
  work : worker;
  open : bool;                    (* the pool accepts jobs *)
  iterator_done : bool;
  recorded : bool;                (* map_id is in view._outstanding_maps *)
  outstanding : list nat;
  finished : list nat;            (* futures that are done *)
  callbacks : list nat;           (* tasks with a registered callback that has not been called *)
  calling : nat;                  (* callbacks called, before 1647 *)
  passed : nat;                   (* callbacks before 1648 *)
  at_user : user;
  yielded : list (outcome V) }.

(** 1597-1601, 1680-1684: one consume_next per slot *)
Definition start : st :=
  St 0 (if Nat.eqb limit 0 then 1 else limit) Idle true false true [] [] [] 0 0 Loop [].

Definition set_work w s := St (pos s) (jobs s) w (open s) (iterator_done s) (recorded s) (outstanding s) (finished s) (callbacks s) (calling s) (passed s) (at_user s) (yielded s).
Definition set_user u s := St (pos s) (jobs s) (work s) (open s) (iterator_done s) (recorded s) (outstanding s) (finished s) (callbacks s) (calling s) (passed s) u (yielded s).
Definition set_out o s := St (pos s) (jobs s) (work s) (open s) (iterator_done s) (recorded s) o (finished s) (callbacks s) (calling s) (passed s) (at_user s) (yielded s).
Definition yield_ y s := St (pos s) (jobs s) (work s) (open s) (iterator_done s) (recorded s) (outstanding s) (finished s) (callbacks s) (calling s) (passed s) (at_user s) (yielded s ++ [y]).
Definition set_calls c p s := St (pos s) (jobs s) (work s) (open s) (iterator_done s) (recorded s) (outstanding s) (finished s) (callbacks s) c p (at_user s) (yielded s).
(** 1602-1605 *)
Definition signal_done s := St (pos s) (jobs s) (work s) (open s) true false (outstanding s) (finished s) (callbacks s) (calling s) (passed s) (at_user s) (yielded s).
(** consumer_pool.submit(consume_next): refused (an exception that nobody sees) when the pool has been shut down *)
Definition submit s := St (pos s) (if open s then S (jobs s) else jobs s) (work s) (open s) (iterator_done s) (recorded s) (outstanding s) (finished s) (callbacks s) (calling s) (passed s) (at_user s) (yielded s).
Definition shutdown s := St (pos s) (jobs s) (work s) false (iterator_done s) (recorded s) (outstanding s) (finished s) (callbacks s) (calling s) (passed s) (at_user s) (yielded s).
Definition take_job j s := St (pos s) j Started (open s) (iterator_done s) (recorded s) (outstanding s) (finished s) (callbacks s) (calling s) (passed s) (at_user s) (yielded s).
Definition taken w s := St (S (pos s)) (jobs s) w (open s) (iterator_done s) (recorded s) (outstanding s) (finished s) (callbacks s) (calling s) (passed s) (at_user s) (yielded s).
Definition set_cbs f cbs c s := St (pos s) (jobs s) (work s) (open s) (iterator_done s) (recorded s) (outstanding s) f cbs c (passed s) (at_user s) (yielded s).

(** 1652-1679: one step of the worker *)
Definition worker_step (s : st) : option st :=
  match work s with
  | Idle => match jobs s with S j => Some (take_job j s) | 0 => None end
  | Started => Some (set_work (if iterator_done s then Idle else Checked) s)                 (* 1653-1654 *)
  | Checked => Some (match inputs (pos s) with                                               (* 1656-1658 *)
                     | Args => taken (Submitted (pos s)) s
                     | Stop => set_work Ending s                                             (* 1658 *)
                     | Fail => (set_cbs (finished s ++ [pos s]) (callbacks s) (calling s)    (* 1661-1666: a future with an exception *)
                                  (taken (Broken (pos s)) s))
                     end)
  | Submitted k => Some (set_work (Listed k) (set_out (outstanding s ++ [k]) s))             (* 1672-1673 *)
  | Listed k =>
      Some (if Nat.eqb limit 0 then set_work Idle (submit s)                                 (* 1676-1677 *)
            else if mem k (finished s) then set_work Idle (set_calls (S (calling s)) (passed s) s)
            else set_work Idle (set_cbs (finished s) (callbacks s ++ [k]) (calling s) s))    (* 1674-1675 *)
  | Broken k => Some (set_work Ending (set_out (outstanding s ++ [k]) s))                    (* 1667-1668 *)
  | Ending => Some (set_work Idle (signal_done s))                                           (* 1659-1660, 1669-1670 *)
  end.

(** The result of task [k] arrives; its callback is called. *)
Definition finish (k : nat) (s : st) : option st :=
  if Nat.ltb k (pos s) && negb (mem k (finished s)) then
    Some (if mem k (callbacks s) then set_cbs (finished s ++ [k]) (without k (callbacks s)) (S (calling s)) s
          else set_cbs (finished s ++ [k]) (callbacks s) (calling s) s)
  else None.
(** 1646-1648: consume_callback, in two steps *)
Definition cb_check (s : st) : option st :=
  match calling s with
  | S c => Some (if iterator_done s then set_calls c (passed s) s else set_calls c (S (passed s)) s)
  | 0 => None
  end.
Definition cb_submit (s : st) : option st :=
  match passed s with S p => Some (submit (set_calls (calling s) p s)) | 0 => None end.

(** ar.get(return_exceptions=...): for a task as in Async_Model; the future of a failed input has a [get] that takes no keyword
    arguments (1663), calling it is a TypeError *)
Definition get_result (k : nat) : answer (outcome V) :=
  match inputs k with
  | Fail => Raise TypeError
  | _ => match get true false (Some return_exceptions) (Some [outcome_of k]) with
         | Ret (One o) => Ret o
         | Ret (Many _) => Raise TypeError
         | Raise e => Raise e
         end
  end.
(** 1692-1713 and 1618-1641: one step of the user; [ks]: the results that the wait gives *)
Definition takes (ks : list nat) (s : st) : bool :=
  match ks with [] => false | _ => true end && forallb (fun k => mem k (outstanding s) && mem k (finished s)) ks
  && (if list_eq_dec Nat.eq_dec (nodup Nat.eq_dec ks) ks then true else false).
Definition give (k : nat) (next : user) (s : st) : option st :=
  if mem k (finished s) then
    Some (match get_result k with Ret o => set_user next (yield_ o s) | Raise e => set_user (Raised e) (shutdown s) end)
  else None.
Definition user_step (ks : list nat) (s : st) : option st :=
  match at_user s with
  | Loop => Some (if iterator_done s then set_user Closing (shutdown s) else set_user Waiting s)        (* 1695 *)
  | Waiting =>
      if ordered then match outstanding s with
                      | k :: r => Some (set_user (Getting [k]) (set_out r s))                (* 1626-1628 *)
                      | [] => if iterator_done s then Some (set_user Loop s) else None       (* 1619-1624 *)
                      end
      else if takes ks s then Some (set_user (Getting ks) (set_out (filter (fun k => negb (mem k ks)) (outstanding s)) s))  (* 1631-1641 *)
      else if iterator_done s then Some (set_user Loop s) else None
  | Getting [] => Some (set_user Loop s)
  | Getting (k :: r) => give k (Getting r) s                                                 (* 1697-1698 *)
  | Closing => match work s, jobs s with Idle, 0 => Some (set_user Rest s) | _, _ => None end
  | Rest =>
      match outstanding s with
      | [] => Some (set_user Over s)
      | k :: r => if ordered then Some (set_user (RestGetting [k]) (set_out r s))            (* 1702 *)
                  else if takes ks s then Some (set_user (RestGetting ks) (set_out (filter (fun k => negb (mem k ks)) (outstanding s)) s))  (* 1705-1709 *)
                  else None
      end
  | RestGetting [] => Some (set_user Rest s)
  | RestGetting (k :: r) => give k (RestGetting r) s                                         (* 1703, 1710-1711 *)
  | Over => None
  | Raised _ => None
  end.
(** 1202-1208: cancel, when it has an effect *)
Definition cancel (s : st) : option st := if iterator_done s then None else Some (signal_done s).

Inductive event := Worker | Finish (k : nat) | CbCheck | CbSubmit | User (ks : list nat) | Cancel.
Definition step (s : st) (e : event) : option st :=
  match e with
  | Worker => worker_step s
  | Finish k => finish k s
  | CbCheck => cb_check s
  | CbSubmit => cb_submit s
  | User ks => user_step ks s
  | Cancel => cancel s
  end.
Fixpoint run (s : st) (es : list event) : option st :=
  match es with
  | [] => Some s
  | e :: es => match step s e with Some s => run s es | None => None end
  end.
End Imap.
