(** Model of Client.get_result (client/client.py 2153-2163, 2367-2405) with the constructor of AsyncResult
    (client/asyncresult.py 68-112, 113-128), of AsyncHubResult.wait (1164-1207) and of Client.resubmit (2166-2203) with
    Hub.resubmit_task (controller/hub.py 1269-1349).
    A future is identified with the id of its message. *)
From stdpp Require Import base gmap list.
From Verif Require Import Result_Model GetRes_Spec.

(** ** get_result *)
(** self.history[i] *)
Definition py_index (l : list nat) (i : Z) : option nat :=
  if decide (0 <= i)%Z then l !! Z.to_nat i
  else if decide (0 <= Z.of_nat (length l) + i)%Z then l !! Z.to_nat (Z.of_nat (length l) + i) else None.

(** The list [futures] of 2374 has message ids and futures *)
Inductive child := Name (m : nat) | Future (m : nat).
Inductive answer :=
| Local (single : bool) (ids : list nat)        (* an AsyncResult of these futures *)
| Hub (single : bool) (ids : list nat)          (* an AsyncHubResult *)
| IndexError | KeyError | AttributeError.

Section get_result.
Context (history : list nat) (futures results : gset nat).   (* _futures: those not done; the keys of results *)

(** One round of the loop, 2376-2395; None: the history has no such entry *)
Definition add_job (j : job) (acc : list child * list nat) : option (list child * list nat) :=
  let '(fs, ms) := acc in
  let by_id m :=
    if decide (m ∈ futures) then Some (fs ++ [Name m], ms)                      (* 2380-2381 *)
    else if decide (m ∈ results) then Some (fs ++ [Future m], ms)               (* 2382-2388 *)
    else Some (fs, ms ++ [m]) in                                                (* 2389-2390 *)
  match j with
  | Index i => match py_index history i with Some m => by_id m | None => None end   (* 2377-2378 *)
  | Id m => by_id m
  | Handle hub ids => if hub then Some (fs, ms ++ ids) else Some (fs ++ map Future ids, ms)   (* 2391-2395 *)
  end.
Fixpoint add_jobs (js : list job) (acc : list child * list nat) : option (list child * list nat) :=
  match js with
  | [] => Some acc
  | j :: js => match add_job j acc with Some acc => add_jobs js acc | None => None end
  end.
(** asyncresult.py 84-89, 104-123: the messages of an AsyncResult made of [cs].  If the first one is an id all are taken to
    be ids; the others must then be ids too (a future is not a key of _futures or results). *)
Fixpoint all_names (cs : list child) : option (list nat) :=
  match cs with
  | [] => Some []
  | Name m :: cs => option_map (cons m) (all_names cs)
  | Future _ :: _ => None
  end.
Fixpoint all_futures (cs : list child) : option (list nat) :=
  match cs with
  | [] => Some []
  | Future m :: cs => option_map (cons m) (all_futures cs)
  | Name _ :: _ => None
  end.
Definition make (single : bool) (cs : list child) : answer :=
  match cs with
  | [] => IndexError
  | Name _ :: _ => match all_names cs with Some ids => Local single ids | None => KeyError end
  | Future _ :: _ => match all_futures cs with Some ids => Local single ids | None => AttributeError end
  end.
(** _asyncresult_from_jobs, 2367-2405 *)
Definition from_jobs (r : request) : answer :=
  let '(single, js) := match r with One j => (true, [j]) | Many js => (false, js) end in
  match add_jobs js ([], []) with
  | None => IndexError
  | Some (fs, ms) =>
      match ms with
      | m :: _ => Hub single (if single then [m] else ms)                       (* 2398-2401 *)
      | [] => make single (match fs with f :: _ => if single then [f] else fs | [] => [] end)   (* 2402-2405 *)
      end
  end.
(** get_result, 2153-2163; without an argument it is the last message *)
Definition get_result (r : option request) : answer :=
  from_jobs (match r with Some r => r | None => One (Index (-1)) end).
End get_result.

(** ** AsyncHubResult *)
Section hub_result.
Context {V F : Type} (deser : list F -> option (V * list F)).

Inductive final := Values (vs : list V) | Errors (es : list nat).
(** AsyncHubResult: msg_ids, owner, and the result once it is there *)
Record hub_result := HubResult { ids : list nat; owner : bool; result : option final }.

Inductive waited :=
| Ready                          (* True *)
| NotReady                       (* False: timeout *)
| NoSuch (m : nat)               (* the Hub's KeyError *)
| Failure (es : list nat)        (* result_status raised errors of tasks *)
| Broken                         (* result_status crashed *)
| PopKeyError.                   (* 1204-1205 *)

(** error.collect_exceptions and 1190-1197 *)
Fixpoint errors (os : list (option (outcome V))) : list nat :=
  match os with
  | [] => []
  | Some (Error e) :: os => e :: errors os
  | _ :: os => errors os
  end.
Fixpoint values (os : list (option (outcome V))) : list V :=
  match os with
  | [] => []
  | Some (Value v) :: os => v :: values os
  | _ :: os => values os
  end.
Definition conclude (os : list (option (outcome V))) : final :=
  match errors os with [] => Values (values os) | es => Errors es end.
(** 1204: pop the metadata of every id, of which there is one entry for each (made at asyncresult.py 110, client.py 2270);
    false is KeyError *)
Fixpoint pop_metadata (ms : list nat) (md : gset nat) : bool :=
  match ms with
  | [] => true
  | m :: ms => if decide (m ∈ md) then pop_metadata ms (md ∖ {[m]}) else false
  end.
(** 1205: pop every result; None is KeyError *)
Fixpoint pop_results (ms : list nat) (res : gmap nat (outcome V)) : option (gmap nat (outcome V)) :=
  match ms with
  | [] => Some res
  | m :: ms => match res !! m with Some _ => pop_results ms (delete m res) | None => None end
  end.
(** 1187-1207.  (If 1205 raises, the results popped before are lost: not modelled, all are there when this is reached.) *)
Definition finish (h : hub_result) (res : gmap nat (outcome V)) : waited * hub_result * gmap nat (outcome V) :=
  let h' := HubResult (ids h) (owner h) (Some (conclude (map (fun m => res !! m) (ids h)))) in
  if owner h then
    if pop_metadata (ids h) (list_to_set (ids h)) then
      match pop_results (ids h) res with
      | Some res' => (Ready, h', res')
      | None => (PopKeyError, h', res)
      end
    else (PopKeyError, h', res)
  else (Ready, h', res).
(** 1177-1186: the calls of result_status, one for each state in which the Hub is asked; [polls] ends when time is up *)
Fixpoint poll (polls : list (nat -> state V F)) (remote : list nat) (h : hub_result) (res : gmap nat (outcome V))
  : waited * hub_result * gmap nat (outcome V) :=
  match polls with
  | [] => (NotReady, h, res)
  | hub :: polls =>
      match result_status deser hub res remote false with
      | (Content pending _ _, res) => match pending with [] => finish h res | _ => poll polls remote h res end
      | (HubError m, res) => (NoSuch m, h, res)
      | (Raised es, res) => (Failure es, h, res)
      | (Crash, res) => (Broken, h, res)
      end
  end.
(** wait, 1164-1207.  [res]: client.results.  The ids are not outstanding in this client (1171-1172 wait for nothing). *)
Definition wait (polls : list (nat -> state V F)) (h : hub_result) (res : gmap nat (outcome V))
  : waited * hub_result * gmap nat (outcome V) :=
  match result h with
  | Some _ => (Ready, h, res)                                                    (* 1169-1170 *)
  | None =>
      match List.filter (fun m => negb (bool_decide (is_Some (res !! m)))) (ids h) with   (* 1174 *)
      | [] => finish h res
      | remote => poll polls remote h res
      end
  end.
End hub_result.
Arguments final V : clear implicits.
Arguments hub_result V : clear implicits.
