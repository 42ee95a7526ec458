(** Model of ipyparallel/client/asyncresult.py (AsyncResult.get, get_dict, __iter__, progress; AsyncMapResult), of
    error.collect_exceptions and futures.multi_future.
    Simplifications: an exception that came from an engine is its ename and a number for the rest; the children of an
    AsyncResult are numbered; callbacks of a future are atomic (two threads do not run them at the same time); waiting
    without a timeout ends when the awaited result arrives; AsyncHubResult and output are not modelled. *)
From Coq Require Import List Arith String Bool.
From Verif Require Import Async_Spec.
From Verif Require Prelude Map_Model.
Import ListNotations.

(* ------------------------------------------------------------------ futures.py *)
Definition mem (x : nat) (l : list nat) : bool := existsb (Nat.eqb x) l.
Definition without (x : nat) (l : list nat) : list nat := filter (fun y => negb (Nat.eqb x y)) l.

Section Futures.
Context {V : Type} (result_of : nat -> V).        (* what each child ends with *)
(** futures.py 84-120: the variables of multi_future *)
Record mf := MF { todo : list nat;                (* children that the loop of 115-118 has still to visit *)
                  listening : list nat; done : list nat; unfinished : list nat; resolved : option (list V) }.
(** 92-96: a future without children is resolved at once *)
Definition mf_start (children : list nat) : mf :=
  MF children [] [] (nodup Nat.eq_dec children) (match children with [] => Some [] | _ => None end).
(** 98-112: callback *)
Definition callback (children : list nat) (s : mf) (c : nat) : mf :=
  let un := without c (unfinished s) in                                                     (* 99 *)
  MF (todo s) (listening s) (done s) un
     (match un, resolved s with [], None => Some (map result_of children) | _, r => r end).  (* 100-112 *)
Definition mf_step (children : list nat) (s : mf) (e : event) : mf :=
  match e with
  | Look => match todo s with                                                               (* 115-118 *)
            | [] => s
            | c :: r =>
                if mem c (listening s) then MF r (listening s) (done s) (unfinished s) (resolved s)
                else let s := MF r (listening s ++ [c]) (done s) (unfinished s) (resolved s) in
                     if mem c (done s) then callback children s c else s                    (* 76-81 *)
            end
  | Arrive c => let s := MF (todo s) (listening s) (done s ++ [c]) (unfinished s) (resolved s) in
                if mem c (listening s) then callback children s c else s
  end.
Definition mf_run (children : list nat) (es : list event) : mf := fold_left (mf_step children) es (mf_start children).
End Futures.

(* ------------------------------------------------------------------ error.py *)
(** What get() and iteration raise *)
Inductive exc := TimeoutError | CompositeError (elist : list (string * nat)) | RemoteError (ename : string) (about : nat)
               | OtherError (n : nat) | AttributeError | ValueError (njobs engine : nat) | TypeError | IndexError.
Inductive answer (A : Type) := Ret (a : A) | Raise (e : exc).
Arguments Ret {A} a. Arguments Raise {A} e.

(** error.py 224-249: collect_exceptions; None: ev.elist (239) raises AttributeError, [ev] is a string *)
Fixpoint elist_of {V} (rs : list (outcome V)) : option (list (string * nat)) :=
  match rs with
  | [] => Some []
  | Remote en a :: rs => if String.eqb en "CompositeError" then None                       (* 238-240 *)
                         else option_map (cons (en, a)) (elist_of rs)                      (* 242 *)
  | _ :: rs => elist_of rs
  end.
Definition collect_exceptions {V} (rs : list (outcome V)) : answer (list (outcome V)) :=
  match elist_of rs with
  | None => Raise AttributeError
  | Some [] => Ret rs                                                                      (* 243-244 *)
  | Some el => Raise (CompositeError el)
  end.

(* ------------------------------------------------------------------ asyncresult.py *)
Section AsyncResult.
Context {V : Type}.
(** What get() gives: one result or a list *)
Inductive shape := One (o : outcome V) | Many (os : list (outcome V)).

(** 538-546 *)
Definition _collect_exceptions (return_exceptions : bool) (rs : list (outcome V)) : answer (list (outcome V)) :=
  if return_exceptions then Ret rs else collect_exceptions rs.
(** 297-306: _reconstruct_result *)
Definition _reconstruct_result (single : bool) (rs : list (outcome V)) : answer shape :=
  if single then match rs with r :: _ => Ret (One r) | [] => Raise IndexError end else Ret (Many rs).
(** 513-536: _resolve_result *)
Definition _resolve_result (single return_exceptions : bool) (rs : list (outcome V)) : answer shape :=
  if single then match rs with
                 | Remote en a :: _ => Raise (RemoteError en a)
                 | Other n :: _ => Raise (OtherError n)
                 | _ => _reconstruct_result single rs
                 end
  else match _collect_exceptions return_exceptions rs with Ret rs => _reconstruct_result single rs | Raise e => Raise e end.
(** 308-371: get, when the wait is over; [fut]: the future of all children; [arg]: the argument return_exceptions *)
Definition get (single return_exceptions : bool) (arg : option bool) (fut : option (list (outcome V))) : answer shape :=
  match fut with
  | None => Raise TimeoutError                                                             (* 371 *)
  | Some rs =>
      match _resolve_result single return_exceptions rs with
      | Ret r => Ret r                                                                     (* 353-354 *)
      | Raise e => if match arg with Some b => b | None => return_exceptions end           (* 348-350 *)
                   then _reconstruct_result single rs else Raise e                         (* 356-360 *)
      end
  end.

(** 567-588: get_dict, for the engines on which the tasks ran *)
Fixpoint build_dict (all ids : list nat) (rs : list (outcome V)) (d : list (nat * outcome V)) : answer (list (nat * outcome V)) :=
  match ids, rs with
  | i :: ids, r :: rs =>
      if existsb (fun e => Nat.eqb i (fst e)) d then Raise (ValueError (count_occ Nat.eq_dec all i) i)     (* 580-584 *)
      else build_dict all ids rs (d ++ [(i, r)])
  | _, _ => Ret d
  end.
Definition get_dict (single return_exceptions : bool) (fut : option (list (outcome V))) (ids : list nat) : answer (list (nat * outcome V)) :=
  match get single return_exceptions None fut with
  | Raise e => Raise e
  | Ret (One r) => build_dict ids ids [r] []
  | Ret (Many rs) => build_dict ids ids rs []
  end.

(** What an iterator yields before it ends or raises *)
Definition stream (A : Type) := (list A * option exc)%type.
Definition yields {A} (l : list A) (s : stream A) : stream A := (l ++ fst s, snd s).
(** 728-743: __iter__; [ready]: all results are there when the iteration starts *)
Fixpoint iter_children (return_exceptions : bool) (rs : list (outcome V)) : stream (outcome V) :=
  match rs with
  | [] => ([], None)
  | r :: rs => match _collect_exceptions return_exceptions [r] with
               | Ret _ => yields [r] (iter_children return_exceptions rs)
               | Raise e => ([], Some e)
               end
  end.
Definition iter (single return_exceptions ready : bool) (rs : list (outcome V)) : stream (outcome V) :=
  if single then ([], Some TypeError)                                                      (* 729-730 *)
  else match get single return_exceptions None (if ready then Some rs else None) with      (* 732 *)
       | Raise TimeoutError => iter_children return_exceptions rs                          (* 733-740 *)
       | Raise e => ([], Some e)
       | Ret (Many l) => (l, None)                                                         (* 743 *)
       | Ret (One _) => ([], None)
       end.
End AsyncResult.

(** 746-752 and 792-800: __len__ and progress; [sizes]: the recorded chunk sizes *)
Definition chunk_size (sizes : nat -> option nat) (m : nat) : nat := match sizes m with Some n => n | None => 1 end.
Definition count_chunks (sizes : nat -> option nat) (ms : list nat) : nat := fold_right (fun m n => chunk_size sizes m + n) 0 ms.
Definition len (sizes : nat -> option nat) (ms : list nat) : nat := count_chunks sizes ms.
Definition progress (sizes : nat -> option nat) (ms outstanding : list nat) : nat :=
  len sizes ms - count_chunks sizes (filter (fun m => mem m outstanding) (nodup Nat.eq_dec ms)).

Section AsyncMapResult.
Context {I : Type} (d : Map_Model.dist).
(** The results of the children are lists of items; [item]: what is in the list that the user gets *)
Definition item := outcome I.
(** What get() returns: a list of items or, in one case, the list of the results of the children as they are *)
Inductive gathered := Items (l : list item) | AsIs (rs : list (outcome (list I))).
(** 1091-1101: the first branch of _reconstruct_result *)
Definition flat (rs : list (outcome (list I))) : list item :=
  flat_map (fun r => match r with Val l => map Val l | Remote en a => [Remote en a] | Other n => [Other n] end) rs.
Definition failed (r : outcome (list I)) : bool := match r with Val _ => false | _ => true end.
Definition parts_of (rs : list (outcome (list I))) : list (list I) := flat_map (fun r => match r with Val l => [l] | _ => [] end) rs.
(** map.py 62-74 and 87-111: joinPartitions when there may be exceptions among the partitions *)
Definition join (rs : list (outcome (list I))) : answer gathered :=
  match rs with
  | [] => Raise IndexError
  | Val p0 :: _ =>
      if existsb failed rs then
        match d, p0 with
        | Map_Model.DistRR, [] => Ret (Items [])                                           (* 109: no rounds *)
        | _, _ => Raise TypeError                                                          (* an exception is not iterable and has no len *)
        end
      else match Map_Model.joinPartitions d (parts_of rs) with
           | Prelude.Ok l => Ret (Items (map Val l))
           | Prelude.Raise _ => Raise IndexError
           end
  | _ => Ret (AsIs rs)                                                                     (* 74, 94 *)
  end.
(** 1088-1102: _reconstruct_result *)
Definition map_reconstruct (return_exceptions : bool) (rs : list (outcome (list I))) : answer gathered :=
  if return_exceptions && existsb failed rs then Ret (Items (flat rs)) else join rs.
(** 513-536: _resolve_result.  None: the callback raises (in the else clause, 536) and nothing is resolved *)
Definition map_resolve (return_exceptions : bool) (rs : list (outcome (list I))) : option (answer gathered) :=
  match _collect_exceptions return_exceptions rs with
  | Raise e => Some (Raise e)
  | Ret rs => match map_reconstruct return_exceptions rs with Ret g => Some (Ret g) | Raise _ => None end
  end.
(** 308-371: get; a result that is never resolved is one that is not ready *)
Definition map_get (return_exceptions : bool) (arg : option bool) (fut : option (list (outcome (list I)))) : answer gathered :=
  match fut with
  | None => Raise TimeoutError
  | Some rs => match map_resolve return_exceptions rs with
               | None => Raise TimeoutError
               | Some (Ret g) => Ret g
               | Some (Raise e) => if match arg with Some b => b | None => return_exceptions end
                                   then map_reconstruct return_exceptions rs else Raise e
               end
  end.
(** 1109-1118: _yield_child_results *)
Definition child_items (return_exceptions : bool) (r : outcome (list I)) : stream item :=
  match r with
  | Val l => (map Val l, None)
  | Remote en a => match _collect_exceptions return_exceptions [Remote (V := I) en a] with Ret l => (l, None) | Raise e => ([], Some e) end
  | Other n => match _collect_exceptions return_exceptions [Other (V := I) n] with Ret l => (l, None) | Raise e => ([], Some e) end
  end.
Fixpoint chain (return_exceptions : bool) (rs : list (outcome (list I))) : stream item :=
  match rs with
  | [] => ([], None)
  | r :: rs => match child_items return_exceptions r with
               | (l, None) => yields l (chain return_exceptions rs)
               | (l, Some e) => (l, Some e)
               end
  end.
(** Iterating over the results of the children themselves; lists among them are items here: not followed further *)
Definition as_is (rs : list (outcome (list I))) : stream item :=
  (flat_map (fun r => match r with Val _ => [] | Remote en a => [Remote en a] | Other n => [Other n] end) rs, None).
(** 1121-1133: _ordered_iter *)
Definition ordered_iter (return_exceptions ready : bool) (rs : list (outcome (list I))) : stream item :=
  match map_get return_exceptions None (if ready then Some rs else None) with
  | Raise TimeoutError => chain return_exceptions rs                                       (* 1125-1130 *)
  | Raise e => ([], Some e)
  | Ret (Items l) => (l, None)                                                             (* 1133 *)
  | Ret (AsIs rs) => as_is rs
  end.

(** 1136-1150: _unordered_iter.  [arrives c]: when the result of child [c] arrives; the [k]-th wait is entered at time
    [now k] and returns the results that have arrived then, or else the first to arrive; [order]: the order in
    which a set is visited. *)
Context (result_of : nat -> outcome (list I)) (arrives : nat -> nat) (now : nat -> nat) (order : list nat -> list nat).
Definition earliest (pending : list nat) : nat := match pending with [] => 0 | c :: r => fold_left (fun t c => Nat.min t (arrives c)) r (arrives c) end.
Fixpoint visits (rounds k : nat) (pending : list nat) : list nat :=
  match rounds, pending with
  | S rounds, _ :: _ =>
      let t := Nat.max (now k) (earliest pending) in
      let done := filter (fun c => Nat.leb (arrives c) t) pending in
      order done ++ visits rounds (S k) (filter (fun c => negb (Nat.leb (arrives c) t)) pending)
  | _, _ => []
  end.
Definition unordered_iter (return_exceptions ready : bool) (children : list nat) : stream item :=
  match map_get return_exceptions None (if ready then Some (map result_of children) else None) with
  | Raise TimeoutError => chain return_exceptions (map result_of (visits (List.length children) 0 children))
  | Raise e => ([], Some e)
  | Ret (Items l) => (l, None)
  | Ret (AsIs rs) => as_is rs
  end.
End AsyncMapResult.
