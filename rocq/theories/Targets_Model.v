(** Model of Client._build_targets, ipyparallel/client/client.py 693-728, with the registry it reads:
    _update_engines (661-668), _unregister_engine (856-862) and ids (1358-1361); and the targets of views:
    direct_view (2079-2084), DirectView._really_apply (client/view.py 578-582).
    Simplifications: engine ids in notifications are natural numbers and uuids are never ids, so the
    ReverseDict of engines is a plain map from ids to uuids (see RDict_Model); pure ZMQ scheduling is left
    out.  No engine comes or goes during the call; for that see [racing] below. *)
From stdpp Require Import base gmap list sorting strings.
From Coq Require Import ZArith Ascii.
From Verif Require Import Targets_Spec.

Section model.
Context {U : Type}.

Record registry := Reg { ids : list nat; engines : gmap nat U }.
Definition empty_registry : registry := Reg [] ∅.
(** list.remove: the first occurrence *)
Fixpoint remove (x : nat) (l : list nat) : list nat :=
  match l with [] => [] | y :: r => if decide (x = y) then r else y :: remove x r end.
Definition handle (ev : event U) (s : registry) : registry :=
  match ev with
  | Register e u =>                                                             (* 663-668 *)
      let l := if decide (is_Some (engines s !! e)) then ids s else ids s ++ [e] in
      Reg (merge_sort Nat.le l) (<[e := u]> (engines s))
  | Unregister e =>                                                             (* 860-862 *)
      if decide (e ∈ ids s) then Reg (remove e (ids s)) (delete e (engines s)) else s
  end.
Definition run (h : list (event U)) : registry := fold_left (fun s ev => handle ev s) h empty_registry.

(** str.lower *)
Definition lower_char (c : Ascii.ascii) : Ascii.ascii :=
  let n := Ascii.nat_of_ascii c in if Nat.leb 65 n && Nat.leb n 90 then Ascii.ascii_of_nat (Nat.add n 32) else c.
Fixpoint lower (s : string) : string := match s with EmptyString => EmptyString | String c s => String (lower_char c) (lower s) end.

(** list[i] *)
Definition item {A} (l : list A) (i : Z) : option A :=
  let j := if (i <? 0)%Z then (i + Z.of_nat (length l))%Z else i in
  if (j <? 0)%Z then None else l !! Z.to_nat j.

(** slice.indices: CPython's PySlice_AdjustIndices *)
Definition adjust (n step x : Z) : Z :=
  if (x <? 0)%Z then (if (x + n <? 0)%Z then (if (step <? 0)%Z then -1 else 0) else x + n)%Z
  else if (n <=? x)%Z then (if (step <? 0)%Z then n - 1 else n)%Z else x.
(** The elements of range(start, stop, step) *)
Definition range_length (a b step : Z) : Z :=
  (if 0 <? step then (if a <? b then (b - a - 1) / step + 1 else 0)
   else if b <? a then (a - b - 1) / (- step) + 1 else 0)%Z.
Definition range (a b step : Z) : list Z := map (fun k => a + Z.of_nat k * step)%Z (seq 0 (Z.to_nat (range_length a b step))).
(** list(range(n)[slice]); None if step is 0 *)
Definition slice_range (n : Z) (start stop step : option Z) : option (list Z) :=
  let s := default 1%Z step in
  if (s =? 0)%Z then None
  else let a := match start with Some x => adjust n s x | None => if (s <? 0)%Z then (n - 1)%Z else 0%Z end in
       let b := match stop with Some x => adjust n s x | None => if (s <? 0)%Z then (-1)%Z else n end in
       Some (range a b s).

Fixpoint all_some {A} (l : list (option A)) : option (list A) :=
  match l with
  | [] => Some []
  | Some x :: l => match all_some l with Some r => Some (x :: r) | None => None end
  | None :: _ => None
  end.
(** self._engines[t] *)
Definition uuid (s : registry) (t : Z) : option U := if (t <? 0)%Z then None else engines s !! Z.to_nat t.
(** 728 *)
Definition finish (s : registry) (targets : list Z) : outcome U :=
  match all_some (map (uuid s) targets) with Some us => Chosen us targets | None => KeyError end.

(** 693-728 *)
Definition build_targets (s : registry) (targets : target) : outcome U :=
  let all := map Z.of_nat (ids s) in
  match ids s with
  | [] => NoEnginesRegistered
  | _ =>
      match targets with
      | TNone => finish s all
      | TStr x => if bool_decide (lower x = "all"%string) then finish s all else TypeError
      | TInt z =>
          match (if (z <? 0)%Z then item all z else Some z) with
          | None => IndexError
          | Some z => if bool_decide (z ∈ all) then finish s [z] else IndexError
          end
      | TSlice a b c =>
          match slice_range (Z.of_nat (length (ids s))) a b c with
          | None => ValueError
          | Some indices => match all_some (map (item all) indices) with Some l => finish s l | None => IndexError end
          end
      | TList l => finish s l
      | TOther => TypeError
      end
  end.

(** ** Views *)
(** DirectView.targets: 'all', an id or a list *)
Inductive view_targets := VAll | VOne (z : Z) | VList (l : list Z).
(** direct_view, 2079-2084 *)
Definition direct_view (s : registry) (t : target) : outcome U * option view_targets :=
  match t with
  | TStr "all" => (Chosen [] [], Some VAll)
  | _ => match build_targets s t with
         | Chosen us l => (Chosen us l, match t, l with
                                        | TInt _, x :: _ => Some (VOne x)
                                        | TInt _, [] => None
                                        | _, _ => Some (VList l)
                                        end)
         | e => (e, None)
         end
  end.
(** Where a call of the view goes, view.py 578-582 *)
Definition view_call (s : registry) (v : view_targets) : outcome U :=
  build_targets s (match v with VAll => TStr "all" | VOne z => TInt z | VList l => TList l end).

(** ** With the notification thread: the case 'all', 705 and 728
    The list is read element by element, and copied afterwards; before each of these steps the thread
    that handles notifications may have unregistered some engines ([gone], one list for each step), which
    removes them from the same list. *)
Definition unregister_all (es : list nat) (s : registry) : registry := fold_left (fun s e => handle (Unregister e) s) es s.
Fixpoint racing (fuel i : nat) (gone : list (list nat)) (s : registry) (done : list U) : outcome U :=
  match fuel with
  | 0 => KeyError
  | S fuel =>
      let s := unregister_all (default [] (head gone)) s in
      match ids s !! i with
      | None => let s := unregister_all (default [] (head (tail gone))) s in Chosen done (map Z.of_nat (ids s))
      | Some t => match engines s !! t with
                  | Some u => racing fuel (S i) (tail gone) s (done ++ [u])
                  | None => KeyError
                  end
      end
  end.
Definition build_all_racing (gone : list (list nat)) (s : registry) : outcome U := racing (S (length (ids s))) 0 gone s [].
End model.
