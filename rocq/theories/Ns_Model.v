(** Model of the engine namespaces and the DirectView / BroadcastView operations on them: client/view.py 752-880 (push, pull, scatter, gather), 1065-1165
    (BroadcastView.map) and util.py 307-327 (_push, _pull, run on the engine by apply). *)
From stdpp Require Import base gmap strings list.
From Verif Require Import Ns_Spec.
From Verif Require Map_Model Prelude.
From Coq Require Import ZArith Ascii.

(** ** On the engine *)
(** '_IP_PUSH_TMP_' followed by k underscores, util.py 310-312 *)
Fixpoint underscores (k : nat) : string := match k with 0 => EmptyString | S k => String "_"%char (underscores k) end.
Definition tmp_name (k : nat) : string := ("_IP_PUSH_TMP_" ++ underscores k)%string.
(** the loop of 311-312: the first that is not in the namespace; one of the first 1 + size is not *)
Definition fresh_tmp (ns : namespace) : string :=
  default "" (head (filter (fun x => ns !! x = None) (map tmp_name (seq 0 (S (size ns)))))).
(** the loop of 314-316: each name gets its value through the temporary one.  [exec(f"{name} = {tmp}")]: simplified, only plain names can be assigned to
    (Python also accepts "a.b" or "a[0]"), anything else is a SyntaxError *)
Fixpoint push_all (tmp : string) (ns : namespace) (kvs : list (string * val)) : namespace * reply :=
  match kvs with
  | [] => (ns, RVal VNone)
  | (k, v) :: kvs => let ns := <[tmp := v]> ns in
      if identifier k then push_all tmp (<[k := default VNone (ns !! tmp)]> ns) kvs else (ns, RErr SyntaxError)
  end.
(** _push, 307-318; [finally] pops the temporary name *)
Definition do_push (ns : namespace) (kvs : list (string * val)) : namespace * reply :=
  let tmp := fresh_tmp ns in let '(ns, r) := push_all tmp ns kvs in (delete tmp ns, r).

Section Engine.
(** eval also finds Python's builtins; functions and code of the user: what they return and do to the namespace *)
Context (builtins : namespace) (fn : nat -> list val -> val + nat) (code : nat -> namespace -> namespace * reply).

(** eval(key, user_ns), 325/327.  Simplified: of expressions only plain names *)
Definition eval (ns : namespace) (k : string) : val + problem :=
  if identifier k then match ns !! k with Some v => inl v | None => match builtins !! k with Some v => inl v | None => inr NameError end end else inr SyntaxError.
Definition answer (x : val + problem) : reply := match x with inl v => RVal v | inr p => RErr p end.
Fixpoint eval_all (ns : namespace) (l : list string) : list val + problem :=
  match l with
  | [] => inl []
  | k :: l => match eval ns k with inr p => inr p | inl v => match eval_all ns l with inr p => inr p | inl vs => inl (v :: vs) end end
  end.
(** ip.user_ns.pop for each name, view.py 1078-1081 *)
Fixpoint pop_all (ns : namespace) (l : list string) : namespace * (list val + problem) :=
  match l with
  | [] => (ns, inl [])
  | k :: l => match ns !! k with
      | None => (ns, inr UnknownKey)
      | Some v => let '(ns, r) := pop_all (delete k ns) l in (ns, match r with inl vs => inl (v :: vs) | inr p => inr p end)
      end
  end.
(** list(map(f, *sequences)), 1082; the first exception ends it *)
Fixpoint apply_all (f : nat) (rows : list (list val)) : list val + problem :=
  match rows with
  | [] => inl []
  | r :: rows => match fn f r with inr n => inr (UserError n) | inl v => match apply_all f rows with inr p => inr p | inl vs => inl (v :: vs) end end
  end.
Definition do_map (f : nat) (seqs : list val) : reply :=
  match mapM items_of seqs with
  | None => RErr TypeErr
  | Some ls => match apply_all f (Map_Model.py_zip ls) with inl vs => RVal (VSeq KList vs) | inr p => RErr p end
  end.

(** One request on the engine *)
Definition exec (r : req) (ns : namespace) : namespace * reply :=
  match r with
  | Push kvs => do_push ns kvs
  | Pull k => (ns, answer (eval ns k))
  | PullAll ks => (ns, match eval_all ns ks with inl vs => RVal (VSeq KList vs) | inr p => RErr p end)
  | MapOn f names => let '(ns, r) := pop_all ns names in (ns, match r with inl vs => do_map f vs | inr p => RErr p end)
  | Code c => code c ns
  end.

(** ** Client, channels, engines *)
Record state := State {
  sent : list msg;                 (* history *)
  queued : list msg;               (* on their way, or waiting at the engine *)
  ran : list msg;                  (* history, in the order in which they were executed *)
  spaces : nat -> namespace;
  replies : gmap nat reply;
  gone : list nat }.               (* dead engines *)
Definition start : state := State [] [] [] (fun _ => ∅) ∅ [].

(** the first message for engine e on channel c *)
Fixpoint first_for (e c : nat) (l : list msg) : option (msg * list msg) :=
  match l with
  | [] => None
  | x :: l => if decide (m_engine x = e /\ m_chan x = c) then Some (x, l) else match first_for e c l with Some (y, l') => Some (y, x :: l') | None => None end
  end.
(** Messages on one channel to one engine stay in order; the engine handles one after the other (engine/kernel.py).  Ids are numbers in order. *)
Definition step (s : state) (ev : event) : state :=
  match ev with
  | Send e c r => let m := Msg e c (length (sent s)) r in State (sent s ++ [m]) (queued s ++ [m]) (ran s) (spaces s) (replies s) (gone s)
  | Run e c => if decide (e ∈ gone s) then s else
      match first_for e c (queued s) with
      | None => s
      | Some (m, q) => let '(ns, r) := exec (m_req m) (spaces s e) in
          State (sent s) q (ran s ++ [m]) (fun x => if decide (x = e) then ns else spaces s x) (<[m_id m := r]> (replies s)) (gone s)
      end
  | Die e => State (sent s) (queued s) (ran s) (spaces s) (replies s) (e :: gone s)
  end.
Definition run (l : list event) : state := foldl step start l.

(** ** The view's operations: the messages they send *)
(** apply to each target, view.py 537-616 *)
Definition to_all (targets : list nat) (c : nat) (r : req) : list event := map (fun e => Send e c r) targets.
(** scatter, 800-837: one push per target *)
Definition slice (d : Map_Model.dist) (v : val) (i q : nat) : option val :=
  match v with
  | VSeq k l => match Map_Model.getPartition d l (Z.of_nat i) (Z.of_nat q) (Z.of_nat (length l)) with Prelude.Ok p => Some (VSeq k p) | Prelude.Raise _ => None end
  | _ => None
  end.
(** flatten: a partition of one item is replaced by the item, 824-827 *)
Definition flattened (flatten : bool) (p : val) : val := match p with VSeq _ [x] => if flatten then x else p | _ => p end.
Fixpoint scatter_from (d : Map_Model.dist) (flatten : bool) (key : string) (v : val) (c q i : nat) (targets : list nat) : option (list event) :=
  match targets with
  | [] => Some []
  | e :: targets => match slice d v i q, scatter_from d flatten key v c q (S i) targets with
      | Some p, Some r => Some (Send e c (Push [(key, flattened flatten p)]) :: r) | _, _ => None end
  end.
Definition scatter (d : Map_Model.dist) (flatten : bool) (key : string) (v : val) (c : nat) (targets : list nat) : option (list event) :=
  scatter_from d flatten key v c (length targets) 0 targets.
(** gather, 839-864: pulls the key from each target *)
Definition gather (key : string) (c : nat) (targets : list nat) : list event := to_all targets c (Pull key).

(** the result of several messages: all the values, or an error (AsyncResult.get) *)
Fixpoint collect (s : state) (ids : list nat) : option (list val + problem) :=
  match ids with
  | [] => Some (inl [])
  | i :: ids => match replies s !! i, collect s ids with
      | Some (RVal v), Some (inl vs) => Some (inl (v :: vs))
      | Some (RErr p), Some _ => Some (inr p)
      | Some (RVal _), Some (inr p) => Some (inr p)
      | _, _ => None end
  end.
(** joinPartitions, map.py 62-94: the type of the first part decides *)
Definition join (d : Map_Model.dist) (parts : list val) : option val :=
  match parts with
  | [] => None
  | VSeq KList _ :: _ | VSeq KTuple _ :: _ =>
      match mapM items_of parts with None => None | Some ls => match Map_Model.joinPartitions d ls with Prelude.Ok l => Some (VSeq KList l) | Prelude.Raise _ => None end end
  | _ => Some (VSeq KList parts)
  end.
(** AsyncMapResult.get of a gather or of a map: None while replies are missing *)
Definition gathered (d : Map_Model.dist) (s : state) (ids : list nat) : option (val + problem) :=
  match collect s ids with
  | None => None
  | Some (inr p) => Some (inr p)
  | Some (inl parts) => match join d parts with Some v => Some (inl v) | None => Some (inr TypeErr) end
  end.

(** BroadcastView.map, 1083-1165: scatter each sequence under a new name, then the task.  [key] is the random part of the names. *)
Fixpoint decimal (fuel n : nat) : string :=
  match fuel with 0 => "" | S fuel => ((if (n <? 10)%nat then "" else decimal fuel (n / 10)%nat) ++ String (Ascii.ascii_of_nat (48 + n mod 10)%nat) EmptyString)%string end.
Definition seq_name (key : string) (i : nat) : string := ("_seq_" ++ key ++ "_" ++ decimal (S i) i)%string.
Fixpoint scatter_seqs (key : string) (i : nat) (c : nat) (targets : list nat) (seqs : list val) : option (list event) :=
  match seqs with
  | [] => Some []
  | v :: seqs => match scatter Map_Model.DistBlock false (seq_name key i) v c targets, scatter_seqs key (S i) c targets seqs with
      | Some a, Some b => Some (a ++ b) | _, _ => None end
  end.
Definition map_names (key : string) (n : nat) : list string := map (seq_name key) (seq 0 n).
Definition broadcast_map (key : string) (f : nat) (c : nat) (targets : list nat) (seqs : list val) : option (list event) :=
  match seqs with
  | [] => None                                 (* scatter_chunk_sizes is not bound: NameError *)
  | _ => match scatter_seqs key 0 c targets seqs with
         | Some a => Some (a ++ to_all targets c (MapOn f (map_names key (length seqs)))) | None => None end
  end.
End Engine.
