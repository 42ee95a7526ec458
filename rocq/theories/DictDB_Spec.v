(** What the task database should do: queries in the manner of MongoDB, and a history of operations
    on a map from msg_id to record.  Independent of the model. *)
From Coq Require Import List ZArith String Bool.
From Verif Require Import Prelude PyValue.
Import ListNotations.
Local Open Scope string_scope.

(** A query: for some fields, a value to be equal to or a dict of operators.  [Unknown] is any other key. *)
Inductive op := OLt | OGt | OEq | ONe | OLte | OGte | OIn | ONin | OAll | OMod | OExists | OGlob | OUnknown.
Inductive clause := CVal (v : value) | COps (l : list (op * value)).
Definition query := list (string * clause).
Definition record := dict value.

(** ** What the operators say. *)
Definition before (a b : value) : Prop :=
  match a, b with
  | VInt x, VInt y => (x < y)%Z
  | VStr x, VStr y => String.compare x y = Lt
  | VTime x, VTime y => (x < y)%Z
  | VNaive x, VNaive y => (x < y)%Z
  | _, _ => False
  end.
Definition equal (a b : value) : Prop := py_eq a b = true.
Definition inside (a b : value) : Prop := match b with VList l => exists x, In x l /\ equal a x | _ => py_in a b = Ok true end.

Section Glob.
Context (glob : string -> string -> bool).    (* shell-style pattern matching, fnmatch of the Python library *)
Definition says (o : op) (a b : value) : Prop :=
  match o with
  | OLt => before a b
  | OGt => before b a
  | OLte => before a b \/ (equal a b)
  | OGte => before b a \/ (equal a b)
  | OEq => equal a b
  | ONe => ~ equal a b
  | OIn => inside a b
  | ONin => ~ inside a b
  | OAll => exists l, b = VList l /\ forall x, In x l -> inside x a     (* every one of b is in the field *)
  | OMod => exists x d r rest, a = VInt x /\ b = VList (VInt d :: VInt r :: rest) /\ (x mod d = r)%Z
  | OExists => if truthy b then a <> VNone else a = VNone
  | OGlob => exists x p, a = VStr x /\ b = VStr p /\ glob x p = true
  | OUnknown => False
  end.
(** A field that is missing counts as None. *)
Definition field (r : record) (k : string) : value := match dget k r with Some v => v | None => VNone end.
(** A time without a timezone is taken to be local (here: the same instant). *)
Definition aware (v : value) : value := match v with VNaive t => VTime t | v => v end.
Definition matches (q : query) (r : record) : Prop :=
  forall k c, In (k, c) q ->
  match c with
  | CVal v => equal (aware (field r k)) (aware v)
  | COps l => forall o b, In (o, b) l -> says o (field r k) (aware b)
  end.
End Glob.

(** [selects P l l']: [l'] is what is left of [l], in order, when exactly the elements with [P] are kept. *)
Inductive selects {A} (P : A -> Prop) : list A -> list A -> Prop :=
| s_nil : selects P [] []
| s_keep x l l' : P x -> selects P l l' -> selects P (x :: l) (x :: l')
| s_skip x l l' : ~ P x -> selects P l l' -> selects P (x :: l) l'.
(** The part of a record with the given keys. *)
Definition part_of (keys : list string) (r r' : record) : Prop :=
  forall k, dget k r' = if existsb (String.eqb k) ("msg_id" :: keys) then dget k r else None.

(** Queries for which the operators are the advertised ones: without $gt and $all, and a value to be
    equal to only in the last clause (or equal to the one in the last clause). *)
Definition supported (q : query) : Prop :=
  (forall k l o b, In (k, COps l) q -> In (o, b) l -> o <> OGt /\ o <> OAll) /\
  (forall k v, In (k, CVal v) q -> exists q' k', q = (q' ++ [(k', CVal v)])%list).

(** Queries that cannot raise. *)
Definition total_op (o : op) (b : value) : Prop :=
  match o with OEq | ONe | OExists => True | OIn | ONin => exists l, b = VList l | _ => False end.

(** ** A history of operations. *)
Inductive dbop :=
| OpAdd (m : string) (r : record)
| OpUpdate (m : string) (r : record)
| OpDrop (m : string)
| OpDropMatching (q : query).

(** Times are stored with a timezone. *)
Definition date_keys : list string := ["submitted"; "started"; "completed"; "received"].
Definition stored (r : record) : record :=
  map (fun kv => (fst kv, if existsb (String.eqb (fst kv)) date_keys then aware (snd kv) else snd kv)) r.
Section History.
Context (glob : string -> string -> bool).
(** [latest h m o]: after the operations [h] (newest first, all of which returned normally) the id [m]
    has the record [o], or none. *)
Inductive latest : list dbop -> string -> option record -> Prop :=
| l_start m : latest [] m None
| l_add h m r : latest (OpAdd m r :: h) m (Some (stored r))
| l_add_other h m m' r o : m <> m' -> latest h m o -> latest (OpAdd m' r :: h) m o
| l_update h m r old : latest h m (Some old) -> latest (OpUpdate m r :: h) m (Some (dupdate old (stored r)))
| l_update_other h m m' r o : m <> m' -> latest h m o -> latest (OpUpdate m' r :: h) m o
| l_drop h m : latest (OpDrop m :: h) m None
| l_drop_other h m m' o : m <> m' -> latest h m o -> latest (OpDrop m' :: h) m o
| l_match h m q r : latest h m (Some r) -> matches glob q r -> latest (OpDropMatching q :: h) m None
| l_match_not h m q r : latest h m (Some r) -> ~ matches glob q r -> latest (OpDropMatching q :: h) m (Some r)
| l_match_none h m q : latest h m None -> latest (OpDropMatching q :: h) m None.
End History.

(** Calls as the Hub makes them: dicts have unique keys, a record carries its own msg_id and a
    (possibly empty) submission time, and an update does not change the msg_id. *)
Definition well_formed (o : dbop) : Prop :=
  match o with
  | OpAdd m r => NoDup (dkeys r) /\ dget "msg_id" r = Some (VStr m) /\ In "submitted" (dkeys r)
  | OpUpdate m r => NoDup (dkeys r) /\ (forall v, dget "msg_id" r = Some v -> v = VStr m)
  | OpDropMatching q => supported q
  | OpDrop _ => True
  end.

(** ** Sizes *)
Definition buffer_bytes (v : value) : Z :=
  match v with VList l => fold_right (fun b n => (Z.of_nat (match b with VBytes x => List.length x | _ => 0 end) + n)%Z) 0%Z l | _ => 0%Z end.
(** Bytes in the buffers of a record. *)
Definition record_bytes (r : record) : Z := (buffer_bytes (field r "buffers") + buffer_bytes (field r "result_buffers"))%Z.
(** Submission time, if there is one. *)
Definition submitted_at (r : record) : option Z := match field r "submitted" with VTime t => Some t | _ => None end.

(** The records that would be stored after [h] if nothing were evicted fit into the limits. *)
Definition fits (glob : string -> string -> bool) (size : Z) (count : nat) (h : list dbop) : Prop :=
  forall l : list (string * record), NoDup (map fst l) -> (forall m r, In (m, r) l -> latest glob h m (Some r)) ->
  (List.length l <= count)%nat /\ (fold_right (fun mr n => (record_bytes (snd mr) + n)%Z) 0%Z l <= size)%Z.
Definition always_fits glob size count (h : list dbop) : Prop := forall h1 h2, h = (h1 ++ h2)%list -> fits glob size count h2.

(** Every record keeps a submission time. *)
Definition is_time (v : value) : Prop := match v with VTime _ | VNaive _ => True | _ => False end.
Definition dated_op (o : dbop) : Prop :=
  match o with
  | OpAdd _ r => exists v, dget "submitted" r = Some v /\ is_time v
  | OpUpdate _ r => forall v, dget "submitted" r = Some v -> is_time v
  | _ => True
  end.
