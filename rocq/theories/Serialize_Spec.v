(** What a user sees of serialization: Python objects, and when an object that comes back counts as
    the same.  Independent of the code. *)
From Coq Require Import List Arith String Bool Permutation.
From Verif Require Import Prelude.
Import ListNotations.

(** The three kinds of containers whose elements are looked at, and the kinds of objects that have a
    data buffer.  [pickled]: an array that has no usable buffer (e.g. of objects). *)
Inductive seqkind := KList | KTuple | KSet.
Inductive datakind := KBytes | KMemoryview | KArray (shape_dtype : nat) (pickled : bool).

(** A chunk of data held in memory; [mem]: a memoryview, which cannot be pickled. *)
Inductive buffer := B (mem : bool) (b : list nat).

(** Python objects.  [Atom n ok]: an object that the pickle module treats as a whole (number, string,
    instance, importable function ...), [ok]: it can be pickled.  [Fun]: a function that is not
    importable: code (with name and module), defaults, keyword defaults, contents of the closure.
    The last three are the objects that stand for others inside a message. *)
Inductive obj :=
| Atom (n : nat) (ok : bool)
| Data (k : datakind) (b : list nat)
| Seq (k : seqkind) (l : list obj)
| Dict (l : list (string * obj))
| Fun (code : nat) (defaults : list obj) (kwdefaults : list (string * obj)) (closure : list obj)
| Part (f : obj) (args : list obj) (kws : list (string * obj))
| CData (k : datakind) (bufs : list (option buffer))
| CFun (code : nat) (defaults : list obj) (kwdefaults : list (string * obj)) (closure : list obj)
| CPart (f : obj) (args : list obj) (kws : list (string * obj)) (bufs : list (option buffer))
        (arg_counts : list nat) (kw_counts : list (string * nat)).

(** Objects of the user: none of the stand-ins, and dicts with unique keys. *)
Inductive plain : obj -> Prop :=
| p_atom n ok : plain (Atom n ok)
| p_data k b : plain (Data k b)
| p_seq k l : Forall plain l -> plain (Seq k l)
| p_dict l : NoDup (map fst l) -> Forall (fun kv => plain (snd kv)) l -> plain (Dict l)
| p_fun c d kd cl : Forall plain d -> Forall (fun kv => plain (snd kv)) kd -> Forall plain cl -> plain (Fun c d kd cl)
| p_part f a k : plain f -> Forall plain a -> NoDup (map fst k) -> Forall (fun kv => plain (snd kv)) k -> plain (Part f a k).

(** The same object: identical, except that the order of a dict or a set does not count. *)
Definition same (o o' : obj) : Prop :=
  match o with
  | Dict l => exists l', o' = Dict l' /\ Permutation l l'
  | Seq KSet l => exists l', o' = Seq KSet l' /\ Permutation l l'
  | _ => o' = o
  end.

(** What travels: pickles and raw data. *)
Inductive frame := Pickled (o : obj) | Raw (b : list nat).

(** A set whose data travel without mixing up: at most one piece of raw data, or elements that are all
    of one kind of data (all bytes, say). *)
Definition unmixed (o : obj) (fs : list frame) : Prop :=
  forall l, o = Seq KSet l -> length fs <= 2 \/ exists k, Forall (fun x => exists b, x = Data k b) l.
