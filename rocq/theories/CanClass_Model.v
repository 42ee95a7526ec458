(** Classes that are sent: ipyparallel/serialize/canning.py, and the making of
    a class (type(name, bases, dict), of Python itself: the C3 order).
    Simplified: the values of attributes are taken to arrive as they are (what
    canning does to values is in Serialize_Model); classes that are not of
    [__main__] are imported, and are the same on both sides; [__slots__] and
    metaclasses (canned only if type(obj) is type) are not modelled. *)
From Coq Require Import List Arith Bool.
From Verif Require Import CanClass_Spec.
Import ListNotations.

(** C3: of the heads of the lists, the first that is in no tail *)
Definition heads (ls : list (list nat)) : list nat := flat_map (fun l => match l with [] => [] | x :: _ => [x] end) ls.
Definition mem (x : nat) (l : list nat) : bool := existsb (Nat.eqb x) l.
Definition good (ls : list (list nat)) (x : nat) : bool := forallb (fun l => negb (mem x (tl l))) ls.
Definition drop (x : nat) (l : list nat) : list nat :=
  match l with [] => [] | h :: t => if Nat.eqb h x then t else l end.
Fixpoint merge (n : nat) (ls : list (list nat)) : option (list nat) :=
  match heads ls with
  | [] => Some []
  | hs => match find (good ls) hs, n with
          | Some x, S n => option_map (cons x) (merge n (map (drop x) ls))
          | _, _ => None
          end
  end.
Definition order (h : heap) (c : nat) : list nat := match nth_error h c with Some k => mro k | None => [] end.
Definition size (ls : list (list nat)) : nat := length (concat ls).

(** type(name, bases, dict); None: TypeError *)
Fixpoint distinct (l : list nat) : bool := match l with [] => true | x :: r => negb (mem x r) && distinct r end.
Definition new_type (h : heap) (name : nat) (bases : list nat) (attrs : list (nat * nat)) (main : bool) : option (heap * nat) :=
  let bases := match bases with [] => [0] | _ => bases end in
  if distinct bases && forallb (fun b => b <? length h) bases then
    let ls := map (order h) bases ++ [bases] in
    match merge (size ls) ls with
    | Some m => Some (h ++ [Class name attrs main (length h :: m)], length h)
    | None => None
    end
  else None.

(** 294-309, 436-440: can_class, CannedClass.__init__ *)
Inductive canned := ByReference (c : nat) | CannedClass (name : nat) (attrs : list (nat * nat)) (parents : list canned).
Definition canned_dict (l : list (nat * nat)) : list (nat * nat) :=
  filter (fun p => negb (Nat.eqb (fst p) weakref) && negb (Nat.eqb (fst p) dict)) l.
Fixpoint can (n : nat) (h : heap) (c : nat) : canned :=
  match n, nth_error h c with
  | S n, Some k => if in_main k then CannedClass (name k) (canned_dict (attrs k)) (map (can n h) (tl (mro k))) else ByReference c
  | _, _ => ByReference c
  end.
(** 314-316: get_object; uncan, parents in order *)
Fixpoint get_object (h : heap) (x : canned) : option (heap * nat) :=
  match x with
  | ByReference c => Some (h, c)
  | CannedClass name attrs parents =>
    let fix uncan_all (h : heap) (l : list canned) : option (heap * list nat) :=
      match l with
      | [] => Some (h, [])
      | p :: r => match get_object h p with
                  | None => None
                  | Some (h, c) => match uncan_all h r with None => None | Some (h, cs) => Some (h, c :: cs) end
                  end
      end in
    match uncan_all h parents with
    | None => None
    | Some (h, cs) => new_type h name cs attrs true
    end
  end.
Definition send (h : heap) (c : nat) : option (heap * nat) := get_object h (can (S (length h)) h c).

(** The classes that can be: [object], and those made from others. *)
Definition object_ : class := Class 0 [] false [0].
Inductive made : heap -> Prop :=
| made_object : made [object_]
| made_new h name bases attrs main h' c : made h -> new_type h name bases attrs main = Some (h', c) -> made h'.
