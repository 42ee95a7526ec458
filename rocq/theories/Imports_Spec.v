(** sync_imports (C72): Python's own import statement, and the words of the properties *)
From Coq Require Import Ascii.
From stdpp Require Import base list gmap strings.
Local Open Scope string_scope.

(** an import statement: import NAME (no names listed), or from NAME import NAMES; level: number of dots of a relative import *)
Record import := Import { i_name : string; i_from : list string; i_level : nat }.
Global Instance import_eq_dec : EqDecision import.
Proof. solve_decision. Defined.
Inductive value := Module (name : string) | Attribute (name x : string) | Other (n : nat).
Inductive exc := ImportError | AttributeError | NotImplementedError | OtherError.
(** what can be imported in a process: the modules that load, and what is found in them *)
Record world := World { loads : import -> bool; found : string -> string -> option value; public : string -> gmap string value }.
Notation space := (gmap string value).

(** the part of a dotted name before the first dot *)
Fixpoint top (s : string) : string := match s with "" => "" | String c s => if Ascii.eqb c "."%char then "" else String c (top s) end.
Fixpoint has_char (c : Ascii.ascii) (s : string) : bool := match s with "" => false | String d s => Ascii.eqb d c || has_char c s end.
(** from NAME import x, y: bound one after the other *)
Fixpoint bind_all (e : exc) (w : world) (name : string) (xs : list string) (ns : space) : space * option exc :=
  match xs with [] => (ns, None) | x :: xs => match found w name x with Some v => bind_all e w name xs (<[x := v]> ns) | None => (ns, Some e) end end.
(** Python's import statement *)
Definition python_import (w : world) (ns : space) (i : import) : space * option exc :=
  if negb (loads w i) then (ns, Some ImportError)
  else if decide (i_from i = ["*"]) then (public w (i_name i) ∪ ns, None)
  else match i_from i with
       | [] => (<[top (i_name i) := Module (top (i_name i))]> ns, None)
       | xs => bind_all ImportError w (i_name i) xs ns
       end.

(** a statement of the block: an import, in the frame of the with statement or in a function that is called; within try ... except ImportError or not; or one that raises *)
Inductive stmt := Do (own caught : bool) (i : import) | Raise.
(** names as Python has them *)
Definition fine (s : string) : Prop := s <> "" /\ has_char ","%char s = false /\ has_char ":"%char s = false.
Definition well_formed (i : import) : Prop := fine (i_name i) /\ forall x, x ∈ i_from i -> fine x.
(** absolute, without dots in the name and without star *)
Definition plain (i : import) : Prop := i_level i = 0 /\ has_char "."%char (i_name i) = false /\ "*" ∉ i_from i.
(** the names an import binds *)
Definition binds (i : import) : list string := match i_from i with [] => [i_name i] | xs => xs end.
(** each element of a list, where it is first *)
Fixpoint first_ones {A} `{EqDecision A} (seen l : list A) : list A :=
  match l with [] => [] | a :: l => if decide (a ∈ seen) then first_ones seen l else a :: first_ones (a :: seen) l end.

(** the block without sync_imports *)
Fixpoint alone (w : world) (l : list stmt) (ns : space) : space * option exc :=
  match l with
  | [] => (ns, None)
  | Raise :: _ => (ns, Some OtherError)
  | Do own caught i :: l =>
      let '(n, r) := python_import w ns i in
      let n := if own then n else ns in
      match r with Some e => if caught then alone w l n else (n, Some e) | None => alone w l n end
  end.
(** the statement leaves the with block in force: it is an import of its own frame, of a module that loads, and does not end the block *)
Definition undisturbing (w : world) (c : stmt) : Prop :=
  exists caught i, c = Do true caught i /\ loads w i = true /\ (caught = true \/ snd (python_import w ∅ i) = None).
(** the imports to be done on the engines, of the statements before the first that disturbs (and that one, if it still loads) *)
Fixpoint wanted (w : world) (l : list stmt) : list import :=
  match l with
  | Do true caught i :: l =>
      if loads w i then (if (i_level i =? 0)%nat then [i] else []) ++ (if caught || (match snd (python_import w ∅ i) with None => true | _ => false end) then wanted w l else [])
      else []
  | _ => []
  end.
