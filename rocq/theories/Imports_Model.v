(** Model of DirectView.sync_imports (client/view.py 411-507).  Simplified: one with block, not nested in another; names bound with `as` are left out;
    what modules do while they load is left out (they are loaded with the original __import__); the requests run on each engine in the order of sending (C67). *)
From Coq Require Import Ascii.
From stdpp Require Import base list gmap strings.
From Verif Require Import Imports_Spec.
Local Open Scope string_scope.

(** ','.join, 469 *)
Fixpoint join (l : list string) : string := match l with [] => "" | [a] => a | a :: l => String.append a (String.append "," (join l)) end.
Definition key (i : import) : string := String.append (i_name i) (String.append ":" (join (i_from i))).

(** which __import__ is in builtins *)
Inductive current := Original | View.
Record state := State {
  cur : current;             (* builtins.__import__ *)
  modules : list string;     (* 431 *)
  sent : list import;        (* 432: results, one request to all engines of the view each *)
  printed : list import;
  ns : space }.              (* the namespace of the frame *)
Definition set_cur (c : current) (s : state) : state := State c (modules s) (sent s) (printed s) (ns s).

(** view_import, 455-484.  The result: the exception of the import *)
Definition view_import (local quiet : bool) (w : world) (own : bool) (i : import) (s : state) : state * option exc :=
  let save := cur s in
  let s := set_cur Original s in
  if negb own then (s, if loads w i then None else Some ImportError)
  else if negb local then (s, Some NotImplementedError)
  else if negb (loads w i) then (s, Some ImportError)
  else let s := if (i_level i <=? 0)%nat && bool_decide (key i ∉ modules s)
                then State (cur s) (key i :: modules s) (sent s ++ [i]) (if quiet then printed s else printed s ++ [i]) (ns s) else s in
       (set_cur save s, None).
(** the import statement: __import__, then binding the names *)
Definition import_stmt (local quiet : bool) (w : world) (own : bool) (i : import) (s : state) : state * option exc :=
  match (match cur s with View => view_import local quiet w own i s | Original => (s, if loads w i then None else Some ImportError) end) with
  | (s, Some e) => (s, Some e)
  | (s, None) => if own then let '(n, r) := python_import w (ns s) i in (State (cur s) (modules s) (sent s) (printed s) n, r)
                 else (s, snd (python_import w ∅ i))             (* bound in the frame of the function *)
  end.
Definition stmt_step (local quiet : bool) (w : world) (c : stmt) (s : state) : state * option exc :=
  match c with
  | Raise => (s, Some OtherError)
  | Do own caught i => match import_stmt local quiet w own i s with (s, Some ImportError) => (s, if caught then None else Some ImportError) | r => r end
  end.
Fixpoint body (local quiet : bool) (w : world) (l : list stmt) (s : state) : state * option exc :=
  match l with [] => (s, None) | c :: l => match stmt_step local quiet w c s with (s, None) => body local quiet w l s | r => r end end.

(** remote_import on an engine, 438-453 *)
Definition remote_import (w : world) (ns : space) (i : import) : space * option exc :=
  if negb (loads w i) then (ns, Some ImportError)
  else match i_from i with [] => (<[i_name i := Module (i_name i)]> ns, None) | xs => bind_all AttributeError w (i_name i) xs ns end.
(** an engine executes the requests in order; each has its own answer *)
Fixpoint engine (w : world) (ns : space) (l : list import) : space * list (option exc) :=
  match l with [] => (ns, []) | i :: l => let '(ns, r) := remote_import w ns i in let '(ns, rs) := engine w ns l in (ns, r :: rs) end.

Inductive raised := InBlock (e : exc) | Remote (request : nat).
(** r.get() for each request, 505-507: raises the errors of the first request that has any on some engine *)
Definition first_error (answers : list (list (option exc))) (requests : nat) : option raised :=
  Remote <$> find (fun k => existsb (fun a => match a !! k with Some (Some _) => true | _ => false end) answers) (seq 0 requests).
Record outcome := Outcome { o_cur : current; o_sent : list import; o_printed : list import; o_ns : space; o_engines : list space; o_raised : option raised }.
(** the with statement, 486-507; worlds: of the engines *)
Definition sync_imports (local quiet : bool) (w : world) (worlds : list (world * space)) (l : list stmt) (n : space) : outcome :=
  let '(s, r) := body local quiet w l (State View [] [] [] n) in
  let r := match r with Some ImportError => if local then Some ImportError else None | r => r end in
  let s := set_cur Original s in
  let runs := map (fun x => engine (fst x) (snd x) (sent s)) worlds in
  Outcome (cur s) (sent s) (printed s) (ns s) (map fst runs)
    (match r with Some e => Some (InBlock e) | None => first_error (map snd runs) (length (sent s)) end).
