(** Model of ReverseDict, ipyparallel/util.py 59-89.  Keys and values are Python objects of one type
    [K] (both sides may be looked up in both directions). *)
From stdpp Require Import base gmap list.

Section rdict.
Context {K : Type} `{Countable K}.

Record rdict := RDict { fwd : gmap K K; rev : gmap K K }.

Inductive answer := Done (d : rdict) | KeyError (d : rdict).     (* with the state left behind *)
Definition state_of (a : answer) : rdict := match a with Done d | KeyError d => d end.
Definition raised (a : answer) : bool := match a with Done _ => false | KeyError _ => true end.

(** __init__, 62-66: [items] in the order of the dict *)
Definition make (items : list (K * K)) : rdict :=
  RDict (fold_left (fun m kv => <[fst kv := snd kv]> m) items ∅)
        (fold_left (fun m kv => <[snd kv := fst kv]> m) items ∅).

(** __getitem__, 68-72; None is KeyError *)
Definition getitem (d : rdict) (k : K) : option K :=
  match fwd d !! k with Some v => Some v | None => rev d !! k end.
(** get, 85-89 *)
Definition get (d : rdict) (k default : K) : K :=
  match getitem d k with Some v => v | None => default end.
(** k in d: dict.__contains__ *)
Definition contains (d : rdict) (k : K) : bool := bool_decide (is_Some (fwd d !! k)).
(** __setitem__, 74-78 *)
Definition setitem (d : rdict) (k v : K) : answer :=
  match rev d !! k with
  | Some _ => KeyError d
  | None => Done (RDict (<[k := v]> (fwd d)) (<[v := k]> (rev d)))
  end.
(** pop, 80-83: dict.pop may raise; then _reverse.pop may raise, the first being done *)
Definition pop (d : rdict) (k : K) : answer :=
  match fwd d !! k with
  | None => KeyError d
  | Some v => match rev d !! v with
              | None => KeyError (RDict (delete k (fwd d)) (rev d))
              | Some _ => Done (RDict (delete k (fwd d)) (delete v (rev d)))
              end
  end.

Inductive op := Set_ (k v : K) | Pop (k : K).
Definition perform (d : rdict) (o : op) : answer :=
  match o with Set_ k v => setitem d k v | Pop k => pop d k end.
Definition run (d : rdict) (l : list op) : rdict := fold_left (fun d o => state_of (perform d o)) l d.
End rdict.
Arguments rdict K {_ _}.
Arguments op K : clear implicits.
