(** What a user of the magics may rely on (C73, C74), in terms of the log of what can be seen. *)
From stdpp Require Import base list gmap.
From Verif Require Import Magic_Model.

(** The last submission with the magics of view k *)
Fixpoint latest (k : nat) (l : list event) : option nat :=
  match l with
  | [] => None
  | e :: l => match latest k l with Some id => Some id | None => match e with Submit k' id _ _ => if k' =? k then Some id else None | _ => None end end
  end.
Definition submissions (l : list event) : list nat := omap (fun e => match e with Submit _ id _ _ => Some id | _ => None end) l.

(** The settings of view k: those given last with %pxconfig; d: the settings it had at the beginning *)
Fixpoint setting {A} (given : opts -> option target -> option A) (k : nat) (d : A) (l : list event) : A :=
  match l with
  | [] => d
  | Config k' o t :: l => setting given k (if k' =? k then default d (given o t) else d) l
  | _ :: l => setting given k d l
  end.

(** What was said last about %autopx of view k *)
Fixpoint said (k : nat) (on : bool) (l : list event) : bool :=
  match l with
  | [] => on
  | Mode k' b :: l => said k (if k' =? k then b else on) l
  | _ :: l => said k on l
  end.

(** Why event e may come after the events l *)
Definition justified (l : list event) (e : event) : Prop :=
  match e with
  | Submit k id c ts => id ∉ submissions l
  | Stored k _ id | Waited k id | Shown k id | Returned k id => exists c ts, Submit k id c ts ∈ l
  | Recalled k id => latest k l = Some id
  | Usage k => latest k l = None
  | Signal k g ts => exists l' id c, l = l' ++ [Submit k id c ts] \/ exists v, l = l' ++ [Submit k id c ts; Stored k v id]
  | _ => True
  end.

(** %autopx: the magics of views other than k do not switch it *)
Fixpoint only (k : nat) (x : cmd) : Prop :=
  match x with AutoPx k' => k' = k | CellPx _ _ c _ _ => only_cell k c | _ => True end
with only_cell (k : nat) (c : cell) : Prop := match c with Cell _ _ _ b _ => only_all k b end
with only_all (k : nat) (l : cmds) : Prop := match l with Nil => True | Cons x l => only k x /\ only_all k l end.

(** no magics at all *)
Fixpoint just_code (l : cmds) : option (list nat) :=
  match l with
  | Nil => Some []
  | Cons (Code c true) l => match just_code l with Some t => Some (c :: t) | None => None end
  | _ => None
  end.
