(** Model of ipyparallel/controller/broadcast_scheduler.py, of the tree of schedulers started by controller/app.py
    (997-1071) and of the connection of an engine to its leaf (engine/app.py 635-640), with an asynchronous network: any message that
    is in flight can be the next one to be delivered.
    Simplifications: messages have their number, targets, buffers and status only; connections do not fail; an engine
    answers each request once; a message number is used for one broadcast; errors of a handler are logged (util.log_errors)
    and leave the state as it is at that point; get_new_msg_id (a number per target) is not modelled. *)
From Coq Require Import List Arith Bool.
From Verif Require Import Broadcast_Spec.
Import ListNotations.

(** A scheduler: the bits that lead to it, last one first ('0' + path is the identity); the depth is the length *)
Definition node := list bool.
Fixpoint val (n : node) : nat := match n with [] => 0 | b :: n => Nat.b2n b + 2 * val n end.   (* int(identity, 2) *)

(** broadcast_targets: a leaf lists connections (99), an inner node pairs (100-101, 110) *)
Inductive announced := Idents (l : list nat) | Pairs (l : list target).
Record reply := R { r_targets : announced; r_bufs : list nat; r_ok : bool }.

(** Keys of accumulated_replies[msg]: engines, or the two sub-schedulers *)
Inductive child := Engine (u : nat) | Sub (b : bool).
Definition child_eqb (c c' : child) : bool :=
  match c, c' with Engine u, Engine u' => Nat.eqb u u' | Sub b, Sub b' => Bool.eqb b b' | _, _ => false end.
Inductive acc_targets := LeafTargets (l : list nat) | SubTargets (l : list (bool * list target)).

Inductive packet :=
| Down (n : node) (m : nat) (c : bool) (ts : list target)         (* submission on its way to scheduler n *)
| ToEngine (u : nat) (n : node) (m : nat) (c : bool)              (* from leaf n to engine u *)
| FromEngine (u : nat) (n : node) (m : nat) (c : bool) (bufs : list nat) (ok : bool)
| Up (n : node) (m : nat) (r : reply)                             (* coalesced reply of scheduler n to its parent, or of the root to the client *)
| Pass (n : node) (u : nat) (m : nat) (bufs : list nat) (ok : bool).   (* reply of an engine, passed on by scheduler n *)

Record state := S_ {
  net : list packet;
  replies : node -> nat -> option (list (child * option (list nat)));     (* accumulated_replies *)
  acc : node -> nat -> option acc_targets;                                (* accumulated_targets *)
  executed : list (nat * nat);                                            (* (engine, broadcast) *)
  got : list (nat * reply);                                               (* coalesced replies that reached the client *)
  got1 : list (nat * nat * list nat * bool) }.                            (* single ones *)

Definition node_eqb (a b : node) : bool := if list_eq_dec Bool.bool_dec a b then true else false.
Definition upd {A} (f : node -> nat -> A) (n : node) (m : nat) (v : A) : node -> nat -> A :=
  fun n' m' => if node_eqb n n' && Nat.eqb m m' then v else f n' m'.

Fixpoint replace_key {A} (c : child) (v : A) (l : list (child * A)) : list (child * A) :=
  match l with [] => [] | (c', w) :: r => if child_eqb c c' then (c', v) :: r else (c', w) :: replace_key c v r end.
(** [d[c] = v] *)
Definition set_key {A} (c : child) (v : A) (l : list (child * A)) : list (child * A) :=
  if existsb (fun e => child_eqb c (fst e)) l then replace_key c v l else l ++ [(c, v)].

Section Tree.
Context (D : nat).                       (* broadcast_scheduler_depth *)
Context (threads : bool).                (* use_threads: all schedulers run in one process *)
Context (id_of : nat -> nat).            (* the id that an engine got *)
Context (run : nat -> nat -> list nat * bool).   (* the buffers and the status with which an engine answers a request *)

(** The dicts accumulated_replies and accumulated_targets are class attributes (16-17): one per process. app.py 998-1011 *)
Definition store (n : node) : node := if threads then [] else n.

(** 50-63: [format(x, "0{w}b")], as a list of digits, and the digit for this depth *)
Definition format_bits (x w : nat) : list bool := map (fun j => Nat.testbit x (w - 1 - j)) (seq 0 w).
Definition next_idx (depth : nat) (id : nat) : bool :=
  nth (depth + 1) (format_bits (id mod 2 ^ D) (D + 1)) false.

(** 47-86: send_to_sub_schedulers *)
Definition send_to_sub_schedulers (s : state) (n : node) (m : nat) (c : bool) (ts : list target) : state * list packet :=
  let part b := filter (fun t => Bool.eqb (next_idx (length n) (snd t)) b) ts in             (* 58-63 *)
  let subs := filter (fun b => match part b with [] => false | _ => true end) [false; true] in
  (if c then S_ (net s) (upd (replies s) (store n) m (Some (map (fun b => (Sub b, None)) subs)))    (* 65-70, 74-79 *)
                (upd (acc s) (store n) m (Some (SubTargets (map (fun b => (b, part b)) subs))))
                (executed s) (got s) (got1 s)
   else s,
   [Down (false :: n) m c (part false); Down (true :: n) m c (part true)]).                  (* 71, 80-86 *)

(** 34-45: send_to_targets *)
Definition send_to_targets (s : state) (n : node) (m : nat) (c : bool) (us : list nat) : state * list packet :=
  (if c then S_ (net s) (upd (replies s) (store n) m (Some (fold_left (fun d u => set_key (Engine u) None d) us [])))
                (upd (acc s) (store n) m (Some (LeafTargets us))) (executed s) (got s) (got1 s)
   else s,
   map (fun u => ToEngine u n m c) us).

Definition is_leaf (n : node) : bool := Nat.eqb (length n) D.

(** 119-146: dispatch_submission *)
Definition dispatch_submission (s : state) (n : node) (m : nat) (c : bool) (ts : list target) : state * list packet :=
  if is_leaf n then send_to_targets s n m c (map fst ts) else send_to_sub_schedulers s n m c ts.

Definition is_some {A} (o : option A) : bool := match o with Some _ => true | None => false end.
Definition the {A} (o : option (list A)) : list A := match o with Some l => l | None => [] end.
(** 106-110: for each child, the targets it was sent; None: KeyError *)
Fixpoint extend_targets (l : list (child * option (list nat))) (ts : list (bool * list target)) : option (list target) :=
  match l with
  | [] => Some []
  | (Sub b, _) :: r => match find (fun e => Bool.eqb b (fst e)) ts, extend_targets r ts with Some (_, t), Some t' => Some (t ++ t') | _, _ => None end
  | (Engine _, _) :: r => None
  end.

(** 88-117: coalescing_reply, for the reply of child [c] of scheduler [n] *)
Definition coalescing_reply (s : state) (n : node) (m : nat) (c : child) (bufs : list nat) (ok : bool) : state * list packet :=
  match replies s (store n) m with
  | None => (s, [])                                                                          (* 90: KeyError *)
  | Some l =>
      let l := set_key c (Some bufs) l in                                                    (* 90 *)
      if forallb (fun e => is_some (snd e)) l then                                           (* 91-94 *)
        let s' := S_ (net s) (upd (replies s) (store n) m None) (upd (acc s) (store n) m None) (executed s) (got s) (got1 s) in   (* 95, 97 *)
        let buffers := flat_map (fun e => the (snd e)) l in                                  (* 107-108 *)
        match acc s (store n) m, is_leaf n with
        | Some (LeafTargets us), true => (s', [Up n m (R (Idents us) buffers ok)])           (* 102-103 *)
        | Some (SubTargets ts), false =>
            match extend_targets l ts with
            | Some t => (s', [Up n m (R (Pairs t) buffers ok)])                              (* 105, 110 *)
            | None => (s', [])
            end
        | Some (LeafTargets us), false => (s', match l with [] => [Up n m (R (Pairs []) [] ok)] | _ => [] end)   (* 110: a list indexed by a name *)
        | Some (SubTargets ts), true => (s', [])                                             (* a dict as targets; not followed further *)
        | None, _ => (s', [])                                                                (* 97: KeyError *)
        end
      else (S_ (net s) (upd (replies s) (store n) m (Some l)) (acc s) (executed s) (got s) (got1 s), [])
  end.

(** One message arrives. *)
Definition deliver (s : state) (p : packet) : state * list packet :=
  match p with
  | Down n m c ts => dispatch_submission s n m c ts
  | ToEngine u n m c =>
      (* engine/app.py 639: the engine is connected to the leaf number id mod (number of leaves); others have no route to it *)
      if Nat.eqb (val n) (id_of u mod 2 ^ D)
      then (S_ (net s) (replies s) (acc s) (executed s ++ [(u, m)]) (got s) (got1 s), [FromEngine u n m c (fst (run u m)) (snd (run u m))])
      else (s, [])
  | FromEngine u n m c bufs ok =>                                                            (* 149-168 dispatch_result *)
      if c then coalescing_reply s n m (Engine u) bufs ok else (s, [Pass n u m bufs ok])
  | Up (b :: n) m r => coalescing_reply s n m (Sub b) (r_bufs r) (r_ok r)
  | Up [] m r => (S_ (net s) (replies s) (acc s) (executed s) (got s ++ [(m, r)]) (got1 s), [])
  | Pass (b :: n) u m bufs ok => (s, [Pass n u m bufs ok])                                   (* 168 *)
  | Pass [] u m bufs ok => (S_ (net s) (replies s) (acc s) (executed s) (got s) (got1 s ++ [(u, m, bufs, ok)]), [])
  end.
Definition set_net (s : state) (l : list packet) : state := S_ l (replies s) (acc s) (executed s) (got s) (got1 s).
Fixpoint take (i : nat) (l : list packet) : option (packet * list packet) :=
  match l, i with
  | [], _ => None
  | p :: r, O => Some (p, r)
  | p :: r, S i => match take i r with Some (q, r) => Some (q, p :: r) | None => None end
  end.
(** The [i]-th message in flight is delivered. *)
Definition step (s : state) (i : nat) : option state :=
  match take i (net s) with
  | None => None
  | Some (p, rest) => let '(s', out) := deliver (set_net s rest) p in Some (set_net s' (rest ++ out))
  end.
(** A schedule: which message is delivered next, each time *)
Fixpoint exec (s : state) (sched : list nat) : option state :=
  match sched with [] => Some s | i :: r => match step s i with Some s' => exec s' r | None => None end end.
(** The client has sent its broadcasts to the root. *)
Definition start (bs : list broadcast) : state :=
  S_ (map (fun b => Down [] (msg b) (coalescing b) (targets b)) bs) (fun _ _ => None) (fun _ _ => None) [] [] [].
End Tree.
