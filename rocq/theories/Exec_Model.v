(** Model of ViewExecutor, ipyparallel/client/view.py 1744-1780: submit, map and shutdown(wait=True) of view.executor, with View.wait
    (view.py 244-264), Client.wait (client.py 1615-1660) and any number of imaps, each a copy of Imap_Model.
    Simplifications: a submission (apply_async) is one step (what overlapping submissions do is modelled below, in Recording); sending never fails
    (an input whose task cannot be sent is [Fail], as in Imap_Model); map() returns at once (it waits for the first submission); the argument
    timeout of map, which is dropped with a warning, is left out; polls that find something outstanding (time.sleep) are no steps; waiting for
    messages ends when the last of them has its result (C42). *)
From Coq Require Import List Arith Bool.
From Verif Require Import Async_Spec Async_Model Imap_Spec Imap_Model.
Import ListNotations.

Section Executor.
Context {V : Type}.
(** The arguments of a map: Imap_Model *)
Record params := Params { ordered : bool; limit : nat; ret : bool; inputs : nat -> input; outcome_of : nat -> outcome V }.
(** A task of the view: sent by submit, or the k-th of the m-th map *)
Inductive task := Direct (i : nat) | Mapped (m k : nat).
(** Where shutdown(wait=True) is *)
Inductive phase := Running | Polling | Waiting (ids : list task) | Returned | NoAttribute.
Record est := Est {
  maps : list (params * @Imap_Model.st V);   (* the maps, in the order of the calls *)
  history : list task;                       (* view.history *)
  directs : nat;                             (* tasks sent by submit *)
  ended : list nat;                          (* those that have their results *)
  now : phase }.
Definition init : est := Est [] [] 0 [] Running.

(** The result of a task is there *)
Definition has_result (s : est) (t : task) : bool :=
  match t with
  | Direct i => mem i (ended s)
  | Mapped m k => match nth_error (maps s) m with Some (_, x) => mem k (finished x) | None => false end
  end.
Fixpoint replace {A} (n : nat) (a : A) (l : list A) : list A :=
  match l, n with [] , _ => [] | _ :: l, 0 => a :: l | b :: l, S n => b :: replace n a l end.
(** One step of a map; a task that it sends is recorded in view.history (view.py 34-46) *)
Definition map_step (m : nat) (e : event) (s : est) : option est :=
  match nth_error (maps s) m with
  | Some (p, x) =>
      match Imap_Model.step (ordered p) (limit p) (ret p) (inputs p) (outcome_of p) x e with
      | Some x' => Some (Est (replace m (p, x') (maps s))
                             (if Nat.ltb (pos x) (pos x') then match inputs p (pos x) with Args => history s ++ [Mapped m (pos x)] | _ => history s end else history s)
                             (directs s) (ended s) (now s))
      | None => None
      end
  | None => None
  end.

Inductive eevent :=
| Submit                       (* 1755-1757: submit *)
| Result (i : nat)             (* the i-th of those has its result *)
| StartMap (p : params)        (* 1759-1764: map *)
| InMap (m : nat) (e : event)  (* a step of the m-th map *)
| Shutdown                     (* 1766: shutdown(wait=True) is called *)
| Poll                         (* 1774-1776: no map is outstanding *)
| Return.                      (* 1777: view.wait() is over *)
Definition estep (load_balanced : bool) (s : est) (e : eevent) : option est :=
  match e with
  | Submit => Some (Est (maps s) (history s ++ [Direct (directs s)]) (S (directs s)) (ended s) (now s))
  | Result i => if Nat.ltb i (directs s) && negb (mem i (ended s)) then Some (Est (maps s) (history s) (directs s) (ended s ++ [i]) (now s)) else None
  | StartMap p => Some (Est (maps s ++ [(p, Imap_Model.start (limit p))]) (history s) (directs s) (ended s) (now s))
  | InMap m e => map_step m e s
  | Shutdown =>                                                                                  (* 1773: only a LoadBalancedView has _outstanding_maps *)
      match now s with Running => Some (Est (maps s) (history s) (directs s) (ended s) (if load_balanced then Polling else NoAttribute)) | _ => None end
  | Poll =>
      match now s with
      | Polling => if forallb (fun px => negb (recorded (snd px))) (maps s) then Some (Est (maps s) (history s) (directs s) (ended s) (Waiting (history s))) else None
      | _ => None
      end
  | Return =>
      match now s with
      | Waiting ids => if forallb (has_result s) ids then Some (Est (maps s) (history s) (directs s) (ended s) Returned) else None
      | _ => None
      end
  end.
Fixpoint erun (lb : bool) (s : est) (es : list eevent) : option est :=
  match es with [] => Some s | e :: es => match estep lb s e with Some s => erun lb s es | None => None end end.
End Executor.
Arguments params : clear implicits.
Arguments est : clear implicits.
Arguments eevent : clear implicits.

(* ------------------------------------------------------------------ view.history and threads *)
(** view.py 34-46: save_ids around a method that sends at most one message (client.py 1276-1277), executed by several threads. *)
Section Recording.
(** Where a call is: before 40; after 37 ([n]: n_previous); having sent message [i]; after 41 ([k]: nmsgs); done *)
Inductive at_call := Before | Entered (n : nat) | Sent (n i : nat) | Counted (k i : nat) | Done (i : nat).
Record rst := Rst { client_history : list nat; view_history : list nat; calls : nat -> at_call }.
Definition upd {A} (f : nat -> A) (t : nat) (a : A) : nat -> A := fun x => if Nat.eqb x t then a else f x.
(** client_history[-k:] *)
Definition last_ones (k : nat) (l : list nat) : list nat := match k with 0 => l | _ => skipn (length l - k) l end.
Inductive revent :=
| Step (t : nat)          (* the next step of call t *)
| Other.                  (* another view of the client sends a message *)
Definition rstep (s : rst) (e : revent) : rst :=
  match e with
  | Step t =>
      match calls s t with
      | Before => Rst (client_history s) (view_history s) (upd (calls s) t (Entered (length (client_history s))))                               (* 37 *)
      | Entered n => Rst (client_history s ++ [length (client_history s)]) (view_history s) (upd (calls s) t (Sent n (length (client_history s)))) (* 39 *)
      | Sent n i => Rst (client_history s) (view_history s) (upd (calls s) t (Counted (length (client_history s) - n) i))                       (* 41 *)
      | Counted k i => Rst (client_history s) (view_history s ++ last_ones k (client_history s)) (upd (calls s) t (Done i))                     (* 42-43 *)
      | Done i => s
      end
  | Other => Rst (client_history s ++ [length (client_history s)]) (view_history s) (calls s)
  end.
Definition rrun (s : rst) (es : list revent) : rst := fold_left rstep es s.
Definition rinit : rst := Rst [] [] (fun _ => Before).
End Recording.
