(** The `_sync` wrappers of ipyparallel/_async.py, with any number of threads
    calling them, interleaved in every way.

    A call is known by its place in the table [T].  The threads and events of
    line 45-46 are known by the call that made them. *)
From Coq Require Import String List Bool PeanoNat.
Import ListNotations.
From Verif Require Import Sync_Spec.

(** Where the caller of a `_sync` wrapper is: the lines of [_in_thread]
    (_async.py 42-59), or of [_asyncio_run] (14-23). *)
Inductive pc :=
| Idle
| Chk                    (* 44: if self._async_thread is None *)
| MkEv                   (* 45 *)
| MkTh                   (* 46 *)
| StartTh                (* 47 *)
| Rd                     (* 48: self._loop_started *)
| Wait (e : nat)         (* 48: .wait(timeout=5) *)
| Sub                    (* 50-58 *)
| Fut                    (* 59: future.result() *)
| Own (l : list act)     (* 21: in its own loop, [l] left to do *)
| OwnIn (c' : nat) (l : list act)  (* there, in a `_sync` call *)
| Done (r : result).

(** A background thread, [_thread_main] (37-40). *)
Inductive th := Off | T38 | T39 | Run.

(** What a background loop has to do: set an event (39), go on with the
    coroutine of a call (52-56), or it is inside a `_sync` call made by that
    coroutine. *)
Inductive item :=
| SetEv (e : nat)
| Co (c : nat) (l : list act)
| InC (c c' : nat) (l : list act).

Record st := St {
  tha : option nat;          (* self._async_thread, 35 *)
  ev : option nat;           (* self._loop_started *)
  evset : nat -> bool;
  loop : option nat;         (* self._thread_loop *)
  pcs : nat -> pc;
  ths : nat -> th;
  pool : list (nat * item);  (* what the loops have to do, by thread *)
  fut : nat -> option outcome;
  log : list (nat * act) }.

Definition upd {A} (f : nat -> A) (k : nat) (v : A) : nat -> A :=
  fun x => if x =? k then v else f x.

(** A fresh object: class attribute [_async_thread = None] (35). *)
Definition init : st :=
  St None None (fun _ => false) None (fun _ => Idle) (fun _ => Off) []
     (fun _ => None) [].

Definition set_pc (s : st) (c : nat) (p : pc) : st :=
  St (tha s) (ev s) (evset s) (loop s) (upd (pcs s) c p) (ths s) (pool s)
     (fut s) (log s).
Definition set_th (s : st) (t : nat) (x : th) : st :=
  St (tha s) (ev s) (evset s) (loop s) (pcs s) (upd (ths s) t x) (pool s)
     (fut s) (log s).
Definition set_pool (s : st) (p : list (nat * item)) : st :=
  St (tha s) (ev s) (evset s) (loop s) (pcs s) (ths s) p (fut s) (log s).
Definition set_tha (s : st) (t : nat) : st :=
  St (Some t) (ev s) (evset s) (loop s) (pcs s) (ths s) (pool s) (fut s) (log s).
Definition set_ev (s : st) (e : nat) : st :=
  St (tha s) (Some e) (evset s) (loop s) (pcs s) (ths s) (pool s) (fut s) (log s).
Definition set_loop (s : st) (t : nat) : st :=
  St (tha s) (ev s) (evset s) (Some t) (pcs s) (ths s) (pool s) (fut s) (log s).
Definition raise_ev (s : st) (e : nat) : st :=
  St (tha s) (ev s) (upd (evset s) e true) (loop s) (pcs s) (ths s) (pool s)
     (fut s) (log s).
Definition set_fut (s : st) (c : nat) (o : outcome) : st :=
  St (tha s) (ev s) (evset s) (loop s) (pcs s) (ths s) (pool s)
     (upd (fut s) c (Some o)) (log s).
Definition note (s : st) (c : nat) (a : act) : st :=
  St (tha s) (ev s) (evset s) (loop s) (pcs s) (ths s) (pool s) (fut s)
     (log s ++ [(c, a)]).

(** [_synchronize] (61-75): in a thread with a running loop the coroutine goes
    to the background thread, otherwise it is run here in a fresh loop. *)
Definition entry (x : call) : pc :=
  if in_loop x then Chk else Own (body x).

(** The future of line 50 when the coroutine ends (53-56): [except Exception]
    does not see the others. *)
Definition resolve (s : st) (c : nat) (o : outcome) : st :=
  match o with
  | Ret _ | Raise _ => set_fut s c o
  | Base _ => s
  end.

(** A loop is held up while one of its coroutines is inside a `_sync` call. *)
Definition blocked (s : st) (t : nat) : Prop :=
  exists c c' l, In (t, InC c c' l) (pool s).

(** What can happen.  [timed] steps are the five seconds of line 48 running
    out.  Which of its ready coroutines a loop goes on with is left open: it
    depends on what they await.  Simplified: a coroutine that makes a `_sync`
    call goes on whatever that call comes to. *)
Inductive step (T : list call) : bool -> st -> st -> Prop :=
| SCall s c x : nth_error T c = Some x -> pcs s c = Idle ->
    step T false s (set_pc s c (entry x))
| SChkNew s c : pcs s c = Chk -> tha s = None ->
    step T false s (set_pc s c MkEv)
| SChkOld s c t : pcs s c = Chk -> tha s = Some t ->
    step T false s (set_pc s c Sub)
| SMkEv s c : pcs s c = MkEv ->
    step T false s (set_pc (set_ev s c) c MkTh)
| SMkTh s c : pcs s c = MkTh ->
    step T false s (set_pc (set_tha s c) c StartTh)
| SStart s c t : pcs s c = StartTh -> tha s = Some t -> ths s t = Off ->
    step T false s (set_pc (set_th s t T38) c Rd)
| STwice s c t : pcs s c = StartTh -> tha s = Some t -> ths s t <> Off ->
    step T false s (set_pc s c (Done Twice))
| SRd s c e : pcs s c = Rd -> ev s = Some e ->
    step T false s (set_pc s c (Wait e))
| SWait s c e : pcs s c = Wait e -> evset s e = true ->
    step T false s (set_pc s c Sub)
| STime s c e : pcs s c = Wait e ->
    step T true s (set_pc s c Sub)
| SSubNo s c : pcs s c = Sub -> loop s = None ->
    step T false s (set_pc s c (Done NoLoop))
| SSub s c x t : pcs s c = Sub -> loop s = Some t -> nth_error T c = Some x ->
    step T false s (set_pc (set_pool s (pool s ++ [(t, Co c (body x))])) c Fut)
| SFut s c o : pcs s c = Fut -> fut s c = Some o ->
    step T false s (set_pc s c (Done (Out o)))
| SOwnEnd s c x : pcs s c = Own [] -> nth_error T c = Some x ->
    step T false s (set_pc s c (Done (Out (out x))))
| SOwnYield s c l : pcs s c = Own (Yield :: l) ->
    step T false s (set_pc (note s c Yield) c (Own l))
| SOwnSync s c c' x l : pcs s c = Own (Sync c' :: l) -> pcs s c' = Idle ->
    nth_error T c' = Some x ->
    step T false s (set_pc (set_pc (note s c (Sync c')) c' Chk) c (OwnIn c' l))
| SOwnBack s c c' l r : pcs s c = OwnIn c' l -> pcs s c' = Done r ->
    step T false s (set_pc s c (Own l))
| ST38 s t : ths s t = T38 ->
    step T false s (set_th (set_loop s t) t T39)
| ST39 s t e : ths s t = T39 -> ev s = Some e ->
    step T false s (set_th (set_pool s (pool s ++ [(t, SetEv e)])) t Run)
| SSetEv s t e p1 p2 : ths s t = Run -> ~ blocked s t ->
    pool s = p1 ++ (t, SetEv e) :: p2 ->
    step T false s (raise_ev (set_pool s (p1 ++ p2)) e)
| SCoEnd s t c x p1 p2 : ths s t = Run -> ~ blocked s t ->
    pool s = p1 ++ (t, Co c []) :: p2 -> nth_error T c = Some x ->
    step T false s (resolve (set_pool s (p1 ++ p2)) c (out x))
| SCoYield s t c l p1 p2 : ths s t = Run -> ~ blocked s t ->
    pool s = p1 ++ (t, Co c (Yield :: l)) :: p2 ->
    step T false s (note (set_pool s (p1 ++ (t, Co c l) :: p2)) c Yield)
| SCoSync s t c c' x l p1 p2 : ths s t = Run -> ~ blocked s t ->
    pool s = p1 ++ (t, Co c (Sync c' :: l)) :: p2 -> pcs s c' = Idle ->
    nth_error T c' = Some x ->
    step T false s (set_pc (note (set_pool s (p1 ++ (t, InC c c' l) :: p2)) c (Sync c')) c' Chk)
| SCoBack s t c c' l r p1 p2 : ths s t = Run ->
    pool s = p1 ++ (t, InC c c' l) :: p2 -> pcs s c' = Done r ->
    step T false s (set_pool s (p1 ++ (t, Co c l) :: p2)).

(** Runs, with their length. *)
Inductive steps (T : list call) : nat -> st -> st -> Prop :=
| RNil s : steps T 0 s s
| RCons n b s1 s2 s3 : steps T n s1 s2 -> step T b s2 s3 -> steps T (S n) s1 s3.

Definition reach (T : list call) (s : st) : Prop := exists n, steps T n init s.

(** A caller between lines 44 and 58. *)
Definition opening (p : pc) : Prop :=
  match p with
  | Chk | MkEv | MkTh | StartTh | Rd | Wait _ | Sub => True
  | _ => False
  end.

(** Runs without a timeout, where until there is a loop no call is begun while
    another is between lines 44 and 58. *)
Inductive calm (T : list call) : st -> st -> Prop :=
| CNil s : calm T s s
| CCons s1 s2 s3 : calm T s1 s2 -> step T false s2 s3 ->
    (forall c, pcs s2 c = Idle -> opening (pcs s3 c) ->
       loop s2 <> None \/ forall c', ~ opening (pcs s2 c')) ->
    calm T s1 s3.

(** Attribute access and `dir` (77-98).  [inst]: the attributes of the object
    itself; [mro]: its classes.  [super().__getattribute__] takes the
    object's own attribute, else that of the first class to have one. *)
Fixpoint lookup (k : string) (l : class_) : option meth :=
  match l with
  | [] => None
  | (k', m) :: r => if String.eqb k k' then Some m else lookup k r
  end.
Fixpoint in_mro (k : string) (mro : list class_) : option meth :=
  match mro with
  | [] => None
  | c :: r => match lookup k c with Some m => Some m | None => in_mro k r end
  end.
Definition getattribute (inst : class_) (mro : list class_) (k : string) : option meth :=
  match lookup k inst with Some m => Some m | None => in_mro k mro end.
(** 77-84: [X_sync], when the object has no such attribute: whether a wrapper
    is given for [X].  A classmethod seen through the object is a coroutine
    function, and so is a staticmethod. *)
Definition has_sync (inst : class_) (mro : list class_) (x : string) : bool :=
  match getattribute inst mro x with
  | Some Coro | Some WrappedCoro => true
  | _ => false
  end.
(** 87-98: the loop over the classes, with [seen]; the names for which
    [X_sync] is listed. *)
Fixpoint dir_class (c : class_) (seen acc : list string) : list string * list string :=
  match c with
  | [] => (seen, acc)
  | (k, m) :: r =>
      if existsb (String.eqb k) seen then dir_class r seen acc
      else dir_class r (k :: seen)
             (match m with Coro => acc ++ [k] | _ => acc end)
  end.
Fixpoint dir_mro (mro : list class_) (seen acc : list string) : list string :=
  match mro with
  | [] => acc
  | c :: r => let (seen', acc') := dir_class c seen acc in dir_mro r seen' acc'
  end.
Definition dir_sync (mro : list class_) : list string := dir_mro mro [] [].
