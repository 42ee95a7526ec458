(** Model of the task scheduler, ipyparallel/controller/task_scheduler.py.

    Conventions.
    - Message ids and engine identities (byte strings) are natural numbers.
    - Job objects are mutable and shared between the queue, [queue_map], [pending] and timer
      closures; they live in a heap [s_jobs] and are referred to by creation number.
    - Every function is a state transformer that either returns, or raises leaving the state
      reached so far (exceptions are caught and logged at the top, util.py 97-122), or runs out
      of the fuel that bounds the mutual recursion update_graph / fail_unreachable.
    - What the outside world sees is appended to [s_log].
    Not modelled: message (de)serialisation, the monitor (Hub) copies of messages, client
    identities (a reply goes to the submitter of the task), wall-clock time: [Job.timestamp] is
    the creation number, timers fire by an explicit event. *)
From stdpp Require Import base gmap sets list.
From Verif Require Import Dependency_Model Sched_Trace.
From Verif Require Prelude.
From Coq Require Import ZArith.

(** class Job, 92-129.  [j_md] is the metadata of the message. *)
Record job := Job {
  j_msg : nat; j_md : taskmd; j_targets : gset nat; j_after : dep; j_follow : dep;
  j_timeout : bool; j_removed : bool; j_timeout_id : nat; j_blacklist : gset nat }.

(** Job.dependents, 127-129 *)
Definition dependents (j : job) : gset nat := d_ids (j_follow j) ∪ d_ids (j_after j).

Definition set_removed (j : job) : job :=
  Job (j_msg j) (j_md j) (j_targets j) (j_after j) (j_follow j) (j_timeout j) true (j_timeout_id j) (j_blacklist j).
Definition set_jtargets (t : gset nat) (j : job) : job :=
  Job (j_msg j) (j_md j) t (j_after j) (j_follow j) (j_timeout j) (j_removed j) (j_timeout_id j) (j_blacklist j).
Definition set_timeout_id (n : nat) (j : job) : job :=
  Job (j_msg j) (j_md j) (j_targets j) (j_after j) (j_follow j) (j_timeout j) (j_removed j) n (j_blacklist j).
Definition add_blacklist (e : nat) (j : job) : job :=
  Job (j_msg j) (j_md j) (j_targets j) (j_after j) (j_follow j) (j_timeout j) (j_removed j) (j_timeout_id j)
      ({[e]} ∪ j_blacklist j).

(** class TaskScheduler, 181-200. *)
Record sched := Sched {
  s_jobs : gmap nat job; (* Job objects by creation number (Python references) *)
  s_next : nat; (* number of Job objects created so far *)
  s_targets : list nat; (* task_scheduler.py 198 *)
  s_loads : list Z; (* 199 *)
  s_queue : list nat; (* 182, a deque of Job references, leftmost first *)
  s_qmap : gmap nat nat; (* 187, msg_id -> Job *)
  s_graph : gmap nat (gset nat); (* 188 *)
  s_retries : gmap nat nat; (* 189 *)
  s_pending : gmap nat (list (nat * nat)); (* 191, engine -> insertion-ordered dict msg_id -> Job *)
  s_completed : gmap nat (gset nat); (* 192 *)
  s_failed : gmap nat (gset nat); (* 193 *)
  s_dest : gmap nat nat; (* 194-196 *)
  s_all_ids : gset nat; (* scheduler.py 69 *)
  s_all_done : gset nat; (* scheduler.py 68 *)
  s_all_completed : gset nat; (* scheduler.py 66 *)
  s_all_failed : gset nat; (* scheduler.py 67 *)
  s_draws : nat; (* how often the scheme function has been called (stands for the state of the random generator) *)
  s_strand_timers : list nat; (* armed 5 s timers of _unregister_engine (294-296), by engine *)
  s_job_timers : list (nat * nat); (* armed timers of save_unmet (571-574): (Job, timeout_id) *)
  s_log : list obs }. (* observable messages so far, oldest first *)

(** Field updates (Coq has no record-update syntax): [set_x f s] replaces field [x] by [f] of it. *)
Definition set_jobs (f : gmap nat job -> gmap nat job) (s : sched) : sched :=
  Sched (f (s_jobs s)) (s_next s) (s_targets s) (s_loads s) (s_queue s) (s_qmap s) (s_graph s) (s_retries s) (s_pending s) (s_completed s) (s_failed s) (s_dest s) (s_all_ids s) (s_all_done s) (s_all_completed s) (s_all_failed s) (s_draws s) (s_strand_timers s) (s_job_timers s) (s_log s).
Definition set_next (f : nat -> nat) (s : sched) : sched :=
  Sched (s_jobs s) (f (s_next s)) (s_targets s) (s_loads s) (s_queue s) (s_qmap s) (s_graph s) (s_retries s) (s_pending s) (s_completed s) (s_failed s) (s_dest s) (s_all_ids s) (s_all_done s) (s_all_completed s) (s_all_failed s) (s_draws s) (s_strand_timers s) (s_job_timers s) (s_log s).
Definition set_targets (f : list nat -> list nat) (s : sched) : sched :=
  Sched (s_jobs s) (s_next s) (f (s_targets s)) (s_loads s) (s_queue s) (s_qmap s) (s_graph s) (s_retries s) (s_pending s) (s_completed s) (s_failed s) (s_dest s) (s_all_ids s) (s_all_done s) (s_all_completed s) (s_all_failed s) (s_draws s) (s_strand_timers s) (s_job_timers s) (s_log s).
Definition set_loads (f : list Z -> list Z) (s : sched) : sched :=
  Sched (s_jobs s) (s_next s) (s_targets s) (f (s_loads s)) (s_queue s) (s_qmap s) (s_graph s) (s_retries s) (s_pending s) (s_completed s) (s_failed s) (s_dest s) (s_all_ids s) (s_all_done s) (s_all_completed s) (s_all_failed s) (s_draws s) (s_strand_timers s) (s_job_timers s) (s_log s).
Definition set_queue (f : list nat -> list nat) (s : sched) : sched :=
  Sched (s_jobs s) (s_next s) (s_targets s) (s_loads s) (f (s_queue s)) (s_qmap s) (s_graph s) (s_retries s) (s_pending s) (s_completed s) (s_failed s) (s_dest s) (s_all_ids s) (s_all_done s) (s_all_completed s) (s_all_failed s) (s_draws s) (s_strand_timers s) (s_job_timers s) (s_log s).
Definition set_qmap (f : gmap nat nat -> gmap nat nat) (s : sched) : sched :=
  Sched (s_jobs s) (s_next s) (s_targets s) (s_loads s) (s_queue s) (f (s_qmap s)) (s_graph s) (s_retries s) (s_pending s) (s_completed s) (s_failed s) (s_dest s) (s_all_ids s) (s_all_done s) (s_all_completed s) (s_all_failed s) (s_draws s) (s_strand_timers s) (s_job_timers s) (s_log s).
Definition set_graph (f : gmap nat (gset nat) -> gmap nat (gset nat)) (s : sched) : sched :=
  Sched (s_jobs s) (s_next s) (s_targets s) (s_loads s) (s_queue s) (s_qmap s) (f (s_graph s)) (s_retries s) (s_pending s) (s_completed s) (s_failed s) (s_dest s) (s_all_ids s) (s_all_done s) (s_all_completed s) (s_all_failed s) (s_draws s) (s_strand_timers s) (s_job_timers s) (s_log s).
Definition set_retries (f : gmap nat nat -> gmap nat nat) (s : sched) : sched :=
  Sched (s_jobs s) (s_next s) (s_targets s) (s_loads s) (s_queue s) (s_qmap s) (s_graph s) (f (s_retries s)) (s_pending s) (s_completed s) (s_failed s) (s_dest s) (s_all_ids s) (s_all_done s) (s_all_completed s) (s_all_failed s) (s_draws s) (s_strand_timers s) (s_job_timers s) (s_log s).
Definition set_pending (f : gmap nat (list (nat * nat)) -> gmap nat (list (nat * nat))) (s : sched) : sched :=
  Sched (s_jobs s) (s_next s) (s_targets s) (s_loads s) (s_queue s) (s_qmap s) (s_graph s) (s_retries s) (f (s_pending s)) (s_completed s) (s_failed s) (s_dest s) (s_all_ids s) (s_all_done s) (s_all_completed s) (s_all_failed s) (s_draws s) (s_strand_timers s) (s_job_timers s) (s_log s).
Definition set_completed (f : gmap nat (gset nat) -> gmap nat (gset nat)) (s : sched) : sched :=
  Sched (s_jobs s) (s_next s) (s_targets s) (s_loads s) (s_queue s) (s_qmap s) (s_graph s) (s_retries s) (s_pending s) (f (s_completed s)) (s_failed s) (s_dest s) (s_all_ids s) (s_all_done s) (s_all_completed s) (s_all_failed s) (s_draws s) (s_strand_timers s) (s_job_timers s) (s_log s).
Definition set_failed (f : gmap nat (gset nat) -> gmap nat (gset nat)) (s : sched) : sched :=
  Sched (s_jobs s) (s_next s) (s_targets s) (s_loads s) (s_queue s) (s_qmap s) (s_graph s) (s_retries s) (s_pending s) (s_completed s) (f (s_failed s)) (s_dest s) (s_all_ids s) (s_all_done s) (s_all_completed s) (s_all_failed s) (s_draws s) (s_strand_timers s) (s_job_timers s) (s_log s).
Definition set_dest (f : gmap nat nat -> gmap nat nat) (s : sched) : sched :=
  Sched (s_jobs s) (s_next s) (s_targets s) (s_loads s) (s_queue s) (s_qmap s) (s_graph s) (s_retries s) (s_pending s) (s_completed s) (s_failed s) (f (s_dest s)) (s_all_ids s) (s_all_done s) (s_all_completed s) (s_all_failed s) (s_draws s) (s_strand_timers s) (s_job_timers s) (s_log s).
Definition set_all_ids (f : gset nat -> gset nat) (s : sched) : sched :=
  Sched (s_jobs s) (s_next s) (s_targets s) (s_loads s) (s_queue s) (s_qmap s) (s_graph s) (s_retries s) (s_pending s) (s_completed s) (s_failed s) (s_dest s) (f (s_all_ids s)) (s_all_done s) (s_all_completed s) (s_all_failed s) (s_draws s) (s_strand_timers s) (s_job_timers s) (s_log s).
Definition set_all_done (f : gset nat -> gset nat) (s : sched) : sched :=
  Sched (s_jobs s) (s_next s) (s_targets s) (s_loads s) (s_queue s) (s_qmap s) (s_graph s) (s_retries s) (s_pending s) (s_completed s) (s_failed s) (s_dest s) (s_all_ids s) (f (s_all_done s)) (s_all_completed s) (s_all_failed s) (s_draws s) (s_strand_timers s) (s_job_timers s) (s_log s).
Definition set_all_completed (f : gset nat -> gset nat) (s : sched) : sched :=
  Sched (s_jobs s) (s_next s) (s_targets s) (s_loads s) (s_queue s) (s_qmap s) (s_graph s) (s_retries s) (s_pending s) (s_completed s) (s_failed s) (s_dest s) (s_all_ids s) (s_all_done s) (f (s_all_completed s)) (s_all_failed s) (s_draws s) (s_strand_timers s) (s_job_timers s) (s_log s).
Definition set_all_failed (f : gset nat -> gset nat) (s : sched) : sched :=
  Sched (s_jobs s) (s_next s) (s_targets s) (s_loads s) (s_queue s) (s_qmap s) (s_graph s) (s_retries s) (s_pending s) (s_completed s) (s_failed s) (s_dest s) (s_all_ids s) (s_all_done s) (s_all_completed s) (f (s_all_failed s)) (s_draws s) (s_strand_timers s) (s_job_timers s) (s_log s).
Definition set_draws (f : nat -> nat) (s : sched) : sched :=
  Sched (s_jobs s) (s_next s) (s_targets s) (s_loads s) (s_queue s) (s_qmap s) (s_graph s) (s_retries s) (s_pending s) (s_completed s) (s_failed s) (s_dest s) (s_all_ids s) (s_all_done s) (s_all_completed s) (s_all_failed s) (f (s_draws s)) (s_strand_timers s) (s_job_timers s) (s_log s).
Definition set_strand_timers (f : list nat -> list nat) (s : sched) : sched :=
  Sched (s_jobs s) (s_next s) (s_targets s) (s_loads s) (s_queue s) (s_qmap s) (s_graph s) (s_retries s) (s_pending s) (s_completed s) (s_failed s) (s_dest s) (s_all_ids s) (s_all_done s) (s_all_completed s) (s_all_failed s) (s_draws s) (f (s_strand_timers s)) (s_job_timers s) (s_log s).
Definition set_job_timers (f : list (nat * nat) -> list (nat * nat)) (s : sched) : sched :=
  Sched (s_jobs s) (s_next s) (s_targets s) (s_loads s) (s_queue s) (s_qmap s) (s_graph s) (s_retries s) (s_pending s) (s_completed s) (s_failed s) (s_dest s) (s_all_ids s) (s_all_done s) (s_all_completed s) (s_all_failed s) (s_draws s) (s_strand_timers s) (f (s_job_timers s)) (s_log s).
Definition set_log (f : list obs -> list obs) (s : sched) : sched :=
  Sched (s_jobs s) (s_next s) (s_targets s) (s_loads s) (s_queue s) (s_qmap s) (s_graph s) (s_retries s) (s_pending s) (s_completed s) (s_failed s) (s_dest s) (s_all_ids s) (s_all_done s) (s_all_completed s) (s_all_failed s) (s_draws s) (s_strand_timers s) (s_job_timers s) (f (s_log s)).

Definition init : sched :=
  Sched ∅ 0 [] [] [] ∅ ∅ ∅ ∅ ∅ ∅ ∅ ∅ ∅ ∅ ∅ 0 [] [] [].

(** * Control: state, exceptions, fuel *)
Inductive outcome (A : Type) :=
| Ret (s : sched) (a : A)
| Exc (s : sched)
| OutOfFuel.
Arguments Ret {A} s a. Arguments Exc {A} s. Arguments OutOfFuel {A}.

Definition M (A : Type) := sched -> outcome A.
Definition ret {A} (a : A) : M A := fun s => Ret s a.
Definition raise {A} : M A := fun s => Exc s.
Definition seq_ {A B} (m : M A) (k : A -> M B) : M B := fun s =>
  match m s with Ret s' a => k a s' | Exc s' => Exc s' | OutOfFuel => OutOfFuel end.
Definition get {A} (f : sched -> A) : M A := fun s => Ret s (f s).
Definition upd (f : sched -> sched) : M unit := fun s => Ret (f s) tt.
Definition of_option {A} (o : option A) : M A := match o with Some a => ret a | None => raise end.
(** [try/except Exception: log] around a handler (util.log_errors; timer callbacks). *)
Definition swallow (m : M unit) : M unit := fun s =>
  match m s with Exc s' => Ret s' tt | o => o end.

Notation "'do' x <- m ; k" := (seq_ m (fun x => k)) (at level 200, x name, m at level 100, k at level 200).
Notation "m ;; k" := (seq_ m (fun _ => k)) (at level 100, k at level 200, right associativity).

Definition emit (o : obs) : M unit := upd (set_log (fun l => l ++ [o])).

(** A Job reference is always valid in Python. *)
Definition get_job (j : nat) : M job := fun s =>
  match s_jobs s !! j with Some x => Ret s x | None => Exc s end.
Definition upd_job (j : nat) (f : job -> job) : M unit := upd (set_jobs (alter f j)).

(** [for x in l: body] *)
Fixpoint for_each {A} (l : list A) (body : A -> M unit) : M unit :=
  match l with [] => ret tt | x :: r => body x ;; for_each r body end.

(** * Association lists as insertion-ordered dicts (for [pending[engine]]) *)
Fixpoint al_insert (k v : nat) (l : list (nat * nat)) : list (nat * nat) :=
  match l with
  | [] => [(k, v)]
  | (k', v') :: r => if decide (k = k') then (k, v) :: r else (k', v') :: al_insert k v r
  end.
Fixpoint al_lookup (k : nat) (l : list (nat * nat)) : option nat :=
  match l with
  | [] => None
  | (k', v') :: r => if decide (k = k') then Some v' else al_lookup k r
  end.
Fixpoint al_remove (k : nat) (l : list (nat * nat)) : list (nat * nat) :=
  match l with
  | [] => []
  | (k', v') :: r => if decide (k = k') then r else (k', v') :: al_remove k r
  end.

(** [list.index]: first position of [x]. *)
Fixpoint index_of (x : nat) (l : list nat) : option nat :=
  match l with
  | [] => None
  | y :: r => if decide (x = y) then Some 0 else option_map S (index_of x r)
  end.
(** [l.pop(i)] without the element. *)
Definition list_pop {A} (i : nat) (l : list A) : list A := take i l ++ drop (S i) l.
(** [lis.append(lis.pop(idx))] *)
Definition rotate {A} (i : nat) (l : list A) : list A :=
  match l !! i with Some x => list_pop i l ++ [x] | None => l end.

(** Insertion sort of Job references by timestamp = creation number (Job.__lt__, 124-125). *)
Fixpoint insert_sorted (x : nat) (l : list nat) : list nat :=
  match l with
  | [] => [x]
  | y :: r => if decide (x <= y) then x :: y :: r else y :: insert_sorted x r
  end.
Definition sort_jobs (l : list nat) : list nat := foldr insert_sorted [] l.

Section Scheduler.
(** Configuration: the high-water mark (141-157) and the scheme function (159-179).  The scheme
    gets the draw number first, so that a fixed function stands for any policy together with
    any sequence of random numbers. *)
Context (hwm : nat) (scheme : nat -> list Z -> nat).

(** 769-775 *)
Definition add_job (idx : nat) : M unit :=
  upd (set_loads (alter (fun x => (x + 1)%Z) idx)) ;;
  upd (set_targets (rotate idx)) ;;
  upd (set_loads (rotate idx)).

(** 777-780 *)
Definition finish_job (idx : nat) : M unit :=
  upd (set_loads (alter (fun x => (x - 1)%Z) idx)).

(** 490-498 *)
Definition available_engines (s : sched) : list nat :=
  if decide (hwm = 0) then seq 0 (length (s_targets s))
  else List.filter (fun idx => match s_loads s !! idx with
                               | Some l => bool_decide (l < Z.of_nat hwm)%Z
                               | None => false end)
              (seq 0 (length (s_targets s))).

(** 576-600.  [indices = None] stands for Python None (the list of indices is never empty). *)
Definition submit_task (j : nat) (indices : option (list nat)) : M unit :=
  do jb <- get_job j;
  do loads <- get (fun s => match indices with
                             | Some ix => omap (fun i => s_loads s !! i) ix         (* 579 *)
                             | None => s_loads s end);
  do k <- get s_draws;
  let idx := scheme k loads in                                                    (* 582 *)
  upd (set_draws S) ;;
  do idx <- (match indices with Some ix => of_option (ix !! idx) | None => ret idx end);
  do tg <- get s_targets;
  do target <- of_option (tg !! idx);                                             (* 585 *)
  emit (ObsSend (j_msg jb) target) ;;                                             (* 588-589 *)
  add_job idx ;;                                                                  (* 591 *)
  do pd <- get s_pending;
  do l <- of_option (pd !! target);
  upd (set_pending (<[target := al_insert (j_msg jb) j l]>)).                     (* 592 *)

(** [for mid in job.dependents: if mid in self.graph: self.graph[mid].remove(msg_id)]
    (464-466 and 743-745); [set.remove] raises KeyError when absent.
    Simplification: the set is visited in a fixed order. *)
Definition graph_remove (jb : job) : M unit :=
  for_each (elements (dependents jb)) (fun mid =>
    do g <- get s_graph;
    match g !! mid with
    | None => ret tt
    | Some ds => if decide (j_msg jb ∈ ds)
                 then upd (set_graph (<[mid := ds ∖ {[j_msg jb]}]>)) else raise
    end).

(** 455-488; [ug] is update_graph. *)
Definition fail_unreachable (ug : option nat -> M unit) (m : nat) (w : why) : M unit :=
  do qm <- get s_qmap;
  match qm !! m with
  | None => ret tt                                                                (* 458-460 *)
  | Some j =>
      upd (set_qmap (delete m)) ;;                                                (* 461 *)
      upd_job j set_removed ;;                                                    (* 463 *)
      do jb <- get_job j;
      graph_remove jb ;;                                                          (* 464-466 *)
      upd (set_all_done (fun X => {[m]} ∪ X)) ;;                                  (* 476 *)
      upd (set_all_failed (fun X => {[m]} ∪ X)) ;;                                (* 477 *)
      emit (ObsReply m (Unreachable w)) ;;                                        (* 479-485 *)
      ug (Some m)                                                                 (* 488 *)
  end.

(** 511-523, the local predicate [can_run]; a missing key is KeyError ([None]). *)
Definition can_run (s : sched) (jb : job) (idx : nat) : option bool :=
  match s_loads s !! idx, s_targets s !! idx with
  | Some load, Some target =>
      if decide (hwm <> 0 /\ load = Z.of_nat hwm) then Some false                 (* 513-514 *)
      else if decide (target ∈ j_blacklist jb) then Some false                    (* 517-518 *)
      else if decide (j_targets jb <> ∅ /\ target ∉ j_targets jb) then Some false (* 520-521 *)
      else match s_completed s !! target, s_failed s !! target with
           | Some c, Some f => Some (check (j_follow jb) c f)                     (* 523 *)
           | _, _ => None
           end
  | _, _ => None
  end.

(** [list(filter(can_run, available))], 525 *)
Fixpoint filter_can_run (s : sched) (jb : job) (l : list nat) : option (list nat) :=
  match l with
  | [] => Some []
  | i :: r =>
      match can_run s jb i with
      | None => None
      | Some b => match filter_can_run s jb r with
                  | None => None
                  | Some r' => Some (if b then i :: r' else r')
                  end
      end
  end.

(** 531-538: the engines where the finished tasks of [follow] ran; KeyError if one of them has
    no recorded destination. *)
Definition follow_dests (s : sched) (jb : job) : option (gset nat) :=
  let relevant := if d_success (j_follow jb) then s_all_completed s else ∅ in
  let relevant := if d_failure (j_follow jb) then relevant ∪ s_all_failed s else relevant in
  foldr (fun m acc => match acc, s_dest s !! m with
                      | Some X, Some e => Some ({[e]} ∪ X)
                      | _, _ => None end)
        (Some ∅) (elements (d_ids (j_follow jb) ∩ relevant)).

(** 543-549: with explicit targets, check that one of them remains. *)
Definition check_targets (ug : option nat -> M unit) (j : nat) : M bool :=
  do jb <- get_job j;
  if decide (j_targets jb = ∅) then ret false
  else
    upd_job j (fun x => set_jtargets (j_targets x ∖ j_blacklist x) x) ;;          (* 545 *)
    do jb <- get_job j;
    do tg <- get s_targets;
    if decide (j_targets jb = ∅ \/ j_targets jb ∩ list_to_set tg = ∅) then        (* 546 *)
      upd (set_qmap (<[j_msg jb := j]>)) ;;                                       (* 547 *)
      fail_unreachable ug (j_msg jb) ImpossibleDep ;;                             (* 548 *)
      ret false
    else ret false.

(** 500-555 *)
Definition maybe_run (ug : option nat -> M unit) (j : nat) : M bool :=
  do jb <- get_job j;
  do available <- get available_engines;
  if decide (available = []) then ret false                                       (* 505-507 *)
  else if decide (d_ids (j_follow jb) <> ∅ \/ j_targets jb <> ∅ \/ j_blacklist jb <> ∅ \/ hwm <> 0) then
    do oix <- get (fun s => filter_can_run s jb available);
    do indices <- of_option oix;                                                  (* 525 *)
    if decide (indices = []) then
      if d_all (j_follow jb) then                                                 (* 529 *)
        do od <- get (fun s => follow_dests s jb);
        do dests <- of_option od;                                                 (* 531-538 *)
        if decide (1 < size dests) then                                           (* 539 *)
          upd (set_qmap (<[j_msg jb := j]>)) ;;
          fail_unreachable ug (j_msg jb) ImpossibleDep ;;
          ret false
        else check_targets ug j
      else check_targets ug j
    else submit_task j (Some indices) ;; ret true
  else submit_task j None ;; ret true.

(** 557-574 *)
Definition save_unmet (j : nat) : M unit :=
  do jb <- get_job j;
  upd (set_qmap (<[j_msg jb := j]>)) ;;                                           (* 561 *)
  upd (set_queue (fun q => q ++ [j])) ;;                                          (* 562 *)
  do dn <- get s_all_done;
  for_each (elements ((d_ids (j_after jb) ∪ d_ids (j_follow jb)) ∖ dn)) (fun d => (* 564-567 *)
    upd (set_graph (fun g => <[d := {[j_msg jb]} ∪ default ∅ (g !! d)]> g))) ;;
  if j_timeout jb then                                                            (* 570-574 *)
    upd_job j (fun x => set_timeout_id (S (j_timeout_id x)) x) ;;
    upd (set_job_timers (fun l => l ++ [(j, S (j_timeout_id jb))]))
  else ret tt.

(** 731-753: what update_graph does with one job popped from its work list.
    Result: (put_it_back, abort the loop). *)
Definition ug_body (ug : option nat -> M unit) (j : nat) : M (bool * bool) :=
  do jb <- get_job j;
  do c <- get s_all_completed;
  do f <- get s_all_failed;
  if unreachable (j_after jb) c f || unreachable (j_follow jb) c f then           (* 731-733 *)
    fail_unreachable ug (j_msg jb) ImpossibleDep ;; ret (false, false)
  else if check (j_after jb) c f then                                             (* 737 *)
    do ran <- maybe_run ug j;                                                     (* 740 *)
    if (ran : bool) then
      do qm <- get s_qmap;
      if decide (is_Some (qm !! j_msg jb)) then
        upd (set_qmap (delete (j_msg jb))) ;;                                     (* 742 *)
        do jb <- get_job j;
        graph_remove jb ;;                                                        (* 743-745 *)
        do av <- get available_engines;
        ret (false, bool_decide (av = []))                                        (* 752-753 *)
      else raise                                                                  (* KeyError *)
    else ret (true, false)
  else ret (true, false).

(** 722-759 when [jobs] is [self.queue]: the loop pops from the live queue.  Returns
    [to_restore]. *)
Fixpoint queue_loop (ug : option nat -> M unit) (fuel : nat) (to_restore : list nat) : M (list nat) :=
  match fuel with
  | O => fun _ => OutOfFuel
  | S fuel =>
      do q <- get s_queue;
      match q with
      | [] => ret to_restore
      | j :: q' =>
          upd (set_queue (fun _ => q')) ;;                                        (* 724 *)
          do jb <- get_job j;
          if j_removed jb then queue_loop ug fuel to_restore                      (* 725-726 *)
          else
            do r <- ug_body ug j;
            let to_restore := if fst r then to_restore ++ [j] else to_restore in  (* 755-759 *)
            if snd r then ret to_restore else queue_loop ug fuel to_restore
      end
  end.

(** 722-759 when [jobs] is a private list of waiting jobs. *)
Fixpoint list_loop (ug : option nat -> M unit) (jobs : list nat) : M unit :=
  match jobs with
  | [] => ret tt
  | j :: r =>
      do jb <- get_job j;
      if j_removed jb then list_loop ug r
      else do b <- ug_body ug j; if (snd b : bool) then ret tt else list_loop ug r
  end.

(** 691-763 *)
Fixpoint update_graph (fuel : nat) (dep_id : option nat) : M unit :=
  match fuel with
  | O => fun _ => OutOfFuel
  | S n =>
      do g <- get s_graph;
      let msg_ids := match dep_id with Some d => default ∅ (g !! d) | None => ∅ end in
      upd (set_graph (fun g => match dep_id with Some d => delete d g | None => g end)) ;;  (* 705 *)
      do lds <- get s_loads;
      if decide (dep_id = None \/ (hwm <> 0 /\ (Z.of_nat hwm - 1)%Z ∈ lds)) then  (* 711-715 *)
        do back <- queue_loop (update_graph n) fuel [];
        upd (set_queue (fun q => reverse back ++ q))                              (* 763: extendleft *)
      else
        do qm <- get s_qmap;
        match mapM (fun m => qm !! m) (elements msg_ids) with
        | None => raise                                                           (* KeyError, 720 *)
        | Some js => list_loop (update_graph n) (sort_jobs js)                    (* 720 *)
        end
  end.

(** 259-271 *)
Definition register_engine (fuel : nat) (e : nat) : M unit :=
  emit (ObsRegister e) ;;
  upd (set_targets (cons e)) ;;
  upd (set_loads (cons 0%Z)) ;;
  upd (set_completed (<[e := ∅]>)) ;;
  upd (set_failed (<[e := ∅]>)) ;;
  upd (set_pending (<[e := []]>)) ;;
  update_graph fuel None.

(** 273-299.  The flush of line 280 is the processing of earlier result events. *)
Definition unregister_engine (e : nat) : M unit :=
  emit (ObsUnregister e) ;;
  do tg <- get s_targets;
  do idx <- of_option (index_of e tg);                                            (* 287 *)
  upd (set_targets (list_pop idx)) ;;
  upd (set_loads (list_pop idx)) ;;
  do pd <- get s_pending;
  do l <- of_option (pd !! e);
  if decide (l = []) then
    upd (set_completed (delete e)) ;; upd (set_failed (delete e))                 (* 298-299 *)
  else upd (set_strand_timers (fun t => t ++ [e])).                               (* 294-296 *)

(** 665-689 *)
Definition handle_unmet_dependency (fuel : nat) (e m : nat) : M unit :=
  do pd <- get s_pending;
  do l <- of_option (pd !! e);
  do j <- of_option (al_lookup m l);
  upd (set_pending (<[e := al_remove m l]>)) ;;                                   (* 670 *)
  upd_job j (add_blacklist e) ;;                                                  (* 671 *)
  do jb <- get_job j;
  (if decide (j_blacklist jb = j_targets jb) then                                 (* 673-675 *)
     upd (set_qmap (<[m := j]>)) ;;
     fail_unreachable (update_graph fuel) m ImpossibleDep
   else
     do ran <- maybe_run (update_graph fuel) j;                                   (* 676 *)
     if (ran : bool) then ret tt
     else
       do fl <- get s_all_failed;
       if decide (m ∈ fl) then ret tt else save_unmet j) ;;                       (* 678-680 *)
  if decide (hwm = 0) then ret tt                                                 (* 682 *)
  else
    do tg <- get s_targets;
    match index_of e tg with
    | None => ret tt
    | Some idx =>
        do lds <- get s_loads;
        if decide (lds !! idx = Some (Z.of_nat hwm - 1)%Z) then update_graph fuel None  (* 688-689 *)
        else ret tt
    end.

(** 642-663 *)
Definition handle_result (fuel : nat) (e m : nat) (success : bool) : M unit :=
  emit (ObsReply m (FromEngine e success)) ;;                                     (* 650 *)
  do pd <- get s_pending;
  do l <- of_option (pd !! e);
  do _j <- of_option (al_lookup m l);
  upd (set_pending (<[e := al_remove m l]>)) ;;                                   (* 653 *)
  (if success then
     do c <- get s_completed;
     do X <- of_option (c !! e);
     upd (set_completed (<[e := {[m]} ∪ X]>)) ;;                                  (* 655 *)
     upd (set_all_completed (fun X => {[m]} ∪ X))                                 (* 656 *)
   else
     do f <- get s_failed;
     do X <- of_option (f !! e);
     upd (set_failed (<[e := {[m]} ∪ X]>)) ;;                                     (* 658 *)
     upd (set_all_failed (fun X => {[m]} ∪ X))) ;;                                (* 659 *)
  upd (set_all_done (fun X => {[m]} ∪ X)) ;;                                      (* 660 *)
  upd (set_dest (<[m := e]>)) ;;                                                  (* 661 *)
  update_graph fuel (Some m).                                                     (* 663 *)

(** 606-640 (without the decorator) *)
Definition dispatch_result (fuel : nat) (e m : nat) (k : rkind) : M unit :=
  emit (ObsResult m e k) ;;
  do tg <- get s_targets;
  (match index_of e tg with Some idx => finish_job idx | None => ret tt end) ;;   (* 613-618 *)
  match k with
  | RUnmet => handle_unmet_dependency fuel e m                                    (* 640 *)
  | _ =>
      let success := match k with ROk => true | _ => false end in
      do rt <- get s_retries;
      do retries <- of_option (rt !! m);                                          (* 628 *)
      if decide (success = false /\ 0 < retries) then
        upd (set_retries (<[m := retries - 1]>)) ;;                               (* 631 *)
        handle_unmet_dependency fuel e m
      else
        upd (set_retries (delete m)) ;;                                           (* 634 *)
        handle_result fuel e m success
  end.

(** 301-332 *)
Definition handle_stranded_tasks (fuel : nat) (e : nat) : M unit :=
  do pd <- get s_pending;
  do lost <- of_option (pd !! e);
  for_each (map fst lost) (fun m =>
    do pd <- get s_pending;
    do l <- of_option (pd !! e);
    match al_lookup m l with
    | None => ret tt                                                              (* 305-307 *)
    | Some _ => swallow (dispatch_result fuel e m RErr)                           (* 328 *)
    end) ;;
  do c <- get s_completed;
  do _x <- of_option (c !! e);
  upd (set_completed (delete e)) ;;                                               (* 331 *)
  do f <- get s_failed;
  do _x <- of_option (f !! e);
  upd (set_failed (delete e)).                                                    (* 332 *)

(** 366-390: building the [after] dependency of the job. *)
Definition build_after (after : dep) (completed failed : gset nat) : dep :=
  let after :=
    if d_all after then
      let after := if d_success after
                   then Dep (d_ids after ∖ completed) (d_all after) (d_success after) (d_failure after)
                   else after in
      if d_failure after
      then Dep (d_ids after ∖ failed) (d_all after) (d_success after) (d_failure after)
      else after
    else after in
  if check after completed failed then Dep ∅ true true false                      (* MET, 89 *)
  else after.

(** 338-432 (without the decorator).  An [after] given as a list is the dict with defaults. *)
Definition dispatch_submission (fuel : nat) (m : nat) (md : taskmd) : M unit :=
  emit (ObsSubmit m md) ;;
  upd (set_all_ids (fun X => {[m]} ∪ X)) ;;                                       (* 356 *)
  upd (set_retries (<[m := t_retries md]>)) ;;                                    (* 364 *)
  do after0 <- (match from_dict (t_after md) with Prelude.Ok d => ret d | _ => raise end);
  do c <- get s_all_completed;
  do f <- get s_all_failed;
  let after := build_after after0 c f in
  do follow <- (match from_dict (t_follow md) with Prelude.Ok d => ret d | _ => raise end);  (* 393 *)
  do j <- get s_next;
  upd (set_next S) ;;
  upd (set_jobs (<[j := Job m md (list_to_set (t_targets md)) after follow (t_timeout md) false 0 ∅]>)) ;;
  do ids <- get s_all_ids;
  let bad d := bool_decide (d_ids d <> ∅ /\ (m ∈ d_ids d \/ ~ d_ids d ⊆ ids)) in  (* 413-416 *)
  let unr d := bool_decide (d_ids d <> ∅) && unreachable d c f in                 (* 420 *)
  let fail w := upd (set_qmap (<[m := j]>)) ;; fail_unreachable (update_graph fuel) m w in
  if bad after then fail InvalidDep
  else if unr after then fail ImpossibleDep
  else if bad follow then fail InvalidDep
  else if unr follow then fail ImpossibleDep
  else if check after c f then                                                    (* 424 *)
    do ran <- maybe_run (update_graph fuel) j;
    if (ran : bool) then ret tt
    else
      do fl <- get s_all_failed;
      if decide (m ∈ fl) then ret tt else save_unmet j                            (* 428-430 *)
  else save_unmet j.                                                              (* 432 *)

(** 434-453 *)
Definition job_timeout (fuel : nat) (j tid : nat) : M unit :=
  do jb <- get_job j;
  if decide (j_timeout_id jb = tid) then                                          (* 439 *)
    do qm <- get s_qmap;
    if decide (is_Some (qm !! j_msg jb))                                          (* 450 *)
    then fail_unreachable (update_graph fuel) (j_msg jb) TaskTimeout
    else ret tt
  else ret tt.

(** The events the scheduler reacts to. *)
Inductive event :=
| EvSubmit (m : nat) (md : taskmd)
| EvResult (m e : nat) (k : rkind)
| EvRegister (e : nat)
| EvUnregister (e : nat)
| EvStrandTimer (e : nat)        (* a 5 s timer armed for e fires *)
| EvJobTimer (j tid : nat).      (* a job timer fires *)

(** A timer callback runs only if the timer is armed, and disarms it. *)
Definition handle (fuel : nat) (ev : event) : M unit :=
  match ev with
  | EvSubmit m md => dispatch_submission fuel m md
  | EvResult m e k => dispatch_result fuel e m k
  | EvRegister e => register_engine fuel e
  | EvUnregister e => unregister_engine e
  | EvStrandTimer e =>
      do t <- get s_strand_timers;
      match index_of e t with
      | None => ret tt
      | Some i => upd (set_strand_timers (list_pop i)) ;; handle_stranded_tasks fuel e
      end
  | EvJobTimer j tid =>
      do t <- get s_job_timers;
      if decide ((j, tid) ∈ t) then
        upd (set_job_timers (filter (fun x => x <> (j, tid)))) ;; job_timeout fuel j tid
      else ret tt
  end.

(** One event; exceptions are logged and dropped (util.py 97-122; 254-257; the event loop).
    [None]: not enough fuel. *)
Definition step (fuel : nat) (s : sched) (ev : event) : option sched :=
  match swallow (handle fuel ev) s with Ret s' _ => Some s' | Exc s' => Some s' | OutOfFuel => None end.

Fixpoint run (fuel : nat) (s : sched) (evs : list event) : option sched :=
  match evs with
  | [] => Some s
  | ev :: r => match step fuel s ev with Some s' => run fuel s' r | None => None end
  end.
End Scheduler.
