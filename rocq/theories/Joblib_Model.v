(** The joblib backend: ipyparallel/client/_joblib.py.
    Simplified: clients, clusters are numbers; what happens to clusters while
    they start and stop is not modelled (Cluster_Model), nor how jobs get to
    engines; joblib's own classes (batching) are not modelled. *)
From Coq Require Import List Bool Arith.
From Verif Require Import Joblib_Spec.
Import ListNotations.

Definition upd {A} (f : nat -> A) (k : nat) (v : A) : nat -> A :=
  fun x => if Nat.eqb x k then v else f x.
Definition set_open (w : world) c b := World (upd (open w) c b) (running w) (sets w) (pickles w) (fresh w).
Definition set_running (w : world) c b := World (open w) (upd (running w) c b) (sets w) (pickles w) (fresh w).
Definition set_sets (w : world) c n := World (open w) (running w) (upd (sets w) c n) (pickles w) (fresh w).
Definition set_pickles (w : world) c p := World (open w) (running w) (sets w) (upd (pickles w) c p) (fresh w).
Definition take (w : world) : nat * world := (fresh w, World (open w) (running w) (sets w) (pickles w) (S (fresh w))).

(** The attributes _view, _client_owner, _cluster_owner, _cluster *)
Record backend := Backend { b_view : view; client_owner : bool; cluster_owner : bool; b_cluster : option nat }.
Inductive made := Made (b : backend) | Raised | Waits_forever.

(** _joblib.py 35: cluster.n or 1 *)
Definition wanted (e : env) : nat := match size e with Some 0 | None => 1 | Some n => n end.

(** 34-52: connect to cluster [c], wait for engines (client.py 1449-1560,
    without a timeout), make a view (of all engines), choose a pickler *)
Definition connect (owner : bool) (c : nat) (e : env) (w : world) : world * made :=
  if fails e Connect then (w, Raised)
  else
    let '(rc, w) := take w in
    let w := set_open w rc true in
    if registered e <? wanted e then (w, Waits_forever)
    else
      let b := Backend (View rc All) true owner (if owner then Some c else None) in
      if has_cloudpickle e then
        if fails e Configure then (w, Raised) else (set_pickles w rc Cloud, Made b)
      else if has_dill e then
        if fails e Configure then (w, Raised) else (set_pickles w rc Dill, Made b)
      else (w, Made b).

(** 12-53: __init__ *)
Definition construct (v : option view) (e : env) (w : world) : world * made :=
  match v with
  | Some v => (w, Made (Backend v false false None))
  | None =>
    match cluster_file e with
    | Unreadable => (w, Raised)
    | Missing =>
      if fails e NewCluster then (w, Raised)
      else
        let '(c, w) := take w in
        if fails e StartCluster then (set_running w c (half e), Raised)
        else connect true c e (set_sets (set_running w c true) c 1)
    | Found c =>
      if Nat.eqb (sets w c) 0 then
        (* cluster.py 680-714: the set is kept before it is started *)
        if fails e StartEngines then (set_sets w c 1, Raised)
        else connect false c e (set_sets w c 1)
      else connect false c e w
    end
  end.

(** 55-57: effective_n_jobs; view.py 130-136 *)
Definition effective_n_jobs (b : backend) (engines : nat) : nat :=
  match on (b_view b) with Some_of l => length l | One _ => 1 | All => engines end.

(** 59-64: terminate; client.py 1385-1402, cluster.py 872-874. True: returns *)
Definition terminate (b : backend) (e : env) (w : world) : world * bool :=
  let stop w :=
    if cluster_owner b then
      match b_cluster b with
      | Some c => if fails e StopCluster then (w, false) else (set_sets (set_running w c false) c 0, true)
      | None => (w, false)
      end
    else (w, true) in
  if client_owner b then
    if fails e CloseClient then (w, false) else stop (set_open w (client (b_view b)) false)
  else stop w.

(** 66-71: apply_async, with concurrent.futures: a job is sent; then, if there
    is a callback, it is added to the future, or called at once if the future
    is done; the thread of the client resolves the future, then calls what was
    added. What a callback raises is logged. *)
Inductive fut := Pending | Resolved (o : outcome).
Inductive at_ := Unsent | Sent (callback : bool) | Submitted.
Record job := Job { where_ : at_; future : fut; added : bool; to_call : bool }.
Definition jobs := nat -> job.
Definition j0 : jobs := fun _ => Job Unsent Pending false false.
(** 70: lambda f: callback(f.result()) *)
Definition call (i : nat) (f : fut) : list event :=
  match f with Resolved (Value v) => [Calls i v] | _ => [] end.
Inductive jstep : jobs -> list event -> jobs -> Prop :=
| J_send s i cb f a t : s i = Job Unsent f a t ->
    jstep s [Sends i cb] (upd s i (Job (Sent cb) f a t))
| J_no_callback s i f a t : s i = Job (Sent false) f a t ->
    jstep s [] (upd s i (Job Submitted f a t))
| J_add s i a t : s i = Job (Sent true) Pending a t ->
    jstep s [] (upd s i (Job Submitted Pending true t))
| J_at_once s i o a t : s i = Job (Sent true) (Resolved o) a t ->
    jstep s (call i (Resolved o)) (upd s i (Job Submitted (Resolved o) a t))
| J_resolve s i p a t o : s i = Job p Pending a t -> p <> Unsent ->
    jstep s [Done i o] (upd s i (Job p (Resolved o) false a))
| J_call s i p f a : s i = Job p f a true ->
    jstep s (call i f) (upd s i (Job p f a false)).
(** What has happened, from the beginning *)
Inductive jrun : list event -> jobs -> Prop :=
| jrun_start : jrun [] j0
| jrun_on l s k t : jrun l s -> jstep s k t -> jrun (l ++ k) t.
