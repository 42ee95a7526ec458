(** What is expected of the joblib backend (property C91). *)
From Coq Require Import List.
Import ListNotations.

(** What there is: which clients (numbered) are open, which clusters
    (numbered) run, how many engine sets each cluster has, how each client
    pickles functions. Numbers from [fresh] on are not taken yet. *)
Inductive pickler := Plain | Dill | Cloud.
Record world := World {
  open : nat -> bool;
  running : nat -> bool;
  sets : nat -> nat;
  pickles : nat -> pickler;
  fresh : nat }.
Definition sane (w : world) : Prop :=
  forall c, fresh w <= c -> open w c = false /\ running w c = false.

(** What can go wrong. *)
Inductive op := NewCluster | StartCluster | StartEngines | Connect | Configure | CloseClient | StopCluster.
(** The cluster file: of a cluster, none, or one that cannot be read. *)
Inductive file := Found (c : nat) | Missing | Unreadable.
(** The rest of the world: the cluster file; the number of engines of the
    cluster, if it is set; how many engines register with it in the end; what
    goes wrong; whether a start that fails leaves something running; what can
    be imported. *)
Record env := Env {
  cluster_file : file;
  size : option nat;
  registered : nat;
  fails : op -> bool;
  half : bool;
  has_cloudpickle : bool;
  has_dill : bool }.

(** A view: its client, its targets. *)
Inductive targets := All | One (e : nat) | Some_of (l : list nat).
Record view := View { client : nat; on : targets }.

(** The best pickler there is. *)
Definition best (e : env) : pickler :=
  if has_cloudpickle e then Cloud else if has_dill e then Dill else Plain.

(** What a job comes to. *)
Inductive outcome := Value (v : nat) | Error.

(** What happens to job [i]: it is sent (with a callback or not), it is done,
    its callback is called with [v]. *)
Inductive event := Sends (i : nat) (callback : bool) | Done (i : nat) (o : outcome) | Calls (i : nat) (v : nat).
Definition job_of (e : event) : nat := match e with Sends i _ | Done i _ | Calls i _ => i end.
Definition of_job (i : nat) (l : list event) : list event := filter (fun e => Nat.eqb (job_of e) i) l.
(** All that ever happens to a job that comes to [o]. *)
Definition story (i : nat) (callback : bool) (o : outcome) : list event :=
  [Sends i callback; Done i o] ++
  match callback, o with true, Value v => [Calls i v] | _, _ => [] end.
Definition prefix (l m : list event) : Prop := exists r, m = l ++ r.
