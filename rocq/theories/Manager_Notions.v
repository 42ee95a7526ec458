(** Notions that the theorems of C83 are stated with. *)
From Coq Require Import NArith String List Bool.
From Verif Require Import Batch_Spec Manager_Spec Manager_Model.
Import ListNotations.

(** [s] is the state of the controller or of a set of engines of the cluster object *)
Definition component (c : cluster) (s : lstate) : Prop := controller c = Some s \/ exists k, In (k, s) (engines c).
(** It has had a controller, and all there is has stopped *)
Definition has_stopped (c : cluster) : Prop := (exists s, controller c = Some s) /\ forall s, component c s -> s = After.
(** Something of it has not stopped *)
Definition runs (c : cluster) : Prop := exists s, component c s /\ s <> After.
(** A cluster of the manager that has not stopped has this file *)
Definition known (s : state) (f : path) : Prop := exists k c, In (k, c) (clusters s) /\ ~ has_stopped c /\ cluster_file c = f.
(** The cluster object has what [i] says, as far as there are processes of it *)
Definition is_cluster_of (alive : N -> bool) (i : info) (c : cluster) : Prop :=
  profile_dir c = profile i /\ cluster_id c = ident i /\ (forall s, component c s -> s = Running) /\
  (controller c <> None <-> exists p, control i = Some p /\ alive p = true) /\
  (forall k, In k (map fst (engines c)) <-> exists ps p, In (k, ps) (sets i) /\ In p ps /\ alive p = true).
(** [c] was made from a file that was found *)
Definition loaded (home : path) (alive : N -> bool) (dirs : list path) (s : state) (k : list N) (c : cluster) : Prop :=
  exists dir i r, In dir dirs /\ is_cluster_file dir (cluster_file c) /\ on (files s) (cluster_file c) (File (Says i) r) /\ ~ known s (cluster_file c) /\
    is_cluster_of alive i c /\ k = cluster_key home (profile i) (ident i) /\ (next s <= serial c)%N.
(** [j] says of the processes of [i] those that exist *)
Definition survivors (alive : N -> bool) (i j : info) : Prop :=
  profile j = profile i /\ ident j = ident i /\ forall p, In p (processes j) <-> In p (processes i) /\ alive p = true.

(** What happens to a manager: calls, and everything else: clusters of it change their state, processes and files come and go *)
Definition same (a b : cluster) : Prop := serial a = serial b /\ cluster_file a = cluster_file b /\ profile_dir a = profile_dir b /\ cluster_id a = cluster_id b.
Inductive event := Load | New | Forget (k : list N) | Around.
Inductive step (home : path) : state * (N -> bool) -> event -> state * (N -> bool) -> Prop :=
| Step_load s alive locate all w init : step home (s, alive) Load (fst (load_clusters home alive locate all w init s), alive)
| Step_new s alive dir id k s' : new_cluster home dir id s = Some (k, s') -> step home (s, alive) New (s', alive)
| Step_forget s alive k s' : remove_cluster k s = Some s' -> step home (s, alive) (Forget k) (s', alive)
| Step_around s alive l d alive' :
    Forall2 (fun a b => fst a = fst b /\ same (snd a) (snd b)) (clusters s) l -> NoDup (map fst d) ->
    step home (s, alive) Around (State l (next s) d, alive').
Inductive reachable (home : path) : state * (N -> bool) -> Prop :=
| Reach_start n d alive : NoDup (map fst d) -> reachable home (State [] n d, alive)
| Reach_step s e s' : reachable home s -> step home s e s' -> reachable home s'.
(** A run in which, whenever clusters are loaded, [ok] holds *)
Inductive run (home : path) (ok : event -> state * (N -> bool) -> Prop) : state * (N -> bool) -> state * (N -> bool) -> Prop :=
| Run_here s : run home ok s s
| Run_on s e s' t : ok e s -> step home s e s' -> run home ok s' t -> run home ok s t.
