(** What cluster files are and what they say (C83).  Independent of the code. Characters are their code points. *)
From Coq Require Import NArith String List Bool.
From Verif Require Import Batch_Spec.
Import ListNotations.

Definition path := list N.
(** What a cluster file says: whose it is, the process of the controller and the processes of each set of engines *)
Record info := Info { profile : path; ident : list N; control : option N; sets : list (list N * list N) }.
Definition processes (i : info) : list N := match control i with Some p => [p] | None => [] end ++ concat (map snd (sets i)).
(** There is a process of the cluster *)
Definition live (alive : N -> bool) (i : info) : Prop := exists p, In p (processes i) /\ alive p = true.

(** A file: its content, if it can be understood as that of a cluster file, and whether it can be removed *)
Inductive content := Unreadable | Says (i : info).
Record file := File { text : content; removable : bool }.

(** The first pair of a list of pairs *)
Fixpoint get {A} (k : list N) (l : list (list N * A)) : option A :=
  match l with [] => None | (j, a) :: r => if eqs k j then Some a else get k r end.
Definition on {A} (l : list (list N * A)) (k : list N) (a : A) : Prop := get k l = Some a.

(** The file names that a directory may have; a shell pattern DIR/FOLDER/BEFORE*AFTER *)
Definition fits (dir : path) (before after : string) (f : path) : Prop :=
  exists x, f = dir ++ lit before ++ x ++ lit after /\ ~ In 47%N x.
Definition is_cluster_file (dir : path) : path -> Prop := fits dir "/security/cluster-" ".json".
Definition is_connection_file (dir : path) : path -> Prop := fits dir "/security/ipcontroller-" ".json".
Definition is_log_file (dir : path) (f : path) : Prop := fits dir "/log/" "" f /\ ~ exists x, f = dir ++ lit "/log/." ++ x.
