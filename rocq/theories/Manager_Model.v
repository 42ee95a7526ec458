(** Model of ClusterManager and clean_cluster_files (ipyparallel/cluster/cluster.py 920-1099), of Cluster.from_file and from_dict (465-559) as they use the processes and the file,
    of Cluster._is_running and update_cluster_file (577-598) and of abbreviate_profile_dir (util.py 656-663).
    Simplifications: launchers are local ones (LocalProcessLauncher, LocalEngineSetLauncher: launcher.py 491-505, 731-749): a process is running iff there is a process of its number.
    Directories are absolute, without a trailing slash and without characters that glob interprets. Files that can be read can be written; what a file says besides
    [info] is left out, so that a file is rewritten iff a process is gone. [serial] tells cluster objects apart. *)
From Coq Require Import NArith String List Bool.
From Verif Require Import Batch_Spec Manager_Spec.
Import ListNotations.

(** Launcher.state (launcher.py 132) *)
Inductive lstate := Before | Running | After.
Definition not_after (s : lstate) : bool := match s with After => false | _ => true end.
Record cluster := Cluster { serial : N; cluster_file : path; profile_dir : path; cluster_id : list N; controller : option lstate; engines : list (list N * lstate) }.
(** 577-583 *)
Definition is_running (c : cluster) : bool :=
  match controller c with Some s => not_after s | None => false end || existsb (fun e => not_after (snd e)) (engines c).

(** d[k] = a; del d[k] *)
Fixpoint put {A} (k : list N) (a : A) (l : list (list N * A)) : list (list N * A) :=
  match l with [] => [(k, a)] | (j, b) :: r => if eqs k j then (k, a) :: r else (j, b) :: put k a r end.
Fixpoint del {A} (k : list N) (l : list (list N * A)) : list (list N * A) :=
  match l with [] => [] | (j, b) :: r => if eqs k j then r else (j, b) :: del k r end.
Definition has {A} (k : list N) (l : list (list N * A)) : bool := match get k l with Some _ => true | None => false end.

(** s[len(p):] if s.startswith(p) *)
Fixpoint after (p s : list N) : option (list N) :=
  match p, s with
  | [], _ => Some s
  | a :: p, b :: s => if N.eqb a b then after p s else None
  | _, [] => None
  end.
(** util.py 656-663; [home] is get_ipython_dir() *)
Definition abbreviate (home dir : path) : path := match after (home ++ lit "/profile_") dir with Some r => r | None => dir end.
(** cluster.py 929-934 *)
Definition cluster_key (home dir : path) (id : list N) : list N := abbreviate home dir ++ lit ":" ++ id.
Definition key_of (home : path) (c : cluster) : list N := cluster_key home (profile_dir c) (cluster_id c).
(** 145-149 *)
Definition default_file (dir : path) (id : list N) : path := dir ++ lit "/security/cluster-" ++ id ++ lit ".json".

(** glob.glob(dir + before + "*" + after): names in the one folder; a leading dot is not matched by * *)
Definition glob1 (dir : path) (before suffix : string) (f : path) : bool :=
  match after (dir ++ lit before) f with
  | None => false
  | Some r =>
      let x := firstn (length r - length (lit suffix)) r in
      eqs (x ++ lit suffix) r && negb (existsb (N.eqb 47) x)
  end.
Definition disk := list (path * file).
(** 936-942 *)
Definition cluster_files (d : disk) (dir : path) : list path := filter (glob1 dir "/security/cluster-" ".json") (map fst d).
(** 1096-1097 *)
Definition connection_files (d : disk) (dir : path) : list path := filter (glob1 dir "/security/ipcontroller-" ".json") (map fst d).
(** 1094 *)
Definition log_files (d : disk) (dir : path) : list path :=
  filter (fun f => glob1 dir "/log/" "" f && match after (dir ++ lit "/log/.") f with Some _ => false | None => true end) (map fst d).

(** 487-521: what is left of the processes. An engine set without a process is dropped (launcher.py 742-745). *)
Definition reload (alive : N -> bool) (i : info) : info :=
  Info (profile i) (ident i) (match control i with Some p => if alive p then Some p else None | None => None end)
    (filter (fun s => match snd s with [] => false | _ => true end) (map (fun s => (fst s, filter alive (snd s))) (sets i))).
Definition info_eq_dec (i j : info) : {i = j} + {i <> j}.
Proof. repeat decide equality. Defined.
Definition restored (n : N) (f : path) (i : info) : cluster :=
  Cluster n f (profile i) (ident i) (match control i with Some _ => Some Running | None => None end) (map (fun s => (fst s, Running)) (sets i)).
(** 527-559, 464-525: the cluster, unless an exception is raised, and the disk *)
Definition from_file (alive : N -> bool) (n : N) (f : path) (d : disk) : disk * option cluster :=
  match get f d with
  | None | Some (File Unreadable _) => (d, None)
  | Some (File (Says i) r) =>
      let j := reload alive i in
      let c := restored n f j in
      if info_eq_dec j i then (d, Some c)
      else if is_running c then (put f (File (Says j) r) d, Some c)                     (* 585-598 *)
      else if r then (del f d, Some c) else (d, None)                                  (* PermissionError out of 571 *)
  end.

(** The manager, and what is around it *)
Record state := State { clusters : list (list N * cluster); next : N; files : disk }.
Definition add (home : path) (c : cluster) (s : state) : state := State (put (key_of home c) c (clusters s)) (N.succ (next s)) (files s).
(** 976-982 *)
Definition stopped (c : cluster) : bool := match controller c with Some _ => negb (is_running c) | None => false end.
Definition drop_stopped (l : list (list N * cluster)) : list (list N * cluster) := filter (fun kc => negb (stopped (snd kc))) l.
(** 1011-1023 *)
Definition load_file (home : path) (alive : N -> bool) (known : list path) (s : state) (f : path) : state :=
  if existsb (eqs f) known then s
  else match from_file alive (next s) f (files s) with
       | (d, Some c) => add home c (State (clusters s) (next s) d)
       | (d, None) => State (clusters s) (next s) d
       end.
(** 1005-1009 *)
Definition load_default (home dir : path) (s : state) : state :=
  let c := Cluster (next s) (default_file dir []) dir [] None [] in
  if has (key_of home c) (clusters s) then s else add home c s.
(** 1000-1023 *)
Definition load_dir (home : path) (alive : N -> bool) (init : bool) (known : list path) (s : state) (dir : path) : state :=
  let cluster_files := cluster_files (files s) dir in
  let s := if init then match cluster_files with [] => load_default home dir s | _ => s end else s in
  fold_left (load_file home alive known) cluster_files s.
Definition load (home : path) (alive : N -> bool) (init : bool) (dirs : list path) (s : state) : state :=
  let kept := drop_stopped (clusters s) in
  fold_left (load_dir home alive init (map (fun kc => cluster_file (snd kc)) kept)) dirs (State kept (next s) (files s)).
(** 984-997; [locate]: the directory of a profile, if there is one ([None]: an exception, after 976-982) *)
Record where_ := Where { profile_dirs : option (list path); one_dir : option path; profiles : option (list (list N)); one_profile : option (list N) }.
Fixpoint locate_all (locate : list N -> option path) (l : list (list N)) : option (list path) :=
  match l with
  | [] => Some []
  | p :: l => match locate p, locate_all locate l with Some d, Some ds => Some (d :: ds) | _, _ => None end
  end.
Definition searched (locate : list N -> option path) (all : list path) (w : where_) : option (list path) :=
  match profile_dirs w with
  | Some ds => Some ds
  | None =>
      match one_dir w with
      | Some d => Some [d]
      | None =>
          let profiles := match profiles w with Some ps => Some ps | None => match one_profile w with Some p => Some [p] | None => None end end in
          match profiles with Some ps => locate_all locate ps | None => Some all end
      end
  end.
Definition load_clusters (home : path) (alive : N -> bool) (locate : list N -> option path) (all : list path) (w : where_) (init : bool) (s : state) : state * bool :=
  match searched locate all w with
  | Some dirs => (load home alive init dirs s, true)
  | None => (State (drop_stopped (clusters s)) (next s) (files s), false)
  end.
(** 1027-1034: None: KeyError *)
Definition new_cluster (home dir : path) (id : list N) (s : state) : option (list N * state) :=
  let c := Cluster (next s) (default_file dir id) dir id None [] in
  if has (key_of home c) (clusters s) then None else Some (key_of home c, add home c s).
(** 1036-1043 *)
Definition get_cluster (k : list N) (s : state) : option cluster := get k (clusters s).
Definition remove_cluster (k : list N) (s : state) : option state :=
  if has k (clusters s) then Some (State (del k (clusters s)) (next s) (files s)) else None.

(** What clean_cluster_files does in the end: it returns; ValueError (1089); AttributeError, as there is no log (1069) *)
Inductive outcome := Done | StillRunning | NoLog.
(** 1063-1069 *)
Definition remove (log : bool) (f : path) (d : disk) : disk * outcome :=
  match get f d with
  | Some (File _ true) => (del f d, Done)
  | _ => (d, if log then Done else NoLog)
  end.
(** 1074-1093 *)
Definition clean_file (alive : N -> bool) (log force : bool) (f : path) (d : disk) : disk * outcome :=
  if force then remove log f d
  else match from_file alive 0 f d with
       | (d, None) => remove log f d
       | (d, Some c) => if is_running c then (d, StillRunning) else remove log f d
       end.
(** for f in l: step(f) *)
Fixpoint each {A} (step : A -> disk -> disk * outcome) (l : list A) (d : disk) : disk * outcome :=
  match l with
  | [] => (d, Done)
  | f :: l => match step f d with (d, Done) => each step l d | r => r end
  end.
(** 1071-1099 *)
Definition clean_dir (alive : N -> bool) (log force : bool) (dir : path) (d : disk) : disk * outcome :=
  match each (clean_file alive log force) (cluster_files d dir) d with
  | (d, Done) =>
      match each (remove log) (log_files d dir) d with
      | (d, Done) => each (remove log) (connection_files d dir) d
      | r => r
      end
  | r => r
  end.
Definition clean_cluster_files (alive : N -> bool) (log force : bool) (dirs : list path) (d : disk) : disk * outcome := each (clean_dir alive log force) dirs d.
