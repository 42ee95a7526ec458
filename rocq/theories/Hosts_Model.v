(** Model of SSHEngineSetLauncher.start (ipyparallel/cluster/launcher.py 1455-1533), of the arguments that SSHLauncher.start (1296-1310) passes to ssh,
    and of the remote paths of files (1171-1192, 1397-1403).
    Simplifications: of the configuration of a host only n and ssh_args are modelled (other settings are handed to the engine's launcher as they are); starting an engine does not fail;
    the delay is left out. ssh_args is a List without a type of elements: traitlets keeps the list object that it is given, so that the launchers of the engines
    share the list of the engine set (or of the host's configuration) and what one of them appends (1301-1307) is seen by the others. scp_args is treated alike (-P). *)
From Coq Require Import NArith ZArith String List Bool.
From Verif Require Import Batch_Spec Batch_Model Hosts_Spec.
Import ListNotations.

Definition text := list N.
(** engines: a number, or a dict with n and ssh_args, per host *)
Inductive entry := Count (n : Z) | Config (n : option Z) (ssh_args : option (list text)).

(** s.split(c, 1), if c is in s *)
Fixpoint split_at (c : N) (s : text) : option (text * text) :=
  match s with
  | [] => None
  | d :: r => if N.eqb d c then Some ([], r) else match split_at c r with Some (a, b) => Some (d :: a, b) | None => None end
  end.
(** 1499-1508 *)
Definition parse_host (full_host : text) : option text * text * option text :=
  let '(user, host) := match split_at 64 full_host with Some (u, h) => (Some u, h) | None => (None, full_host) end in
  let '(host, port) := match split_at 58 host with Some (h, p) => (h, Some p) | None => (host, None) end in
  (user, host, port).

(** A launcher that has been started *)
Record engine := Engine { identifier : text; location : text; ssh_arguments : list text; sends_files : bool }.
Definition dash_p : text := lit "-p".
Definition mem (x : text) (l : list text) : bool := existsb (eqs x) l.
(** 1301-1304: the list object afterwards *)
Definition add_port (port : option text) (args : list text) : list text :=
  match port with None => args | Some p => if mem dash_p args then args else args ++ [dash_p; p] end.
(** 1118-1127: hostname, then user *)
Definition location_of (user : option text) (host : text) : text :=
  match user with Some ((_ :: _) as u) => u ++ lit "@" ++ host | _ => host end.

(** 1511-1530: the engines of one host. [args] is the list object that they share; [i] counts. *)
Fixpoint start_host (full_host : text) (user : option text) (host : text) (port : option text) (args : list text) (i : nat) (count : nat)
    (started_n requested_n : Z) : list engine * list text * Z :=
  match count with
  | O => ([], args, started_n)
  | S count =>
      let args := add_port port args in
      let e := Engine (full_host ++ lit "/" ++ decimal (N.of_nat i)) (location_of user host) args (Nat.eqb i 0) in
      if (requested_n <=? started_n + 1)%Z then ([e], args, started_n + 1)%Z
      else let '(es, args, started_n) := start_host full_host user host port args (S i) count (started_n + 1)%Z requested_n in (e :: es, args, started_n)
  end.
(** 1491-1497 *)
Definition slots_of (e : entry) : Z := match e with Count n => n | Config (Some n) _ => n | Config None _ => 1 end.
(** 1490-1530 *)
Fixpoint start_hosts (engines : list (text * entry)) (ssh_args : list text) (started_n requested_n : Z) : list engine * Z :=
  match engines with
  | [] => ([], started_n)
  | (full_host, e) :: rest =>
      let '(user, host, port) := parse_host full_host in
      let count := Z.to_nat (Z.min (slots_of e) (requested_n - started_n)) in          (* range(min(n, requested_n - started_n)) *)
      let own := match e with Config _ (Some a) => Some a | _ => None end in
      let '(es, args, started_n) := start_host full_host user host port (match own with Some a => a | None => ssh_args end) 0 count started_n requested_n in
      let ssh_args := match own with Some _ => ssh_args | None => args end in
      let '(es', started_n) := start_hosts rest ssh_args started_n requested_n in
      (es ++ es', started_n)
  end.
(** 1470-1533: start; the launchers and self.n *)
Definition start (engines : list (text * entry)) (ssh_args : list text) (n : Z) : list engine * Z := start_hosts engines ssh_args 0 n.

(* ------------------------------------------------------------ paths *)
(** 1171-1181: _strip_home; [home] is the home directory *)
Definition ends_with_slash (s : text) : bool := match rev s with c :: _ => N.eqb c 47 | [] => false end.
Definition strip_home (home path : text) : text :=
  let home := if ends_with_slash home then home else home ++ [47%N] in
  if starts_with home path then skipn (length home) path else path.
(** 1183-1185 and 1150-1158: remote_profile_dir, if it is not configured *)
Definition remote_profile_dir (configured home profile_dir : text) : text := match configured with [] => strip_home home profile_dir | _ => configured end.
(** 1397-1403: remote_connection_files; local_path[len(self.profile_dir) :] *)
Definition remote_file (configured home profile_dir local_path : text) : text :=
  remote_profile_dir configured home profile_dir ++ skipn (length profile_dir) local_path.
