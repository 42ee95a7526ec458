(** The connection files of a controller: ipyparallel/controller/app.py 675-682 (save_connection_dict), 684-727 (load_config_from_json), 729-741 (cleanup_connection_files),
    743-753 (load_secondary_config), 770-800, 923-945 (init_hub), 1220-1253.
    Simplified: one controller at a time uses these files; a file with a field missing lacks one that is read from both files or from it ([Lacks]); a failure to remove a file is left out. *)
From Coq Require Import NArith List Bool.
From Verif Require Import Reuse_Spec.
Import ListNotations.

(** The configuration of a start: reuse_files; Session.key if configured, else the random key it will get; packer etc.; the public CURVE key if enabled; location; the ssh servers for engines and
    clients (0: none); and the ports it will get if it has to choose *)
Record config := Config { reuse : bool; conf_key : N; conf_format : N; conf_curve : option N; conf_location : N; conf_engine_ssh : N; conf_client_ssh : N;
                          new_reg : N; new_engine : N; new_client : N }.

(** 684-753: what is loaded: an exception that is not caught; or the key, the location, the ssh servers, and the two infos (registration, ports) if all went well *)
Inductive loaded := Raises | Loaded (k loc essh cssh : N) (infos : option (cfile * cfile)).
Definition or_else (a b : N) : N := if N.eqb a 0 then b else a.
Definition mismatch (e c : cfile) : bool := negb (N.eqb (key c) (key e) && N.eqb (reg c) (reg e) && N.eqb (format c) (format e)).
Definition load (cfg : config) (d : disk) : loaded :=
  if negb (reuse cfg) then Loaded (conf_key cfg) (conf_location cfg) (conf_engine_ssh cfg) (conf_client_ssh cfg) None
  else match engine_file d with
       | Missing => Loaded (conf_key cfg) (conf_location cfg) (conf_engine_ssh cfg) (conf_client_ssh cfg) None      (* OSError, 748 *)
       | Garbled | Lacks => Raises
       | Good e =>
           let essh := or_else (conf_engine_ssh cfg) (ssh e) in                                                     (* 704 *)
           match client_file d with
           | Missing => Loaded (key e) (location e) essh (conf_client_ssh cfg) None
           | Garbled | Lacks => Raises
           | Good c =>
               if mismatch e c then Loaded (key e) (location e) essh (conf_client_ssh cfg) None                      (* AssertionError, 748 *)
               else Loaded (key e) (location e) essh (or_else (conf_client_ssh cfg) (ssh c)) (Some (e, c))
           end
       end.

(** The disks that there are, one after the other, during the start (open(..., 'w') empties a file), and the controller in the end. None: it raises *)
Definition start (cfg : config) (d : disk) : list disk * option running :=
  match load cfg d with
  | Raises => ([], None)
  | Loaded k loc _ _ (Some (e, c)) => ([], Some (Running k (conf_format cfg) (conf_curve cfg) (reg e) (ports e) (ports c) loc))
  | Loaded k loc essh cssh None =>
      let c := CFile k (conf_format cfg) (conf_curve cfg) (new_reg cfg) (new_client cfg) loc cssh in
      let e := CFile k (conf_format cfg) (conf_curve cfg) (new_reg cfg) (new_engine cfg) loc essh in
      ([Disk (engine_file d) Garbled; Disk (engine_file d) (Good c); Disk Garbled (Good c); Disk (Good e) (Good c)],
       Some (Running k (conf_format cfg) (conf_curve cfg) (new_reg cfg) (new_engine cfg) (new_client cfg) loc))
  end.
Definition final (d : disk) (ds : list disk) : disk := last ds d.
(** 729-741: at the end of a controller *)
Definition cleanup (cfg : config) (d : disk) : disk := if reuse cfg then d else Disk Missing Missing.

(** Histories: controllers start, are killed while they start, end, are killed *)
Inductive world := Idle (d : disk) | Up (cfg : config) (r : running) (d : disk).
Inductive event := Starts (cfg : config) | Fails (cfg : config) | Killed_starting (cfg : config) | Ends | Killed.
Inductive step : world -> event -> world -> Prop :=
| step_starts cfg d r : snd (start cfg d) = Some r -> step (Idle d) (Starts cfg) (Up cfg r (final d (fst (start cfg d))))
| step_fails cfg d : snd (start cfg d) = None -> step (Idle d) (Fails cfg) (Idle d)
| step_killed_starting cfg d d' : In d' (d :: fst (start cfg d)) -> step (Idle d) (Killed_starting cfg) (Idle d')
| step_ends cfg r d : step (Up cfg r d) Ends (Idle (cleanup cfg d))
| step_killed cfg r d : step (Up cfg r d) Killed (Idle d).
Inductive run (ok : event -> Prop) : world -> world -> Prop :=
| run_here w : run ok w w
| run_on w e w' w'' : ok e -> step w e w' -> run ok w' w'' -> run ok w w''.
