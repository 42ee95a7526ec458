(** Model of Cluster (ipyparallel/cluster/cluster.py 433-722, 785-806, 858-874: to_dict, from_dict, the cluster file, starting and
    stopping) with local processes: BaseLauncher, LocalProcessLauncher and LocalEngineSetLauncher (ipyparallel/cluster/launcher.py 136-165,
    261-297, 491-570, 619-685, 705-821).
    Simplifications: configuration, command lines, environments, logs and output files are left out.  Process ids are numbers that are not
    used again (but see [C60_reused_pid_refuted]); [alive] are the processes of this cluster that run.  The controller's and the engines'
    [join] blocks, so LocalProcessLauncher.stop is one step; a call of stop_engines waits (asyncio.gather) after it has stopped the processes,
    and goes on later ([Resume]).  start_engines is one step (waiting for the connection info is left out; it may fail like a start).  A file is
    written in one step.  The file is given by what matters of it; '' as cluster_file is [saving = false]. *)
From stdpp Require Import base gmap list strings pretty.
From Coq Require Import ZArith.
From Verif Require Import Clu_Spec.

Inductive lstate := Before | Running | After.
#[global] Instance lstate_eq : EqDecision lstate. Proof. solve_decision. Defined.

(** An engine set.  [members]: its launchers by identifier, with the process id if it has been started *)
Record eset := ESet {
  e_sid : string; e_n : nat; e_state : lstate;
  members : list (string * option pid);
  ended : list (string * option Z);            (* stop_data['engines'] *)
  e_callback : bool }.                         (* the Cluster's stop callback is registered *)
(** What to_dict saves: launchers that are saved with a process id were running *)
Record saved_set := SavedSet { s_n : nat; s_state : lstate; s_members : list (string * option pid) }.
#[global] Instance saved_set_eq : EqDecision saved_set. Proof. solve_decision. Defined.
Record saved := Saved { s_controller : option (option pid); s_sets : list (string * saved_set) }.
#[global] Instance saved_eq : EqDecision saved. Proof. solve_decision. Defined.

Record st := St {
  alive : gset pid; next : pid;
  lst : gmap pid lstate;                       (* the state of the launcher of a process *)
  owner : gmap pid (option (nat * string));    (* None: the controller's; else the engine set (object) and identifier *)
  threads : gset pid;                          (* those whose waiting thread runs *)
  pending : list pid;                          (* stop notices given to the event loop *)
  sets : gmap nat eset; nset : nat;            (* engine set objects *)
  ctl : option (option pid);                   (* Cluster.controller; Some None: it could not be started *)
  engines : list (string * nat);               (* Cluster.engines *)
  file : option saved;
  tasks : list (string * nat);                 (* calls of stop_engines that wait *)
  notices : list (option string * option Z) }. (* calls of _controller_stopped (None) and _engines_stopped, oldest first *)
Definition init : st := St ∅ 1 ∅ ∅ ∅ [] ∅ 0 None [] None [] [].

Section cluster.
Context (W : world) (saving : bool).

Definition put_alive x s := St x (next s) (lst s) (owner s) (threads s) (pending s) (sets s) (nset s) (ctl s) (engines s) (file s) (tasks s) (notices s).
Definition put_lst x s := St (alive s) (next s) x (owner s) (threads s) (pending s) (sets s) (nset s) (ctl s) (engines s) (file s) (tasks s) (notices s).
Definition put_sets x s := St (alive s) (next s) (lst s) (owner s) (threads s) (pending s) x (nset s) (ctl s) (engines s) (file s) (tasks s) (notices s).
Definition put_ctl x s := St (alive s) (next s) (lst s) (owner s) (threads s) (pending s) (sets s) (nset s) x (engines s) (file s) (tasks s) (notices s).
Definition put_engines x s := St (alive s) (next s) (lst s) (owner s) (threads s) (pending s) (sets s) (nset s) (ctl s) x (file s) (tasks s) (notices s).
Definition put_file x s := St (alive s) (next s) (lst s) (owner s) (threads s) (pending s) (sets s) (nset s) (ctl s) (engines s) x (tasks s) (notices s).
Definition put_tasks x s := St (alive s) (next s) (lst s) (owner s) (threads s) (pending s) (sets s) (nset s) (ctl s) (engines s) (file s) x (notices s).
Definition put_pending x s := St (alive s) (next s) (lst s) (owner s) (threads s) x (sets s) (nset s) (ctl s) (engines s) (file s) (tasks s) (notices s).
Definition put_notices x s := St (alive s) (next s) (lst s) (owner s) (threads s) (pending s) (sets s) (nset s) (ctl s) (engines s) (file s) (tasks s) x.

(** ** The cluster file *)
(** the controller's state; a launcher which was not started has 'before' *)
Definition ctl_state (s : st) (c : option pid) : lstate := match c with None => Before | Some p => default Before (lst s !! p) end.
Definition set_state (s : st) (o : nat) : lstate := match sets s !! o with Some e => e_state e | None => After end.
(** LocalEngineSetLauncher.to_dict, launcher.py 727-730 *)
Definition save_set (e : eset) : saved_set := SavedSet (e_n e) (e_state e) (members e).
(** Cluster.to_dict, cluster.py 433-462 *)
Definition to_dict (s : st) : saved :=
  Saved (match ctl s with Some c => if decide (ctl_state s c = After) then None else Some c | None => None end)
        (flat_map (fun x => match sets s !! snd x with
                            | Some e => if decide (e_state e = After) then [] else [(fst x, save_set e)]
                            | None => [] end) (engines s)).
(** _is_running, 577-583 *)
Definition is_running (s : st) : bool :=
  match ctl s with Some c => negb (bool_decide (ctl_state s c = After)) | None => false end ||
  existsb (fun x => negb (bool_decide (set_state s (snd x) = After))) (engines s).
(** update_cluster_file, 585-598 *)
Definition update_cluster_file (s : st) : st :=
  if saving then (if is_running s then put_file (Some (to_dict s)) s else put_file None s) else s.

(** ** Processes *)
(** LocalProcessLauncher.start, launcher.py 533-562: process [next], for a launcher owned by [o] *)
Definition spawn (o : option (nat * string)) (s : st) : st :=
  let p := next s in
  St ({[p]} ∪ alive s) (S p) (<[p := Running]> (lst s)) (<[p := o]> (owner s)) ({[p]} ∪ threads s) (pending s)
     (sets s) (nset s) (ctl s) (engines s) (file s) (tasks s) (notices s).
(** the end of _wait, 517-518: the notice is given to the loop *)
Definition thread_ends (p : pid) (s : st) : st :=
  if bool_decide (p ∈ threads s) then
    St (alive s) (next s) (lst s) (owner s) (threads s ∖ {[p]}) (pending s ++ [p]) (sets s) (nset s) (ctl s) (engines s) (file s) (tasks s) (notices s)
  else s.
(** LocalProcessLauncher.stop, 619-639; false: TimeoutError.  A signal is sent only in state 'running' (641-642). *)
Definition stop_process (p : pid) (s : st) : st * bool :=
  if bool_decide (lst s !! p = Some Running) then
    if bool_decide (p ∈ alive s) && immortal W p then (s, false)
    else (thread_ends p (put_alive (alive s ∖ {[p]}) s), true)
  else (s, true).
(** all of them, whether or not some fail *)
Fixpoint stop_processes (l : list pid) (s : st) : st * bool :=
  match l with
  | [] => (s, true)
  | p :: l => let '(s, ok) := stop_process p s in let '(s, ok') := stop_processes l s in (s, ok && ok')
  end.

(** ** Stop notices *)
Fixpoint drop_key {A} (k : string) (l : list (string * A)) : list (string * A) :=
  match l with [] => [] | (x, a) :: r => if String.eqb x k then r else (x, a) :: drop_key k r end.
Fixpoint get_key {A} (k : string) (l : list (string * A)) : option A :=
  match l with [] => None | (x, a) :: r => if String.eqb x k then Some a else get_key k r end.
(** the loop of 811-819 *)
Fixpoint first_code (l : list (option Z)) (acc : option Z) : option Z :=
  match l with
  | [] => acc
  | c :: l => let acc := match acc with None => c | Some _ => acc end in
              match c with Some z => if (z =? 0)%Z then first_code l acc else c | None => first_code l acc end
  end.
(** _notice_engine_stopped, 801-821, with notify_stop (282-297) of the set *)
Definition engine_stopped (o : nat) (i : string) (code : option Z) (s : st) : st :=
  match sets s !! o with
  | None => s
  | Some e =>
      match get_key i (members e) with
      | None => s                                                               (* KeyError *)
      | Some _ =>
          let ms := drop_key i (members e) in
          let en := ended e ++ [(i, code)] in
          match ms with
          | [] =>
              if decide (e_state e = After) then put_sets (<[o := ESet (e_sid e) (e_n e) (e_state e) ms en (e_callback e)]> (sets s)) s
              else
                let s := put_sets (<[o := ESet (e_sid e) (e_n e) After ms en (e_callback e)]> (sets s)) s in
                if e_callback e then                                            (* _engines_stopped, cluster.py 716-722 *)
                  update_cluster_file (put_notices (notices s ++ [(Some (e_sid e), first_code (map snd en) None)]) s)
                else s
          | _ => put_sets (<[o := ESet (e_sid e) (e_n e) (e_state e) ms en (e_callback e)]> (sets s)) s
          end
      end
  end.
(** notify_stop, 282-297, of the launcher of a process *)
Definition notify_stop (p : pid) (s : st) : st :=
  if bool_decide (lst s !! p = Some After) then s
  else
    let s := put_lst (<[p := After]> (lst s)) s in
    match owner s !! p with
    | Some None =>                                                              (* _controller_stopped, cluster.py 662-669 *)
        update_cluster_file (put_notices (notices s ++ [(None, exit_code W p)]) s)
    | Some (Some (o, i)) => engine_stopped o i (exit_code W p) s
    | None => s
    end.

(** ** Calls *)
(** start_controller, 600-660 *)
Definition start_controller (ok : bool) (s : st) : st * outcome :=
  match ctl s with
  | Some _ => (s, Raised "RuntimeError")
  | None =>
      if ok then (update_cluster_file (put_ctl (Some (Some (next s))) (spawn None s)), Returned)
      else (put_ctl (Some None) s, Raised "OSError")
  end.
(** LocalEngineSetLauncher.start, launcher.py 752-782: engines [i], [i+1], ... *)
Definition ident (i : nat) : string := pretty i.
Fixpoint launch (o : nat) (k i : nat) (s : st) : st :=
  match k with
  | 0 => s
  | S k =>
      let p := next s in
      let s := spawn (Some (o, ident i)) s in
      let s := match sets s !! o with
               | Some e => put_sets (<[o := ESet (e_sid e) (e_n e) (e_state e) (members e ++ [(ident i, Some p)]) (ended e) (e_callback e)]> (sets s)) s
               | None => s end in
      launch o k (S i) s
  end.
Definition change_set (o : nat) (f : eset -> eset) (s : st) : st :=
  match sets s !! o with Some e => put_sets (<[o := f e]> (sets s)) s | None => s end.
(** self.engines[sid] = ... *)
Fixpoint assign (k : string) (o : nat) (l : list (string * nat)) : list (string * nat) :=
  match l with [] => [(k, o)] | (x, y) :: r => if String.eqb x k then (k, o) :: r else (x, y) :: assign k o r end.
(** _new_engine_set_id, cluster.py 671-679; [base] is the time in seconds, in decimal.  The loop ends before [fuel] runs out ([C59_new_id]). *)
Fixpoint new_id_from (fuel : nat) (base : string) (i : nat) (ids : list string) (k : string) : string :=
  match fuel with
  | 0 => k
  | S fuel => if bool_decide (k ∈ ids) then new_id_from fuel base (S i) ids (base +:+ "-" +:+ pretty i) else k
  end.
Definition new_id (base : string) (s : st) : string := new_id_from (S (length (engines s))) base 1 (engines s).*1 base.
(** start_engines, cluster.py 680-714 *)
Definition start_engines (sid : string) (n : nat) (fail : option (nat * bool)) (s : st) : st * outcome :=
  let o := nset s in
  let s := St (alive s) (next s) (lst s) (owner s) (threads s) (pending s)
              (<[o := ESet sid n Before [] [] false]> (sets s)) (S o) (ctl s) (assign sid o (engines s)) (file s) (tasks s) (notices s) in
  match fail with
  | Some (k, b) =>
      let s := launch o (min k n) 0 s in
      (if b then change_set o (fun e => ESet (e_sid e) (e_n e) (e_state e) (members e ++ [(ident (min k n), None)]) (ended e) (e_callback e)) s else s,
       Raised "OSError")
  | None =>
      let s := launch o n 0 s in
      let s := change_set o (fun e => ESet (e_sid e) (e_n e) Running (members e) (ended e) true) s in
      (update_cluster_file s, Returned)
  end.
(** the process ids of a set *)
Definition pids (e : eset) : list pid := omap snd (members e).
(** stop_engines of one set, 798-802, until it waits *)
Definition stop_set (sid : string) (s : st) : st * outcome :=
  match get_key sid (engines s) with
  | None => (s, Raised "KeyError")
  | Some o =>
      let '(s, ok) := stop_processes (match sets s !! o with Some e => pids e | None => [] end) s in
      if ok then (put_tasks (tasks s ++ [(sid, o)]) s, Waiting) else (s, Raised "TimeoutError")
  end.
(** ... and after that, 803-806 *)
Definition finish_set (sid : string) (s : st) : st :=
  match get_key sid (engines s) with
  | None => s                                                                   (* KeyError *)
  | Some _ => update_cluster_file (put_engines (drop_key sid (engines s)) s)
  end.
(** stop_engines of all, 791-797 *)
Definition worse (a b : outcome) : outcome :=
  match a, b with Raised e, _ => Raised e | _, Raised e => Raised e | Waiting, _ | _, Waiting => Waiting | _, _ => Returned end.
Fixpoint stop_sets (sids : list string) (s : st) : st * outcome :=
  match sids with
  | [] => (s, Returned)
  | sid :: l => let '(s, r) := stop_set sid s in let '(s, r') := stop_sets l s in (s, worse r r')
  end.
(** stop_controller, 858-870 *)
Definition stop_controller (s : st) : st * outcome :=
  match ctl s with
  | Some (Some p) =>
      let '(s, ok) := stop_process p s in
      if ok then (update_cluster_file (put_ctl None s), Returned) else (s, Raised "TimeoutError")
  | _ => (update_cluster_file (put_ctl None s), Returned)
  end.

(** ** Restoring, cluster.py 464-525 and launcher.py 732-750, 491-504 *)
(** an engine: None if NotRunning *)
Definition restore_member (al : gset pid) (x : string * option pid) : bool :=
  match snd x with None => true | Some p => bool_decide (p ∈ al) end.
Definition restore_set (sid : string) (d : saved_set) (s : st) : st :=
  let ms := List.filter (restore_member (alive s)) (s_members d) in
  match ms with
  | [] => s                                                                     (* NotRunning *)
  | _ =>
      let o := nset s in
      St (alive s) (next s)
         (fold_right (fun x m => match snd x with Some p => <[p := Running]> m | None => m end) (lst s) ms)
         (fold_right (fun x m => match snd x with Some p => <[p := Some (o, fst x)]> m | None => m end) (owner s) ms)
         (fold_right (fun x m => match snd x with Some p => {[p]} ∪ m | None => m end) (threads s) ms)
         (pending s) (<[o := ESet sid (length ms) (s_state d) ms [] true]> (sets s)) (S o) (ctl s) (assign sid o (engines s)) (file s) (tasks s) (notices s)
  end.
Definition restore_controller (c : option (option pid)) (s : st) : st :=
  match c with
  | Some (Some p) =>
      if bool_decide (p ∈ alive s) then
        St (alive s) (next s) (<[p := Running]> (lst s)) (<[p := None]> (owner s)) ({[p]} ∪ threads s) (pending s) (sets s) (nset s) (Some (Some p))
           (engines s) (file s) (tasks s) (notices s)
      else s
  | Some None => put_ctl (Some None) s
  | None => s
  end.
Definition restore (d : saved) (s : st) : st :=
  let s := restore_controller (s_controller d) s in
  let s := fold_left (fun s x => restore_set (fst x) (snd x) s) (s_sets d) s in
  if decide (to_dict s = d) then s else update_cluster_file s.
(** A new Python process, which calls Cluster.from_file; without the file it has a new, empty Cluster. *)
Definition reload (s : st) : st :=
  let s0 := St (alive s) (next s) ∅ ∅ ∅ [] ∅ 0 None [] (file s) [] (notices s) in
  match file s with Some d => restore d s0 | None => s0 end.

Definition step (s : st) (x : op) : st * outcome :=
  match x with
  | StartController ok => start_controller ok s
  | StartEngines sid n fail => start_engines sid n fail s
  | StopController => stop_controller s
  | StopEngines sid => stop_set sid s
  | StopAllEngines => stop_sets (map fst (engines s)) s
  | StopCluster => let '(s, r) := stop_controller s in let '(s, r') := stop_sets (map fst (engines s)) s in (s, worse r r')   (* 872-874 *)
  | PollController =>                                                           (* launcher.py 672-685 *)
      (match ctl s with Some (Some p) => if bool_decide (p ∈ alive s) then s else notify_stop p s | _ => s end, Returned)
  | Die p => (put_alive (alive s ∖ {[p]}) s, Returned)
  | ThreadSees p => (if bool_decide (p ∈ alive s) then s else thread_ends p s, Returned)
  | Callback => (match pending s with [] => s | p :: r => notify_stop p (put_pending r s) end, Returned)
  | Resume i =>
      match tasks s !! i with
      | None => (s, Returned)
      | Some (sid, o) => (finish_set sid (put_tasks (delete i (tasks s)) s), Returned)
      end
  | Reload => (reload s, Returned)
  end.
Definition run (h : list op) : st := fold_left (fun s x => fst (step s x)) h init.

(** ** Histories that are considered *)
(** the engine set ids that are given to start_engines are not in use (as for those that _new_engine_set_id makes, cluster.py 671-679) *)
Definition orderly (h : list op) : Prop := forall h1 sid n fail h2, h = h1 ++ StartEngines sid n fail :: h2 ->
  sid ∉ (engines (run h1)).*1 /\ sid ∉ (tasks (run h1)).*1.
(** if the Cluster is ever made again from its file, then there is a file and no start of engines has failed *)
Definition manageable (h : list op) : Prop := Reload ∉ h \/ (saving = true /\ forallb starts_well h = true).
End cluster.

(** ** Who knows a process *)
Definition is_controller (s : st) (p : pid) : Prop := ctl s = Some (Some p).
Definition in_set (s : st) (sid : string) (p : pid) : Prop :=
  exists o e i, (sid, o) ∈ engines s /\ sets s !! o = Some e /\ (i, Some p) ∈ members e.
Definition file_controller (s : st) (p : pid) : Prop := exists d, file s = Some d /\ s_controller d = Some (Some p).
Definition file_set (s : st) (sid : string) (p : pid) : Prop :=
  exists d ss i, file s = Some d /\ (sid, ss) ∈ s_sets d /\ (i, Some p) ∈ s_members ss.
(** every end of a process has been noticed *)
Definition quiet (s : st) : Prop := pending s = [] /\ forall p, p ∈ threads s -> p ∈ alive s.
