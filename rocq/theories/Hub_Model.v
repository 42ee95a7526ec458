(** Model of ipyparallel/controller/hub.py: registration of engines, the tables of messages, the answers to
    status and result requests.
    Simplifications: a uuid and its utf8 encoding (ident, heart) are the same number; the database does not fail and drops
    nothing by itself (see DictDB_Model for that); of a record only the result, whether it is completed and the engine
    are kept; timers fire at any time and in any order (more than can happen); an error in a handler is logged and leaves the state as it is then. *)
From Coq Require Import List Arith Bool.
From Verif Require Import Hub_Spec.
Import ListNotations.

(** Python dicts with numbers as keys *)
Fixpoint get {A} (k : nat) (d : list (nat * A)) : option A :=
  match d with [] => None | (k', v) :: r => if Nat.eqb k k' then Some v else get k r end.
Fixpoint set {A} (k : nat) (v : A) (d : list (nat * A)) : list (nat * A) :=
  match d with [] => [(k, v)] | (k', w) :: r => if Nat.eqb k k' then (k, v) :: r else (k', w) :: set k v r end.
Definition pop {A} (k : nat) (d : list (nat * A)) : list (nat * A) := filter (fun e => negb (Nat.eqb k (fst e))) d.
(** sets and lists *)
Definition mem (x : nat) (l : list nat) : bool := existsb (Nat.eqb x) l.
Definition add (x : nat) (l : list nat) : list nat := if mem x l then l else l ++ [x].
Definition discard (x : nat) (l : list nat) : list nat := filter (fun y => negb (Nat.eqb x y)) l.
Fixpoint remove1 (x : nat) (l : list nat) : list nat :=                            (* list.remove *)
  match l with [] => [] | y :: r => if Nat.eqb x y then r else y :: remove1 x r end.
Definition put {A} (f : nat -> A) (k : nat) (v : A) : nat -> A := fun k' => if Nat.eqb k k' then v else f k'.
Definition is_some {A} (o : option A) : bool := match o with Some _ => true | None => false end.

(** A task record (54-79, 87-115), reduced *)
Record record := Rec { r_engine : option nat; r_result : option result; r_completed : bool }.
Definition empty_record := Rec None None false.

(** 165-181 *)
Record hub := Hub {
  counter : nat;                               (* _idcounter *)
  engines : list (nat * nat);                  (* id: uuid *)
  incoming : list (nat * nat);                 (* incoming_registrations, uuid: id *)
  by_ident : list (nat * nat);                 (* uuid: id *)
  hearts : list (nat * nat);                   (* uuid: id *)
  queues : nat -> option (list nat);
  tasks : nat -> option (list nat);
  completed : nat -> option (list nat);
  pending : list nat;
  all_completed : list nat;
  unassigned : list nat;
  db : list (nat * record);
  timers : list (nat * nat);                   (* pending calls of _handle_stranded_msgs (id, uuid) *)
  file : option (list (nat * nat) * nat);      (* engine_state_file: engines and next_id *)
  notices : list notice }.                     (* what was sent *)
Definition start : hub := Hub 0 [] [] [] [] (fun _ => None) (fun _ => None) (fun _ => None) [] [] [] [] [] None [].

Definition with_reg (s : hub) c en inc bi he : hub :=
  Hub c en inc bi he (queues s) (tasks s) (completed s) (pending s) (all_completed s) (unassigned s) (db s) (timers s) (file s) (notices s).
Definition with_tables (s : hub) q t c : hub :=
  Hub (counter s) (engines s) (incoming s) (by_ident s) (hearts s) q t c (pending s) (all_completed s) (unassigned s) (db s) (timers s) (file s) (notices s).
Definition with_sets (s : hub) p a un : hub :=
  Hub (counter s) (engines s) (incoming s) (by_ident s) (hearts s) (queues s) (tasks s) (completed s) p a un (db s) (timers s) (file s) (notices s).
Definition with_db (s : hub) d : hub :=
  Hub (counter s) (engines s) (incoming s) (by_ident s) (hearts s) (queues s) (tasks s) (completed s) (pending s) (all_completed s) (unassigned s) d (timers s) (file s) (notices s).
Definition with_timers (s : hub) t : hub :=
  Hub (counter s) (engines s) (incoming s) (by_ident s) (hearts s) (queues s) (tasks s) (completed s) (pending s) (all_completed s) (unassigned s) (db s) t (file s) (notices s).
Definition with_file (s : hub) f : hub :=
  Hub (counter s) (engines s) (incoming s) (by_ident s) (hearts s) (queues s) (tasks s) (completed s) (pending s) (all_completed s) (unassigned s) (db s) (timers s) f (notices s).
Definition tell (s : hub) n : hub :=
  Hub (counter s) (engines s) (incoming s) (by_ident s) (hearts s) (queues s) (tasks s) (completed s) (pending s) (all_completed s) (unassigned s) (db s) (timers s) (file s) (notices s ++ [n]).

(** 263-287: new_engine_id; the flag: the counter was used *)
Definition new_engine_id (s : hub) (requested : option nat) : hub * nat * bool :=
  let fresh := (with_reg s (S (counter s)) (engines s) (incoming s) (by_ident s) (hearts s), counter s, true) in     (* 285-287 *)
  match requested with
  | None => fresh
  | Some r =>
      if is_some (get r (engines s)) then fresh                                                           (* 272-277 *)
      else if mem r (map snd (incoming s)) then fresh                                                     (* 278-281 *)
      else (with_reg s (max (r + 1) (counter s)) (engines s) (incoming s) (by_ident s) (hearts s), r, false)   (* 282-284 *)
  end.

(** 880-946: register_engine *)
Definition register_engine (s : hub) (u : nat) (requested : option nat) : hub :=
  let '(s, eid, chosen) := new_engine_id s requested in                                                   (* 889 *)
  if is_some (get u (by_ident s)) then tell s (Refused u)                                                 (* 899-904 *)
  else if is_some (get u (incoming s)) then tell s (Refused u)                                            (* 906-920 *)
  else let s := tell s (Granted u eid chosen) in                                                          (* 922-924 *)
       with_reg s (counter s) (engines s) (set u eid (incoming s)) (by_ident s) (hearts s).               (* 938-940 *)

(** 1092-1108: _save_engine_state *)
Definition save_engine_state (s : hub) : hub := with_file s (Some (engines s, counter s)).

(** 948-997: unregister_engine *)
Definition unregister_engine (s : hub) (eid : nat) : hub :=
  match get eid (engines s) with
  | None =>                                                                                               (* 957-972 *)
      match find (fun e => Nat.eqb (snd e) eid) (incoming s) with
      | Some (u, _) => with_reg s (counter s) (engines s) (pop u (incoming s)) (by_ident s) (hearts s)
      | None => s
      end
  | Some u =>
      let s := with_timers s (timers s ++ [(eid, u)]) in                                                  (* 982-985 *)
      let s := with_reg s (counter s) (pop eid (engines s)) (incoming s) (pop u (by_ident s)) (pop u (hearts s)) in   (* 979, 988-989 *)
      tell (save_engine_state s) (Unregistered eid u)                                                     (* 991-997 *)
  end.

(** 1032-1064: finish_registration; [notify]: there is a notifier *)
Definition finish_registration (notify : bool) (s : hub) (u : nat) : hub :=
  match get u (incoming s) with
  | None => s                                                                                             (* 1037-1042 *)
  | Some eid =>
      let s := with_reg s (counter s) (set eid u (engines s)) (pop u (incoming s)) (set u eid (by_ident s)) (set u eid (hearts s)) in   (* 1036, 1051-1056 *)
      let s := with_tables s (put (queues s) eid (Some [])) (put (tasks s) eid (Some [])) (put (completed s) eid (Some [])) in            (* 1053-1055 *)
      save_engine_state (if notify then tell s (Registered eid u) else s)                                 (* 1058-1064 *)
  end.

(** 415-421: handle_new_heart *)
Definition handle_new_heart (s : hub) (u : nat) : hub := if is_some (get u (incoming s)) then finish_registration true s u else s.
(** 423-439: handle_stopped_heart *)
Definition handle_stopped_heart (s : hub) (u : nat) : hub :=
  match get u (hearts s) with
  | None => s
  | Some eid => if is_some (get eid (engines s)) then unregister_engine s eid else s
  end.
(** 1066-1074: _purge_stalled_registration *)
Definition purge_stalled (s : hub) (u : nat) : hub :=
  if is_some (get u (incoming s)) then with_reg s (counter s) (engines s) (pop u (incoming s)) (by_ident s) (hearts s) else s.

Definition update_record (s : hub) (m : nat) (f : record -> record) : hub :=       (* db.update_record; an error if there is none *)
  match get m (db s) with Some r => with_db s (set m (f r) (db s)) | None => s end.

(** 999-1030: _handle_stranded_msgs; false: pending.remove raised KeyError *)
Fixpoint strand (s : hub) (u : nat) (ms : list nat) : hub :=
  match ms with
  | [] => s
  | m :: ms =>
      if mem m (pending s) then                                                                           (* 1010 *)
        let s := with_sets s (discard m (pending s)) (add m (all_completed s)) (unassigned s) in          (* 1010-1011 *)
        strand (update_record s m (fun _ => Rec (Some u) (Some EngineDied) true)) u ms                    (* 1012-1026 *)
      else s
  end.
Definition handle_stranded_msgs (s : hub) (eid u : nat) : hub :=
  match queues s eid with Some ms => strand s u ms | None => s end.

(** 1110-1131: _load_engine_state *)
Definition load_engine_state (s : hub) : hub :=
  match file s with
  | None => s
  | Some (es, next_id) =>
      let s := fold_left (fun s e => finish_registration false (with_reg s (counter s) (engines s) (set (snd e) (fst e) (incoming s)) (by_ident s) (hearts s)) (snd e)) es s in
      with_reg s next_id (engines s) (incoming s) (by_ident s) (hearts s)
  end.
(** A new controller, with restore_engines (app.py 946-949); the database is kept (SQLiteDB; an in-memory one would be empty) *)
Definition restart (s : hub) : hub :=
  load_engine_state (Hub 0 [] [] [] [] (fun _ => None) (fun _ => None) (fun _ => None) [] [] [] (db s) [] (file s) (notices s ++ [Restarted])).

(** The record of a request (init_record): a record that already exists keeps what the new one lacks (474-493, 661-687) *)
Definition save_request (s : hub) (m : nat) (u : option nat) : hub :=
  match get m (db s) with
  | Some r => with_db s (set m (Rec (match u with Some _ => u | None => r_engine r end) (r_result r) (r_completed r)) (db s))
  | None => with_db s (set m (Rec u None false) (db s))
  end.

(** 443-502: save_queue_request *)
Definition save_queue_request (s : hub) (u m : nat) : hub :=
  match get u (by_ident s) with
  | None => s                                                                                             (* 462-465 *)
  | Some eid =>
      let s := save_request s m (Some u) in
      let s := with_sets s (add m (pending s)) (all_completed s) (unassigned s) in                        (* 501 *)
      match queues s eid with
      | Some q => with_tables s (put (queues s) eid (Some (q ++ [m]))) (tasks s) (completed s)            (* 502 *)
      | None => s
      end
  end.

(** 504-560: save_queue_result *)
Definition save_queue_result (s : hub) (u m v : nat) : hub :=
  match get u (by_ident s) with
  | None => s                                                                                             (* 522-525 *)
  | Some eid =>
      let record s := update_record s m (fun r => Rec (r_engine r) (Some (Value v)) true) in              (* 543-560 *)
      if mem m (pending s) then
        let s := with_sets s (discard m (pending s)) (add m (all_completed s)) (unassigned s) in          (* 532-533 *)
        match queues s eid, completed s eid with
        | Some q, Some c =>
            if mem m q then record (with_tables s (put (queues s) eid (Some (remove1 m q))) (tasks s) (put (completed s) eid (Some (c ++ [m]))))   (* 534-535 *)
            else s                                                                                        (* 534: ValueError *)
        | _, _ => s
        end
      else if mem m (all_completed s) then record s                                                       (* 537-541 *)
      else s
  end.

(** 641-697: save_task_request *)
Definition save_task_request (s : hub) (m : nat) : hub :=
  save_request (with_sets s (add m (pending s)) (all_completed s) (add m (unassigned s))) m None.

(** 699-759: save_task_result *)
Definition save_task_result (s : hub) (m u : nat) (aborted : bool) (v : nat) : hub :=
  let s := with_sets s (pending s) (all_completed s) (discard m (unassigned s)) in                        (* 720-721 *)
  if mem m (pending s) then
    let s := with_sets s (discard m (pending s)) (add m (all_completed s)) (unassigned s) in              (* 732-733 *)
    let s := match get u (by_ident s) with
             | None => s
             | Some eid =>
                 match completed s eid, tasks s eid with
                 | Some c, Some t => with_tables s (queues s) (put (tasks s) eid (Some (remove1 m t)))
                                       (put (completed s) eid (Some (if aborted then c else c ++ [m])))   (* 735-738 *)
                 | _, _ => s
                 end
             end in
    update_record s m (fun _ => Rec (Some u) (Some (Value v)) true)                                       (* 739-756 *)
  else s.

(** 761-782: save_task_destination *)
Definition save_task_destination (s : hub) (m u : nat) : hub :=
  match get u (by_ident s) with
  | None => s                                                                                             (* 769-771: KeyError *)
  | Some eid =>
      let s := with_sets s (pending s) (all_completed s) (discard m (unassigned s)) in                    (* 774-775 *)
      match tasks s eid with
      | Some t => update_record (with_tables s (queues s) (put (tasks s) eid (Some (t ++ [m]))) (completed s)) m (fun r => Rec (Some u) (r_result r) (r_completed r))   (* 779-781 *)
      | None => s
      end
  end.

(** 563-585: save_broadcast_request *)
Definition save_broadcast_request (s : hub) (m : nat) : hub :=
  let s := with_sets s (add m (pending s)) (all_completed s) (unassigned s) in
  match get m (db s) with Some _ => s | None => with_db s (set m (Rec None None false) (db s)) end.
(** 587-637: save_broadcast_result *)
Definition save_broadcast_result (s : hub) (m u : nat) (aborted : bool) (v : nat) : hub :=
  if mem m (pending s) then
    let s := with_sets s (discard m (pending s)) (add m (all_completed s)) (unassigned s) in              (* 610-611 *)
    let s := match get u (by_ident s) with
             | None => s
             | Some eid => match completed s eid with
                           | Some c => with_tables s (queues s) (tasks s) (put (completed s) eid (Some (if aborted then c else c ++ [m])))   (* 612-613 *)
                           | None => s
                           end
             end in
    update_record s m (fun _ => Rec (Some u) (Some (Value v)) true)                                       (* 614-632 *)
  else s.

(** 1327-1343: resubmit_task, for one task; its record is added *)
Definition resubmit (s : hub) (m : nat) : hub :=
  let s := with_sets s (add m (pending s)) (all_completed s) (unassigned s) in
  match get m (db s) with Some _ => s | None => with_db s (set m (Rec None None false) (db s)) end.

(** 1217-1242: purge_results, for a list of messages *)
Definition purge_results (s : hub) (ms : list nat) : hub :=
  if existsb (fun m => mem m (pending s)) ms then s else with_db s (filter (fun e => negb (mem (fst e) ms)) (db s)).

Definition step (s : hub) (e : event) : hub :=
  match e with
  | Register u r => register_engine s u r
  | NewHeart u => handle_new_heart s u
  | StoppedHeart u => handle_stopped_heart s u
  | Unregister i => unregister_engine s i
  | Stalled u => purge_stalled s u
  | DeathTimer i u => if existsb (fun t => Nat.eqb i (fst t) && Nat.eqb u (snd t)) (timers s)
                      then handle_stranded_msgs (with_timers s (filter (fun t => negb (Nat.eqb i (fst t) && Nat.eqb u (snd t))) (timers s))) i u else s
  | Restart => restart s
  | QueueRequest u m => save_queue_request s u m
  | QueueResult u m v => save_queue_result s u m v
  | TaskRequest m => save_task_request s m
  | TaskDestination m u => save_task_destination s m u
  | TaskResult m u a v => save_task_result s m u a v
  | BroadcastRequest m => save_broadcast_request s m
  | BroadcastResult m u a v => save_broadcast_result s m u a v
  | Resubmit m => resubmit s m
  | Purge ms => purge_results s ms
  end.
Definition exec (es : list event) : hub := fold_left step es start.

(* ------------------------------------------------------------------ answers *)
(** sorted(set(l)) *)
Fixpoint insert (x : nat) (l : list nat) : list nat :=
  match l with [] => [x] | y :: r => if Nat.ltb x y then x :: l else if Nat.eqb x y then l else y :: insert x r end.
Definition sorted_set (l : list nat) : list nat := fold_right insert [] l.

Inductive answer := Reply (pend compl : list nat) (contents : list (nat * option result)) | NoSuchMessage (m : nat) | HubError.
(** 1383-1444: get_results. [records]: the matches, [last]: the variable rec after the loop of 1402-1403 *)
Fixpoint collect (s : hub) (statusonly : bool) (records : list (nat * record)) (last : option record) (ms : list nat)
  (p c : list nat) (cs : list (nat * option result)) : answer :=
  match ms with
  | [] => Reply p c cs
  | m :: ms =>
      if mem m (pending s) then collect s statusonly records last ms (p ++ [m]) c cs                       (* 1414-1415 *)
      else if mem m (all_completed s) then                                                                 (* 1416-1421 *)
        if statusonly then collect s statusonly records last ms p (c ++ [m]) cs
        else match get m records with
             | Some r => collect s statusonly records last ms p (c ++ [m]) (cs ++ [(m, r_result r)])
             | None => HubError                                                                            (* KeyError, answered by dispatch_query *)
             end
      else match get m records, last with
           | Some r, Some rec =>                                                                           (* 1422-1429 *)
               if r_completed rec then collect s statusonly records last ms p (c ++ [m]) (cs ++ [(m, r_result r)])
               else collect s statusonly records last ms (p ++ [m]) c cs
           | _, _ => NoSuchMessage m                                                                       (* 1430-1435 *)
           end
  end.
Definition get_results (s : hub) (msg_ids : list nat) (statusonly : bool) : answer :=
  let ms := sorted_set msg_ids in
  let records := if statusonly then [] else filter (fun e => mem (fst e) ms) (db s) in                     (* 1397-1403 *)
  collect s statusonly records (option_map snd (List.last (map Some records) None)) ms [] [] [].

(** 293-314, 1177-1215: queue_status, for ids that have been registered; None: an error *)
Definition queue_status (s : hub) (eid : nat) : option (list nat * list nat * list nat) :=
  match queues s eid, completed s eid, tasks s eid with Some q, Some c, Some t => Some (q, c, t) | _, _, _ => None end.


(** The histories considered: each event is plausible after those before it and what the Hub has told until then. *)
Definition plausible_history (es : list event) : Prop := forall pre e post, es = pre ++ e :: post -> plausible pre (notices (exec pre)) e.
