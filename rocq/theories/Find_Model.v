(** How controllers name their connection files, and how clients, engines and
    launchers find them. *)
From Coq Require Import String Ascii List NArith Bool PeanoNat.
Import ListNotations.
From Verif Require Import Find_Spec.

(** An instance that was given cluster ids, one after the other (environment,
    apps/baseapp.py 137-145; configuration; command line), with the observer of
    its trait, which is called when the value changes. *)
Definition assign {A} (observer : str -> A) (x : str * A) (id : str) : str * A :=
  if list_eq_dec ascii_dec (fst x) id then x else (id, observer id).
Definition assigned {A} (observer : str -> A) (start : A) (ids : list str) : str * A :=
  fold_left (assign observer) ids ([], start).

(** controller/app.py 226-243: engine_json_file, client_json_file. *)
Definition controller_observer (id : str) : str * str :=
  let base := lit "ipcontroller" in
  let base := match id with [] => base | _ => base ++ lit "-" ++ id end in
  (base ++ lit "-engine.json", base ++ lit "-client.json").
Definition controller_names (ids : list str) : str * (str * str) :=
  assigned controller_observer (lit "ipcontroller-engine.json", lit "ipcontroller-client.json") ids.
(** controller/app.py 675-682, 690, 709: os.path.join(security_dir, fname). *)
Definition controller_path (profile_dir : str) (ids : list str) (k : kind) : str :=
  let names := snd (controller_names ids) in
  profile_dir ++ lit "/security" ++ lit "/" ++
  match k with ForEngine => fst names | ForClient => snd names end.

(** engine/app.py 159-173: url_file_name; 362-372: find_connection_file, with
    url_file as configured (empty: not). *)
Definition engine_observer (id : str) : str :=
  let base := match id with [] => lit "ipcontroller" | _ => lit "ipcontroller-" ++ id end in
  base ++ lit "-engine.json".
Definition engine_path (profile_dir url_file : str) (ids : list str) : str :=
  match url_file with
  | [] => profile_dir ++ lit "/security" ++ lit "/" ++
          snd (assigned engine_observer (lit "ipcontroller-engine.json") ids)
  | _ => url_file
  end.

(** client/client.py 440-445. *)
Definition client_path (profile_dir id : str) : str :=
  profile_dir ++ lit "/security" ++ lit "/" ++
  match id with [] => lit "ipcontroller-client.json" | _ => lit "ipcontroller-" ++ id ++ lit "-client.json" end.

(** cluster/launcher.py 172-183: connection_files. *)
Definition launcher_path (profile_dir id : str) (k : kind) : str :=
  let security_dir := profile_dir ++ lit "/" ++ lit "security" in
  let name_prefix := lit "ipcontroller" in
  let name_prefix := match id with [] => name_prefix | _ => name_prefix ++ lit "-" ++ id end in
  security_dir ++ lit "/" ++ name_prefix ++ lit "-" ++
  match k with ForClient => lit "client" | ForEngine => lit "engine" end ++ lit ".json".

(** ** What a Client is to connect to: client.py 415-438, 456-474, 629-647.
    [url_file] is a named argument that nothing uses (404: only names that are
    in [extra_args] are looked at). *)
Inductive given := Nothing | ADict (i : info) | APath (p : str) | AUrl.
Inductive source := Refused | Known (i : info) | File (p : str) | Waits (p : str) | NoController.
Definition find_profile (is_dir : str -> bool) (ipython_dir : str) (profile_dir profile : option str) : option str :=
  match profile_dir with
  | Some d => if is_dir d then Some d else None
  | None =>
      let d := ipython_dir ++ lit "/profile_" ++
               match profile with Some n => n | None => lit "default" end in
      if is_dir d then Some d else None
  end.
Definition client_source (is_dir : str -> bool) (ipython_dir : str)
    (connection_info : given) (url_file profile_dir profile : option str) (id : str) : source :=
  match connection_info with
  | AUrl => Refused
  | ADict i => Known i
  | APath p => File p
  | Nothing => match find_profile is_dir ipython_dir profile_dir profile with
               | Some d => Waits (client_path d id)
               | None => NoController
               end
  end.

Inductive ending := Reads (t : nat) (i : info) | Damaged | NotFound (t : nat).
Definition is_there (fs : files) (t : nat) (p : str) : bool :=
  match fs t p with None => false | Some _ => true end.
Definition read (fs : files) (t : nat) (p : str) : ending :=
  match fs t p with
  | None => NotFound t
  | Some Partial => Damaged
  | Some (Whole i) => Reads t i
  end.

(** client.py 447-462: waiting a second at a time.  Simplified: a sleep takes
    the time it is given and the rest no time.  [fuel]: the loop ends before. *)
Fixpoint client_loop (fs : files) (p : str) (t0 timeout w fuel : nat) : nat :=
  match fuel with
  | 0 => t0 + w
  | S f =>
      if w <? timeout then
        let t := t0 + Nat.min timeout (w + 10) in
        if is_there fs t p then t else client_loop fs p t0 timeout (w + 10) f
      else t0 + timeout
  end.
Definition client_reads (fs : files) (p : str) (t0 timeout : nat) : ending :=
  let t := if is_there fs t0 p then t0 else client_loop fs p t0 timeout 0 (S timeout) in
  read fs t p.

(** engine/app.py 894-913: a tenth of a second at a time; then
    load_connection_file (374-388), or what $IPP_CONNECTION_INFO says. *)
Fixpoint engine_loop (fs : files) (p : str) (t left : nat) : nat :=
  match left with
  | 0 => t
  | S l => if is_there fs t p then t else engine_loop fs p (S t) l
  end.
Definition engine_reads (fs : files) (env : option info) (p : str) (t0 wait : nat) : ending :=
  match env with
  | Some i => Reads t0 i
  | None => read fs (engine_loop fs p t0 wait) p
  end.

(** cluster/launcher.py 362-416: get_connection_info.  [stopped t]: what the
    controller is polled to be at [t]; [deadline]: none with a negative timeout. *)
Inductive wait_end := Arrived (t : nat) | TimedOut | Stopped | StillWaiting.
Fixpoint launcher_loop (fs : files) (stopped : nat -> bool) (pc pe : str)
    (deadline : option nat) (t fuel : nat) : wait_end :=
  if is_there fs t pc && is_there fs t pe then Arrived t else
  match fuel with
  | 0 => StillWaiting
  | S f =>
      if match deadline with Some d => d <? t | None => false end then TimedOut
      else if stopped (S t) then Stopped
      else launcher_loop fs stopped pc pe deadline (S t) f
  end.
(** 401-414: a file that cannot be parsed is read again half a second later. *)
Definition read_twice (fs : files) (t : nat) (p : str) : nat * ending :=
  match read fs t p with
  | Damaged => (t + 5, read fs (t + 5) p)
  | r => (t, r)
  end.
Inductive lresult := Got (ci ei : info) | Fails.
Definition load_both (fs : files) (pc pe : str) (t : nat) : lresult :=
  match read_twice fs t pc with
  | (t', Reads _ ci) =>
      match read_twice fs t' pe with
      | (_, Reads _ ei) => Got ci ei
      | _ => Fails
      end
  | _ => Fails
  end.
