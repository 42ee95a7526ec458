(** Model of purging results: ipyparallel/client/client.py 2333-2365 (_msg_ids_from_target,
    _msg_ids_from_jobs) and 2407-2526 (purge_local_results, purge_hub_results, purge_results,
    purge_everything), ipyparallel/controller/hub.py 1217-1267 (Hub.purge_results), on the databases of
    DictDB_Model and SqlStore_Model and the targets of Targets_Model.
    Simplifications: the messages between client and Hub arrive; the digest history of the session (2526)
    and logging are left out; a mapping's AsyncResult with empty chunks counts as not empty. *)
From Coq Require Import List ZArith String Bool.
From Verif Require Import Prelude PyValue DictDB_Spec Sqlite_Spec Purge_Spec.
From Verif Require DictDB_Model SqlStore_Model Targets_Spec Targets_Model.
Import ListNotations.
Local Open Scope string_scope.

(** ** The Hub *)
Inductive reply := RDone | RPending (m : string) | RNoEngine (e : Z) | RDatabase | RTypeError.
(** msg_ids: 'all' or a list; engine_ids: a list, or something that cannot be iterated over *)
Inductive wanted := Everything | These (l : list string).
Inductive engine_ids := Engines (l : list Z) | NotIterable.
Section Hub.
Context {D : Type} (drop : squery -> D -> D * bool).     (* db.drop_matching_records; false: it raised *)
Record hub := Hub { pending : list string; engines : list (Z * string); db : D }.
Definition with_db (h : hub) (d : D) : hub := Hub (pending h) (engines h) d.
Definition engine (h : hub) (e : Z) : option string := option_map snd (find (fun p => Z.eqb (fst p) e) (engines h)).

(** 1226: dict(completed={'$ne': None}) *)
Definition q_completed : squery := [("completed", SOps [(ONe, Sqlite_Spec.One SNone)])].
(** 1240: dict(msg_id={'$in': msg_ids}) *)
Definition q_ids (l : list string) : squery := [("msg_id", SOps [(OIn, Many (map SText l))])].
(** 1258: dict(engine_uuid=uid, completed={'$ne': None}) *)
Definition q_engine (u : string) : squery := [("engine_uuid", SVal (SText u)); ("completed", SOps [(ONe, Sqlite_Spec.One SNone)])].

(** 1247-1263 *)
Fixpoint purge_engines (l : list Z) (h : hub) : hub * reply :=
  match l with
  | [] => (h, RDone)
  | e :: l =>
      match engine h e with
      | None => (h, RNoEngine e)                                               (* 1248-1254 *)
      | Some u =>
          let '(d, ok) := drop (q_engine u) (db h) in
          if ok then purge_engines l (with_db h d) else (with_db h d, RDatabase)
      end
  end.
(** 1217-1267 *)
Definition hub_purge (ms : wanted) (es : engine_ids) (h : hub) : hub * reply :=
  match ms with
  | Everything =>                                                              (* 1224-1229 *)
      let '(d, ok) := drop q_completed (db h) in (with_db h d, if ok then RDone else RDatabase)
  | These l =>
      match filter (fun m => existsb (String.eqb m) (pending h)) l with        (* 1231 *)
      | m :: _ => (h, RPending m)                                              (* 1232-1237 *)
      | [] =>
          let '(d, ok) := drop (q_ids l) (db h) in                             (* 1239-1243 *)
          if ok then match es with
                     | Engines e => purge_engines e (with_db h d)
                     | NotIterable => (with_db h d, RTypeError)                (* 1247, and dispatch_query 379-384 *)
                     end
          else (with_db h d, RDatabase)
      end
  end.
End Hub.
Arguments Hub {D}. Arguments pending {D}. Arguments engines {D}. Arguments db {D}. Arguments with_db {D}. Arguments engine {D}.

(** The two databases *)
Definition drop_dict glob (q : squery) (d : DictDB_Model.db) : DictDB_Model.db * bool :=
  match DictDB_Model.drop_matching_records glob (abs_query q) d with
  | DictDB_Model.Done d' => (d', true)
  | DictDB_Model.Raised _ d' => (d', false)
  | DictDB_Model.Hang => (d, false)                       (* does not occur *)
  end.
Definition drop_sql glob iso (q : squery) (t : SqlStore_Model.table) : SqlStore_Model.table * bool :=
  match SqlStore_Model.drop_matching_records glob iso q t with Some t' => (t', true) | None => (t, false) end.

(** ** The client *)
(** metadata[...]["engine_uuid"] is None, a str or a list of them (818-835); _build_targets returns bytes
    (728).  With Python's ==. *)
Inductive uuid_value := UNone | UStr (s : string) | UBytes (s : string) | UList (l : list string).
Definition uuid_eqb (a b : uuid_value) : bool :=
  match a, b with
  | UNone, UNone => true
  | UStr x, UStr y | UBytes x, UBytes y => String.eqb x y
  | UList x, UList y => if list_eq_dec string_dec x y then true else false
  | _, _ => false
  end.

Section Client.
Context {V : Type}.                                       (* what the dicts hold *)
Record client := Client {
  results : dict V; metadata : dict (uuid_value * V); futures : dict V; output_futures : dict V;
  outstanding : list string; history : list string; registry : Targets_Model.registry (U := string) }.
Inductive fate := Fine | ValueError | RuntimeError | IndexError | TypeError | BadTargets | HubError (r : reply).

(** Python's truth value of targets, 2335, 2435, 2477 *)
Definition no_targets (t : Targets_Spec.target) : bool :=
  match t with
  | Targets_Spec.TNone => true
  | Targets_Spec.TStr s => String.eqb s ""
  | Targets_Spec.TInt z => Z.eqb z 0
  | Targets_Spec.TList l => match l with [] => true | _ => false end
  | _ => false
  end.
(** 2333-2342; None: _build_targets raised *)
Definition msg_ids_from_target (c : client) (t : Targets_Spec.target) : option (list string) :=
  if no_targets t then Some []
  else match Targets_Model.build_targets (registry c) t with
       | Targets_Spec.Chosen idents _ =>
           Some (map fst (filter (fun p => existsb (uuid_eqb (fst (snd p))) (map UBytes idents)) (metadata c)))
       | _ => None
       end.

(** self.history[i] *)
Definition py_index (l : list string) (i : Z) : option string :=
  if Z.leb 0 i then nth_error l (Z.to_nat i)
  else if Z.leb 0 (Z.of_nat (List.length l) + i) then nth_error l (Z.to_nat (Z.of_nat (List.length l) + i)) else None.
(** 2356-2364 *)
Definition ids_of (h : list string) (j : job) : res (list string) :=
  match j with
  | Index i => match py_index h i with Some m => Ok [m] | None => Raise Prelude.IndexError end
  | Id m => Ok [m]
  | Handle ids => Ok ids
  | Junk => Raise Prelude.TypeError
  end.
(** 2344-2365 *)
Definition msg_ids_from_jobs (c : client) (j : jobs) : res (list string) :=
  let js := match j with One j => [j] | Several js => js end in
  bind (traverse (ids_of (history c)) js) (fun l => Ok (concat l)).
Definition no_jobs (j : jobs) : bool :=
  match j with
  | One (Index i) => Z.eqb i 0
  | One (Id m) => String.eqb m ""
  | One (Handle ids) => match ids with [] => true | _ => false end
  | One Junk => false
  | Several js => match js with [] => true | _ => false end
  end.
Definition is_all (j : jobs) : bool := match j with One (Id m) => String.eqb m "all" | _ => false end.
Definition fate_of (e : exn) : fate := match e with Prelude.IndexError => IndexError | _ => TypeError end.

(** 2455-2458 *)
Definition pop (m : string) (c : client) : client :=
  Client (ddel m (results c)) (ddel m (metadata c)) (ddel m (futures c)) (ddel m (output_futures c)) (outstanding c) (history c) (registry c).
(** 2435-2458 *)
Definition purge_local_results (j : jobs) (t : Targets_Spec.target) (c : client) : client * fate :=
  if no_targets t && no_jobs j then (c, ValueError)                            (* 2435-2436 *)
  else if is_all j then                                                        (* 2438-2444 *)
    match outstanding c with
    | [] => (Client [] [] [] [] (outstanding c) (history c) (registry c), Fine)
    | _ => (c, RuntimeError)
    end
  else match msg_ids_from_target c t with                                      (* 2447 *)
       | None => (c, BadTargets)
       | Some ts =>
           match msg_ids_from_jobs c j with                                    (* 2448 *)
           | Raise e => (c, fate_of e)
           | Ok js =>
               if existsb (fun m => existsb (String.eqb m) (outstanding c)) (ts ++ js)%list then (c, RuntimeError)   (* 2449-2453 *)
               else (fold_left (fun c m => pop m c) (ts ++ js)%list c, Fine)   (* 2454-2458 *)
           end
       end.

(** 2477-2492 *)
Definition purge_hub_results {D} (drop : squery -> D -> D * bool) (j : jobs) (t : Targets_Spec.target) (c : client) (h : hub (D := D)) : hub (D := D) * fate :=
  if no_targets t && no_jobs j then (h, ValueError)
  else match (if no_targets t
              then Some (match t with Targets_Spec.TInt _ | Targets_Spec.TNone => NotIterable | _ => Engines [] end)   (* sent as they are *)
              else match Targets_Model.build_targets (registry c) t with Targets_Spec.Chosen _ ids => Some (Engines ids) | _ => None end) with
       | None => (h, BadTargets)
       | Some es =>
           match (if is_all j then Ok Everything else bind (msg_ids_from_jobs c j) (fun l => Ok (These l))) with
           | Raise e => (h, fate_of e)
           | Ok ms => let '(h', r) := hub_purge drop ms es h in (h', match r with RDone => Fine | _ => HubError r end)
           end
       end.

(** 2494-2516 *)
Definition purge_results {D} (drop : squery -> D -> D * bool) (j : jobs) (t : Targets_Spec.target) (c : client) (h : hub (D := D))
  : client * hub (D := D) * fate :=
  match purge_local_results j t c with
  | (c', Fine) => let '(h', f) := purge_hub_results drop j t c' h in (c', h', f)
  | (c', f) => (c', h, f)
  end.
(** 2518-2526 *)
Definition purge_everything {D} (drop : squery -> D -> D * bool) (c : client) (h : hub (D := D)) : client * hub (D := D) * fate :=
  match purge_results drop everything (Targets_Spec.TList []) c h with
  | (c', h', Fine) => (Client (results c') (metadata c') (futures c') (output_futures c') (outstanding c') [] (registry c'), h', Fine)
  | other => other
  end.
End Client.
Arguments client : clear implicits.
