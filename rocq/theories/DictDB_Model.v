(** Model of ipyparallel/controller/dictdb.py: the in-memory task database.
    Simplifications: [cull_fraction] is a rational and the limits derived from it are computed exactly
    instead of in floating point; logging is left out; values are immutable (the aliasing of the dict
    passed to add_record, line 246, and the deepcopies of what is returned, 165, 174, 256, are not
    visible); [_culled_ids] belongs to the one database modelled (in the code it is shared by all
    DictDB objects of the process, 111); ensure_timezone (util.py) takes local time to be the time
    zone of reference. *)
From Coq Require Import List ZArith String Bool Lia.
From Verif Require Import Prelude PyValue DictDB_Spec.
Import ListNotations.
Local Open Scope string_scope.

Section DictDB.
Context (glob : string -> string -> bool).              (* fnmatch.fnmatch *)

(** 67-70 *)
Definition add_tz (v : value) : value := match v with VNaive t => VTime t | _ => v end.

Fixpoint all_in (a : value) (l : list value) : res bool :=
  match l with
  | [] => Ok true
  | bb :: l => bind (py_in a bb) (fun x => bind (all_in a l) (fun y => Ok (x && y)))
  end.
(** 51-64: [a] is the value in the record, [b] the one in the query *)
Definition filters (o : op) : option (value -> value -> res bool) :=
  match o with
  | OLt => Some (fun a b => py_lt a b)                                               (* 52 *)
  | OGt => Some (fun a b => py_lt a b)                                               (* 53: b > a *)
  | OEq => Some (fun a b => Ok (py_eq a b))                                          (* 54 *)
  | ONe => Some (fun a b => Ok (negb (py_eq a b)))                                   (* 55 *)
  | OLte => Some (fun a b => py_le a b)                                              (* 56 *)
  | OGte => Some (fun a b => py_le b a)                                              (* 57 *)
  | OIn => Some (fun a b => py_in a b)                                               (* 58 *)
  | ONin => Some (fun a b => bind (py_in a b) (fun x => Ok (negb x)))                (* 59 *)
  | OAll => Some (fun a b => bind (py_iter b) (all_in a))                            (* 60 *)
  | OMod => Some (fun a b => bind (py_item b 0) (fun d => bind (py_mod a d) (fun x =>
                             bind (py_item b 1) (fun r => Ok (py_eq x r)))))         (* 61 *)
  | OExists => Some (fun a b => Ok (let none := match a with VNone => true | _ => false end in
                             (truthy b && negb none) || (none && negb (truthy b)))) (* 62 *)
  | OGlob => Some (fun a b => match a, b with
                              | VNone, _ => Ok false
                              | VStr x, VStr p => Ok (glob x p)
                              | _, _ => Raise TypeError
                              end)                                                   (* 63 *)
  | OUnknown => None
  end.

(** 73-88: CompositeFilter; a test on one field *)
Definition test := value -> res bool.
Fixpoint composite_tests (l : list (op * value)) : res (list ((value -> value -> res bool) * value)) :=
  match l with
  | [] => Ok []
  | (o, v) :: r => match filters o with
                   | None => Raise KeyError                                          (* 80 *)
                   | Some f => bind (composite_tests r) (fun ts => Ok ((f, add_tz v) :: ts))
                   end
  end.
Fixpoint composite_call (ts : list ((value -> value -> res bool) * value)) (v : value) : res bool :=
  match ts with
  | [] => Ok true
  | (f, c) :: r => bind (f v c) (fun b => if b then composite_call r v else Ok false)
  end.

(** 146-151 *)
Fixpoint match_one (rec : record) (tests : list (string * test)) : res bool :=
  match tests with
  | [] => Ok true
  | (k, t) :: r => bind (t (match dget k rec with Some v => v | None => VNone end))
                        (fun b => if b then match_one rec r else Ok false)
  end.

(** 157-161: the closure on line 161 reads the variable [v] of the loop when it is called, that is,
    after the loop: [v] is then the last value of the query. *)
Definition clause_value (c : clause) : value :=
  match c with
  | CVal v => v
  | COps l => VDict (map (fun ov => (match fst ov with
       | OLt => "$lt" | OGt => "$gt" | OEq => "$eq" | ONe => "$ne" | OLte => "$lte" | OGte => "$gte" | OIn => "$in"
       | ONin => "$nin" | OAll => "$all" | OMod => "$mod" | OExists => "$exists" | OGlob => "$glob" | OUnknown => "$unknown" end, snd ov)) l)
  end.
Definition last_value (q : query) : value := match rev q with (_, c) :: _ => clause_value c | [] => VNone end.
Fixpoint make_tests (v : value) (q : query) : res (list (string * test)) :=
  match q with
  | [] => Ok []
  | (k, COps l) :: r =>
      bind (composite_tests l) (fun ts => bind (make_tests v r) (fun rest => Ok ((k, composite_call ts) :: rest)))
  | (k, CVal _) :: r =>
      bind (make_tests v r) (fun rest => Ok ((k, fun o => Ok (py_eq (add_tz o) (add_tz v))) :: rest))
  end.

(** The state: 108-110 *)
Record db := DB { recs : dict record; culled : list string; bytes : Z }.
Definition empty : db := DB [] [] 0.

(** 163-166 *)
Fixpoint match_recs (tests : list (string * test)) (l : dict record) : res (list record) :=
  match l with
  | [] => Ok []
  | (_, rec) :: l => bind (match_one rec tests) (fun b => bind (match_recs tests l) (fun r => Ok (if b then rec :: r else r)))
  end.
(** 153-166 *)
Definition match_ (d : db) (check : query) : res (list record) :=
  bind (make_tests (last_value check) check) (fun tests => match_recs tests (recs d)).

(** 168-174 *)
Fixpoint extract_keys (rec : record) (keys : list string) (acc : record) : res record :=
  match keys with
  | [] => Ok acc
  | k :: r => match dget k rec with Some v => extract_keys rec r (dset k v acc) | None => Raise KeyError end
  end.
Definition extract_subdict (rec : record) (keys : list string) : res record :=
  match dget "msg_id" rec with Some m => extract_keys rec keys [("msg_id", m)] | None => Raise KeyError end.

(** 281-298 *)
Definition find_records (d : db) (check : query) (keys : list string) : res (list record) :=
  bind (match_ d check) (fun ms => match keys with [] => Ok ms | _ => traverse (fun r => extract_subdict r keys) ms end).

(** 178-188; len of each buffer *)
Definition blen (v : value) : Z :=
  match v with VList l => fold_right (fun b n => (Z.of_nat (match b with VBytes x => List.length x | _ => 0 end) + n)%Z) 0%Z l | _ => 0%Z end.
Definition rec_bytes (r : record) : Z :=
  (blen (match dget "buffers" r with Some v => v | None => VNone end) +
   blen (match dget "result_buffers" r with Some v => v | None => VNone end))%Z.

(** Python's sorted (stable) *)
Fixpoint insert_by (x : string * Z) (l : list (string * Z)) : list (string * Z) :=
  match l with
  | [] => [x]
  | y :: r => if Z.ltb (snd y) (snd x) then y :: insert_by x r else x :: y :: r
  end.
Definition sort_by (l : list (string * Z)) : list (string * Z) := fold_right insert_by [] l.
(** 300-307; [rec['submitted']] is None or a time with a timezone (_check_dates) *)
Fixpoint dated (l : dict record) : res (list (string * Z)) :=
  match l with
  | [] => Ok []
  | (m, r) :: l => match dget "submitted" r with
                   | None => Raise KeyError
                   | Some VNone => dated l
                   | Some (VTime t) => bind (dated l) (fun x => Ok ((m, t) :: x))
                   | Some _ => Raise TypeError
                   end
  end.
Definition get_history (d : db) : res (list string) := bind (dated (recs d)) (fun l => Ok (map fst (sort_by l))).

(** The outcome of a call that changes the database: it returns, raises, or never returns. *)
Inductive outcome := Done (d : db) | Raised (e : exn) (d : db) | Hang.
Definition andthen (o : outcome) (k : db -> outcome) : outcome :=
  match o with Done d => k d | Raised e d => Raised e d | Hang => Hang end.

(** 275-279 *)
Definition drop_record (m : string) (d : db) : outcome :=
  match dget m (recs d) with
  | None => Raised KeyError d
  | Some r => Done (DB (ddel m (recs d)) (culled d) (bytes d - rec_bytes r))
  end.

(** 190-195 *)
Fixpoint cull_ids (ms : list string) (d : db) : outcome :=
  match ms with
  | [] => Done d
  | m :: r => andthen (drop_record m (DB (recs d) (m :: culled d) (bytes d))) (cull_ids r)
  end.
Definition cull_oldest (n : nat) (d : db) : outcome :=
  match get_history d with Ok h => cull_ids (firstn n h) d | Raise e => Raised e d end.

(** The configuration 112-142; cull_fraction is [num / den]. *)
Record limits := Limits { size_limit : Z; record_limit : nat; cull_num : nat; cull_den : positive }.
Section Limits.
Context (lim : limits).
(** 200 *)
Definition to_cull : nat := (cull_num lim * record_limit lim) / Pos.to_nat (cull_den lim).
(** 211, 216: the condition of the loop: bytes > size_limit * (1 - cull_fraction) *)
Definition over (d : db) : bool :=
  Z.ltb (size_limit lim * (Zpos (cull_den lim) - Z.of_nat (cull_num lim))) (bytes d * Zpos (cull_den lim)).
(** 216-218.  Each round removes a record or changes nothing: more rounds than there are records means
    that the loop never ends. *)
Fixpoint cull_size (rounds : nat) (d : db) : outcome :=
  if over d then match rounds with O => Hang | S n => andthen (cull_oldest 1 d) (cull_size n) end else Done d.
(** 197-226 *)
Definition maybe_cull (d : db) : outcome :=
  andthen (if Nat.ltb (record_limit lim) (List.length (recs d)) then cull_oldest to_cull d else Done d) (fun d =>
  if Z.ltb (size_limit lim) (bytes d) then cull_size (S (List.length (recs d))) d else Done d).

(** 228-237 *)
Definition check_date (k : string) (rec : record) : res record :=
  match dget k rec with
  | None | Some VNone | Some (VTime _) => Ok rec
  | Some (VNaive t) => Ok (dset k (VTime t) rec)
  | Some _ => Raise ValueError
  end.
Definition check_dates (rec : record) : res record :=
  bind (check_date "submitted" rec) (fun rec => bind (check_date "started" rec) (fun rec =>
  bind (check_date "completed" rec) (check_date "received"))).

(** 178-183 *)
Definition add_bytes (r : record) (d : db) : outcome := maybe_cull (DB (recs d) (culled d) (bytes d + rec_bytes r)).

(** 241-248 *)
Definition add_record (m : string) (rec : record) (d : db) : outcome :=
  match dget m (recs d) with
  | Some _ => Raised KeyError d
  | None =>
      match check_dates rec with
      | Raise e => Raised e d
      | Ok rec => andthen (add_bytes rec (DB (dset m rec (recs d)) (culled d) (bytes d))) maybe_cull
      end
  end.

(** 250-256 *)
Definition get_record (d : db) (m : string) : res record :=
  if existsb (String.eqb m) (culled d) then Raise KeyError
  else match dget m (recs d) with Some r => Ok r | None => Raise KeyError end.

(** 258-266 *)
Definition update_record (m : string) (rec : record) (d : db) : outcome :=
  if existsb (String.eqb m) (culled d) then Raised KeyError d
  else match check_dates rec with
       | Raise e => Raised e d
       | Ok rec =>
           match dget m (recs d) with
           | None => Raised KeyError d
           | Some old =>
               let new := dupdate old rec in
               add_bytes new (DB (dset m new (recs d)) (culled d) (bytes d - rec_bytes old))
           end
       end.

(** 268-273: one at a time, by the msg_id found in the record *)
Fixpoint drop_all (ms : list record) (d : db) : outcome :=
  match ms with
  | [] => Done d
  | r :: ms =>
      let d := DB (recs d) (culled d) (bytes d - rec_bytes r) in
      match dget "msg_id" r with
      | Some (VStr m) => match dget m (recs d) with
                         | Some _ => drop_all ms (DB (ddel m (recs d)) (culled d) (bytes d))
                         | None => Raised KeyError d
                         end
      | _ => Raised KeyError d
      end
  end.
Definition drop_matching_records (check : query) (d : db) : outcome :=
  match match_ d check with Ok ms => drop_all ms d | Raise e => Raised e d end.

(** A sequence of calls; a call that raises is caught by the caller.  [None]: some call never returned.
    Also the calls that returned normally, newest first. *)
Definition perform (o : dbop) (d : db) : outcome :=
  match o with
  | OpAdd m r => add_record m r d
  | OpUpdate m r => update_record m r d
  | OpDrop m => drop_record m d
  | OpDropMatching q => drop_matching_records q d
  end.
Fixpoint run (ops : list dbop) (d : db) (done : list dbop) : option (db * list dbop) :=
  match ops with
  | [] => Some (d, done)
  | o :: r => match perform o d with
              | Done d' => run r d' (o :: done)
              | Raised _ d' => run r d' done
              | Hang => None
              end
  end.
End Limits.
End DictDB.
