(** Model of ipyparallel/controller/sqlitedb.py: what SQLiteDB stores (add_record, get_record, update_record,
    drop_record, drop_matching_records, get_history, close; 376-467), with the part of SQLite that these
    use: one table with a primary key, statements that happen entirely or not at all, and transactions
    that a crash undoes up to the last commit.
    Simplifications: as in Sqlite_Model; a datetime is stored as itself instead of as its isoformat
    (conversion back, 97-99, is exact); a dict as its JSON text and a non-empty list of buffers as its
    pickle, both exact (58-89); column names are compared exactly (SQL ignores case); the database is
    opened again under the same table name (121-127); an update that gives a record the msg_id of another one is
    not refused. *)
From Coq Require Import List ZArith String Bool.
From Verif Require Import Prelude PyValue DictDB_Spec Sqlite_Spec Sqlite_Model SqlStore_Spec.
Import ListNotations.
Local Open Scope string_scope.

(** _keys, 135-161 *)
Definition keys_ : list string :=
  ["msg_id"; "header"; "metadata"; "content"; "buffers"; "submitted"; "client_uuid"; "engine_uuid"; "started"; "completed";
   "resubmitted"; "received"; "result_header"; "result_metadata"; "result_content"; "result_buffers"; "queue"; "execute_input";
   "execute_result"; "error"; "stdout"; "stderr"; "label"].
(** The declared types, 288-310 (and 163-189): the first word chooses the converter *)
Inductive decl := DText | DDict | DBufs | DTimestamp.
(** CREATE TABLE, 286-312: columns in order, with their types *)
Definition schema : list (string * decl) :=
  [("msg_id", DText); ("header", DDict); ("metadata", DDict); ("content", DDict); ("buffers", DBufs); ("submitted", DTimestamp);
   ("client_uuid", DText); ("engine_uuid", DText); ("started", DTimestamp); ("completed", DTimestamp); ("resubmitted", DText);
   ("received", DTimestamp); ("result_header", DDict); ("result_metadata", DDict); ("result_content", DDict); ("result_buffers", DBufs);
   ("queue", DText); ("execute_input", DText); ("execute_result", DText); ("error", DText); ("stdout", DText); ("stderr", DText); ("label", DText)].

(** A row of the table, by position; what the columns hold is a [sval]. *)
Definition line := list sval.
Definition table := list line.

(** Adapters, 58-94: dicts, lists, datetimes; an empty list is NULL *)
Definition adapt_value (v : pv) : sval :=
  match v with
  | PNone => SNone | PText s => SText s | PTime t => STime t
  | PDict s => SText s                                          (* 58-59 *)
  | PBufs s => SText s                                          (* 73-78 *)
  | PEmpty => SNone                                             (* 79-82 *)
  end.
Section Store.
Context (glob : string -> string -> bool) (iso : time -> string).
(** Converters, 62-69, 85-99; they are not called for NULL *)
Definition convert (d : decl) (v : sval) : pv :=
  match v, d with
  | SNone, _ => PNone
  | SText s, DText => PText s
  | SText s, DDict => PDict s
  | SText s, DBufs => PBufs s
  | SText s, DTimestamp => PText s                              (* would be parsed as a date: does not occur *)
  | STime t, DTimestamp => PTime t
  | STime t, _ => PText (iso t)
  end.

(** The value of a column in a row *)
Fixpoint cell (cols : list (string * decl)) (l : line) (k : string) : sval :=
  match cols, l with
  | (c, _) :: cols, v :: l => if String.eqb k c then v else cell cols l k
  | _, _ => SNone
  end.
Definition col (l : line) : row := cell schema l.
(** SELECT *: the values of the row, converted *)
Fixpoint fetch (cols : list (string * decl)) (l : line) : list pv :=
  match cols, l with (_, d) :: cols, v :: l => convert d v :: fetch cols l | _, _ => [] end.

(** 223-229 *)
Definition defaults (keys : list string) : prec := map (fun k => (k, PNone)) keys.
(** 315-318 *)
Fixpoint dict_to_list (keys : list string) (d : prec) : option (list pv) :=
  match keys with
  | [] => Some []
  | k :: r => match dget k d, dict_to_list r d with Some v, Some l => Some (v :: l) | _, _ => None end
  end.
(** 320-327 *)
Definition list_to_dict (l : list pv) (keys : list string) : prec :=
  fold_left (fun d kv => dset (fst kv) (snd kv) d) (combine keys l) (defaults keys).

(** [msg_id==?] *)
Definition is_msg (m : string) (l : line) : bool :=
  match compare_sql glob Eq_ (adapt iso (col l "msg_id")) (Some m) with Some b => b | None => false end.

(** 376-384; a duplicate primary key is an error *)
Definition add_record (m : string) (rec : prec) (t : table) : option table :=
  match dict_to_list keys_ (dset "msg_id" (PText m) (dupdate (defaults keys_) rec)) with
  | None => None
  | Some vs =>
      let new := map adapt_value vs in
      if existsb (fun l => match col l "msg_id", col new "msg_id" with SText a, SText b => String.eqb a b | _, _ => false end) t then None
      else Some (t ++ [new])%list
  end.

(** 386-394 *)
Definition get_record (m : string) (t : table) : res prec :=
  match find (is_msg m) t with
  | None => Raise KeyError
  | Some l => Ok (list_to_dict (fetch schema l) keys_)
  end.

(** Python's sorted *)
Fixpoint insert_str (x : string) (l : list string) : list string :=
  match l with [] => [x] | y :: r => if String.leb x y then x :: y :: r else y :: insert_str x r end.
Definition sorted (l : list string) : list string := fold_right insert_str [] l.
(** [SET k1 = ?, k2 = ? ...] on one row *)
Fixpoint set_cells (cols : list (string * decl)) (sets : list (string * sval)) (l : line) : line :=
  match cols, l with
  | (c, _) :: cols, v :: l => (match dget c sets with Some x => x | None => v end) :: set_cells cols sets l
  | _, _ => []
  end.
(** 396-409; no assignments, and unknown columns, are errors of SQL.  The columns named after SET and
    the values come from the same sorted list of keys. *)
Definition update_record (m : string) (rec : prec) (t : table) : option table :=
  let keys := sorted (dkeys rec) in
  let sets := map (fun k => (k, match dget k rec with Some v => adapt_value v | None => SNone end)) keys in
  if Nat.eqb (List.length keys) 0 || negb (forallb (fun k => existsb (fun c => String.eqb k (fst c)) schema) keys) then None
  else Some (map (fun l => if is_msg m l then set_cells schema sets l else l) t).

(** 411-414 *)
Definition drop_record (m : string) (t : table) : table := filter (fun l => negb (is_msg m l)) t.

(** DELETE FROM table WHERE ..., 416-421 *)
Fixpoint delete (t : table) (ts : list token) (args : list (option string)) : option table :=
  match t with
  | [] => Some []
  | l :: t =>
      match where_ glob (stored iso (col l)) ts args, delete t ts args with
      | Some b, Some out => Some (if b then out else l :: out)
      | _, _ => None
      end
  end.
Definition drop_matching_records (check : squery) (t : table) : option table :=
  match render_expression iso check with
  | Fail _ => None
  | Done (ts, args) => match where_ glob (fun _ => None) ts args with Some _ => delete t ts args | None => None end
  end.

(** ORDER BY submitted ASC, 459-464: NULLs first, then as text.  Simplification: ties in the order of insertion. *)
Definition sql_le (a b : option string) : bool :=
  match a, b with
  | None, _ => true
  | Some _, None => false
  | Some x, Some y => match String.compare x y with Gt => false | _ => true end
  end.
Fixpoint insert_line (x : line) (l : list line) : list line :=
  match l with
  | [] => [x]
  | y :: r => if sql_le (adapt iso (col x "submitted")) (adapt iso (col y "submitted")) then x :: y :: r else y :: insert_line x r
  end.
Definition get_history (t : table) : list sval := map (fun l => col l "msg_id") (fold_right insert_line [] t).

(** The database: what is safe on disk, and what the connection sees. *)
Record store := Store { on_disk : table; current : table }.
(** 258-313 on a new file: the empty table is created and committed *)
Definition start : store := Store [] [].
(** One call; None: it raised *)
Definition perform (o : sop) (t : table) : option table :=
  match o with
  | SAdd m r => add_record m r t
  | SUpdate m r => update_record m r t
  | SDrop m => Some (drop_record m t)
  | SDropMatching q => drop_matching_records q t
  end.
(** What happens: a call changes only what the connection sees; the timer commits every two seconds
    (212-216); close (218-221) commits; a crash loses what is not on disk.  When the file is opened again
    the table has the expected columns and is taken over (231-256, 277, 287). *)
Definition happen (e : sevent) (s : store) : option store :=
  match e with
  | Call o => match perform o (current s) with Some t => Some (Store (on_disk s) t) | None => None end
  | Commit => Some (Store (current s) (current s))
  | Reopen => Some (Store (current s) (current s))
  | Crash => Some (Store (on_disk s) (on_disk s))
  end.
(** A history; also the events without the calls that raised. *)
Fixpoint run (evs : list sevent) (s : store) : store * list sevent :=
  match evs with
  | [] => (s, [])
  | e :: r => match happen e s with
              | Some s' => let '(s'', log) := run r s' in (s'', e :: log)
              | None => run r s
              end
  end.
End Store.
