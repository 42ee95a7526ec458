(** What the SQLite task database should hold after a history of calls, commits and crashes (C54).
    Independent of the model.  Columns, queries and rows are those of Sqlite_Spec. *)
From Coq Require Import List ZArith String Bool.
From Verif Require Import Prelude PyValue DictDB_Spec Sqlite_Spec.
Import ListNotations.
Local Open Scope string_scope.

(** The values in records: None, text, datetimes, dicts (by their JSON text) and lists of buffers
    (a non-empty one by its pickle). *)
Inductive pv := PNone | PText (s : string) | PTime (t : time) | PDict (json : string) | PBufs (pickled : string) | PEmpty.
Definition prec := dict pv.

(** What each column is for. *)
Inductive coltype := CText | CTime | CDict | CBufs.
Definition type_of (k : string) : coltype :=
  if timestamp k then CTime
  else if existsb (String.eqb k) ["header"; "metadata"; "content"; "result_header"; "result_metadata"; "result_content"] then CDict
  else if existsb (String.eqb k) ["buffers"; "result_buffers"] then CBufs
  else CText.
Definition suits (off : Z) (k : string) (v : pv) : Prop :=
  match v, type_of k with
  | PNone, _ => True
  | PText _, CText | PDict _, CDict | PBufs _, CBufs => True
  | PTime t, CTime => offset t = off
  | _, _ => False
  end.

(** As something to search in. *)
Definition searched (v : pv) : sval :=
  match v with PNone | PEmpty => SNone | PText s => SText s | PTime t => STime t | PDict s => SText s | PBufs s => SText s end.

(** ** Calls, and what else happens to the database *)
Inductive sop :=
| SAdd (m : string) (r : prec)
| SUpdate (m : string) (r : prec)
| SDrop (m : string)
| SDropMatching (q : squery).
Inductive sevent :=
| Call (o : sop)
| Commit                  (* the timer of the database fires *)
| Reopen                  (* close, and open again later *)
| Crash.                  (* the process is killed; open again later *)

(** The contents of a record: a value for every column. *)
Definition fresh (m : string) (r : prec) : string -> pv := fun k =>
  if String.eqb k "msg_id" then PText m else match dget k r with Some v => v | None => PNone end.
Definition changed (old : string -> pv) (r : prec) : string -> pv := fun k =>
  match dget k r with Some v => v | None => old k end.

Section Latest.
Context (glob : string -> string -> bool).
Definition satisfies (q : squery) (f : string -> pv) : Prop := sql_matches glob q (fun k => searched (f k)).
(** [latest h m c]: after the calls [h] (newest first) the id [m] has the contents [c], or none. *)
Inductive latest : list sop -> string -> option (string -> pv) -> Prop :=
| l_start m : latest [] m None
| l_add h m r : latest (SAdd m r :: h) m (Some (fresh m r))
| l_add_other h m m' r o : m <> m' -> latest h m o -> latest (SAdd m' r :: h) m o
| l_update h m r old : latest h m (Some old) -> latest (SUpdate m r :: h) m (Some (changed old r))
| l_update_none h m r : latest h m None -> latest (SUpdate m r :: h) m None
| l_update_other h m m' r o : m <> m' -> latest h m o -> latest (SUpdate m' r :: h) m o
| l_drop h m : latest (SDrop m :: h) m None
| l_drop_other h m m' o : m <> m' -> latest h m o -> latest (SDrop m' :: h) m o
| l_match h m q f : latest h m (Some f) -> satisfies q f -> latest (SDropMatching q :: h) m None
| l_match_not h m q f : latest h m (Some f) -> ~ satisfies q f -> latest (SDropMatching q :: h) m (Some f)
| l_match_none h m q : latest h m None -> latest (SDropMatching q :: h) m None.
End Latest.

(** The calls that count after the events [evs] (oldest first; all the calls in it succeeded): a crash
    undoes those since the last commit.  [safe] and [cur]: calls so far, newest first. *)
Fixpoint kept_from (safe cur : list sop) (evs : list sevent) : list sop :=
  match evs with
  | [] => cur
  | Call o :: r => kept_from safe (o :: cur) r
  | (Commit | Reopen) :: r => kept_from cur cur r
  | Crash :: r => kept_from safe safe r
  end.
Definition kept (evs : list sevent) : list sop := kept_from [] [] evs.

(** Calls as they should be: unique keys; values suit their columns; an update has something to change and does not
    change the msg_id; queries are supported. *)
Definition good_call (off : Z) (o : sop) : Prop :=
  match o with
  | SAdd m r => NoDup (dkeys r) /\ (forall k v, dget k r = Some v -> In k columns -> k <> "msg_id" -> suits off k v)
  | SUpdate m r => NoDup (dkeys r) /\ (forall k v, dget k r = Some v -> suits off k v) /\ (forall v, dget "msg_id" r = Some v -> v = PText m)
  | SDrop _ => True
  | SDropMatching q => supported_sql q /\ forall k c, In (k, c) q ->
      match c with SVal v => fits off k v | SOps l => forall o a, In (o, a) l -> fits_arg off k a end
  end.
Definition good (off : Z) (e : sevent) : Prop := match e with Call o => good_call off o | _ => True end.

(** Submission times: undated records come first, then by what the clock showed. *)
Definition not_after (a b : pv) : Prop :=
  match a, b with PTime t, PTime u => (local t <= local u)%Z | PTime _, _ => False | _, _ => True end.
