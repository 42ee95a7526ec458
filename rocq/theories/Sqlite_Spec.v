(** What a query to the SQLite task database should return (C38).  The operators are those of
    DictDB_Spec. *)
From Coq Require Import List ZArith String Bool.
From Verif Require Import Prelude PyValue DictDB_Spec.
Import ListNotations.
Local Open Scope string_scope.

(** A datetime: an instant and the offset of its timezone. *)
Record time := Time { instant : Z; offset : Z }.
(** What it shows: the date and time of day there. *)
Definition local (t : time) : Z := instant t + offset t.

(** The values in the columns that can be searched, and those to compare with. *)
Inductive sval := SNone | SText (s : string) | STime (t : time).
Inductive sarg := One (v : sval) | Many (l : list sval).        (* a list or tuple *)
Inductive sclause := SVal (v : sval) | SOps (l : list (op * sarg)).
Definition squery := list (string * sclause).
(** A row: a value for each column. *)
Definition row := string -> sval.

(** The same as values of DictDB. *)
Definition abs (v : sval) : value := match v with SNone => VNone | SText s => VStr s | STime t => VTime (instant t) end.
Definition abs_arg (a : sarg) : value := match a with One v => abs v | Many l => VList (map abs l) end.
Definition abs_query (q : squery) : query :=
  map (fun kc => (fst kc, match snd kc with SVal v => CVal (abs v) | SOps l => COps (map (fun ob => (fst ob, abs_arg (snd ob))) l) end)) q.
Definition columns : list string :=
  ["msg_id"; "header"; "metadata"; "content"; "buffers"; "submitted"; "client_uuid"; "engine_uuid"; "started"; "completed";
   "resubmitted"; "received"; "result_header"; "result_metadata"; "result_content"; "result_buffers"; "queue"; "execute_input";
   "execute_result"; "error"; "stdout"; "stderr"; "label"].
Definition abs_row (r : row) : record := map (fun k => (k, abs (r k))) columns.

(** The columns with times. *)
Definition timestamp (k : string) : bool := existsb (String.eqb k) ["submitted"; "started"; "completed"; "received"].
(** [v] can stand in column [k], and all times are in one timezone. *)
Definition fits (off : Z) (k : string) (v : sval) : Prop :=
  match v with SNone => True | SText _ => timestamp k = false | STime t => timestamp k = true /\ offset t = off end.
Definition fits_arg (off : Z) (k : string) (a : sarg) : Prop :=
  match a with One v => fits off k v | Many l => forall v, In v l -> fits off k v end.

(** The tests SQLite supports. *)
Definition supported_op (o : op) (a : sarg) : Prop :=
  match o, a with
  | (OEq | ONe), One _ => True
  | (OLt | OGt | OLte | OGte), One v => v <> SNone
  | OGlob, One (SText _) => True
  | (OIn | ONin), Many l => l <> [] /\ ~ In SNone l
  | _, _ => False
  end.
Definition supported_sql (q : squery) : Prop :=
  (exists k c, In (k, c) q /\ c <> SOps []) /\                                  (* at least one condition *)
  (forall k c, In (k, c) q -> In k columns) /\
  (forall k l o a, In (k, SOps l) q -> In (o, a) l -> supported_op o a).

Section Glob.
Context (glob : string -> string -> bool).
(** A row is returned if it satisfies the query and, wherever it is compared with something else than
    None, it has a value. *)
Definition has_values (q : squery) (r : row) : Prop := forall k c, In (k, c) q -> r k = SNone ->
  match c with SVal v => v = SNone | SOps l => forall o a, In (o, a) l -> a = One SNone end.
Definition sql_matches (q : squery) (r : row) : Prop := matches glob (abs_query q) (abs_row r) /\ has_values q r.
End Glob.
