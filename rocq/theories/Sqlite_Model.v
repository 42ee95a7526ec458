(** Model of ipyparallel/controller/sqlitedb.py: SQLiteDB._render_expression (329-374) and find_records
    (423-457), with the part of SQL that the WHERE clause is made of.
    The text of the expression is a list of tokens; placeholders take the arguments from left to right.
    Simplifications: column values and arguments are None, text or datetimes (dicts are stored as their
    JSON text); a column name in the query is one token (names are checked against the columns, 335-338);
    GLOB is the matching of [glob]; conversion of stored text back to datetimes (90-97) is exact. *)
From Coq Require Import List ZArith String Bool.
From Verif Require Import Prelude PyValue DictDB_Spec Sqlite_Spec.
Import ListNotations.
Local Open Scope string_scope.

Section Sqlite.
Context (glob : string -> string -> bool).
Context (iso : time -> string).                          (* datetime.isoformat *)

(** ** Rendering *)
Inductive sqlop := Lt_ | Gt_ | Eq_ | Ne_ | Le_ | Ge_ | Glob_.
Inductive join := JOr | JAnd.
Inductive token := TName (n : string) | TOp (o : sqlop) | TQuestion | TIsNull | TIsNotNull | TAnd | TOr | TOpen | TClose.
(** operators, 34-48: the operator, and the second component of a tuple *)
Definition operators (o : op) : option (sqlop * option join) :=
  match o with
  | OLt => Some (Lt_, None)
  | OGt => Some (Gt_, None)
  | OEq => Some (Eq_, None)
  | ONe => Some (Ne_, None)
  | OLte => Some (Le_, None)
  | OGte => Some (Ge_, None)
  | OIn => Some (Eq_, Some JOr)
  | ONin => Some (Ne_, Some JAnd)
  | OGlob => Some (Glob_, None)
  | OAll | OMod | OExists | OUnknown => None
  end.
(** null_operators, 49-52 *)
Definition null_operators (o : sqlop) : option token :=
  match o with Eq_ => Some TIsNull | Ne_ => Some TIsNotNull | _ => None end.

(** Adapters, 58-97: NULL or text *)
Definition adapt (v : sval) : option string :=
  match v with SNone => None | SText s => Some s | STime t => Some (iso t) end.

Inductive failure := FKeyError | FValueError | FUnboundLocal | FSyntax.
Inductive result (A : Type) := Done (a : A) | Fail (f : failure).
Arguments Done {A} a. Arguments Fail {A} f.

Definition join_token (j : join) : token := match j with JOr => TOr | JAnd => TAnd end.
(** sep.join([...]) *)
Fixpoint join_with (sep : token) (l : list (list token)) : list token :=
  match l with [] => [] | [x] => x | x :: r => (x ++ sep :: join_with sep r)%list end.

(** One operator test, 342-364; [j] is the variable join, unbound if None *)
Definition render_test (name : string) (test : op) (value : sarg) (j : option join)
  : result (list token * list (option string) * option join) :=
  match operators test with
  | None => Fail FKeyError
  | Some (o, oj) =>
      let j := match oj with Some x => Some x | None => j end in
      match value, null_operators o with
      | One SNone, Some t => Done ([TName name; t], [], j)
      | One v, _ => Done ([TName name; TOp o; TQuestion], [adapt v], j)
      | Many l, n =>
          if match n with Some _ => existsb (fun v => match v with SNone => true | _ => false end) l | None => false end
          then Fail FValueError
          else match j with
               | None => Fail FUnboundLocal
               | Some jj => Done ((TOpen :: join_with (join_token jj) (repeat [TName name; TOp o; TQuestion] (List.length l)) ++ [TClose])%list,
                                  map adapt l, j)
               end
      end
  end.
Fixpoint render_tests (name : string) (l : list (op * sarg)) (j : option join)
  : result (list (list token) * list (option string) * option join) :=
  match l with
  | [] => Done ([], [], j)
  | (o, v) :: l =>
      match render_test name o v j with
      | Fail f => Fail f
      | Done (e, a, j) =>
          match render_tests name l j with
          | Fail f => Fail f
          | Done (es, as_, j) => Done (e :: es, (a ++ as_)%list, j)
          end
      end
  end.
(** 340-371 *)
Fixpoint render_clauses (q : squery) (j : option join) : result (list (list token) * list (option string)) :=
  match q with
  | [] => Done ([], [])
  | (name, c) :: q =>
      match (match c with
             | SOps l => render_tests name l j
             | SVal SNone => Done ([[TName name; TIsNull]], [], j)
             | SVal v => Done ([[TName name; TOp Eq_; TQuestion]], [adapt v], j)
             end) with
      | Fail f => Fail f
      | Done (e, a, j) =>
          match render_clauses q j with
          | Fail f => Fail f
          | Done (es, as_) => Done ((e ++ es)%list, (a ++ as_)%list)
          end
      end
  end.
(** 329-374 *)
Definition render_expression (check : squery) : result (list token * list (option string)) :=
  if forallb (fun kc => existsb (String.eqb (fst kc)) columns) check then
    match render_clauses check None with
    | Fail f => Fail f
    | Done (es, args) => Done (join_with TAnd es, args)
    end
  else Fail FKeyError.

(** ** SQL: the value of a WHERE clause; None is NULL.  AND binds more strongly than OR. *)
Definition tand (a b : option bool) : option bool :=
  match a, b with
  | Some false, _ | _, Some false => Some false
  | Some true, Some true => Some true
  | _, _ => None
  end.
Definition tor (a b : option bool) : option bool :=
  match a, b with
  | Some true, _ | _, Some true => Some true
  | Some false, Some false => Some false
  | _, _ => None
  end.
(** Comparison of text, byte by byte; NULL if one side is NULL *)
Definition compare_sql (o : sqlop) (a b : option string) : option bool :=
  match a, b with
  | Some x, Some y =>
      Some (match o with
            | Lt_ => match String.compare x y with Lt => true | _ => false end
            | Gt_ => match String.compare x y with Gt => true | _ => false end
            | Eq_ => String.eqb x y
            | Ne_ => negb (String.eqb x y)
            | Le_ => match String.compare x y with Gt => false | _ => true end
            | Ge_ => match String.compare x y with Lt => false | _ => true end
            | Glob_ => glob x y
            end)
  | _, _ => None
  end.
Definition state := (option bool * list token * list (option string))%type.
(** A recursive descent: [expr] is a disjunction, [conj] a conjunction, [prim] a comparison or an
    expression in parentheses.  None: syntax error (or too few arguments). *)
Fixpoint expr (fuel : nat) (r : string -> option string) (ts : list token) (args : list (option string)) : option state :=
  match fuel with
  | 0 => None
  | S n =>
      match conj n r ts args with
      | Some (v, TOr :: ts, args) =>
          match expr n r ts args with Some (w, ts, args) => Some (tor v w, ts, args) | None => None end
      | s => s
      end
  end
with conj (fuel : nat) r ts args : option state :=
  match fuel with
  | 0 => None
  | S n =>
      match prim n r ts args with
      | Some (v, TAnd :: ts, args) =>
          match conj n r ts args with Some (w, ts, args) => Some (tand v w, ts, args) | None => None end
      | s => s
      end
  end
with prim (fuel : nat) r ts args : option state :=
  match fuel with
  | 0 => None
  | S n =>
      match ts with
      | TName k :: TIsNull :: ts => Some (Some (match r k with None => true | Some _ => false end), ts, args)
      | TName k :: TIsNotNull :: ts => Some (Some (match r k with None => false | Some _ => true end), ts, args)
      | TName k :: TOp o :: TQuestion :: ts =>
          match args with a :: args => Some (compare_sql o (r k) a, ts, args) | [] => None end
      | TOpen :: ts =>
          match expr n r ts args with Some (v, TClose :: ts, args) => Some (v, ts, args) | _ => None end
      | _ => None
      end
  end.
(** The whole text must be one expression that uses all the arguments. *)
Definition where_ (r : string -> option string) (ts : list token) (args : list (option string)) : option bool :=
  match expr (3 * List.length ts + 3) r ts args with
  | Some (v, [], []) => Some (match v with Some true => true | _ => false end)
  | _ => None
  end.
Definition stored (r : row) : string -> option string := fun k => adapt (r k).

(** SELECT * FROM table WHERE ..., 449-457 *)
Fixpoint select (rows : list row) (ts : list token) (args : list (option string)) : option (list row) :=
  match rows with
  | [] => Some []
  | r :: rows =>
      match where_ (stored r) ts args, select rows ts args with
      | Some b, Some out => Some (if b then r :: out else out)
      | _, _ => None
      end
  end.
(** The statement is compiled, so a syntax error shows also if the table is empty. *)
Definition find_records (rows : list row) (check : squery) : result (list row) :=
  match render_expression check with
  | Fail f => Fail f
  | Done (ts, args) =>
      match where_ (fun _ => None) ts args, select rows ts args with
      | Some _, Some out => Done out
      | _, _ => Fail FSyntax
      end
  end.
End Sqlite.
Arguments Done {A} a. Arguments Fail {A} f.
