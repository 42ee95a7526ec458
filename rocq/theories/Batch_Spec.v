(** What a shell makes of a script, and what a batch system reads in it (C80).  Independent of the code. Characters are their code points. *)
From Coq Require Import NArith String Ascii List Bool.
Import ListNotations.
Open Scope N_scope.

Definition lit (s : string) : list N := map N_of_ascii (list_ascii_of_string s).
Definition nl : N := 10.
Definition is (c : N) (s : string) : bool := existsb (N.eqb c) (lit s).

(* ------------------------------------------------------------ the shell (POSIX, chapter 2) *)
Definition letter (c : N) : bool := ((97 <=? c) && (c <=? 122)) || ((65 <=? c) && (c <=? 90)) || (c =? 95).
Definition digit (c : N) : bool := (48 <=? c) && (c <=? 57).
Definition is_name (l : list N) : bool :=
  match l with [] => false | c :: r => letter c && forallb (fun c => letter c || digit c) r end.
Definition eqs (a b : list N) : bool := if list_eq_dec N.eq_dec a b then true else false.
Definition reserved : list (list N) :=
  map lit ["!"; "{"; "}"; "case"; "do"; "done"; "elif"; "else"; "esac"; "fi"; "for"; "if"; "in"; "then"; "until"; "while"; "function"; "select"; "time"; "coproc"]%string.

(** A word: its text, whether nothing of it was quoted, and whether it has the form NAME=... of an assignment *)
Record word := Word { text : list N; plain : bool; assignment : bool }.
Definition push (quoted : bool) (c : N) (w : option word) : option word :=
  let w := match w with Some w => w | None => Word [] true false end in
  Some (Word (text w ++ [c]) (plain w && negb quoted) (assignment w || (negb quoted && (c =? 61) && plain w && is_name (text w)))).
Definition quote_begins (w : option word) : option word :=
  match w with Some w => Some (Word (text w) false (assignment w)) | None => Some (Word [] false false) end.
Definition end_word (w : option word) (ws : list word) : list word := match w with Some w => ws ++ [w] | None => ws end.
(** A simple command: the words that are run. None: something else happens than running these words (an assignment, a keyword). *)
Definition simple (ws : list word) : option (list (list (list N))) :=
  match ws with
  | [] => Some []
  | w :: _ => if assignment w || (plain w && existsb (eqs (text w)) reserved) then None else Some [map text ws]
  end.
Definition then_run (a b : option (list (list (list N)))) : option (list (list (list N))) :=
  match a, b with Some a, Some b => Some (a ++ b) | _, _ => None end.

Inductive mode := Plain | Escaped | Single | Double | DoubleEscaped | Comment.
(** The commands of a script. None: the script does something else than running simple commands without redirections and expansions
    (also wherever this might depend on the shell). *)
Fixpoint commands (m : mode) (w : option word) (ws : list word) (s : list N) : option (list (list (list N))) :=
  match s with
  | [] => match m with Single | Double | DoubleEscaped | Escaped => None | _ => simple (end_word w ws) end
  | c :: s =>
      match m with
      | Plain =>
          if is c " " || (c =? 9) then commands Plain None (end_word w ws) s
          else if c =? nl then then_run (simple (end_word w ws)) (commands Plain None [] s)
          else if is c "'" then commands Single (quote_begins w) ws s
          else if c =? 34 then commands Double (quote_begins w) ws s
          else if is c "\" then commands Escaped w ws s
          else if is c "#" && match w with None => true | _ => false end then commands Comment None ws s
          else if is c "|&;<>()$`*?[]~{}^!" || (c =? 0) || (c =? 13) then None
          else commands Plain (push false c w) ws s
      | Escaped => if c =? nl then commands Plain w ws s else commands Plain (push true c w) ws s
      | Single => if is c "'" then commands Plain w ws s else commands Single (push true c w) ws s
      | Double =>
          if c =? 34 then commands Plain w ws s
          else if is c "\" then commands DoubleEscaped w ws s
          else if is c "$`!" then None else commands Double (push true c w) ws s
      | DoubleEscaped =>
          if c =? nl then commands Double w ws s
          else if is c "$`\" || (c =? 34) then commands Double (push true c w) ws s
          else commands Double (push true c (push true 92 w)) ws s
      | Comment => if c =? nl then then_run (simple (end_word w ws)) (commands Plain None [] s) else commands Comment w ws s
      end
  end.
Definition runs (script : list N) : option (list (list (list N))) := commands Plain None [] script.

(* ------------------------------------------------------------ the batch system *)
Fixpoint lines (s : list N) : list (list N) :=
  match s with
  | [] => [[]]
  | c :: s => if c =? nl then [] :: lines s else match lines s with l :: ls => (c :: l) :: ls | [] => [[c]] end
  end.
(** The directives: the lines that begin with [mark], as long as there are only comments *)
Fixpoint starts_with (p l : list N) : bool :=
  match p, l with [], _ => true | c :: p, d :: l => N.eqb c d && starts_with p l | _, _ => false end.
Fixpoint comments (ls : list (list N)) : list (list N) :=
  match ls with l :: r => if starts_with (lit "#") l then l :: comments r else [] | [] => [] end.
Definition directives (mark : string) (script : list N) : list (list N) := filter (starts_with (lit mark)) (comments (lines script)).

Definition one_line (s : list N) : Prop := ~ In nl s.
(** A program's name that a shell takes for something else *)
Definition odd_name (p : list N) : Prop :=
  In p reserved \/ exists a b, p = a ++ 61 :: b /\ is_name a = true.

(** The values given for an option (its text with everything up to the value) *)
Definition asked (mark option : string) (script : list N) : list (list N) :=
  map (skipn (List.length (lit option))) (filter (starts_with (lit option)) (directives mark script)).
(** A decimal number *)
Definition number (ds : list N) : N := fold_left (fun a c => 10 * a + (c - 48)) ds 0.
Definition numeral (ds : list N) (n : N) : Prop := ds <> [] /\ Forall (fun c => digit c = true) ds /\ number ds = n.
(** A setting that may be left empty *)
Definition given (v : list N) : list (list N) := match v with [] => [] | _ => [v] end.
