(** Showing the output of tasks (C62, C63): what may be expected of AsyncResult.stream_output and AsyncResult.display_outputs. *)
From Coq Require Import List String Ascii Bool Arith.
From stdpp Require Import pretty.
From Verif Require Import Out_Spec.
Import ListNotations.

(** ** Text of several sources on one terminal *)
(** A source is one of the streams (true: stderr) of an engine.  Its header: [[stdout:3] ] on a line of its own *)
Notation source := (bool * nat)%type (only parsing).
Definition header (s : source) : text :=
  list_ascii_of_string ("[" ++ (if fst s then "stderr" else "stdout") ++ ":" ++ pretty (snd s) ++ "] ")%string.
Definition same (a b : source) : bool := Bool.eqb (fst a) (fst b) && Nat.eqb (snd a) (snd b).
(** Pieces of the same source that follow each other are put together; empty ones do not count. *)
Fixpoint sections (l : list (source * text)) : list (source * text) :=
  match l with
  | [] => []
  | (s, t) :: l =>
      match t with
      | [] => sections l
      | _ => match sections l with
             | (s', t') :: r => if same s s' then (s, t ++ t') :: r else (s, t) :: (s', t') :: r
             | [] => [(s, t)]
             end
      end
  end.
Definition ends_line (t : text) : bool := match rev t with c :: _ => Ascii.eqb c LF | [] => false end.
(** each with its header on a line of its own *)
Fixpoint layout (l : list (source * text)) : text :=
  match l with
  | [] => []
  | [(s, t)] => header s ++ LF :: t
  | (s, t) :: l => header s ++ LF :: t ++ (if ends_line t then [] else [LF]) ++ layout l
  end.

(** ** stream_output *)
(** An AsyncResult has children (requests), numbered from 0; what happens while [with ar.stream_output():] runs.
    An output arrives in two steps of the input thread: it is captured, then the callbacks run. *)
Inductive part := POut | PErr | POutputs | PResult.
Inductive event :=
| Arrive (f : nat) (o : output)          (* an output of request f is captured *)
| Callbacks (f : nat) (o : output)       (* ... and the callbacks for it run *)
| Enter (k : nat)                        (* the callback for child k is registered *)
| Publish (k : nat) (p : part)           (* what has been captured of child k is shown *)
| Leave.                                 (* the end of the with statement *)
Definition is_main (e : event) : bool := match e with Arrive _ _ | Callbacks _ _ => false | _ => true end.
(** what the caller's thread does, in this order *)
Definition program (n : nat) : list event :=
  flat_map (fun k => [Enter k; Publish k POut; Publish k PErr; Publish k POutputs; Publish k PResult]) (seq 0 n) ++ [Leave].
(** the input thread, which may be in the middle of handling an output at the beginning and at the end *)
Inductive io : option (nat * output) -> list event -> option (nat * output) -> Prop :=
| io_nil : forall p, io p [] p
| io_arrive : forall f o h q, io (Some (f, o)) h q -> io None (Arrive f o :: h) q
| io_callbacks : forall f o h q, io None h q -> io (Some (f, o)) (Callbacks f o :: h) q
| io_main : forall e p h q, is_main e = true -> io p h q -> io p (e :: h) q.
(** a schedule: any interleaving of the two, up to some moment *)
Definition schedule (n : nat) (p : option (nat * output)) (h : list event) (q : option (nat * output)) : Prop :=
  io p h q /\ exists rest, List.filter is_main h ++ rest = program n.

(** The outputs of request f that arrived, and those whose callbacks ran *)
Definition arrivals (f : nat) (h : list event) : list output :=
  flat_map (fun e => match e with Arrive g o => if Nat.eqb g f then [o] else [] | _ => [] end) h.
Definition handled (f : nat) (h : list event) : list output :=
  flat_map (fun e => match e with Callbacks g o => if Nat.eqb g f then [o] else [] | _ => [] end) h.

(** What appears on the screen *)
Inductive item := Text (err : bool) (t : text) | Plot (c : string) | Value (c : string) | Problem (c : string).
Definition is_part (p : part) (i : item) : bool :=
  match p, i with POut, Text false _ | PErr, Text true _ | POutputs, Plot _ | PResult, Value _ => true | _, _ => false end.
(** how an output is shown when it comes (in IPython or outside it) *)
Definition items (ipython : bool) (o : output) : list item :=
  match o with
  | Stream e t => [Text e t] | Display c => if ipython then [Plot c] else [] | ResultOut c => [Value c] | Err c => [Problem c]
  | _ => [] end.
Definition part_items (ipython : bool) (p : part) (os : list output) : list item := List.filter (is_part p) (flat_map (items ipython) os).
(** how what was captured before is shown, all at once *)
Definition shows_captured (ipython : bool) (p : part) (os : list output) (l : list item) : Prop :=
  match p with
  | POut => exists s, captures (pieces false os) s /\ l = match s with [] => [] | _ => [Text false s] end
  | PErr => exists s, captures (pieces true os) s /\ l = match s with [] => [] | _ => [Text true s] end
  | POutputs => l = if ipython then map Plot (displays os) else []
  | PResult => l = match last_of a_result os with Some c => [Value c] | None => [] end
  end.
Definition texts (l : list item) : text := List.concat (map (fun i => match i with Text _ t => t | _ => [] end) l).

(** ** display_outputs: what is to be shown of one request *)
Record shown := Shown { sh_engine : nat; sh_out : text; sh_err : text; sh_plots : list string; sh_value : option string }.
Inductive act := Print (s : option source) (err : bool) (t : text) | Label (eid : nat) | Republish (eid : nat) (c : string) | Show (c : string).
Definition printed (s : source) (l : list act) : text :=
  List.concat (map (fun a => match a with Print (Some s') _ t => if same s' s then t else [] | _ => [] end) l).
Definition republished (l : list act) : list (nat * string) := flat_map (fun a => match a with Republish e c => [(e, c)] | _ => [] end) l.
Definition values (l : list act) : list string := flat_map (fun a => match a with Show c => [c] | _ => [] end) l.
