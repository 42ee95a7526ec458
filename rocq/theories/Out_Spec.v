(** What a client should capture of the output of its tasks (C57), told from the messages that arrived. *)
From Coq Require Import List String Ascii Bool Arith.
Import ListNotations.

Definition text := list ascii.
Definition LF : ascii := "010"%char.
Definition CR : ascii := "013"%char.

(** ** Carriage returns: of each line, what stands after the last one that is not at its end *)
Definition no_inner_cr (l : text) : Prop := forall a b, l = a ++ CR :: b -> b = [].
Definition line_shows (l v : text) : Prop := no_inner_cr v /\ (v = l \/ (v <> [] /\ exists a, l = a ++ CR :: v)).
Inductive text_shows : text -> text -> Prop :=
| Last : forall l v, ~ In LF l -> line_shows l v -> text_shows l v
| More : forall l v t w, ~ In LF l -> line_shows l v -> text_shows t w -> text_shows (l ++ LF :: t) (v ++ LF :: w).

(** What may be kept of a text that came in pieces: it shows the same as the whole; it is the whole if there are no
    carriage returns; and it is just what shows if the last piece has one. *)
Definition captures (pieces : list text) (s : text) : Prop :=
  (forall v, text_shows (List.concat pieces) v <-> text_shows s v) /\
  (~ In CR (List.concat pieces) -> s = List.concat pieces) /\
  (In CR (last pieces []) -> text_shows (List.concat pieces) s).

(** ** Messages *)
Inductive output :=
| Stream (err : bool) (t : text) | Err (c : string) | Input (c : string) | Display (c : string) | ResultOut (c : string)
| Data (d : list (string * string)) | Idle | Busy | Comm.
Inductive status := Ok | Failed (engine_info : bool) | Aborted.
Inductive event :=
| Send (m : string)                                  (* a request is sent *)
| Pub (mine : bool) (m : string) (o : output)        (* an output for request m of this session, or of another *)
| Reply (m : string) (s : status)
| Forget (m : string).                               (* the client's own cleaning up, when all has come *)
Definition history := list event.                    (* newest first *)

Definition is_output (o : output) : bool := match o with Idle | Busy | Comm => false | _ => true end.
(** The end of the output has been announced, or none is expected any more *)
Definition ends (m : string) (e : event) : bool :=
  match e with
  | Pub true n Idle => String.eqb n m
  | Reply n Aborted | Reply n (Failed false) => String.eqb n m
  | _ => false
  end.
Definition over (h : history) (m : string) : bool := existsb (ends m) h.
Definition replied (h : history) (m : string) : bool := existsb (fun e => match e with Reply n _ => String.eqb n m | _ => false end) h.
(** The outputs of [m] for this session, in the order of arrival *)
Definition output_of (m : string) (e : event) : list output :=
  match e with Pub true n o => if String.eqb n m && is_output o then [o] else [] | _ => [] end.
Definition published (h : history) (m : string) : list output := flat_map (output_of m) (rev h).
(** ... those that came before the client cleaned up *)
Fixpoint forgotten (h : history) (m : string) : bool :=
  match h with
  | [] => false
  | Forget n :: h => (String.eqb n m && over h m && replied h m) || forgotten h m
  | _ :: h => forgotten h m
  end.
Fixpoint seen (h : history) (m : string) : list output :=
  match h with
  | [] => []
  | e :: h => if forgotten h m then seen h m else seen h m ++ output_of m e
  end.

(** A request is sent once, before anything else is heard of it *)
Definition about (m : string) (e : event) : bool :=
  match e with Send n | Pub true n _ | Reply n _ | Forget n => String.eqb n m | Pub false _ _ => false end.
Fixpoint orderly (h : history) : Prop :=
  match h with
  | [] => True
  | Send m :: h => existsb (about m) h = false /\ orderly h
  | _ :: h => orderly h
  end.

(** ** What is captured *)
Definition pieces (err : bool) (os : list output) : list text :=
  flat_map (fun o => match o with Stream e t => if Bool.eqb e err then [t] else [] | _ => [] end) os.
Definition displays (os : list output) : list string := flat_map (fun o => match o with Display c => [c] | _ => [] end) os.
Definition an_error (o : output) : option string := match o with Err c => Some c | _ => None end.
Definition an_input (o : output) : option string := match o with Input c => Some c | _ => None end.
Definition a_result (o : output) : option string := match o with ResultOut c => Some c | _ => None end.
Definition last_of (f : output -> option string) (os : list output) : option string :=
  fold_left (fun acc o => match f o with Some c => Some c | None => acc end) os None.
(** The value last published for a key *)
Definition datum (k : string) (os : list output) : option string :=
  fold_left (fun acc o => match o with
    | Data d => fold_left (fun acc p => if String.eqb (fst p) k then Some (snd p) else acc) d acc
    | _ => acc end) os None.
