(** What it means to run a command on another machine (C81). Independent of the code. Texts are lists of code points. *)
From Coq Require Import NArith String List Bool.
From Verif Require Import Batch_Spec.
Import ListNotations.
Open Scope N_scope.

(** Data that is sent: what json can carry (whole numbers only) *)
Inductive json :=
| JNull | JBool (b : bool) | JNum (n : N) | JStr (s : list N) | JArr (l : list json) | JObj (d : list (list N * json)).
(** A text: code points, no surrogates *)
Definition char_ok (c : N) : Prop := c < 1114112 /\ ~ (55296 <= c <= 57343).
Definition text_ok (s : list N) : Prop := Forall char_ok s.
Inductive data_ok : json -> Prop :=
| ok_null : data_ok JNull
| ok_bool b : data_ok (JBool b)
| ok_num n : data_ok (JNum n)
| ok_str s : text_ok s -> data_ok (JStr s)
| ok_arr l : Forall data_ok l -> data_ok (JArr l)
| ok_obj d : Forall (fun kv => text_ok (fst kv) /\ data_ok (snd kv)) d -> NoDup (map fst d) -> data_ok (JObj d).

(** Characters that mean nothing special to any shell and within a quoted string of Python *)
Definition harmless (c : N) : Prop := letter c = true \/ digit c = true \/ In c (lit "+/=").

(* ------------------------------------------------------------ the other machine *)
Definition environment := list N -> option (list N).
Record process := Process { pid : N; argv : list (list N); environ : environment; output : option (list N) (* None: discarded *) }.
Record machine := Machine { env : environment; running : list N; files : list (list N); started : list process; signals : list (N * N) }.

(** What the environment of the new process should be: what is given, where something is given; null and the empty text mean "not set". *)
Definition changes := list (list N * option (list N)).
Definition changed (e : environment) (cs : changes) (e' : environment) : Prop :=
  forall k, (forall v, In (k, Some v) cs -> v <> [] -> e' k = Some v) /\
            (forall v, In (k, v) cs -> (v = None \/ v = Some []) -> e' k = None) /\
            ((forall v, ~ In (k, v) cs) -> e' k = e k).

(** What other programs (a shell's start-up files, say) write before and after: whole lines *)
Definition whole_lines (s : list N) : Prop := s = [] \/ exists r, s = r ++ [nl].
Definition within (p s : list N) : Prop := exists a b, s = a ++ p ++ b.
