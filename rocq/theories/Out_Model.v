(** Model of how ipyparallel/client/client.py captures the output of tasks: 255-256 (_cr_pat), 1120-1180 (_dispatch_iopub),
    1228-1243 (create_message_futures), 1302-1308 (cleanup), and what the replies do to the output futures (900-1028).
    Simplifications: the engine fields of the metadata, comm messages (1175-1218) and the callbacks on the futures
    (1220-1224) are left out; contents are opaque strings; the cleaning up, a callback of the two futures, runs at any time after
    both are done (event [Forget]). An AsyncResult holds the metadata object itself (asyncresult.py 107), which stays the
    same object as long as the client has it: hence the heap. *)
From Coq Require Import List String Ascii Bool Arith.
From Verif Require Import Out_Spec.
Import ListNotations.

(** ** [_cr_pat.sub('', s)] with [_cr_pat = re.compile(r'.*\r(?=[^\n])')] *)
(** The rest after the longest match at the beginning: [.*] is greedy and does not match a newline. *)
Fixpoint cr_match (s : text) : option text :=
  match s with
  | [] => None
  | c :: r =>
      if Ascii.eqb c LF then None
      else match cr_match r with
           | Some rest => Some rest
           | None => if Ascii.eqb c CR then match r with d :: _ => if Ascii.eqb d LF then None else Some r | [] => None end else None
           end
  end.
(** re.sub: at each position, replace a match or keep the character *)
Fixpoint sub_from (n : nat) (s : text) : text :=
  match n with
  | 0 => []
  | S n => match s with
           | [] => []
           | c :: r => match cr_match s with Some rest => sub_from n rest | None => c :: sub_from n r end
           end
  end.
Definition cr_sub (s : text) : text := sub_from (S (List.length s)) s.

(** ** Metadata objects, 204-224 *)
Record md := Md { stdout : text; stderr : text; error : option string; execute_input : option string; execute_result : option string;
                  outputs : list string; data : list (string * string) }.
Definition new_md : md := Md [] [] None None None [] [].
Fixpoint dset (k v : string) (d : list (string * string)) : list (string * string) :=
  match d with [] => [(k, v)] | (k', v') :: d => if String.eqb k' k then (k', v) :: d else (k', v') :: dset k v d end.
Fixpoint dget (k : string) (d : list (string * string)) : option string :=
  match d with [] => None | (k', v') :: d => if String.eqb k' k then Some v' else dget k d end.

(** 1150-1155 *)
Definition new_text (old t : text) : text :=
  let s := old ++ t in if existsb (Ascii.eqb CR) t then cr_sub s else s.
(** 1150-1167 *)
Definition capture (o : output) (x : md) : md :=
  match o with
  | Stream false t => Md (new_text (stdout x) t) (stderr x) (error x) (execute_input x) (execute_result x) (outputs x) (data x)
  | Stream true t => Md (stdout x) (new_text (stderr x) t) (error x) (execute_input x) (execute_result x) (outputs x) (data x)
  | Err c => Md (stdout x) (stderr x) (Some c) (execute_input x) (execute_result x) (outputs x) (data x)
  | Input c => Md (stdout x) (stderr x) (error x) (Some c) (execute_result x) (outputs x) (data x)
  | Display c => Md (stdout x) (stderr x) (error x) (execute_input x) (execute_result x) (outputs x ++ [c]) (data x)
  | ResultOut c => Md (stdout x) (stderr x) (error x) (execute_input x) (Some c) (outputs x) (data x)
  | Data d => Md (stdout x) (stderr x) (error x) (execute_input x) (execute_result x) (outputs x) (fold_left (fun a p => dset (fst p) (snd p) a) d (data x))
  | Idle | Busy | Comm => x
  end.

(** ** The client *)
Record client := Client {
  heap : list md;                                    (* metadata objects *)
  metadata : list (string * nat);                    (* self.metadata, a defaultdict *)
  futures : list (string * bool);                    (* self._futures: done? *)
  output_futures : list (string * bool);             (* self._output_futures: done? *)
  handles : list (string * nat) }.                   (* what the AsyncResults hold *)

Fixpoint look {A} (k : string) (d : list (string * A)) : option A :=
  match d with [] => None | (k', v) :: d => if String.eqb k' k then Some v else look k d end.
Definition pop {A} (k : string) (d : list (string * A)) : list (string * A) := filter (fun p => negb (String.eqb (fst p) k)) d.
Definition put {A} (k : string) (v : A) (d : list (string * A)) : list (string * A) := (k, v) :: pop k d.
(** [self.metadata[m]], which makes one if there is none *)
Definition get_md (m : string) (c : client) : client * nat :=
  match look m (metadata c) with
  | Some i => (c, i)
  | None => (Client (heap c ++ [new_md]) (put m (List.length (heap c)) (metadata c)) (futures c) (output_futures c) (handles c), List.length (heap c))
  end.
Fixpoint modify (i : nat) (f : md -> md) (l : list md) : list md :=
  match l, i with [], _ => [] | x :: l, 0 => f x :: l | x :: l, S i => x :: modify i f l end.

(** [if future and not future.done(): future.set_result(None)] *)
Definition resolve (m : string) (fs : list (string * bool)) : list (string * bool) :=
  match look m fs with Some false => put m true fs | _ => fs end.

(** 1228-1243 *)
Definition send (m : string) (c : client) : client :=
  let c := Client (heap c) (metadata c) (put m false (futures c)) (put m false (output_futures c)) (handles c) in
  let '(c, i) := get_md m c in
  Client (heap c) (metadata c) (futures c) (output_futures c) (put m i (handles c)).
(** 1120-1180 *)
Definition dispatch_iopub (mine : bool) (m : string) (o : output) (c : client) : client :=
  if negb mine then c                                                    (* 1123-1126 *)
  else match o, look m (metadata c) with
       | Idle, None | Busy, None => c                                     (* 1132-1134 *)
       | _, _ =>
           let '(c, i) := get_md m c in
           match o with
           | Idle => Client (heap c) (metadata c) (futures c) (resolve m (output_futures c)) (handles c)      (* 1168-1173 *)
           | _ => Client (modify i (capture o) (heap c)) (metadata c) (futures c) (output_futures c) (handles c)
           end
       end.
(** 900-960 and 966-1028, as far as they matter here *)
Definition handle_reply (m : string) (s : status) (c : client) : client :=
  let '(c, _) := get_md m c in                                             (* 924-925 *)
  let outf := match s with Ok | Failed true => output_futures c | Aborted | Failed false => resolve m (output_futures c) end in
  Client (heap c) (metadata c) (resolve m (futures c)) outf (handles c).
(** 1302-1308 *)
Definition cleanup (m : string) (c : client) : client :=
  match look m (futures c), look m (output_futures c) with
  | Some true, Some true => Client (heap c) (pop m (metadata c)) (pop m (futures c)) (pop m (output_futures c)) (handles c)
  | _, _ => c
  end.

Definition step (c : client) (e : event) : client :=
  match e with
  | Send m => send m c
  | Pub mine m o => dispatch_iopub mine m o c
  | Reply m s => handle_reply m s c
  | Forget m => cleanup m c
  end.
Definition init : client := Client [] [] [] [] [].
Fixpoint run (h : history) : client := match h with [] => init | e :: h => step (run h) e end.
(** The metadata that the AsyncResult of [m] shows *)
Definition shown (c : client) (m : string) : option md :=
  match look m (handles c) with Some i => nth_error (heap c) i | None => None end.
