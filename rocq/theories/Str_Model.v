(** Model of AsyncResult.stream_output, _iopub_streaming_output_callback and display_outputs (ipyparallel/client/asyncresult.py 143-277,
    897-1052) with the part of Client._dispatch_iopub that runs the callbacks (ipyparallel/client/client.py 1220-1226).
    Simplifications: how much of a traceback is printed for an error (182-197) and how an object is displayed are left out; running all callbacks
    for one message, one publication in stream_output and the printing in display_outputs are single steps.  Capturing is [Out_Model.capture]. *)
From Coq Require Import List String Ascii Bool Arith.
From Verif Require Import Out_Spec Out_Model Str_Spec.
Import ListNotations.

(** outside IPython, in an IPython shell, in a kernel (notebook) *)
Inductive place := Plain | Shell | Kernel.
Definition ipython (w : place) : bool := match w with Plain => false | _ => true end.
Definition in_kernel (w : place) : bool := match w with Kernel => true | _ => false end.

(** ** [_display_stream], 897-925: the state is the last prefix (empty at first) and whether the last text ended with a newline *)
Definition is_nil {A} (l : list A) : bool := match l with [] => true | _ => false end.
Fixpoint text_eqb (a b : text) : bool :=
  match a, b with [], [] => true | x :: a, y :: b => Ascii.eqb x y && text_eqb a b | _, _ => false end.
Definition display_stream (t prefix : text) (d : text * bool) : (text * bool) * text :=
  if is_nil t then (d, [])
  else
    let '(last, newline) := d in
    let '(prefix, last) := if is_nil prefix then (prefix, last) else if text_eqb prefix last then ([], last) else (prefix, prefix) in
    let pre := if negb (is_nil prefix) && negb newline then [LF] else [] in
    let sep := if negb (is_nil prefix) then [LF] else [] in
    ((last, ends_line t), pre ++ prefix ++ sep ++ t).
(** several in a row, all on one terminal *)
Fixpoint display_all (l : list (bool * nat * text)) (d : text * bool) : text :=
  match l with
  | [] => []
  | (s, t) :: l => let '(d, out) := display_stream t (header s) d in out ++ display_all l d
  end.

(** ** stream_output *)
(** [zip(self._targets, self._children)], 228: an exception if there are no targets.  A child is given by its target and its request. *)
Definition stream_children (targets : option (list nat)) (futures : list nat) : option (list (nat * nat)) :=
  match targets with None => None | Some l => Some (combine l futures) end.

Record st := St {
  mds : nat -> md;                                   (* the metadata of the requests *)
  callbacks : nat -> list (option nat);              (* iopub_callbacks of their futures; Some k: the one for child k; None: another's *)
  future_callbacks : list (nat * nat);               (* 223 *)
  screen : list (nat * item);                        (* what has been shown, and for which child *)
  streamed : list (option nat * bool * text) }.      (* in a kernel: the displays, by display_id *)
Definition upd {A} (f : nat) (x : A) (g : nat -> A) : nat -> A := fun i => if Nat.eqb i f then x else g i.

Section stream.
Context (w : place) (children : list (nat * nat)).

Definition stream_of (err : bool) (m : md) : text := if err then stderr m else stdout m.
(** [publish_display_data] with [update] (165-174): [_already_streamed] has the ids shown *)
Definition same_id (a b : option nat * bool) : bool :=
  match fst a, fst b with Some x, Some y => Nat.eqb x y | None, None => true | _, _ => false end && Bool.eqb (snd a) (snd b).
Fixpoint publish_display (id : option nat * bool) (t : text) (l : list (option nat * bool * text)) : list (option nat * bool * text) :=
  match l with
  | [] => [(id, t)]
  | (i, u) :: l => if same_id i id then (i, t) :: l else (i, u) :: publish_display id t l
  end.
(** [_iopub_streaming_output_callback], 143-215, for child k with target e and request f; [parent]: the request in the message's parent header *)
Definition callback (k e f : nat) (parent : option nat) (o : output) (s : st) : st :=
  match o with
  | Stream err t =>
      if in_kernel w then
        St (mds s) (callbacks s) (future_callbacks s) (screen s) (publish_display (parent, err) (header (err, e) ++ stream_of err (mds s f)) (streamed s))
      else St (mds s) (callbacks s) (future_callbacks s) (screen s ++ [(k, Text err t)]) (streamed s)
  | Err c => St (mds s) (callbacks s) (future_callbacks s) (screen s ++ [(k, Problem c)]) (streamed s)
  | ResultOut c => St (mds s) (callbacks s) (future_callbacks s) (screen s ++ [(k, Value c)]) (streamed s)
  | Display c => if ipython w then St (mds s) (callbacks s) (future_callbacks s) (screen s ++ [(k, Plot c)]) (streamed s) else s
  | _ => s
  end.
(** client.py 1220-1226; the callbacks of others show nothing here *)
Definition run_callbacks (f : nat) (o : output) (s : st) : st :=
  fold_left (fun s cb => match cb with
                         | Some k => match nth_error children k with Some (e, g) => callback k e g (Some f) o s | None => s end
                         | None => s end) (callbacks s f) s.
(** [future_callbacks[msg_future] = iopub_callback], 232 *)
Fixpoint put_future (f k : nat) (l : list (nat * nat)) : list (nat * nat) :=
  match l with [] => [(f, k)] | (g, j) :: l => if Nat.eqb g f then (g, k) :: l else (g, j) :: put_future f k l end.
(** [iopub_callbacks.remove(iopub_callback)], 276 *)
Fixpoint remove_callback (k : nat) (l : list (option nat)) : list (option nat) :=
  match l with
  | [] => []
  | Some j :: l => if Nat.eqb j k then l else Some j :: remove_callback k l
  | None :: l => None :: remove_callback k l
  end.
(** 242-267 *)
Definition publish (k e f : nat) (p : part) (s : st) : st :=
  let m := mds s f in
  match p with
  | POut => if is_nil (stdout m) then s else callback k e f None (Stream false (stdout m)) s
  | PErr => if is_nil (stderr m) then s else callback k e f None (Stream true (stderr m)) s
  | POutputs => fold_left (fun s c => callback k e f None (Display c) s) (outputs m) s
  | PResult => match execute_result m with Some c => callback k e f None (ResultOut c) s | None => s end
  end.
Definition step (s : st) (x : event) : st :=
  match x with
  | Arrive f o => St (upd f (capture o (mds s f)) (mds s)) (callbacks s) (future_callbacks s) (screen s) (streamed s)
  | Callbacks f o => run_callbacks f o s
  | Enter k =>                                                                   (* 228-238 *)
      match nth_error children k with
      | Some (e, f) => St (mds s) (upd f (callbacks s f ++ [Some k]) (callbacks s)) (put_future f k (future_callbacks s)) (screen s) (streamed s)
      | None => s end
  | Publish k p => match nth_error children k with Some (e, f) => publish k e f p s | None => s end
  | Leave =>                                                                     (* 270-276 *)
      St (mds s) (fold_left (fun c x => upd (fst x) (remove_callback (snd x) (c (fst x))) c) (future_callbacks s) (callbacks s))
         (future_callbacks s) (screen s) (streamed s)
  end.
(** at the beginning: what was captured before, and the callbacks of others *)
Definition start (before : nat -> list output) (others : nat -> nat) : st :=
  St (fun f => fold_left (fun m o => capture o m) (before f) new_md) (fun f => repeat None (others f)) [] [] [].
Definition run (before : nat -> list output) (others : nat -> nat) (h : list event) : st := fold_left step h (start before others).
(** the text on the terminal; errors and objects between the texts do not count *)
Definition terminal (s : st) : text :=
  display_all (flat_map (fun x => match snd x with
                                  | Text err t => match nth_error children (fst x) with Some (e, _) => [(err, e, t)] | None => [] end
                                  | _ => [] end) (screen s)) ([], true).
End stream.

(** ** display_outputs, 943-1052, of a result that is ready (the results of [engine_id], [stdout], ... are lists of the same length); [shown] says what there is for each request *)
Definition single (w : place) (result_only : bool) (x : shown) : list act :=         (* 927-941 *)
  (if result_only then [] else [Print None false (sh_out x); Print None true (sh_err x)]) ++
  (if ipython w then
     (if result_only then [] else map (Republish (sh_engine x)) (sh_plots x)) ++
     match sh_value x with Some c => [Show c] | None => [] end
   else []).
Definition display_engine (w : place) (result_only : bool) (x : shown) : list act := (* 988-1008 *)
  (if result_only then [] else [Print (Some (false, sh_engine x)) false (sh_out x); Print (Some (true, sh_engine x)) true (sh_err x)]) ++
  (if ipython w then
     (if (negb (is_nil (sh_plots x)) && negb result_only) || match sh_value x with Some _ => true | None => false end then [Label (sh_engine x)] else []) ++
     (if result_only then [] else map (Republish (sh_engine x)) (sh_plots x)) ++
     match sh_value x with Some c => [Show c] | None => [] end
   else []).
(** a dict by engine id, 1026-1028: the last one counts *)
Definition output_dict (l : list shown) (e : nat) : list string :=
  fold_left (fun acc x => if Nat.eqb (sh_engine x) e then sh_plots x else acc) l [].
Definition by_order (l : list shown) : list act :=                                   (* 1024-1035 *)
  let N := list_max (map (fun x => List.length (sh_plots x)) l) in
  flat_map (fun i => flat_map (fun x => let os := output_dict l (sh_engine x) in
    if Nat.leb N (List.length os) then match nth_error os i with Some c => [Label (sh_engine x); Republish (sh_engine x) c] | None => [] end else []) l) (seq 0 N).
Definition by_type (w : place) (order result_only : bool) (l : list shown) : list act :=   (* 1010-1047 *)
  (if result_only then [] else map (fun x => Print (Some (false, sh_engine x)) false (sh_out x)) l ++ map (fun x => Print (Some (true, sh_engine x)) true (sh_err x)) l) ++
  (if ipython w then
     (if result_only then [] else if order then by_order l
      else flat_map (fun x => (if is_nil (sh_plots x) then [] else [Label (sh_engine x)]) ++ map (Republish (sh_engine x)) (sh_plots x)) l) ++
     flat_map (fun x => match sh_value x with Some c => [Show c] | None => [] end) l
   else []).
(** [single_result]: the AsyncResult of one request that gives one result (not a list), 968-970; None: ValueError, 1048-1052 and, for no requests at all,
    by [max] in 1029 *)
Definition display_outputs (w : place) (groupby : string) (result_only single_result : bool) (l : list shown) : option (list act) :=
  if single_result then Some (flat_map (single w result_only) l)
  else if String.eqb groupby "engine" then Some (flat_map (display_engine w result_only) l)
  else if String.eqb groupby "type" then Some (by_type w false result_only l)
  else if String.eqb groupby "order" then
    if ipython w && negb result_only && is_nil l then None else Some (by_type w true result_only l)
  else None.
