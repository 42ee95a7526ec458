(** The magics of client/magics.py: %px, %%px, %pxconfig, %pxresult and %autopx, for any number of views, each with its own set of magics (view.activate(suffix), view.py 882-908).
    Set 0 is the one without a suffix.
    Simplifications: verbose messages, progress bars (progress_after) and the grouping of outputs are left out; the set of engines changes between cells only;
    sending a signal does not fail.  What the engines do with a submission is part of the input (see [fate] and [wait]). *)
From stdpp Require Import base list gmap.

Inductive target := All | Ids (l : list nat) | One (n : nat).
(** the argument of --targets: "a:b", "all", or an expression, which may raise an exception *)
Inductive targ := TSlice (a b : nat) | TAll | TExpr (t : option target).

(** the arguments, exec_args and output_args 77-207 *)
Record opts := Opts {
  o_targets : option targ;     (* --targets *)
  o_block : option bool;       (* --block, --noblock *)
  o_stream : option bool;      (* --stream, --no-stream *)
  o_signal : option nat;       (* --signal-on-interrupt *)
  o_save : option nat;         (* --out *)
  o_local : bool }.            (* --local *)
(** how waiting for a result ends: the code has run, or failed on an engine, or the user pressed Ctrl-C *)
Inductive wait := Finished | Failed | Interrupted.
(** view.execute raises an exception (no such engine, for instance), or submits the code *)
Inductive fate := Refused | Submitted (w : wait).

(** What is in a cell: code, and magics; %%px k has a cell as its body. *)
Inductive cmd :=
| Code (c : nat) (ok : bool)                                    (* local code; ok: it raises no exception *)
| Px (k : nat) (line : nat) (f : fate)                          (* %px *)
| CellPx (k : nat) (o : opts) (c : cell) (f : fate) (w : wait)  (* %%px; w: waiting after the local execution *)
| PxConfig (k : nat) (o : opts)                                 (* %pxconfig *)
| PxResult (k : nat) (save : option nat) (w : wait)             (* %pxresult *)
| AutoPx (k : nat)                                              (* %autopx *)
with cell :=
| Cell (name : nat) (lead valid : bool) (body : cmds) (f : fate)
  (* lead: the text begins with the first command (and not with a comment); valid: it can be compiled; f: what happens when %autopx sends it to the engines *)
with cmds := Nil | Cons (x : cmd) (l : cmds).

Inductive code := Line (n : nat) | Whole (c : cell).
(** what can be seen *)
Inductive event :=
| Local (c : nat)                                   (* code runs in the shell *)
| Submit (k id : nat) (c : code) (ts : target)      (* code goes to the engines ts *)
| Stored (k n id : nat)                             (* the variable n is now the AsyncResult id *)
| Waited (k id : nat)                               (* the result id is there *)
| Shown (k id : nat)                                (* its outputs are displayed *)
| Signal (k g : nat) (ts : target)                  (* a signal goes to the engines ts *)
| Returned (k id : nat)                             (* the AsyncResult id is returned to the user *)
| Recalled (k id : nat)                             (* %pxresult takes the result id *)
| Usage (k : nat)                                   (* %pxresult: UsageError *)
| Config (k : nat) (o : opts) (t : option target)   (* %pxconfig has been carried out *)
| Mode (k : nat) (on : bool)                        (* "%autopx enabled", "%autopx disabled" *)
| Error.                                            (* an exception is shown *)

(** the shell's run_cell and run_ast_nodes: the original ones or those of a set of magics *)
Inductive hook := Native | Hook (k : nat).
(** a set of magics and its view, 210-234 *)
Record magics := Magics {
  m_targets : target; m_block : bool; m_stream : bool; m_signal : option nat;
  m_last : option nat; m_auto : bool; m_saved : hook }.
Record st := St { engines : list nat; sets : gmap nat magics; shell : hook; next : nat; log : list event }.

Section Model.
(** the settings of the views and magics at the beginning, and how many there are *)
Context (first : nat -> magics) (n : nat).

Definition the (s : st) (k : nat) : magics := default (first k) (sets s !! k).
Definition put (k : nat) (m : magics) (s : st) : st := St (engines s) (<[k := m]> (sets s)) (shell s) (next s) (log s).
Definition say (e : event) (s : st) : st := St (engines s) (sets s) (shell s) (next s) (log s ++ [e]).
Definition hang (h : hook) (s : st) : st := St (engines s) (sets s) h (next s) (log s).

Definition with_targets t m := Magics t (m_block m) (m_stream m) (m_signal m) (m_last m) (m_auto m) (m_saved m).
Definition with_last id m := Magics (m_targets m) (m_block m) (m_stream m) (m_signal m) (Some id) (m_auto m) (m_saved m).

(** _eval_target_str 261-268 *)
Definition eval_target (all : list nat) (a : targ) : option target :=
  match a with
  | TSlice a b => Some (Ids (take (b - a) (drop a all)))      (* self.view.client.ids[a:b] *)
  | TAll => Some All
  | TExpr t => t
  end.

(** pxconfig 275-293 *)
Definition pxconfig (k : nat) (o : opts) (s : st) : st * bool :=
  let m := the s k in
  let go t m' := (say (Config k o t) (put k (Magics (m_targets m') (default (m_block m) (o_block o)) (default (m_stream m) (o_stream o))
                                        (match o_signal o with Some g => Some g | None => m_signal m end) (m_last m) (m_auto m) (m_saved m)) s), false) in
  match o_targets o with
  | Some a => match eval_target (engines s) a with Some t => go (Some t) (with_targets t m) | None => (s, true) end
  | None => go None m
  end.

(** parallel_execute 347-433: the new state, whether it raises an exception, and the AsyncResult it returns *)
Definition parallel_execute (k : nat) (c : code) (block stream : option bool) (signal save : option nat) (f : fate) (s : st) : st * bool * option nat :=
  let m := the s k in
  let block := default (m_block m) block in
  let stream := default (m_stream m) stream in
  let signal := match signal with Some g => Some g | None => m_signal m end in
  let targets := m_targets m in
  match f with
  | Refused => (s, true, None)
  | Submitted w =>
      let id := next s in
      let s := say (Submit k id c targets) (St (engines s) (<[k := with_last id m]> (sets s)) (shell s) (S id) (log s)) in
      let s := match save with Some v => say (Stored k v id) s | None => s end in
      if block then
        let show s := if stream then s else say (Shown k id) s in                              (* 423-429 *)
        match w with
        | Finished => (show (say (Waited k id) s), false, None)
        | Failed => (show (say (Waited k id) s), true, None)
        | Interrupted => match signal with
                         | Some g => (show (say (Signal k g targets) s), false, None)          (* 411-420 *)
                         | None => (show s, true, None)                                        (* 421-422 *)
                         end
        end
      else (s, false, Some id)                                                                 (* 431-433 *)
  end.

(** autopx 503-553 *)
Definition enable (k : nat) (s : st) : st :=
  let m := the s k in
  say (Mode k true) (hang (Hook k) (put k (Magics (m_targets m) (m_block m) (m_stream m) (m_signal m) (m_last m) true (shell s)) s)).
Definition disable (k : nat) (s : st) : st :=
  let m := the s k in
  if m_auto m then say (Mode k false) (hang (m_saved m) (put k (Magics (m_targets m) (m_block m) (m_stream m) (m_signal m) (m_last m) false (m_saved m)) s)) else s.
Definition autopx (k : nat) (s : st) : st := if m_auto (the s k) then disable k s else enable k s.

(** result 299-325 *)
Definition pxresult (k : nat) (save : option nat) (w : wait) (s : st) : st * bool :=
  match m_last (the s k) with
  | None => (say (Usage k) s, true)
  | Some id =>
      let s := say (Recalled k id) s in
      match save with
      | Some v => (say (Stored k v id) s, false)
      | None => match w with
                | Finished => (say (Shown k id) (say (Waited k id) s), false)
                | Failed => (say (Waited k id) s, true)
                | Interrupted => (s, true)
                end
      end
  end.

(** the text of a cell begins with "%autopx" and then a word boundary (564); a suffix is no word boundary *)
Definition says_autopx (c : cell) : bool :=
  match c with Cell _ lead _ (Cons (AutoPx k) _) _ => lead && (k =? 0) | _ => false end.
(** pxrun_nodes 562-575 *)
Definition pxrun_nodes (k : nat) (c : cell) (s : st) : st :=
  match c with Cell _ _ _ _ f =>
    if says_autopx c then disable k s
    else match parallel_execute k (Whole c) None None None None f s with (s, raised, _) => if raised then say Error s else s end
  end.
(** pxrun_cell 577-586: it calls the run_cell it found, and so on; is that the shell's in the end, or does it never end (RecursionError)? *)
Fixpoint arrives (fuel : nat) (h : hook) (s : st) : bool :=
  match h, fuel with
  | Native, _ => true
  | Hook k, S fuel => arrives fuel (m_saved (the s k)) s
  | Hook _, 0 => false
  end.

(** the execution of one command; whether it raises an exception *)
Fixpoint perform (x : cmd) (s : st) : st * bool :=
  match x with
  | Code c ok => (say (Local c) s, negb ok)
  | Px k l f =>                                                                                (* px 327-345 *)
      match parallel_execute k (Line l) None None None None f s with
      | (s, raised, ar) => (match ar with Some id => say (Returned k id) s | None => s end, raised)
      end
  | CellPx k o c f w =>                                                                        (* cell_px 446-501 *)
      match match o_targets o with None => Some None | Some a => match eval_target (engines s) a with Some t => Some (Some t) | None => None end end with
      | None => (s, true)
      | Some given =>
          let save := m_targets (the s k) in
          let s := match given with Some t => put k (with_targets t (the s k)) s | None => s end in
          let block := if o_local o then Some false else o_block o in
          match parallel_execute k (Whole c) block (o_stream o) (o_signal o) (o_save o) f s with
          | (s, raised, ar) =>
              let s := match given with Some _ => put k (with_targets save (the s k)) s | None => s end in
              if raised then (s, true)
              else
                let block := default (m_block (the s k)) (o_block o) in
                let s := if o_local o then run_cell c s else s in
                match ar with
                | Some id =>
                    if block then
                      if o_local o then
                        match w with
                        | Finished => (say (Shown k id) (say (Waited k id) s), false)
                        | Failed => (say (Waited k id) s, true)
                        | Interrupted => (s, true)
                        end
                      else (s, false)
                    else (say (Returned k id) s, false)
                | None => (s, false)
                end
          end
      end
  | PxConfig k o => pxconfig k o s
  | PxResult k save w => pxresult k save w s
  | AutoPx k => (autopx k s, false)
  end
(** shell.run_cell: IPython runs the commands of a cell that can be compiled one after the other; the first exception ends it and is shown *)
with run_cell (c : cell) (s : st) : st :=
  match c with Cell _ _ valid body _ =>
    if arrives (S n) (shell s) s then
      if valid then match shell s with Native => perform_all body s | Hook k => pxrun_nodes k c s end
      else say Error s
    else say Error s
  end
with perform_all (l : cmds) (s : st) : st :=
  match l with
  | Nil => s
  | Cons x l => match perform x s with (s, raised) => if raised then say Error s else perform_all l s end
  end.

(** A session: cells, and engines that come and go in between *)
Inductive act := Engines (l : list nat) | Run (c : cell).
Definition step (s : st) (a : act) : st :=
  match a with Engines l => St l (sets s) (shell s) (next s) (log s) | Run c => run_cell c s end.
Definition session (l : list act) : st := fold_left step l (St [] ∅ Native 0 []).
End Model.
