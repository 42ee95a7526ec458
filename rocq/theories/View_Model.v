(** Model of the flags, dependencies and bookkeeping of views, ipyparallel/client/view.py.
    Message ids (strings) are natural numbers; numbers are integers (a float is its value). *)
From stdpp Require Import base gmap sets list.
From Verif Require Import Dependency_Model.
From Verif Require Prelude.
From Coq Require Import ZArith.

(** * Values a flag may hold.  [VSeq]: a list, set or tuple.  [VDict k d]: a dict; [k] says whether
    its keys are exactly those of [Dependency().as_dict()].  [VOther]: any other object. *)
Inductive value :=
| VNone | VBool (b : bool) | VInt (z : Z) | VFloat (z : Z) | VStr (m : nat)
| VSeq (l : list value) | VAsync (ids : list nat) | VDep (d : dep)
| VDict (same_keys : bool) (d : dep_dict) | VOther.

Inductive verr := KeyErr | ValueErr | TypeErr | TraitErr.
Inductive vres (A : Type) := VOk (a : A) | VErr (e : verr).
Arguments VOk {A} a. Arguments VErr {A} e.

(** * Dependencies given by the user *)
(** Dependency.__init__, controller/dependency.py 160-171: the ids in a list of strings and
    AsyncResults. *)
Fixpoint dep_ids (l : list value) : vres (list nat) :=
  match l with
  | [] => VOk []
  | VStr m :: r => match dep_ids r with VOk ids => VOk (m :: ids) | VErr e => VErr e end
  | VAsync ms :: r => match dep_ids r with VOk ids => VOk (ms ++ ids) | VErr e => VErr e end
  | _ :: _ => VErr TypeErr                                                (* 171 *)
  end.
(** Dependency(v) with the default flags, 153-171.  A Dependency is itself a set of strings. *)
Definition dependency (v : value) : vres dep :=
  let mk ids := VOk (Dep (list_to_set ids) true true false) in
  match v with
  | VStr m => mk [m]                                                      (* 163-164 *)
  | VAsync ms => mk ms
  | VSeq l => match dep_ids l with VOk ids => mk ids | VErr e => VErr e end
  | VDep d => mk (elements (d_ids d))
  | VDict _ d => match from_dict d with Prelude.Ok x => VOk x | Prelude.Raise _ => VErr ValueErr end
  | _ => VErr TypeErr                                                     (* not iterable *)
  end.

(** LoadBalancedView._validate_dependency, 1242-1263 *)
Definition is_id (v : value) : bool := match v with VStr _ | VAsync _ => true | _ => false end.
Definition validate_dependency (v : value) : vres bool :=
  match v with
  | VNone | VStr _ | VAsync _ | VDep _ => VOk true                        (* 1247 *)
  | VSeq l => VOk (forallb is_id l)                                       (* 1249-1252 *)
  | VDict same _ => if same then VErr KeyErr                              (* 1256: dep['msg_ids'] *)
                    else VOk false                                        (* 1254-1255 *)
  | _ => VOk false
  end.

(** LoadBalancedView._render_dependency, 1265-1276: what is put in the metadata of the task. *)
Inductive rendered := RList (l : list nat) | RDict (d : dep_dict).
Definition render_dependency (v : value) : vres rendered :=
  match v with
  | VDep d => VOk (RDict (as_dict d))                                     (* 1267-1268 *)
  | VAsync ms => VOk (RList ms)                                           (* 1269-1270 *)
  | VNone => VOk (RList [])                                               (* 1271-1272 *)
  | _ => match dependency v with
         | VOk d => VOk (RList (elements (d_ids d)))                      (* 1275 *)
         | VErr e => VErr e end
  end.

(** The dependency the scheduler builds from the metadata, task_scheduler.py 367-390, 393 (before
    any simplification); a list means the default flags. *)
Definition scheduler_reads (r : rendered) : Prelude.res dep :=
  match r with
  | RList l => mk_dep l true true false
  | RDict d => from_dict d
  end.

(** * Flags *)
Inductive flag := Targets | Block | Track | Label | Follow | After | Timeout | Retries.
#[global] Instance flag_eq_dec : EqDecision flag.
Proof. solve_decision. Defined.
Inductive kind := Direct | Balanced.
(** _flag_names, 109 and 1233-1235 *)
Definition flag_names (k : kind) : list flag :=
  match k with
  | Direct => [Targets; Block; Track; Label]
  | Balanced => [Targets; Block; Track; Follow; After; Timeout; Retries; Label]
  end.
(** The attributes of a view. *)
Definition flags := flag -> value.
Definition set_flag (f : flag) (v : value) (s : flags) : flags :=
  fun g => if decide (g = f) then v else s g.

(** Assignment to a trait validates and may convert: block, track = Bool; retries = Integer (98-99,
    1229); timeout = CFloat (1228: [float(value)]); the others Any.  Strings that denote numbers are
    not modelled. *)
Definition coerce (f : flag) (v : value) : vres value :=
  match f with
  | Block | Track => match v with VBool _ => VOk v | _ => VErr TraitErr end
  | Retries => match v with VInt _ | VBool _ => VOk v | _ => VErr TraitErr end
  | Timeout => match v with
               | VFloat z => VOk (VFloat z)
               | VInt z => VOk (VFloat z)
               | VBool b => VOk (VFloat (if b then 1 else 0))
               | _ => VErr TraitErr end
  | _ => VOk v
  end.

(** Outcome of a statement: new attributes, and the exception if one escapes. *)
Definition outcome := (flags * option verr)%type.

Definition set_attr (f : flag) (v : value) (s : flags) : outcome :=
  match coerce f v with VOk w => (set_flag f w s, None) | VErr e => (s, Some e) end.

(** View.set_flags, 155-159.  A keyword that is no flag at all is [inr]. *)
Definition kwargs := list ((flag + nat) * value).
Fixpoint set_flags_base (k : kind) (kw : kwargs) (s : flags) : outcome :=
  match kw with
  | [] => (s, None)
  | (inr _, _) :: _ => (s, Some KeyErr)
  | (inl f, v) :: r =>
      if decide (f ∈ flag_names k) then
        match set_attr f v s with
        | (s', None) => set_flags_base k r s'
        | o => o
        end
      else (s, Some KeyErr)
  end.
Fixpoint kw_get (f : flag) (kw : kwargs) : option value :=
  match kw with
  | [] => None
  | (inl g, v) :: r => if decide (f = g) then Some v else kw_get f r
  | _ :: r => kw_get f r
  end.

(** 1313-1320, for one name *)
Definition check_dep (f : flag) (kw : kwargs) (s : flags) : outcome :=
  match kw_get f kw with
  | None => (s, None)
  | Some v =>
      match validate_dependency v with
      | VErr e => (s, Some e)
      | VOk false => (s, Some ValueErr)
      | VOk true => set_attr f v s
      end
  end.
(** 1321-1329 *)
Definition check_timeout (kw : kwargs) (s : flags) : outcome :=
  match kw_get Timeout kw with
  | None => (s, None)
  | Some v =>
      match v with
      | VInt z | VFloat z => if (z <? 0)%Z then (s, Some ValueErr) else set_attr Timeout v s
      | VBool _ | VNone => set_attr Timeout v s
      | _ => (s, Some TypeErr)
      end
  end.
Definition and_then (o : outcome) (k : flags -> outcome) : outcome :=
  match o with (s, None) => k s | o => o end.
(** LoadBalancedView.set_flags, 1278-1332 *)
Definition set_flags (k : kind) (kw : kwargs) (s : flags) : outcome :=
  match k with
  | Direct => set_flags_base Direct kw s
  | Balanced =>
      and_then (set_flags_base Balanced kw s) (fun s =>
      and_then (check_dep Follow kw s) (fun s =>
      and_then (check_dep After kw s) (fun s =>
      check_timeout kw s)))
  end.

(** View.temp_flags, 164-190, around a body: save all flags, set the given ones, run the body, set
    the saved ones whatever the body did.  Result: attributes, escaping exception ([inl] from
    set_flags, [inr] from the body), and whether the body ran. *)
Definition temp_flags {E : Type} (k : kind) (kw : kwargs) (body : flags -> flags * option E) (s : flags)
  : flags * option (verr + E) * bool :=
  let saved : kwargs := map (fun f => (inl f, s f)) (flag_names k) in         (* 181-183 *)
  match set_flags k kw s with                                                 (* 184 *)
  | (s1, Some e) => (s1, Some (inl e), false)
  | (s1, None) =>
      let '(s2, r) := body s1 in                                              (* 187 *)
      match set_flags k saved s2 with                                         (* 190 *)
      | (s3, Some e) => (s3, Some (inl e), true)
      | (s3, None) => (s3, option_map inr r, true)
      end
  end.

(** * History and outstanding messages *)
(** What happens during calls on views: messages are sent ([Client._send] appends the id to
    client.history and adds it to client.outstanding, client.py 1247-1320), replies arrive, methods
    of views are called, an exception is raised.  [Call v saves body]: a method of view [v] decorated
    with @sync_results, and with @save_ids if [saves]. *)
Inductive act :=
| Send | Reply (m : nat) | RaiseErr | Call (v : nat) (saves : bool) (body : list act).

Record world := World {
  w_next : nat;                      (* fresh message ids *)
  w_chist : list nat;                (* client.history *)
  w_cout : gset nat;                 (* client.outstanding *)
  w_vhist : nat -> list nat;         (* view.history *)
  w_vout : nat -> gset nat;          (* view.outstanding *)
  w_sync : nat -> bool }.            (* view._in_sync_results *)

Definition upd_fn {A} (f : nat -> A) (v : nat) (a : A) : nat -> A := fun x => if decide (x = v) then a else f x.

(** [l[-n:]]; for n = 0 that is the whole list. *)
Definition last_n (n : nat) (l : list nat) : list nat :=
  match n with O => l | _ => drop (length l - n) l end.

(** the [finally] of save_ids, 40-44 *)
Definition save_ids_finally (v n_previous : nat) (w : world) : world :=
  let nmsgs := length (w_chist w) - n_previous in
  let msg_ids := last_n nmsgs (w_chist w) in
  World (w_next w) (w_chist w) (w_cout w)
        (upd_fn (w_vhist w) v (w_vhist w v ++ msg_ids))
        (upd_fn (w_vout w) v (w_vout w v ∪ list_to_set msg_ids)) (w_sync w).
Definition set_sync (v : nat) (b : bool) (w : world) : world :=
  World (w_next w) (w_chist w) (w_cout w) (w_vhist w) (w_vout w) (upd_fn (w_sync w) v b).
(** _sync_results, 196-203: [outstanding - (outstanding & (outstanding - client.outstanding))] *)
Definition sync_results (v : nat) (w : world) : world :=
  let delta := w_vout w v ∖ w_cout w in
  let completed := w_vout w v ∩ delta in
  World (w_next w) (w_chist w) (w_cout w) (w_vhist w)
        (upd_fn (w_vout w) v (w_vout w v ∖ completed)) (w_sync w).

(** One action; [true]: an exception escapes. *)
Fixpoint exec (a : act) (w : world) : world * bool :=
  let fix execs (l : list act) (w : world) : world * bool :=
    match l with
    | [] => (w, false)
    | a :: r => match exec a w with (w', false) => execs r w' | o => o end
    end in
  match a with
  | Send => (World (S (w_next w)) (w_chist w ++ [w_next w]) ({[w_next w]} ∪ w_cout w) (w_vhist w) (w_vout w) (w_sync w), false)
  | Reply m => (World (w_next w) (w_chist w) (w_cout w ∖ {[m]}) (w_vhist w) (w_vout w) (w_sync w), false)
  | RaiseErr => (w, true)
  | Call v saves body =>
      let saved_call (w : world) : world * bool :=                             (* save_ids, 35-45 *)
        let n_previous := length (w_chist w) in
        let '(w', r) := execs body w in
        (if saves then save_ids_finally v n_previous w' else w', r) in
      if w_sync w v then saved_call w                                          (* 51-52 *)
      else
        let '(w', r) := saved_call (set_sync v true w) in
        (sync_results v (set_sync v false w'), r)                              (* 57-58 *)
  end.
Fixpoint execs (l : list act) (w : world) : world * bool :=
  match l with
  | [] => (w, false)
  | a :: r => match exec a w with (w', false) => execs r w' | o => o end
  end.
