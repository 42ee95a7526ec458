(** Model of the engine's request handling, ipyparallel/engine/kernel.py, of the canned function with
    a dependency, ipyparallel/serialize/canning.py 105-158 and 466-509 and serialize/serialize.py
    190-213, and of the engine-side dependencies of controller/dependency.py 40-76.

    User code is arbitrary: calling a function, evaluating the name of a Reference, importing a module
    and running a cell are parameters which read and change the engine's namespace and return or
    raise.  Values ([V]) are opaque.  Pickling is not modelled here (see Serialize_Model); a request
    carries the canned objects which unpickling yields.  Text printed, the log and the traceback text
    are left out. *)
From stdpp Require Import base gmap list strings.
From Coq Require Import String Ascii.
Open Scope string_scope.
Open Scope list_scope.

(** An exception: its class name, its text, and whether converting it to text raises. *)
Record exc := Exc { x_name : string; x_text : string; x_str_fails : bool }.
Inductive res (A : Type) := Ret (a : A) | Rse (e : exc).
Arguments Ret {A} a. Arguments Rse {A} e.

Definition unmet (text : string) : exc := Exc "UnmetDependency" text false.

Section engine.
Context {V : Type}.

(** What a name in the namespace may be bound to: a value, or one of the temporary bindings
    (tuple of arguments, dict of keyword arguments, None) of kernel.py 153. *)
Inductive cell := CV (v : V) | CArgs (l : list V) | CKw (k : list (string * V)) | CNone.
Notation ns := (gmap string cell).

(** User code. *)
Record code := Code {
  call : V -> list V -> list (string * V) -> ns -> res V * ns;     (* f( *args, **kwargs) *)
  evalref : string -> ns -> res V * ns;                            (* eval(name, user_ns) *)
  import : string -> ns -> res unit * ns;                          (* import name *)
  cell_run : string -> ns -> res unit * ns;                        (* execute_request: run a cell *)
  mkseq : list V -> V;                                             (* the list of these values *)
  is_false : V -> bool;                                            (* v is False *)
  picklable : V -> option exc;                                     (* does serialize_object raise? *)
  base_ns : ns                                                     (* the namespace after shell.reset *)
}.

(** Canned objects.  [CnDep f df dargs dkwargs]: a [dependent], canned by can_dependent (canning.py
    508); [CnReq f names mapping]: the dependent made by @require (dependency.py 79-120), whose
    dependency function is [_require]. *)
Inductive canned :=
| CnVal (v : V)
| CnRef (name : string)
| CnSeq (l : list canned)
| CnDep (f df : canned) (dargs : list V) (dkwargs : list (string * V))
| CnReq (f : canned) (names : list string) (mapping : list (string * canned)).

(** What can be observed of the handling of one request. *)
Inductive out :=
| OCheck (r : res V)                                  (* a @depend function was called, with this outcome *)
| OImport (name : string) (r : res unit)              (* @require imported a module, with this outcome *)
| OCall (f : V) (args : list V) (kwargs : list (string * V)) (env : ns)   (* the function was called *)
| OCell (c : string)                                  (* a cell was run *)
| OReply (id : string) (type : string) (status : string)
         (error : option (string * string)) (result : option V)
         (dependencies_met : bool) (engine_info : bool)
| OAbortQueues.

Context (C : code).

(** ImportError and its subclass *)
Definition is_import_error (e : exc) : bool :=
  bool_decide (x_name e = "ImportError") || bool_decide (x_name e = "ModuleNotFoundError").

(** The loop of [_require], dependency.py 67-71 *)
Fixpoint require_imports (names : list string) (n : ns) : list out * res unit * ns :=
  match names with
  | [] => ([], Ret tt, n)
  | m :: r =>
      match import C m n with
      | (Ret _, n') => let '(o, x, n'') := require_imports r n' in (OImport m (Ret tt) :: o, x, n'')
      | (Rse e, n') => ([OImport m (Rse e)], Rse (if is_import_error e then unmet m else e), n')
      end
  end.

(** uncan, canning.py 466-501; CannedObject.get_object 129-139 with the keys [f] and [df] and the hook
    _uncan_dependent_hook 504-505; Reference.get_object 154-158; dependent.check_dependency and
    __call__, dependency.py 50-55: calling the uncanned [dependent] calls its [f], so it is
    represented by [f]. *)
Fixpoint uncan (c : canned) (n : ns) : list out * res V * ns :=
  match c with
  | CnVal v => ([], Ret v, n)
  | CnRef x => let '(r, n') := evalref C x n in ([], r, n')
  | CnSeq l =>
      let '(o, r, n') :=
        (fix go (l : list canned) (n : ns) : list out * res (list V) * ns :=
           match l with
           | [] => ([], Ret [], n)
           | c :: l' =>
               match uncan c n with
               | (o, Rse e, n1) => (o, Rse e, n1)
               | (o, Ret v, n1) =>
                   match go l' n1 with
                   | (o2, Rse e, n2) => (o ++ o2, Rse e, n2)
                   | (o2, Ret vs, n2) => (o ++ o2, Ret (v :: vs), n2)
                   end
               end
           end) l n in
      match r with Rse e => (o, Rse e, n') | Ret vs => (o, Ret (mkseq C vs), n') end
  | CnDep f df dargs dkwargs =>
      match uncan f n with                                             (* 133-134 *)
      | (o1, Rse e, n1) => (o1, Rse e, n1)
      | (o1, Ret vf, n1) =>
          match uncan df n1 with
          | (o2, Rse e, n2) => (o1 ++ o2, Rse e, n2)
          | (o2, Ret vdf, n2) =>
              let '(r, n3) := call C vdf dargs dkwargs n2 in           (* dependency.py 51 *)
              let o := o1 ++ o2 ++ [OCheck r] in
              match r with
              | Rse e => (o, Rse e, n3)
              | Ret v => if is_false C v then (o, Rse (unmet ""), n3) else (o, Ret vf, n3)
              end
          end
      end
  | CnReq f names mapping =>
      match uncan f n with
      | (o1, Rse e, n1) => (o1, Rse e, n1)
      | (o1, Ret vf, n1) =>
          match require_imports names n1 with
          | (o2, Rse e, n2) => (o1 ++ o2, Rse e, n2)
          | (o2, Ret _, n2) =>
              (* user_ns[name] = uncan(cobj, user_ns), dependency.py 73-74 *)
              let '(o3, r, n3) :=
                (fix go (l : list (string * canned)) (n : ns) : list out * res unit * ns :=
                   match l with
                   | [] => ([], Ret tt, n)
                   | (x, c) :: l' =>
                       match uncan c n with
                       | (o, Rse e, n1) => (o, Rse e, n1)
                       | (o, Ret v, n1) =>
                           let '(o', r, n') := go l' (<[x := CV v]> n1) in (o ++ o', r, n')
                       end
                   end) mapping n2 in
              match r with
              | Rse e => (o1 ++ o2 ++ o3, Rse e, n3)
              | Ret _ => (o1 ++ o2 ++ o3, Ret vf, n3)                  (* returns True: not False *)
              end
          end
      end
  end.

Fixpoint uncan_list (l : list canned) (n : ns) : list out * res (list V) * ns :=
  match l with
  | [] => ([], Ret [], n)
  | c :: l' =>
      match uncan c n with
      | (o, Rse e, n1) => (o, Rse e, n1)
      | (o, Ret v, n1) =>
          match uncan_list l' n1 with
          | (o2, Rse e, n2) => (o ++ o2, Rse e, n2)
          | (o2, Ret vs, n2) => (o ++ o2, Ret (v :: vs), n2)
          end
      end
  end.

(** unpack_apply_message, serialize.py 190-213: function, then arguments, then keyword arguments. *)
Definition unpack (f : canned) (args : list canned) (kw : list (string * canned)) (n : ns)
  : list out * res (V * list V * list (string * V)) * ns :=
  match uncan f n with
  | (o1, Rse e, n1) => (o1, Rse e, n1)
  | (o1, Ret vf, n1) =>
      match uncan_list args n1 with
      | (o2, Rse e, n2) => (o1 ++ o2, Rse e, n2)
      | (o2, Ret va, n2) =>
          match uncan_list (map snd kw) n2 with
          | (o3, Rse e, n3) => (o1 ++ o2 ++ o3, Rse e, n3)
          | (o3, Ret vk, n3) => (o1 ++ o2 ++ o3, Ret (vf, va, zip (map fst kw) vk), n3)
          end
      end
  end.

(** str(msg_id).replace('-', '_'), kernel.py 143 *)
Fixpoint replace_dash (s : string) : string :=
  match s with
  | EmptyString => EmptyString
  | String a r => String (if bool_decide (a = "-"%char) then "_"%char else a) (replace_dash r)
  end.
Definition prefix (id : string) : string := ("_" ++ replace_dash id ++ "_")%string.
(** kernel.py 147-150 *)
Definition fname id := (prefix id ++ "f")%string.
Definition argname id := (prefix id ++ "args")%string.
Definition kwargname id := (prefix id ++ "kwargs")%string.
Definition resultname id := (prefix id ++ "result")%string.

(** An apply_request.  The metadata which is only copied to the reply (init_metadata, 69-80) is left
    out. *)
Record request := Req { q_id : string; q_f : canned; q_args : list canned; q_kw : list (string * canned) }.

(** exec(code, user_global_ns, user_ns), 156-158 : [result = f( *args, **kwargs)].  The names are
    looked up in the namespace. *)
Definition exec_apply (id : string) (n : ns) : list out * res unit * ns :=
  match n !! fname id, n !! argname id, n !! kwargname id with
  | Some (CV f), Some (CArgs a), Some (CKw k) =>
      match call C f a k n with
      | (Rse e, n') => ([OCall f a k n], Rse e, n')
      | (Ret v, n') => ([OCall f a k n], Ret tt, <[resultname id := CV v]> n')
      end
  | _, _, _ => ([], Rse (Exc "NameError" "" false), n)
  end.
(** the finally clause, 160-167 (KeyError is caught) *)
Definition pop_names (id : string) (n : ns) : ns :=
  delete (resultname id) (delete (kwargname id) (delete (argname id) (delete (fname id) n))).

(** do_apply, 138-208: the value to send back, or the exception. *)
Definition do_apply (q : request) (n : ns) : list out * res V * ns :=
  let id := q_id q in
  match unpack (q_f q) (q_args q) (q_kw q) n with
  | (o, Rse e, n1) => (o, Rse e, n1)
  | (o, Ret (f, a, k), n1) =>
      let n2 := <[resultname id := CNone]> (<[kwargname id := CKw k]>
                (<[argname id := CArgs a]> (<[fname id := CV f]> n1))) in       (* 152-154 *)
      let '(o2, r, n3) := exec_apply id n2 in
      let result := n3 !! resultname id in                                      (* 158 *)
      let n4 := pop_names id n3 in
      match r with
      | Rse e => (o ++ o2, Rse e, n4)
      | Ret _ =>
          match result with
          | Some (CV v) =>
              match picklable C v with                                          (* 169-173 *)
              | None => (o ++ o2, Ret v, n4)
              | Some e => (o ++ o2, Rse e, n4)
              end
          | _ => (o ++ o2, Rse (Exc "NameError" "" false), n4)
          end
      end
  end.

(** The text of the error, 183-186 *)
Definition evalue (e : exc) : string :=
  if x_str_fails e then "Failed to cast exception to string" else x_text e.

(** apply_request, 105-136, with init_metadata 69-80 and finish_metadata 82-92: the reply sent. *)
Definition apply_request (q : request) (n : ns) : list out * ns :=
  match do_apply q n with
  | (o, Ret v, n') => (o ++ [OReply (q_id q) "apply_reply" "ok" None (Some v) true false], n')
  | (o, Rse e, n') =>
      (o ++ [OReply (q_id q) "apply_reply" "error" (Some (x_name e, evalue e)) None
               (negb (bool_decide (x_name e = "UnmetDependency"))) true], n')
  end.

(** execute_request: ipykernel's handler with do_execute, 210-219.  Only the order of its effects and
    its single reply are modelled. *)
Definition execute_request (id c : string) (n : ns) : list out * ns :=
  match cell_run C c n with
  | (Ret _, n') => ([OCell c; OReply id "execute_reply" "ok" None None true false], n')
  | (Rse e, n') =>
      ([OCell c; OReply id "execute_reply" "error" (Some (x_name e, evalue e)) None
                   (negb (bool_decide (x_name e = "UnmetDependency"))) true], n')
  end.

(** * The kernel *)
Record kernel := Kernel { k_ns : ns; k_aborted : gset string }.

Inductive shell_msg := Apply (q : request) | Execute (id c : string).
Definition shell_id (m : shell_msg) : string :=
  match m with Apply q => q_id q | Execute id _ => id end.
(** ipykernel's _send_abort_reply: '<kind>_request' is answered by '<kind>_reply'. *)
Definition reply_type (m : shell_msg) : string :=
  match m with Apply _ => "apply_reply" | Execute _ _ => "execute_reply" end.
Definition abort_reply (m : shell_msg) : out :=
  OReply (shell_id m) (reply_type m) "aborted" None None true false.

(** ipykernel's Kernel.should_handle: [base] says whether the installed version itself looks at the
    aborted set (it then does what 58-65 do). *)
Definition super_should_handle (base : bool) (m : shell_msg) (k : kernel) : list out * bool * kernel :=
  if base then
    if decide (shell_id m ∈ k_aborted k) then
      ([abort_reply m], false, Kernel (k_ns k) (k_aborted k ∖ {[shell_id m]}))
    else ([], true, k)
  else ([], true, k).
(** should_handle, 50-67 *)
Definition should_handle (base : bool) (m : shell_msg) (k : kernel) : list out * bool * kernel :=
  match super_should_handle base m k with
  | (o, false, k') => (o, false, k')
  | (o, true, k') =>
      if decide (shell_id m ∈ k_aborted k') then                                       (* 58 *)
        (o ++ [abort_reply m], false, Kernel (k_ns k') (k_aborted k' ∖ {[shell_id m]}))  (* 60-64 *)
      else (o, true, k')
  end.

(** ipykernel's dispatch_shell: the handler runs if should_handle allows it. *)
Definition dispatch_shell (base : bool) (m : shell_msg) (k : kernel) : list out * kernel :=
  match should_handle base m k with
  | (o, false, k') => (o, k')
  | (o, true, k') =>
      let '(o2, n') := match m with
                       | Apply q => apply_request q (k_ns k')
                       | Execute id c => execute_request id c (k_ns k')
                       end in
      (o ++ o2, Kernel n' (k_aborted k'))
  end.

(** The 'msg_ids' of an abort request: missing or None, a string, a list. *)
Inductive abort_arg := ANone | AStr (s : string) | AList (l : list string).
(** abort_request, 223-239.  When msg_ids is None the loop raises TypeError: no reply is sent. *)
Definition abort_request (id : string) (a : abort_arg) (k : kernel) : list out * kernel :=
  let reply := OReply id "abort_reply" "ok" None None true false in
  match a with
  | ANone => ([OAbortQueues], k)
  | AStr s => ([reply], Kernel (k_ns k) ({[s]} ∪ k_aborted k))                          (* 226-227 *)
  | AList [] => ([OAbortQueues; reply], k)
  | AList l => ([reply], Kernel (k_ns k) (list_to_set l ∪ k_aborted k))                  (* 232-233 *)
  end.
(** clear_request, 241-247 *)
Definition clear_request (id : string) (k : kernel) : list out * kernel :=
  ([OReply id "clear_reply" "ok" None None true false], Kernel (base_ns C) (k_aborted k)).

Inductive msg := Shell (m : shell_msg) | Abort (id : string) (a : abort_arg) | Clear (id : string).
(** One message.  An abort which arrives while a request runs (ipykernel's control thread) only touches
    [aborted], which the running request does not read: it is equivalent to one arriving after. *)
Definition step (base : bool) (m : msg) (k : kernel) : list out * kernel :=
  match m with
  | Shell m => dispatch_shell base m k
  | Abort id a => abort_request id a k
  | Clear id => clear_request id k
  end.
Fixpoint run (base : bool) (h : list msg) (k : kernel) : list (list out) * kernel :=
  match h with
  | [] => ([], k)
  | m :: r => let '(o, k') := step base m k in
              let '(os, k'') := run base r k' in (o :: os, k'')
  end.
(** __init__, 37-48 *)
Definition init (n : ns) : kernel := Kernel n ∅.

End engine.
Arguments cell : clear implicits.
Arguments canned : clear implicits.
Arguments out : clear implicits.
Arguments code : clear implicits.
Arguments kernel : clear implicits.
Arguments request : clear implicits.
Arguments msg : clear implicits.
Arguments shell_msg : clear implicits.
