(** Model of ipyparallel/serialize/serialize.py and canning.py.
    Simplifications: pickle.loads (pickle.dumps x) is x for a picklable x, and raises otherwise;
    dict keys are strings; classes of __main__ (CannedClass), dependents (can_dependent), Reference and
    bare closure cells are left out; a function's globals, docstring and attributes are not modelled;
    a CannedCell is represented by its contents; numpy's frombuffer/reshape gives back the array from its
    bytes, shape and dtype; objects are values, so that the stand-ins that are changed in place by
    _extract_buffers are the new ones. *)
From Coq Require Import List Arith String Bool.
From Verif Require Import Prelude Serialize_Spec.
Import ListNotations.

(** jupyter_client/session.py: MAX_ITEMS = 64, MAX_BYTES = 1024 *)
Definition MAX_ITEMS : nat := 64.
Definition MAX_BYTES : nat := 1024.

(** Python's sorted, by key *)
Fixpoint insert_key {A} (x : string * A) (l : list (string * A)) : list (string * A) :=
  match l with
  | [] => [x]
  | y :: r => if String.leb (fst x) (fst y) then x :: y :: r else y :: insert_key x r
  end.
Definition sort_keys {A} (l : list (string * A)) : list (string * A) := fold_right insert_key [] l.

(** [isinstance(o, CannedObject)], and the attribute [buffers] *)
Definition is_canned (o : obj) : bool := match o with CData _ _ | CFun _ _ _ _ | CPart _ _ _ _ _ _ => true | _ => false end.
Definition bufs_of (o : obj) : list (option buffer) :=
  match o with CData _ b => b | CPart _ _ _ b _ _ => b | _ => [] end.
Definition set_bufs (b : list (option buffer)) (o : obj) : obj :=
  match o with CData k _ => CData k b | CPart f a k _ ac kc => CPart f a k b ac kc | _ => o end.

(** canning.py 248-265: CannedPartial.__init__, after the arguments have been canned *)
Definition consolidate (f : obj) (args : list obj) (kws : list (string * obj)) : obj :=
  let canned_kws := filter (fun kv => is_canned (snd kv)) (sort_keys kws) in
  CPart f (map (fun a => if is_canned a then set_bufs [] a else a) args)
          (map (fun kv => (fst kv, if is_canned (snd kv) then set_bufs [] (snd kv) else snd kv)) kws)
          (flat_map bufs_of args ++ flat_map (fun kv => bufs_of (snd kv)) canned_kws)     (* 256, 263 *)
          (map (fun a => if is_canned a then length (bufs_of a) else 0) args)             (* 253, 255 *)
          (map (fun kv => (fst kv, length (bufs_of (snd kv)))) canned_kws).               (* 262 *)

(** canning.py 419-437: can; 355-360 CannedBytes, 371 CannedMemoryView, 317-341 CannedArray,
    168-195 CannedFunction, 242-265 CannedPartial *)
Fixpoint can (o : obj) : obj :=
  match o with
  | Data k b => CData k [Some (B (match k with KBytes => false | KMemoryview => true | KArray _ p => negb p end) b)]
  | Fun c d kd cl => CFun c (map can d) (map (fun kv => (fst kv, can (snd kv))) kd) (map can cl)
  | Part f a k => consolidate (can f) (map can a) (map (fun kv => (fst kv, can (snd kv))) k)
  | _ => o
  end.

(** canning.py 271-286: the buffers that belong to the keyword [k] *)
Fixpoint kwbufs (k : string) (kc : list (string * nat)) (bs : list (option buffer)) : option (list (option buffer)) :=
  match kc with
  | [] => None
  | (k', n) :: r => if String.eqb k k' then Some (firstn n bs) else kwbufs k r (skipn n bs)
  end.
Definition sum (l : list nat) : nat := fold_right plus 0 l.

(** canning.py 275-280 and 288: the arguments of a partial, [g]: uncan with the given buffers *)
Section Reconstitute.
Context (g : obj -> list (option buffer) -> res obj).
Fixpoint get_args (reconstitute : bool) (l : list obj) (ac : list nat) (bs : list (option buffer)) : res (list obj) :=
  match l with
  | [] => Ok []
  | x :: r =>
      match ac with
      | S n :: ac => bind (g x (if reconstitute then firstn (S n) bs else bufs_of x))
                       (fun y => bind (get_args reconstitute r ac (skipn (S n) bs)) (fun ys => Ok (y :: ys)))
      | O :: ac => bind (g x (bufs_of x)) (fun y => bind (get_args reconstitute r ac bs) (fun ys => Ok (y :: ys)))
      | [] => bind (g x (bufs_of x)) (fun y => bind (get_args reconstitute r [] bs) (fun ys => Ok (y :: ys)))
      end
  end.
End Reconstitute.

(** canning.py 464-483: uncan of [o] when the list of its buffers is [bs]: get_object of the stand-ins
    (362-364 CannedBytes, 343-352 CannedArray, 200-235 CannedFunction, 271-290 CannedPartial) and
    486-493 uncan_dict *)
Fixpoint get (o : obj) (bs : list (option buffer)) {struct o} : res obj :=
  match o with
  | CData k _ => match bs with Some (B _ b) :: _ => Ok (Data k b) | None :: _ => Raise TypeError | [] => Raise IndexError end
  | CFun c d kd cl =>
      bind (traverse (fun x => get x (bufs_of x)) d) (fun d' =>
      bind (traverse (fun kv => bind (get (snd kv) (bufs_of (snd kv))) (fun y => Ok (fst kv, y))) kd) (fun kd' =>
      bind (traverse (fun x => get x (bufs_of x)) cl) (fun cl' => Ok (Fun c d' kd' cl'))))
  | CPart f args kws _ ac kc =>
      let reconstitute := negb (Nat.eqb (length bs) 0) in                                  (* 274 *)
      if reconstitute && negb (Nat.eqb (length bs) (sum ac + sum (map snd kc))) then Raise ValueError   (* 286: assert *)
      else
        bind (get_args get reconstitute args ac bs) (fun args' =>
        bind (traverse (fun kv =>
                bind (get (snd kv) (if reconstitute then match kwbufs (fst kv) kc (skipn (sum ac) bs) with Some b => b | None => bufs_of (snd kv) end
                                    else bufs_of (snd kv))) (fun y => Ok (fst kv, y))) kws) (fun kws' =>
        bind (get f (bufs_of f)) (fun f' => Ok (Part f' args' kws'))))
  | Dict l =>
      bind (traverse (fun kv => bind (get (snd kv) (bufs_of (snd kv))) (fun y => Ok (fst kv, y))) l) (fun l' => Ok (Dict l'))
  | _ => Ok o
  end.
Definition uncan (o : obj) : res obj := get o (bufs_of o).

(** serialize.py 52-66: _extract_buffers; what is left of the object, and the buffers taken out *)
Fixpoint extract_list (threshold : nat) (bs : list (option buffer)) : list (option buffer) * list (list nat) :=
  match bs with
  | [] => ([], [])
  | Some (B mem b) :: r =>
      let '(r', out) := extract_list threshold r in
      if Nat.ltb threshold (length b) then (None :: r', b :: out) else (Some (B false b) :: r', out)   (* 58-65 *)
  | None :: r => let '(r', out) := extract_list threshold r in (None :: r', out)   (* a None has no length: does not occur *)
  end.
Definition extract (threshold : nat) (o : obj) : obj * list (list nat) :=
  if is_canned o then let '(bs, out) := extract_list threshold (bufs_of o) in (set_bufs bs o, out) else (o, []).

(** serialize.py 69-74: _restore_buffers; [pop(0)] of an empty list raises *)
Fixpoint restore_list (bs : list (option buffer)) (raws : list frame) : res (list (option buffer) * list frame) :=
  match bs with
  | [] => Ok ([], raws)
  | Some b :: r => bind (restore_list r raws) (fun '(r', raws) => Ok (Some b :: r', raws))
  | None :: r => match raws with
                 | [] => Raise IndexError
                 | Raw b :: raws => bind (restore_list r raws) (fun '(r', raws) => Ok (Some (B true b) :: r', raws))
                 | Pickled _ :: raws => bind (restore_list r raws) (fun '(r', raws) => Ok (Some (B true []) :: r', raws))  (* the bytes of a pickle *)
                 end
  end.
Definition restore (o : obj) (raws : list frame) : res (obj * list frame) :=
  if is_canned o then bind (restore_list (bufs_of o) raws) (fun '(bs, raws) => Ok (set_bufs bs o, raws)) else Ok (o, raws).

(** What the pickle module accepts: no memoryviews, and functions only by reference. *)
Definition picklable_buf (b : option buffer) : bool := match b with Some (B true _) => false | _ => true end.
Fixpoint picklable (o : obj) : bool :=
  match o with
  | Atom _ ok => ok
  | Data k _ => match k with KMemoryview => false | _ => true end
  | Seq _ l => forallb picklable l
  | Dict l => forallb (fun kv => picklable (snd kv)) l
  | Fun _ _ _ _ => false
  | Part f a k => picklable f && forallb picklable a && forallb (fun kv => picklable (snd kv)) k
  | CData _ bs => forallb picklable_buf bs
  | CFun _ d kd cl => forallb picklable d && forallb (fun kv => picklable (snd kv)) kd && forallb picklable cl
  | CPart f a k bs _ _ => picklable f && forallb picklable a && forallb (fun kv => picklable (snd kv)) k && forallb picklable_buf bs
  end.
Definition dumps (o : obj) : res frame := if picklable o then Ok (Pickled o) else Raise TypeError.

Section Sets.
(** The order in which a set (or a set that came out of a pickle) is iterated over. *)
Context (set_order unpickled_order : list obj -> list obj).
Definition elements (k : seqkind) (l : list obj) : list obj := match k with KSet => set_order l | _ => l end.
Definition unpickled_elements (k : seqkind) (l : list obj) : list obj := match k with KSet => unpickled_order l | _ => l end.

Fixpoint extract_each (threshold : nat) (l : list obj) : list obj * list (list nat) :=
  match l with
  | [] => ([], [])
  | c :: r => let '(c', out) := extract threshold c in let '(r', outs) := extract_each threshold r in (c' :: r', out ++ outs)
  end.

(** serialize.py 77-114 (an object that is not PrePickled) *)
Definition serialize_object (o : obj) (buffer_threshold item_threshold : nat) : res (list frame) :=
  let '(cobj, buffers) :=
    match o with
    | Seq k l =>
        if Nat.ltb (length l) item_threshold then                                          (* 97 *)
          let '(l', out) := extract_each buffer_threshold (elements k (map can l)) in (Seq k l', out)
        else extract buffer_threshold (can o)
    | Dict l =>
        if Nat.ltb (length l) item_threshold then                                          (* 101 *)
          let s := sort_keys l in
          let '(l', out) := extract_each buffer_threshold (map (fun kv => can (snd kv)) s) in (Dict (combine (map fst s) l'), out)
        else extract buffer_threshold (can o)
    | _ => extract buffer_threshold (can o)                                                (* 108-110 *)
    end in
  bind (dumps cobj) (fun p => Ok (p :: map Raw buffers)).                                  (* 112 *)

Fixpoint restore_each (l : list obj) (raws : list frame) : res (list obj * list frame) :=
  match l with
  | [] => Ok ([], raws)
  | c :: r => bind (restore c raws) (fun '(c', raws) => bind (restore_each r raws) (fun '(r', raws) => Ok (c' :: r', raws)))
  end.

(** serialize.py 117-146 *)
Definition deserialize_object (buffers : list frame) : res (obj * list frame) :=
  match buffers with
  | [] => Raise IndexError                                                                 (* 130 *)
  | Raw _ :: _ => Raise ValueError                                                         (* 131: UnpicklingError *)
  | Pickled canned :: bufs =>
      match canned with
      | Seq k l =>
          if Nat.ltb (length l) MAX_ITEMS then                                             (* 132 *)
            bind (restore_each (unpickled_elements k l) bufs) (fun '(l', bufs) =>
            bind (traverse uncan l') (fun l'' => Ok (Seq k l'', bufs)))
          else bind (restore canned bufs) (fun '(c, bufs) => bind (uncan c) (fun o => Ok (o, bufs)))
      | Dict l =>
          if Nat.ltb (length l) MAX_ITEMS then                                             (* 136 *)
            let s := sort_keys l in
            bind (restore_each (map snd s) bufs) (fun '(l', bufs) =>
            bind (traverse uncan l') (fun l'' => Ok (Dict (combine (map fst s) l''), bufs)))
          else bind (restore canned bufs) (fun '(c, bufs) => bind (uncan c) (fun o => Ok (o, bufs)))
      | _ => bind (restore canned bufs) (fun '(c, bufs) => bind (uncan c) (fun o => Ok (o, bufs)))   (* 143-144 *)
      end
  end.

(** serialize.py 32-40 and 95-96: PrePickled objects *)
Inductive arg := Arg (o : obj) | Pre (o : obj).
Definition arg_obj (a : arg) : obj := match a with Arg o => o | Pre o => o end.
Definition serialize_arg (buffer_threshold item_threshold : nat) (a : arg) : res (list frame) :=
  match a with
  | Arg o => serialize_object o buffer_threshold item_threshold
  | Pre o => serialize_object o MAX_BYTES MAX_ITEMS
  end.

(** 149-186; the dict [info] (180) is pickled: here the frame [Info] *)
Record info := Info { nargs : nat; narg_bufs : nat; kw_keys : list string }.
Inductive part := Fr (f : frame) | Nfo (i : info).
Definition pack_apply_message (f : arg) (args : list arg) (kwargs : list (string * arg)) (buffer_threshold item_threshold : nat) : res (list part) :=
  bind (traverse (serialize_arg buffer_threshold item_threshold) args) (fun abufs =>
  let s := sort_keys kwargs in                                                             (* 171 *)
  bind (traverse (fun kv => serialize_arg buffer_threshold item_threshold (snd kv)) s) (fun kbufs =>
  let arg_bufs := concat abufs in
  bind (serialize_arg MAX_BYTES MAX_ITEMS f) (fun msg =>                                   (* 181 *)
  Ok (map Fr msg ++ [Nfo (Info (length args) (length arg_bufs) (map fst s))] ++ map Fr arg_bufs ++ map Fr (concat kbufs))))).

Fixpoint frames_of (l : list part) : list frame := match l with [] => [] | Fr f :: r => f :: frames_of r | Nfo _ :: r => Raw [] :: frames_of r end.
Fixpoint deserialize_n (n : nat) (bufs : list frame) : res (list obj * list frame) :=
  match n with
  | O => Ok ([], bufs)
  | S n => bind (deserialize_object bufs) (fun '(o, bufs) => bind (deserialize_n n bufs) (fun '(os, bufs) => Ok (o :: os, bufs)))
  end.
(** 189-213.  The frames used by the function come first; the next part is the info. *)
Definition unpack_apply_message (bufs : list part) : res (obj * list obj * list (string * obj)) :=
  if Nat.ltb (length bufs) 2 then Raise ValueError else                                    (* 193: assert *)
  bind (deserialize_object (frames_of bufs)) (fun '(f, rest) =>                            (* 194 *)
  match skipn (length bufs - length rest) bufs with                                        (* 195 *)
  | Nfo i :: tl =>
      let rest := frames_of tl in
      bind (deserialize_n (nargs i) (firstn (narg_bufs i) rest)) (fun '(args, over) =>
      if negb (Nat.eqb (length over) 0) then Raise ValueError else                         (* 204: assert *)
      bind (deserialize_n (length (kw_keys i)) (skipn (narg_bufs i) rest)) (fun '(kw, over) =>
      if negb (Nat.eqb (length over) 0) then Raise ValueError else                         (* 211: assert *)
      Ok (f, args, combine (kw_keys i) kw)))
  | _ => Raise ValueError
  end).
End Sets.
