(** C23, C24: what is sent comes back. *)
From Coq Require Import List Arith String Bool Permutation Lia.
From Verif Require Import Prelude Serialize_Spec Serialize_Model Serialize_Proofs.
Import ListNotations.
Open Scope string_scope.

(** C23.  Whatever order sets are iterated in: if an object can be serialized (with any buffer threshold,
    and an item threshold up to the receiver's), deserializing gives the object back and leaves the
    following buffers alone. *)
Theorem C23_roundtrip : forall (set_order unpickled_order : list obj -> list obj),
  (forall l, Permutation l (set_order l)) -> (forall l, Permutation l (unpickled_order l)) ->
  forall (o : obj) (buffer_threshold item_threshold : nat) (fs extra : list frame),
  plain o -> item_threshold <= 64 ->
  serialize_object set_order o buffer_threshold item_threshold = Ok fs -> unmixed o fs ->
  exists o', deserialize_object unpickled_order (fs ++ extra) = Ok (o', extra) /\ same o o'.
Proof. intros so uo Hso Huo o bt it fs extra Hp Hit Hs Hu. exact (roundtrip so uo Hso Huo o bt it fs extra Hp Hit Hs Hu). Qed.

(** One pickle, then only data that are longer than the threshold. *)
Theorem C23_only_large_data_travel_raw : forall set_order o buffer_threshold item_threshold fs,
  serialize_object set_order o buffer_threshold item_threshold = Ok fs ->
  exists c out, fs = Pickled c :: map Raw out /\ Forall (fun b => buffer_threshold < length b) out.
Proof. exact serialize_raw. Qed.

(** Lists of data and of picklable objects can always be serialized. *)
Theorem C23_accepts : forall set_order k l buffer_threshold item_threshold,
  (forall l, Permutation l (set_order l)) -> length l < item_threshold ->
  Forall (fun o => match o with Atom _ ok => ok = true | Data _ _ => True | _ => False end) l ->
  exists fs, serialize_object set_order (Seq k l) buffer_threshold item_threshold = Ok fs.
Proof. exact serialize_seq_ok. Qed.

(** C24.  [Arg o]: an argument, [Pre o]: an argument that was serialized beforehand (PrePickled). *)
Theorem C24_apply_roundtrip : forall (set_order unpickled_order : list obj -> list obj),
  (forall l, Permutation l (set_order l)) -> (forall l, Permutation l (unpickled_order l)) ->
  forall (f : arg) (args : list arg) (kwargs : list (string * arg)) (buffer_threshold item_threshold : nat) msg,
  item_threshold <= 64 ->
  arg_ok set_order 1024 64 f -> Forall (arg_ok set_order buffer_threshold item_threshold) args ->
  Forall (fun kv => arg_ok set_order buffer_threshold item_threshold (snd kv)) kwargs ->
  pack_apply_message set_order f args kwargs buffer_threshold item_threshold = Ok msg ->
  exists f' args' kwargs', unpack_apply_message unpickled_order msg = Ok (f', args', kwargs') /\
    same (arg_obj f) f' /\ Forall2 (fun a o => same (arg_obj a) o) args args' /\
    exists s, Permutation kwargs s /\ Forall2 (fun a o => fst a = fst o /\ same (arg_obj (snd a)) (snd o)) s kwargs'.
Proof. intros so uo Hso Huo f args kw bt it msg H1 H2 H3 H4 H5. exact (apply_roundtrip so uo Hso Huo f args kw bt it msg H1 H2 H3 H4 H5). Qed.

(** Without the bound on the item threshold (Session.item_threshold is configurable, the receiver uses 64): the
    elements stay packed, and the data are left over. *)
Theorem C23_threshold_refuted : exists o fs,
  plain o /\ serialize_object (fun l => l) o 1 100 = Ok fs /\
  exists o', deserialize_object (fun l => l) fs = Ok (o', [Raw [7; 7]]) /\ ~ same o o'.
Proof.
  exists (Seq KList (repeat (Atom 0 true) 64 ++ [Data KBytes [7; 7]])). eexists. split; [|split; [vm_compute; reflexivity|]].
  - constructor. apply Forall_app. split; [|repeat constructor]. apply Forall_forall. intros x Hx. apply repeat_spec in Hx. subst; constructor.
  - eexists. split; [vm_compute; reflexivity|]. vm_compute. discriminate.
Qed.
(** Sets: two partials that each have large data can come back with the data exchanged. *)
Theorem C23_set_refuted : exists o fs,
  plain o /\ serialize_object (fun l => l) o 1 64 = Ok fs /\
  exists o', deserialize_object (@rev obj) fs = Ok (o', []) /\ ~ same o o'.
Proof.
  exists (Seq KSet [Part (Atom 1 true) [Data KBytes [1; 1]] []; Part (Atom 2 true) [Data KBytes [2; 2]] []]).
  eexists. split; [repeat constructor|split; [vm_compute; reflexivity|]].
  eexists. split; [vm_compute; reflexivity|]. intros (l' & E & P). injection E as <-.
  apply (Permutation_in (Part (Atom 1 true) [Data KBytes [1; 1]] [])) in P; [|left; reflexivity].
  destruct P as [E|[E|[]]]; discriminate.
Qed.
(** A memoryview inside a nested list cannot be sent, although one in a plain list can. *)
Theorem C23_nested_memoryview_refuted : exists o, plain (Seq KList [o]) /\
  (exists fs, serialize_object (fun l => l) o 1024 64 = Ok fs) /\ serialize_object (fun l => l) (Seq KList [o]) 1024 64 = Raise TypeError.
Proof. exists (Seq KList [Data KMemoryview [1]]). split; [repeat constructor|split; [eexists; vm_compute; reflexivity|vm_compute; reflexivity]]. Qed.

Print Assumptions C23_roundtrip.
Print Assumptions C23_only_large_data_travel_raw.
Print Assumptions C23_accepts.
Print Assumptions C24_apply_roundtrip.
Print Assumptions C23_threshold_refuted.
Print Assumptions C23_set_refuted.
Print Assumptions C23_nested_memoryview_refuted.

(** The hypotheses are met: a dict with a large array, a partial that has a large array among its keywords and
    a small memoryview, and a function with a bytes default; sent as arguments with a threshold of 2 bytes. *)
Definition ex_arr := Data (KArray 0 false) [1; 2; 3].
Definition ex_part := Part (Fun 5 [Data KBytes [9]] [] [Atom 1 true]) [Atom 3 true; Data KMemoryview [4]] [("y", Data KBytes [5; 6; 7]); ("x", ex_arr)].
Definition ex_dict := Dict [("b", ex_part); ("a", ex_arr)].
Example C23_nonvacuous : plain ex_dict /\ exists fs, serialize_object (fun l => l) ex_dict 2 64 = Ok fs /\ unmixed ex_dict fs /\
  length fs = 4 /\ deserialize_object (fun l => l) (fs ++ [Raw [0]]) = Ok (Dict [("a", ex_arr); ("b", ex_part)], [Raw [0]]).
Proof.
  split.
  - repeat (constructor; simpl; try (intros [H|H]; [discriminate H|]; try destruct H as [H|H]; try discriminate; try contradiction); try (intros [])).
  - eexists. split; [vm_compute; reflexivity|]. split; [intros l E; discriminate|]. split; [reflexivity|vm_compute; reflexivity].
Qed.
Example C24_nonvacuous : exists msg, pack_apply_message (fun l => l) (Arg (Fun 5 [] [] [])) [Arg ex_arr; Pre (Seq KTuple [ex_part])] [("k", Arg ex_dict)] 2 64 = Ok msg /\
  unpack_apply_message (fun l => l) msg = Ok (Fun 5 [] [] [], [ex_arr; Seq KTuple [ex_part]], [("k", Dict [("a", ex_arr); ("b", ex_part)])]) /\
  length msg = 9.
Proof. eexists. split; [vm_compute; reflexivity|split; vm_compute; reflexivity]. Qed.
