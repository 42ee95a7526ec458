(** Property theorems C20, C21, C22 and C41 (in-memory task database). *)
From Coq Require Import List ZArith Ascii String Bool Lia.
From Verif Require Import Prelude PyValue DictDB_Spec DictDB_Model DictDB_Proofs DictDB_Store DictDB_History.
Import ListNotations.
Local Open Scope string_scope.

(** ** C20: what a query returns. *)
(** With the operators that work, find_records returns exactly the records that satisfy every clause,
    in the order they were stored, for every database whatever its contents. *)
Theorem C20_query_means : forall glob d q out,
  supported q -> find_records glob d q [] = Ok out -> selects (matches glob q) (map snd (recs d)) out.
Proof. exact find_sound. Qed.
Print Assumptions C20_query_means.

(** Asking for some keys gives the same records cut down to these keys and msg_id. *)
Theorem C20_keys : forall glob d q keys out,
  keys <> [] -> find_records glob d q keys = Ok out ->
  exists full, find_records glob d q [] = Ok full /\ Forall2 (part_of keys) full out.
Proof. exact find_keys. Qed.
Print Assumptions C20_keys.

(** Queries made of ==, $ne, $exists and $in/$nin with a list always return. *)
Theorem C20_total : forall glob d q,
  (forall k l o b, In (k, COps l) q -> In (o, b) l -> total_op o b) -> exists out, find_records glob d q [] = Ok out.
Proof. exact find_total. Qed.
Print Assumptions C20_total.

Definition noglob (_ _ : string) := false.
Definition rec1 : record := [("msg_id", VStr "a"); ("engine_uuid", VStr "e1"); ("submitted", VTime 5); ("completed", VTime 9); ("buffers", VList [VBytes [1; 2; 3]])].
Definition rec2 : record := [("msg_id", VStr "b"); ("engine_uuid", VStr "e2"); ("submitted", VTime 7); ("completed", VNone); ("buffers", VNone)].
Definition db12 : db := DB [("a", rec1); ("b", rec2)] [] 3.
Example C20_example : let q := [("submitted", COps [(OLt, VTime 8); (OGte, VTime 6)]); ("completed", CVal VNone)] in
  supported q /\ find_records noglob db12 q [] = Ok [rec2] /\ find_records noglob db12 q ["submitted"] = Ok [[("msg_id", VStr "b"); ("submitted", VTime 7)]].
Proof.
  split; [|split; reflexivity]. split.
  - intros k l o b [H|[H|[]]] Ho; [|discriminate]. injection H as <- <-. destruct Ho as [Ho|[Ho|[]]]; injection Ho as <- <-; split; discriminate.
  - intros k v [H|[H|[]]]; [discriminate|]. injection H as <- <-. eexists [_], _. reflexivity.
Qed.

(** $gt selects what is smaller (53); *)
Theorem C20_gt_refuted : exists d q, (forall k v, ~ In (k, CVal v) q) /\ find_records noglob d q [] = Ok [rec1] /\ ~ matches noglob q rec1.
Proof.
  exists db12, [("submitted", COps [(OGt, VTime 6)])]. split; [intros k v [H|[]]; discriminate|]. split; [reflexivity|].
  intros H. specialize (H _ _ (or_introl eq_refl) OGt (VTime 6) (or_introl eq_refl)). simpl in H. lia.
Qed.
(** $all asks whether the field is in each of the values instead of each of the values in the field (60); *)
Theorem C20_all_refuted : exists d q r, find_records noglob d q [] = Raise TypeError /\ In r (map snd (recs d)) /\ matches noglob q r.
Proof.
  pose (r := [("msg_id", VStr "a"); ("tags", VList [VInt 1; VInt 2])] : record).
  exists (DB [("a", r)] [] 0), [("tags", COps [(OAll, VList [VInt 1])])], r. split; [reflexivity|]. split; [left; reflexivity|].
  intros k c [H|[]]. injection H as <- <-. intros o b [H|[]]. injection H as <- <-. exists [VInt 1]. split; [reflexivity|].
  intros x [<-|[]]. exists (VInt 1). split; [left; reflexivity|reflexivity].
Qed.
(** and a value to be equal to is compared with the value of the last clause (161). *)
Theorem C20_equality_refuted : exists d q, find_records noglob d q [] = Ok [] /\ matches noglob q rec1 /\ In rec1 (map snd (recs d)).
Proof.
  exists db12, [("engine_uuid", CVal (VStr "e1")); ("completed", COps [(ONe, VNone)])]. split; [reflexivity|]. split; [|left; reflexivity].
  intros k c [H|[H|[]]]; injection H as <- <-; [reflexivity|]. intros o b [H|[]]. injection H as <- <-. simpl. unfold equal. simpl. discriminate.
Qed.
Print Assumptions C20_equality_refuted.

(** ** C21: the database is a map from msg_id to record. *)
(** In every history of calls, with or without eviction, what get_record returns is the latest contents. *)
Theorem C21_reads_latest : forall glob lim ops d h m r,
  Forall well_formed ops -> run glob lim ops empty [] = Some (d, h) ->
  get_record d m = Ok r -> latest glob h m (Some r).
Proof. exact get_latest. Qed.
Print Assumptions C21_reads_latest.

(** While everything fits into the limits nothing is lost either, and KeyError means: no such record. *)
Theorem C21_map : forall glob lim ops d h m,
  Forall well_formed ops -> run glob lim ops empty [] = Some (d, h) ->
  always_fits glob (size_limit lim) (record_limit lim) h ->
  (forall r, get_record d m = Ok r <-> latest glob h m (Some r)) /\ (get_record d m = Raise KeyError <-> latest glob h m None).
Proof. exact get_map. Qed.
Print Assumptions C21_map.

(** "The latest contents" are unique. *)
Theorem C21_latest_unique : forall glob h m o o', latest glob h m o -> latest glob h m o' -> o = o'.
Proof. exact latest_fun. Qed.
Print Assumptions C21_latest_unique.

(** A call that raises changes nothing; adding an id that can be read raises, and so does updating one that cannot. *)
Theorem C21_failed_calls : forall glob lim ops d h,
  Forall well_formed ops -> run glob lim ops empty [] = Some (d, h) ->
  (forall o e d', well_formed o -> perform glob lim o d = Raised e d' -> d' = d) /\
  (forall m r r0, get_record d m = Ok r0 -> perform glob lim (OpAdd m r) d = Raised KeyError d) /\
  (forall m r, get_record d m = Raise KeyError -> exists e, perform glob lim (OpUpdate m r) d = Raised e d).
Proof.
  intros glob lim ops d h HW Hr. split; [|split].
  - intros o e d' Ho H. exact (raised_same glob lim d o e d' (g_inv _ _ _ (hist_run _ _ _ _ _ HW Hr)) Ho H).
  - intros m r r0. apply add_existing; exact glob.
  - intros m r. apply update_missing; exact glob.
Qed.
Print Assumptions C21_failed_calls.

Definition lim0 : limits := Limits 100 10 1 10.
Definition ops0 : list dbop := [OpAdd "a" rec1; OpAdd "b" rec2; OpAdd "a" rec1; OpUpdate "b" [("completed", VNaive 11); ("new", VInt 1)];
                                OpDropMatching [("completed", COps [(OLt, VTime 10)])]].
Definition rec2' : record := [("msg_id", VStr "b"); ("engine_uuid", VStr "e2"); ("submitted", VTime 7); ("completed", VTime 11); ("buffers", VNone); ("new", VInt 1)].
Example C21_example : Forall well_formed ops0 /\ exists d h, run noglob lim0 ops0 empty [] = Some (d, h) /\
  get_record d "b" = Ok rec2' /\ get_record d "a" = Raise KeyError /\ List.length h = 4.
Proof.
  assert (Hs : supported [("completed", COps [(OLt, VTime 10)])]).
  { split; [|intros k v [H|[]]; discriminate]. intros k l o b [H|[]] Ho. injection H as <- <-. destruct Ho as [Ho|[]]. injection Ho as <- <-. split; discriminate. }
  assert (Hwf : Forall well_formed ops0).
  { unfold ops0. repeat (apply Forall_cons; [|]); [| | | |exact Hs|apply Forall_nil].
    1-3: (split; [repeat constructor; simpl; intuition congruence|]). 4: (split; [repeat constructor; simpl; intuition congruence|]).
    1-3: (simpl; split; [reflexivity|auto 6]). simpl. intros v H. discriminate. }
  split; [exact Hwf|]. eexists _, _. split; [reflexivity|]. split; [reflexivity|]. split; reflexivity.
Qed.

(** ** C22: the limits. *)
(** The byte counter is always the total size of the buffers of the records that are stored. *)
Theorem C22_counter : forall glob lim ops d h,
  Forall well_formed ops -> run glob lim ops empty [] = Some (d, h) ->
  exists all, find_records glob d [] [] = Ok all /\ bytes d = fold_right (fun r n => (record_bytes r + n)%Z) 0%Z all.
Proof. exact counter. Qed.
Print Assumptions C22_counter.

Theorem C22_size_limit : forall glob lim ops d h,
  Forall well_formed ops -> run glob lim ops empty [] = Some (d, h) -> (0 <= size_limit lim)%Z ->
  exists all, find_records glob d [] [] = Ok all /\ (fold_right (fun r n => (record_bytes r + n)%Z) 0%Z all <= size_limit lim)%Z.
Proof.
  intros glob lim ops d h HW Hr H0. destruct (counter _ _ _ _ _ HW Hr) as (all & E & Hb). exists all. split; [exact E|]. rewrite <- Hb.
  eapply size_bound; eauto.
Qed.
Print Assumptions C22_size_limit.

(** The number of records is bounded if every record has a submission time and
    cull_fraction * record_limit >= 1. *)
Theorem C22_record_limit : forall glob lim ops d h,
  Forall well_formed ops -> Forall dated_op ops -> run glob lim ops empty [] = Some (d, h) ->
  (Pos.to_nat (cull_den lim) <= cull_num lim * record_limit lim)%nat ->
  exists all, find_records glob d [] [] = Ok all /\ (List.length all <= record_limit lim)%nat.
Proof.
  intros glob lim ops d h HW HD Hr H1. exists (map snd (recs d)). split; [apply find_all|]. rewrite map_length.
  eapply record_bound; eauto. unfold to_cull. apply Nat.div_le_lower_bound; lia.
Qed.
Print Assumptions C22_record_limit.

(** Then also every call returns. *)
Theorem C22_always_returns : forall glob lim ops,
  Forall well_formed ops -> Forall dated_op ops -> (0 <= size_limit lim)%Z -> (cull_num lim <= Pos.to_nat (cull_den lim))%nat ->
  run glob lim ops empty [] <> None.
Proof. exact never_hangs. Qed.
Print Assumptions C22_always_returns.

(** Only the oldest records are evicted: a record that becomes unreadable through a call that is not
    about it was submitted no later than any record that is still readable. *)
Theorem C22_evicts_oldest : forall glob lim ops d h o m0 r0 d' m r,
  Forall well_formed ops -> run glob lim ops empty [] = Some (d, h) ->
  well_formed o -> o = OpAdd m0 r0 \/ o = OpUpdate m0 r0 -> perform glob lim o d = Done d' ->
  m <> m0 -> get_record d m = Ok r -> get_record d' m = Raise KeyError ->
  exists t, submitted_at r = Some t /\ forall m' r' t', get_record d' m' = Ok r' -> submitted_at r' = Some t' -> (t <= t')%Z.
Proof. exact evicts_oldest. Qed.
Print Assumptions C22_evicts_oldest.

Definition simple (m : string) (t : Z) (n : nat) : record := [("msg_id", VStr m); ("submitted", VTime t); ("buffers", VList [VBytes (repeat 0 n)])].
Example C22_example : let ops := [OpAdd "a" (simple "a" 5 40); OpAdd "b" (simple "b" 3 40); OpAdd "c" (simple "c" 4 30)] in
  Forall well_formed ops /\ Forall dated_op ops /\
  exists d h, run noglob (Limits 100 10 1 10) ops empty [] = Some (d, h) /\
  get_record d "b" = Raise KeyError /\ get_record d "a" = Ok (simple "a" 5 40) /\ get_record d "c" = Ok (simple "c" 4 30) /\ bytes d = 70%Z.
Proof.
  cbv zeta. split; [|split].
  - repeat (apply Forall_cons; [split; [repeat constructor; simpl; intuition congruence|split; [reflexivity|simpl; auto]]|]). apply Forall_nil.
  - repeat (apply Forall_cons; [simpl; eexists; split; [reflexivity|exact I]|]). apply Forall_nil.
  - eexists _, _. split; [reflexivity|]. repeat split; reflexivity.
Qed.

(** For a small record_limit the number of records is not bounded at all: with record_limit = 5 and the
    default cull_fraction nothing is ever evicted (200: int(0.1 * 5) = 0). *)
Definition name (n : nat) : string := string_of_list_ascii (repeat "a"%char n).
Definition many (n : nat) : list dbop := map (fun i => OpAdd (name i) (simple (name i) (Z.of_nat i) 0)) (seq 1 n).
Theorem C22_small_limit_refuted : exists ops d h, Forall well_formed ops /\ Forall dated_op ops /\
  run noglob (Limits 1000 5 1 10) ops empty [] = Some (d, h) /\ List.length (recs d) = 20.
Proof.
  exists (many 20). destruct (run noglob (Limits 1000 5 1 10) (many 20) empty []) as [[d h]|] eqn:E; [|vm_compute in E; discriminate].
  exists d, h. split; [|split; [|split; [reflexivity|]]].
  - unfold many. apply Forall_forall. intros o Ho. apply in_map_iff in Ho as (i & <- & _). simpl. split; [|split; [reflexivity|auto]].
    repeat constructor; simpl; intuition congruence.
  - unfold many. apply Forall_forall. intros o Ho. apply in_map_iff in Ho as (i & <- & _). simpl. eexists. split; [reflexivity|exact I].
  - vm_compute in E. injection E as <- <-. reflexivity.
Qed.
(** And a record without a submission time whose buffers exceed size_limit makes add_record loop forever. *)
Theorem C22_hang_refuted : exists r d1, well_formed (OpAdd "a" r) /\
  add_record (Limits 2 10 1 10) "a" r empty = Hang /\ recs d1 = [("a", r)] /\ forall rounds, cull_size (Limits 2 10 1 10) rounds d1 = Hang.
Proof.
  pose (r := [("msg_id", VStr "a"); ("submitted", VNone); ("buffers", VList [VBytes [1; 2; 3]])] : record).
  exists r, (DB [("a", r)] [] 3). split; [|split; [reflexivity|split; [reflexivity|]]].
  - split; [repeat constructor; simpl; intuition congruence|split; [reflexivity|simpl; auto]].
  - apply cull_size_hangs; [|reflexivity|].
    + split; simpl; [repeat constructor; simpl; tauto| |reflexivity]. intros m x [H|[]]. injection H as <- <-.
      split; [reflexivity|]. split; [repeat constructor; simpl; intuition congruence|left; reflexivity].
    + simpl. intros m x. destruct (String.eqb m "a"); [|discriminate]. intros H. injection H as <-. reflexivity.
Qed.

(** ** C41: get_history *)
Theorem C41_history : forall glob lim ops d h,
  Forall well_formed ops -> run glob lim ops empty [] = Some (d, h) ->
  exists ids, get_history d = Ok ids /\ NoDup ids /\
    (forall m, In m ids <-> exists r t, dget m (recs d) = Some r /\ submitted_at r = Some t) /\
    (forall a m b m' c r r' t t', ids = (a ++ m :: b ++ m' :: c)%list -> dget m (recs d) = Some r -> dget m' (recs d) = Some r' ->
       submitted_at r = Some t -> submitted_at r' = Some t' -> (t <= t')%Z).
Proof. exact history_list. Qed.
Print Assumptions C41_history.
Example C41_example : exists d h, run noglob lim0 [OpAdd "a" (simple "a" 5 1); OpAdd "b" (simple "b" 3 1)] empty [] = Some (d, h) /\ get_history d = Ok ["b"; "a"].
Proof. eexists _, _. split; reflexivity. Qed.
