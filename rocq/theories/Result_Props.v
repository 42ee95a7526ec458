(** Property theorems C39: Client.result_status. *)
From stdpp Require Import base gmap list sorting.
From Verif Require Import Result_Model Result_Spec Result_Proofs.

Section proofs.
Context {V F : Type} (deser : list F -> option (V * list F)).
Implicit Types (hub : nat -> state V F) (results : gmap nat (outcome V)).

Definition cached results (m : nat) : bool := bool_decide (is_Some (results !! m)).

Lemma parts results ids : NoDup ids ->
  let a := asked (cached results) ids in let c := from_cache (cached results) ids in
  answer_locally (cached results) ids = (c, a) /\ a ++ c ≡ₚ ids /\ NoDup a /\
  (forall m, m ∈ ids <-> m ∈ a \/ m ∈ c) /\ (forall m, m ∈ a -> m ∉ c) /\ (forall m, m ∈ c -> is_Some (results !! m)).
Proof.
  intros Hnd. cbv zeta. set (a := asked _ ids). set (c := from_cache _ ids).
  assert (P : a ++ c ≡ₚ ids) by (apply (split_perm _ (length ids)); reflexivity).
  pose proof Hnd as Hnd2. rewrite <- P in Hnd2. apply NoDup_app in Hnd2. destruct Hnd2 as (A & B & C).
  split; [apply answer_locally_spec, Hnd |]. split; [exact P |]. split; [exact A |]. split; [| split; [exact B |]].
  - intros m. rewrite <- P. apply elem_of_app.
  - intros m Hm. assert (E : cached results m = true) by (apply (from_cache_local _ (length ids) ids (Nat.le_refl _)); exact Hm).
    apply bool_decide_eq_true in E. exact E.
Qed.

Lemma hub_reply_known hub a so : NoDup a -> (forall m, m ∈ a -> hub m <> Unknown) ->
  (match a with [] => Ok (Reply [] [] [] []) | _ => get_results hub a so end) =
  Ok (Reply (List.filter (is_pending hub) (sorted_set a)) (List.filter (is_done hub) (sorted_set a))
    (if so then [] else concat (map (recs hub) (sorted_set a))) (if so then [] else concat (map (bufs hub) (sorted_set a)))).
Proof.
  intros Hnd Hk.
  assert (G : get_results hub a so = Ok (Reply (List.filter (is_pending hub) (sorted_set a)) (List.filter (is_done hub) (sorted_set a))
    (if so then [] else concat (map (recs hub) (sorted_set a))) (if so then [] else concat (map (bufs hub) (sorted_set a))))).
  { unfold get_results. rewrite collect_known; [reflexivity |]. intros m Hm. apply Hk. rewrite (sorted_set_perm a Hnd) in Hm. exact Hm. }
  destruct a; [destruct so; reflexivity | exact G].
Qed.

Lemma elem_filter (f : nat -> bool) l m : m ∈ List.filter f l <-> m ∈ l /\ f m = true.
Proof. rewrite !elem_of_list_In, List.filter_In. reflexivity. Qed.

Lemma elem_concat {A} (x : A) L : x ∈ concat L <-> exists l, x ∈ l /\ l ∈ L.
Proof.
  rewrite elem_of_list_In, in_concat. split; intros (l & H1 & H2); exists l; rewrite ?elem_of_list_In in *; auto;
    rewrite <- ?elem_of_list_In; auto.
Qed.
Lemma filter_both hub l : (forall m, m ∈ l -> hub m <> Unknown) -> List.filter (is_pending hub) l ++ List.filter (is_done hub) l ≡ₚ l.
Proof.
  induction l as [| x l IH]; intros Hk; [reflexivity |]. cbn [List.filter].
  assert (IH' := IH (fun m Hm => Hk m (elem_of_list_further _ _ _ Hm))).
  unfold is_pending at 1, is_done at 1. destruct (hub x) as [| r b |] eqn:E.
  - cbn [app]. rewrite IH'. reflexivity.
  - rewrite <- Permutation_middle, IH'. reflexivity.
  - destruct (Hk x (elem_of_list_here _ _) E).
Qed.
End proofs.

(** With status_only, for ids without repetition which the Hub knows, the answer names each id exactly
    once: as pending only if it is pending in the Hub, as completed only if its result is in the
    client's cache or in the Hub; nothing changes. *)
Theorem C39_status : forall (V F : Type) (deser : list F -> option (V * list F)) hub results ids, NoDup ids ->
  (forall m, m ∈ ids -> hub m <> Unknown) ->
  exists p c, result_status deser hub results ids true = (Content p c ∅, results) /\ p ++ c ≡ₚ ids /\
    (forall m, m ∈ p -> hub m = Pending) /\
    (forall m, m ∈ c -> is_Some (results !! m) \/ exists r b, hub m = Done r b).
Proof.
  intros V F deser hub results ids Hnd Hk. destruct (parts results ids Hnd) as (E & P & Ha & Hin & Hd & Hc).
  unfold result_status. fold (cached results). rewrite E.
  set (a := asked _ ids) in *. set (c := from_cache _ ids) in *.
  rewrite hub_reply_known; [| exact Ha | intros m Hm; apply Hk, Hin; auto]. cbn [completed pending].
  exists (List.filter (is_pending hub) (sorted_set a)), (List.filter (is_done hub) (sorted_set a) ++ c).
  split; [reflexivity |]. split; [| split].
  - rewrite app_assoc, filter_both, sorted_set_perm; [exact P | exact Ha |].
    intros m Hm. rewrite (sorted_set_perm a Ha) in Hm. apply Hk, Hin. auto.
  - intros m Hm. apply elem_filter in Hm. destruct Hm as [_ Hm]. unfold is_pending in Hm. destruct (hub m); congruence.
  - intros m Hm. apply elem_of_app in Hm. destruct Hm as [Hm | Hm]; [| left; apply Hc, Hm]. right.
    apply elem_filter in Hm. destruct Hm as [_ Hm]. unfold is_done in Hm. destruct (hub m); [discriminate | eauto | discriminate].
Qed.
Print Assumptions C39_status.

(** With the results: if the Hub's results can be read and the cache agrees with them, every id is named
    once, with its own result; the cache then holds every result asked for.  If a result is an error it
    may be raised instead - only then. *)
Theorem C39_results : forall (V F : Type) (deser : list F -> option (V * list F)) hub results ids truth, NoDup ids ->
  (forall m, m ∈ ids -> hub m = Pending \/ stored deser hub m (truth m)) ->
  (forall m o, m ∈ ids -> results !! m = Some o -> o = truth m /\ stored deser hub m o) ->
  let a := fst (result_status deser hub results ids false) in
  let results' := snd (result_status deser hub results ids false) in
  match a with
  | Content p c values =>
      p ++ c ≡ₚ ids /\ (forall m, m ∈ p <-> m ∈ ids /\ hub m = Pending) /\
      (forall m, values !! m = if decide (m ∈ c) then Some (truth m) else None)
  | Raised errors => errors <> [] /\ forall e, e ∈ errors -> exists m, m ∈ ids /\ stored deser hub m (Error e)
  | HubError _ | Crash => False
  end /\
  (forall m, m ∉ ids -> results' !! m = results !! m) /\
  (forall m, m ∈ ids -> hub m = Pending -> results' !! m = None) /\
  (forall m, m ∈ ids -> hub m <> Pending -> results' !! m = Some (truth m)) /\
  ((forall m e, m ∈ ids -> ~ stored deser hub m (Error e)) -> exists p c values, a = Content p c values).
Proof.
  intros V F deser hub results ids truth Hnd Hh Hcache.
  destruct (parts results ids Hnd) as (E & P & Ha & Hin & Hd & Hc). cbv zeta.
  unfold result_status. fold (cached results). rewrite E.
  set (a := asked _ ids) in *. set (c := from_cache _ ids) in *.
  assert (HkI : forall m, m ∈ ids -> hub m <> Unknown).
  { intros m Hm X. destruct (Hh m Hm) as [Y | Y]; [congruence |]. unfold stored in Y. rewrite X in Y. exact Y. }
  assert (HkA : forall m, m ∈ a -> hub m <> Unknown) by (intros m Hm; apply HkI, Hin; auto).
  rewrite hub_reply_known; [| exact Ha | exact HkA]. cbn [completed pending entries buffers].
  set (ss := sorted_set a). assert (Hss : ss ≡ₚ a) by (apply sorted_set_perm, Ha).
  assert (Hnss : NoDup ss) by (rewrite Hss; exact Ha).
  set (compl := List.filter (is_done hub) ss ++ c).
  set (base := list_to_map (map (fun e => (fst e, Rec (snd e))) (concat (map (recs hub) ss))) : gmap nat (@entry V)).
  set (content := fold_left _ c base).
  rewrite (sorted_same a Ha). fold ss.
  (* the entries *)
  assert (Hrecs : forall m r b, m ∈ ss -> hub m = Done r b -> base !! m = Some (Rec r)).
  { intros m r b Hm Hr. unfold base. apply elem_of_list_to_map_1.
    - assert (X : forall l, (map (fun e => (fst e, Rec (snd e))) (concat (map (recs hub) l))).*1 = List.filter (is_done hub) l).
      { induction l as [| x l IH]; [reflexivity |]. cbn [map concat List.filter]. unfold recs at 1, is_done at 1.
        destruct (hub x); cbn [app map]; rewrite ?fmap_cons, IH; reflexivity. }
      rewrite X. apply NoDup_ListNoDup. apply List.NoDup_filter. apply NoDup_ListNoDup. exact Hnss.
    - apply elem_of_list_fmap. exists (m, r). split; [reflexivity |]. apply elem_concat.
      exists (recs hub m). split; [unfold recs; rewrite Hr; left |]. apply elem_of_list_fmap. eauto. }
  assert (Hfold : forall l (b : gmap nat (@entry V)) m, (forall x, x ∈ l -> is_Some (results !! x)) ->
    fold_left (fun c m => match results !! m with Some o => <[m := Res o]> c | None => c end) l b !! m =
    if decide (m ∈ l) then option_map Res (results !! m) else b !! m).
  { induction l as [| x l IH]; intros b m Hl; cbn [fold_left].
    - rewrite decide_False by (intros X; inversion X). reflexivity.
    - destruct (Hl x (elem_of_list_here _ _)) as [o Ho]. rewrite Ho, IH by (intros y Hy; apply Hl; right; exact Hy).
      destruct (decide (m ∈ l)) as [Y | N].
      + rewrite decide_True by (right; exact Y). reflexivity.
      + destruct (decide (m = x)) as [-> | Hne].
        * rewrite lookup_insert, decide_True by left. rewrite Ho. reflexivity.
        * rewrite lookup_insert_ne by congruence. rewrite decide_False; [reflexivity |]. rewrite elem_of_cons. tauto. }
  destruct (load_spec deser hub truth compl [] ss content results []) as (c' & r' & EL & C & R).
  - exact Hnss.
  - intros m Hm. unfold compl. rewrite elem_of_app, elem_filter. split; [| tauto]. intros [[_ X] | X]; [exact X |].
    exfalso. apply (Hd m); [rewrite <- Hss; exact Hm | exact X].
  - intros m r b Hm Hr. split.
    + unfold content. rewrite Hfold by exact Hc. rewrite decide_False; [apply (Hrecs m r b); assumption |].
      apply Hd. rewrite <- Hss. exact Hm.
    + destruct (Hh m) as [X | X]; [apply Hin; left; rewrite <- Hss; exact Hm | congruence | exact X].
  - intros m Hm. apply HkA. rewrite <- Hss. exact Hm.
  - rewrite app_nil_r in EL. rewrite EL. cbn [app].
    assert (Hdone : forall m, m ∈ ids -> is_done hub m = true <-> hub m <> Pending).
    { intros m Hm. unfold is_done. pose proof (HkI m Hm). destruct (hub m); [split; congruence | split; congruence | contradiction]. }
    assert (Hcd : forall m, m ∈ c -> is_done hub m = true /\ results !! m = Some (truth m)).
    { intros m Hm. destruct (Hc m Hm) as [o Ho]. destruct (Hcache m o) as [-> S]; [apply Hin; auto | exact Ho |].
      split; [| exact Ho]. unfold is_done. unfold stored in S. destruct (hub m); [destruct S | reflexivity | destruct S]. }
    assert (RES : (forall m, m ∉ ids -> r' !! m = results !! m) /\
      (forall m, m ∈ ids -> hub m = Pending -> r' !! m = None) /\
      (forall m, m ∈ ids -> hub m <> Pending -> r' !! m = Some (truth m))).
    { split; [| split]; intros m Hm; [| intros Y | intros N]; rewrite R.
      - rewrite decide_False; [reflexivity |]. intros [X _]. apply Hm, Hin. left. rewrite <- Hss. exact X.
      - rewrite decide_False by (intros [_ X]; apply Hdone in X; [congruence | exact Hm]).
        destruct (results !! m) as [o |] eqn:Eo; [| reflexivity]. destruct (Hcache m o Hm Eo) as [_ S].
        unfold stored in S. rewrite Y in S. destruct S.
      - destruct (decide (m ∈ ss /\ is_done hub m = true)) as [_ | N2]; [reflexivity |].
        apply Hin in Hm. destruct Hm as [Hm | Hm]; [| apply Hcd, Hm]. exfalso. apply N2.
        split; [rewrite Hss; exact Hm | apply Hdone; [apply Hin; auto | exact N]]. }
    assert (ERR : forall e, e ∈ concat (map (errs hub) ss) -> exists m, m ∈ ids /\ stored deser hub m (Error e)).
    { intros e He. apply elem_concat in He. destruct He as (l & He & Hl). apply elem_of_list_fmap in Hl.
      destruct Hl as (m & -> & Hm). exists m. assert (Hmi : m ∈ ids) by (apply Hin; left; rewrite <- Hss; exact Hm).
      split; [exact Hmi |]. unfold errs in He. destruct (Hh m Hmi) as [X | X]; [rewrite X in He; inversion He |].
      unfold stored in *. destruct (hub m) as [| [| v | e' |] b |]; try (inversion He; fail).
      apply elem_of_list_singleton in He. subst. tauto. }
    destruct (concat (map (errs hub) ss)) as [| e0 es] eqn:EE.
    + cbn [fst snd]. split; [| split; [apply RES | split; [apply RES | split; [apply RES | eauto]]]].
      split; [| split].
      * unfold compl. rewrite app_assoc, filter_both; [rewrite Hss; exact P |]. intros m Hm. apply HkA. rewrite <- Hss. exact Hm.
      * intros m. rewrite elem_filter. unfold is_pending. split.
        -- intros [Hm X]. split; [apply Hin; left; rewrite <- Hss; exact Hm |]. destruct (hub m); congruence.
        -- intros [Hm X]. rewrite X. split; [| reflexivity]. apply Hin in Hm. destruct Hm as [Hm | Hm]; [rewrite Hss; exact Hm |].
           destruct (Hcd m Hm) as [Y _]. unfold is_done in Y. rewrite X in Y. discriminate.
      * intros m. unfold values_of. rewrite lookup_omap, C.
        destruct (decide (m ∈ ss /\ is_done hub m = true)) as [Y | N].
        -- cbn. rewrite decide_True; [reflexivity |]. unfold compl. rewrite elem_of_app, elem_filter. auto.
        -- unfold content. rewrite Hfold by exact Hc. destruct (decide (m ∈ c)) as [Y | N2].
           ++ destruct (Hcd m Y) as [_ ->]. cbn. rewrite decide_True; [reflexivity |]. unfold compl. apply elem_of_app. auto.
           ++ rewrite (decide_False (P := m ∈ compl)) by (unfold compl; rewrite elem_of_app, elem_filter; tauto).
              destruct (base !! m) as [x |] eqn:Eb; [| reflexivity]. unfold base in Eb.
              apply elem_of_list_to_map_2 in Eb. apply elem_of_list_fmap in Eb. destruct Eb as ((m' & r) & [= <- ->] & _). reflexivity.
    + cbn [fst snd]. split; [| split; [apply RES | split; [apply RES | split; [apply RES |]]]].
      * split; [discriminate | exact ERR].
      * intros X. destruct (ERR e0 (elem_of_list_here _ _)) as (m & Hm & S). destruct (X m e0 Hm S).
Qed.
Print Assumptions C39_results.

(** Which ids the Hub is asked about: every id without a cached result, and the ids right after an id
    answered from the cache; the answer does not depend on what the Hub has for the others. *)
Theorem C39_asked : forall (V F : Type) (deser : list F -> option (V * list F)) hub hub' results ids status_only, NoDup ids ->
  (forall m, m ∈ asked (fun m => bool_decide (is_Some (results !! m))) ids -> hub m = hub' m) ->
  result_status deser hub results ids status_only = result_status deser hub' results ids status_only.
Proof.
  intros V F deser hub hub' results ids so Hnd H. unfold result_status. rewrite answer_locally_spec by exact Hnd.
  set (a := asked _ ids) in *.
  assert (Hna : NoDup a).
  { destruct (parts results ids Hnd) as (_ & _ & X & _). exact X. }
  assert (G : forall l r, (forall m, m ∈ l -> hub m = hub' m) -> collect hub so l r = collect hub' so l r).
  { induction l as [| m l IH]; intros r Hl; [reflexivity |]. cbn [collect]. rewrite (Hl m) by left.
    destruct (hub' m); [apply IH | apply IH | reflexivity]; intros x Hx; apply Hl; right; exact Hx. }
  assert (E : get_results hub a so = get_results hub' a so).
  { unfold get_results. apply G. intros m Hm. apply H. rewrite (sorted_set_perm a Hna) in Hm. exact Hm. }
  destruct a; [reflexivity |]. rewrite E. reflexivity.
Qed.
Print Assumptions C39_asked.

Theorem C39_one_cached : forall (V F : Type) (deser : list F -> option (V * list F)) hub results m o,
  results !! m = Some o ->
  result_status deser hub results [m] false = (Content [] [m] {[m := o]}, results).
Proof.
  intros V F deser hub results m o E. unfold result_status. rewrite answer_locally_spec by (apply NoDup_singleton).
  cbn [asked from_cache]. rewrite bool_decide_eq_true_2 by eauto. cbn. rewrite E. unfold values_of. f_equal. f_equal.
  apply map_eq. intros i. rewrite lookup_omap. change (∅ : gmap nat (@entry V)) with (∅ : gmap nat (@entry V)).
  destruct (decide (i = m)) as [-> | Hne].
  - rewrite lookup_insert, lookup_singleton. reflexivity.
  - rewrite lookup_insert_ne, lookup_empty, lookup_singleton_ne by congruence. reflexivity.
Qed.
Print Assumptions C39_one_cached.

(** ** Example *)
Definition read (b : list nat) : option (nat * list nat) := match b with [] => None | x :: r => Some (x, r) end.
Definition hub0 (m : nat) : state nat nat :=
  match m with 1 => Done Applied [70] | 2 => Pending | 3 => Done (Executed 5) [] | 4 => Done Applied [80] | 6 => Done (Failed 9) [] | _ => Unknown end.
Example C39_example :
  NoDup [4; 2; 1; 3] /\ (forall m, m ∈ [4; 2; 1; 3] -> hub0 m = Pending \/ stored read hub0 m (match m with 1 => Value 70 | 4 => Value 80 | _ => Value 5 end)) /\
  match result_status read hub0 {[3 := Value 5]} [4; 2; 1; 3] false with
  | (Content p c v, r) => p = [2] /\ c = [1; 4; 3] /\ v !! 1 = Some (Value 70) /\ v !! 4 = Some (Value 80) /\ v !! 3 = Some (Value 5)
  | _ => False
  end /\
  fst (result_status read hub0 ∅ [6; 1] false) = Raised [9] /\
  match result_status read hub0 (snd (result_status read hub0 ∅ [6; 1] false)) [6] false with
  | (Content [] [6] v, _) => v !! 6 = Some (Error 9)
  | _ => False
  end.
Proof.
  split; [apply (bool_decide_unpack _); vm_compute; exact I |]. split; [| vm_compute; auto 10].
  intros m Hm. repeat (apply elem_of_cons in Hm; destruct Hm as [-> | Hm];
    [first [left; reflexivity | right; cbn; eauto; fail | right; cbn; eexists; split; [reflexivity | intros; reflexivity]] |]).
  inversion Hm.
Qed.

(** ** Refuted *)
(** "It only asks the Hub for results that are not local": of two cached results one is asked for, and if
    the Hub does not have it (any more), the call fails. *)
Theorem C39_cache_refuted : exists (hub : nat -> state nat nat) results ids, NoDup ids /\
  (forall m, m ∈ ids -> is_Some (results !! m)) /\ fst (result_status read hub results ids false) = HubError 2.
Proof.
  exists (fun _ => Unknown), (<[1 := Value 1]> {[2 := Value 2]}), [1; 2].
  split; [apply (bool_decide_unpack _); vm_compute; exact I |]. split; [| vm_compute; reflexivity].
  intros m Hm. repeat (apply elem_of_cons in Hm; destruct Hm as [-> | Hm]; [vm_compute; eauto |]). inversion Hm.
Qed.
Print Assumptions C39_cache_refuted.

(** An id given twice is reported twice, or makes the call fail. *)
Theorem C39_twice_refuted : exists (hub : nat -> state nat nat) results results' ids,
  fst (result_status read hub results ids true) = Content [] [1; 1] ∅ /\
  fst (result_status read hub results' ids false) = Crash.
Proof. exists hub0, {[1 := Value 70]}, ∅, [1; 1]. vm_compute. auto. Qed.
Print Assumptions C39_twice_refuted.

(** An aborted task whose result comes from the Hub makes the call fail, whatever else was asked. *)
Theorem C39_aborted_refuted : exists (hub : nat -> state nat nat) ids, NoDup ids /\
  fst (result_status read hub ∅ ids true) = Content [] ids ∅ /\ fst (result_status read hub ∅ ids false) = Crash.
Proof.
  exists (fun _ => Done WasAborted []), [1; 2]. split; [apply (bool_decide_unpack _); vm_compute; exact I |].
  vm_compute. auto.
Qed.
Print Assumptions C39_aborted_refuted.

(** Errors are raised only the first time: the second time the same call returns them. *)
Theorem C39_raise_refuted : exists (hub : nat -> state nat nat) ids e v,
  fst (result_status read hub ∅ ids false) = Raised [e] /\
  fst (result_status read hub (snd (result_status read hub ∅ ids false)) ids false) = Content [] ids v.
Proof.
  exists hub0, [6], 9, {[6 := Error 9]}. split; [vm_compute; reflexivity |].
  rewrite (C39_one_cached nat nat read hub0 _ 6 (Error 9)); [reflexivity |]. vm_compute. reflexivity.
Qed.
Print Assumptions C39_raise_refuted.
