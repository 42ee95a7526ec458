(** The database as a map with a bounded size. *)
From Coq Require Import List ZArith String Bool Lia Permutation Sorting.Sorted.
From Verif Require Import Prelude PyValue DictDB_Spec DictDB_Model DictDB_Proofs.
Import ListNotations.
Local Open Scope string_scope.

Definition total (l : dict record) : Z := fold_right (fun mr n => (record_bytes (snd mr) + n)%Z) 0%Z l.
Definition rec_ok (m : string) (r : record) : Prop :=
  dget "msg_id" r = Some (VStr m) /\ NoDup (dkeys r) /\
  (dget "submitted" r = Some VNone \/ exists t, dget "submitted" r = Some (VTime t)).
Record Inv (d : db) : Prop := mkInv {
  i_nodup : NoDup (dkeys (recs d));
  i_recs : forall m r, In (m, r) (recs d) -> rec_ok m r;
  i_bytes : bytes d = total (recs d) }.

Lemma rec_bytes_eq r : rec_bytes r = record_bytes r.
Proof. reflexivity. Qed.

Lemma total_ddel m r l : dget m l = Some r -> total (ddel m l) = (total l - record_bytes r)%Z.
Proof.
  induction l as [|[m' r'] l IH]; simpl; [discriminate|]. destruct (String.eqb m m'); intros H.
  - injection H as ->. lia.
  - simpl. rewrite IH by exact H. lia.
Qed.
Lemma total_dset m r l : total (dset m r l) = (total l + record_bytes r - match dget m l with Some o => record_bytes o | None => 0 end)%Z.
Proof.
  induction l as [|[m' r'] l IH]; simpl; [lia|]. destruct (String.eqb m m'); simpl; [lia|]. rewrite IH. lia.
Qed.
Lemma length_ddel m r (l : dict record) : dget m l = Some r -> List.length l = S (List.length (ddel m l)).
Proof. induction l as [|[m' r'] l IH]; simpl; [discriminate|]. destruct (String.eqb m m'); intros H; [reflexivity|]. simpl. rewrite (IH H). reflexivity. Qed.
Lemma length_dset m r (l : dict record) : List.length (dset m r l) = match dget m l with Some _ => List.length l | None => S (List.length l) end.
Proof. induction l as [|[m' r'] l IH]; simpl; [reflexivity|]. destruct (String.eqb m m'); simpl; [reflexivity|]. rewrite IH. destruct (dget m l); reflexivity. Qed.

Lemma in_dset m r x v (l : dict record) : In (x, v) (dset m r l) -> (x = m /\ v = r) \/ In (x, v) l.
Proof.
  induction l as [|[m' r'] l IH]; simpl; [intuition congruence|]. destruct (String.eqb_spec m m') as [->|]; simpl.
  - intros [H|H]; [injection H as <- <-; auto|auto].
  - intros [H|H]; [auto|]. destruct (IH H); auto.
Qed.

Lemma blen_nonneg v : (0 <= buffer_bytes v)%Z.
Proof. destruct v; simpl; try lia. induction l as [|b l IH]; simpl; lia. Qed.
Lemma record_bytes_nonneg r : (0 <= record_bytes r)%Z.
Proof. unfold record_bytes. pose proof (blen_nonneg (field r "buffers")). pose proof (blen_nonneg (field r "result_buffers")). lia. Qed.
Lemma total_nonneg l : (0 <= total l)%Z.
Proof. induction l as [|[m r] l IH]; simpl; [lia|]. pose proof (record_bytes_nonneg r). lia. Qed.

(** * Sorting *)
Definition le2 (x y : string * Z) : Prop := (snd x <= snd y)%Z.
Lemma insert_perm x l : Permutation (insert_by x l) (x :: l).
Proof. induction l as [|y l IH]; simpl; [reflexivity|]. destruct (Z.ltb _ _); [|reflexivity]. rewrite IH. apply perm_swap. Qed.
Lemma sort_perm l : Permutation (sort_by l) l.
Proof. unfold sort_by. induction l as [|x l IH]; simpl; [reflexivity|]. rewrite insert_perm, IH. reflexivity. Qed.
Lemma insert_sorted x l : StronglySorted le2 l -> StronglySorted le2 (insert_by x l).
Proof.
  induction l as [|y l IH]; simpl; intros H; [constructor; [constructor|constructor]|].
  inversion H as [|a b Hs Hf]; subst. destruct (Z.ltb_spec (snd y) (snd x)) as [Hlt|Hge].
  - constructor; [auto|]. apply Forall_forall. intros z Hz. apply (Permutation_in _ (insert_perm x l)) in Hz as [<-|Hz].
    + unfold le2. lia.
    + rewrite Forall_forall in Hf. auto.
  - constructor; [exact H|]. constructor; [exact Hge|]. rewrite Forall_forall in *. intros z Hz. specialize (Hf z Hz). unfold le2 in *. lia.
Qed.
Lemma sort_sorted l : StronglySorted le2 (sort_by l).
Proof. unfold sort_by. induction l as [|x l IH]; simpl; [constructor|]. apply insert_sorted, IH. Qed.
Lemma sorted_split n l x y : StronglySorted le2 l -> In x (firstn n l) -> In y (skipn n l) -> le2 x y.
Proof.
  revert n. induction l as [|z l IH]; intros n H; [destruct n; simpl; tauto|]. inversion H as [|a b Hs Hf]; subst.
  destruct n as [|n]; simpl; [tauto|]. intros [<-|Hx] Hy.
  - rewrite Forall_forall in Hf. apply Hf. rewrite <- (firstn_skipn n l). apply in_or_app. auto.
  - eapply IH; eauto.
Qed.

Lemma dated_spec l : (forall m r, In (m, r) l -> rec_ok m r) -> exists h, dated l = Ok h /\
  (forall m t, In (m, t) h <-> exists r, In (m, r) l /\ submitted_at r = Some t) /\ (NoDup (dkeys l) -> NoDup (map fst h)).
Proof.
  induction l as [|[m r] l IH]; intros Hok.
  - exists []. split; [reflexivity|]. split; [|intros _; constructor]. intros m t. split; [intros []|intros (r & [] & _)].
  - destruct IH as (h & E & Hh & Hnd); [intros m' r' Hin; apply Hok; right; exact Hin|].
    destruct (Hok m r (or_introl eq_refl)) as (_ & _ & [Hs|[t Hs]]); simpl; rewrite Hs.
    + exists h. split; [exact E|]. split.
      * intros m' t. rewrite Hh. split; intros (r' & H & H'); [exists r'; auto|]. destruct H as [H|H]; [|exists r'; auto].
        injection H as <- <-. unfold submitted_at, field in H'. rewrite Hs in H'. discriminate.
      * intros H. inversion H; auto.
    + rewrite E. simpl. eexists; split; [reflexivity|]. split.
      * intros m' t'. simpl. rewrite Hh. split.
        -- intros [H|(r' & H & H')]; [injection H as <- <-; exists r; split; [auto|]|exists r'; auto].
           unfold submitted_at, field. rewrite Hs. reflexivity.
        -- intros (r' & [H|H] & H'); [|right; exists r'; auto]. injection H as <- <-. left.
           unfold submitted_at, field in H'. rewrite Hs in H'. congruence.
      * intros H. inversion H as [|a b Hn Hd]; subst. constructor; [|auto]. intros Hin. apply in_map_iff in Hin as ([m' t'] & Em & Hin). simpl in Em. subst m'.
        apply Hh in Hin as (r' & Hin & _). apply Hn. apply (in_map fst) in Hin. exact Hin.
Qed.

Lemma history_spec d : Inv d -> exists h, get_history d = Ok (map fst h) /\ StronglySorted le2 h /\ NoDup (map fst h) /\
  (forall m t, In (m, t) h <-> exists r, dget m (recs d) = Some r /\ submitted_at r = Some t).
Proof.
  intros [N R B]. destruct (dated_spec (recs d) R) as (h & E & Hh & Hnd). exists (sort_by h). unfold get_history. rewrite E. simpl.
  split; [reflexivity|]. split; [apply sort_sorted|]. split.
  - eapply Permutation_NoDup; [apply Permutation_map; symmetry; apply sort_perm|auto].
  - intros m t. split.
    + intros H. apply (Permutation_in _ (sort_perm h)) in H. apply Hh in H as (r & H & H'). exists r. split; [apply in_dget; assumption|exact H'].
    + intros (r & H & H'). apply (Permutation_in _ (Permutation_sym (sort_perm h))). apply Hh. exists r. split; [apply dget_in; exact H|exact H'].
Qed.

Lemma nodup_app_l {A} (l l' : list A) : NoDup (l ++ l')%list -> NoDup l.
Proof.
  induction l as [|x l IH]; simpl; intros H; [constructor|]. inversion H as [|a b Hn Hd]; subst. constructor; [|auto].
  intros Hin. apply Hn, in_or_app. auto.
Qed.

(** * Evicting *)
Record culls (d d' : db) : Prop := mkCulls {
  u_inv : Inv d -> Inv d';
  u_ids : forall m, In m (culled d) -> In m (culled d');
  u_keep : forall m r, dget m (recs d') = Some r -> dget m (recs d) = Some r;
  u_gone : forall m r, dget m (recs d) = Some r -> dget m (recs d') = None -> In m (culled d');
  u_new : forall m, In m (culled d') -> In m (culled d) \/ dget m (recs d') = None;
  u_dated : forall m r, dget m (recs d) = Some r -> dget m (recs d') = None -> exists t, submitted_at r = Some t;
  u_len : (List.length (recs d') <= List.length (recs d))%nat;
  u_oldest : forall m r m' r', dget m (recs d) = Some r -> dget m (recs d') = None -> dget m' (recs d') = Some r' ->
     exists t, submitted_at r = Some t /\ forall t', submitted_at r' = Some t' -> (t <= t')%Z }.

Lemma culls_refl d : culls d d.
Proof. split; auto; intros; congruence. Qed.
Lemma culls_trans d1 d2 d3 : culls d1 d2 -> culls d2 d3 -> culls d1 d3.
Proof.
  intros A B. split.
  - intros H. apply (u_inv _ _ B), (u_inv _ _ A), H.
  - intros m H. apply (u_ids _ _ B), (u_ids _ _ A), H.
  - intros m r H. apply (u_keep _ _ A), (u_keep _ _ B), H.
  - intros m r H1 H3. destruct (dget m (recs d2)) eqn:E; [eapply (u_gone _ _ B); eauto|].
    apply (u_ids _ _ B). eapply (u_gone _ _ A); eauto.
  - intros m H. destruct (u_new _ _ B m H) as [H2|H2]; [|auto]. destruct (u_new _ _ A m H2) as [H1|H1]; [auto|]. right.
    destruct (dget m (recs d3)) eqn:E; [|reflexivity]. rewrite (u_keep _ _ B m r E) in H1. discriminate.
  - intros m r H1 H3. destruct (dget m (recs d2)) as [r2|] eqn:E.
    + pose proof (u_keep _ _ A m r2 E). assert (r2 = r) as -> by congruence. eapply (u_dated _ _ B); eauto.
    + eapply (u_dated _ _ A); eauto.
  - pose proof (u_len _ _ A). pose proof (u_len _ _ B). lia.
  - intros m r m' r' H1 H3 H3'. destruct (dget m (recs d2)) as [r2|] eqn:E.
    + pose proof (u_keep _ _ A m r2 E). assert (r2 = r) as -> by congruence. eapply (u_oldest _ _ B); eauto.
    + eapply (u_oldest _ _ A); eauto. apply (u_keep _ _ B). exact H3'.
Qed.

Lemma cull_ids_spec ms : forall d, NoDup (dkeys (recs d)) -> NoDup ms -> (forall m, In m ms -> dget m (recs d) <> None) ->
  exists d', cull_ids ms d = Done d' /\ culled d' = (rev ms ++ culled d)%list /\
    (forall m, dget m (recs d') = if existsb (String.eqb m) ms then None else dget m (recs d)) /\
    (List.length (recs d) = List.length ms + List.length (recs d'))%nat /\
    (Inv d -> Inv d').
Proof.
  induction ms as [|m ms IH]; simpl; intros d Hk Hnd Hin; [exists d; auto|].
  inversion Hnd as [|a b Hn Hd]; subst.
  destruct (dget m (recs d)) as [r|] eqn:E; [|exfalso; apply (Hin m); [auto|exact E]].
  unfold drop_record; simpl. rewrite E. simpl.
  set (d1 := DB (ddel m (recs d)) (m :: culled d) (bytes d - rec_bytes r)).
  destruct (IH d1) as (d' & E' & C' & G' & L' & I'); simpl.
  { apply nodup_ddel, Hk. }
  { exact Hd. }
  { intros m' Hm'. rewrite dget_ddel by exact Hk. destruct (String.eqb_spec m' m) as [->|]; [contradiction|]. apply Hin. auto. }
  exists d'. split; [exact E'|]. split; [rewrite C'; simpl; rewrite <- app_assoc; reflexivity|]. split; [|split].
  - intros m'. rewrite G'. simpl. rewrite dget_ddel by exact Hk. destruct (String.eqb m' m); simpl; [|reflexivity].
    destruct (existsb _ ms); reflexivity.
  - simpl in L'. rewrite (length_ddel _ _ _ E), L'. lia.
  - intros [N R B]. apply I'. split; simpl; [apply nodup_ddel, N| |rewrite (total_ddel _ _ _ E), B; reflexivity].
    intros x v Hx. apply R. eapply in_ddel; exact Hx.
Qed.

Lemma cull_oldest_spec n d : Inv d -> exists d', cull_oldest n d = Done d' /\ culls d d' /\
  ((forall m r, dget m (recs d) = Some r -> submitted_at r <> None) -> List.length (recs d') = (List.length (recs d) - n)%nat).
Proof.
  intros HI. destruct (history_spec d HI) as (h & E & Hs & Hnd & Hh). unfold cull_oldest. rewrite E.
  assert (Hpre : forall m, In m (firstn n (map fst h)) -> exists r t, dget m (recs d) = Some r /\ submitted_at r = Some t /\ In (m, t) (firstn n h)).
  { intros m Hm. rewrite firstn_map in Hm. apply in_map_iff in Hm as ([m' t] & Em & Hm). simpl in Em. subst m'.
    assert (Hin : In (m, t) h) by (rewrite <- (firstn_skipn n h); apply in_or_app; auto).
    apply Hh in Hin as (r & H1 & H2). exists r, t. auto. }
  destruct (cull_ids_spec (firstn n (map fst h)) d) as (d' & E' & C' & G' & L' & I').
  { apply HI. }
  { rewrite <- (firstn_skipn n (map fst h)) in Hnd. apply nodup_app_l in Hnd. exact Hnd. }
  { intros m Hm. destruct (Hpre m Hm) as (r & t & H & _). congruence. }
  exists d'. split; [exact E'|]. split; [split|].
  - exact I'.
  - intros m Hm. rewrite C'. apply in_or_app. auto.
  - intros m r. rewrite G'. destruct (existsb _ _); [discriminate|auto].
  - intros m r H. rewrite G'. destruct (existsb _ _) eqn:Ee; [|congruence]. intros _. rewrite C'. apply in_or_app. left.
    apply in_rev. rewrite rev_involutive. apply existsb_eqb, Ee.
  - intros m. rewrite C', in_app_iff, <- in_rev. intros [H|H]; [|auto]. right. rewrite G'. apply existsb_eqb in H. rewrite H. reflexivity.
  - intros m r H. rewrite G'. destruct (existsb _ _) eqn:Ee; [|congruence]. intros _. apply existsb_eqb in Ee.
    destruct (Hpre m Ee) as (r0 & t & H0 & H1 & _). assert (r0 = r) as -> by congruence. eauto.
  - rewrite L'. lia.
  - intros m r m' r' H. rewrite !G'. destruct (existsb (String.eqb m) _) eqn:Ee; [|congruence]. intros _.
    destruct (existsb (String.eqb m') _) eqn:Ee'; [discriminate|]. intros H'.
    apply existsb_eqb in Ee. destruct (Hpre m Ee) as (r0 & t & H0 & H1 & H2). assert (r0 = r) as -> by congruence.
    exists t. split; [exact H1|]. intros t' Ht'.
    assert (Hin : In (m', t') h) by (apply Hh; exists r'; auto).
    rewrite <- (firstn_skipn n h) in Hin. apply in_app_or in Hin as [Hin|Hin].
    + exfalso. apply (in_map fst) in Hin. simpl in Hin. rewrite <- firstn_map in Hin. apply existsb_eqb in Hin. congruence.
    + apply (sorted_split n h (m, t) (m', t') Hs H2 Hin).
  - intros Hall. rewrite firstn_length, map_length in L'.
    assert (Hlen : List.length h = List.length (recs d)).
    { transitivity (List.length (map fst h)); [symmetry; apply map_length|].
      transitivity (List.length (dkeys (recs d))); [|apply map_length].
      apply Nat.le_antisymm; apply NoDup_incl_length; [exact Hnd| |apply HI|].
      - intros m Hm. apply in_map_iff in Hm as ([m' t] & Em & Hm). simpl in Em. subst m'. apply Hh in Hm as (r & Hm & _). apply dget_keys. congruence.
      - intros m Hm. apply dget_keys in Hm. destruct (dget m (recs d)) as [r|] eqn:Er; [|contradiction].
        specialize (Hall m r Er). destruct (submitted_at r) as [t|] eqn:Et; [|contradiction].
        apply in_map_iff. exists (m, t). split; [reflexivity|]. apply Hh. exists r. auto. }
    rewrite Hlen in L'. lia.
Qed.

Section Limits.
Context (lim : limits).

Lemma cull_size_spec : forall rounds d, Inv d ->
  (exists d', cull_size lim rounds d = Done d' /\ culls d d' /\ over lim d' = false) \/ cull_size lim rounds d = Hang.
Proof.
  induction rounds as [|n IH]; intros d HI; simpl; (destruct (over lim d) eqn:Eo; [|left; exists d; split; [reflexivity|]; split; [apply culls_refl|exact Eo]]); [right; reflexivity|].
  destruct (cull_oldest_spec 1 d HI) as (d1 & E & C & _). rewrite E. simpl.
  destruct (IH d1 (u_inv _ _ C HI)) as [(d' & E' & C' & O')|E']; [left|right; exact E'].
  exists d'. split; [exact E'|]. split; [eapply culls_trans; eassumption|exact O'].
Qed.

Definition all_dated (d : db) : Prop := forall m r, dget m (recs d) = Some r -> submitted_at r <> None.
Lemma culls_dated d d' : culls d d' -> all_dated d -> all_dated d'.
Proof. intros C H m r Hr. apply (H m). apply (u_keep _ _ C). exact Hr. Qed.

(** With submission times the loop ends. *)
Lemma cull_size_ends : (0 <= size_limit lim)%Z -> (cull_num lim <= Pos.to_nat (cull_den lim))%nat ->
  forall rounds d, Inv d -> all_dated d -> (List.length (recs d) <= rounds)%nat -> cull_size lim rounds d <> Hang.
Proof.
  intros H0 Hf. induction rounds as [|n IH]; intros d HI Hd Hl; simpl; destruct (over lim d) eqn:Eo; try discriminate.
  - exfalso. destruct (recs d) as [|x l] eqn:Er; [|simpl in Hl; lia]. unfold over in Eo. apply Z.ltb_lt in Eo.
    rewrite (i_bytes _ HI), Er in Eo. change (total []) with 0%Z in Eo. rewrite Z.mul_0_l in Eo.
    assert (0 <= size_limit lim * (Zpos (cull_den lim) - Z.of_nat (cull_num lim)))%Z; [apply Z.mul_nonneg_nonneg; lia|lia].
  - destruct (cull_oldest_spec 1 d HI) as (d1 & E & C & L). rewrite E. simpl. apply IH.
    + apply (u_inv _ _ C HI).
    + eapply culls_dated; eauto.
    + rewrite (L Hd). lia.
Qed.

(** Without, it never does, however many rounds it makes. *)
Lemma cull_size_hangs d : Inv d -> over lim d = true -> (forall m r, dget m (recs d) = Some r -> submitted_at r = None) ->
  forall rounds, cull_size lim rounds d = Hang.
Proof.
  intros HI Ho Hu. induction rounds as [|n IH]; simpl; rewrite Ho; [reflexivity|].
  destruct (history_spec d HI) as (h & E & _ & _ & Hh). unfold cull_oldest. rewrite E.
  destruct h as [|[m t] h]; [simpl; exact IH|].
  exfalso. destruct (proj1 (Hh m t) (or_introl eq_refl)) as (r & H1 & H2). rewrite (Hu m r H1) in H2. discriminate.
Qed.

Lemma over_false d : over lim d = false -> (0 <= size_limit lim)%Z -> (bytes d <= size_limit lim)%Z.
Proof. unfold over. rewrite Z.ltb_ge. intros H H0.
  assert (bytes d * Zpos (cull_den lim) <= size_limit lim * Zpos (cull_den lim))%Z; [|nia].
  etransitivity; [exact H|]. apply Z.mul_le_mono_nonneg_l; lia. Qed.

Lemma maybe_cull_spec d : Inv d ->
  (exists d', maybe_cull lim d = Done d' /\ culls d d' /\ ((0 <= size_limit lim)%Z -> (bytes d' <= size_limit lim)%Z) /\
     (all_dated d -> (record_limit lim < List.length (recs d))%nat -> (List.length (recs d') <= List.length (recs d) - to_cull lim)%nat) /\
     ((List.length (recs d) <= record_limit lim)%nat -> (bytes d <= size_limit lim)%Z -> d' = d)) \/
  (maybe_cull lim d = Hang /\ ~ (all_dated d /\ (0 <= size_limit lim)%Z /\ (cull_num lim <= Pos.to_nat (cull_den lim))%nat)).
Proof.
  intros HI. unfold maybe_cull.
  assert (H1 : exists d1, (if (record_limit lim <? List.length (recs d))%nat then cull_oldest (to_cull lim) d else Done d) = Done d1 /\ culls d d1 /\
     (all_dated d -> (record_limit lim < List.length (recs d))%nat -> (List.length (recs d1) <= List.length (recs d) - to_cull lim)%nat) /\
     ((List.length (recs d) <= record_limit lim)%nat -> d1 = d)).
  { destruct (Nat.ltb_spec (record_limit lim) (List.length (recs d))).
    - destruct (cull_oldest_spec (to_cull lim) d HI) as (d1 & E & C & L). exists d1. split; [exact E|]. split; [exact C|]. split; [|lia].
      intros Hd _. rewrite (L Hd). lia.
    - exists d. split; [reflexivity|]. split; [apply culls_refl|]. split; [lia|auto]. }
  destruct H1 as (d1 & -> & C1 & L1 & S1). simpl. pose proof (u_inv _ _ C1 HI) as HI1.
  destruct (Z.ltb_spec (size_limit lim) (bytes d1)).
  - destruct (cull_size_spec (S (List.length (recs d1))) d1 HI1) as [(d' & E & C & O)|E].
    + left. exists d'. split; [exact E|]. split; [eapply culls_trans; eassumption|]. split; [intros H0; apply over_false; assumption|]. split.
      * intros Hd Hl. specialize (L1 Hd Hl). pose proof (u_len _ _ C). lia.
      * intros Hl Hb. rewrite (S1 Hl) in *. lia.
    + right. split; [exact E|]. intros (Hd & H0 & Hf). revert E. apply cull_size_ends; auto. eapply culls_dated; eassumption.
  - left. exists d1. split; [reflexivity|]. split; [exact C1|]. split; [lia|]. split; [exact L1|]. intros Hl _. apply S1, Hl.
Qed.
End Limits.

(** * Operations *)
Lemma check_date_spec k r r' : NoDup (dkeys r) -> check_date k r = Ok r' ->
  r' = map (fun kv => (fst kv, if String.eqb (fst kv) k then aware (snd kv) else snd kv)) r /\
  (dget k r' = None \/ dget k r' = Some VNone \/ exists t, dget k r' = Some (VTime t)).
Proof.
  intros Hnd. unfold check_date.
  assert (Hid : (forall v, dget k r = Some v -> aware v = v) -> r = map (fun kv => (fst kv, if String.eqb (fst kv) k then aware (snd kv) else snd kv)) r).
  { intros H. rewrite <- (map_id r) at 1. apply map_ext_in. intros [k' v'] Hin. simpl. f_equal.
    destruct (String.eqb_spec k' k) as [->|]; [|reflexivity]. symmetry. apply H. apply in_dget; assumption. }
  destruct (dget k r) as [v|] eqn:E.
  - destruct v; intros H; try discriminate; injection H as <-.
    + split; [apply Hid; intros v Hv; injection Hv as <-; reflexivity|rewrite E; auto].
    + split; [apply Hid; intros v Hv; injection Hv as <-; reflexivity|rewrite E; eauto].
    + split; [|rewrite dget_dset, String.eqb_refl; eauto]. clear Hid.
      induction r as [|[k' v'] r IH]; simpl in *; [discriminate|]. inversion Hnd as [|a b Hn Hd]; subst.
      rewrite (String.eqb_sym k k') in *. destruct (String.eqb_spec k' k) as [->|].
      * injection E as ->. simpl. f_equal. rewrite <- (map_id r) at 1. apply map_ext_in. intros [k2 v2] Hin. simpl.
        destruct (String.eqb_spec k2 k) as [->|]; [|reflexivity]. exfalso. apply Hn. apply (in_map fst) in Hin. exact Hin.
      * f_equal. auto.
  - intros H. injection H as <-. split; [apply Hid; discriminate|rewrite E; auto].
Qed.

Lemma nodup_map_keys (f : string -> value -> value) (r : record) : NoDup (dkeys r) -> NoDup (dkeys (map (fun kv => (fst kv, f (fst kv) (snd kv))) r)).
Proof. unfold dkeys. rewrite map_map. auto. Qed.
Lemma dget_map (f : string -> value -> value) (r : record) k : dget k (map (fun kv => (fst kv, f (fst kv) (snd kv))) r) = option_map (f k) (dget k r).
Proof. induction r as [|[k' v] r IH]; simpl; [reflexivity|]. destruct (String.eqb_spec k k') as [->|]; [reflexivity|exact IH]. Qed.

Lemma check_dates_spec r r' : NoDup (dkeys r) -> check_dates r = Ok r' -> r' = stored r /\ NoDup (dkeys r') /\
  (dget "submitted" r' = None \/ dget "submitted" r' = Some VNone \/ exists t, dget "submitted" r' = Some (VTime t)).
Proof.
  intros Hnd H. unfold check_dates in H.
  destruct (check_date "submitted" r) as [r1|] eqn:E1; simpl in H; [|discriminate].
  destruct (check_date "started" r1) as [r2|] eqn:E2; simpl in H; [|discriminate].
  destruct (check_date "completed" r2) as [r3|] eqn:E3; simpl in H; [|discriminate].
  destruct (check_date_spec _ _ _ Hnd E1) as [-> Hs].
  pose proof (nodup_map_keys (fun k v => if String.eqb k "submitted" then aware v else v) r Hnd) as N1.
  destruct (check_date_spec _ _ _ N1 E2) as [-> _].
  pose proof (nodup_map_keys (fun k v => if String.eqb k "started" then aware v else v) _ N1) as N2.
  destruct (check_date_spec _ _ _ N2 E3) as [-> _].
  pose proof (nodup_map_keys (fun k v => if String.eqb k "completed" then aware v else v) _ N2) as N3.
  destruct (check_date_spec _ _ _ N3 H) as [-> _].
  pose proof (nodup_map_keys (fun k v => if String.eqb k "received" then aware v else v) _ N3) as N4.
  split; [|split; [exact N4|]].
  - rewrite !map_map. unfold stored. apply map_ext. intros [k v]. simpl. f_equal.
    repeat (match goal with |- context [String.eqb k ?s] => destruct (String.eqb_spec k s) as [->|]; simpl; try reflexivity end);
    destruct v; reflexivity.
  - rewrite !(dget_map (fun k v => if String.eqb k _ then aware v else v)). simpl.
    rewrite (dget_map (fun k v => if String.eqb k "submitted" then aware v else v)) in Hs. simpl in Hs.
    destruct (dget "submitted" r) as [v|]; simpl in *; auto.
Qed.

Lemma stored_keys r : dkeys (stored r) = dkeys r.
Proof. unfold dkeys, stored. rewrite map_map. reflexivity. Qed.
Lemma stored_msg_id r : dget "msg_id" (stored r) = dget "msg_id" r.
Proof.
  unfold stored. rewrite (dget_map (fun k v => if existsb (String.eqb k) date_keys then aware v else v)). simpl.
  destruct (dget "msg_id" r); reflexivity.
Qed.

Section Ops.
Context (glob : string -> string -> bool) (lim : limits).

(** What a call that returns does, before anything is evicted. *)
Definition effect (o : dbop) (d d1 : db) : Prop :=
  culled d1 = culled d /\
  match o with
  | OpAdd m r => dget m (recs d) = None /\ recs d1 = dset m (stored r) (recs d)
  | OpUpdate m r => ~ In m (culled d) /\ exists old, dget m (recs d) = Some old /\ recs d1 = dset m (dupdate old (stored r)) (recs d)
  | OpDrop m => exists r, dget m (recs d) = Some r /\ recs d1 = ddel m (recs d)
  | OpDropMatching q => forall m, (forall r, dget m (recs d) = Some r ->
        (matches glob q r /\ dget m (recs d1) = None) \/ (~ matches glob q r /\ dget m (recs d1) = Some r)) /\
        (dget m (recs d) = None -> dget m (recs d1) = None)
  end.

Lemma match_recs_sub q tests l out : supported q -> make_tests glob (last_value q) q = Ok tests -> match_recs tests l = Ok out ->
  NoDup (dkeys l) -> exists sub, out = map snd sub /\ NoDup (dkeys sub) /\ (forall m r, In (m, r) sub <-> In (m, r) l /\ matches glob q r).
Proof.
  intros Hs Ht. revert out. induction l as [|[m rec] l IH]; simpl; intros out H Hnd.
  - injection H as <-. exists []. split; [reflexivity|]. split; [constructor|]. simpl. tauto.
  - destruct (match_one rec tests) as [b|] eqn:Eb; simpl in H; [|discriminate].
    destruct (match_recs tests l) as [r|] eqn:Er; simpl in H; [|discriminate]. injection H as <-.
    pose proof (match_one_sound glob q (last_value q) (proj1 Hs) (fun k v => supported_last q k v Hs) tests rec b Ht Eb) as Hb.
    inversion Hnd as [|a c Hn Hd]; subst. destruct (IH r eq_refl Hd) as (sub & -> & N & Hsub).
    destruct b.
    + exists ((m, rec) :: sub). split; [reflexivity|]. split.
      * simpl. constructor; [|exact N]. intros Hin. apply in_map_iff in Hin as ([m' r'] & Em & Hin). simpl in Em. subst m'.
        apply Hsub in Hin as [Hin _]. apply Hn. apply (in_map fst) in Hin. exact Hin.
      * intros m' r'. simpl. rewrite Hsub. split.
        -- intros [E|[H H']]; [injection E as <- <-; split; [auto|apply Hb; reflexivity]|auto].
        -- intros [[E|H] H']; auto.
    + exists sub. split; [reflexivity|]. split; [exact N|]. intros m' r'. rewrite Hsub. split.
      * intros [H H']. auto.
      * intros [[E|H] H']; [|auto]. injection E as <- <-. apply Hb in H'. discriminate.
Qed.

Lemma drop_all_spec sub : forall d, Inv d -> NoDup (dkeys sub) -> (forall m r, In (m, r) sub -> dget m (recs d) = Some r) ->
  exists d', drop_all (map snd sub) d = Done d' /\ Inv d' /\ culled d' = culled d /\
    (forall m, dget m (recs d') = if existsb (String.eqb m) (dkeys sub) then None else dget m (recs d)) /\
    (List.length (recs d') <= List.length (recs d))%nat.
Proof.
  induction sub as [|[m r] sub IH]; simpl; intros d HI Hnd Hin; [exists d; auto|].
  inversion Hnd as [|a c Hn Hd]; subst. pose proof (Hin m r (or_introl eq_refl)) as Hm.
  destruct (i_recs _ HI m r (dget_in _ _ _ Hm)) as (Hid & _). rewrite Hid. rewrite Hm.
  set (d1 := DB (ddel m (recs d)) (culled d) (bytes d - rec_bytes r)).
  assert (HI1 : Inv d1).
  { destruct HI as [N R B]. split; simpl; [apply nodup_ddel, N| |rewrite (total_ddel _ _ _ Hm), B; reflexivity].
    intros x v Hx. apply R. eapply in_ddel; exact Hx. }
  destruct (IH d1 HI1 Hd) as (d' & E & I' & C' & G' & L').
  { intros m' r' H. simpl. rewrite dget_ddel by apply HI. destruct (String.eqb_spec m' m) as [->|]; [|apply Hin; auto].
    exfalso. apply Hn. apply (in_map fst) in H. exact H. }
  exists d'. split; [exact E|]. split; [exact I'|]. split; [exact C'|]. split.
  - intros m'. rewrite G'. simpl. rewrite dget_ddel by apply HI. destruct (String.eqb m' m); simpl; [destruct (existsb _ _); reflexivity|reflexivity].
  - simpl in L'. rewrite (length_ddel _ _ _ Hm). lia.
Qed.

Lemma two_maybe_culls d1 : Inv d1 ->
  forall o, o = maybe_cull lim d1 \/ o = andthen (maybe_cull lim d1) (maybe_cull lim) ->
  (exists d', o = Done d' /\ culls d1 d' /\ ((0 <= size_limit lim)%Z -> (bytes d' <= size_limit lim)%Z) /\
     (all_dated d1 -> (record_limit lim < List.length (recs d1))%nat -> (List.length (recs d') <= List.length (recs d1) - to_cull lim)%nat) /\
     ((List.length (recs d1) <= record_limit lim)%nat -> (bytes d1 <= size_limit lim)%Z -> d' = d1)) \/
  (o = Hang /\ ~ (all_dated d1 /\ (0 <= size_limit lim)%Z /\ (cull_num lim <= Pos.to_nat (cull_den lim))%nat)).
Proof.
  intros HI o Ho. destruct (maybe_cull_spec lim d1 HI) as [(d2 & E & C & B & L & S)|[E N]].
  2: { right. split; [|exact N]. destruct Ho as [->| ->]; rewrite E; reflexivity. }
  destruct Ho as [->| ->]; [left; exists d2; auto|]. rewrite E. simpl.
  destruct (maybe_cull_spec lim d2 (u_inv _ _ C HI)) as [(d3 & E3 & C3 & B3 & L3 & S3)|[E3 N3]].
  - left. exists d3. split; [exact E3|]. split; [eapply culls_trans; eassumption|]. split; [exact B3|]. split.
    + intros Hd Hl. specialize (L Hd Hl). pose proof (u_len _ _ C3). lia.
    + intros Hl Hb. assert (d2 = d1) as -> by auto. auto.
  - right. split; [exact E3|]. intros (Hd & H). apply N3. split; [eapply culls_dated; eassumption|exact H].
Qed.

(** One call: it returns, having had its effect and then possibly evicted old records; or it raises
    and changes nothing; or it hangs. *)
Lemma perform_spec o d : Inv d -> well_formed o ->
  (exists d1 d', perform glob lim o d = Done d' /\ effect o d d1 /\ Inv d1 /\ culls d1 d' /\
     ((0 <= size_limit lim)%Z -> (bytes d <= size_limit lim)%Z -> (bytes d' <= size_limit lim)%Z) /\
     (all_dated d1 -> (record_limit lim < List.length (recs d1))%nat -> (List.length (recs d1) <= List.length (recs d))%nat \/ (List.length (recs d') <= List.length (recs d1) - to_cull lim)%nat) /\
     (List.length (recs d1) <= S (List.length (recs d)))%nat /\
     ((List.length (recs d1) <= record_limit lim)%nat -> (total (recs d1) <= size_limit lim)%Z -> d' = d1)) \/
  (exists e, perform glob lim o d = Raised e d) \/
  (perform glob lim o d = Hang /\ exists d1, effect o d d1 /\
     ~ (all_dated d1 /\ (0 <= size_limit lim)%Z /\ (cull_num lim <= Pos.to_nat (cull_den lim))%nat)).
Proof.
  intros HI Hwf. destruct o as [m r|m r|m|q]; simpl.
  - destruct Hwf as (Hnd & Hid & Hsub). unfold add_record. destruct (dget m (recs d)) eqn:Em; [right; left; eauto|].
    destruct (check_dates r) as [r'|e] eqn:Er; [|right; left; eauto].
    destruct (check_dates_spec r r' Hnd Er) as (-> & N' & Hs').
    unfold add_bytes. simpl. set (d1 := DB (dset m (stored r) (recs d)) (culled d) (bytes d + rec_bytes (stored r))).
    assert (HI1 : Inv d1).
    { destruct HI as [N R B]. split; simpl.
      - apply dkeys_dset, N.
      - intros x v Hx. apply in_dset in Hx as [[-> ->]|Hx]; [|auto]. split; [rewrite stored_msg_id; exact Hid|]. split; [exact N'|].
        destruct Hs' as [Hs'|Hs']; [|exact Hs']. exfalso. apply dget_none in Hs'. rewrite stored_keys in Hs'. contradiction.
      - rewrite total_dset, Em, B. rewrite rec_bytes_eq. lia. }
    assert (He : effect (OpAdd m r) d d1) by (split; [reflexivity|split; [exact Em|reflexivity]]).
    assert (Hlen : List.length (recs d1) = S (List.length (recs d))) by (simpl; rewrite length_dset, Em; reflexivity).
    destruct (two_maybe_culls d1 HI1 _ (or_intror eq_refl)) as [(d' & E & C & B & L & S)|[E N]].
    + left. exists d1, d'. split; [exact E|]. split; [exact He|]. split; [exact HI1|]. split; [exact C|]. split; [intros H0 _; auto|]. split; [auto|]. split; [lia|].
      intros Hl Hb. apply S; [exact Hl|]. rewrite (i_bytes _ HI1). exact Hb.
    + right. right. split; [exact E|]. exists d1. split; assumption.
  - destruct Hwf as (Hnd & Hid). unfold update_record. destruct (existsb _ _) eqn:Ec; [right; left; eauto|].
    destruct (check_dates r) as [r'|e] eqn:Er; [|right; left; eauto].
    destruct (check_dates_spec r r' Hnd Er) as (-> & N' & Hs').
    destruct (dget m (recs d)) as [old|] eqn:Em; [|right; left; eauto].
    unfold add_bytes. simpl. set (new := dupdate old (stored r)).
    set (d1 := DB (dset m new (recs d)) (culled d) (bytes d - rec_bytes old + rec_bytes new)).
    assert (HI1 : Inv d1).
    { destruct HI as [N R B]. split; simpl.
      - apply dkeys_dset, N.
      - intros x v Hx. apply in_dset in Hx as [[-> ->]|Hx]; [|auto]. destruct (R m old (dget_in _ _ _ Em)) as (O1 & O2 & O3).
        split; [|split; [apply nodup_dupdate; exact O2|]].
        + unfold new. rewrite dget_dupdate by exact N'. rewrite stored_msg_id. destruct (dget "msg_id" r) as [w|] eqn:Ew; [|exact O1].
          rewrite (Hid w eq_refl). reflexivity.
        + unfold new. rewrite dget_dupdate by exact N'. destruct Hs' as [Hs'|[Hs'|[t Hs']]]; rewrite Hs'; [exact O3|auto|eauto].
      - rewrite total_dset, Em, B, (rec_bytes_eq old), (rec_bytes_eq new). lia. }
    assert (He : effect (OpUpdate m r) d d1).
    { split; [reflexivity|]. split; [intros H; apply existsb_eqb in H; congruence|]. exists old. auto. }
    assert (Hlen : List.length (recs d1) = List.length (recs d)) by (simpl; rewrite length_dset, Em; reflexivity).
    destruct (two_maybe_culls d1 HI1 _ (or_introl eq_refl)) as [(d' & E & C & B & L & S)|[E N]].
    + left. exists d1, d'. split; [exact E|]. split; [exact He|]. split; [exact HI1|]. split; [exact C|]. split; [intros H0 _; auto|]. split; [auto|]. split; [lia|].
      intros Hl Hb. apply S; [exact Hl|]. rewrite (i_bytes _ HI1). exact Hb.
    + right. right. split; [exact E|]. exists d1. split; assumption.
  - unfold drop_record. destruct (dget m (recs d)) as [r|] eqn:Em; [|right; left; eauto].
    left. set (d1 := DB (ddel m (recs d)) (culled d) (bytes d - rec_bytes r)). exists d1, d1.
    assert (Hlen := length_ddel _ _ _ Em).
    split; [reflexivity|]. split; [split; [reflexivity|exists r; auto]|]. split; [|split; [apply culls_refl|split; [|split; [intros _ _; left; simpl; lia|split; [simpl; lia|auto]]]]].
    + destruct HI as [N R B]. split; simpl; [apply nodup_ddel, N| |rewrite (total_ddel _ _ _ Em), B; reflexivity].
      intros x v Hx. apply R. eapply in_ddel; exact Hx.
    + intros _ H. simpl. rewrite rec_bytes_eq. pose proof (record_bytes_nonneg r). lia.
  - unfold drop_matching_records, match_. destruct (make_tests _ _ _) as [tests|e] eqn:Et; simpl; [|right; left; eauto].
    destruct (match_recs tests (recs d)) as [ms|e] eqn:Em; [|right; left; eauto].
    destruct (match_recs_sub q tests (recs d) ms Hwf Et Em (i_nodup _ HI)) as (sub & -> & N & Hsub).
    destruct (drop_all_spec sub d HI N) as (d' & E & I' & C' & G' & L').
    { intros m r H. apply in_dget; [apply HI|]. apply Hsub, H. }
    left. exists d', d'. split; [exact E|]. split; [split; [exact C'|]|].
    + intros m. split.
      * intros r Hr. rewrite G'. destruct (existsb _ _) eqn:Ex.
        -- left. split; [|reflexivity]. apply existsb_eqb in Ex. apply in_map_iff in Ex as ([m' r'] & Em' & Hin). simpl in Em'. subst m'.
           apply Hsub in Hin as [Hin Hmat]. apply (in_dget _ _ _ (i_nodup _ HI)) in Hin. assert (r' = r) as <- by congruence. exact Hmat.
        -- right. split; [|exact Hr]. intros Hmat. assert (Hin : In (m, r) sub) by (apply Hsub; split; [apply dget_in; exact Hr|exact Hmat]).
           apply (in_map fst) in Hin. apply existsb_eqb in Hin. unfold dkeys in Ex. simpl in Hin. congruence.
      * intros Hr. rewrite G'. destruct (existsb _ _); [reflexivity|exact Hr].
    + split; [exact I'|]. split; [apply culls_refl|]. split; [|split; [intros _ _; left; exact L'|split; [lia|auto]]].
      intros _ Hb. rewrite (i_bytes _ I'). rewrite (i_bytes _ HI) in Hb. etransitivity; [|exact Hb].
      assert (Hincl : forall m r, dget m (recs d') = Some r -> dget m (recs d) = Some r).
      { intros m r. rewrite G'. destruct (existsb _ _); [discriminate|auto]. }
      clear - Hincl I' HI. destruct I' as [N' _ _], HI as [N _ _]. revert N' Hincl. generalize (recs d) N. clear N. induction (recs d') as [|[m r] l IH]; intros l0 N N' H.
      * apply total_nonneg.
      * simpl. inversion N' as [|a c Hn Hd]; subst. assert (Hm : dget m l0 = Some r) by (apply H; simpl; rewrite String.eqb_refl; reflexivity).
        pose proof (total_ddel _ _ _ Hm) as Ht. enough (total l <= total (ddel m l0))%Z by lia. apply IH; [apply nodup_ddel, N|exact Hd|].
        intros m' r' Hm'. rewrite dget_ddel by exact N. destruct (String.eqb_spec m' m) as [->|Hne].
        -- exfalso. apply Hn, dget_keys. congruence.
        -- apply H. simpl. destruct (String.eqb_spec m' m); [contradiction|exact Hm'].
Qed.
End Ops.
