(** Histories of calls on the database. *)
From Coq Require Import List ZArith String Bool Lia Sorting.Sorted.
From Verif Require Import Prelude PyValue DictDB_Spec DictDB_Model DictDB_Proofs DictDB_Store.
Import ListNotations.
Local Open Scope string_scope.

Section History.
Context (glob : string -> string -> bool) (lim : limits).

Lemma latest_fun h m o1 o2 : latest glob h m o1 -> latest glob h m o2 -> o1 = o2.
Proof.
  revert m o1 o2. induction h as [|o h IH]; intros m o1 o2 H1 H2.
  - inversion H1; inversion H2; reflexivity.
  - inversion H1; subst; inversion H2; subst; try reflexivity; try contradiction; try (eapply IH; eassumption);
      repeat match goal with A : latest glob h m ?a, B : latest glob h m ?b |- _ =>
        pose proof (IH m a b A B) as E; clear A; try discriminate E; try (injection E as ->) end; try reflexivity; try contradiction.
Qed.

Lemma run_app ops1 ops2 : forall d h, run glob lim (ops1 ++ ops2)%list d h =
  match run glob lim ops1 d h with Some (d', h') => run glob lim ops2 d' h' | None => None end.
Proof. induction ops1 as [|o ops1 IH]; simpl; intros d h; [reflexivity|]. destruct (perform glob lim o d); auto. Qed.

Lemma run_inv (I : db -> list dbop -> Prop) (W : dbop -> Prop) :
  (forall d h o d', I d h -> W o -> perform glob lim o d = Done d' -> I d' (o :: h)) ->
  (forall d h o e d', I d h -> W o -> perform glob lim o d = Raised e d' -> I d' h) ->
  forall ops d h d' h', I d h -> Forall W ops -> run glob lim ops d h = Some (d', h') -> I d' h'.
Proof.
  intros HD HR. induction ops as [|o ops IH]; simpl; intros d h d' h' HI HW Hrun; [injection Hrun as <- <-; exact HI|].
  inversion HW; subst. destruct (perform glob lim o d) eqn:E; [eapply IH; [|eassumption|exact Hrun]; eauto|eapply IH; [|eassumption|exact Hrun]; eauto|discriminate].
Qed.

Record Hist (d : db) (h : list dbop) : Prop := mkHist {
  g_inv : Inv d;
  g_some : forall m r, dget m (recs d) = Some r -> latest glob h m (Some r);
  g_none : forall m, dget m (recs d) = None -> In m (culled d) \/ latest glob h m None }.

Lemma Inv_empty : Inv empty.
Proof. split; simpl; [constructor|tauto|reflexivity]. Qed.
Lemma Hist_empty : Hist empty [].
Proof. split; [apply Inv_empty|discriminate|]. intros m _. right. constructor. Qed.

Lemma raised_same d o e d' : Inv d -> well_formed o -> perform glob lim o d = Raised e d' -> d' = d.
Proof.
  intros HI HW H. destruct (perform_spec glob lim o d HI HW) as [(d1 & d2 & E & _)|[(e' & E)|[E _]]]; rewrite E in H; congruence.
Qed.

Lemma effect_latest o d d1 h : Hist d h -> well_formed o -> effect glob o d d1 -> Inv d1 -> Hist d1 (o :: h).
Proof.
  intros [HI HS HN] HW [Hc He] HI1. split; [exact HI1| |].
  - intros m r. destruct o as [m0 r0|m0 r0|m0|q].
    + destruct He as [Hm ->]. rewrite dget_dset. destruct (String.eqb_spec m m0) as [->|]; intros H.
      * injection H as <-. apply l_add.
      * apply l_add_other; auto.
    + destruct He as (Hnc & old & Hm & ->). rewrite dget_dset. destruct (String.eqb_spec m m0) as [->|]; intros H.
      * injection H as <-. apply l_update; auto.
      * apply l_update_other; auto.
    + destruct He as (r0 & Hm & ->). rewrite dget_ddel by apply HI. destruct (String.eqb_spec m m0) as [->|]; intros H; [discriminate|].
      apply l_drop_other; auto.
    + intros H. destruct (He m) as [Hs Hn]. destruct (dget m (recs d)) as [r'|] eqn:E; [|rewrite (Hn eq_refl) in H; discriminate].
      destruct (Hs r' eq_refl) as [[_ Hd]|[Hnm Hd]]; [congruence|]. assert (r = r') as -> by congruence. apply l_match_not; auto.
  - intros m. rewrite Hc. destruct o as [m0 r0|m0 r0|m0|q].
    + destruct He as [Hm ->]. rewrite dget_dset. destruct (String.eqb_spec m m0) as [->|]; [discriminate|]. intros H.
      destruct (HN m H); [auto|right]. apply l_add_other; auto.
    + destruct He as (Hnc & old & Hm & ->). rewrite dget_dset. destruct (String.eqb_spec m m0) as [->|]; [discriminate|]. intros H.
      destruct (HN m H); [auto|right]. apply l_update_other; auto.
    + destruct He as (r0 & Hm & ->). rewrite dget_ddel by apply HI. destruct (String.eqb_spec m m0) as [->|]; intros H; [right; apply l_drop|].
      destruct (HN m H); [auto|right]. apply l_drop_other; auto.
    + intros H. destruct (He m) as [Hs Hn]. destruct (dget m (recs d)) as [r'|] eqn:E.
      * destruct (Hs r' eq_refl) as [[Hm _]|[_ Hd]]; [|congruence]. right. eapply l_match; eauto.
      * destruct (HN m E); [auto|right]. apply l_match_none. assumption.
Qed.

Lemma culls_hist d d' h : Hist d h -> culls d d' -> Hist d' h.
Proof.
  intros [HI HS HN] C. split; [apply (u_inv _ _ C HI)| |].
  - intros m r H. apply HS, (u_keep _ _ C), H.
  - intros m H. destruct (dget m (recs d)) as [r|] eqn:E; [left; eapply (u_gone _ _ C); eauto|].
    destruct (HN m E); [left; apply (u_ids _ _ C); assumption|auto].
Qed.

Lemma hist_done d h o d' : Hist d h -> well_formed o -> perform glob lim o d = Done d' -> Hist d' (o :: h).
Proof.
  intros HH HW H. destruct (perform_spec glob lim o d (g_inv _ _ HH) HW) as [(d1 & d2 & E & He & HI1 & C & _)|[(e' & E)|[E _]]]; rewrite E in H; try discriminate.
  injection H as <-. eapply culls_hist; [|exact C]. eapply effect_latest; eauto.
Qed.

Lemma hist_run ops d h : Forall well_formed ops -> run glob lim ops empty [] = Some (d, h) -> Hist d h.
Proof.
  intros HW. apply (run_inv Hist well_formed); [apply hist_done| |apply Hist_empty|exact HW].
  intros d0 h0 o e d' HH Ho H. rewrite (raised_same _ _ _ _ (g_inv _ _ HH) Ho H). exact HH.
Qed.

Lemma get_ok d m r : get_record d m = Ok r <-> ~ In m (culled d) /\ dget m (recs d) = Some r.
Proof.
  unfold get_record. destruct (existsb _ _) eqn:E.
  - apply existsb_eqb in E. split; [discriminate|tauto].
  - assert (~ In m (culled d)) by (rewrite <- existsb_eqb; congruence). destruct (dget m (recs d)); split; intros G.
    + injection G as ->. auto.
    + destruct G as [_ G]. injection G as ->. reflexivity.
    + discriminate.
    + destruct G. discriminate.
Qed.
Lemma get_raise d m e : get_record d m = Raise e -> e = KeyError.
Proof. unfold get_record. destruct (existsb _ _); [congruence|]. destruct (dget _ _); congruence. Qed.

Lemma get_latest ops d h m r : Forall well_formed ops -> run glob lim ops empty [] = Some (d, h) ->
  get_record d m = Ok r -> latest glob h m (Some r).
Proof. intros HW Hr Hg. apply get_ok in Hg as [_ Hg]. apply (g_some _ _ (hist_run _ _ _ HW Hr)). exact Hg. Qed.

(** Nothing is evicted while everything fits. *)
Lemma fits_uncut ops d h : Forall well_formed ops -> run glob lim ops empty [] = Some (d, h) ->
  always_fits glob (size_limit lim) (record_limit lim) h -> culled d = [].
Proof.
  intros HW. apply (run_inv (fun d h => Hist d h /\ (always_fits glob (size_limit lim) (record_limit lim) h -> culled d = [])) well_formed); [| | |exact HW].
  - intros d0 h0 o d' [HH HC] Ho H. split; [eapply hist_done; eauto|]. intros Hf.
    destruct (perform_spec glob lim o d0 (g_inv _ _ HH) Ho) as [(d1 & d2 & E & He & HI1 & C & _ & _ & _ & Hsame)|[(e' & E)|[E _]]]; rewrite E in H; try discriminate.
    injection H as <-.
    assert (Hc0 : culled d0 = []).
    { apply HC. intros h1 h2 ->. apply (Hf (o :: h1) h2). reflexivity. }
    destruct (Hf [] (o :: h0) eq_refl (recs d1)) as [F1 F2].
    + apply HI1.
    + intros m r Hin. apply (g_some _ _ (effect_latest _ _ _ _ HH Ho He HI1)). apply in_dget; [apply HI1|exact Hin].
    + rewrite (Hsame F1 F2). destruct He as [-> _]. exact Hc0.
  - intros d0 h0 o e d' [HH HC] Ho H. rewrite (raised_same _ _ _ _ (g_inv _ _ HH) Ho H). auto.
  - split; [apply Hist_empty|reflexivity].
Qed.

Lemma get_map ops d h m : Forall well_formed ops -> run glob lim ops empty [] = Some (d, h) ->
  always_fits glob (size_limit lim) (record_limit lim) h ->
  (forall r, get_record d m = Ok r <-> latest glob h m (Some r)) /\ (get_record d m = Raise KeyError <-> latest glob h m None).
Proof.
  intros HW Hr Hf. pose proof (hist_run _ _ _ HW Hr) as HH. pose proof (fits_uncut _ _ _ HW Hr Hf) as Hc.
  unfold get_record. rewrite Hc. simpl. destruct (dget m (recs d)) as [r0|] eqn:E.
  - pose proof (g_some _ _ HH m r0 E) as HL. split; [intros r|]; split; try discriminate.
    + intros H. injection H as <-. exact HL.
    + intros H. pose proof (latest_fun _ _ _ _ HL H). congruence.
    + intros H. pose proof (latest_fun _ _ _ _ HL H). discriminate.
  - destruct (g_none _ _ HH m E) as [Hin|HL]; [rewrite Hc in Hin; destruct Hin|].
    split; [intros r|]; split; try discriminate; auto. intros H. pose proof (latest_fun _ _ _ _ HL H). discriminate.
Qed.

Lemma add_existing d m r r0 : get_record d m = Ok r0 -> add_record lim m r d = Raised KeyError d.
Proof. intros H. apply get_ok in H as [_ H]. unfold add_record. rewrite H. reflexivity. Qed.
Lemma update_missing d m r : get_record d m = Raise KeyError -> exists e, update_record lim m r d = Raised e d.
Proof.
  unfold get_record, update_record. destruct (existsb _ _); [eauto|]. intros H. destruct (check_dates r); [|eauto].
  destruct (dget m (recs d)); [discriminate|eauto].
Qed.

(** * Limits *)
Lemma find_all d : find_records glob d [] [] = Ok (map snd (recs d)).
Proof.
  unfold find_records, match_. simpl. assert (H : forall l : dict record, match_recs [] l = Ok (map snd l)).
  { induction l as [|[m r] l IH]; simpl; [reflexivity|]. rewrite IH. reflexivity. }
  rewrite H. reflexivity.
Qed.

Lemma counter ops d h : Forall well_formed ops -> run glob lim ops empty [] = Some (d, h) ->
  exists all, find_records glob d [] [] = Ok all /\ bytes d = fold_right (fun r n => (record_bytes r + n)%Z) 0%Z all.
Proof.
  intros HW Hr. exists (map snd (recs d)). split; [apply find_all|]. rewrite (i_bytes _ (g_inv _ _ (hist_run _ _ _ HW Hr))).
  induction (recs d) as [|[m r] l IH]; simpl; [reflexivity|]. rewrite IH. reflexivity.
Qed.

Lemma size_bound ops d h : Forall well_formed ops -> run glob lim ops empty [] = Some (d, h) ->
  (0 <= size_limit lim)%Z -> (bytes d <= size_limit lim)%Z.
Proof.
  intros HW Hr H0. revert Hr. apply (run_inv (fun d h => Hist d h /\ (bytes d <= size_limit lim)%Z) well_formed); [| | |exact HW].
  - intros d0 h0 o d' [HH HB] Ho H. split; [eapply hist_done; eauto|].
    destruct (perform_spec glob lim o d0 (g_inv _ _ HH) Ho) as [(d1 & d2 & E & He & HI1 & C & B & _)|[(e' & E)|[E _]]]; rewrite E in H; try discriminate.
    injection H as <-. auto.
  - intros d0 h0 o e d' [HH HC] Ho H. rewrite (raised_same _ _ _ _ (g_inv _ _ HH) Ho H). auto.
  - split; [apply Hist_empty|exact H0].
Qed.

Lemma effect_dated o d d1 : Inv d -> well_formed o -> dated_op o -> effect glob o d d1 -> all_dated d -> all_dated d1.
Proof.
  intros HI HW HD [_ He] Hd m r. destruct o as [m0 r0|m0 r0|m0|q].
  - destruct He as [Hm ->]. rewrite dget_dset. destruct (String.eqb_spec m m0) as [->|]; [|apply Hd]. intros H. injection H as <-.
    destruct HD as (v & Hv & Ht). unfold submitted_at, field, stored. rewrite (dget_map (fun k v => if existsb (String.eqb k) date_keys then aware v else v)), Hv. simpl.
    destruct v; try contradiction; simpl; discriminate.
  - destruct He as (_ & old & Hm & ->). rewrite dget_dset. destruct (String.eqb_spec m m0) as [->|]; [|apply Hd]. intros H. injection H as <-.
    destruct HW as [Hnd _]. unfold submitted_at, field. rewrite dget_dupdate by (rewrite stored_keys; exact Hnd).
    unfold stored. rewrite (dget_map (fun k v => if existsb (String.eqb k) date_keys then aware v else v)). simpl in HD.
    destruct (dget "submitted" r0) as [v|] eqn:Ev; simpl.
    + specialize (HD v eq_refl). destruct v; try contradiction; simpl; discriminate.
    + apply (Hd m0 old Hm).
  - destruct He as (r0 & Hm & ->). rewrite dget_ddel by apply HI. destruct (String.eqb m m0); [discriminate|]. apply Hd.
  - intros H. destruct (He m) as [Hs Hn]. destruct (dget m (recs d)) as [r'|] eqn:E; [|rewrite (Hn eq_refl) in H; discriminate].
    destruct (Hs r' eq_refl) as [[_ Hx]|[_ Hx]]; [congruence|]. assert (r = r') as -> by congruence. eapply Hd; eauto.
Qed.

Lemma dated_inv o d d' h : Hist d h /\ all_dated d -> well_formed o /\ dated_op o -> perform glob lim o d = Done d' -> Hist d' (o :: h) /\ all_dated d'.
Proof.
  intros [HH HD] [HW HO] H. split; [eapply hist_done; eauto|].
  destruct (perform_spec glob lim o d (g_inv _ _ HH) HW) as [(d1 & d2 & E & He & HI1 & C & _)|[(e' & E)|[E _]]]; rewrite E in H; try discriminate.
  injection H as <-. eapply culls_dated; [exact C|]. eapply effect_dated; [apply (g_inv _ _ HH)|exact HW|exact HO|exact He|exact HD].
Qed.

Lemma record_bound ops d h : Forall well_formed ops -> Forall dated_op ops -> run glob lim ops empty [] = Some (d, h) ->
  (1 <= to_cull lim)%nat -> (List.length (recs d) <= record_limit lim)%nat.
Proof.
  intros HW HD Hr H1. assert (HWD : Forall (fun o => well_formed o /\ dated_op o) ops) by (apply Forall_forall; intros o Ho; rewrite Forall_forall in HW, HD; auto).
  revert Hr. apply (run_inv (fun d h => (Hist d h /\ all_dated d) /\ (List.length (recs d) <= record_limit lim)%nat) (fun o => well_formed o /\ dated_op o)); [| | |exact HWD].
  - intros d0 h0 o d' [HA HL] Ho H. split; [eapply dated_inv; eauto|]. destruct HA as [HH Hd], Ho as [HW' HO].
    destruct (perform_spec glob lim o d0 (g_inv _ _ HH) HW') as [(d1 & d2 & E & He & HI1 & C & _ & L & L1 & _)|[(e' & E)|[E _]]]; rewrite E in H; try discriminate.
    injection H as <-. pose proof (u_len _ _ C) as Hlen. pose proof (effect_dated _ _ _ (g_inv _ _ HH) HW' HO He Hd) as Hd1.
    destruct (Nat.le_gt_cases (List.length (recs d1)) (record_limit lim)) as [|Hgt]; [lia|]. destruct (L Hd1 Hgt); lia.
  - intros d0 h0 o e d' [[HH Hd] HC] [Ho _] H. rewrite (raised_same _ _ _ _ (g_inv _ _ HH) Ho H). auto.
  - split; [split; [apply Hist_empty|]|simpl; lia]. intros m r. discriminate.
Qed.

Lemma never_hangs ops : Forall well_formed ops -> Forall dated_op ops ->
  (0 <= size_limit lim)%Z -> (cull_num lim <= Pos.to_nat (cull_den lim))%nat -> run glob lim ops empty [] <> None.
Proof.
  intros HW HD H0 Hf.
  assert (G : forall d h, Hist d h -> all_dated d -> run glob lim ops d h <> None).
  { induction ops as [|o ops IH]; simpl; intros d h HH Hd; [discriminate|]. inversion HW as [|a b W1 W2]; inversion HD as [|a' b' D1 D2]; subst.
    destruct (perform glob lim o d) eqn:E.
    - destruct (dated_inv o d d0 h (conj HH Hd) (conj W1 D1) E). apply IH; auto.
    - rewrite (raised_same _ _ _ _ (g_inv _ _ HH) W1 E). apply IH; auto.
    - exfalso. destruct (perform_spec glob lim o d (g_inv _ _ HH) W1) as [(d1 & d2 & E' & _)|[(e' & E')|[_ (d1 & He & Hn)]]]; try congruence.
      apply Hn. split; [|auto]. eapply effect_dated; [apply (g_inv _ _ HH)|eassumption|eassumption|exact He|exact Hd]. }
  apply G; [apply Hist_empty|]. intros m r. discriminate.
Qed.

Lemma evicts_oldest ops d h o m0 r0 d' m r : Forall well_formed ops -> run glob lim ops empty [] = Some (d, h) ->
  well_formed o -> o = OpAdd m0 r0 \/ o = OpUpdate m0 r0 -> perform glob lim o d = Done d' ->
  m <> m0 -> get_record d m = Ok r -> get_record d' m = Raise KeyError ->
  exists t, submitted_at r = Some t /\ forall m' r' t', get_record d' m' = Ok r' -> submitted_at r' = Some t' -> (t <= t')%Z.
Proof.
  intros HW Hr Ho Hkind Hp Hne Hg Hg'. pose proof (hist_run _ _ _ HW Hr) as HH. apply get_ok in Hg as [Hnc Hg].
  destruct (perform_spec glob lim o d (g_inv _ _ HH) Ho) as [(d1 & d2 & E & He & HI1 & C & _)|[(e' & E)|[E _]]]; rewrite E in Hp; try discriminate.
  injection Hp as <-. destruct He as [Hc He].
  assert (Hd1 : dget m (recs d1) = Some r).
  { destruct Hkind as [->| ->].
    - destruct He as [_ ->]. rewrite dget_dset. destruct (String.eqb_spec m m0); [contradiction|exact Hg].
    - destruct He as (_ & old & _ & ->). rewrite dget_dset. destruct (String.eqb_spec m m0); [contradiction|exact Hg]. }
  assert (Hd2 : dget m (recs d2) = None).
  { unfold get_record in Hg'. destruct (existsb _ _) eqn:Ee.
    - apply existsb_eqb in Ee. destruct (u_new _ _ C m Ee) as [Hx|Hx]; [|exact Hx]. rewrite Hc in Hx. contradiction.
    - destruct (dget m (recs d2)); [discriminate|reflexivity]. }
  assert (Hall : forall m' r', dget m' (recs d2) = Some r' -> exists t, submitted_at r = Some t /\ forall t', submitted_at r' = Some t' -> (t <= t')%Z).
  { intros m' r' H. apply (u_oldest _ _ C m r m' r' Hd1 Hd2 H). }
  assert (Ht : exists t, submitted_at r = Some t) by (eapply (u_dated _ _ C); eauto).
  destruct Ht as [t Ht]. exists t. split; [exact Ht|]. intros m' r' t' Hm' Ht'. apply get_ok in Hm' as [_ Hm'].
  destruct (Hall m' r' Hm') as (t0 & E0 & Hle). assert (t0 = t) as -> by congruence. auto.
Qed.
End History.

Lemma sorted_pairs h : StronglySorted le2 h -> forall a x b y c, h = (a ++ x :: b ++ y :: c)%list -> (snd x <= snd y)%Z.
Proof.
  intros H. induction H as [|z l Hs IH Hf]; intros a x b y c E; [destruct a; discriminate|]. destruct a as [|a0 a]; injection E as -> ->.
  - rewrite Forall_forall in Hf. apply (Hf y). apply in_or_app. right. left. reflexivity.
  - eapply IH. reflexivity.
Qed.
Lemma history_list glob lim ops d h : Forall well_formed ops -> run glob lim ops empty [] = Some (d, h) ->
  exists ids, get_history d = Ok ids /\ NoDup ids /\
    (forall m, In m ids <-> exists r t, dget m (recs d) = Some r /\ submitted_at r = Some t) /\
    (forall a m b m' c r r' t t', ids = (a ++ m :: b ++ m' :: c)%list -> dget m (recs d) = Some r -> dget m' (recs d) = Some r' ->
       submitted_at r = Some t -> submitted_at r' = Some t' -> (t <= t')%Z).
Proof.
  intros HW Hr. pose proof (g_inv _ _ _ (hist_run _ _ _ _ _ HW Hr)) as HI. destruct (history_spec d HI) as (l & E & Hs & Hnd & Hl).
  exists (map fst l). split; [exact E|]. split; [exact Hnd|]. split.
  - intros m. rewrite in_map_iff. split.
    + intros ([m' t] & Em & Hin). simpl in Em. subst m'. apply Hl in Hin as (r & H1 & H2). eauto.
    + intros (r & t & H1 & H2). exists (m, t). split; [reflexivity|]. apply Hl. eauto.
  - intros a m b m' c r r' t t' Eids H1 H2 H3 H4.
    apply map_eq_app in Eids as (la & lx & -> & _ & Ex). destruct lx as [|[m0 t0] lx]; [discriminate|]. simpl in Ex. injection Ex as -> Ex.
    apply map_eq_app in Ex as (lb & ly & -> & _ & Ey). destruct ly as [|[m1 t1] ly]; [discriminate|]. simpl in Ey. injection Ey as -> _.
    pose proof (sorted_pairs _ Hs la (m, t0) lb (m', t1) ly eq_refl) as Hle. simpl in Hle.
    destruct (proj1 (Hl m t0)) as (r0 & G1 & G2); [apply in_or_app; right; left; reflexivity|].
    destruct (proj1 (Hl m' t1)) as (r1 & G3 & G4); [apply in_or_app; right; right; apply in_or_app; right; left; reflexivity|].
    assert (r0 = r) by congruence. assert (r1 = r') by congruence. subst. congruence.
Qed.
