(** Proofs for the client model (C37), continued: the other events, and whole histories. *)
From stdpp Require Import base gmap list sorting.
From Verif Require Import RDict_Model Client_Model Client_Spec Client_Proofs.

Lemma rel_single w s m v : rel w s -> m ∈ requests w ->
  rel (happens w (Single m v)) (fst (single_reply m v s)).
Proof.
  intros R Hq. cbn [happens]. unfold single_reply.
  assert (Hu : m ∈ used w) by (apply elem_of_union_r, Hq).
  assert (Ht : m ∉ tasks w) by (intros X; apply (r_dis _ _ R m X Hq)).
  assert (Ho : m ∉ out w) by (intros X; apply Ht, (r_pend _ _ R m X)).
  destruct (res w !! m) as [r0 |] eqn:E.
  - destruct (bool_decide _); [| exact R]. rewrite (set_result_done m _ r0); [exact R |]. rewrite (r_fut _ _ R) by exact Hu. congruence.
  - pose proof (r_req _ _ R m Hq E) as Hf.
    destruct (decide (m ∈ purged w)) as [Hp | Hp].
    { rewrite (bool_decide_eq_true_2 _ Hp), bool_decide_eq_false_2 by tauto. exact R. }
    rewrite (bool_decide_eq_false_2 _ Hp), bool_decide_eq_true_2 by tauto.
    assert (Hm : msg_future s !! m = Some None) by (rewrite (r_fut _ _ R) by exact Hu; congruence).
    pose proof (only_set_result m (Value v) s) as Only.
    destruct (set_result_pending m (Value v) s Hm) as (_ & A2 & A3 & A4 & A5 & _).
    set (s' := fst (set_result m (Value v) s)) in *.
    split; try (rewrite (o_engines _ _ _ Only)); try (rewrite (o_eids _ _ _ Only)).
    + apply (r_eng _ _ R).
    + apply (r_keys _ _ R).
    + apply (r_rev _ _ R).
    + apply (r_eids _ _ R).
    + intros y. rewrite A2. apply (r_out _ _ R).
    + intros y u. cbn [out]. destruct (decide (y = m)) as [-> | Hne].
      * split; [| intros [X _]; contradiction]. intros X. apply A5 in X. destruct X as [X _]. apply (r_on _ _ R) in X. exact X.
      * rewrite (o_on _ _ _ Only y u Hne). apply (r_on _ _ R).
    + intros y Hy. cbn [res]. destruct (decide (y = m)) as [-> | Hne].
      * rewrite A3, lookup_insert. reflexivity.
      * rewrite (o_msgf _ _ _ Only y Hne), lookup_insert_ne by congruence. apply (r_fut _ _ R), Hy.
    + intros y Hy. cbn [res]. rewrite lookup_insert_ne by (intros ->; contradiction). apply (r_unused _ _ R), Hy.
    + intros y Hy. assert (Hne : y <> m) by (intros ->; contradiction). cbn [res tasks purged].
      rewrite (o_results _ _ _ Only), (o_fut _ _ _ Only), lookup_insert_ne by congruence. apply (r_pend _ _ R y Hy).
    + intros y Hy. assert (Hne : y <> m) by (intros ->; contradiction). rewrite (o_coal _ _ _ Only y Hne). apply (r_coal _ _ R y Hy).
    + apply (r_dis _ _ R).
    + rewrite A4. apply (r_isout _ _ R).
    + intros y Hy Hnp Hfalse. assert (Hne : y <> m) by (intros ->; contradiction).
      rewrite A4 in Hfalse. rewrite (o_outs _ _ _ Only y Hne), (o_meta _ _ _ Only y Hne). apply (r_outp _ _ R); assumption.
    + intros y Hy Hn. cbn [res] in Hn. destruct (decide (y = m)) as [-> | Hne]; [rewrite lookup_insert in Hn; discriminate |].
      rewrite lookup_insert_ne in Hn by congruence. rewrite (o_fut _ _ _ Only y Hne). apply (r_req _ _ R); assumption.
    + apply (r_purged _ _ R).
    + intros y Hy. destruct (decide (y = m)) as [-> | Hne]; [exact Hu |]. apply (r_futs _ _ R), (o_fut _ _ _ Only y Hne), Hy.
    + intros y Hy. assert (Hne : y <> m) by (intros ->; contradiction). rewrite (o_results _ _ _ Only y Hne). apply (r_results _ _ R), Hy.
Qed.

Lemma rel_output_done w s m : rel w s -> rel w (output_done m s).
Proof.
  intros R. pose proof (only_output_done m s) as Only.
  destruct (output_done_fields m s) as (F1 & F2 & F3 & F4 & F5 & F6 & F7 & F8).
  assert (K : m ∈ out w -> futures (output_done m s) = futures s /\ results (output_done m s) = results s).
  { intros Hin. apply output_done_keeps. intros r X. destruct (r_pend _ _ R m Hin) as (Ht & _ & _ & Hr & _).
    rewrite (r_fut _ _ R) in X by (apply elem_of_union_l, Ht). congruence. }
  assert (KQ : forall y, y ∈ used w -> res w !! y = None -> y ∈ futures (output_done m s) <-> y ∈ futures s).
  { intros y Hy Hn. destruct (decide (y = m)) as [-> | Hne]; [| apply (o_fut _ _ _ Only y Hne)].
    destruct (output_done_keeps m s) as [-> _]; [| reflexivity]. intros r X. rewrite (r_fut _ _ R) in X by exact Hy. congruence. }
  split; try (rewrite (o_engines _ _ _ Only)); try (rewrite (o_eids _ _ _ Only)).
  - apply (r_eng _ _ R).
  - apply (r_keys _ _ R).
  - apply (r_rev _ _ R).
  - apply (r_eids _ _ R).
  - intros y. rewrite F1. apply (r_out _ _ R).
  - intros y u. rewrite on_output_done. apply (r_on _ _ R).
  - rewrite F3. apply (r_fut _ _ R).
  - apply (r_unused _ _ R).
  - intros y Hy. destruct (r_pend _ _ R y Hy) as (? & ? & ? & ? & ?).
    destruct (decide (y = m)) as [-> | Hne].
    + destruct (K Hy) as [-> ->]. auto.
    + rewrite (o_results _ _ _ Only), (o_fut _ _ _ Only) by exact Hne. auto.
  - intros y Hy. assert (E : coalesced (output_done m s) !! y = coalesced s !! y).
    { destruct (decide (y = m)) as [-> | Hne]; [| apply (o_coal _ _ _ Only y Hne)].
      unfold output_done. destruct (bool_decide _); [| reflexivity]. destruct (out_future s !! m) as [[] |]; try reflexivity.
      unfold cleanup. destruct (_ && _); reflexivity. }
    rewrite E. apply (r_coal _ _ R), Hy.
  - apply (r_dis _ _ R).
  - intros y Hy. destruct (decide (y = m)) as [-> | Hne]; [apply F7, (r_isout _ _ R), Hy |].
    rewrite (o_outf _ _ _ Only y Hne). apply (r_isout _ _ R), Hy.
  - intros y Hy Hp Hfalse. destruct (decide (y = m)) as [-> | Hne].
    + pose proof (F6 Hfalse) as E. rewrite E in Hfalse |- *. apply (r_outp _ _ R); assumption.
    + rewrite (o_outf _ _ _ Only y Hne) in Hfalse. rewrite (o_outs _ _ _ Only y Hne), (o_meta _ _ _ Only y Hne).
      apply (r_outp _ _ R); assumption.
  - intros y Hy Hn. rewrite KQ; [apply (r_req _ _ R); assumption | apply elem_of_union_r, Hy | exact Hn].
  - apply (r_purged _ _ R).
  - intros y Hy. destruct (decide (y = m)) as [-> | Hne].
    + apply (r_futs _ _ R), F8, Hy.
    + apply (r_futs _ _ R), (o_fut _ _ _ Only y Hne), Hy.
  - intros y Hy. destruct (decide (y = m)) as [-> | Hne].
    + unfold output_done. destruct (bool_decide _); [| apply (r_results _ _ R), Hy].
      destruct (out_future s !! m) as [[] |]; try apply (r_results _ _ R), Hy.
      apply cleanup_fields. apply (r_results _ _ R), Hy.
    + rewrite (o_results _ _ _ Only y Hne). apply (r_results _ _ R), Hy.
Qed.

Lemma rel_register w s e u : rel w s -> may w (Register e u) ->
  rel (happens w (Register e u)) (fst (register_engine e u s)).
Proof.
  intros R Hmay. unfold register_engine, setitem.
  assert (N : rev (engines s) !! inl e = None).
  { destruct (rev (engines s) !! inl e) as [k |] eqn:E; [| reflexivity]. apply (r_rev _ _ R) in E.
    destruct (r_keys _ _ R _ _ E) as [e' ->]. apply (r_eng _ _ R) in E. destruct E as (? & ? & _). discriminate. }
  rewrite N. cbn [fst happens may] in *.
  assert (L : forall e', live w !! e' = Some u -> e' = e).
  { intros e' He. destruct Hmay as [Hl | [_ Hn]]; [| destruct (Hn e' He)].
    assert (X1 : rev (engines s) !! inr u = Some (inl e)) by (apply (r_rev _ _ R), (r_eng _ _ R); eauto).
    assert (X2 : rev (engines s) !! inr u = Some (inl e')) by (apply (r_rev _ _ R), (r_eng _ _ R); eauto). congruence. }
  destruct R. split; setters; cbn [live tasks requests out route res purged fwd rev]; try assumption.
  - intros e' k. destruct (decide (e = e')) as [<- | Hne].
    + rewrite !lookup_insert. split; [intros [= <-]; eauto | intros (? & -> & [= <-]); reflexivity].
    + rewrite !lookup_insert_ne by congruence. apply r_eng.
  - intros k v. destruct (decide (k = inl e)) as [-> | Hne]; [eauto |]. rewrite lookup_insert_ne by congruence. apply r_keys.
  - intros k v. destruct (decide (v = inr u)) as [-> | Hv].
    + rewrite lookup_insert. destruct (decide (k = inl e)) as [-> | Hk].
      * rewrite lookup_insert. tauto.
      * rewrite lookup_insert_ne by congruence. split; [congruence |]. intros X. destruct (r_keys _ _ X) as [e' ->].
        apply r_eng in X. destruct X as (? & [= <-] & X). apply L in X. congruence.
    + rewrite lookup_insert_ne by congruence. destruct (decide (k = inl e)) as [-> | Hk].
      * rewrite lookup_insert. split; [| congruence]. intros X. apply r_rev in X. apply r_eng in X. destruct X as (u' & -> & X).
        destruct Hmay as [Hl | [Hl _]]; congruence.
      * rewrite lookup_insert_ne by congruence. apply r_rev.
  - intros e'. rewrite merge_sort_Permutation. unfold contains. destruct (decide (e = e')) as [<- | Hne].
    + rewrite lookup_insert. split; [eauto | intros _]. destruct (bool_decide _) eqn:E.
      * apply bool_decide_eq_true in E. destruct E as [k E]. apply r_eng in E. destruct E as (? & _ & E). apply r_eids. eauto.
      * apply elem_of_app. right. left.
    + rewrite lookup_insert_ne by congruence. rewrite <- r_eids. destruct (bool_decide _); [reflexivity |].
      rewrite elem_of_app, elem_of_list_singleton. intuition congruence.
Qed.

(** ** The death of an engine *)
Definition lose (u : nat) (l : list mid) (w : world) : world :=
  fold_left (fun w m => answered m (Some (EngineDied u)) w) l w.
Lemma lose_fields u l : forall w,
  lose u l w = World (live w) (tasks w) (requests w) (out w ∖ list_to_set l) (route w)
                 (gset_to_gmap (EngineDied u) (list_to_set l) ∪ res w) (purged w).
Proof.
  induction l as [| m l IH]; intros w; unfold lose; cbn [fold_left].
  - destruct w. cbn. f_equal.
    + apply set_eq. set_solver.
    + apply map_eq. intros i. rewrite lookup_union, lookup_gset_to_gmap, option_guard_False by set_solver.
      destruct (_ !! i); reflexivity.
  - fold (lose u l (answered m (Some (EngineDied u)) w)). rewrite IH. unfold answered.
    cbn [live tasks requests out route res purged]. f_equal.
    + apply set_eq. intros y. cbn [list_to_set]. rewrite !elem_of_difference, elem_of_union, elem_of_singleton. tauto.
    + apply map_eq. intros i. cbn [list_to_set]. rewrite !lookup_union, !lookup_gset_to_gmap.
      destruct (decide (i ∈ (list_to_set l : gset mid))) as [Y | N].
      * rewrite !option_guard_True by set_solver. destruct (<[_:=_]> _ !! i), (res w !! i); reflexivity.
      * rewrite (option_guard_False (i ∈ list_to_set l)) by exact N. destruct (decide (i = m)) as [-> | Hne].
        -- rewrite lookup_insert, option_guard_True by set_solver. destruct (res w !! m); reflexivity.
        -- rewrite lookup_insert_ne by congruence. rewrite option_guard_False by set_solver. reflexivity.
Qed.

Lemma rel_stranded u l : NoDup l -> forall w s, rel w s -> (forall m, m ∈ l -> m ∈ out w /\ u ∈ routes w m) ->
  rel (lose u l w) (fst (stranded u l s)) /\ snd (stranded u l s) = None /\
  (forall m, m ∈ l -> out_future (fst (stranded u l s)) !! m = Some true) /\
  (forall m, m ∉ l -> out_future (fst (stranded u l s)) !! m = out_future s !! m).
Proof.
  induction 1 as [| m l Hnin Hnd IH]; intros w s R Hl; cbn [stranded].
  - split; [exact R |]. split; [reflexivity |]. split; [intros m X; inversion X | reflexivity].
  - destruct (Hl m (elem_of_list_here _ _)) as [Ho Hr].
    destruct (r_pend _ _ R m Ho) as (_ & _ & Hres & _). rewrite Hres.
    rewrite bool_decide_eq_false_2 by (intros [? ?]; discriminate).
    destruct (rel_answer w s false m [u] (RError (EngineDied u) false) R Ho) as (R1 & Only & Hn & Hout).
    { intros v Hv. destruct (r_coal _ _ R m Ho) as [Hc | Hc].
      - right. split; [discriminate | exact Hc].
      - left. rewrite (Hc u Hr) in Hv. exact Hv. }
    specialize (Hout eq_refl).
    destruct (handle_reply false m [u] (RError (EngineDied u) false) s) as [s1 o] eqn:E. cbn [fst snd outcome] in *.
    rewrite Hn by discriminate.
    destruct (IH (answered m (Some (EngineDied u)) w) s1 R1) as (R2 & S2 & O2 & P2).
    { intros y Hy. destruct (Hl y) as [A B]; [right; exact Hy |]. split; [| exact B]. cbn [answered out].
      apply elem_of_difference. split; [exact A |]. rewrite elem_of_singleton. intros ->. contradiction. }
    split; [exact R2 |]. split; [exact S2 |]. split.
    + intros y Hy. apply elem_of_cons in Hy. destruct Hy as [-> | Hy]; [| apply O2, Hy].
      rewrite P2 by exact Hnin. exact Hout.
    + intros y Hy. apply not_elem_of_cons in Hy. rewrite P2 by tauto. apply (o_outf _ _ _ Only). tauto.
Qed.

Definition enumerates (enum : gset mid -> list mid) : Prop := forall X, enum X ≡ₚ elements X.

Lemma rel_unregister enum w s e : enumerates enum -> rel w s ->
  let s' := fst (unregister_engine enum e s) in
  rel (happens w (Unregister e)) s' /\ snd (unregister_engine enum e s) = None /\
  (forall u m, live w !! e = Some u -> m ∈ out w -> u ∈ routes w m -> out_future s' !! m = Some true) /\
  (forall m, out_future s !! m = Some true -> out_future s' !! m = Some true).
Proof.
  intros He R. unfold unregister_engine. cbn [happens]. destruct (live w !! e) as [u |] eqn:E.
  - rewrite bool_decide_eq_true_2 by (apply (r_eids _ _ R); eauto).
    assert (F : fwd (engines s) !! inl e = Some (inr u)) by (apply (r_eng _ _ R); eauto).
    assert (V : rev (engines s) !! inr u = Some (inl e)) by (apply (r_rev _ _ R), F).
    unfold pop. rewrite F, V. cbv zeta. set (s1 := set_engines _ _ s).
    set (w1 := World (delete e (live w)) (tasks w) (requests w) (out w) (route w) (res w) (purged w)).
    assert (R1 : rel w1 s1).
    { destruct R. split; unfold s1, w1; setters; cbn [live tasks requests out route res purged fwd rev]; try assumption.
      - intros e' k. destruct (decide (e = e')) as [<- | Hne].
        + rewrite !lookup_delete. split; [discriminate | intros (? & _ & ?); discriminate].
        + rewrite !lookup_delete_ne by congruence. apply r_eng.
      - intros k v X. apply lookup_delete_Some in X. apply (r_keys k v). tauto.
      - intros k v. rewrite !lookup_delete_Some, r_rev. split; intros [A B]; (split; [| exact B]).
        + intros <-. congruence.
        + intros <-. apply A. apply r_rev in B. congruence.
      - intros e'. rewrite elem_of_list_filter, r_eids. destruct (decide (e = e')) as [<- | Hne].
        + rewrite lookup_delete. split; [intros [? _]; congruence | intros [? ?]; discriminate].
        + rewrite lookup_delete_ne by congruence. split; [tauto |]. intros X. split; [congruence | exact X]. }
    set (l := enum (on s1 u)).
    assert (Hl : forall m, m ∈ l <-> m ∈ out w /\ u ∈ routes w m).
    { intros m. unfold l. rewrite (He _), elem_of_elements. apply (r_on _ _ R1). }
    assert (Hnd : NoDup l) by (unfold l; rewrite (He _); apply NoDup_elements).
    destruct (rel_stranded u l Hnd w1 s1 R1) as (R2 & S2 & O2 & P2). { intros m Hm. apply Hl in Hm. exact Hm. }
    split; [| split; [exact S2 | split]].
    + rewrite lose_fields in R2. unfold w1 in R2. cbn [live tasks requests out route res purged] in R2.
      assert (EL : filter (fun m => u ∈ routes w m) (out w) = list_to_set l).
      { apply set_eq. intros m. rewrite elem_of_filter, elem_of_list_to_set, Hl. tauto. }
      rewrite EL. exact R2.
    + intros u' m [= <-] H1 H2. apply O2, Hl. auto.
    + intros m Hm. destruct (decide (m ∈ l)) as [Y | N]; [apply O2, Y | rewrite P2 by exact N; exact Hm].
  - rewrite bool_decide_eq_false_2.
    + cbn [fst snd]. split; [exact R |]. split; [reflexivity |]. split; [discriminate | auto].
    + rewrite (r_eids _ _ R), E. intros [? ?]; discriminate.
Qed.

(** ** Purging *)
Lemma outstanding_out w s : rel w s -> outstanding s = out w.
Proof. intros R. apply set_eq. apply (r_out _ _ R). Qed.

Lemma rel_purge w s ids : rel w s -> rel (happens w (Purge ids)) (fst (purge ids s)).
Proof.
  intros R. unfold purge. cbn [happens]. rewrite (outstanding_out w s R).
  destruct (decide (out w ∩ ids = ∅)) as [E | E]; [| exact R]. cbn [fst].
  assert (D : forall m, m ∈ out w -> m ∉ ids).
  { intros m H1 H2. assert (X : m ∈ out w ∩ ids) by (apply elem_of_intersection; auto). rewrite E in X. set_solver. }
  assert (PU : forall m, m ∈ used w -> m ∈ purged w ∪ (ids ∩ used w) <-> m ∈ purged w \/ m ∈ ids).
  { intros m Hm. rewrite elem_of_union, elem_of_intersection. tauto. }
  destruct R. split; setters; cbn [live tasks requests out route res purged]; try assumption.
  - intros m Hm. destruct (r_pend m Hm) as (H1 & H2 & H3 & H4 & H5). repeat split; auto.
    + apply elem_of_difference. split; [exact H2 | apply D, Hm].
    + destruct (filter _ _ !! m) as [r |] eqn:X; [| reflexivity]. apply map_filter_lookup_Some in X. destruct X. congruence.
    + rewrite PU by (apply elem_of_union_l, H1). intros [? | X]; [contradiction | apply (D m Hm X)].
  - intros m Hm Hp Hf. rewrite PU in Hp by (apply elem_of_union_l, Hm).
    destruct (r_outp m Hm) as [A B]; [tauto | exact Hf |]. split; apply elem_of_difference; tauto.
  - intros m Hm Hn. rewrite elem_of_difference, PU, (r_req m Hm Hn) by (apply elem_of_union_r, Hm). tauto.
  - intros m Hm. apply elem_of_union in Hm. destruct Hm as [Hm | Hm]; [apply r_purged, Hm |]. apply elem_of_intersection in Hm. apply Hm.
  - intros m Hm. apply elem_of_difference in Hm. apply r_futs, Hm.
  - intros m Hm. destruct (filter _ _ !! m) as [r |] eqn:X; [| reflexivity]. apply map_filter_lookup_Some in X.
    destruct X as [X _]. rewrite r_results in X by exact Hm. discriminate.
Qed.
Lemma rel_purge_all w s : rel w s -> rel (happens w PurgeAll) (fst (purge_all s)).
Proof.
  intros R. unfold purge_all. cbn [happens]. rewrite (outstanding_out w s R).
  destruct (decide (out w = ∅)) as [E | E]; [| exact R]. cbn [fst].
  destruct R. split; setters; cbn [live tasks requests out route res purged]; try assumption.
  - intros m Hm. rewrite E in Hm. set_solver.
  - intros m Hm Hp. destruct Hp. apply elem_of_union_l, Hm.
  - intros m Hm Hn. split; [set_solver |]. intros X. destruct X. apply elem_of_union_r, Hm.
  - reflexivity.
  - set_solver.
  - intros m _. apply lookup_empty.
Qed.

(** ** Histories *)
Lemma rel_step enum w s e : enumerates enum -> rel w s -> may w e -> rel (happens w e) (fst (step enum s e)).
Proof.
  intros He R Hm. destruct e as [m i | m | n us c | x m us r | m v | m | e u | e | ids |]; cbn [step fst].
  - destruct Hm as (n & -> & Hf & _). apply rel_send; assumption.
  - destruct Hm as (n & -> & Hf & _). apply rel_request; assumption.
  - destruct Hm as [Hf Hnd]. apply rel_broadcast; assumption.
  - destruct Hm as (Ht & Ho & Hr). cbn [happens]. destruct (bool_decide (m ∈ out w)) eqn:E.
    + apply bool_decide_eq_true in E. apply rel_answer; [exact R | exact E |]. intros u Hu. left. apply Hr; assumption.
    + apply bool_decide_eq_false in E. apply rel_stale; [assumption | assumption | assumption |]. destruct Ho; [contradiction | assumption].
  - apply rel_single; assumption.
  - unfold idle. destruct (bool_decide _); [apply rel_output_done, R | exact R].
  - apply rel_register; assumption.
  - apply rel_unregister; assumption.
  - apply rel_purge, R.
  - apply rel_purge_all, R.
Qed.
Lemma rel_run enum l : enumerates enum -> forall w s, rel w s -> genuine_from w l ->
  rel (fold_left happens l w) (run enum s l).
Proof.
  intros He. induction l as [| e l IH]; intros w s R Hg; [exact R |]. destruct Hg as [Hm Hg].
  cbn [fold_left]. unfold run. cbn [fold_left]. apply IH; [| exact Hg]. apply rel_step; assumption.
Qed.
