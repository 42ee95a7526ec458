(** Proofs about views. *)
From stdpp Require Import base gmap sets list.
From Verif Require Import Dependency_Model Dependency_Spec Dependency_Proofs View_Model View_Spec.
From Verif Require Prelude.
From Coq Require Import ZArith Lia.

(** * Dependencies *)
Lemma dep_ids_ok l : forallb is_id l = true ->
  exists ids, dep_ids l = VOk ids /\ (list_to_set ids : gset nat) = ⋃ (map named l).
Proof.
  induction l as [| v l IH]; cbn [forallb dep_ids map]; intros H.
  - exists []. split; reflexivity.
  - apply andb_true_iff in H as [Hv Hl]. destruct (IH Hl) as (ids & E & Es). rewrite E.
    change (⋃ (named v :: map named l)) with (named v ∪ ⋃ (map named l)). rewrite <- Es.
    destruct v; try discriminate; eexists; (split; [reflexivity |]).
    + reflexivity.
    + cbn [named]. apply list_to_set_app_L.
Qed.

Lemma reads_as_meant v :
  constructed v -> validate_dependency v = VOk true ->
  exists r d, render_dependency v = VOk r /\ scheduler_reads r = Prelude.Ok d /\
    d_ids d = named v /\ d_all d = needs_all v /\ d_success d = on_success v /\ d_failure d = on_failure v.
Proof.
  intros Hc Hv. destruct v; cbn in Hv; try discriminate.
  - eexists _, _. split; [reflexivity |]. split; [reflexivity |]. cbn. auto.
  - eexists _, _. split; [reflexivity |]. split; [reflexivity |]. cbn.
    repeat split. rewrite list_to_set_elements_L. set_solver.
  - injection Hv as Hv. destruct (dep_ids_ok l Hv) as (ids & E & Es).
    unfold render_dependency, dependency. rewrite E.
    eexists _, _. split; [reflexivity |]. split; [reflexivity |]. cbn [d_ids d_all d_success d_failure named needs_all on_success on_failure].
    repeat split. rewrite list_to_set_elements_L. exact Es.
  - eexists _, _. split; [reflexivity |]. split; [reflexivity |]. cbn. auto.
  - destruct d as [ids a s f]. cbn [constructed d_success d_failure] in Hc.
    eexists _, (Dep ids a s f). split; [reflexivity |].
    unfold scheduler_reads, from_dict, as_dict, mk_dep. cbn [k_dependencies k_all k_success k_failure default d_ids d_all d_success d_failure].
    cbn [from_option]. unfold id. rewrite Hc. cbn [negb]. rewrite list_to_set_elements_L. auto.
  - destruct same_keys; discriminate.
Qed.

(** * Flags *)
Lemma set_flag_same f v s : set_flag f v s f = v.
Proof. unfold set_flag. destruct (decide (f = f)); congruence. Qed.
Lemma set_flag_other f g v s : f <> g -> set_flag f v s g = s g.
Proof. intros. unfold set_flag. destruct (decide (g = f)); congruence. Qed.

Lemma coerce_typed f v w : coerce f v = VOk w -> has_type f w.
Proof. destruct f, v; cbn; intros H; try discriminate; try exact I; injection H as <-; eauto. Qed.
Lemma coerce_fix f v : has_type f v -> coerce f v = VOk v.
Proof.
  destruct f; cbn; intros H; try reflexivity.
  - destruct H as [b ->]. reflexivity.
  - destruct H as [b ->]. reflexivity.
  - destruct H as [b ->]. reflexivity.
  - destruct H as [[b ->] | [b ->]]; reflexivity.
Qed.

Lemma set_attr_typed k f v s : f ∈ flag_names k -> well_typed k s -> well_typed k (fst (set_attr f v s)).
Proof.
  intros Hf Hw. unfold set_attr. destruct (coerce f v) as [w | e] eqn:E; [| exact Hw].
  intros g Hg. cbn [fst]. destruct (decide (f = g)) as [<- | Hne].
  - rewrite set_flag_same. apply (coerce_typed f v w E).
  - rewrite set_flag_other by exact Hne. apply Hw, Hg.
Qed.

Lemma set_flags_base_typed k kw : forall s, well_typed k s -> well_typed k (fst (set_flags_base k kw s)).
Proof.
  induction kw as [| [[f | x] v] r IH]; intros s Hw; cbn [set_flags_base]; [exact Hw | | exact Hw].
  destruct (decide (f ∈ flag_names k)) as [Hf | Hf]; [| exact Hw].
  pose proof (set_attr_typed k f v s Hf Hw) as H.
  destruct (set_attr f v s) as [s' [e |]]; [exact H | apply IH, H].
Qed.
Lemma check_dep_typed f kw s : f = Follow \/ f = After -> well_typed Balanced s -> well_typed Balanced (fst (check_dep f kw s)).
Proof.
  intros Hf Hw. unfold check_dep. destruct (kw_get f kw) as [v |]; [| exact Hw].
  destruct (validate_dependency v) as [[|] | e]; [| exact Hw | exact Hw].
  apply set_attr_typed; [| exact Hw]. destruct Hf as [-> | ->]; set_solver.
Qed.
Lemma check_timeout_typed kw s : well_typed Balanced s -> well_typed Balanced (fst (check_timeout kw s)).
Proof.
  intros Hw. unfold check_timeout. destruct (kw_get Timeout kw) as [v |]; [| exact Hw].
  destruct v; try exact Hw; try (apply set_attr_typed; [set_solver | exact Hw]);
  destruct (_ <? 0)%Z; try exact Hw; apply set_attr_typed; try exact Hw; set_solver.
Qed.
Lemma and_then_typed o k : well_typed Balanced (fst o) -> (forall s, well_typed Balanced s -> well_typed Balanced (fst (k s))) ->
  well_typed Balanced (fst (and_then o k)).
Proof. destruct o as [s [e |]]; cbn; auto. Qed.
Lemma set_flags_typed k kw s : well_typed k s -> well_typed k (fst (set_flags k kw s)).
Proof.
  destruct k; cbn [set_flags]; intros Hw; [apply set_flags_base_typed, Hw |].
  apply and_then_typed; [apply set_flags_base_typed, Hw |]. intros s1 H1.
  apply and_then_typed; [apply check_dep_typed; auto |]. intros s2 H2.
  apply and_then_typed; [apply check_dep_typed; auto |]. intros s3 H3.
  apply check_timeout_typed, H3.
Qed.

(** ** Restoring *)
Definition saved (k : kind) (s : flags) : kwargs := map (fun f => (inl f, s f)) (flag_names k).

(** Setting a list of well-typed values of existing flags sets exactly those. *)
Lemma set_flags_base_values k (s : flags) (l : list flag) : forall s2,
  (forall f, f ∈ l -> f ∈ flag_names k) -> (forall f, f ∈ l -> has_type f (s f)) ->
  exists s3, set_flags_base k (map (fun f => (inl f, s f)) l) s2 = (s3, None) /\
    forall f, s3 f = if decide (f ∈ l) then s f else s2 f.
Proof.
  induction l as [| g l IH]; intros s2 Hn Ht; cbn [map set_flags_base].
  - exists s2. split; [reflexivity |]. intros f. destruct (decide (f ∈ [])) as [H | H]; [inversion H | reflexivity].
  - rewrite decide_True by (apply Hn; left). unfold set_attr. rewrite coerce_fix by (apply Ht; left).
    destruct (IH (set_flag g (s g) s2)) as (s3 & E & H3); [set_solver | set_solver |].
    exists s3. split; [exact E |]. intros f. rewrite H3.
    destruct (decide (f ∈ l)) as [Hl | Hl].
    + rewrite decide_True by (right; exact Hl). reflexivity.
    + destruct (decide (f = g)) as [-> | Hne].
      * rewrite decide_True by left. apply set_flag_same.
      * rewrite decide_False by (intros H; inversion H; congruence). apply set_flag_other. congruence.
Qed.

Lemma kw_get_saved s (f : flag) l : f ∈ l -> kw_get f (map (fun f => (inl f, s f)) l) = Some (s f).
Proof.
  induction l as [| g l IH]; intros H; [inversion H |]. cbn [map kw_get].
  destruct (decide (f = g)) as [-> | Hne]; [reflexivity |]. apply IH. inversion H; [contradiction | assumption].
Qed.

Lemma acceptable_valid v : acceptable v -> validate_dependency v = VOk true.
Proof.
  destruct v; cbn; try contradiction; intros H; try reflexivity.
  f_equal. apply forallb_forall. intros x Hx. destruct (H x) as [[m ->] | [ms ->]];
  [apply elem_of_list_In, Hx | reflexivity | reflexivity].
Qed.
Lemma valid_acceptable v : validate_dependency v = VOk true -> acceptable v.
Proof.
  destruct v; cbn; try discriminate; auto.
  - intros H x Hx. injection H as H. rewrite forallb_forall in H. apply elem_of_list_In in Hx.
    specialize (H x Hx). destruct x; try discriminate; eauto.
  - destruct same_keys; discriminate.
Qed.

Definition same_flags (k : kind) (s s' : flags) : Prop := forall f, f ∈ flag_names k -> s' f = s f.

Lemma set_saved k s s2 : well_typed k s ->
  exists s3 r, set_flags k (saved k s) s2 = (s3, r) /\ same_flags k s s3 /\ (sound k s -> r = None).
Proof.
  intros Hw.
  destruct (set_flags_base_values k s (flag_names k) s2) as (s3 & E & H3); [auto | exact Hw |].
  assert (Hs3 : same_flags k s s3) by (intros f Hf; rewrite H3, decide_True by exact Hf; reflexivity).
  destruct k; cbn [set_flags].
  { exists s3, None. auto. }
  fold (saved Balanced s) in E. rewrite E. cbn [and_then].
  assert (Hg : forall f, f ∈ flag_names Balanced -> kw_get f (saved Balanced s) = Some (s f)).
  { intros f Hf. apply kw_get_saved, Hf. }
  assert (HD : forall f s', f = Follow \/ f = After -> same_flags Balanced s s' ->
     exists s'' r, check_dep f (saved Balanced s) s' = (s'', r) /\ same_flags Balanced s s'' /\
       (acceptable (s f) -> r = None)).
  { intros f s' Hf Hs'. unfold check_dep. rewrite Hg by (destruct Hf as [-> | ->]; set_solver).
    destruct (validate_dependency (s f)) as [[|] | e] eqn:Ev.
    - unfold set_attr. replace (coerce f (s f)) with (@VOk value (s f)) by (destruct Hf as [-> | ->]; reflexivity).
      exists (set_flag f (s f) s'), None. split; [reflexivity |]. split; [| auto].
      intros g Hg'. destruct (decide (f = g)) as [<- | Hne]; [apply set_flag_same |].
      rewrite set_flag_other by exact Hne. apply Hs', Hg'.
    - exists s', (Some ValueErr). split; [reflexivity |]. split; [exact Hs' |].
      intros Ha. apply acceptable_valid in Ha. congruence.
    - exists s', (Some e). split; [reflexivity |]. split; [exact Hs' |].
      intros Ha. apply acceptable_valid in Ha. congruence. }
  destruct (HD Follow s3 (or_introl eq_refl) Hs3) as (s4 & r4 & E4 & H4 & R4). rewrite E4.
  destruct r4 as [e |]; cbn [and_then].
  { exists s4, (Some e). split; [reflexivity |]. split; [exact H4 |].
    intros (_ & Hf & _). specialize (R4 Hf). discriminate. }
  destruct (HD After s4 (or_intror eq_refl) H4) as (s5 & r5 & E5 & H5 & R5). rewrite E5.
  destruct r5 as [e |]; cbn [and_then].
  { exists s5, (Some e). split; [reflexivity |]. split; [exact H5 |].
    intros (_ & _ & Ha & _). specialize (R5 Ha). discriminate. }
  unfold check_timeout. rewrite Hg by set_solver.
  destruct (Hw Timeout) as [z Hz]; [set_solver |]. rewrite Hz.
  destruct (z <? 0)%Z eqn:Ez.
  - exists s5, (Some ValueErr). split; [reflexivity |]. split; [exact H5 |].
    intros (_ & _ & _ & Ht). specialize (Ht z Hz). apply Z.ltb_lt in Ez. lia.
  - unfold set_attr. cbn [coerce]. exists (set_flag Timeout (VFloat z) s5), None.
    split; [reflexivity |]. split; [| auto].
    intros g Hg'. destruct (decide (Timeout = g)) as [<- | Hne]; [rewrite set_flag_same; congruence |].
    rewrite set_flag_other by exact Hne. apply H5, Hg'.
Qed.

(** ** What set_flags does *)
Lemma set_attr_other f g v s : f <> g -> fst (set_attr f v s) g = s g.
Proof. intros H. unfold set_attr. destruct (coerce f v); [apply set_flag_other, H | reflexivity]. Qed.

Lemma base_untouched k kw g : forall s, kw_get g kw = None -> fst (set_flags_base k kw s) g = s g.
Proof.
  induction kw as [| [[f | x] v] r IH]; intros s H; cbn [set_flags_base]; [reflexivity | | reflexivity].
  cbn [kw_get] in H. destruct (decide (g = f)) as [-> | Hne]; [discriminate |].
  destruct (decide _) as [Hin |]; [| reflexivity].
  assert (E : fst (set_attr f v s) g = s g) by (apply set_attr_other; congruence).
  destruct (set_attr f v s) as [s' [e |]]; cbn [fst] in *; [exact E |]. rewrite IH by exact H. exact E.
Qed.
Lemma and_then_untouched o k g (x : value) : fst o g = x -> (forall s, s g = x -> fst (k s) g = x) -> fst (and_then o k) g = x.
Proof. destruct o as [s [e |]]; cbn; auto. Qed.

Lemma set_flags_untouched k kw s g : kw_get g kw = None -> fst (set_flags k kw s) g = s g.
Proof.
  intros H. destruct k; cbn [set_flags]; [apply base_untouched, H |].
  assert (HD : forall f s, fst (check_dep f kw s) g = s g).
  { intros f s'. unfold check_dep. destruct (kw_get f kw) as [v |] eqn:E; [| reflexivity].
    assert (f <> g) by congruence.
    destruct (validate_dependency v) as [[|] | e]; [apply set_attr_other; congruence | reflexivity | reflexivity]. }
  apply and_then_untouched; [apply base_untouched, H |]. intros s1 H1.
  apply and_then_untouched; [rewrite HD; exact H1 |]. intros s2 H2.
  apply and_then_untouched; [rewrite HD; exact H2 |]. intros s3 H3.
  unfold check_timeout. destruct (kw_get Timeout kw) as [v |] eqn:E; [| exact H3].
  assert (Timeout <> g) by congruence.
  destruct v; try exact H3; try (rewrite set_attr_other by congruence; exact H3);
  destruct (_ <? 0)%Z; try exact H3; rewrite set_attr_other by congruence; exact H3.
Qed.

(** A call that returns has set every flag it was given, converted to its type. *)
Lemma base_sets k kw : forall s s', NoDup (map fst kw) -> set_flags_base k kw s = (s', None) ->
  forall f v, (inl f, v) ∈ kw -> f ∈ flag_names k /\ coerce f v = VOk (s' f).
Proof.
  induction kw as [| [[f | x] v] r IH]; intros s s' Hnd E g w Hin; cbn [set_flags_base] in E.
  - inversion Hin.
  - cbn [map fst] in Hnd. apply NoDup_cons in Hnd as [Hni Hnd].
    destruct (decide (f ∈ flag_names k)) as [Hf | Hf]; [| discriminate].
    unfold set_attr in E. destruct (coerce f v) as [u | e] eqn:Ec; [| discriminate].
    apply elem_of_cons in Hin as [Heq | Hin].
    + injection Heq as -> ->. split; [exact Hf |]. rewrite Ec. f_equal.
      assert (Hk : kw_get f r = None).
      { destruct (kw_get f r) as [y |] eqn:Ek; [| reflexivity]. exfalso. apply Hni.
        clear -Ek. induction r as [| [[h | h] z] r IH]; cbn [kw_get] in Ek; [discriminate | |].
        - destruct (decide (f = h)) as [-> | Hne]; [left | right; apply IH, Ek].
        - right; apply IH, Ek. }
      pose proof (base_untouched k r f (set_flag f u s) Hk) as H.
      rewrite E in H. cbn [fst] in H. rewrite H. symmetry. apply set_flag_same.
    + apply (IH _ s' Hnd E g w Hin).
  - discriminate.
Qed.

Lemma coerce_held f v w : coerce f v = VOk w -> w = held f v.
Proof. destruct f, v; cbn; intros H; try discriminate; injection H as <-; reflexivity. Qed.

Definition holds_all (kw : kwargs) (s : flags) : Prop := forall f v, (inl f, v) ∈ kw -> coerce f v = VOk (s f).
Lemma kw_get_in f kw v : kw_get f kw = Some v -> (inl f, v) ∈ kw.
Proof.
  induction kw as [| [[g | x] w] r IH]; cbn [kw_get]; [discriminate | |].
  - destruct (decide (f = g)) as [-> | Hne]; [intros [= ->]; left | right; auto].
  - right; auto.
Qed.
Lemma in_kw_get f kw v : NoDup (map fst kw) -> (inl f, v) ∈ kw -> kw_get f kw = Some v.
Proof.
  induction kw as [| [[g | x] w] r IH]; intros Hnd Hin; [inversion Hin | |];
  cbn [map fst] in Hnd; apply NoDup_cons in Hnd as [Hni Hnd]; cbn [kw_get]; apply elem_of_cons in Hin as [Heq | Hin].
  - injection Heq as -> ->. rewrite decide_True by reflexivity. reflexivity.
  - destruct (decide (f = g)) as [-> | Hne]; [| auto]. exfalso. apply Hni.
    apply elem_of_list_fmap. exists (inl g, v). auto.
  - discriminate.
  - auto.
Qed.
Lemma set_attr_holds kw f v s s' : NoDup (map fst kw) -> kw_get f kw = Some v -> holds_all kw s ->
  set_attr f v s = (s', None) -> holds_all kw s'.
Proof.
  intros Hnd Hg Hh E. unfold set_attr in E. destruct (coerce f v) as [w | e] eqn:Ec; [| discriminate].
  injection E as <-. intros g u Hin. destruct (decide (f = g)) as [<- | Hne].
  - rewrite set_flag_same. rewrite (in_kw_get f kw u Hnd Hin) in Hg. injection Hg as <-. exact Ec.
  - rewrite set_flag_other by exact Hne. apply Hh, Hin.
Qed.

Lemma set_flags_holds k kw s s' : NoDup (map fst kw) -> set_flags k kw s = (s', None) ->
  holds_all kw s' /\ (forall f v, (inl f, v) ∈ kw -> f ∈ flag_names k) /\ (forall x v, (inr x, v) ∉ kw).
Proof.
  intros Hnd E.
  assert (Hb : exists s1, set_flags_base k kw s = (s1, None)).
  { destruct k; cbn [set_flags] in E; [eauto |].
    destruct (set_flags_base Balanced kw s) as [s1 [e |]]; [discriminate | eauto]. }
  destruct Hb as [s1 Eb].
  assert (H1 : holds_all kw s1) by (intros f v Hin; apply (base_sets k kw s s1 Hnd Eb f v Hin)).
  split; [| split].
  - destruct k; cbn [set_flags] in E; [rewrite Eb in E; injection E as <-; exact H1 |]. rewrite Eb in E. cbn [and_then] in E.
    assert (HD : forall f s r s', check_dep f kw s = (s', r) -> r = None -> holds_all kw s -> holds_all kw s').
    { intros f sa r sb Ed -> Ha. unfold check_dep in Ed. destruct (kw_get f kw) as [v |] eqn:Eg; [| injection Ed as <-; exact Ha].
      destruct (validate_dependency v) as [[|] | e]; try discriminate. apply (set_attr_holds kw f v sa sb Hnd Eg Ha Ed). }
    destruct (check_dep Follow kw s1) as [s2 [e |]] eqn:E2; [discriminate |]. cbn [and_then] in E.
    destruct (check_dep After kw s2) as [s3 [e |]] eqn:E3; [discriminate |]. cbn [and_then] in E.
    assert (H2 : holds_all kw s2) by (eapply HD; eauto).
    assert (H3 : holds_all kw s3) by (eapply HD; eauto).
    unfold check_timeout in E. destruct (kw_get Timeout kw) as [v |] eqn:Eg; [| injection E as <-; exact H3].
    destruct v; try discriminate; try (destruct (_ <? 0)%Z; [discriminate |]);
      try (apply (set_attr_holds kw Timeout _ s3 s' Hnd Eg H3 E)).
  - intros f v Hin. apply (base_sets k kw s s1 Hnd Eb f v Hin).
  - clear -Eb. revert s Eb. induction kw as [| [[f | y] w] r IH]; intros s Eb x v Hin; cbn [set_flags_base] in Eb.
    + inversion Hin.
    + destruct (decide _) as [Hdec |]; [| discriminate]. destruct (set_attr f w s) as [s2 [er |]]; [discriminate |].
      apply elem_of_cons in Hin as [? | Hin]; [discriminate |]. apply (IH s2 Eb x v Hin).
    + discriminate.
Qed.

Lemma set_flags_sound k kw s s' : NoDup (map fst kw) -> set_flags k kw s = (s', None) -> sound k s -> sound k s'.
Proof.
  intros Hnd E [Hw Hk]. split.
  { pose proof (set_flags_typed k kw s Hw) as H. rewrite E in H. exact H. }
  destruct k; [exact I |]. destruct Hk as (Hf & Ha & Ht).
  destruct (set_flags_holds Balanced kw s s' Hnd E) as (Hh & _ & _).
  assert (Hu : forall f, kw_get f kw = None -> s' f = s f).
  { intros f Hn. pose proof (set_flags_untouched Balanced kw s f Hn) as H. rewrite E in H. exact H. }
  cbn [set_flags] in E.
  destruct (set_flags_base Balanced kw s) as [s1 [e |]]; [discriminate |]. cbn [and_then] in E.
  destruct (check_dep Follow kw s1) as [s2 [e |]] eqn:E2; [discriminate |]. cbn [and_then] in E.
  destruct (check_dep After kw s2) as [s3 [e |]] eqn:E3; [discriminate |]. cbn [and_then] in E.
  assert (HD : forall f sa sb, f = Follow \/ f = After -> check_dep f kw sa = (sb, None) -> acceptable (s f) -> acceptable (s' f)).
  { intros f sa sb Hff Ed Hs. unfold check_dep in Ed. destruct (kw_get f kw) as [v |] eqn:Eg.
    - pose proof (Hh f v (kw_get_in f kw v Eg)) as Hc.
      assert (s' f = v) as -> by (destruct Hff as [-> | ->]; cbn in Hc; congruence).
      apply valid_acceptable. destruct (validate_dependency v) as [[|] | e]; congruence.
    - rewrite (Hu f Eg). exact Hs. }
  split; [apply (HD Follow s1 s2); auto |]. split; [apply (HD After s2 s3); auto |].
  intros z Hz. unfold check_timeout in E. destruct (kw_get Timeout kw) as [v |] eqn:Eg.
  - pose proof (Hh Timeout v (kw_get_in Timeout kw v Eg)) as Hc. rewrite Hz in Hc.
    destruct v as [| b | y | y | | | | | |]; try discriminate.
    + cbn in Hc. injection Hc as <-. destruct b; lia.
    + cbn in Hc. injection Hc as <-. destruct (y <? 0)%Z eqn:Ey; [discriminate |]. apply Z.ltb_ge in Ey. exact Ey.
    + cbn in Hc. injection Hc as <-. destruct (y <? 0)%Z eqn:Ey; [discriminate |]. apply Z.ltb_ge in Ey. exact Ey.
  - apply Ht. rewrite <- (Hu Timeout Eg). exact Hz.
Qed.
