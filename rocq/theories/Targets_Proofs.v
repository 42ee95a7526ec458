(** Proofs about Targets_Model. *)
From stdpp Require Import base gmap list sorting strings.
From Coq Require Import ZArith Ascii Lia.
From Verif Require Import Targets_Spec Targets_Model.

Section proofs.
Context {U : Type}.
Implicit Types (s : @registry U) (h : list (event U)).

(** ** The registry *)
Definition inv s := StronglySorted lt (ids s) /\ forall e, e ∈ ids s <-> is_Some (engines s !! e).

Lemma sorted_nodup l : StronglySorted lt l -> NoDup l.
Proof.
  induction 1 as [| x l S IH F]; constructor; [| exact IH]. intros X. rewrite Forall_forall in F. specialize (F x X). lia.
Qed.
Lemma le_lt_sorted l : NoDup l -> StronglySorted Nat.le l -> StronglySorted lt l.
Proof.
  intros N S. induction S as [| x l S IH F]; constructor; inversion N; subst; [apply IH; assumption |].
  apply Forall_forall. intros y Hy. rewrite Forall_forall in F. specialize (F y Hy). assert (x <> y) by (intros ->; contradiction). unfold Nat.le in F. lia.
Qed.
Lemma merge_lt l : NoDup l -> StronglySorted lt (merge_sort Nat.le l).
Proof.
  intros N. apply le_lt_sorted; [rewrite merge_sort_Permutation; exact N |]. apply Sorted_StronglySorted; [intros x y z; unfold Nat.le; lia |].
  apply Sorted_merge_sort. intros x y. unfold Nat.le. lia.
Qed.
Lemma elem_merge e l : e ∈ merge_sort Nat.le l <-> e ∈ l.
Proof. rewrite merge_sort_Permutation. reflexivity. Qed.
Lemma remove_sorted e l : StronglySorted lt l -> StronglySorted lt (remove e l) /\ forall x, x ∈ remove e l <-> x ∈ l /\ x <> e.
Proof.
  intros S. assert (N := sorted_nodup l S). induction S as [| x l S IH F]; cbn [remove].
  - split; [constructor |]. intros x. rewrite elem_of_nil. tauto.
  - inversion N; subst. destruct IH as [IH1 IH2]; [assumption |]. destruct (decide (e = x)) as [-> | Hne].
    + split; [exact S |]. intros y. rewrite elem_of_cons. split; [intros Hy; split; [auto | intros ->; contradiction] | intros [[-> | Hy] X]; [congruence | exact Hy]].
    + split.
      * constructor; [exact IH1 |]. apply Forall_forall. intros y Hy. apply IH2 in Hy. rewrite Forall_forall in F. apply F, Hy.
      * intros y. rewrite !elem_of_cons, IH2. split; [intros [-> | [Hy X]]; [split; [auto | congruence] | auto] | intros [[-> | Hy] X]; auto].
Qed.
Lemma handle_inv ev s : inv s -> inv (handle ev s) /\
  forall e u, engines (handle ev s) !! e = Some u <->
    match ev with
    | Register x v => if decide (e = x) then u = v else engines s !! e = Some u
    | Unregister x => e <> x /\ engines s !! e = Some u
    end.
Proof.
  intros [S I]. destruct ev as [x v | x]; cbn [handle].
  - cbn [ids engines]. split.
    + split; cbn [ids engines].
      * apply merge_lt. destruct (decide (is_Some (engines s !! x))) as [Y | N]; [apply sorted_nodup, S |].
        apply NoDup_app. split; [apply sorted_nodup, S |]. split; [| apply NoDup_singleton].
        intros y Hy Hx. apply elem_of_list_singleton in Hx. subst. apply N, I, Hy.
      * intros e. rewrite elem_merge. destruct (decide (e = x)) as [-> | Hne].
        -- rewrite lookup_insert. split; [eauto |]. intros _. destruct (decide (is_Some (engines s !! x))) as [Y | N]; [apply I, Y |].
           apply elem_of_app. right. left.
        -- rewrite lookup_insert_ne by congruence. split; intros X; [apply I; revert X | apply I in X; revert X]; destruct (decide (is_Some (engines s !! x))) as [Y | N]; try tauto;
           rewrite elem_of_app, elem_of_list_singleton; tauto.
    + intros e u. destruct (decide (e = x)) as [-> | Hne]; [rewrite lookup_insert | rewrite lookup_insert_ne by congruence]; [split; congruence | reflexivity].
  - destruct (decide (x ∈ ids s)) as [Y | N].
    + destruct (remove_sorted x (ids s) S) as [R1 R2]. split.
      * split; cbn [ids engines]; [exact R1 |]. intros e. rewrite R2, I. destruct (decide (e = x)) as [-> | Hne].
        -- rewrite lookup_delete. split; [tauto | intros [? X]; discriminate].
        -- rewrite lookup_delete_ne by congruence. tauto.
      * intros e u. cbn [engines]. destruct (decide (e = x)) as [-> | Hne].
        -- rewrite lookup_delete. split; [discriminate | tauto].
        -- rewrite lookup_delete_ne by congruence. tauto.
    + split; [split; assumption |]. intros e u. split; [| tauto]. intros X. split; [| exact X]. intros ->. apply N, I. eauto.
Qed.
Lemma run_snoc h ev : run (h ++ [ev]) = handle ev (run h).
Proof. unfold run. rewrite fold_left_app. reflexivity. Qed.
Lemma run_inv h : inv (run h).
Proof.
  induction h as [| ev h IH] using rev_ind; [| rewrite run_snoc; apply handle_inv, IH].
  split; cbn; [constructor |]. intros e. rewrite elem_of_nil, lookup_empty. split; [tauto | intros [? X]; discriminate].
Qed.
Lemma present_nil e (u : U) : ~ present [] e u.
Proof. intros (h1 & h2 & E & _). destruct h1; discriminate. Qed.
Lemma present_snoc h ev e u : present (h ++ [ev]) e u <->
  match ev with
  | Register x v => if decide (e = x) then u = v else present h e u
  | Unregister x => e <> x /\ present h e u
  end.
Proof.
  assert (K : about e ev = false -> present (h ++ [ev]) e u <-> present h e u).
  { intros A. split.
    - intros (h1 & h2 & E & N). destruct h2 as [| y h2 _] using rev_ind.
      + apply app_inj_tail in E. destruct E as [_ ->]. cbn in A. rewrite Nat.eqb_refl in A. discriminate.
      + change (h1 ++ Register e u :: h2 ++ [y]) with (h1 ++ (Register e u :: h2) ++ [y]) in E. rewrite app_assoc in E.
        apply app_inj_tail in E. destruct E as [-> ->]. exists h1, h2. split; [reflexivity |]. intros x Hx. apply N, elem_of_app. auto.
    - intros (h1 & h2 & -> & N). exists h1, (h2 ++ [ev]). split; [rewrite <- app_assoc; reflexivity |].
      intros x Hx. apply elem_of_app in Hx. destruct Hx as [Hx | Hx]; [apply N, Hx |]. apply elem_of_list_singleton in Hx. subst. exact A. }
  destruct (decide (about e ev = false)) as [A | A].
  - rewrite K by exact A. destruct ev as [x v | x]; cbn in A; apply Nat.eqb_neq in A; [rewrite decide_False by exact A; reflexivity | tauto].
  - apply not_false_is_true in A. destruct ev as [x v | x]; cbn in A; apply Nat.eqb_eq in A; subst x.
    + rewrite decide_True by reflexivity. split.
      * intros (h1 & h2 & E & N). destruct h2 as [| y h2 _] using rev_ind.
        -- apply app_inj_tail in E. destruct E as [_ E]. congruence.
        -- change (h1 ++ Register e u :: h2 ++ [y]) with (h1 ++ (Register e u :: h2) ++ [y]) in E. rewrite app_assoc in E.
           apply app_inj_tail in E. destruct E as [_ <-]. exfalso.
           assert (X : about e (Register e v) = false) by (apply N, elem_of_app; right; left). cbn in X. rewrite Nat.eqb_refl in X. discriminate.
      * intros ->. exists h, []. split; [reflexivity |]. intros x Hx. inversion Hx.
    + split; [| tauto]. intros (h1 & h2 & E & N). exfalso. destruct h2 as [| y h2 _] using rev_ind.
      * apply app_inj_tail in E. destruct E as [_ E]. discriminate.
      * change (h1 ++ Register e u :: h2 ++ [y]) with (h1 ++ (Register e u :: h2) ++ [y]) in E. rewrite app_assoc in E.
        apply app_inj_tail in E. destruct E as [_ <-].
        assert (X : about e (Unregister (U:=U) e) = false) by (apply N, elem_of_app; right; left). cbn in X. rewrite Nat.eqb_refl in X. discriminate.
Qed.
Lemma run_engines h e u : engines (run h) !! e = Some u <-> present h e u.
Proof.
  induction h as [| ev h IH] using rev_ind.
  - cbn. rewrite lookup_empty. split; [discriminate | intros H; destruct (present_nil _ _ H)].
  - rewrite run_snoc, present_snoc. destruct (handle_inv ev (run h) (run_inv h)) as [_ ->].
    destruct ev as [x v | x]; [destruct (decide (e = x)); [reflexivity | exact IH] | rewrite IH; reflexivity].
Qed.
Lemma sorted_unique l l' : StronglySorted lt l -> StronglySorted lt l' -> (forall e, e ∈ l <-> e ∈ l') -> l = l'.
Proof.
  intros S S' H. apply (StronglySorted_unique Nat.le).
  - clear -S. induction S as [| x l S IH F]; constructor; [exact IH |]. eapply Forall_impl; [exact F |]. intros y. unfold Nat.le. lia.
  - clear -S'. induction S' as [| x l S IH F]; constructor; [exact IH |]. eapply Forall_impl; [exact F |]. intros y. unfold Nat.le. lia.
  - apply NoDup_Permutation; [apply sorted_nodup, S | apply sorted_nodup, S' | exact H].
Qed.

(** ** Slices *)
Lemma adjust_bound n step x : (0 <= n)%Z -> step <> 0%Z -> adjust n step x = bound n step x.
Proof.
  intros Hn Hs. unfold adjust, bound.
  destruct (Z.ltb_spec x 0), (Z.ltb_spec step 0), (Z.ltb_spec 0 step), (Z.ltb_spec (x + n) 0), (Z.leb_spec n x); lia.
Qed.
Lemma range_length_spec a b step k : step <> 0%Z ->
  k < Z.to_nat (range_length a b step) <-> if (0 <? step)%Z then (a + Z.of_nat k * step < b)%Z else (a + Z.of_nat k * step > b)%Z.
Proof.
  intros Hs. unfold range_length. destruct (Z.ltb_spec 0 step).
  - destruct (Z.ltb_spec a b).
    + assert (P := Z.div_pos (b - a - 1) step ltac:(lia) ltac:(lia)). rewrite Z2Nat.inj_add by lia.
      split; intros Hk.
      * assert (Hk' : (Z.of_nat k <= (b - a - 1) / step)%Z) by lia.
        assert (M := Z.mul_div_le (b - a - 1) step ltac:(lia)). nia.
      * assert (Hk' : (Z.of_nat k <= (b - a - 1) / step)%Z) by (apply Z.div_le_lower_bound; lia). lia.
    + split; intros; [lia | nia].
  - destruct (Z.ltb_spec b a).
    + assert (P := Z.div_pos (a - b - 1) (- step) ltac:(lia) ltac:(lia)). rewrite Z2Nat.inj_add by lia.
      split; intros Hk.
      * assert (Hk' : (Z.of_nat k <= (a - b - 1) / (- step))%Z) by lia.
        assert (M := Z.mul_div_le (a - b - 1) (- step) ltac:(lia)). nia.
      * assert (Hk' : (Z.of_nat k <= (a - b - 1) / (- step))%Z) by (apply Z.div_le_lower_bound; lia). lia.
    + split; intros; [lia | nia].
Qed.
Lemma range_selected n start stop step : (0 <= n)%Z -> default 1%Z step <> 0%Z ->
  exists l, slice_range n start stop step = Some l /\ selected n start stop (default 1%Z step) l /\
    forall i, i ∈ l -> (0 <= i < n)%Z.
Proof.
  intros Hn Hs. unfold slice_range. set (st := default 1%Z step) in *.
  destruct (Z.eqb_spec st 0) as [E | _]; [contradiction |].
  set (a := match start with Some x => _ | None => _ end). set (b := match stop with Some x => _ | None => _ end).
  assert (Ea : a = slice_start n st start).
  { unfold a, slice_start. destruct start; [apply adjust_bound; assumption |]. destruct (Z.ltb_spec st 0), (Z.ltb_spec 0 st); lia. }
  assert (Eb : b = slice_stop n st stop).
  { unfold b, slice_stop. destruct stop; [apply adjust_bound; assumption |]. destruct (Z.ltb_spec st 0), (Z.ltb_spec 0 st); lia. }
  exists (range a b st). split; [reflexivity |].
  assert (Hl : forall k i, range a b st !! k = Some i -> i = (a + Z.of_nat k * st)%Z /\ k < Z.to_nat (range_length a b st)).
  { intros k i H. unfold range in H. apply list_lookup_fmap_Some in H. destruct H as (x & H & ->).
    apply lookup_seq in H. destruct H as [-> H]. split; [reflexivity | exact H]. }
  assert (Hlen : length (range a b st) = Z.to_nat (range_length a b st)) by (unfold range; rewrite fmap_length, seq_length; reflexivity).
  split.
  - unfold selected. cbv zeta. rewrite <- Ea, <- Eb. split; [intros k i H; apply (Hl k i H) |]. intros k. rewrite Hlen. apply range_length_spec, Hs.
  - intros i Hi. apply elem_of_list_lookup in Hi. destruct Hi as (k & Hi). apply Hl in Hi. destruct Hi as [-> Hk].
    apply range_length_spec in Hk; [| exact Hs]. rewrite Ea, Eb in *. clear Ea Eb Hl Hlen. unfold slice_start, slice_stop, bound in *. clearbody st. clear a b.
    destruct (Z.ltb_spec 0 st).
    + assert (0 <= Z.of_nat k * st)%Z by nia. destruct start, stop; try lia.
    + assert (Z.of_nat k * st <= 0)%Z by nia. destruct start, stop; try lia.
Qed.
Lemma selected_unique n a b step l l' : step <> 0%Z -> selected n a b step l -> selected n a b step l' -> l = l'.
Proof.
  intros Hs [H1 H2] [H1' H2'].
  assert (E : length l = length l').
  { destruct (Nat.lt_trichotomy (length l) (length l')) as [X | [X | X]]; [| exact X |].
    - apply H2' in X. apply H2 in X. lia.
    - apply H2 in X. apply H2' in X. lia. }
  apply list_eq. intros k. destruct (l !! k) as [x |] eqn:Ex, (l' !! k) as [y |] eqn:Ey; [| | | reflexivity].
  - rewrite (H1 k x Ex), (H1' k y Ey). reflexivity.
  - apply lookup_lt_Some in Ex. apply lookup_ge_None in Ey. lia.
  - apply lookup_lt_Some in Ey. apply lookup_ge_None in Ex. lia.
Qed.

(** ** Strings *)
Lemma lower_char_is c d : lower_char c = d -> d = "a"%char \/ d = "l"%char -> c = d \/ (d = "a"%char /\ c = "A"%char) \/ (d = "l"%char /\ c = "L"%char).
Proof.
  intros H D. destruct c as [[] [] [] [] [] [] [] []]; vm_compute in H; subst d; destruct D as [D | D]; try discriminate; auto.
Qed.
Lemma lower_all (w : string) : lower w = "all"%string <-> says_all w.
Proof.
  split.
  - intros H. destruct w as [| a [| b [| c [| d w]]]]; try discriminate. cbn in H. injection H as A B C.
    exists a, b, c. split; [reflexivity |].
    apply lower_char_is in A; [| auto]. apply lower_char_is in B; [| auto]. apply lower_char_is in C; [| auto].
    split; [| split]; rewrite !elem_of_cons; intuition (try discriminate; auto).
  - intros (a & b & c & -> & A & B & C). rewrite !elem_of_cons in A, B, C.
    destruct A as [-> | [-> | A]]; [| | inversion A]; destruct B as [-> | [-> | B]]; try inversion B;
      destruct C as [-> | [-> | C]]; try inversion C; reflexivity.
Qed.

(** ** build_targets *)
Lemma all_some_Some {A} (l : list (option A)) r : all_some l = Some r <-> Forall2 (fun o x => o = Some x) l r.
Proof.
  revert r. induction l as [| [x |] l IH]; intros r; cbn [all_some].
  - split; [intros [= <-]; constructor | intros H; inversion H; reflexivity].
  - destruct (all_some l) as [r' |].
    + split.
      * intros [= <-]. constructor; [reflexivity | apply IH; reflexivity].
      * intros H. inversion H as [| a b c d E F]; subst. injection E as <-. apply IH in F. congruence.
    + split; [discriminate |]. intros H. inversion H as [| a b c d E F]; subst. apply IH in F. discriminate.
  - split; [discriminate |]. intros H. inversion H as [| a b c d E F]. discriminate.
Qed.
Lemma all_some_None {A} (l : list (option A)) : all_some l = None <-> None ∈ l.
Proof.
  induction l as [| [x |] l IH]; cbn [all_some].
  - rewrite elem_of_nil. split; [discriminate | tauto].
  - rewrite elem_of_cons. destruct (all_some l) as [r |]; [split; [discriminate |] | split; [intros _; right; apply IH; reflexivity | reflexivity]].
    intros [X | X]; [discriminate | apply IH in X; discriminate].
  - split; [intros _; left | reflexivity].
Qed.
Lemma uuid_Some s x u : uuid s x = Some u <-> exists e, x = Z.of_nat e /\ engines s !! e = Some u.
Proof.
  unfold uuid. destruct (Z.ltb_spec x 0).
  - split; [discriminate |]. intros (e & -> & _). lia.
  - split; [intros H'; exists (Z.to_nat x); split; [lia | exact H'] | intros (e & -> & E); rewrite Nat2Z.id; exact E].
Qed.
Lemma finish_ok s l : inv s -> (forall x, x ∈ l -> exists e, e ∈ ids s /\ x = Z.of_nat e) ->
  exists us, finish s l = Chosen us l /\ Forall2 (fun x u => exists e, x = Z.of_nat e /\ engines s !! e = Some u) l us.
Proof.
  intros [_ I] H. unfold finish. destruct (all_some (map (uuid s) l)) as [us |] eqn:E.
  - exists us. split; [reflexivity |]. apply all_some_Some in E. change (map (uuid s) l) with (uuid s <$> l) in E. apply Forall2_fmap_l in E.
    eapply Forall2_impl; [exact E |]. intros x u Hx. apply uuid_Some, Hx.
  - exfalso. apply all_some_None in E. apply elem_of_list_fmap in E. destruct E as (x & E & Hx). destruct (H x Hx) as (e & He & ->).
    apply I in He. destruct He as [u Hu]. assert (X : uuid s (Z.of_nat e) = Some u) by (apply uuid_Some; eauto). congruence.
Qed.
Lemma finish_bad s l x : inv s -> x ∈ l -> (forall e, e ∈ ids s -> x <> Z.of_nat e) -> finish s l = KeyError.
Proof.
  intros [_ I] Hx H. unfold finish. replace (all_some (map (uuid s) l)) with (@None (list U)); [reflexivity |]. symmetry.
  apply all_some_None. apply elem_of_list_fmap. exists x. split; [| exact Hx]. destruct (uuid s x) as [u |] eqn:E; [| reflexivity].
  apply uuid_Some in E. destruct E as (e & -> & E). exfalso. apply (H e); [apply I; eauto | reflexivity].
Qed.
Lemma item_of ids i : (- Z.of_nat (length ids) <= i < Z.of_nat (length ids))%Z ->
  exists e, ids !! Z.to_nat (if (i <? 0)%Z then i + Z.of_nat (length ids) else i) = Some e /\ item (map Z.of_nat ids) i = Some (Z.of_nat e).
Proof.
  intros H. unfold item. rewrite map_length. set (j := if (i <? 0)%Z then _ else _).
  assert (Hj : (0 <= j < Z.of_nat (length ids))%Z) by (unfold j; destruct (Z.ltb_spec i 0); lia).
  destruct (lookup_lt_is_Some_2 ids (Z.to_nat j)) as [e He]; [lia |]. exists e. split; [exact He |].
  destruct (Z.ltb_spec j 0); [lia |]. change (map Z.of_nat ids) with (Z.of_nat <$> ids). rewrite list_lookup_fmap, He. reflexivity.
Qed.

Definition chosen_ok s (t : target) (us : list U) (out : list Z) : Prop :=
  choice (ids s) t out /\ Forall2 (fun x u => exists e, x = Z.of_nat e /\ engines s !! e = Some u) out us.
Lemma elem_all (l : list nat) x : x ∈ map Z.of_nat l <-> exists e, e ∈ l /\ x = Z.of_nat e.
Proof. change (map Z.of_nat l) with (Z.of_nat <$> l). rewrite elem_of_list_fmap. split; intros (e & A & B); exists e; auto. Qed.

Lemma nonempty_match {A B} (l : list A) (a b : B) : l <> [] -> match l with [] => a | _ :: _ => b end = b.
Proof. destruct l; [contradiction | reflexivity]. Qed.
Lemma build_spec s t : inv s -> ids s <> [] ->
  match build_targets s t with
  | Chosen us out => chosen_ok s t us out
  | NoEnginesRegistered => False
  | TypeError => match t with TOther => True | TStr x => ~ says_all x | _ => False end
  | IndexError => match t with TInt z => forall out, ~ choice (ids s) t out | _ => False end
  | KeyError => match t with TList l => forall out, ~ choice (ids s) t out | _ => False end
  | ValueError => match t with TSlice _ _ (Some 0%Z) => True | _ => False end
  end.
Proof.
  intros Hi Hne. unfold build_targets. rewrite nonempty_match by exact Hne. set (all := map Z.of_nat (ids s)).
  assert (ALL : exists us, finish s all = Chosen us all /\ Forall2 (fun x u => exists e, x = Z.of_nat e /\ engines s !! e = Some u) all us).
  { apply finish_ok; [exact Hi |]. intros x Hx. apply elem_all, Hx. }
  destruct t as [| x | z | a b c | l |].
  - destruct ALL as (us & -> & F). split; [reflexivity | exact F].
  - destruct (bool_decide_reflect (lower x = "all"%string)) as [Y | N].
    + destruct ALL as (us & -> & F). split; [| exact F]. split; [apply lower_all, Y | reflexivity].
    + intros X. apply N, lower_all, X.
  - destruct (Z.ltb_spec z 0).
    + destruct (decide (- Z.of_nat (length (ids s)) <= z)%Z) as [Y | N].
      * destruct (item_of (ids s) z) as (e & He & E); [lia |]. fold all in E. rewrite E.
        assert (Hin : e ∈ ids s) by (eapply elem_of_list_lookup_2, He).
        rewrite bool_decide_eq_true_2 by (apply elem_all; eauto).
        destruct (finish_ok s [Z.of_nat e] Hi) as (us & -> & F); [intros x Hx; apply elem_of_list_singleton in Hx; eauto |].
        split; [| exact F]. cbn [choice]. destruct (Z.ltb_spec z 0); [| lia]. exists e. split; [exact He |]. split; [lia | reflexivity].
      * replace (item all z) with (@None Z).
        { intros out. cbn [choice]. destruct (Z.ltb_spec z 0); [| lia]. intros (e & _ & X & _). lia. }
        unfold item, all. rewrite map_length. destruct (Z.ltb_spec z 0); [| lia].
        destruct (Z.ltb_spec (z + Z.of_nat (length (ids s))) 0); [reflexivity | lia].
    + destruct (bool_decide_reflect (z ∈ all)) as [Y | N].
      * destruct (finish_ok s [z] Hi) as (us & -> & F); [intros x Hx; apply elem_of_list_singleton in Hx; subst; apply elem_all, Y |].
        split; [| exact F]. cbn [choice]. destruct (Z.ltb_spec z 0); [lia |]. apply elem_all in Y. destruct Y as (e & A & B). eauto.
      * intros out. cbn [choice]. destruct (Z.ltb_spec z 0); [lia |]. intros (e & A & B & _). apply N, elem_all. eauto.
  - destruct (decide (default 1%Z c = 0%Z)) as [E0 | N0].
    + assert (E : slice_range (Z.of_nat (length (ids s))) a b c = None) by (unfold slice_range; rewrite E0; reflexivity).
      rewrite E. destruct c as [[] |]; cbn in E0; try discriminate. exact I.
    + destruct (range_selected (Z.of_nat (length (ids s))) a b c) as (l & E & S & R); [lia | exact N0 |]. rewrite E.
      assert (P : exists out, all_some (map (item all) l) = Some out /\
        Forall2 (fun i x => (0 <= i)%Z /\ exists e, ids s !! Z.to_nat i = Some e /\ x = Z.of_nat e) l out).
      { clear E S. induction l as [| i l IH]; [exists []; split; [reflexivity | constructor] |].
        destruct IH as (out & E & F); [intros j Hj; apply R; right; exact Hj |].
        destruct (R i) as [R1 R2]; [left |]. destruct (item_of (ids s) i) as (e & He & Ei); [lia |]. fold all in Ei.
        destruct (Z.ltb_spec i 0); [lia |]. exists (Z.of_nat e :: out). cbn [map all_some]. rewrite Ei, E. split; [reflexivity |].
        constructor; [split; [lia | eauto] | exact F]. }
      destruct P as (out & -> & F).
      destruct (finish_ok s out Hi) as (us & -> & F2).
      { intros x Hx. apply elem_of_list_lookup in Hx. destruct Hx as (k & Hk). destruct (Forall2_lookup_r _ _ _ _ _ F Hk) as (i & _ & _ & e & He & ->).
        exists e. split; [eapply elem_of_list_lookup_2, He | reflexivity]. }
      split; [| exact F2]. cbn [choice]. exists (default 1%Z c), l. auto.
  - destruct (decide (Forall (fun x => x ∈ all) l)) as [Y | N].
    + destruct (finish_ok s l Hi) as (us & -> & F); [intros x Hx; rewrite Forall_forall in Y; apply elem_all, Y, Hx |].
      split; [| exact F]. split; [reflexivity |]. intros x Hx. rewrite Forall_forall in Y. apply elem_all, Y, Hx.
    + assert (X : exists x, x ∈ l /\ x ∉ all).
      { apply not_Forall_Exists in N; [| intros x; apply _]. apply Exists_exists in N. exact N. }
      destruct X as (x & Hx & Hn). rewrite (finish_bad s l x Hi Hx); [| intros e He ->; apply Hn, elem_all; eauto].
      intros out [_ H]. apply Hn, elem_all, H, Hx.
  - exact I.
Qed.
Lemma choice_unique (l : list nat) t out out' : choice l t out -> choice l t out' -> out = out'.
Proof.
  destruct t as [| x | z | a b c | k |]; cbn [choice]; try congruence; try (intros []; fail).
  - intros [_ ->] [_ ->]. reflexivity.
  - destruct (z <? 0)%Z.
    + intros (e & E & _ & ->) (e' & E' & _ & ->). congruence.
    + intros (e & _ & _ & ->) (e' & _ & _ & ->). reflexivity.
  - intros (st & p & -> & N & S & F) (st' & p' & -> & _ & S' & F'). rewrite (selected_unique _ _ _ _ _ _ N S S') in F. clear -F F'.
    revert out' F'. induction F as [| i x p out (_ & e & E & ->) F IH]; intros out' F'; inversion F' as [| i' x' p2 out2 (_ & e' & E' & ->) F2]; subst; [reflexivity |].
    f_equal; [congruence | apply IH, F2].
  - intros [-> _] [-> _]. reflexivity.
Qed.
End proofs.
