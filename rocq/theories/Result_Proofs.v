(** Proofs about result_status (C39). *)
From stdpp Require Import base gmap list sorting.
From Verif Require Import Result_Model Result_Spec.

(** ** The loop over the cache *)
Lemma remove_app x l1 l2 : x ∉ l1 -> remove x (l1 ++ x :: l2) = l1 ++ l2.
Proof.
  induction l1 as [| y l1 IH]; intros H; cbn [app remove].
  - rewrite decide_True by reflexivity. reflexivity.
  - apply not_elem_of_cons in H. rewrite decide_False by tauto. rewrite IH by tauto. reflexivity.
Qed.
Lemma local_loop_spec local : forall n l, length l <= n -> forall fuel kept done, length l < fuel -> NoDup (kept ++ l) ->
  local_loop fuel local (length kept) (kept ++ l) done = (done ++ from_cache local l, kept ++ asked local l).
Proof.
  induction n as [| n IH]; intros l Hn fuel kept done Hf Hnd.
  - destruct l; [| cbn in Hn; lia]. destruct fuel; [cbn in Hf; lia |]. cbn [local_loop]. rewrite app_nil_r.
    rewrite lookup_ge_None_2 by reflexivity. cbn [from_cache asked]. rewrite !app_nil_r. reflexivity.
  - destruct l as [| x l].
    { destruct fuel; [cbn in Hf; lia |]. cbn [local_loop]. rewrite app_nil_r.
      rewrite lookup_ge_None_2 by reflexivity. cbn [from_cache asked]. rewrite !app_nil_r. reflexivity. }
    destruct fuel as [| fuel]; [cbn in Hf; lia |]. cbn [local_loop].
    rewrite list_lookup_middle by reflexivity. cbn [from_cache asked].
    pose proof Hnd as Hnd'. apply NoDup_app in Hnd'. destruct Hnd' as (_ & Hx & _).
    destruct (local x) eqn:E.
    + rewrite remove_app by (intros X; apply (Hx x X); left).
      assert (Hnd2 : NoDup (kept ++ l)).
      { apply NoDup_app in Hnd. destruct Hnd as (A & B & C). apply NoDup_app. split; [exact A |]. split.
        - intros y Hy Hl. apply (B y Hy). right. exact Hl.
        - inversion C; assumption. }
      destruct l as [| y l].
      * rewrite ?app_nil_r. destruct fuel as [| fuel]; [cbn in Hf; lia |]. cbn [local_loop].
        rewrite lookup_ge_None_2 by lia. rewrite ?app_nil_r. reflexivity.
      * replace (S (length kept)) with (length (kept ++ [y])) by (rewrite app_length; cbn; lia).
        replace (kept ++ y :: l) with ((kept ++ [y]) ++ l) by (rewrite <- app_assoc; reflexivity).
        rewrite IH; [| cbn in Hn; lia | cbn in Hf |- *; lia | rewrite <- app_assoc; exact Hnd2].
        rewrite <- !app_assoc. reflexivity.
    + replace (S (length kept)) with (length (kept ++ [x])) by (rewrite app_length; cbn; lia).
      replace (kept ++ x :: l) with ((kept ++ [x]) ++ l) by (rewrite <- app_assoc; reflexivity).
      rewrite IH; [| cbn in Hn; lia | cbn in Hf |- *; lia | rewrite <- app_assoc; exact Hnd].
      rewrite <- !app_assoc. reflexivity.
Qed.
Lemma answer_locally_spec local l : NoDup l -> answer_locally local l = (from_cache local l, asked local l).
Proof.
  intros H. unfold answer_locally. apply (local_loop_spec local (length l) l (Nat.le_refl _) _ [] []); [lia | exact H].
Qed.

Lemma split_perm local : forall n l, length l <= n -> asked local l ++ from_cache local l ≡ₚ l.
Proof.
  induction n as [| n IH]; intros [| x l] Hn; cbn in Hn; try lia; try reflexivity. cbn [asked from_cache].
  destruct (local x).
  - destruct l as [| y l]; [reflexivity |]. cbn [app]. rewrite <- Permutation_middle. rewrite IH by (cbn in Hn; lia).
    apply perm_swap.
  - cbn [app]. rewrite IH by lia. reflexivity.
Qed.
Lemma from_cache_local local : forall n l, length l <= n -> forall x, x ∈ from_cache local l -> local x = true.
Proof.
  induction n as [| n IH]; intros [| y l] Hn x Hx; cbn in Hn; try lia; try (inversion Hx; fail).
  cbn [from_cache] in Hx. destruct (local y) eqn:E.
  - apply elem_of_cons in Hx. destruct Hx as [-> | Hx]; [exact E |]. destruct l as [| z l]; [inversion Hx |].
    apply (IH l); [cbn in Hn; lia | exact Hx].
  - apply (IH l); [lia | exact Hx].
Qed.

(** ** sorted *)
Lemma insert_perm x l : x ∉ l -> insert x l ≡ₚ x :: l.
Proof.
  induction l as [| y l IH]; intros H; cbn [insert]; [reflexivity |]. apply not_elem_of_cons in H.
  destruct (decide (x < y)); [reflexivity |]. rewrite decide_False by tauto. rewrite IH by tauto. apply perm_swap.
Qed.
Lemma insert_elem x l y : y ∈ insert x l <-> y = x \/ y ∈ l.
Proof.
  induction l as [| z l IH]; cbn [insert]; [set_solver |]. destruct (decide (x < z)); [set_solver |].
  destruct (decide (x = z)) as [-> | ?]; [set_solver |]. rewrite !elem_of_cons, IH. tauto.
Qed.
Lemma insert_sorted x l : StronglySorted Nat.le l -> StronglySorted Nat.le (insert x l).
Proof.
  induction 1 as [| y l Hs IH Hy]; cbn [insert]; [repeat constructor |].
  destruct (decide (x < y)) as [Hlt | Hge].
  - constructor; [constructor; assumption |]. constructor; [lia |]. eapply Forall_impl; [exact Hy |]. intros z Hz. cbv beta in Hz. lia.
  - destruct (decide (x = y)) as [-> | Hne]; [constructor; assumption |]. constructor; [exact IH |].
    apply Forall_forall. intros z Hz. apply insert_elem in Hz. destruct Hz as [-> | Hz]; [lia |].
    rewrite Forall_forall in Hy. apply Hy, Hz.
Qed.
Lemma sorted_set_perm l : NoDup l -> sorted_set l ≡ₚ l.
Proof.
  induction 1 as [| x l Hx Hnd IH]; cbn [sorted_set foldr]; [reflexivity |]. fold (sorted_set l).
  rewrite insert_perm; [rewrite IH; reflexivity |]. rewrite IH. exact Hx.
Qed.
Lemma sorted_set_sorted l : StronglySorted Nat.le (sorted_set l).
Proof. induction l as [| x l IH]; cbn [sorted_set foldr]; [constructor |]. apply insert_sorted, IH. Qed.
Lemma sorted_same l : NoDup l -> merge_sort Nat.le l = sorted_set l.
Proof.
  intros H. apply (StronglySorted_unique Nat.le).
  - apply (StronglySorted_merge_sort Nat.le).
  - apply sorted_set_sorted.
  - rewrite merge_sort_Permutation, sorted_set_perm by exact H. reflexivity.
Qed.

Section load.
Context {V F : Type} (deser : list F -> option (V * list F)).
Implicit Types (hub : nat -> state V F) (results : gmap nat (outcome V)).

Definition is_done hub (m : nat) : bool := match hub m with Done _ _ => true | _ => false end.
Definition is_pending hub (m : nat) : bool := match hub m with Pending => true | _ => false end.
Definition bufs hub (m : nat) : list F := match hub m with Done _ b => b | _ => [] end.
Definition recs hub (m : nat) : list (nat * record V) := match hub m with Done r _ => [(m, r)] | _ => [] end.

Lemma collect_known hub so ids : forall r, (forall m, m ∈ ids -> hub m <> Unknown) ->
  collect hub so ids r = Ok (Reply (pending r ++ List.filter (is_pending hub) ids) (completed r ++ List.filter (is_done hub) ids)
    (entries r ++ if so then [] else concat (map (recs hub) ids)) (buffers r ++ if so then [] else concat (map (bufs hub) ids))).
Proof.
  induction ids as [| m ids IH]; intros r Hk; cbn [collect List.filter map concat].
  - destruct so; rewrite !app_nil_r; destruct r; reflexivity.
  - assert (Hk' : forall x, x ∈ ids -> hub x <> Unknown) by (intros x Hx; apply Hk; right; exact Hx).
    unfold is_pending, is_done. destruct (hub m) as [| x b |] eqn:E.
    + rewrite IH by exact Hk'. cbn [pending completed entries buffers]. f_equal. f_equal.
      * rewrite <- app_assoc. reflexivity.
      * destruct so; [reflexivity |]. unfold recs at 2. rewrite E. reflexivity.
      * destruct so; [reflexivity |]. unfold bufs at 2. rewrite E. reflexivity.
    + destruct so; rewrite IH by exact Hk'; cbn [pending completed entries buffers]; f_equal; f_equal; rewrite <- ?app_assoc; try reflexivity.
      * unfold recs at 2. rewrite E. reflexivity.
      * unfold bufs at 2. rewrite E. reflexivity.
    + destruct (Hk m); [left | exact E].
Qed.

(** the errors among the done tasks *)
Definition errs hub (m : nat) : list nat := match hub m with Done (Failed e) _ => [e] | _ => [] end.

Lemma load_spec hub (truth : nat -> outcome V) compl tail : forall ids content results failures, NoDup ids ->
  (forall m, m ∈ ids -> m ∈ compl <-> is_done hub m = true) ->
  (forall m r b, m ∈ ids -> hub m = Done r b -> content !! m = Some (Rec r) /\ stored deser hub m (truth m)) ->
  (forall m, m ∈ ids -> hub m <> Unknown) ->
  exists content' results',
  load deser ids compl content (concat (map (bufs hub) ids) ++ tail) results failures =
    (Some (content', results', failures ++ concat (map (errs hub) ids)), results') /\
  (forall m, content' !! m = if decide (m ∈ ids /\ is_done hub m = true) then Some (Res (truth m)) else content !! m) /\
  (forall m, results' !! m = if decide (m ∈ ids /\ is_done hub m = true) then Some (truth m) else results !! m).
Proof.
  induction ids as [| m ids IH]; intros content results failures Hnd Hc Hr Hk.
  - exists content, results. cbn [load map concat]. rewrite app_nil_r. split; [reflexivity |].
    split; intros m; rewrite decide_False by (intros [X _]; inversion X); reflexivity.
  - apply NoDup_cons in Hnd. destruct Hnd as [Hm Hnd]. cbn [load map concat].
    assert (STORE : forall o failures', o = truth m -> is_done hub m = true ->
      exists content' results',
      load deser ids compl (<[m := Res o]> content) (concat (map (bufs hub) ids) ++ tail) (<[m := o]> results) failures' =
        (Some (content', results', failures' ++ concat (map (errs hub) ids)), results') /\
      (forall x, content' !! x = if decide (x ∈ m :: ids /\ is_done hub x = true) then Some (Res (truth x)) else content !! x) /\
      (forall x, results' !! x = if decide (x ∈ m :: ids /\ is_done hub x = true) then Some (truth x) else results !! x)).
    { intros o failures' -> Hd.
      destruct (IH (<[m := Res (truth m)]> content) (<[m := truth m]> results) failures') as (c' & r' & E & C & R).
      - exact Hnd.
      - intros x Hx. apply Hc. right. exact Hx.
      - intros x r b Hx He. destruct (Hr x r b) as [A B]; [right; exact Hx | exact He |]. split; [| exact B].
        rewrite lookup_insert_ne; [exact A |]. intros ->. contradiction.
      - intros x Hx. apply Hk. right. exact Hx.
      - exists c', r'. split; [exact E |]. split; intros x; [rewrite C | rewrite R]; destruct (decide (x = m)) as [-> | Hne].
        + rewrite decide_False by tauto. rewrite lookup_insert, decide_True by (split; [left | exact Hd]). reflexivity.
        + rewrite lookup_insert_ne by congruence. apply decide_ext. rewrite elem_of_cons. tauto.
        + rewrite decide_False by tauto. rewrite lookup_insert, decide_True by (split; [left | exact Hd]). reflexivity.
        + rewrite lookup_insert_ne by congruence. apply decide_ext. rewrite elem_of_cons. tauto. }
    destruct (decide (m ∈ compl)) as [Hin | Hout].
    + apply Hc in Hin; [| left]. pose proof Hin as Hd. unfold is_done in Hin. destruct (hub m) as [| r b |] eqn:E; try discriminate.
      destruct (Hr m r b) as [A B]; [left | exact E |]. rewrite A. unfold stored in B. rewrite E in B.
      assert (Eb : bufs hub m = b) by (unfold bufs; rewrite E; reflexivity).
      assert (Ee : errs hub m = match r with Failed e => [e] | _ => [] end) by (unfold errs; rewrite E; destruct r; reflexivity).
      rewrite Eb, Ee. destruct r as [| v | e |].
      * destruct B as (v & B1 & B2). rewrite <- app_assoc, B2. apply STORE; [congruence | exact Hd].
      * destruct B as [B1 ->]. cbn [app]. apply STORE; [congruence | exact Hd].
      * destruct B as [B1 ->]. cbn [app]. replace (failures ++ e :: concat (map (errs hub) ids)) with ((failures ++ [e]) ++ concat (map (errs hub) ids)) by (rewrite <- app_assoc; reflexivity).
        apply STORE; [congruence | exact Hd].
      * destruct B.
    + assert (Hd : is_done hub m = false).
      { destruct (is_done hub m) eqn:X; [| reflexivity]. destruct Hout. apply Hc; [left | exact X]. }
      assert (Hb : bufs hub m = [] /\ errs hub m = []).
      { unfold is_done in Hd. unfold bufs, errs. destruct (hub m); [split; reflexivity | discriminate | split; reflexivity]. }
      destruct Hb as [-> ->]. cbn [app].
      destruct (IH content results failures) as (c' & r' & E & C & R).
      * exact Hnd.
      * intros x Hx. apply Hc. right. exact Hx.
      * intros x r b Hx. apply Hr. right. exact Hx.
      * intros x Hx. apply Hk. right. exact Hx.
      * exists c', r'. split; [exact E |]. split; intros x; [rewrite C | rewrite R]; apply decide_ext; rewrite elem_of_cons;
          (split; [tauto |]); intros [[-> | ?] ?]; [congruence | tauto | congruence | tauto].
Qed.
End load.
