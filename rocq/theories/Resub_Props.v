(** Property theorems C52: Client.resubmit. *)
From stdpp Require Import base gmap list.
From Verif Require Import Resub_Spec Resub_Model.

Section proofs.
Context {C : Type}.
Implicit Types (d : list (nat * task C)).

Lemma find_keys d ids m t : (m, t) ∈ find d ids <-> (m, t) ∈ d /\ m ∈ ids.
Proof.
  unfold find. rewrite (elem_of_list_In (List.filter _ _)), List.filter_In. cbn [fst]. rewrite bool_decide_eq_true, <- elem_of_list_In. reflexivity.
Qed.
Lemma find_nodup d ids : NoDup d.*1 -> NoDup (find d ids).*1.
Proof.
  unfold find. induction d as [| [m t] d IH]; intros H; cbn [List.filter]; [constructor |].
  rewrite fmap_cons in H. apply NoDup_cons in H. destruct H as [Hm Hd]. cbn [fst] in *.
  destruct (bool_decide _); [| apply IH, Hd]. rewrite fmap_cons. apply NoDup_cons. split; [| apply IH, Hd].
  cbn [fst]. intros X. apply Hm. apply elem_of_list_fmap in X. destruct X as ((m' & t') & -> & X).
  apply (find_keys d ids) in X. apply elem_of_list_fmap. exists (m', t'). tauto.
Qed.
Lemma find_all d ids : NoDup d.*1 -> NoDup ids -> (forall m, m ∈ ids -> m ∈ d.*1) -> (find d ids).*1 ≡ₚ ids.
Proof.
  intros Hd Hi Hall. apply NoDup_Permutation; [apply find_nodup, Hd | exact Hi |]. intros m. split; intros H.
  - apply elem_of_list_fmap in H. destruct H as ((m' & t) & -> & H). apply find_keys in H. tauto.
  - specialize (Hall m H). apply elem_of_list_fmap in Hall. destruct Hall as ((m' & t) & -> & H').
    apply elem_of_list_fmap. exists (m', t). split; [reflexivity |]. apply find_keys. tauto.
Qed.

Lemma send_all_eq (recs : list (nat * task C)) new k : send_all recs new k =
  (zip_with (fun r i => Msg (new i) (kind (snd r)) (content (snd r)) (buffers (snd r)) None) recs (seq k (length recs)),
   zip_with (fun r i => (fst r, new i)) recs (seq k (length recs)),
   zip_with (fun r i => (new i, Task (kind (snd r)) (content (snd r)) (buffers (snd r)) None None None)) recs (seq k (length recs))).
Proof.
  revert k. induction recs as [| [m t] recs IH]; intros k; cbn [send_all length seq zip_with]; [reflexivity |]. rewrite IH. reflexivity.
Qed.

Lemma lookup_in l m v : NoDup l.*1 -> (m, v) ∈ l -> lookup l m = Some v.
Proof.
  induction l as [| [k w] l IH]; intros Hn H; [inversion H |]. cbn [lookup]. rewrite fmap_cons in Hn. cbn in Hn.
  apply NoDup_cons in Hn. destruct Hn as [Hk Hn]. apply elem_of_cons in H. destruct H as [[= -> ->] | H].
  - rewrite decide_True by reflexivity. reflexivity.
  - rewrite decide_False; [apply IH; assumption |]. intros ->. apply Hk, elem_of_list_fmap. exists (k, v). auto.
Qed.

Definition set_resub (v : nat) (t : task C) : task C :=
  Task (kind t) (content t) (buffers t) (metadata t) (Some v) (rest t).
Lemma update_elem d e m t : (m, t) ∈ update d e <->
  (m <> fst e /\ (m, t) ∈ d) \/ (m = fst e /\ exists t0, (m, t0) ∈ d /\ t = set_resub (snd e) t0).
Proof.
  unfold update. rewrite elem_of_list_fmap. split.
  - intros ((m0 & t0) & E & H). cbn [fst snd] in E. case_decide.
    + injection E as -> ->. right. split; [assumption | eauto].
    + injection E as -> ->. left. auto.
  - intros [[Hne H] | (-> & t0 & H & ->)].
    + exists (m, t). cbn [fst]. rewrite decide_False by exact Hne. auto.
    + exists (fst e, t0). cbn [fst snd]. rewrite decide_True by reflexivity. auto.
Qed.
Lemma updates_elem mapping : NoDup mapping.*1 -> forall d m t, (m, t) ∈ fold_left update mapping d <->
  (m ∉ mapping.*1 /\ (m, t) ∈ d) \/ (exists v t0, (m, v) ∈ mapping /\ (m, t0) ∈ d /\ t = set_resub v t0).
Proof.
  induction mapping as [| [k v] mapping IH]; intros Hn d m t; cbn [fold_left].
  - split; [intros H; left; split; [intros X; inversion X | exact H] |]. intros [[_ H] | (v & t0 & X & _)]; [exact H | inversion X].
  - rewrite fmap_cons in Hn |- *. cbn [fst] in *. apply NoDup_cons in Hn. destruct Hn as [Hk Hn]. rewrite IH by exact Hn.
    rewrite not_elem_of_cons. split.
    + intros [[Hm H] | (w & t0 & Hw & H & ->)].
      * rewrite update_elem in H. cbn [fst snd] in H. destruct H as [[Hne H] | (-> & t0 & H & ->)]; [left; auto |].
        right. exists v, t0. split; [left | auto].
      * rewrite update_elem in H. cbn [fst snd] in H. destruct H as [[Hne H] | (-> & t1 & H & ->)].
        -- right. exists w, t0. split; [right; exact Hw | auto].
        -- exfalso. apply Hk, elem_of_list_fmap. exists (k, w). auto.
    + intros [[[Hne Hm] H] | (w & t0 & Hw & H & ->)].
      * left. split; [exact Hm |]. apply update_elem. cbn [fst]. auto.
      * apply elem_of_cons in Hw. destruct Hw as [[= -> ->] | Hw].
        -- left. split; [exact Hk |]. apply update_elem. cbn [fst snd]. right. eauto.
        -- right. exists w, t0. split; [exact Hw |]. split; [| reflexivity]. apply update_elem. cbn [fst]. left.
           split; [| exact H]. intros ->. apply Hk, elem_of_list_fmap. exists (k, w). auto.
Qed.
Lemma zip_elem {A B} (f : A -> nat -> B) (l : list A) k y : y ∈ zip_with f l (seq k (length l)) <-> exists i x, l !! i = Some x /\ y = f x (k + i).
Proof.
  rewrite elem_of_list_lookup. split.
  - intros [i H]. rewrite lookup_zip_with in H. destruct (l !! i) as [x |] eqn:E; [| discriminate]. cbn in H.
    rewrite lookup_seq_lt in H by (apply lookup_lt_Some in E; exact E). cbn in H. injection H as <-. eauto.
  - intros (i & x & E & ->). exists i. rewrite lookup_zip_with, E. cbn.
    rewrite lookup_seq_lt by (apply lookup_lt_Some in E; exact E). reflexivity.
Qed.
Lemma zip_fst {A} (f : A -> nat -> nat) (l : list (nat * A)) k :
  (zip_with (fun r i => (fst r, f (snd r) i)) l (seq k (length l))).*1 = l.*1.
Proof. revert k. induction l as [| [m t] l IH]; intros k; cbn; [reflexivity |]. f_equal. apply IH. Qed.

Lemma resubmit_sound d pending ids new :
  NoDup d.*1 -> NoDup ids -> (forall m, m ∈ ids -> m ∈ d.*1) ->
  (forall i j, new i = new j -> i = j) -> (forall i, new i ∉ d.*1) ->
  exists new_ids ms d' p', resubmit d pending ids new = (Result new_ids, ms, d', p') /\
    length new_ids = length ids /\ NoDup new_ids /\ (forall m', m' ∈ new_ids -> m' ∉ d.*1) /\
    NoDup (map m_id ms) /\ map m_id ms ≡ₚ new_ids /\
    (forall i m m', ids !! i = Some m -> new_ids !! i = Some m' ->
       exists t t' c msg, (m, t) ∈ d /\ (m, t') ∈ d' /\ points_to m' t t' /\ (m', c) ∈ d' /\ fresh_copy t c /\ metadata c = None /\
         msg ∈ ms /\ m_id msg = m' /\ m_kind msg = kind t /\ m_content msg = content t /\ m_buffers msg = buffers t) /\
    (forall m t, m ∉ ids -> (m, t) ∈ d -> (m, t) ∈ d') /\
    (forall m, m ∈ d'.*1 <-> m ∈ d.*1 \/ m ∈ new_ids) /\
    (forall m, m ∈ p' <-> m ∈ pending \/ m ∈ new_ids).
Proof.
  intros Hd Hi Hall Hinj Hnew. unfold resubmit, resubmit_task.
  set (recs := find d ids). assert (P : recs.*1 ≡ₚ ids) by (apply find_all; assumption).
  assert (L : length recs = length ids) by (rewrite <- (fmap_length fst recs), P; reflexivity).
  rewrite !decide_False by lia. rewrite send_all_eq.
  set (ms := zip_with (fun r i => Msg _ _ _ _ _) recs _). set (mapping := zip_with (fun r i => (fst r, new i)) recs _).
  set (added := zip_with (fun r i => (new i, Task _ _ _ _ _ _)) recs _).
  assert (Hr : NoDup recs.*1) by (apply find_nodup, Hd).
  assert (Hmap : mapping.*1 = recs.*1) by apply (zip_fst (fun _ i => new i)).
  assert (Hmn : NoDup mapping.*1) by (rewrite Hmap; exact Hr).
  assert (Hmapin : forall m v, (m, v) ∈ mapping <-> exists i t, recs !! i = Some (m, t) /\ v = new i).
  { intros m v. unfold mapping. rewrite zip_elem. split.
    - intros (i & [m0 t] & E & X). injection X as -> ->. eauto.
    - intros (i & t & E & ->). exists i, (m, t). auto. }
  assert (Hlook : forall m, m ∈ ids -> exists i t, recs !! i = Some (m, t) /\ lookup mapping m = Some (new i)).
  { intros m Hm. rewrite <- P in Hm. apply elem_of_list_fmap in Hm. destruct Hm as ((m0 & t) & -> & Hm).
    apply elem_of_list_lookup in Hm. destruct Hm as [i Hm]. exists i, t. split; [exact Hm |].
    apply lookup_in; [exact Hmn |]. apply Hmapin. eauto. }
  assert (M : exists new_ids, mapM (lookup mapping) ids = Some new_ids).
  { assert (X : forall l, (forall m, m ∈ l -> m ∈ ids) -> exists n, mapM (lookup mapping) l = Some n).
    { induction l as [| m l IH]; intros Hl; cbn; [eauto |]. destruct (Hlook m) as (i & t & _ & ->); [apply Hl; left |].
      destruct IH as [n ->]; [intros x Hx; apply Hl; right; exact Hx |]. cbn. eauto. }
    apply X. auto. }
  destruct M as [new_ids M]. rewrite M. apply mapM_Some in M.
  assert (Hnth : forall i m m', ids !! i = Some m -> new_ids !! i = Some m' -> exists k t, recs !! k = Some (m, t) /\ m' = new k).
  { intros i m m' E E'.
    destruct (Hlook m) as (k & t & Hk & X); [apply elem_of_list_lookup; eauto |]. exists k, t. split; [exact Hk |].
    pose proof (Forall2_lookup_lr _ _ _ _ _ _ M E E') as Y. congruence. }
  assert (Hin : forall m', m' ∈ new_ids <-> exists k x, recs !! k = Some x /\ m' = new k).
  { intros m'. split.
    - intros H. apply elem_of_list_lookup in H. destruct H as [i Ei].
      destruct (Forall2_lookup_r _ _ _ _ _ M Ei) as (m & Em & _). destruct (Hnth i m m' Em Ei) as (k & t & ? & ?). eauto.
    - intros (k & [m t] & Ek & ->). assert (Hm : m ∈ ids).
      { rewrite <- P. apply elem_of_list_fmap. exists (m, t). split; [reflexivity |]. apply elem_of_list_lookup. eauto. }
      apply elem_of_list_lookup in Hm. destruct Hm as [i Ei]. destruct (Forall2_lookup_l _ _ _ _ _ M Ei) as (m' & Em' & X).
      assert (Y : lookup mapping m = Some (new k)) by (apply lookup_in; [exact Hmn | apply Hmapin; eauto]).
      apply elem_of_list_lookup. exists i. congruence. }
  assert (Hnn : NoDup new_ids).
  { apply NoDup_alt. intros i j m' Ei Ej.
    destruct (Forall2_lookup_r _ _ _ _ _ M Ei) as (m & Em & _). destruct (Forall2_lookup_r _ _ _ _ _ M Ej) as (n & En & _).
    destruct (Hnth i m m' Em Ei) as (k & t & Hk & E1). destruct (Hnth j n m' En Ej) as (k' & t' & Hk' & E2).
    assert (k = k') by (apply Hinj; congruence). subst k'. rewrite Hk in Hk'. injection Hk' as -> ->.
    apply (proj1 (NoDup_alt ids) Hi i j n Em En). }
  assert (Hms : map m_id ms = map new (seq 0 (length recs))).
  { unfold ms. clear. generalize 0. induction recs as [| r l IH]; intros k; cbn; [reflexivity |]. f_equal. apply IH. }
  assert (Hmsn : NoDup (map m_id ms)).
  { rewrite Hms. apply NoDup_ListNoDup, FinFun.Injective_map_NoDup; [exact Hinj | apply NoDup_ListNoDup, NoDup_seq]. }
  exists new_ids, ms, (fold_left update mapping (d ++ added)), (list_to_set (map m_id ms) ∪ pending).
  split; [reflexivity |].
  assert (Hnewd : forall m', m' ∈ new_ids -> m' ∉ d.*1) by (intros m' H; apply Hin in H; destruct H as (k & x & _ & ->); apply Hnew).
  assert (Hperm : forall m', m' ∈ map m_id ms <-> m' ∈ new_ids).
  { intros m'. rewrite Hms, Hin. rewrite elem_of_list_In, in_map_iff. split.
    - intros (k & <- & Hk). apply in_seq in Hk. destruct (lookup_lt_is_Some_2 recs k) as [x Ex]; [lia |]. eauto.
    - intros (k & x & Ex & ->). exists k. split; [reflexivity |]. apply in_seq. apply lookup_lt_Some in Ex. lia. }
  split; [symmetry; apply (Forall2_length _ _ _ M) |]. split; [exact Hnn |]. split; [exact Hnewd |]. split; [exact Hmsn |].
  split; [apply NoDup_Permutation; assumption |]. split; [| split; [| split]].
  - intros i m m' Ei Ei'. destruct (Hnth i m m' Ei Ei') as (k & t & Hk & ->).
    assert (Ht : (m, t) ∈ d) by (apply (find_keys d ids); fold recs; apply elem_of_list_lookup; eauto).
    exists t, (set_resub (new k) t), (Task (kind t) (content t) (buffers t) None None None), (Msg (new k) (kind t) (content t) (buffers t) None).
    split; [exact Ht |]. split.
    { apply updates_elem; [exact Hmn |]. right. exists (new k), t. split; [apply Hmapin; eauto |].
      split; [apply elem_of_app; left; exact Ht | reflexivity]. }
    split; [repeat split |]. split.
    { apply updates_elem; [exact Hmn |]. left. split.
      - rewrite Hmap. intros X. rewrite P in X. apply (Hnew k). apply Hall, X.
      - apply elem_of_app. right. unfold added. apply zip_elem. exists k, (m, t). auto. }
    split; [repeat split |]. split; [reflexivity |]. split; [| repeat split].
    unfold ms. apply zip_elem. exists k, (m, t). auto.
  - intros m t Hm Ht. apply updates_elem; [exact Hmn |]. left. rewrite Hmap, P. split; [exact Hm |]. apply elem_of_app. auto.
  - intros m.
    assert (A : forall l d0, (fold_left update l d0).*1 = d0.*1).
    { induction l as [| e l IH]; intros d0; cbn [fold_left]; [reflexivity |]. rewrite IH. clear. unfold update.
      induction d0 as [| r d0 IH]; [reflexivity |]. cbn [map]. rewrite !fmap_cons, IH. case_decide; reflexivity. }
    rewrite A, fmap_app, elem_of_app, Hin. assert (B : m ∈ added.*1 <-> exists k x, recs !! k = Some x /\ m = new k); [| rewrite B; reflexivity].
    rewrite elem_of_list_fmap. split.
    + intros ((m0 & t0) & -> & H). unfold added in H. apply zip_elem in H. destruct H as (i & x & E & [= -> _]). eauto.
    + intros (k & x & E & ->). eexists. split; [| apply zip_elem; exists k, x; split; [exact E | reflexivity]]. reflexivity.
  - intros m. rewrite elem_of_union, elem_of_list_to_set, Hperm. tauto.
Qed.
End proofs.

(** Resubmitting distinct tasks which the Hub has: every one is sent again exactly once, with the content, the buffers and
    the kind of the original, under a new id; the result is for these ids in the order asked for; the Hub has a record for each new
    id and the original record names it; all other records stay. *)
Theorem C52_resubmit : forall (C : Type) (d : list (nat * task C)) pending ids new,
  NoDup d.*1 -> NoDup ids -> (forall m, m ∈ ids -> m ∈ d.*1) ->
  (forall i j, new i = new j -> i = j) -> (forall i, new i ∉ d.*1) ->
  exists new_ids ms d' p', resubmit d pending ids new = (Result new_ids, ms, d', p') /\
    length new_ids = length ids /\ NoDup new_ids /\ (forall m', m' ∈ new_ids -> m' ∉ d.*1) /\
    NoDup (map m_id ms) /\ map m_id ms ≡ₚ new_ids /\
    (forall i m m', ids !! i = Some m -> new_ids !! i = Some m' ->
       exists t t' c msg, (m, t) ∈ d /\ (m, t') ∈ d' /\ points_to m' t t' /\ (m', c) ∈ d' /\ fresh_copy t c /\ metadata c = None /\
         msg ∈ ms /\ m_id msg = m' /\ m_kind msg = kind t /\ m_content msg = content t /\ m_buffers msg = buffers t) /\
    (forall m t, m ∉ ids -> (m, t) ∈ d -> (m, t) ∈ d') /\
    (forall m, m ∈ d'.*1 <-> m ∈ d.*1 \/ m ∈ new_ids) /\
    (forall m, m ∈ p' <-> m ∈ pending \/ m ∈ new_ids).
Proof. intros C. exact (@resubmit_sound C). Qed.
Print Assumptions C52_resubmit.

(** If the Hub does not have one of them, nothing is sent and nothing changes, and the error names those missing. *)
Theorem C52_missing : forall (C : Type) (d : list (nat * task C)) pending ids new,
  NoDup d.*1 -> NoDup ids -> (exists m, m ∈ ids /\ m ∉ d.*1) ->
  exists missing, resubmit d pending ids new = (Failed (NoSuch missing), [], d, pending) /\
    forall m, m ∈ missing <-> m ∈ ids /\ m ∉ d.*1.
Proof.
  intros C d pending ids new Hd Hi (m0 & Hm0 & Hx). unfold resubmit, resubmit_task.
  set (recs := find d ids).
  assert (K : forall m, m ∈ recs.*1 <-> m ∈ ids /\ m ∈ d.*1).
  { intros m. rewrite !elem_of_list_fmap. split.
    - intros ((k & t) & -> & H). apply find_keys in H. split; [tauto | exists (k, t); tauto].
    - intros (H & ((k & t) & -> & Ht)). exists (k, t). split; [reflexivity |]. apply find_keys. auto. }
  assert (L : length recs < length ids).
  { rewrite <- (fmap_length fst recs). assert (Q : NoDup (m0 :: recs.*1)).
    { apply NoDup_cons. split; [rewrite K; tauto | apply find_nodup, Hd]. }
    assert (S : length (m0 :: recs.*1) <= length ids).
    { apply List.NoDup_incl_length; [apply NoDup_ListNoDup, Q |]. intros m Hm. apply elem_of_list_In in Hm. apply elem_of_list_In.
      apply elem_of_cons in Hm. destruct Hm as [-> | Hm]; [exact Hm0 | apply K, Hm]. }
    cbn [length] in S. lia. }
  rewrite decide_False by lia. rewrite decide_True by exact L.
  eexists. split; [reflexivity |]. intros m. rewrite elem_of_list_In, List.filter_In, negb_true_iff, bool_decide_eq_false, <- elem_of_list_In.
  change (map fst recs) with recs.*1. rewrite K. tauto.
Qed.
Print Assumptions C52_missing.

(** ** Example *)
Definition t1 : task nat := Task 1 10 100 (Some 5) None (Some 77).
Definition t2 : task nat := Task 1 20 200 None None None.
Example C52_example :
  NoDup [(1, t1); (2, t2); (3, t2)].*1 /\
  exists d' p, resubmit [(1, t1); (2, t2); (3, t2)] {[3]} [2; 1] (fun k => 50 + k) =
    (Result [51; 50], [Msg 50 1 10 100 None; Msg 51 1 20 200 None], d', p) /\ map fst d' = [1; 2; 3; 50; 51].
Proof. split; [apply (bool_decide_unpack _); vm_compute; exact I |]. eexists _, _. split; vm_compute; reflexivity. Qed.

(** ** Refuted *)
(** "The copy is run under the same conditions": the metadata of the original (dependencies, targets, retries, timeout)
    are not part of the copy. *)
Theorem C52_metadata_refuted : exists ms d' p, resubmit [(1, t1)] ∅ [1] (fun k => 50 + k) = (Result [50], ms, d', p) /\
  metadata t1 = Some 5 /\ map m_metadata ms = [None].
Proof. eexists _, _, _. split; [vm_compute; reflexivity |]. vm_compute. auto. Qed.
(** Asking for a task twice fails, with an error that names no task. *)
Theorem C52_twice_refuted : resubmit [(1, t1)] ∅ [1; 1] (fun k => 50 + k) = (Failed (NoSuch []), [], [(1, t1)], ∅).
Proof. vm_compute. reflexivity. Qed.
