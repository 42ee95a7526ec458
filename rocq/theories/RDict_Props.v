(** Property theorems C36 (ReverseDict). *)
From stdpp Require Import base gmap list.
From Verif Require Import RDict_Model RDict_Spec.

Section proofs.
Context {K : Type} `{Countable K}.

(** The dictionary holds exactly the pairs [B], which do not clash. *)
Record holds (B : gset (K * K)) (d : rdict K) : Prop := {
  h_fwd : forall k v, fwd d !! k = Some v <-> (k, v) ∈ B;
  h_rev : forall k v, rev d !! v = Some k <-> (k, v) ∈ B;
  h_sides : forall a b c, (a, b) ∈ B -> (b, c) ∉ B;
}.

Lemma holds_empty : holds ∅ (RDict ∅ ∅).
Proof. split; intros; cbn; rewrite ?lookup_empty; set_solver. Qed.

Lemma holds_set B d k v : holds B d -> fits B k v ->
  exists d', setitem d k v = Done d' /\ holds (pairs_after B (Set_ k v)) d'.
Proof.
  intros [Hf Hr Hs] [Hkv Hfit]. unfold setitem.
  destruct (rev d !! k) as [x |] eqn:E.
  { exfalso. apply Hr in E. destruct (Hfit _ _ E) as [[= ? ?] | ?]; [congruence | tauto]. }
  eexists. split; [reflexivity |]. cbn [pairs_after]. split; cbn [fwd rev].
  - intros a b. rewrite elem_of_union, elem_of_singleton. destruct (decide (k = a)) as [<- | Hn].
    + rewrite lookup_insert. split; [intros [= <-]; auto |]. intros [[= <-] | Hin]; [reflexivity |].
      destruct (Hfit _ _ Hin) as [[= <-] | (? & _)]; congruence.
    + rewrite lookup_insert_ne by exact Hn. rewrite Hf. split; [auto |]. intros [[= ? ?] | ?]; congruence.
  - intros a b. rewrite elem_of_union, elem_of_singleton. destruct (decide (v = b)) as [<- | Hn].
    + rewrite lookup_insert. split; [intros [= <-]; auto |]. intros [[= <-] | Hin]; [reflexivity |].
      destruct (Hfit _ _ Hin) as [[= <-] | (_ & _ & _ & ?)]; congruence.
    + rewrite lookup_insert_ne by exact Hn. rewrite Hr. split; [auto |]. intros [[= ? ?] | ?]; congruence.
  - intros a b c H1 H2. apply elem_of_union in H1, H2. rewrite elem_of_singleton in H1, H2.
    destruct H1 as [[= -> ->] | H1], H2 as [[= -> ->] | H2]; try congruence.
    + destruct (Hfit _ _ H2) as [[= -> ->] | ?]; [congruence | tauto].
    + destruct (Hfit _ _ H1) as [[= -> ->] | ?]; [congruence | tauto].
    + apply (Hs a b c); assumption.
Qed.

Lemma holds_pop B d k : holds B d ->
  holds (pairs_after B (Pop k)) (state_of (pop d k)) /\
  (raised (pop d k) = true <-> forall v, (k, v) ∉ B) /\
  (raised (pop d k) = true -> state_of (pop d k) = d).
Proof.
  intros Hh. pose proof Hh as [Hf Hr Hs]. unfold pop. destruct (fwd d !! k) as [v |] eqn:E.
  - pose proof (proj1 (Hf _ _) E) as Hin. rewrite (proj2 (Hr _ _) Hin). cbn [state_of raised].
    split; [| split; [split; [discriminate | intros Hn; destruct (Hn v Hin)] | discriminate]].
    split; cbn [fwd rev pairs_after].
    + intros a b. rewrite elem_of_filter. cbn [fst]. destruct (decide (k = a)) as [<- | Hn].
      * rewrite lookup_delete. split; [discriminate | intros [? _]; congruence].
      * rewrite lookup_delete_ne, Hf by exact Hn. split; [intros; split; [congruence | assumption] | tauto].
    + intros a b. rewrite elem_of_filter. cbn [fst]. destruct (decide (v = b)) as [<- | Hn].
      * rewrite lookup_delete. split; [discriminate |]. intros [Hne Hin2]. exfalso. apply Hne.
        apply Hr in Hin, Hin2. congruence.
      * rewrite lookup_delete_ne, Hr by exact Hn. split; [| tauto]. intros Hin2. split; [| exact Hin2].
        intros ->. apply Hf in Hin2. congruence.
    + intros a b c H1 H2. apply elem_of_filter in H1, H2. apply (Hs a b c); tauto.
  - cbn [state_of raised]. split; [| split; [| reflexivity]].
    + replace (pairs_after B (Pop k)) with B; [exact Hh |]. apply set_eq. intros [a b]. cbn [pairs_after].
      rewrite elem_of_filter. cbn [fst]. split; [| tauto]. intros Hin. split; [| exact Hin].
      intros ->. apply Hf in Hin. congruence.
    + split; [| reflexivity]. intros _ v Hin. apply Hf in Hin. congruence.
Qed.

Lemma run_holds l : forall B d, holds B d -> tidy_from B l -> holds (fold_left pairs_after l B) (run d l).
Proof.
  induction l as [| o l IH]; intros B d Hh Ht; [exact Hh |]. cbn [fold_left]. unfold run. cbn [fold_left].
  fold (run (state_of (perform d o)) l). destruct Ht as [Ho Ht]. apply IH; [| exact Ht].
  destruct o as [k v | k].
  - destruct (holds_set B d k v Hh Ho) as (d' & E & Hh'). cbn [perform]. rewrite E. exact Hh'.
  - apply holds_pop, Hh.
Qed.
End proofs.

(** As long as no two entries share a key or a value and nothing is both a key and a value, the
    dictionary can be read in both directions, and holds exactly the entries set and not popped. *)
Theorem C36_bijection : forall (K : Type) `{Countable K} (l : list (op K)),
  tidy l -> forall x y,
  getitem (run (RDict ∅ ∅) l) x = Some y <-> (x, y) ∈ pairs l \/ (y, x) ∈ pairs l.
Proof.
  intros K EK CK l Ht x y. pose proof (run_holds l _ _ holds_empty Ht) as [Hf Hr Hs].
  fold (pairs l) in *. unfold getitem. destruct (fwd _ !! x) as [v |] eqn:E.
  - pose proof (proj1 (Hf _ _) E) as Hin. split.
    + intros [= <-]. left. exact Hin.
    + intros [Hxy | Hyx]; [apply Hf in Hxy; congruence |]. destruct (Hs _ _ _ Hyx Hin).
  - rewrite Hr. split; [auto |]. intros [Hxy | Hyx]; [apply Hf in Hxy; congruence | exact Hyx].
Qed.
Print Assumptions C36_bijection.

(** In such a history no assignment raises, and popping raises exactly for an absent key, changing
    nothing; popping a present key removes both directions. *)
Theorem C36_operations : forall (K : Type) `{Countable K} (l : list (op K)) o,
  tidy (l ++ [o]) ->
  let d := run (RDict ∅ ∅) l in
  match o with
  | Set_ k v => raised (perform d o) = false
  | Pop k => (raised (perform d o) = true <-> forall v, (k, v) ∉ pairs l) /\
             (raised (perform d o) = true -> state_of (perform d o) = d)
  end.
Proof.
  intros K EK CK l o Ht d.
  assert (T : forall l B, tidy_from B (l ++ [o]) -> tidy_from B l /\ tidy_from (fold_left pairs_after l B) [o]).
  { clear. induction l as [| p l IH]; intros B Ht; [split; [exact I | exact Ht] |].
    destruct Ht as [Hp Ht]. destruct (IH _ Ht) as [H1 H2]. split; [split; assumption | exact H2]. }
  destruct (T l ∅ Ht) as [Hl Ho]. pose proof (run_holds l _ _ holds_empty Hl) as Hh. fold d in Hh.
  destruct o as [k v | k]; cbn [perform].
  - destruct Ho as [Ho _]. destruct (holds_set _ _ _ _ Hh Ho) as (d' & -> & _). reflexivity.
  - destruct (holds_pop _ _ k Hh) as (_ & H1 & H2). split; assumption.
Qed.
Print Assumptions C36_operations.

(** In any history, tidy or not: a key which is a value of an entry cannot be set - KeyError, nothing
    changes -, and reading a key that has been set gives the value set last unless popped since. *)
Theorem C36_last_value : forall (K : Type) `{Countable K} (l : list (op K)) d k v,
  raised (setitem (run d l) k v) = false ->
  forall l', (forall o, o ∈ l' -> match o with Set_ k' _ => k' <> k | Pop k' => k' <> k end) ->
  getitem (run d (l ++ Set_ k v :: l')) k = Some v.
Proof.
  intros K EK CK l d k v Hr l' Hl'. unfold run. rewrite fold_left_app. cbn [fold_left].
  fold (run d l). cbn [perform]. unfold setitem in *. destruct (rev (run d l) !! k); [discriminate |].
  cbn [state_of]. assert (G : forall (e : rdict K), fwd e !! k = Some v ->
    fwd (fold_left (fun d o => state_of (perform d o)) l' e) !! k = Some v).
  { clear - Hl'. induction l' as [| o l' IH]; intros e He; [exact He |]. cbn [fold_left].
    apply IH; [intros p Hp; apply Hl'; right; exact Hp |].
    pose proof (Hl' o (elem_of_list_here _ _)) as Ho. destruct o as [k' v' | k']; cbn [perform].
    - unfold setitem. destruct (rev e !! k'); [exact He |]. cbn. rewrite lookup_insert_ne by exact Ho. exact He.
    - unfold pop. destruct (fwd e !! k') as [w |]; [| exact He].
      destruct (rev e !! w); cbn; rewrite lookup_delete_ne by exact Ho; exact He. }
  unfold getitem. rewrite G; [reflexivity |]. cbn. apply lookup_insert.
Qed.
Print Assumptions C36_last_value.

Theorem C36_both_sides : forall (K : Type) `{Countable K} (d : rdict K) k v,
  rev d !! k <> None -> setitem d k v = KeyError d.
Proof. intros K EK CK d k v Hk. unfold setitem. destruct (rev d !! k); [reflexivity | congruence]. Qed.
Print Assumptions C36_both_sides.

(** Example: engines 0 and 1 with uuids 10 and 11; engine 0 goes and comes back as 12. *)
Definition history : list (op nat) := [Set_ 0 10; Set_ 1 11; Pop 0; Set_ 0 12].
Example C36_example : tidy history /\ getitem (run (RDict ∅ ∅) history) 0 = Some 12 /\
  getitem (run (RDict ∅ ∅) history) 12 = Some 0 /\ getitem (run (RDict ∅ ∅) history) 10 = None.
Proof.
  split; [| vm_compute; auto].
  unfold tidy, history. cbn [tidy_from]. repeat split; try discriminate.
  - intros a b Hab. set_solver.
  - intros a b Hab. unfold pairs_after in Hab.
    apply elem_of_filter in Hab. destruct Hab as [Ha Hab]. cbn in Ha.
    rewrite !elem_of_union, !elem_of_singleton in Hab.
    destruct Hab as [[= -> ->] | [[= -> ->] | Hab]]; [right; lia | congruence | set_solver].
Qed.

(** Refuted without the condition: after a key is given a new value, the old value still leads to it ... *)
Theorem C36_stale_refuted : ~ (forall (l : list (op nat)) x y,
  getitem (run (RDict ∅ ∅) l) x = Some y -> getitem (run (RDict ∅ ∅) l) y = Some x).
Proof. intros H. specialize (H [Set_ 0 10; Set_ 0 11] 10 0 eq_refl). vm_compute in H. discriminate. Qed.
Print Assumptions C36_stale_refuted.

(** ... and when two keys have the same value, popping both raises KeyError, having removed the entry. *)
Theorem C36_pop_refuted : ~ (forall (l : list (op nat)) k,
  getitem (run (RDict ∅ ∅) l) k <> None -> raised (pop (run (RDict ∅ ∅) l) k) = false).
Proof. intros H. specialize (H [Set_ 0 10; Set_ 1 10; Pop 0] 1). vm_compute in H. discriminate H. discriminate. Qed.
Print Assumptions C36_pop_refuted.

(** The check "not on both sides" only looks at the key: a value may already be a key. *)
Theorem C36_value_check_refuted : exists l : list (op nat),
  getitem (run (RDict ∅ ∅) l) 5 = Some 6 /\ getitem (run (RDict ∅ ∅) l) 7 = Some 5.
Proof. exists [Set_ 5 6; Set_ 7 5]. vm_compute. auto. Qed.
Print Assumptions C36_value_check_refuted.
