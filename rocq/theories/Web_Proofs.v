(** Proofs for C87. *)
From Coq Require Import NArith String List Bool Lia Permutation Sorted.
From Verif Require Import Batch_Spec Manager_Spec Manager_Model Manager_Notions Manager_Proofs Manager_Proofs2 Manager_Proofs3 Web_Spec Web_Model.
Import ListNotations.

Lemma ltt_spec : forall a b, ltt a b = true <-> text_lt a b.
Proof.
  intros a. induction a as [|c a IH]; intros [|d b]; cbn [ltt].
  - split; [discriminate | intros H; inversion H].
  - split; [intros _; constructor | auto].
  - split; [discriminate | intros H; inversion H].
  - destruct (N.eqb_spec c d) as [->|ne].
    + rewrite IH. split; [apply lt_later|]. intros H. inversion H; subst; auto. lia.
    + rewrite N.ltb_lt. split; [apply lt_here|]. intros H. inversion H; subst; auto. congruence.
Qed.
Lemma text_lt_irrefl a : ~ text_lt a a.
Proof. induction a; intros H; inversion H; subst; [lia | auto]. Qed.
Lemma text_lt_trans : forall a b c, text_lt a b -> text_lt b c -> text_lt a c.
Proof.
  intros a. induction a as [|x a IH]; intros b c H1 H2; inversion H1; subst; inversion H2; subst;
    solve [apply lt_end | apply lt_here; lia | apply lt_later; eauto].
Qed.
Lemma text_lt_total : forall a b, a = b \/ text_lt a b \/ text_lt b a.
Proof.
  intros a. induction a as [|c a IH]; intros [|d b]; [auto | right; left; constructor | right; right; constructor|].
  destruct (N.lt_trichotomy c d) as [L|[->|L]]; [right; left; constructor; auto | | right; right; constructor; auto].
  destruct (IH b) as [->|[L|L]]; [auto | right; left; apply lt_later; auto | right; right; apply lt_later; auto].
Qed.

Definition before_b (a b : entry) : bool := lt_key (sort_key a) (sort_key b).
Lemma before_spec a b : before_b a b = true <-> shown_before a b.
Proof.
  unfold before_b, lt_key, sort_key, shown_before, default_profile, default_cluster.
  assert (E1 : eqs (profile_name a) (lit "default") = true <-> profile_name a = lit "default") by apply eqs_iff.
  assert (E2 : eqs (profile_name b) (lit "default") = true <-> profile_name b = lit "default") by apply eqs_iff.
  assert (E3 : eqs (cluster_name a) [] = true <-> cluster_name a = []) by apply eqs_iff.
  assert (E4 : eqs (cluster_name b) [] = true <-> cluster_name b = []) by apply eqs_iff.
  assert (E5 : eqs (profile_name a) (profile_name b) = true <-> profile_name a = profile_name b) by apply eqs_iff.
  pose proof (ltt_spec (profile_name a) (profile_name b)) as L1. pose proof (ltt_spec (cluster_name a) (cluster_name b)) as L2.
  pose proof (text_lt_irrefl (profile_name b)) as L3.
  assert (L4 : profile_name a = profile_name b -> ~ text_lt (profile_name a) (profile_name b)) by (intros ->; auto).
  rewrite <- E1, <- E2, <- E3, <- E4, <- E5, <- L1, <- L2. clear E1 E2 E3 E4 L2 L3.
  rewrite <- L1 in L4. rewrite <- E5 in L4. clear L1 E5.
  destruct (started a), (started b), (eqs (profile_name a) (lit "default")), (eqs (profile_name b) (lit "default")), (eqs (cluster_name a) []), (eqs (cluster_name b) []),
    (eqs (profile_name a) (profile_name b)), (ltt (profile_name a) (profile_name b)), (ltt (cluster_name a) (cluster_name b)); cbn; intuition (try congruence).
Qed.


(** the order of tuples *)
Definition lex {A B} (R : A -> A -> Prop) (S : B -> B -> Prop) (x y : A * B) : Prop := R (fst x) (fst y) \/ (fst x = fst y /\ S (snd x) (snd y)).
Definition transitive {A} (R : A -> A -> Prop) : Prop := forall a b c, R a b -> R b c -> R a c.
Definition total {A} (R : A -> A -> Prop) : Prop := forall a b, a = b \/ R a b \/ R b a.
Definition irreflexive {A} (R : A -> A -> Prop) : Prop := forall a, ~ R a a.
Lemma lex_trans {A B} (R : A -> A -> Prop) (S : B -> B -> Prop) : transitive R -> transitive S -> transitive (lex R S).
Proof.
  intros TR TS (a, b) (c, d) (e, f) [H|(E & H)] [K|(F & K)]; cbn [fst snd] in *; subst; unfold lex; cbn [fst snd]; eauto.
Qed.
Lemma lex_total {A B} (R : A -> A -> Prop) (S : B -> B -> Prop) : total R -> total S -> total (lex R S).
Proof.
  intros TR TS (a, b) (c, d). unfold lex; cbn [fst snd]. destruct (TR a c) as [->|[H|H]]; [|auto|auto]. destruct (TS b d) as [->|[H|H]]; auto.
Qed.
Lemma lex_irrefl {A B} (R : A -> A -> Prop) (S : B -> B -> Prop) : irreflexive R -> irreflexive S -> irreflexive (lex R S).
Proof. intros IR IS (a, b) [H|(_ & H)]; cbn [fst snd] in H; [eapply IR | eapply IS]; eauto. Qed.
Definition blt (a b : bool) : Prop := a = false /\ b = true.
Definition key_lt : bool * bool * bool * list N * list N -> bool * bool * bool * list N * list N -> Prop := lex (lex (lex (lex blt blt) blt) text_lt) text_lt.
Lemma lt_key_spec x y : lt_key x y = true <-> key_lt x y.
Proof.
  destruct x as ((((a1, a2), a3), a4), a5), y as ((((b1, b2), b3), b4), b5). unfold lt_key, key_lt, lex, blt, ltb; cbn [fst snd].
  destruct (eqs a4 b4) eqn:E.
  - apply eqs_iff in E. subst b4. cbn [negb]. pose proof (ltt_spec a5 b5) as L. pose proof (text_lt_irrefl a4) as I.
    destruct a1, b1, a2, b2, a3, b3; cbn [negb Bool.eqb andb]; split; intros H; try discriminate H; try tauto;
      repeat match goal with H : _ \/ _ |- _ => destruct H | H : _ /\ _ |- _ => destruct H end; try congruence; tauto.
  - assert (NE : a4 <> b4) by (intros ->; rewrite eqs_refl in E; discriminate). cbn [negb]. pose proof (ltt_spec a4 b4) as L.
    destruct a1, b1, a2, b2, a3, b3; cbn [negb Bool.eqb andb]; split; intros H; try discriminate H; try tauto;
      repeat match goal with H : _ \/ _ |- _ => destruct H | H : _ /\ _ |- _ => destruct H end; try congruence; tauto.
Qed.
Lemma blt_ok : transitive blt /\ total blt /\ irreflexive blt.
Proof.
  split; [|split].
  - intros a b c (-> & ->) (? & ->). discriminate.
  - intros [|] [|]; unfold blt; auto.
  - intros a (-> & ?). discriminate.
Qed.
Lemma key_ok : transitive key_lt /\ total key_lt /\ irreflexive key_lt.
Proof.
  destruct blt_ok as (A & B & C). unfold key_lt. split; [|split].
  - repeat apply lex_trans; auto; exact text_lt_trans.
  - repeat apply lex_total; auto; exact text_lt_total.
  - repeat apply lex_irrefl; auto; exact text_lt_irrefl.
Qed.
Lemma before_key a b : shown_before a b <-> key_lt (sort_key a) (sort_key b).
Proof. rewrite <- before_spec. apply lt_key_spec. Qed.
Lemma before_trans a b c : shown_before a b -> shown_before b c -> shown_before a c.
Proof. rewrite !before_key. apply key_ok. Qed.
Lemma before_irrefl a : ~ shown_before a a.
Proof. rewrite before_key. apply key_ok. Qed.
Lemma before_total a b : (profile_name a, cluster_name a) <> (profile_name b, cluster_name b) -> shown_before a b \/ shown_before b a.
Proof.
  intros NE. rewrite !before_key. destruct key_ok as (_ & T & _). destruct (T (sort_key a) (sort_key b)) as [E|[E|E]]; auto.
  exfalso. apply NE. unfold sort_key in E. injection E as _ _ _ E1 E2. congruence.
Qed.

(** sorting *)
Lemma insert_perm a l : Permutation (insert a l) (a :: l).
Proof.
  induction l as [|b l IH]; cbn [insert]; auto. destruct (lt_key _ _); auto. rewrite IH. apply perm_swap.
Qed.
Lemma sorted_perm l : Permutation (sorted l) l.
Proof. induction l as [|a l IH]; cbn [sorted fold_right]; auto. rewrite insert_perm. constructor. exact IH. Qed.
Definition names_of (e : entry) := (profile_name e, cluster_name e).
Lemma insert_sorted a l : StronglySorted shown_before l -> ~ In (names_of a) (map names_of l) -> StronglySorted shown_before (insert a l).
Proof.
  induction l as [|b l IH]; intros S NI; cbn [insert].
  - constructor; constructor.
  - inversion S as [|? ? S' F]; subst. cbn [map In] in NI.
    destruct (lt_key (sort_key b) (sort_key a)) eqn:E.
    + apply lt_key_spec, before_key in E. constructor; [apply IH; tauto|]. apply Forall_forall. intros x I.
      apply (Permutation_in _ (insert_perm a l)) in I. destruct I as [<-|I]; auto. rewrite Forall_forall in F. auto.
    + assert (B : shown_before a b).
      { assert (NE : (profile_name a, cluster_name a) <> (profile_name b, cluster_name b)) by (intros e; apply NI; left; symmetry; exact e).
        destruct (before_total a b NE) as [X|X]; auto. apply before_spec in X. unfold before_b in X. congruence. }
      constructor; auto. constructor; auto. rewrite Forall_forall in F. apply Forall_forall. intros x I. eapply before_trans; eauto.
Qed.
Lemma sorted_sorted l : NoDup (map names_of l) -> StronglySorted shown_before (sorted l).
Proof.
  induction l as [|a l IH]; intros ND; cbn [sorted fold_right]; [constructor|]. inversion ND as [|? ? NI ND']; subst.
  apply insert_sorted; [apply IH; auto|]. intros I. apply NI. apply in_map_iff in I as (x & e & I). rewrite <- e. apply in_map.
  eapply Permutation_in; [apply sorted_perm|]. exact I.
Qed.
Lemma sorted_unique l l' : StronglySorted shown_before l -> StronglySorted shown_before l' -> Permutation l l' -> l = l'.
Proof.
  revert l'. induction l as [|a l IH]; intros l' S S' P.
  - symmetry. apply Permutation_nil. auto.
  - destruct l' as [|b l']; [apply Permutation_sym, Permutation_nil in P; discriminate|].
    inversion S as [|? ? S1 F1]; subst. inversion S' as [|? ? S2 F2]; subst. rewrite Forall_forall in F1, F2.
    assert (E : a = b).
    { assert (Ia : In a (b :: l')) by (eapply Permutation_in; [exact P | left; auto]).
      assert (Ib : In b (a :: l)) by (eapply Permutation_in; [apply Permutation_sym; exact P | left; auto]).
      destruct Ia as [e|Ia]; auto. destruct Ib as [e|Ib]; auto. exfalso. eapply before_irrefl. eapply before_trans; [apply F1; exact Ib | apply F2; exact Ia]. }
    subst b. f_equal. apply IH; auto. eapply Permutation_cons_inv; eauto.
Qed.
