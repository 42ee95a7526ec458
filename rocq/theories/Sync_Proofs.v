(** Proofs about the `_sync` wrappers. *)
From Coq Require Import String List Bool PeanoNat Lia.
Import ListNotations.
From Verif Require Import Sync_Spec Sync_Model.

Definition acts (c : nat) (lg : list (nat * act)) : list act :=
  map snd (filter (fun p => fst p =? c) lg).
Definition bod (T : list call) (c : nat) : list act :=
  match nth_error T c with Some x => body x | None => [] end.
Definition outc (T : list call) (c : nat) : outcome :=
  match nth_error T c with Some x => out x | None => Ret 0 end.
Definition view (i : item) : option (nat * list act) :=
  match i with SetEv _ => None | Co c l | InC c _ l => Some (c, l) end.
Definition cid (i : item) : list nat :=
  match i with SetEv _ => [] | Co c _ | InC c _ _ => [c] end.
Definition ids (p : list (nat * item)) : list nat := flat_map (fun x => cid (snd x)) p.

Lemma upd_eq {A} (f : nat -> A) k v : upd f k v k = v.
Proof. unfold upd. rewrite Nat.eqb_refl. reflexivity. Qed.
Lemma upd_ne {A} (f : nat -> A) k v x : x <> k -> upd f k v x = f x.
Proof. intro. unfold upd. destruct (x =? k) eqn:E; [apply Nat.eqb_eq in E; congruence|reflexivity]. Qed.

Lemma acts_app c a b : acts c (a ++ b) = acts c a ++ acts c b.
Proof. unfold acts. rewrite filter_app, map_app. reflexivity. Qed.
Lemma acts_eq c lg a : acts c (lg ++ [(c, a)]) = acts c lg ++ [a].
Proof. rewrite acts_app. unfold acts at 2. cbn. rewrite Nat.eqb_refl. reflexivity. Qed.
Lemma acts_ne c d lg a : c <> d -> acts c (lg ++ [(d, a)]) = acts c lg.
Proof.
  intro. rewrite acts_app. unfold acts at 2. cbn.
  destruct (d =? c) eqn:E; [apply Nat.eqb_eq in E; congruence|].
  cbn. apply app_nil_r.
Qed.

Lemma ids_app a b : ids (a ++ b) = ids a ++ ids b.
Proof. unfold ids. apply flat_map_app. Qed.

Lemma in_ids t i c l p : In (t, i) p -> view i = Some (c, l) -> In c (ids p).
Proof.
  intros H V. unfold ids. apply in_flat_map. exists (t, i). split; [exact H|].
  destruct i; cbn in *; try discriminate; left; congruence.
Qed.

Lemma ids_in c p : In c (ids p) -> exists t i l, In (t, i) p /\ view i = Some (c, l).
Proof.
  intros H. unfold ids in H. apply in_flat_map in H as ((t, i) & H & V).
  destruct i as [e|c0 l|c0 c1 l]; cbn in V.
  - destruct V.
  - destruct V as [->|[]]. exists t, (Co c l), l. auto.
  - destruct V as [->|[]]. exists t, (InC c c1 l), l. auto.
Qed.

Definition good_pc (T : list call) (s : st) (c : nat) : Prop :=
  match pcs s c with
  | Idle | Chk | MkEv | MkTh | StartTh | Rd | Wait _ | Sub
  | Done NoLoop | Done Twice => acts c (log s) = [] /\ fut s c = None
  | Fut => In c (ids (pool s)) \/
           (acts c (log s) = bod T c /\
            (fut s c = Some (outc T c) \/
             (fut s c = None /\ exists e, outc T c = Base e)))
  | Own l | OwnIn _ l => acts c (log s) ++ l = bod T c /\ fut s c = None
  | Done (Out o) => acts c (log s) = bod T c /\ o = outc T c
  end.

Record Inv (T : list call) (s : st) : Prop := {
  i_nd : NoDup (ids (pool s));
  i_it : forall t i c l, In (t, i) (pool s) -> view i = Some (c, l) ->
           acts c (log s) ++ l = bod T c /\ pcs s c = Fut /\ fut s c = None;
  i_pc : forall c, good_pc T s c;
  i_lt : forall c, pcs s c <> Idle -> exists x, nth_error T c = Some x }.

Lemma inv_init T : Inv T init.
Proof.
  constructor; cbn.
  - constructor.
  - intros ? ? ? ? [].
  - intro c. split; reflexivity.
  - intros c H. congruence.
Qed.

(** A caller's step that leaves everything but its place alone. *)
Lemma inv_pc T s c p :
  Inv T s -> pcs s c <> Fut -> (exists x, nth_error T c = Some x) ->
  match p with
  | Idle | Chk | MkEv | MkTh | StartTh | Rd | Wait _ | Sub
  | Done NoLoop | Done Twice => acts c (log s) = [] /\ fut s c = None
  | Fut => False
  | Own l | OwnIn _ l => acts c (log s) ++ l = bod T c /\ fut s c = None
  | Done (Out o) => acts c (log s) = bod T c /\ o = outc T c
  end -> Inv T (set_pc s c p).
Proof.
  intros [N I P L] F X G. constructor.
  - exact N.
  - intros t i c0 l H V. destruct (I t i c0 l H V) as (a & b & d).
    assert (c0 <> c) by (intros ->; exact (F b)).
    unfold set_pc; cbn [pcs log fut]. rewrite upd_ne by assumption. auto.
  - intro c0. specialize (P c0). unfold good_pc, set_pc in *; cbn [pcs log fut pool].
    destruct (Nat.eq_dec c0 c) as [->|n].
    + rewrite upd_eq. destruct p; try exact G. destruct G.
    + rewrite upd_ne by assumption. exact P.
  - intros c0. unfold set_pc; cbn [pcs]. destruct (Nat.eq_dec c0 c) as [->|n].
    + intros _. exact X.
    + rewrite upd_ne by assumption. apply L.
Qed.

Lemma inv_same T s s' :
  pcs s' = pcs s -> pool s' = pool s -> fut s' = fut s -> log s' = log s ->
  Inv T s -> Inv T s'.
Proof.
  intros A B C D [N I P L]. constructor.
  - rewrite B. exact N.
  - rewrite A, B, C, D. exact I.
  - intro c. specialize (P c). unfold good_pc in *. rewrite A, B, C, D. exact P.
  - rewrite A. exact L.
Qed.

(** A step of a caller in its own loop. *)
Lemma inv_note T s c a l p :
  Inv T s -> pcs s c = Own (a :: l) -> (p = Own l \/ exists c', p = OwnIn c' l) ->
  Inv T (set_pc (note s c a) c p).
Proof.
  intros [N I P L] E Hp. pose proof (P c) as G. unfold good_pc in G. rewrite E in G.
  destruct G as [G1 G2].
  constructor.
  - exact N.
  - intros t i c0 l0 H V. destruct (I t i c0 l0 H V) as (x & y & z).
    assert (c0 <> c) by (intros ->; congruence).
    unfold set_pc, note; cbn [pcs log fut]. rewrite upd_ne, acts_ne by assumption. auto.
  - intro c0. specialize (P c0). unfold good_pc, set_pc, note in *; cbn [pcs log fut pool].
    destruct (Nat.eq_dec c0 c) as [->|n].
    + rewrite upd_eq, acts_eq.
      assert (Q : (acts c (log s) ++ [a]) ++ l = bod T c /\ fut s c = None)
        by (rewrite <- app_assoc; auto).
      destruct Hp as [->|[c' ->]]; exact Q.
    + rewrite upd_ne, acts_ne by assumption. exact P.
  - intros c0. unfold set_pc, note; cbn [pcs]. destruct (Nat.eq_dec c0 c) as [->|n].
    + intros _. apply L. congruence.
    + rewrite upd_ne by assumption. apply L.
Qed.

(** A thing of no call comes to the pool, or leaves it. *)
Lemma inv_pool T s p :
  Inv T s -> (forall c, In c (ids p) <-> In c (ids (pool s))) -> NoDup (ids p) ->
  (forall t i c l, In (t, i) p -> view i = Some (c, l) ->
     exists t' i', In (t', i') (pool s) /\ view i' = Some (c, l)) ->
  Inv T (set_pool s p).
Proof.
  intros [N I P L] E ND B. constructor.
  - exact ND.
  - intros t i c l H V. destruct (B t i c l H V) as (t' & i' & H' & V').
    exact (I t' i' c l H' V').
  - intro c. specialize (P c). unfold good_pc, set_pool in *; cbn [pcs log fut pool].
    destruct (pcs s c); try exact P. destruct P as [P|P]; [left; apply E; exact P|right; exact P].
  - exact L.
Qed.

(** A coroutine goes on in a background loop. *)
Lemma inv_item T s t c a l p1 p2 j :
  Inv T s -> pool s = p1 ++ (t, Co c (a :: l)) :: p2 -> view j = Some (c, l) ->
  Inv T (note (set_pool s (p1 ++ (t, j) :: p2)) c a).
Proof.
  intros [N I P L] E V.
  assert (IDS : ids (p1 ++ (t, j) :: p2) = ids (pool s)).
  { rewrite E, !ids_app. f_equal. unfold ids. cbn [flat_map snd]. f_equal.
    destruct j; cbn in *; try discriminate; congruence. }
  assert (H0 : In (t, Co c (a :: l)) (pool s)) by (rewrite E; apply in_elt).
  destruct (I _ _ _ _ H0 eq_refl) as (x & y & z).
  assert (ND : NoDup (ids (p1 ++ (t, j) :: p2))) by (rewrite IDS; exact N).
  assert (UN : forall t' i' l', In (t', i') p1 \/ In (t', i') p2 -> view i' <> Some (c, l')).
  { intros t' i' l' H' V'. rewrite ids_app in ND.
    change (ids ((t, j) :: p2)) with (cid j ++ ids p2) in ND.
    assert (CJ : cid j = [c]) by (destruct j; cbn in *; try discriminate; congruence).
    rewrite CJ in ND. cbn [app] in ND. apply NoDup_remove_2 in ND. apply ND, in_or_app.
    destruct H' as [H'|H']; [left|right]; exact (in_ids _ _ _ _ _ H' V'). }
  constructor.
  - exact ND.
  - intros t0 i0 c0 l0 H V0. unfold note, set_pool in *; cbn [pcs log fut pool] in *.
    apply in_app_or in H. destruct H as [H|[H|H]].
    + assert (c0 <> c) by (intros ->; exact (UN _ _ _ (or_introl H) V0)).
      rewrite acts_ne by assumption. refine (I t0 i0 c0 l0 _ V0). rewrite E. apply in_or_app. auto.
    + injection H as <- <-. rewrite V in V0. injection V0 as <- <-.
      rewrite acts_eq, <- app_assoc. auto.
    + assert (c0 <> c) by (intros ->; exact (UN _ _ _ (or_intror H) V0)).
      rewrite acts_ne by assumption. refine (I t0 i0 c0 l0 _ V0). rewrite E.
      apply in_or_app. right. right. exact H.
  - intro c0. specialize (P c0). unfold good_pc, note, set_pool in *; cbn [pcs log fut pool].
    rewrite IDS. destruct (Nat.eq_dec c0 c) as [->|n].
    + rewrite y. left. apply (in_ids t (Co c (a :: l)) c (a :: l)); [exact H0|reflexivity].
    + rewrite acts_ne by assumption. exact P.
  - exact L.
Qed.

Lemma inv_step T b s s' : Inv T s -> step T b s s' -> Inv T s'.
Proof.
  intros IV H. pose proof IV as [N I P L]. 
  destruct H.
  - (* SCall *)
    pose proof (P c) as G. unfold good_pc in G. rewrite H0 in G.
    apply inv_pc; [assumption|congruence|eauto|].
    unfold entry. destruct (in_loop x); [exact G|]. destruct G as [G1 G2].
    split; [|exact G2]. rewrite G1. unfold bod. rewrite H. reflexivity.
  - pose proof (P c) as G. unfold good_pc in G. rewrite H in G.
    apply inv_pc; [assumption|congruence|apply L; congruence|exact G].
  - pose proof (P c) as G. unfold good_pc in G. rewrite H in G.
    apply inv_pc; [assumption|congruence|apply L; congruence|exact G].
  - pose proof (P c) as G. unfold good_pc in G. rewrite H in G.
    apply inv_pc; [exact (inv_same T s (set_ev s c) eq_refl eq_refl eq_refl eq_refl IV)|cbn; congruence|apply L; congruence|exact G].
  - pose proof (P c) as G. unfold good_pc in G. rewrite H in G.
    apply inv_pc; [exact (inv_same T s (set_tha s c) eq_refl eq_refl eq_refl eq_refl IV)|cbn; congruence|apply L; congruence|exact G].
  - pose proof (P c) as G. unfold good_pc in G. rewrite H in G.
    apply inv_pc; [exact (inv_same T s (set_th s t T38) eq_refl eq_refl eq_refl eq_refl IV)|cbn; congruence|apply L; congruence|exact G].
  - pose proof (P c) as G. unfold good_pc in G. rewrite H in G.
    apply inv_pc; [assumption|congruence|apply L; congruence|exact G].
  - pose proof (P c) as G. unfold good_pc in G. rewrite H in G.
    apply inv_pc; [assumption|congruence|apply L; congruence|exact G].
  - pose proof (P c) as G. unfold good_pc in G. rewrite H in G.
    apply inv_pc; [assumption|congruence|apply L; congruence|exact G].
  - pose proof (P c) as G. unfold good_pc in G. rewrite H in G.
    apply inv_pc; [assumption|congruence|apply L; congruence|exact G].
  - pose proof (P c) as G. unfold good_pc in G. rewrite H in G.
    apply inv_pc; [assumption|congruence|apply L; congruence|exact G].
  - (* SSub *)
    pose proof (P c) as G. unfold good_pc in G. rewrite H in G. destruct G as [G1 G2].
    assert (NI : ~ In c (ids (pool s))).
    { intro Hc. apply ids_in in Hc as (t' & i & l & Hi & V). destruct (I _ _ _ _ Hi V) as (_ & y & _). congruence. }
    constructor.
    + unfold set_pc, set_pool; cbn [pool]. rewrite ids_app. unfold ids at 2. cbn.
      apply NoDup_rev in N. rewrite <- (rev_involutive (ids (pool s) ++ [c])).
      apply NoDup_rev. rewrite rev_app_distr. cbn. constructor; [|exact N].
      rewrite <- in_rev. exact NI.
    + intros t0 i0 c0 l0 Hi V0. unfold set_pc, set_pool in *; cbn [pcs log fut pool] in *.
      apply in_app_or in Hi. destruct Hi as [Hi|[Hi|[]]].
      * destruct (I _ _ _ _ Hi V0) as (a & b & d).
        assert (c0 <> c) by congruence. rewrite upd_ne by assumption. auto.
      * injection Hi as <- <-. cbn in V0. injection V0 as <- <-. rewrite upd_eq, G1.
        unfold bod. rewrite H1. auto.
    + intro c0. specialize (P c0). unfold good_pc, set_pc, set_pool in *; cbn [pcs log fut pool].
      destruct (Nat.eq_dec c0 c) as [->|n].
      * rewrite upd_eq. left. rewrite ids_app. apply in_or_app. right. left. reflexivity.
      * rewrite upd_ne by assumption. destruct (pcs s c0); try exact P.
        destruct P as [P|P]; [left; rewrite ids_app; apply in_or_app; left; exact P|right; exact P].
    + intros c0. unfold set_pc, set_pool; cbn [pcs]. destruct (Nat.eq_dec c0 c) as [->|n].
      * intros _. eauto.
      * rewrite upd_ne by assumption. apply L.
  - (* SFut *)
    pose proof (P c) as G. unfold good_pc in G. rewrite H in G.
    destruct G as [G|[G1 [G2|[G2 _]]]].
    + apply ids_in in G as (t' & i & l & Hi & V). destruct (I _ _ _ _ Hi V) as (_ & _ & z). congruence.
    + assert (NI : ~ In c (ids (pool s))).
      { intro Hc. apply ids_in in Hc as (t' & i & l & Hi & V). destruct (I _ _ _ _ Hi V) as (_ & _ & z). congruence. }
      constructor.
      * exact N.
      * intros t0 i0 c0 l0 Hi V0. unfold set_pc in *; cbn [pcs log fut pool] in *.
        assert (c0 <> c) by (intros ->; exact (NI (in_ids _ _ _ _ _ Hi V0))).
        rewrite upd_ne by assumption. exact (I _ _ _ _ Hi V0).
      * intro c0. specialize (P c0). unfold good_pc, set_pc in *; cbn [pcs log fut pool].
        destruct (Nat.eq_dec c0 c) as [->|n].
        -- rewrite upd_eq. split; [exact G1|congruence].
        -- rewrite upd_ne by assumption. exact P.
      * intros c0. unfold set_pc; cbn [pcs]. destruct (Nat.eq_dec c0 c) as [->|n].
        -- intros _. apply L. congruence.
        -- rewrite upd_ne by assumption. apply L.
    + congruence.
  - (* SOwnEnd *)
    pose proof (P c) as G. unfold good_pc in G. rewrite H in G. rewrite app_nil_r in G.
    apply inv_pc; [assumption|congruence|apply L; congruence|].
    split; [apply G|]. unfold outc. rewrite H0. reflexivity.
  - apply (inv_note T s c Yield l (Own l)); auto.
  - (* SOwnSync *)
    assert (c' <> c) by congruence.
    pose proof (P c') as G. unfold good_pc in G. rewrite H0 in G.
    assert (J : Inv T (set_pc s c' Chk)).
    { apply inv_pc; [assumption|congruence|eauto|exact G]. }
    assert (J' : Inv T (set_pc (note (set_pc s c' Chk) c (Sync c')) c (OwnIn c' l))).
    { apply (inv_note T _ c (Sync c') l); [exact J| |right; eauto].
      unfold set_pc; cbn [pcs]. rewrite upd_ne by congruence. exact H. }
    exact J'.
  - (* SOwnBack *)
    pose proof (P c) as G. unfold good_pc in G. rewrite H in G.
    apply inv_pc; [assumption|congruence|apply L; congruence|exact G].
  - exact (inv_same T s (set_th (set_loop s t) t T39) eq_refl eq_refl eq_refl eq_refl IV).
  - apply (inv_same T (set_pool s (pool s ++ [(t, SetEv e)]))); try reflexivity.
    apply inv_pool; [assumption| | |].
    + intro c. rewrite ids_app. unfold ids at 2. cbn. rewrite app_nil_r. reflexivity.
    + rewrite ids_app. unfold ids at 2. cbn. rewrite app_nil_r. exact N.
    + intros t0 i c l Hi V. apply in_app_or in Hi. destruct Hi as [Hi|[Hi|[]]]; [eauto|].
      injection Hi as <- <-. discriminate V.
  - apply (inv_same T (set_pool s (p1 ++ p2))); try reflexivity.
    assert (IDS : ids (p1 ++ p2) = ids (pool s)) by (rewrite H1, !ids_app; reflexivity).
    apply inv_pool; [assumption| | |].
    + intro c. rewrite IDS. reflexivity.
    + rewrite IDS. exact N.
    + intros t0 i c l Hi V. exists t0, i. split; [|exact V]. rewrite H1.
      apply in_app_or in Hi. apply in_or_app. destruct Hi; [left|right; right]; assumption.
  - (* SCoEnd *)
    assert (H0' : In (t, Co c []) (pool s)) by (rewrite H1; apply in_elt).
    destruct (I _ _ _ _ H0' eq_refl) as (a & b & d). rewrite app_nil_r in a.
    assert (ND := N). rewrite H1, ids_app in ND.
    change (ids ((t, Co c []) :: p2)) with (c :: ids p2) in ND.
    assert (NI := NoDup_remove_2 _ _ _ ND). apply NoDup_remove_1 in ND.
    rewrite <- ids_app in ND, NI.
    assert (SUB : forall t0 i, In (t0, i) (p1 ++ p2) -> In (t0, i) (pool s)).
    { intros t0 i Hi. rewrite H1. apply in_app_or in Hi. apply in_or_app.
      destruct Hi; [left|right; right]; assumption. }
    assert (KEEP : forall c0, c0 <> c -> In c0 (ids (pool s)) -> In c0 (ids (p1 ++ p2))).
    { intros c0 Hn Hi. rewrite H1, ids_app in Hi. rewrite ids_app.
      apply in_app_or in Hi. apply in_or_app. destruct Hi as [Hi|Hi]; [auto|].
      change (ids ((t, Co c []) :: p2)) with (c :: ids p2) in Hi.
      destruct Hi as [Hi|Hi]; [congruence|auto]. }
    assert (OC : outc T c = out x) by (unfold outc; rewrite H2; reflexivity).
    assert (R : exists f, resolve (set_pool s (p1 ++ p2)) c (out x) =
       St (tha s) (ev s) (evset s) (loop s) (pcs s) (ths s) (p1 ++ p2) f (log s) /\
       (forall c0, c0 <> c -> f c0 = fut s c0) /\
       (f c = Some (outc T c) \/ f c = None /\ exists e, outc T c = Base e)).
    { rewrite OC. unfold resolve, set_fut, set_pool. cbn [pcs log fut pool tha ev evset loop ths].
      destruct (out x) as [v|e|e] eqn:Eo.
      - eexists. split; [reflexivity|]. split; [intros; apply upd_ne; assumption|left; apply upd_eq].
      - eexists. split; [reflexivity|]. split; [intros; apply upd_ne; assumption|left; apply upd_eq].
      - eexists. split; [reflexivity|]. split; [reflexivity|right; eauto]. }
    destruct R as (f & -> & Fn & Fc). constructor; cbn [pcs log fut pool].
    + exact ND.
    + intros t0 i0 c0 l0 Hi V0.
      assert (c0 <> c) by (intros ->; exact (NI (in_ids _ _ _ _ _ Hi V0))).
      rewrite Fn by assumption. exact (I _ _ _ _ (SUB _ _ Hi) V0).
    + intro c0. specialize (P c0). unfold good_pc in *; cbn [pcs log fut pool].
      destruct (Nat.eq_dec c0 c) as [->|n].
      * rewrite b. right. auto.
      * rewrite Fn by assumption. destruct (pcs s c0); try exact P.
        destruct P as [P|P]; [left; auto|right; exact P].
    + exact L.
  - (* SCoYield *) exact (inv_item T s t c Yield l p1 p2 (Co c l) IV H1 eq_refl).
  - (* SCoSync *)
    assert (H0' : In (t, Co c (Sync c' :: l)) (pool s)) by (rewrite H1; apply in_elt).
    destruct (I _ _ _ _ H0' eq_refl) as (a & b & d).
    assert (c' <> c) by congruence.
    pose proof (P c') as G. unfold good_pc in G. rewrite H2 in G.
    apply inv_pc.
    + exact (inv_item T s t c (Sync c') l p1 p2 (InC c c' l) IV H1 eq_refl).
    + cbn. congruence.
    + eauto.
    + unfold note, set_pool; cbn [log fut]. rewrite acts_ne by assumption. exact G.
  - (* SCoBack *)
    assert (IDS : ids (p1 ++ (t, Co c l) :: p2) = ids (pool s)) by (rewrite H0, !ids_app; reflexivity).
    apply inv_pool; [assumption| | |].
    + intro c0. rewrite IDS. reflexivity.
    + rewrite IDS. exact N.
    + intros t0 i c0 l0 Hi V. apply in_app_or in Hi. destruct Hi as [Hi|[Hi|Hi]].
      * exists t0, i. split; [rewrite H0; apply in_or_app; auto|exact V].
      * injection Hi as <- <-. exists t, (InC c c' l). split; [rewrite H0; apply in_elt|exact V].
      * exists t0, i. split; [rewrite H0; apply in_or_app; right; right; exact Hi|exact V].
Qed.

Lemma inv_steps T n s1 s : steps T n s1 s -> Inv T s1 -> Inv T s.
Proof. induction 1 as [|n b s1 s2 s3 H IH J]; intro V; [exact V|exact (inv_step T b s2 s3 (IH V) J)]. Qed.
Lemma inv_reach T s : reach T s -> Inv T s.
Proof. intros [n H]. exact (inv_steps T n _ _ H (inv_init T)). Qed.

(** ** Termination *)
Definition call_w (T : list call) (s : st) (c : nat) : nat :=
  let n := length (bod T c) in
  match pcs s c with
  | Idle => 20 + n | Chk => 19 + n | MkEv => 12 + n | MkTh => 11 + n
  | StartTh => 10 + n | Rd => 6 + n | Wait _ => 5 + n | Sub => 4 + n
  | Fut => 1 | Own l => 1 + length l | OwnIn _ l => 1 + length l | Done _ => 0
  end.
Definition th_w (s : st) (t : nat) : nat :=
  match ths s t with Off => 0 | T38 => 3 | T39 => 2 | Run => 0 end.
Definition item_w (i : item) : nat :=
  match i with SetEv _ => 1 | Co _ l => 1 + length l | InC _ _ l => 2 + length l end.
Fixpoint sum (f : nat -> nat) (l : list nat) : nat := match l with [] => 0 | x :: r => f x + sum f r end.
Fixpoint pool_w (p : list (nat * item)) : nat := match p with [] => 0 | x :: r => item_w (snd x) + pool_w r end.
Definition meas (T : list call) (s : st) : nat :=
  sum (call_w T s) (seq 0 (length T)) + sum (th_w s) (seq 0 (length T)) + pool_w (pool s).

Lemma sum_ext f g l : (forall x, In x l -> f x = g x) -> sum f l = sum g l.
Proof.
  induction l as [|a l IH]; intro H; [reflexivity|]. cbn.
  rewrite (H a) by (left; reflexivity). rewrite IH; [reflexivity|].
  intros; apply H; right; assumption.
Qed.
Lemma sum_upd f g l k : NoDup l -> In k l -> (forall x, x <> k -> f x = g x) ->
  sum f l + g k = sum g l + f k.
Proof.
  induction l as [|a l IH]; intros N I H; [destruct I|]. inversion N; subst. cbn.
  destruct (Nat.eq_dec a k) as [->|n].
  - rewrite (sum_ext f g l); [lia|]. intros x Hx. apply H. congruence.
  - destruct I as [I|I]; [congruence|]. specialize (IH H3 I H). rewrite (H a) by assumption. lia.
Qed.
Lemma pool_w_app a b : pool_w (a ++ b) = pool_w a + pool_w b.
Proof. induction a as [|x a IH]; [reflexivity|]. cbn. rewrite IH. lia. Qed.
Lemma pool_w_mid a x b : pool_w (a ++ x :: b) = item_w (snd x) + pool_w (a ++ b).
Proof. rewrite !pool_w_app. cbn. lia. Qed.

(** Threads are those of calls that exist. *)
Definition Thr (T : list call) (s : st) : Prop :=
  (forall t, tha s = Some t -> t < length T) /\
  (forall t, ths s t <> Off -> t < length T) /\
  (forall c, pcs s c <> Idle -> c < length T).

Lemma nth_lt {A} (l : list A) k x : nth_error l k = Some x -> k < length l.
Proof. intro H. apply nth_error_Some. congruence. Qed.

Lemma thr_step T b s s' : Thr T s -> step T b s s' -> Thr T s'.
Proof.
  intros (A & B & C) H.
  assert (CU : forall c p, c < length T -> forall x, upd (pcs s) c p x <> Idle -> x < length T).
  { intros c p Hc x Hx. destruct (Nat.eq_dec x c) as [->|n]; [exact Hc|]. rewrite upd_ne in Hx by assumption. auto. }
  assert (TU : forall t p, t < length T -> forall x, upd (ths s) t p x <> Off -> x < length T).
  { intros t p Ht x Hx. destruct (Nat.eq_dec x t) as [->|n]; [exact Ht|]. rewrite upd_ne in Hx by assumption. auto. }
  destruct H; unfold Thr, set_pc, set_th, set_pool, set_tha, set_ev, set_loop, raise_ev, note, resolve;
    cbn [tha ths pcs];
    try (assert (CL : c < length T) by (first [eapply nth_lt; eassumption|apply C; congruence]));
    try (split; [first [exact A | intros t0 E0; injection E0 as <-; exact CL]
                |split; [first [exact B | apply TU; first [apply A; assumption | apply B; congruence]]
                        |first [exact C | apply CU; exact CL]]]).
  - (* SOwnSync *) split; [exact A|split; [exact B|]]. intros x0 Hx. destruct (Nat.eq_dec x0 c) as [->|n]; [exact CL|].
    rewrite upd_ne in Hx by assumption.
    destruct (Nat.eq_dec x0 c') as [->|n']; [eapply nth_lt; eassumption|].
    rewrite upd_ne in Hx by assumption. auto.
  - destruct (out x); cbn [tha ths pcs set_fut]; auto.
  - split; [exact A|split; [exact B|]]. apply CU. eapply nth_lt; eassumption.
Qed.
Lemma thr_init T : Thr T init.
Proof. unfold Thr, init; cbn. split; [|split]; congruence. Qed.

Lemma bod_in T c : bod T c = [] \/ exists x, In x T /\ bod T c = body x.
Proof.
  unfold bod. destruct (nth_error T c) eqn:E; [right|left; reflexivity].
  exists c0. split; [exact (nth_error_In _ _ E)|reflexivity].
Qed.
Lemma no_sync_bod T c c' : no_sync T -> ~ In (Sync c') (bod T c).
Proof.
  intros H. destruct (bod_in T c) as [->|(x & I & ->)]; [intros []|exact (H x c' I)].
Qed.

Definition no_sync_pool (T : list call) (s : st) : Prop :=
  (forall c l c', pcs s c = Own l -> ~ In (Sync c') l) /\
  (forall c c' l, pcs s c <> OwnIn c' l) /\
  (forall t i c l c', In (t, i) (pool s) -> view i = Some (c, l) -> ~ In (Sync c') l) /\
  (forall t c c' l, ~ In (t, InC c c' l) (pool s)).

Lemma no_sync_pool_reach T s : no_sync T -> reach T s -> no_sync_pool T s.
Proof.
  intros NS R. pose proof (inv_reach T s R) as [N I P L].
  assert (SUF : forall a l c c', a ++ l = bod T c -> ~ In (Sync c') l).
  { intros a l c c' E Hi. apply (no_sync_bod T c c' NS). rewrite <- E. apply in_or_app. auto. }
  split; [|split; [|split]].
  - intros c l c' E. specialize (P c). unfold good_pc in P. rewrite E in P. eapply SUF. apply P.
  - (* a call inside another: its Sync is in the log *)
    intros c c' l E.
    assert (Q : forall n s, steps T n init s -> forall c c' l, pcs s c <> OwnIn c' l).
    { clear - NS. intros n s H. remember init as s0 eqn:E0. 
      induction H as [s|n b s1 s2 s3 H IH J]; [subst; cbn; congruence|].
      specialize (IH E0). subst s1. pose proof (inv_steps T n _ _ H (inv_init T)) as [N I P L].
      intros c c' l.
      assert (CU : forall f k p, (forall x y z, f x <> OwnIn y z) -> (forall y z, p <> OwnIn y z) ->
                    upd f k p c <> OwnIn c' l).
      { intros f k p Hf Hp. unfold upd. destruct (c =? k); auto. }
      destruct J; unfold set_pc, set_th, set_pool, set_tha, set_ev, set_loop, raise_ev, note, resolve; cbn [pcs];
        try (apply CU; [exact IH|first [discriminate | unfold entry; destruct (in_loop x); discriminate]]);
        try apply IH.
      - exfalso. specialize (P c0). unfold good_pc in P. rewrite H0 in P. destruct P as [P _].
        apply (no_sync_bod T c0 c'0 NS). rewrite <- P. apply in_or_app. right. left. reflexivity.
      - destruct (out x); cbn [pcs set_fut]; apply IH. }
    destruct R as [n R]. exact (Q n s R c c' l E).
  - intros t i c l c' Hi V. destruct (I _ _ _ _ Hi V) as (a & _). eapply SUF; exact a.
  - intros t c c' l Hi.
    assert (Q : forall n s, steps T n init s -> forall t c c' l, ~ In (t, InC c c' l) (pool s)).
    { clear - NS. intros n s H. remember init as s0 eqn:E0.
      induction H as [s|n b s1 s2 s3 H IH J]; [subst; cbn; auto|].
      specialize (IH E0). subst s1. pose proof (inv_steps T n _ _ H (inv_init T)) as [N I P L].
      intros t c c' l.
      destruct J; unfold set_pc, set_th, set_pool, set_tha, set_ev, set_loop, raise_ev, note, resolve; cbn [pool];
        try apply IH.
      - intro Hi. apply in_app_or in Hi. destruct Hi as [Hi|[Hi|[]]]; [exact (IH _ _ _ _ Hi)|discriminate].
      - intro Hi. apply in_app_or in Hi. destruct Hi as [Hi|[Hi|[]]]; [exact (IH _ _ _ _ Hi)|discriminate].
      - intro Hi. refine (IH t c c' l _). rewrite H2. apply in_app_or in Hi. apply in_or_app.
        destruct Hi; [left|right; right]; assumption.
      - assert (G : ~ In (t, InC c c' l) (p1 ++ p2)).
        { intro Hi. refine (IH t c c' l _). rewrite H2. apply in_app_or in Hi. apply in_or_app.
          destruct Hi; [left|right; right]; assumption. }
        destruct (out x); exact G.
      - intro Hi. refine (IH t c c' l _). rewrite H2. apply in_app_or in Hi. apply in_or_app.
        destruct Hi as [Hi|[Hi|Hi]]; [left; exact Hi|discriminate|right; right; exact Hi].
      - intros _. assert (H5 : In (t0, Co c0 (Sync c'0 :: l0)) (pool s)) by (rewrite H2; apply in_elt).
        destruct (I _ _ _ _ H5 eq_refl) as (a & _).
        apply (no_sync_bod T c0 c'0 NS). rewrite <- a. apply in_or_app. right. left. reflexivity.
      - intro Hi. apply in_app_or in Hi. destruct Hi as [Hi|[Hi|Hi]].
        + refine (IH t c c' l _). rewrite H1. apply in_or_app. auto.
        + discriminate.
        + refine (IH t c c' l _). rewrite H1. apply in_or_app. right. right. exact Hi. }
    destruct R as [n R]. exact (Q n s R t c c' l Hi).
Qed.

(** Every step makes the measure smaller. *)
Lemma call_w_upd T s s' c p :
  c < length T -> pcs s' = upd (pcs s) c p ->
  sum (call_w T s') (seq 0 (length T)) + call_w T s c =
  sum (call_w T s) (seq 0 (length T)) + call_w T s' c.
Proof.
  intros H E. apply sum_upd; [apply seq_NoDup|apply in_seq; lia|].
  intros x n. unfold call_w. rewrite E, upd_ne by assumption. reflexivity.
Qed.
Lemma th_w_upd (T : list call) s s' t p :
  t < length T -> ths s' = upd (ths s) t p ->
  sum (th_w s') (seq 0 (length T)) + th_w s t =
  sum (th_w s) (seq 0 (length T)) + th_w s' t.
Proof.
  intros H E. apply sum_upd; [apply seq_NoDup|apply in_seq; lia|].
  intros x n. unfold th_w. rewrite E, upd_ne by assumption. reflexivity.
Qed.
Lemma call_w_same T s s' : pcs s' = pcs s ->
  sum (call_w T s') (seq 0 (length T)) = sum (call_w T s) (seq 0 (length T)).
Proof. intro E. apply sum_ext. intros. unfold call_w. rewrite E. reflexivity. Qed.
Lemma th_w_same (T : list call) s s' : ths s' = ths s ->
  sum (th_w s') (seq 0 (length T)) = sum (th_w s) (seq 0 (length T)).
Proof. intro E. apply sum_ext. intros. unfold th_w. rewrite E. reflexivity. Qed.

(** What a step does to the measure, when only a caller moves. *)
Lemma meas_pc T s s' c p :
  c < length T -> pcs s' = upd (pcs s) c p -> ths s' = ths s -> pool s' = pool s ->
  call_w T s' c < call_w T s c -> meas T s' < meas T s.
Proof.
  intros L A B C D. unfold meas. pose proof (call_w_upd T s s' c p L A).
  rewrite (th_w_same T s s' B), C. lia.
Qed.
Lemma meas_pool T s s' :
  pcs s' = pcs s -> ths s' = ths s -> pool_w (pool s') < pool_w (pool s) -> meas T s' < meas T s.
Proof.
  intros A B C. unfold meas. rewrite (call_w_same T s s' A), (th_w_same T s s' B). lia.
Qed.

Lemma meas_step T b s s' : no_sync T -> reach T s -> step T b s s' -> meas T s' < meas T s.
Proof.
  intros NS R H. pose proof (no_sync_pool_reach T s NS R) as (Q1 & Q2 & Q3 & Q4).
  assert (TH : Thr T s).
  { destruct R as [n R]. remember init as s0 eqn:E0. clear - R E0.
    induction R; [subst; apply thr_init|eapply thr_step; eauto]. }
  destruct TH as (A & B & C).
  destruct H;
    try (assert (CL : c < length T) by (first [eapply nth_lt; eassumption|apply C; congruence]));
    try (eapply (meas_pc T _ _ c); [exact CL|reflexivity|reflexivity|reflexivity|];
         unfold call_w, set_pc, set_ev, set_tha, note; cbn [pcs]; rewrite upd_eq;
         match goal with E : pcs s _ = _ |- _ => rewrite E; cbn [length]; lia end).
  - (* SCall *)
    eapply (meas_pc T _ _ c); [exact CL|reflexivity|reflexivity|reflexivity|].
    unfold call_w, set_pc; cbn [pcs]. rewrite upd_eq, H0. unfold entry.
    destruct (in_loop x); [lia|]. unfold bod. rewrite H. lia.
  - (* SStart *)
    assert (TL : t < length T) by (apply A; assumption).
    unfold meas. pose proof (call_w_upd T s (set_pc (set_th s t T38) c Rd) c Rd CL eq_refl) as X.
    pose proof (th_w_upd T s (set_pc (set_th s t T38) c Rd) t T38 TL eq_refl) as Y.
    assert (X1 : call_w T (set_pc (set_th s t T38) c Rd) c = 6 + length (bod T c))
      by (unfold call_w, set_pc, set_th; cbn [pcs]; rewrite upd_eq; reflexivity).
    assert (X2 : call_w T s c = 10 + length (bod T c)) by (unfold call_w; rewrite H; reflexivity).
    assert (Y1 : th_w (set_pc (set_th s t T38) c Rd) t = 3)
      by (unfold th_w, set_pc, set_th; cbn [ths]; rewrite upd_eq; reflexivity).
    assert (Y2 : th_w s t = 0) by (unfold th_w; rewrite H1; reflexivity).
    change (pool (set_pc (set_th s t T38) c Rd)) with (pool s). lia.
  - (* SSub *)
    unfold meas. set (s' := set_pc (set_pool s (pool s ++ [(t, Co c (body x))])) c Fut).
    pose proof (call_w_upd T s s' c Fut CL eq_refl) as X.
    rewrite (th_w_same T s s' eq_refl).
    change (pool s') with (pool s ++ [(t, Co c (body x))]). rewrite pool_w_app.
    assert (X1 : call_w T s' c = 1) by (unfold call_w, s', set_pc; cbn [pcs]; rewrite upd_eq; reflexivity).
    assert (X2 : call_w T s c = 4 + length (body x)).
    { unfold call_w. rewrite H. unfold bod. rewrite H1. reflexivity. }
    cbn [pool_w item_w snd]. lia.
  - (* SOwnSync *) exfalso. refine (Q1 _ _ c' H _). left. reflexivity.
  - (* SOwnBack *) exfalso. exact (Q2 _ _ _ H).
  - (* ST38 *)
    assert (TL : t < length T) by (apply B; congruence).
    unfold meas. set (s' := set_th (set_loop s t) t T39).
    pose proof (th_w_upd T s s' t T39 TL eq_refl) as Y. rewrite (call_w_same T s s' eq_refl).
    assert (Y1 : th_w s' t = 2) by (unfold th_w, s', set_th; cbn [ths]; rewrite upd_eq; reflexivity).
    assert (Y2 : th_w s t = 3) by (unfold th_w; rewrite H; reflexivity).
    change (pool s') with (pool s). lia.
  - (* ST39 *)
    assert (TL : t < length T) by (apply B; congruence).
    unfold meas. set (s' := set_th (set_pool s (pool s ++ [(t, SetEv e)])) t Run).
    pose proof (th_w_upd T s s' t Run TL eq_refl) as Y. rewrite (call_w_same T s s' eq_refl).
    assert (Y1 : th_w s' t = 0) by (unfold th_w, s', set_th; cbn [ths]; rewrite upd_eq; reflexivity).
    assert (Y2 : th_w s t = 2) by (unfold th_w; rewrite H; reflexivity).
    change (pool s') with (pool s ++ [(t, SetEv e)]). rewrite pool_w_app. cbn [pool_w item_w snd]. lia.
  - apply meas_pool; [reflexivity|reflexivity|]. rewrite H1, pool_w_mid. cbn [item_w snd raise_ev set_pool pool]. lia.
  - assert (E : pool (resolve (set_pool s (p1 ++ p2)) c (out x)) = p1 ++ p2) by (destruct (out x); reflexivity).
    apply meas_pool; [destruct (out x); reflexivity|destruct (out x); reflexivity|].
    rewrite E, H1, pool_w_mid. cbn [item_w snd]. lia.
  - apply meas_pool; [reflexivity|reflexivity|]. cbn [note set_pool pool]. rewrite H1, !pool_w_mid.
    cbn [item_w snd length]. lia.
  - exfalso. refine (Q3 t (Co c (Sync c' :: l)) c (Sync c' :: l) c' _ eq_refl _); [rewrite H1; apply in_elt|left; reflexivity].
  - exfalso. refine (Q4 t c c' l _). rewrite H0. apply in_elt.
Qed.

Lemma reach_step T b s s' : reach T s -> step T b s s' -> reach T s'.
Proof. intros [n H] J. exists (S n). exact (RCons T n b _ _ _ H J). Qed.

Lemma steps_meas T n s : no_sync T -> steps T n init s -> n + meas T s <= meas T init.
Proof.
  intros NS H. remember init as s0 eqn:E0. induction H as [s|n b s1 s2 s3 H IH J]; [lia|].
  specialize (IH E0). subst s1.
  pose proof (meas_step T b s2 s3 NS (ex_intro _ n H) J). lia.
Qed.

Definition total (T : list call) : nat := fold_right (fun x a => 20 + length (body x) + a) 0 T.
Lemma meas_init T : meas T init = total T.
Proof.
  unfold meas. cbn [pool init pool_w].
  assert (Z : sum (th_w init) (seq 0 (length T)) = 0).
  { generalize (seq 0 (length T)). induction l as [|a l IH]; [reflexivity|]. cbn. exact IH. }
  rewrite Z, !Nat.add_0_r.
  assert (G : forall T0 k, (forall i x, nth_error T0 i = Some x -> nth_error T (k + i) = Some x) ->
     sum (call_w T init) (seq k (length T0)) = total T0).
  { induction T0 as [|x T0 IH]; intros k Hk; [reflexivity|].
    cbn [length seq sum total fold_right]. f_equal.
    - unfold call_w. cbn [pcs init]. unfold bod. specialize (Hk 0 x eq_refl).
      rewrite Nat.add_0_r in Hk. rewrite Hk. reflexivity.
    - apply IH. intros i y Hi. specialize (Hk (S i) y Hi). rewrite Nat.add_succ_r in Hk. exact Hk. }
  apply (G T 0). intros i x Hi. exact Hi.
Qed.

(** ** The threads, the event and the loop *)
Record Aux (s : st) : Prop := {
  a_th : forall t, ths s t <> Off -> ev s <> None /\ tha s <> None;
  a_start : forall c, pcs s c = StartTh -> tha s <> None;
  a_ev : forall c, pcs s c = MkTh \/ pcs s c = StartTh \/ pcs s c = Rd -> ev s <> None;
  a_loop : forall t, loop s = Some t -> ths s t = T39 \/ ths s t = Run;
  a_pool : forall t i, In (t, i) (pool s) -> ths s t = T39 \/ ths s t = Run }.

Lemma aux_init : Aux init.
Proof. constructor; cbn; try congruence; intros; intuition congruence. Qed.

Lemma aux_same s s' :
  tha s' = tha s -> ev s' = ev s -> loop s' = loop s -> ths s' = ths s ->
  (forall t i, In (t, i) (pool s') -> ths s t = T39 \/ ths s t = Run) ->
  (forall c, pcs s' c = pcs s c \/
     (pcs s' c <> StartTh /\ pcs s' c <> MkTh /\ pcs s' c <> Rd)) ->
  Aux s -> Aux s'.
Proof.
  intros A B C D E F [X1 X2 X3 X4 X5]. constructor.
  - rewrite A, B, D. exact X1.
  - rewrite A. intros c Hc. destruct (F c) as [Fc|(f1 & f2 & f3)]; [|congruence].
    apply (X2 c). congruence.
  - rewrite B. intros c Hc. destruct (F c) as [Fc|(f1 & f2 & f3)]; [|intuition congruence].
    apply (X3 c). rewrite <- Fc. exact Hc.
  - rewrite C, D. exact X4.
  - rewrite D. exact E.
Qed.

Lemma upd_other (s : st) c p :
  p <> StartTh -> p <> MkTh -> p <> Rd -> forall c0,
  upd (pcs s) c p c0 = pcs s c0 \/
  (upd (pcs s) c p c0 <> StartTh /\ upd (pcs s) c p c0 <> MkTh /\ upd (pcs s) c p c0 <> Rd).
Proof.
  intros. destruct (Nat.eq_dec c0 c) as [->|n]; [rewrite upd_eq; auto|rewrite upd_ne by assumption; auto].
Qed.

Lemma aux_step T b s s' : Aux s -> step T b s s' -> Aux s'.
Proof.
  intros AX H. pose proof AX as [X1 X2 X3 X4 X5].
  destruct H;
   try (apply (aux_same s); [reflexivity|reflexivity|reflexivity|reflexivity|exact X5
          |apply upd_other; first [discriminate | unfold entry; destruct (in_loop x); discriminate]|exact AX]).
  - (* SMkEv *) constructor; cbn [set_pc set_ev pcs tha ev loop ths pool]; try assumption.
    + intros t Ht. split; [discriminate|apply (X1 t Ht)].
    + intros c0 Hc. destruct (Nat.eq_dec c0 c) as [->|n].
      * rewrite upd_eq in Hc. discriminate.
      * rewrite upd_ne in Hc by assumption. exact (X2 c0 Hc).
    + intros; discriminate.
  - (* SMkTh *) constructor; cbn [set_pc set_tha pcs tha ev loop ths pool]; try assumption.
    + intros t Ht. split; [apply (X1 t Ht)|discriminate].
    + intros; discriminate.
    + intros c0 Hc. destruct (Nat.eq_dec c0 c) as [->|n].
      * apply (X3 c). auto.
      * rewrite upd_ne in Hc by assumption. exact (X3 c0 Hc).
  - (* SStart *)
    assert (Z : forall t0, ths s t0 = T39 \/ ths s t0 = Run ->
                  upd (ths s) t T38 t0 = T39 \/ upd (ths s) t T38 t0 = Run).
    { intros t0 Hz. rewrite upd_ne; [exact Hz|]. intros ->. intuition congruence. }
    constructor; cbn [set_pc set_th pcs tha ev loop ths pool].
    + intros t0 _. split; [apply (X3 c); auto|congruence].
    + intros c0 _. congruence.
    + intros c0 _. apply (X3 c). auto.
    + intros t0 Ht. apply Z, X4, Ht.
    + intros t0 i Hi. apply Z. eapply X5, Hi.
  - (* SSub *)
    apply (aux_same s); try reflexivity; [|apply (upd_other s c Fut); discriminate|exact AX].
    intros t0 i Hi. cbn [set_pc set_pool pool] in Hi. apply in_app_or in Hi.
    destruct Hi as [Hi|[Hi|[]]]; [exact (X5 _ _ Hi)|]. injection Hi as <- _. apply X4. assumption.
  - apply (aux_same s); try reflexivity; [exact X5|apply (upd_other s c (Own l)); discriminate|exact AX].
  - (* SOwnSync *)
    apply (aux_same s); try reflexivity; [exact X5| |exact AX].
    intros c0. cbn [set_pc note pcs]. destruct (Nat.eq_dec c0 c) as [->|n].
    + rewrite upd_eq. right. split; [|split]; discriminate.
    + rewrite (upd_ne _ c) by assumption. apply (upd_other s c' Chk); discriminate.
  - (* ST38 *)
    assert (Z : forall t0, upd (ths s) t T39 t0 = T39 \/ upd (ths s) t T39 t0 = Run \/
                           upd (ths s) t T39 t0 = ths s t0).
    { intro t0. destruct (Nat.eq_dec t0 t) as [->|n]; [rewrite upd_eq|rewrite upd_ne by assumption]; auto. }
    constructor; cbn [set_th set_loop pcs tha ev loop ths pool].
    + intros t0 _. apply (X1 t). congruence.
    + exact X2.
    + exact X3.
    + intros t0 E. injection E as <-. left. apply upd_eq.
    + intros t0 i Hi. specialize (X5 _ _ Hi). destruct (Z t0) as [z|[z|z]]; rewrite z; auto.
  - (* ST39 *)
    assert (Z : forall t0, ths s t0 = T39 \/ ths s t0 = Run ->
                  upd (ths s) t Run t0 = T39 \/ upd (ths s) t Run t0 = Run).
    { intros t0 Hz. destruct (Nat.eq_dec t0 t) as [->|n]; [rewrite upd_eq|rewrite upd_ne by assumption]; auto. }
    constructor; cbn [set_th set_pool pcs tha ev loop ths pool].
    + intros t0 _. apply (X1 t). congruence.
    + exact X2.
    + exact X3.
    + intros t0 E. apply Z, X4, E.
    + intros t0 i Hi. apply in_app_or in Hi. destruct Hi as [Hi|[Hi|[]]].
      * apply Z. eapply X5, Hi.
      * injection Hi as <- _. right. apply upd_eq.
  - apply (aux_same s); try reflexivity; auto.
    intros t0 i Hi. apply (X5 t0 i). rewrite H1. cbn [raise_ev set_pool pool] in Hi.
    apply in_app_or in Hi. apply in_or_app. destruct Hi; [left|right; right]; assumption.
  - assert (E : pool (resolve (set_pool s (p1 ++ p2)) c (out x)) = p1 ++ p2) by (destruct (out x); reflexivity).
    apply (aux_same s); try (destruct (out x); reflexivity); auto.
    + intros t0 i Hi. apply (X5 t0 i). rewrite H1. rewrite E in Hi.
      apply in_app_or in Hi. apply in_or_app. destruct Hi; [left|right; right]; assumption.
    + intro c0. left. destruct (out x); reflexivity.
  - apply (aux_same s); try reflexivity; auto.
    intros t0 i Hi. cbn [note set_pool pool] in Hi. apply in_app_or in Hi.
    destruct Hi as [Hi|[Hi|Hi]].
    + apply (X5 t0 i). rewrite H1. apply in_or_app. auto.
    + injection Hi as <- _. auto.
    + apply (X5 t0 i). rewrite H1. apply in_or_app. right. right. exact Hi.
  - apply (aux_same s); try reflexivity; auto.
    + intros t0 i Hi. cbn [note set_pool pool set_pc] in Hi. apply in_app_or in Hi.
      destruct Hi as [Hi|[Hi|Hi]].
      * apply (X5 t0 i). rewrite H1. apply in_or_app. auto.
      * injection Hi as <- _. auto.
      * apply (X5 t0 i). rewrite H1. apply in_or_app. right. right. exact Hi.
    + apply (upd_other s c' Chk); discriminate.
  - apply (aux_same s); try reflexivity; auto.
    intros t0 i Hi. cbn [note set_pool pool] in Hi. apply in_app_or in Hi.
    destruct Hi as [Hi|[Hi|Hi]].
    + apply (X5 t0 i). rewrite H0. apply in_or_app. auto.
    + injection Hi as <- _. auto.
    + apply (X5 t0 i). rewrite H0. apply in_or_app. right. right. exact Hi.
Qed.
Lemma aux_reach T s : reach T s -> Aux s.
Proof.
  intros [n H]. remember init as s0 eqn:E0.
  induction H as [s|n b s1 s2 s3 H IH J]; [subst; apply aux_init|].
  exact (aux_step T b s2 s3 (IH E0) J).
Qed.

(** Which calls go to the background. *)
Definition bg (T : list call) (s : st) : Prop :=
  forall c, opening (pcs s c) \/ pcs s c = Fut ->
    exists x, nth_error T c = Some x /\ in_loop x = true.
Lemma bg_reach T s : no_sync T -> reach T s -> bg T s.
Proof.
  intros NS [n H]. remember init as s0 eqn:E0.
  induction H as [s|n b s1 s2 s3 H IH J].
  - subst. intros c [Hc|Hc]; [destruct Hc|discriminate].
  - subst s1. specialize (IH eq_refl).
    assert (R : reach T s2) by (exists n; exact H).
    pose proof (no_sync_pool_reach T s2 NS R) as (Q1 & Q2 & Q3 & Q4).
    assert (K : forall c p, (opening p \/ p = Fut -> exists x, nth_error T c = Some x /\ in_loop x = true) ->
              forall c0, opening (upd (pcs s2) c p c0) \/ upd (pcs s2) c p c0 = Fut ->
              exists x, nth_error T c0 = Some x /\ in_loop x = true).
    { intros c p Hp c0. destruct (Nat.eq_dec c0 c) as [->|n0]; [rewrite upd_eq; exact Hp|].
      rewrite upd_ne by assumption. apply IH. }
    destruct J;
      try (intro c0; unfold set_pc, note, set_ev, set_tha, set_th, set_pool, set_loop, raise_ev; cbn [pcs];
           first [ apply IH
                 | apply K; intros [Hp|Hp]; first [destruct Hp; fail|discriminate Hp]
                 | apply K; intros _; match goal with E : pcs _ ?k = _ |- _ => apply (IH k); left; rewrite E; exact I end ]).
    + intro c0. apply K. unfold entry. destruct (in_loop x) eqn:E; [eauto|].
      intros [Hp|Hp]; [destruct Hp|discriminate].
    + exfalso. refine (Q1 _ _ c' H0 _). left. reflexivity.
    + intro c0. destruct (out x); apply IH.
    + exfalso. refine (Q3 t (Co c (Sync c' :: l)) c (Sync c' :: l) c' _ eq_refl _); [rewrite H2; apply in_elt|left; reflexivity].
Qed.

Lemma stuck_done T s : no_sync T -> no_base T -> reach T s ->
  (forall b s', ~ step T b s s') ->
  forall c, c < length T -> exists r, pcs s c = Done r.
Proof.
  intros NS NB R ST c L.
  pose proof (inv_reach T s R) as [N I P _]. pose proof (aux_reach T s R) as [X1 X2 X3 X4 X5].
  pose proof (no_sync_pool_reach T s NS R) as (Q1 & Q2 & Q3 & Q4).
  pose proof (bg_reach T s NS R) as BG.
  assert (NBL : forall t, ~ blocked s t).
  { intros t (c0 & c' & l & Hi). exact (Q4 _ _ _ _ Hi). }
  destruct (nth_error T c) as [x|] eqn:Ex; [|apply nth_error_None in Ex; lia].
  destruct (pcs s c) as [| | | | | |e| | |l|c' l|r] eqn:E.
  - exfalso. exact (ST _ _ (SCall T s c x Ex E)).
  - exfalso. destruct (tha s) as [t|] eqn:Et; [exact (ST _ _ (SChkOld T s c t E Et))|exact (ST _ _ (SChkNew T s c E Et))].
  - exfalso. exact (ST _ _ (SMkEv T s c E)).
  - exfalso. exact (ST _ _ (SMkTh T s c E)).
  - exfalso. destruct (tha s) as [t|] eqn:Et; [|exact (X2 c E eq_refl)].
    destruct (ths s t) eqn:Eh.
    + exact (ST _ _ (SStart T s c t E Et Eh)).
    + refine (ST _ _ (STwice T s c t E Et _)). congruence.
    + refine (ST _ _ (STwice T s c t E Et _)). congruence.
    + refine (ST _ _ (STwice T s c t E Et _)). congruence.
  - exfalso. destruct (ev s) as [e|] eqn:Ee; [exact (ST _ _ (SRd T s c e E Ee))|].
    exact (X3 c (or_intror (or_intror E)) eq_refl).
  - exfalso. exact (ST _ _ (STime T s c e E)).
  - exfalso. destruct (loop s) as [t|] eqn:El; [exact (ST _ _ (SSub T s c x t E El Ex))|exact (ST _ _ (SSubNo T s c E El))].
  - exfalso. pose proof (P c) as G. unfold good_pc in G. rewrite E in G.
    destruct G as [G|[_ [G|[_ [e G]]]]].
    + apply ids_in in G as (t & i & l & Hi & V). destruct (X5 _ _ Hi) as [Ht|Ht].
      * destruct (ev s) as [e|] eqn:Ee; [exact (ST _ _ (ST39 T s t e Ht Ee))|].
        destruct (X1 t) as [X _]; [congruence|]. exact (X eq_refl).
      * destruct (in_split _ _ Hi) as (p1 & p2 & Ep).
        destruct i as [e|c0 l0|c0 c1 l0]; cbn in V; [discriminate| |exact (Q4 _ _ _ _ Hi)].
        injection V as -> ->. destruct l as [|[|c1] l].
        -- exact (ST _ _ (SCoEnd T s t c x p1 p2 Ht (NBL t) Ep Ex)).
        -- exact (ST _ _ (SCoYield T s t c l p1 p2 Ht (NBL t) Ep)).
        -- refine (Q3 _ _ _ _ c1 Hi eq_refl _). left. reflexivity.
    + exact (ST _ _ (SFut T s c _ E G)).
    + destruct (BG c (or_intror E)) as (y & Ey & Iy). unfold outc in G. rewrite Ey in G.
      exact (NB y e (nth_error_In _ _ Ey) Iy G).
  - exfalso. destruct l as [|[|c1] l].
    + exact (ST _ _ (SOwnEnd T s c x E Ex)).
    + exact (ST _ _ (SOwnYield T s c l E)).
    + refine (Q1 _ _ c1 E _). left. reflexivity.
  - exfalso. exact (Q2 _ _ _ E).
  - exists r. reflexivity.
Qed.

(** ** Once there is a loop *)
Definition settled (p : pc) : Prop :=
  match p with
  | Idle | Chk | Sub | Fut | Own _ | OwnIn _ _ | Done (Out _) => True
  | _ => False
  end.

Lemma up_step T b s s' : Aux s -> loop s <> None -> step T b s s' ->
  loop s' <> None /\ forall c, settled (pcs s c) -> settled (pcs s' c).
Proof.
  intros [X1 X2 X3 X4 X5] U H.
  assert (TH : tha s <> None).
  { destruct (loop s) as [t|] eqn:El; [|congruence]. apply (X1 t). destruct (X4 t eq_refl) as [e|e]; rewrite e; discriminate. }
  assert (K : forall c p, (settled (pcs s c) -> settled p) ->
            forall c0, settled (pcs s c0) -> settled (upd (pcs s) c p c0)).
  { intros c p Hp c0 Hc. destruct (Nat.eq_dec c0 c) as [->|n]; [rewrite upd_eq; auto|rewrite upd_ne by assumption; exact Hc]. }
  destruct H; unfold set_pc, note, set_ev, set_tha, set_th, set_pool, set_loop, raise_ev; cbn [pcs loop];
    try (split; [first [exact U|discriminate]|
          first [ intros c0 Hc0; exact Hc0
                | apply K; match goal with E : pcs s _ = _ |- _ => rewrite E end; cbn [settled]; intro Hx; first [exact I|exact Hx]
                | apply K; intros _; exact I ]]);
    try congruence.
  - split; [exact U|]. apply K. intros _. unfold entry. destruct (in_loop x); exact I.
  - split; [exact U|]. intros c0 Hc. destruct (Nat.eq_dec c0 c) as [->|n]; [rewrite upd_eq; exact I|].
    rewrite (upd_ne _ c) by assumption. apply K; [intros; exact I|exact Hc].
  - split; [destruct (out x); exact U|]. intros c0 Hc. destruct (out x); exact Hc.
Qed.

Lemma up_steps T n s s' : Aux s -> loop s <> None -> steps T n s s' ->
  Aux s' /\ loop s' <> None /\ forall c, settled (pcs s c) -> settled (pcs s' c).
Proof.
  intros A U H. induction H as [s|n b s1 s2 s3 H IH J]; [auto|].
  destruct (IH A U) as (A' & U' & S'). destruct (up_step T b s2 s3 A' U' J) as (U'' & S'').
  split; [exact (aux_step T b s2 s3 A' J)|]. auto.
Qed.

(** ** First use without overlap *)
Lemma calm_reach T s : calm T init s -> reach T s.
Proof.
  intro H. remember init as s0 eqn:E0.
  induction H as [s|s1 s2 s3 H IH J Q]; [subst; exists 0; constructor|].
  exact (reach_step T false s2 s3 (IH E0) J).
Qed.

Definition quiet (s : st) : Prop := tha s = None /\ forall t, ths s t = Off.
Definition phase (s : st) (a : nat) : Prop :=
  match pcs s a with
  | StartTh => tha s = Some a /\ forall t, ths s t = Off
  | Rd | Wait _ => ths s a = T38 /\ forall t, t <> a -> ths s t = Off
  | Sub => False
  | _ => quiet s
  end.
Record Calm (s : st) : Prop := {
  j_res : forall c, pcs s c <> Done NoLoop /\ pcs s c <> Done Twice;
  j_up : loop s <> None -> forall c, pcs s c <> MkEv /\ pcs s c <> MkTh /\ pcs s c <> StartTh;
  j_down : loop s = None -> pool s = [] /\ (forall e, evset s e = false) /\
     exists a, (forall c, c <> a -> ~ opening (pcs s c)) /\ phase s a }.

Lemma calm_init : Calm init.
Proof.
  constructor; cbn.
  - intro c. split; discriminate.
  - congruence.
  - intros _. split; [reflexivity|]. split; [reflexivity|]. exists 0. split; [intros c _ H; exact H|].
    split; reflexivity.
Qed.

(** A caller's step, seen from [Calm]: nothing changes but its place. *)
Lemma calm_pc s c p :
  Calm s -> p <> Done NoLoop -> p <> Done Twice -> ~ opening p -> ~ opening (pcs s c) ->
  Calm (set_pc s c p).
Proof.
  intros [J1 J2 J3] H1 H2 H3 H4. constructor; cbn [set_pc pcs loop pool evset].
  - intro c0. destruct (Nat.eq_dec c0 c) as [->|n]; [rewrite upd_eq; auto|rewrite upd_ne by assumption; apply J1].
  - intros U c0. destruct (Nat.eq_dec c0 c) as [->|n].
    + rewrite upd_eq. split; [|split]; intros ->; apply H3; exact I.
    + rewrite upd_ne by assumption. apply J2, U.
  - intro D. destruct (J3 D) as (A & B & a & N & Ph). split; [exact A|]. split; [exact B|]. exists a. split.
    + intros c0 Hc. destruct (Nat.eq_dec c0 c) as [->|n]; [rewrite upd_eq; exact H3|rewrite upd_ne by assumption; apply N, Hc].
    + unfold phase, set_pc in *; cbn [pcs tha ths]. destruct (Nat.eq_dec a c) as [->|n].
      * rewrite upd_eq. assert (Q : quiet s).
        { revert Ph. destruct (pcs s c) eqn:E; intro Ph; try exact Ph; exfalso; apply H4; exact I. }
        destruct p; try exact Q; exfalso; apply H3; exact I.
      * rewrite upd_ne by assumption. exact Ph.
Qed.

(** The same with the log. *)
Lemma calm_same s s' :
  pcs s' = pcs s -> loop s' = loop s -> pool s' = pool s -> evset s' = evset s ->
  tha s' = tha s -> ths s' = ths s -> Calm s -> Calm s'.
Proof.
  intros A B C D E F [J1 J2 J3]. constructor.
  - rewrite A. exact J1.
  - rewrite A, B. exact J2.
  - rewrite B, C, D. intro U. destruct (J3 U) as (x & y & a & z & w). split; [exact x|]. split; [exact y|].
    exists a. unfold phase, quiet in *. rewrite A, E, F. auto.
Qed.

(** When there is a loop. *)
Lemma calm_up s' :
  loop s' <> None -> (forall c, pcs s' c <> Done NoLoop /\ pcs s' c <> Done Twice) ->
  (forall c, pcs s' c <> MkEv /\ pcs s' c <> MkTh /\ pcs s' c <> StartTh) -> Calm s'.
Proof. intros U A B. constructor; [exact A|intros _; exact B|congruence]. Qed.

(** When there is none, the caller that opens. *)
Lemma calm_down s' a :
  loop s' = None -> (forall c, pcs s' c <> Done NoLoop /\ pcs s' c <> Done Twice) ->
  pool s' = [] -> (forall e, evset s' e = false) ->
  (forall c, c <> a -> ~ opening (pcs s' c)) -> phase s' a -> Calm s'.
Proof.
  intros D A B C N P. constructor; [exact A|congruence|intros _]. split; [exact B|]. split; [exact C|]. eauto.
Qed.

Lemma calm_step T s s' : no_sync T -> reach T s -> Calm s -> step T false s s' ->
  (forall c, pcs s c = Idle -> opening (pcs s' c) -> loop s <> None \/ forall c', ~ opening (pcs s c')) ->
  Calm s'.
Proof.
  intros NS R CM H Q. pose proof CM as [J1 J2 J3].
  pose proof (no_sync_pool_reach T s NS R) as (Q1 & Q2 & Q3 & Q4).
  pose proof (aux_reach T s R) as [X1 X2 X3 X4 X5].
  assert (RES : forall c p, p <> Done NoLoop -> p <> Done Twice -> forall c0,
             upd (pcs s) c p c0 <> Done NoLoop /\ upd (pcs s) c p c0 <> Done Twice).
  { intros c p A B c0. destruct (Nat.eq_dec c0 c) as [->|n]; [rewrite upd_eq; auto|rewrite upd_ne by assumption; apply J1]. }
  assert (UPP : loop s <> None -> forall c p, p <> MkEv -> p <> MkTh -> p <> StartTh -> forall c0,
             upd (pcs s) c p c0 <> MkEv /\ upd (pcs s) c p c0 <> MkTh /\ upd (pcs s) c p c0 <> StartTh).
  { intros U c p A B C c0. destruct (Nat.eq_dec c0 c) as [->|n]; [rewrite upd_eq; auto|rewrite upd_ne by assumption; apply J2, U]. }
  assert (UTH : loop s <> None -> tha s <> None).
  { intro U. destruct (loop s) as [t|] eqn:El; [|congruence]. apply (X1 t). destruct (X4 t eq_refl) as [e|e]; rewrite e; discriminate. }
  (* the caller that opens is the one that moves *)
  assert (OPN : loop s = None -> forall c, opening (pcs s c) ->
             pool s = [] /\ (forall e, evset s e = false) /\ (forall c0, c0 <> c -> ~ opening (pcs s c0)) /\ phase s c).
  { intros D c O. destruct (J3 D) as (A & B & a & N & Ph). assert (a = c).
    { destruct (Nat.eq_dec a c) as [E|n]; [exact E|]. exfalso. exact (N c (fun e => n (eq_sym e)) O). }
    subst a. auto. }
  assert (OTH : forall c p, (forall c0, c0 <> c -> ~ opening (pcs s c0)) ->
             forall c0, c0 <> c -> ~ opening (upd (pcs s) c p c0)).
  { intros c p N c0 n. rewrite upd_ne by assumption. exact (N c0 n). }
  assert (DEC : loop s = None \/ loop s <> None) by (destruct (loop s); [right; discriminate|left; reflexivity]).
  remember false as b eqn:Eb. destruct H; try discriminate Eb.
  - (* SCall *)
    destruct (in_loop x) eqn:EL.
    + assert (EN : entry x = Chk) by (unfold entry; rewrite EL; reflexivity). rewrite EN in *.
      destruct DEC as [D|U].
      * destruct (Q c H0) as [QQ|QQ]; [cbn [set_pc pcs]; rewrite upd_eq; exact I|congruence|].
        destruct (J3 D) as (A & B & a & N & Ph).
        apply (calm_down _ c); cbn [set_pc pcs pool evset loop]; auto.
        -- apply RES; discriminate.
        -- unfold phase, set_pc; cbn [pcs tha ths]. rewrite upd_eq. unfold phase in Ph. specialize (QQ a).
           revert Ph QQ. destruct (pcs s a); cbn [opening]; intros Ph QQ; try exact Ph; exfalso; apply QQ; exact I.
      * apply calm_up; cbn [set_pc pcs loop]; [exact U|apply RES; discriminate|apply (UPP U); discriminate].
    + assert (EN : entry x = Own (body x)) by (unfold entry; rewrite EL; reflexivity). rewrite EN in *.
      apply calm_pc; auto; try discriminate. rewrite H0. auto.
  - (* SChkNew *)
    destruct DEC as [D|U]; [|exfalso; exact (UTH U H0)].
    destruct (OPN D c) as (A & B & N & Ph); [rewrite H; exact I|].
    apply (calm_down _ c); cbn [set_pc pcs pool evset loop]; auto; [apply RES; discriminate|].
    unfold phase, quiet, set_pc in *; cbn [pcs tha ths]. rewrite upd_eq. rewrite H in Ph. exact Ph.
  - (* SChkOld *)
    destruct DEC as [D|U].
    + exfalso. destruct (OPN D c) as (A & B & N & Ph); [rewrite H; exact I|].
      unfold phase in Ph. rewrite H in Ph. destruct Ph. congruence.
    + apply calm_up; cbn [set_pc pcs loop]; [exact U|apply RES; discriminate|apply (UPP U); discriminate].
  - (* SMkEv *)
    destruct DEC as [D|U]; [|exfalso; destruct (J2 U c) as (w1 & w2 & w3); congruence].
    destruct (OPN D c) as (A & B & N & Ph); [rewrite H; exact I|].
    apply (calm_down _ c); cbn [set_pc set_ev pcs pool evset loop]; auto; [apply RES; discriminate|].
    unfold phase, quiet, set_pc, set_ev in *; cbn [pcs tha ths]. rewrite upd_eq. rewrite H in Ph. exact Ph.
  - (* SMkTh *)
    destruct DEC as [D|U]; [|exfalso; destruct (J2 U c) as (w1 & w2 & w3); congruence].
    destruct (OPN D c) as (A & B & N & Ph); [rewrite H; exact I|].
    apply (calm_down _ c); cbn [set_pc set_tha pcs pool evset loop]; auto; [apply RES; discriminate|].
    unfold phase, quiet, set_pc, set_tha in *; cbn [pcs tha ths]. rewrite upd_eq. rewrite H in Ph.
    split; [reflexivity|apply Ph].
  - (* SStart *)
    destruct DEC as [D|U]; [|exfalso; destruct (J2 U c) as (w1 & w2 & w3); congruence].
    destruct (OPN D c) as (A & B & N & Ph); [rewrite H; exact I|].
    apply (calm_down _ c); cbn [set_pc set_th pcs pool evset loop]; auto; [apply RES; discriminate|].
    unfold phase, set_pc, set_th in *; cbn [pcs tha ths]. rewrite upd_eq. rewrite H in Ph. destruct Ph as [P1 P2].
    assert (t = c) by congruence. subst t. split; [apply upd_eq|]. intros t n. rewrite upd_ne by assumption. apply P2.
  - (* STwice *)
    destruct DEC as [D|U]; [|exfalso; destruct (J2 U c) as (w1 & w2 & w3); congruence].
    destruct (OPN D c) as (A & B & N & Ph); [rewrite H; exact I|].
    exfalso. unfold phase in Ph. rewrite H in Ph. destruct Ph as [P1 P2]. apply H1. apply P2.
  - (* SRd *)
    destruct DEC as [D|U].
    + destruct (OPN D c) as (A & B & N & Ph); [rewrite H; exact I|].
      apply (calm_down _ c); cbn [set_pc pcs pool evset loop]; auto; [apply RES; discriminate|].
      unfold phase, set_pc in *; cbn [pcs tha ths]. rewrite upd_eq. rewrite H in Ph. exact Ph.
    + apply calm_up; cbn [set_pc pcs loop]; [exact U|apply RES; discriminate|apply (UPP U); discriminate].
  - (* SWait *)
    destruct DEC as [D|U].
    + exfalso. destruct (J3 D) as (_ & B & _). rewrite B in H0. discriminate.
    + apply calm_up; cbn [set_pc pcs loop]; [exact U|apply RES; discriminate|apply (UPP U); discriminate].
  - (* SSubNo *)
    exfalso. destruct (OPN H0 c) as (A & B & N & Ph); [rewrite H; exact I|].
    unfold phase in Ph. rewrite H in Ph. exact Ph.
  - (* SSub *)
    assert (U : loop s <> None) by congruence.
    apply calm_up; cbn [set_pc set_pool pcs loop]; [exact U|apply RES; discriminate|apply (UPP U); discriminate].
  - (* SFut *)
    apply calm_pc; auto; try discriminate. rewrite H. auto.
  - apply calm_pc; auto; try discriminate. rewrite H. auto.
  - apply calm_pc; auto; try discriminate.
    + apply (calm_same s); auto.
    + cbn [note pcs]. rewrite H. auto.
  - exfalso. refine (Q1 _ _ c' H _). left. reflexivity.
  - exfalso. exact (Q2 _ _ _ H).
  - (* ST38 *)
    destruct DEC as [D|U].
    + destruct (J3 D) as (A & B & a & N & Ph).
      apply calm_up; cbn [set_th set_loop pcs loop]; [discriminate|exact J1|].
      intro c. destruct (Nat.eq_dec c a) as [->|n].
      * unfold phase in Ph. revert Ph. destruct (pcs s a); intro Ph; try (split; [|split]; discriminate).
        -- exfalso. destruct Ph as [_ Ph]. specialize (Ph t). congruence.
        -- exfalso. destruct Ph as [_ Ph]. specialize (Ph t). congruence.
        -- exfalso. destruct Ph as [_ Ph]. specialize (Ph t). congruence.
      * specialize (N c n). destruct (pcs s c); try (split; [|split]; discriminate); exfalso; apply N; exact I.
    + apply calm_up; cbn [set_th set_loop pcs loop]; [discriminate|exact J1|exact (J2 U)].
  - (* ST39 *)
    destruct DEC as [D|U].
    + exfalso. destruct (J3 D) as (A & B & a & N & Ph). unfold phase, quiet in Ph.
      assert (F : ths s t = Off \/ ths s t = T38).
      { revert Ph. destruct (pcs s a); intro Ph; try contradiction;
          first [ left; solve [apply Ph] | destruct Ph as [P1 P2]; destruct (Nat.eq_dec t a) as [->|n]; [right; exact P1|left; exact (P2 t n)] ]. }
      destruct F; congruence.
    + apply calm_up; cbn [set_th set_pool pcs loop]; [exact U|exact J1|exact (J2 U)].
  - destruct DEC as [D|U].
    + exfalso. destruct (J3 D) as (A & _). rewrite A in H1. destruct p1; discriminate.
    + apply calm_up; [exact U|exact J1|exact (J2 U)].
  - destruct DEC as [D|U].
    + exfalso. destruct (J3 D) as (A & _). rewrite A in H1. destruct p1; discriminate.
    + apply calm_up; destruct (out x); solve [exact U|exact J1|exact (J2 U)].
  - destruct DEC as [D|U].
    + exfalso. destruct (J3 D) as (A & _). rewrite A in H1. destruct p1; discriminate.
    + apply calm_up; [exact U|exact J1|exact (J2 U)].
  - exfalso. refine (Q3 t (Co c (Sync c' :: l)) c (Sync c' :: l) c' _ eq_refl _); [rewrite H1; apply in_elt|left; reflexivity].
  - exfalso. refine (Q4 t c c' l _). rewrite H0. apply in_elt.
Qed.

Lemma calm_run T s : no_sync T -> calm T init s -> Calm s.
Proof.
  intros NS H. remember init as s0 eqn:E0.
  induction H as [s|s1 s2 s3 H IH J Q]; [subst; apply calm_init|]. subst s1.
  exact (calm_step T s2 s3 NS (calm_reach T s2 H) (IH eq_refl) J Q).
Qed.
