(** C92: classes that are sent. *)
From Coq Require Import List Arith Bool Lia.
From Verif Require Import CanClass_Spec CanClass_Model.
Import ListNotations.

Lemma mem_in x l : mem x l = true <-> In x l.
Proof.
  unfold mem. rewrite existsb_exists. split; [intros [y [I E]]; apply Nat.eqb_eq in E; subst; exact I|intro I; exists x; split; [exact I|apply Nat.eqb_refl]].
Qed.
Lemma good_spec ls x : good ls x = true <-> forall l, In l ls -> ~ In x (tl l).
Proof.
  unfold good. rewrite forallb_forall. split; intros H l I.
  - specialize (H l I). apply negb_true_iff in H. intro J. apply mem_in in J. congruence.
  - apply negb_true_iff. destruct (mem x (tl l)) eqn:E; [|reflexivity]. apply mem_in in E. exfalso. exact (H l I E).
Qed.
Lemma heads_spec ls x : In x (heads ls) <-> exists t, In (x :: t) ls.
Proof.
  unfold heads. rewrite in_flat_map. split.
  - intros [[|y t] [I J]]; [contradiction|]. destruct J as [->|[]]. eauto.
  - intros [t I]. exists (x :: t). split; [exact I|left; reflexivity].
Qed.
Lemma sub_refl l : sub l l.
Proof. induction l; constructor; assumption. Qed.
Lemma sub_trans l m n : sub l m -> sub m n -> sub l n.
Proof.
  intros H K. revert l H. induction K as [n|x m n K IH|x m n K IH]; intros l H.
  - inversion H. constructor.
  - inversion H as [|y l' m' H'|y l' m' H']; subst; [constructor|constructor; apply IH; assumption|apply sub_skip, IH; assumption].
  - apply sub_skip, IH, H.
Qed.
Lemma sub_in l m x : sub l m -> In x l -> In x m.
Proof. induction 1; intro I; [contradiction|destruct I as [->|I]; [left; reflexivity|right; auto]|right; auto]. Qed.
Lemma sub_tl x l m : sub (x :: l) m -> sub l m.
Proof. intro H. apply (sub_trans _ (x :: l)); [|exact H]. apply sub_skip, sub_refl. Qed.

(** What C3 makes: it keeps the order of each list, has no double, nothing else. *)
Lemma merge_unfold n ls : merge n ls =
  match heads ls with
  | [] => Some []
  | hs => match find (good ls) hs, n with
          | Some x, S n => option_map (cons x) (merge n (map (drop x) ls))
          | _, _ => None
          end
  end.
Proof. destruct n; reflexivity. Qed.
Lemma merge_cases n ls m : merge n ls = Some m ->
  (heads ls = [] /\ m = []) \/
  exists x n' m', n = S n' /\ In x (heads ls) /\ good ls x = true /\ merge n' (map (drop x) ls) = Some m' /\ m = x :: m'.
Proof.
  rewrite merge_unfold. destruct (heads ls) as [|h hs]; [intro H; injection H as <-; auto|].
  destruct (find (good ls) (h :: hs)) as [x|] eqn:F; [|discriminate]. destruct n as [|n]; [discriminate|].
  apply find_some in F. destruct F as [I G].
  destruct (merge n (map (drop x) ls)) as [m'|] eqn:M; [|discriminate]. intro H. injection H as <-.
  right. exists x, n, m'. auto.
Qed.
Lemma no_heads ls l : heads ls = [] -> In l ls -> l = [].
Proof.
  intros H I. destruct l as [|x t]; [reflexivity|]. assert (J : In x (heads ls)) by (apply heads_spec; eauto).
  rewrite H in J. contradiction.
Qed.
Lemma merge_keeps n : forall ls m, merge n ls = Some m -> forall l, In l ls -> sub l m.
Proof.
  induction n as [|n IH]; intros ls m H l I; apply merge_cases in H; destruct H as [[H ->]|[x [n' [m' [E [J [G [M ->]]]]]]]];
    try (rewrite (no_heads ls l H I); constructor; fail); [discriminate E|].
  injection E as <-. specialize (IH _ _ M (drop x l) (in_map _ _ _ I)).
  unfold drop in IH. destruct l as [|y t]; [constructor|]. destruct (Nat.eqb_spec y x) as [->|]; [apply sub_take|apply sub_skip]; exact IH.
Qed.
Lemma drop_in x l y : In y (drop x l) -> In y l.
Proof. unfold drop. destruct l as [|h t]; [auto|]. destruct (Nat.eqb h x); [right; assumption|auto]. Qed.
Lemma merge_from n : forall ls m, merge n ls = Some m -> forall y, In y m -> exists l, In l ls /\ In y l.
Proof.
  induction n as [|n IH]; intros ls m H y I; apply merge_cases in H; destruct H as [[H ->]|[x [n' [m' [E [J [G [M ->]]]]]]]]; try contradiction; [discriminate E|].
  injection E as <-. destruct I as [->|I].
  - apply heads_spec in J. destruct J as [t J]. exists (y :: t). split; [exact J|left; reflexivity].
  - destruct (IH _ _ M y I) as [l [K L]]. apply in_map_iff in K. destruct K as [l' [<- K]]. exists l'. split; [exact K|]. exact (drop_in _ _ _ L).
Qed.
Lemma merge_nodup n : forall ls m, merge n ls = Some m -> NoDup m.
Proof.
  induction n as [|n IH]; intros ls m H; apply merge_cases in H; destruct H as [[H ->]|[x [n' [m' [E [J [G [M ->]]]]]]]]; try (apply NoDup_nil); [discriminate E|]. apply NoDup_cons.
  - injection E as <-. intro I. destruct (merge_from _ _ _ M x I) as [l [K L]]. apply in_map_iff in K. destruct K as [l' [<- K]].
    rewrite good_spec in G. specialize (G l' K). unfold drop in L. destruct l' as [|h t]; [contradiction|].
    cbn [tl] in G. destruct (Nat.eqb_spec h x) as [->|N]; [contradiction|]. destruct L as [L|L]; [congruence|contradiction].
  - injection E as <-. eapply IH. exact M.
Qed.
(** If one of the lists has all the others in order, C3 makes that list. *)
Lemma merge_whole T : forall n ls, NoDup T -> In T ls -> (forall l, In l ls -> sub l T) -> length T <= n -> merge n ls = Some T.
Proof.
  induction T as [|t T IH]; intros n ls N I A L; rewrite merge_unfold.
  - assert (H : heads ls = []).
    { destruct (heads ls) as [|x r] eqn:E; [reflexivity|]. assert (J : In x (heads ls)) by (rewrite E; left; reflexivity).
      apply heads_spec in J. destruct J as [u J]. specialize (A _ J). inversion A. }
    rewrite H. reflexivity.
  - inversion N as [|? ? Nt NT]; subst. assert (J : In t (heads ls)) by (apply heads_spec; eauto).
    assert (S' : forall x l, sub (x :: l) (t :: T) -> x <> t -> sub (x :: l) T).
    { intros x l H D. inversion H; subst; [congruence|assumption]. }
    assert (S'' : forall l, sub (t :: l) (t :: T) -> sub l T).
    { intros l H. inversion H; subst; [assumption|]. apply (sub_tl t). assumption. }
    assert (G : good ls t = true).
    { apply good_spec. intros l K Q. specialize (A l K). destruct l as [|y u]; [contradiction|]. cbn [tl] in Q. apply Nt.
      destruct (Nat.eq_dec y t) as [->|D]; [eapply sub_in; [apply S''; exact A|exact Q]|].
      eapply sub_in; [apply (S' _ _ A D)|right; exact Q]. }
    assert (U : forall x, In x (heads ls) -> good ls x = true -> x = t).
    { intros x Ix Gx. destruct (Nat.eq_dec x t) as [->|D]; [reflexivity|exfalso]. rewrite good_spec in Gx. apply (Gx _ I). cbn [tl].
      apply heads_spec in Ix. destruct Ix as [u Ix]. specialize (A _ Ix). eapply sub_in; [apply (S' _ _ A D)|left; reflexivity]. }
    revert J U. destruct (heads ls) as [|h0 hs0]; intros J U; [contradiction|].
    destruct (find (good ls) (h0 :: hs0)) as [x|] eqn:F.
    + apply find_some in F. destruct F as [F1 F2]. rewrite (U x F1 F2).
      destruct n as [|n]; [cbn [length] in L; lia|]. assert (M : merge n (map (drop t) ls) = Some T).
      { apply IH; [exact NT| | |cbn [length] in L; lia].
        - apply in_map_iff. exists (t :: T). split; [unfold drop; rewrite Nat.eqb_refl; reflexivity|exact I].
        - intros l K. apply in_map_iff in K. destruct K as [l' [<- K]]. specialize (A _ K). unfold drop. destruct l' as [|y u]; [constructor|].
          destruct (Nat.eqb_spec y t) as [->|D]; [apply S''; exact A|exact (S' _ _ A D)]. }
      rewrite M. reflexivity.
    + exfalso. pose proof (find_none _ _ F t J). congruence.
Qed.

(** ** Classes that can be *)
Definition wf (h : heap) : Prop := forall c k, nth_error h c = Some k -> exists t, mro k = c :: t /\ NoDup (c :: t) /\
  forall p, In p t -> p < c /\ exists kp, nth_error h p = Some kp /\ sub (mro kp) t.
Lemma forallb_lt l n : forallb (fun b => b <? n) l = true <-> forall b, In b l -> b < n.
Proof. rewrite forallb_forall. split; intros H b I; specialize (H b I); apply Nat.ltb_lt; exact H. Qed.

Lemma new_cases h nm bs a mn h' c : new_type h nm bs a mn = Some (h', c) ->
  let bs := match bs with [] => [0] | _ => bs end in exists m,
  (forall b, In b bs -> b < length h) /\ merge (size (map (order h) bs ++ [bs])) (map (order h) bs ++ [bs]) = Some m /\
  h' = h ++ [Class nm a mn (length h :: m)] /\ c = length h.
Proof.
  unfold new_type. cbv zeta. generalize (match bs with [] => [0] | _ => bs end) as b. intro b.
  destruct (distinct b && forallb (fun x => x <? length h) b) eqn:D; [|discriminate].
  apply andb_true_iff in D. destruct D as [_ D]. rewrite forallb_lt in D.
  destruct (merge _ _) as [m|] eqn:M; [|discriminate]. intro H. injection H as <- <-. exists m. auto.
Qed.

Lemma wf_new h nm bs a mn h' c : wf h -> new_type h nm bs a mn = Some (h', c) -> wf h'.
Proof.
  intros W H. apply new_cases in H. cbv zeta in H. revert H. generalize (match bs with [] => [0] | _ => bs end) as b. clear bs. intros bs [m [B [M [-> ->]]]].
  intros c k E. destruct (Nat.lt_ge_cases c (length h)) as [L|L].
  - rewrite nth_error_app1 in E by exact L. destruct (W c k E) as [t [M1 [N P]]]. exists t. split; [exact M1|]. split; [exact N|].
    intros p I. destruct (P p I) as [Lp [kp [Ep S]]]. split; [exact Lp|]. exists kp. split; [rewrite nth_error_app1 by lia; exact Ep|exact S].
  - rewrite nth_error_app2 in E by exact L. destruct (c - length h) as [|d] eqn:D; [|destruct d; discriminate E].
    injection E as <-. assert (c = length h) by lia. subst c. exists m. split; [reflexivity|].
    assert (P : forall p, In p m -> p < length h /\ exists kp, nth_error (h ++ [Class nm a mn (length h :: m)]) p = Some kp /\ sub (mro kp) m).
    { intros p I. destruct (merge_from _ _ _ M p I) as [l [K Q]].
      assert (X : exists b, In b bs /\ In p (order h b)).
      { apply in_app_or in K. destruct K as [K|[<-|[]]].
        - apply in_map_iff in K. destruct K as [b [<- K]]. eauto.
        - exists p. split; [exact Q|]. specialize (B p Q). unfold order. destruct (nth_error h p) as [k|] eqn:E.
          + destruct (W p k E) as [t [-> _]]. left. reflexivity.
          + apply nth_error_None in E. lia. }
      destruct X as [b [Ib Ip]]. pose proof (B b Ib) as Lb. unfold order in Ip. destruct (nth_error h b) as [kb|] eqn:Eb; [|contradiction].
      destruct (W b kb Eb) as [t [Mb [Nb Pb]]].
      assert (Sb : sub (mro kb) m).
      { eapply merge_keeps; [exact M|]. apply in_or_app. left. apply in_map_iff. exists b. split; [unfold order; rewrite Eb; reflexivity|exact Ib]. }
      rewrite Mb in Ip. destruct Ip as [->|Ip].
      - split; [exact Lb|]. exists kb. split; [rewrite nth_error_app1 by exact Lb; exact Eb|exact Sb].
      - destruct (Pb p Ip) as [Lp [kp [Ep Sp]]]. split; [lia|]. exists kp. split; [rewrite nth_error_app1 by lia; exact Ep|].
        eapply sub_trans; [exact Sp|]. rewrite Mb in Sb. exact (sub_tl _ _ _ Sb). }
    split; [|exact P]. constructor; [|eapply merge_nodup; exact M]. intro I. destruct (P _ I). lia.
Qed.
Lemma made_wf h : made h -> wf h.
Proof.
  induction 1 as [|h nm bs a mn h' c M IH N]; [|exact (wf_new _ _ _ _ _ _ _ IH N)].
  intros [|c] k E; [|destruct c; discriminate E]. injection E as <-. exists []. split; [reflexivity|]. split; [repeat constructor; auto|]. intros p [].
Qed.

Lemma made_tail h : made h -> forall c k, nth_error h c = Some k -> in_main k = false \/ tl (mro k) <> [].
Proof.
  induction 1 as [|h nm bs a mn h' d M IH N]; intros c k E.
  - destruct c as [|c]; [injection E as <-; left; reflexivity|destruct c; discriminate E].
  - apply new_cases in N. cbv zeta in N. destruct N as [m [B [Me [-> ->]]]].
    destruct (Nat.lt_ge_cases c (length h)) as [L|L]; [rewrite nth_error_app1 in E by exact L; exact (IH c k E)|].
    rewrite nth_error_app2 in E by exact L. destruct (c - length h) as [|e]; [|destruct e; discriminate E]. injection E as <-.
    right. cbn [mro tl]. intros ->.
    assert (K : sub (match bs with [] => [0] | _ => bs end) []).
    { eapply merge_keeps; [exact Me|]. apply in_or_app. right. left. reflexivity. }
    destruct bs; inversion K.
Qed.
Lemma distinct_nodup l : NoDup l -> distinct l = true.
Proof.
  induction 1 as [|x l N D IH]; [reflexivity|]. cbn [distinct]. rewrite IH, andb_true_r. apply negb_true_iff.
  destruct (mem x l) eqn:E; [apply mem_in in E; contradiction|reflexivity].
Qed.
Lemma own_canned a l : a <> weakref -> a <> dict -> own a (canned_dict l) = own a l.
Proof.
  intros A B. induction l as [|[b v] l IH]; [reflexivity|]. unfold canned_dict in *. cbn [filter own fst].
  destruct (Nat.eqb_spec b weakref) as [->|W]; cbn [negb andb].
  - rewrite IH. apply Nat.eqb_neq in A. rewrite A. reflexivity.
  - destruct (Nat.eqb_spec b dict) as [->|D]; cbn [negb own].
    + rewrite IH. apply Nat.eqb_neq in B. rewrite B. reflexivity.
    + rewrite IH. reflexivity.
Qed.
Lemma first_more h r a l : (forall p, In p l -> p < length h) -> first (h ++ r) a l = first h a l.
Proof.
  induction l as [|p l IH]; intro L; [reflexivity|]. cbn [first]. rewrite nth_error_app1 by (apply L; left; reflexivity).
  rewrite IH by (intros q I; apply L; right; exact I). reflexivity.
Qed.
Lemma wf_in h c k p : wf h -> nth_error h c = Some k -> In p (mro k) -> p < length h.
Proof.
  intros W E I. assert (L : c < length h) by (apply nth_error_Some; congruence).
  destruct (W c k E) as [t [M [_ P]]]. rewrite M in I. destruct I as [->|I]; [exact L|]. destruct (P p I). lia.
Qed.

Definition uncan_all : heap -> list canned -> option (heap * list nat) :=
  fix uncan_all (h : heap) (l : list canned) : option (heap * list nat) :=
      match l with
      | [] => Some (h, [])
      | p :: r => match get_object h p with
                  | None => None
                  | Some (h, c) => match uncan_all h r with None => None | Some (h, cs) => Some (h, c :: cs) end
                  end
      end.
Lemma get_class h nm at_ ps : get_object h (CannedClass nm at_ ps) =
  match uncan_all h ps with None => None | Some (h, cs) => new_type h nm cs at_ true end.
Proof. reflexivity. Qed.
Lemma uncan_refs h t : uncan_all h (map ByReference t) = Some (h, t).
Proof. induction t as [|p t IH]; [reflexivity|]. cbn [map uncan_all get_object]. rewrite IH. reflexivity. Qed.

(** A class that is not of [__main__] is sent by its name. *)
Theorem C92_imported h c k : nth_error h c = Some k -> in_main k = false -> send h c = Some (h, c).
Proof. intros E M. unfold send. cbn [can]. rewrite E, M. reflexivity. Qed.

(** A class of [__main__] whose ancestors can be imported arrives as a new
    class of the same name, with the same attributes and the same ancestors in
    the same order. *)
Theorem C92_arrives h c k t : made h -> nth_error h c = Some k -> in_main k = true -> mro k = c :: t ->
  (forall p kp, In p t -> nth_error h p = Some kp -> in_main kp = false) ->
  exists h' k', send h c = Some (h', length h) /\ nth_error h' (length h) = Some k' /\
    name k' = name k /\ mro k' = length h :: t /\ in_main k' = true /\
    (forall a, a <> weakref -> a <> dict -> own a (attrs k') = own a (attrs k)) /\
    forall d, d < length h -> nth_error h' d = nth_error h d.
Proof.
  intros M E Mn R Anc. pose proof (made_wf h M) as W. destruct (W c k E) as [t' [R' [N P]]].
  rewrite R in R'. injection R' as <-. inversion N as [|? ? Nc Nt]; subst.
  assert (L : c < length h) by (apply nth_error_Some; congruence).
  assert (T : t <> []). { destruct (made_tail h M c k E) as [X|X]; [congruence|]. rewrite R in X. exact X. }
  set (k' := Class (name k) (canned_dict (attrs k)) true (length h :: t)).
  exists (h ++ [k']), k'. unfold send. cbn [can]. rewrite E, Mn, R. cbn [tl].
  assert (C : map (can (length h) h) t = map ByReference t).
  { apply map_ext_in. intros p I. destruct (P p I) as [_ [kp [Ep _]]]. specialize (Anc p kp I Ep).
    destruct (length h); [reflexivity|]. cbn [can]. rewrite Ep, Anc. reflexivity. }
  rewrite C, get_class, uncan_refs.
  split.
  { unfold new_type. replace (match t with [] => [0] | _ => t end) with t by (destruct t; [contradiction|reflexivity]).
    rewrite (distinct_nodup t Nt). rewrite (proj2 (forallb_lt t (length h))) by (intros p I; destruct (P p I); lia).
    cbn [andb]. rewrite (merge_whole t); [reflexivity|exact Nt|apply in_or_app; right; left; reflexivity| |].
    - intros l I. apply in_app_or in I. destruct I as [I|[<-|[]]]; [|apply sub_refl]. apply in_map_iff in I. destruct I as [p [<- I]].
      unfold order. destruct (P p I) as [_ [kp [-> S]]]. exact S.
    - unfold size. rewrite concat_app, app_length. cbn [concat]. rewrite app_nil_r. lia. }
  split; [rewrite nth_error_app2 by lia; rewrite Nat.sub_diag; reflexivity|].
  repeat split; auto.
  - intros a A B. apply own_canned; assumption.
  - intros d D. apply nth_error_app1. exact D.
Qed.

(** So every attribute is what it was, *)
Theorem C92_get h c k t h' c' : made h -> nth_error h c = Some k -> in_main k = true -> mro k = c :: t ->
  (forall p kp, In p t -> nth_error h p = Some kp -> in_main kp = false) -> send h c = Some (h', c') ->
  forall a, a <> weakref -> a <> dict -> get h' c' a = get h c a.
Proof.
  intros M E Mn R Anc S a A B. destruct (C92_arrives h c k t M E Mn R Anc) as [h2 [k' [S2 [E2 [_ [R2 [_ [O D]]]]]]]].
  rewrite S in S2. injection S2 as <- ->. unfold get. rewrite E, E2, R, R2. cbn [first]. rewrite E, E2, (O a A B).
  destruct (own a (attrs k)); [reflexivity|].
  assert (L : forall p, In p t -> p < length h).
  { intros p I. apply (wf_in h c k p (made_wf h M) E). rewrite R. right. exact I. }
  clear - D L. induction t as [|p t IH]; [reflexivity|]. cbn [first]. rewrite D by (apply L; left; reflexivity).
  rewrite IH by (intros q I; apply L; right; exact I). reflexivity.
Qed.
(** and it is a subclass of the same classes. *)
Theorem C92_subclass h c k t h' c' : made h -> nth_error h c = Some k -> in_main k = true -> mro k = c :: t ->
  (forall p kp, In p t -> nth_error h p = Some kp -> in_main kp = false) -> send h c = Some (h', c') ->
  forall p, p <> c -> p <> c' -> (subclass h' c' p <-> subclass h c p).
Proof.
  intros M E Mn R Anc S p P P'. destruct (C92_arrives h c k t M E Mn R Anc) as [h2 [k' [S2 [E2 [_ [R2 _]]]]]].
  rewrite S in S2. injection S2 as <- ->. unfold subclass. rewrite E, E2. split; intros [x [X I]]; injection X as <-.
  - rewrite R2 in I. destruct I as [I|I]; [congruence|]. exists k. rewrite R. split; [reflexivity|right; exact I].
  - rewrite R in I. destruct I as [I|I]; [congruence|]. exists k'. rewrite R2. split; [reflexivity|right; exact I].
Qed.

(** ** Any class *)
Lemma get_object_more x : forall h h' c, get_object h x = Some (h', c) -> exists r, h' = h ++ r.
Proof.
  revert x. fix IH 1. intros [c0|nm at_ ps] h h' c H.
  - injection H as <- <-. exists []. rewrite app_nil_r. reflexivity.
  - rewrite get_class in H. assert (U : forall h h' cs, uncan_all h ps = Some (h', cs) -> exists r, h' = h ++ r).
    { clear H. induction ps as [|p ps IHp]; intros g g' cs H; cbn [uncan_all] in H.
      - injection H as <- <-. exists []. rewrite app_nil_r. reflexivity.
      - destruct (get_object g p) as [[g1 d]|] eqn:G; [|discriminate H]. destruct (uncan_all g1 ps) as [[g2 ds]|] eqn:G2; [|discriminate H].
        injection H as <- <-. destruct (IH _ _ _ _ G) as [r1 ->]. destruct (IHp _ _ _ G2) as [r2 ->]. exists (r1 ++ r2). rewrite app_assoc. reflexivity. }
    destruct (uncan_all h ps) as [[g cs]|] eqn:G; [|discriminate H]. destruct (U _ _ _ G) as [r ->].
    apply new_cases in H. cbv zeta in H. destruct H as [m [_ [_ [-> _]]]]. eexists. rewrite <- app_assoc. reflexivity.
Qed.
(** Whatever is sent, no class that was there is changed, *)
Theorem C92_others h c h' c' : made h -> send h c = Some (h', c') -> forall d a, d < length h -> get h' d a = get h d a.
Proof.
  intros M S d a L. destruct (get_object_more _ _ _ _ S) as [r ->]. unfold get. rewrite nth_error_app1 by exact L.
  destruct (nth_error h d) as [k|] eqn:E; [|reflexivity]. apply first_more. intros p I. exact (wf_in h d k p (made_wf h M) E I).
Qed.
(** and what a class says itself arrives, whatever its ancestors are. *)
Theorem C92_own h c k h' c' a v : nth_error h c = Some k -> in_main k = true -> send h c = Some (h', c') ->
  a <> weakref -> a <> dict -> own a (attrs k) = Some v -> get h' c' a = Some v /\ length h <= c' /\
  exists k', nth_error h' c' = Some k' /\ name k' = name k.
Proof.
  intros E Mn S A B O. unfold send in S. cbn [can] in S. rewrite E, Mn, get_class in S.
  set (ps := map _ _) in S. assert (U : forall l g g' cs, uncan_all g l = Some (g', cs) -> exists r, g' = g ++ r).
  { induction l as [|p l IHp]; intros g g' cs H; cbn [uncan_all] in H.
    - injection H as <- <-. exists []. rewrite app_nil_r. reflexivity.
    - destruct (get_object g p) as [[g1 d]|] eqn:G; [|discriminate H]. destruct (uncan_all g1 l) as [[g2 ds]|] eqn:G2; [|discriminate H].
      injection H as <- <-. destruct (get_object_more _ _ _ _ G) as [r1 ->]. destruct (IHp _ _ _ G2) as [r2 ->]. exists (r1 ++ r2). rewrite app_assoc. reflexivity. }
  destruct (uncan_all h ps) as [[g cs]|] eqn:G; [|discriminate S]. destruct (U _ _ _ _ G) as [r ->].
  apply new_cases in S. cbv zeta in S. destruct S as [m [_ [_ [-> ->]]]].
  set (k' := Class (name k) (canned_dict (attrs k)) true (length (h ++ r) :: m)).
  assert (E' : nth_error ((h ++ r) ++ [k']) (length (h ++ r)) = Some k') by (rewrite nth_error_app2 by lia; rewrite Nat.sub_diag; reflexivity).
  split; [|split; [rewrite app_length; lia|exists k'; split; [exact E'|reflexivity]]].
  unfold get. rewrite E'. cbn [mro k' first]. rewrite E'. cbn [attrs k']. rewrite (own_canned a _ A B), O. reflexivity.
Qed.

(** What can be sent can be sent on: what arrives is made like any class. *)
Lemma get_object_made x : forall h h' c, made h -> get_object h x = Some (h', c) -> made h'.
Proof.
  revert x. fix IH 1. intros [c0|nm at_ ps] h h' c M H.
  - injection H as <- <-. exact M.
  - rewrite get_class in H. assert (U : forall h h' cs, made h -> uncan_all h ps = Some (h', cs) -> made h').
    { clear H. induction ps as [|p ps IHp]; intros g g' cs Mg H; cbn [uncan_all] in H.
      - injection H as <- <-. exact Mg.
      - destruct (get_object g p) as [[g1 d]|] eqn:G; [|discriminate H]. destruct (uncan_all g1 ps) as [[g2 ds]|] eqn:G2; [|discriminate H].
        injection H as <- <-. exact (IHp _ _ _ (IH _ _ _ _ Mg G) G2). }
    destruct (uncan_all h ps) as [[g cs]|] eqn:G; [|discriminate H]. exact (made_new _ _ _ _ _ _ _ (U _ _ _ M G) H).
Qed.
Theorem C92_made h c h' c' : made h -> send h c = Some (h', c') -> made h'.
Proof. intros M S. exact (get_object_made _ _ _ _ M S). Qed.

(** ** What Python's order is: kept by subclasses *)
Theorem C92_monotone h c k p kp : made h -> nth_error h c = Some k -> In p (mro k) -> nth_error h p = Some kp -> sub (mro kp) (mro k) /\ NoDup (mro k).
Proof.
  intros M E I Ep. destruct (made_wf h M c k E) as [t [R [N P]]]. rewrite R in I |- *. split; [|exact N]. destruct I as [<-|I].
  - rewrite E in Ep. injection Ep as <-. rewrite R. apply sub_refl.
  - destruct (P p I) as [_ [k2 [E2 S]]]. rewrite Ep in E2. injection E2 as <-. apply sub_skip, S.
Qed.

Print Assumptions C92_imported.
Print Assumptions C92_arrives.
Print Assumptions C92_get.
Print Assumptions C92_subclass.
Print Assumptions C92_others.
Print Assumptions C92_own.
Print Assumptions C92_made.
Print Assumptions C92_monotone.

(** ** Examples *)
(** A diamond of classes that can be imported: A, B(A), C(A); D(B, C) of __main__. *)
Definition def (h : heap) (nm : nat) (bs : list nat) (a : list (nat * nat)) (mn : bool) : heap :=
  match new_type h nm bs a mn with Some (h, _) => h | None => h end.
Definition diamond (mn : bool) : heap :=
  def (def (def (def [object_] 1 [] [(5, 10)] mn) 2 [1] [(1, 9)] mn) 3 [1] [(5, 30)] mn) 4 [2; 3] [(0, 8); (6, 40)] true.
Lemma made_def h nm bs a mn : made h -> made (def h nm bs a mn).
Proof. intro M. unfold def. destruct (new_type h nm bs a mn) as [[h' c]|] eqn:E; [exact (made_new _ _ _ _ _ _ _ M E)|exact M]. Qed.
Lemma made_diamond mn : made (diamond mn).
Proof. unfold diamond. repeat apply made_def. constructor. Qed.
Example C92_ex_order : order (diamond false) 4 = [4; 2; 3; 1; 0].
Proof. reflexivity. Qed.
Example C92_ex_hyps : forall p kp, In p [2; 3; 1; 0] -> nth_error (diamond false) p = Some kp -> in_main kp = false.
Proof. intros p kp I E. destruct I as [<-|[<-|[<-|[<-|[]]]]]; vm_compute in E; injection E as <-; reflexivity. Qed.
Example C92_ex_sent : match send (diamond false) 4 with
  | Some (h, c) => c = 5 /\ order h c = [5; 2; 3; 1; 0] /\ get h c 5 = Some 30 /\ get h c 6 = Some 40 /\ get h c 7 = None
  | None => False end.
Proof. vm_compute. auto 6. Qed.
(** No order: TypeError *)
Example C92_ex_none : new_type (diamond false) 9 [1; 2] [] true = None.
Proof. reflexivity. Qed.

(** ** What does not hold *)
(** If the ancestors are of [__main__] too, each is sent as many times as it
    occurs, and the class may find another attribute: D.a is C's at home; on
    the engine it is A's. *)
Theorem C92_diamond_refuted : ~ (forall h c h' c' a, made h -> send h c = Some (h', c') -> a <> weakref -> a <> dict -> get h' c' a = get h c a).
Proof.
  intro H. specialize (H (diamond true) 4).
  destruct (send (diamond true) 4) as [[h c]|] eqn:E; [|vm_compute in E; discriminate E].
  specialize (H _ _ 5 (made_diamond true) eq_refl). vm_compute in E. injection E as <- <-. vm_compute in H.
  assert (K : Some 10 = Some 30) by (apply H; discriminate). discriminate K.
Qed.
(** A class that is sent twice is two classes. *)
Theorem C92_same_refuted : ~ (forall h c h1 c1 h2 c2, made h -> send h c = Some (h1, c1) -> send h1 c = Some (h2, c2) -> c1 = c2).
Proof.
  intro H. specialize (H (diamond false) 4). remember (send (diamond false) 4) as x eqn:E. vm_compute in E. subst x.
  specialize (H _ _ _ _ (made_diamond false) eq_refl eq_refl). discriminate H.
Qed.
