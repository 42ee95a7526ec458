(** C92: classes of __main__ with ancestors of __main__, without branches. *)
From Coq Require Import List Arith Bool Lia.
From Verif Require Import CanClass_Spec CanClass_Model CanClass_Props.
Import ListNotations.

Definition before (x y : nat) (m : list nat) : Prop := exists u v, m = u ++ y :: v /\ In x u.
Lemma split_unique (y : nat) u : forall u' v v', NoDup (u ++ y :: v) -> u ++ y :: v = u' ++ y :: v' -> u = u' /\ v = v'.
Proof.
  induction u as [|a u IH]; intros [|b u'] v v' N E; cbn [app] in *.
  - injection E as E. subst. auto.
  - injection E as E E'. subst. inversion N as [|? ? X ?]. exfalso. apply X. apply in_or_app. right. left. reflexivity.
  - injection E as E E'. subst. inversion N as [|? ? X ?]. exfalso. apply X. apply in_or_app. right. left. reflexivity.
  - injection E as E E'. subst. inversion N as [|? ? X Y]; subst. destruct (IH _ _ _ Y E') as [-> ->]. auto.
Qed.
Lemma before_split x y u v : NoDup (u ++ y :: v) -> before x y (u ++ y :: v) -> In x u.
Proof. intros N [u' [v' [E I]]]. destruct (split_unique y u u' v v' N E) as [-> _]. exact I. Qed.
Lemma before_sub x y l m : sub l m -> before x y l -> before x y m.
Proof.
  induction 1 as [m|z l m S IH|z l m S IH]; intros [u [v [E I]]].
  - destruct u; discriminate E.
  - destruct u as [|w u]; [contradiction|]. injection E as -> E. destruct I as [->|I].
    + assert (J : In y m) by (eapply sub_in; [exact S|rewrite E; apply in_or_app; right; left; reflexivity]).
      apply in_split in J. destruct J as [a [b ->]]. exists (x :: a), b. split; [reflexivity|left; reflexivity].
    + destruct IH as [u' [v' [-> I']]]; [exists u, v; auto|]. exists (w :: u'), v'. split; [reflexivity|right; exact I'].
  - destruct IH as [u' [v' [-> I']]]; [exists u, v; auto|]. exists (z :: u'), v'. split; [reflexivity|right; exact I'].
Qed.
Lemma before_trans x y z m : NoDup m -> before x y m -> before y z m -> before x z m.
Proof.
  intros N B [u [v [-> I]]]. exists u, v. split; [reflexivity|]. apply in_split in I. destruct I as [a [b ->]].
  rewrite <- app_assoc in N, B. cbn [app] in N, B. apply in_or_app. left. exact (before_split x y a _ N B).
Qed.

(** [y] of the heap [g] says what [q] of [h] says. *)
Definition copy (h g : heap) (y q : nat) : Prop := exists ky kq, nth_error g y = Some ky /\ nth_error h q = Some kq /\
  forall a, a <> weakref -> a <> dict -> own a (attrs ky) = own a (attrs kq).
(** Whoever is in [l] is a copy of one of [t] whose predecessors have copies earlier. *)
Definition covers (h g : heap) (l t : list nat) : Prop :=
  (forall u y v, l = u ++ y :: v -> exists w q z, t = w ++ q :: z /\ copy h g y q /\ forall r, In r w -> exists x, In x u /\ copy h g x r) /\
  forall q, In q t -> exists y, In y l /\ copy h g y q.

Lemma first_some h a l v : first h a l = Some v <-> exists u y z k, l = u ++ y :: z /\ nth_error h y = Some k /\ own a (attrs k) = Some v /\
  forall x kx, In x u -> nth_error h x = Some kx -> own a (attrs kx) = None.
Proof.
  induction l as [|c l IH]; cbn [first].
  - split; [discriminate|]. intros [[|? ?] [y [z [k [E _]]]]]; discriminate E.
  - destruct (nth_error h c) as [k|] eqn:E.
    + destruct (own a (attrs k)) as [w|] eqn:O.
      * split.
        -- intro H. injection H as ->. exists [], c, l, k. repeat split; auto. intros x kx [].
        -- intros [u [y [z [k' [L [E' [O' N]]]]]]]. destruct u as [|b u]; injection L as -> ->.
           ++ rewrite E in E'. injection E' as <-. congruence.
           ++ rewrite (N b k (or_introl eq_refl) E) in O. discriminate O.
      * rewrite IH. split; intros [u [y [z [k' [L [E' [O' N]]]]]]].
        -- exists (c :: u), y, z, k'. rewrite L. repeat split; auto. intros x kx [<-|I] X; [congruence|exact (N x kx I X)].
        -- destruct u as [|b u]; injection L as -> ->; [congruence|]. exists u, y, z, k'. repeat split; auto. intros x kx I. apply N. right. exact I.
    + rewrite IH. split; intros [u [y [z [k' [L [E' [O' N]]]]]]].
      * exists (c :: u), y, z, k'. rewrite L. repeat split; auto. intros x kx [<-|I] X; [congruence|exact (N x kx I X)].
      * destruct u as [|b u]; injection L as -> ->; [congruence|]. exists u, y, z, k'. repeat split; auto. intros x kx I. apply N. right. exact I.
Qed.
Lemma covers_first h g l t a : covers h g l t -> a <> weakref -> a <> dict -> first g a l = first h a t.
Proof.
  intros [C D] A B. destruct (first g a l) as [v|] eqn:F.
  - apply first_some in F. destruct F as [u [y [z [k [-> [E [O N]]]]]]]. destruct (C u y z eq_refl) as [w [q [s [-> [[ky [kq [E1 [E2 Q]]]] W]]]]].
    rewrite E in E1. injection E1 as <-. symmetry. apply first_some. exists w, q, s, kq. repeat split; auto; [rewrite <- (Q a A B); exact O|].
    intros x kx I X. destruct (W x I) as [x' [I' [k1 [k2 [X1 [X2 X3]]]]]]. rewrite X in X2. injection X2 as <-. rewrite <- (X3 a A B). exact (N x' k1 I' X1).
  - destruct (first h a t) as [v|] eqn:G; [exfalso|reflexivity].
    apply first_some in G. destruct G as [u [q [z [k [-> [E [O N]]]]]]].
    destruct (D q) as [y [I [ky [kq [E1 [E2 Q]]]]]]; [apply in_or_app; right; left; reflexivity|]. rewrite E in E2. injection E2 as <-.
    rewrite <- (Q a A B) in O.
    assert (X : exists v, first g a l = Some v).
    { clear - I E1 O. induction l as [|c l IH]; [contradiction|]. cbn [first]. destruct I as [->|I].
      - rewrite E1, O. eauto.
      - destruct (nth_error g c) as [kc|]; [destruct (own a (attrs kc)); [eauto|]|]; auto. }
    destruct X as [x X]. congruence.
Qed.
Lemma copy_more h g r y q : copy h g y q -> copy h (g ++ r) y q.
Proof. intros [ky [kq [E [E' H]]]]. exists ky, kq. split; [rewrite nth_error_app1; [exact E|apply nth_error_Some; congruence]|auto]. Qed.
Lemma covers_more h g r l t : covers h g l t -> covers h (g ++ r) l t.
Proof.
  intros [C D]. split.
  - intros u y v E. destruct (C u y v E) as [w [q [z [T [Q W]]]]]. exists w, q, z. split; [exact T|]. split; [apply copy_more, Q|].
    intros x I. destruct (W x I) as [x' [I' Q']]. exists x'. split; [exact I'|apply copy_more, Q'].
  - intros q I. destruct (D q I) as [y [I' Q]]. exists y. split; [exact I'|apply copy_more, Q].
Qed.
Lemma order_more h r c : c < length h -> order (h ++ r) c = order h c.
Proof. intro L. unfold order. rewrite nth_error_app1 by exact L. reflexivity. Qed.

(** Without branches among the classes of [__main__]: the order of each of
    them is the end of that of [c]; and importable classes have importable
    ancestors. *)
Definition linear (h : heap) : Prop := forall c k p kp, nth_error h c = Some k -> In p (mro k) -> nth_error h p = Some kp ->
  if in_main kp then exists w, mro k = w ++ mro kp else forall q kq, In q (mro kp) -> nth_error h q = Some kq -> in_main kq = false.

Definition arrives (h g : heap) (p p' : nat) : Prop :=
  p' < length g /\ covers h g (order g p') (order h p) /\ (exists t, order g p' = p' :: t) /\ (forall kp, nth_error h p = Some kp -> in_main kp = false -> p' = p).
Lemma arrives_more h g r p p' : arrives h g p p' -> arrives h (g ++ r) p p'.
Proof.
  intros [L [C [T I]]]. unfold arrives. rewrite (order_more g r p' L). split; [rewrite app_length; lia|]. split; [apply covers_more, C|]. auto.
Qed.
Lemma covers_refl h l : (forall p, In p l -> p < length h) -> forall r, covers h (h ++ r) l l.
Proof.
  intros L r. assert (Q : forall p, In p l -> copy h (h ++ r) p p).
  { intros p I. destruct (nth_error h p) as [k|] eqn:E; [|apply nth_error_None in E; specialize (L p I); lia].
    exists k, k. rewrite nth_error_app1 by (apply L; exact I). auto. }
  split.
  - intros u y v E. exists u, y, v. split; [exact E|]. split; [apply Q; rewrite E; apply in_or_app; right; left; reflexivity|].
    intros x I. exists x. split; [exact I|]. apply Q. rewrite E. apply in_or_app. left. exact I.
  - intros q I. exists q. auto.
Qed.

Lemma class_arrives h : made h -> linear h -> forall n c r g' c', c < n -> c < length h -> get_object (h ++ r) (can n h c) = Some (g', c') ->
  arrives h g' c c' /\ exists s, g' = h ++ s.
Proof.
  intros Md Lin. pose proof (made_wf h Md) as W. induction n as [|n IH]; intros c r g' c' Ln Lc H; [lia|].
  destruct (nth_error h c) as [k|] eqn:E; [|apply nth_error_None in E; lia].
  destruct (W c k E) as [t [R [N P]]]. assert (Lt : forall p, In p (c :: t) -> p < length h) by (intros p I; apply (wf_in h c k p W E); rewrite R; exact I).
  cbn [can] in H. rewrite E in H. destruct (in_main k) eqn:Mn.
  2: { injection H as <- <-. split; [|exists r; reflexivity]. unfold arrives. rewrite (order_more h r c Lc). unfold order. rewrite E, R.
       split; [rewrite app_length; lia|]. split; [apply covers_refl; exact Lt|]. split; [eauto|auto]. }
  rewrite R in H. cbn [tl] in H. rewrite get_class in H.
  destruct (uncan_all (h ++ r) (map (can n h) t)) as [[g1 cs]|] eqn:U; [|discriminate H].
  assert (A : (exists s, g1 = h ++ s) /\ Forall2 (arrives h g1) t cs).
  { assert (Q : forall p, In p t -> p < n /\ p < length h) by (intros p I; split; [destruct (P p I); lia|apply Lt; right; exact I]).
    clear - IH Q U. revert r g1 cs U. induction t as [|p t IHt]; intros r g1 cs U; cbn [map uncan_all] in U.
    - injection U as <- <-. split; [eauto|constructor].
    - destruct (get_object (h ++ r) (can n h p)) as [[g2 d]|] eqn:G; [|discriminate U].
      destruct (Q p (or_introl eq_refl)) as [Q1 Q2]. destruct (IH _ _ _ _ Q1 Q2 G) as [Ar [s ->]].
      destruct (uncan_all (h ++ s) (map (can n h) t)) as [[g3 ds]|] eqn:G2; [|discriminate U]. injection U as <- <-.
      assert (More : exists s', g3 = (h ++ s) ++ s').
      { clear - G2. revert G2. generalize (h ++ s) as g. generalize (map (can n h) t) as l. intros l. revert g3 ds. induction l as [|x l IHl]; intros g3 ds g G; cbn [uncan_all] in G.
        - injection G as <- <-. exists []. rewrite app_nil_r. reflexivity.
        - destruct (get_object g x) as [[ga a]|] eqn:Ga; [|discriminate G]. destruct (get_object_more _ _ _ _ Ga) as [ra ->].
          destruct (uncan_all (g ++ ra) l) as [[gb b]|] eqn:Gb; [|discriminate G]. injection G as <- <-.
          destruct (IHl _ _ _ Gb) as [rb ->]. exists (ra ++ rb). rewrite app_assoc. reflexivity. }
      destruct (IHt (fun q I => Q q (or_intror I)) _ _ _ G2) as [Ex F]. split; [exact Ex|]. constructor; [|exact F].
      destruct More as [s' ->]. apply arrives_more, Ar. }
  destruct A as [[s ->] F]. clear U.
  assert (T : t <> []). { destruct (made_tail h Md c k E) as [X|X]; [congruence|]. rewrite R in X. exact X. }
  apply new_cases in H. cbv zeta in H. replace (match cs with [] => [0] | _ => cs end) with cs in H by (destruct F; [contradiction|reflexivity]).
  destruct H as [m [Bs [Mg [-> ->]]]]. set (g1 := h ++ s) in *. set (k' := Class (name k) (canned_dict (attrs k)) true (length g1 :: m)).
  set (c' := length g1). set (g := g1 ++ [k']).
  assert (Nm : NoDup m) by (eapply merge_nodup; exact Mg).
  assert (Sc : sub cs m) by (eapply merge_keeps; [exact Mg|]; apply in_or_app; right; left; reflexivity).
  assert (So : forall p', In p' cs -> sub (order g1 p') m).
  { intros p' I. eapply merge_keeps; [exact Mg|]. apply in_or_app. left. apply in_map. exact I. }
  assert (Ec : nth_error g c' = Some k') by (unfold g, c'; rewrite nth_error_app2 by lia; rewrite Nat.sub_diag; reflexivity).
  assert (Qc : copy h g c' c) by (exists k', k; repeat split; auto; intros a A B; apply own_canned; assumption).
  assert (Oc : order g c' = c' :: m) by (unfold order; rewrite Ec; reflexivity).
  assert (Cp : forall p p', In p t -> arrives h g1 p p' -> copy h g p' p).
  { intros p p' I [Lp [[C _] [[tp Tp] _]]]. destruct (C [] p' tp Tp) as [w [q [z [X [Q Y]]]]].
    assert (w = []) by (destruct w as [|x w]; [reflexivity|]; destruct (Y x (or_introl eq_refl)) as [? [[] _]]). subst w.
    unfold order in X. destruct (P p I) as [_ [kp [Ep _]]]. rewrite Ep in X. destruct (W p kp Ep) as [t' [Rp _]]. rewrite Rp in X. injection X as -> _. apply copy_more, Q. }
  (* whoever comes from the bases themselves *)
  assert (Base : forall w q z w' q' z', t = w ++ q :: z -> cs = w' ++ q' :: z' -> Forall2 (arrives h g1) w w' ->
     forall r0, In r0 w -> exists x, copy h g x r0 /\ before x q' m).
  { intros w q z w' q' z' Tt Tc Fw r0 I. assert (X : exists x, In x w' /\ arrives h g1 r0 x).
    { clear - Fw I. induction Fw as [|a b w w' Ab Fw IHf]; [contradiction|]. destruct I as [->|I]; [exists b; split; [left; reflexivity|exact Ab]|].
      destruct (IHf I) as [x [J K]]. exists x. split; [right; exact J|exact K]. }
    destruct X as [x [J K]]. exists x. split; [apply Cp; [rewrite Tt; apply in_or_app; left; exact I|exact K]|].
    apply (before_sub x q' cs m Sc). exists w', z'. auto. }
  assert (FromBase : forall q', In q' cs -> exists w q z w' z', t = w ++ q :: z /\ cs = w' ++ q' :: z' /\ Forall2 (arrives h g1) w w' /\ arrives h g1 q q').
  { intros q' I. apply in_split in I. destruct I as [w' [z' X]]. pose proof F as F'. rewrite X in F'. apply Forall2_app_inv_r in F'.
    destruct F' as [w [tz [Fw [Fz Y]]]]. inversion Fz as [|q ? z ? Aq _]; subst. exists w, q, z, w', z'. auto. }
  assert (Main : forall y, In y m -> exists w q z, t = w ++ q :: z /\ copy h g y q /\ forall r0, In r0 w -> exists x, copy h g x r0 /\ before x y m).
  { assert (Case1 : forall y, In y cs -> exists w q z, t = w ++ q :: z /\ copy h g y q /\ forall r0, In r0 w -> exists x, copy h g x r0 /\ before x y m).
    { intros y I. destruct (FromBase y I) as [w [q [z [w' [z' [T1 [T2 [F1 F2]]]]]]]]. exists w, q, z. split; [exact T1|].
      split; [apply Cp; [rewrite T1; apply in_or_app; right; left; reflexivity|exact F2]|]. exact (Base w q z w' y z' T1 T2 F1). }
    intros y I. destruct (merge_from _ _ _ Mg y I) as [l [K Y]]. apply in_app_or in K. destruct K as [K|[<-|[]]]; [|apply Case1, Y].
    apply in_map_iff in K. destruct K as [p' [<- Ip']].
    destruct (FromBase p' Ip') as [w [p [z [w' [z' [T1 [T2 [F1 F2]]]]]]]].
    assert (Ip : In p t) by (rewrite T1; apply in_or_app; right; left; reflexivity).
    destruct (P p Ip) as [_ [kp [Ep Sp]]]. assert (Ipk : In p (mro k)) by (rewrite R; right; exact Ip).
    pose proof (Lin c k p kp E Ipk Ep) as Lp. pose proof F2 as F2'. destruct F2 as [Lp' [[C D] [[tp' Tp'] Im]]].
    destruct (in_main kp) eqn:Mp.
    - (* of __main__ *)
      destruct (W p kp Ep) as [tp [Rp [Np Pp]]]. destruct Lp as [w0 Ew0]. rewrite R, Rp in Ew0.
      assert (E1 : t = w ++ p :: tp).
      { destruct w0 as [|x w0]; [injection Ew0 as -> _; inversion N; contradiction|]. injection Ew0 as _ Ew0.
        inversion N as [|? ? _ Nt]; subst x0 l. rewrite T1 in Ew0, Nt. destruct (split_unique p w w0 z tp Nt Ew0) as [-> ->]. exact T1. }
      apply in_split in Y. destruct Y as [u1 [v1 Y]]. destruct (C u1 y v1 Y) as [w1 [q [z1 [X [Q V]]]]].
      unfold order in X. rewrite Ep, Rp in X. rewrite X in E1.
      exists (w ++ w1), q, z1. split; [rewrite <- app_assoc; exact E1|]. split; [apply copy_more, Q|].
      intros r0 I0. apply in_app_or in I0. destruct I0 as [I0|I0].
      + destruct (Base w p z w' p' z' T1 T2 F1 r0 I0) as [x [Qx Bx]]. exists x. split; [exact Qx|].
        rewrite Tp' in Y. destruct u1 as [|a u1]; injection Y as -> Y; [exact Bx|].
        apply (before_trans x a y m Nm Bx). apply (before_sub a y (order g1 a) m (So a Ip')). exists (a :: u1), v1.
        split; [rewrite Tp', Y; reflexivity|left; reflexivity].
      + destruct (V r0 I0) as [x [J Qx]]. exists x. split; [apply copy_more, Qx|].
        apply (before_sub x y (order g1 p') m (So p' Ip')). exists u1, v1. auto.
    - (* imported *)
      rewrite (Im kp Ep Mp) in Y. unfold g1 in Y. rewrite order_more in Y by (apply Lt; right; exact Ip). unfold order in Y. rewrite Ep in Y.
      assert (It : In y t) by (exact (sub_in _ _ _ Sp Y)). destruct (P y It) as [_ [ky [Ey _]]]. pose proof (Lp y ky Y Ey) as My.
      apply Case1. assert (X : exists x, In x cs /\ arrives h g1 y x).
      { clear - F It. induction F as [|a b l l' Ab F IHf]; [contradiction|]. destruct It as [->|It]; [exists b; split; [left; reflexivity|exact Ab]|].
        destruct (IHf It) as [x [J K]]. exists x. split; [right; exact J|exact K]. }
      destruct X as [x [J [_ [_ [_ K]]]]]. rewrite <- (K ky Ey My). exact J. }
  split; [|exists (s ++ [k']); unfold g, g1; rewrite app_assoc; reflexivity].
  unfold arrives. fold c' g. split; [unfold g, c'; rewrite app_length; cbn [length]; lia|]. rewrite Oc. unfold order. rewrite E, R. split; [|split; [eauto|intros kp X Y; congruence]].
  split.
  - intros u y v X. destruct u as [|a u]; injection X as <- X.
    + exists [], c, t. split; [reflexivity|]. split; [exact Qc|]. intros ? [].
    + destruct (Main y) as [w [q [z [T1 [Q V]]]]]; [rewrite X; apply in_or_app; right; left; reflexivity|].
      exists (c :: w), q, z. split; [rewrite T1; reflexivity|]. split; [exact Q|]. intros r0 [<-|I]; [exists c'; split; [left; reflexivity|exact Qc]|].
      destruct (V r0 I) as [x [Qx Bx]]. exists x. split; [right|exact Qx]. rewrite X in Bx, Nm. exact (before_split x y u v Nm Bx).
  - intros q [<-|I]; [exists c'; split; [left; reflexivity|exact Qc]|].
    assert (X : exists x, In x cs /\ arrives h g1 q x).
    { clear - F I. induction F as [|a b l l' Ab F IHf]; [contradiction|]. destruct I as [->|I]; [exists b; split; [left; reflexivity|exact Ab]|].
      destruct (IHf I) as [x [J K]]. exists x. split; [right; exact J|exact K]. }
    destruct X as [x [J K]]. exists x. split; [right; exact (sub_in _ _ _ Sc J)|exact (Cp q x I K)].
Qed.

(** If the classes of [__main__] do not branch, a class that arrives finds
    every attribute as at home, though each ancestor of [__main__] is there
    many times. *)
Theorem C92_chain h c h' c' : made h -> linear h -> c < length h -> send h c = Some (h', c') ->
  forall a, a <> weakref -> a <> dict -> get h' c' a = get h c a.
Proof.
  intros M Lin L S a A B. unfold send in S. pose proof (class_arrives h M Lin (Datatypes.S (length h)) c [] h' c' ltac:(lia) L) as H.
  rewrite app_nil_r in H. destruct (H S) as [[L' [C _]] _]. unfold get.
  pose proof (covers_first _ _ _ _ a C A B) as F. unfold order in F.
  destruct (nth_error h' c') as [k'|] eqn:E'; [|apply nth_error_None in E'; lia].
  destruct (nth_error h c) as [k|] eqn:E; [|apply nth_error_None in E; lia]. exact F.
Qed.
Print Assumptions C92_chain.

(** Three classes of [__main__], one above the other, over one that is imported: on the engine there is one copy more. *)
Definition chain : heap := def (def (def (def [object_] 1 [] [(5, 10)] false) 2 [1] [(5, 20); (6, 21)] true) 3 [2] [(6, 30)] true) 4 [3] [(7, 40)] true.
Example C92_ex_chain : made chain /\ linear chain /\ match send chain 4 with
  | Some (h, c) => length (order h c) = 6 /\ get h c 5 = Some 20 /\ get h c 6 = Some 30 /\ get h c 7 = Some 40
  | None => False end.
Proof.
  split; [unfold chain; repeat apply made_def; constructor|]. split; [|vm_compute; auto].
  intros c k p kp E I Ep. do 5 (destruct c as [|c]; [vm_compute in E; injection E as <-; cbn [mro] in I;
    repeat (destruct I as [<-|I]; [vm_compute in Ep; injection Ep as <-; cbn [in_main mro];
      first [ intros q kq J Eq; cbn [mro] in J; repeat (destruct J as [<-|J]; [vm_compute in Eq; injection Eq as <-; reflexivity|]); contradiction
            | exists []; reflexivity | exists [4]; reflexivity | exists [3]; reflexivity | exists [4; 3]; reflexivity]|]); contradiction|]).
  vm_compute in E. destruct c; discriminate E.
Qed.
