From Coq Require Import List String Ascii Bool Arith Lia Permutation.
From stdpp Require Import pretty.
From Verif Require Import Out_Spec Out_Model Out_Proofs Str_Spec Str_Model.
Import ListNotations.

(** ** Terminal *)
Lemma text_eqb_ok : forall a b, text_eqb a b = true <-> a = b.
Proof.
  induction a as [|x a IH]; intros [|y b]; cbn [text_eqb]; split; try discriminate; try reflexivity.
  - intros H. apply andb_true_iff in H. destruct H as [H1 H2]. apply Ascii.eqb_eq in H1. apply IH in H2. subst. reflexivity.
  - intros H. injection H as -> ->. apply andb_true_iff. split; [apply Ascii.eqb_refl | apply IH; reflexivity].
Qed.
Lemma same_ok : forall a b, same a b = true <-> a = b.
Proof.
  intros [a1 a2] [b1 b2]. unfold same. cbn [fst snd]. rewrite andb_true_iff. rewrite Bool.eqb_true_iff, Nat.eqb_eq. split; [intros [-> ->]; reflexivity | intros H; injection H as -> ->; split; reflexivity].
Qed.
Lemma las_app : forall a b, list_ascii_of_string (a ++ b)%string = list_ascii_of_string a ++ list_ascii_of_string b.
Proof. induction a as [|c a IH]; intros b; [reflexivity|]. change (String c a ++ b)%string with (String c (a ++ b)%string). cbn [list_ascii_of_string app]. rewrite IH. reflexivity. Qed.
Lemma las_inj : forall a b, list_ascii_of_string a = list_ascii_of_string b -> a = b.
Proof. intros a b H. rewrite <- (string_of_list_ascii_of_string a), <- (string_of_list_ascii_of_string b), H. reflexivity. Qed.
Lemma header_inj : forall a b, header a = header b -> a = b.
Proof.
  intros [a1 a2] [b1 b2] H. unfold header in H. cbn [fst snd] in H.
  assert (K : forall x y : nat, (pretty x ++ "] ")%string = (pretty y ++ "] ")%string -> x = y).
  { intros x y E. apply (f_equal list_ascii_of_string) in E. rewrite !las_app in E. apply app_inv_tail in E. apply las_inj in E. exact (base.inj pretty _ _ E). }
  apply las_inj in H. destruct a1, b1; cbn in H; first [discriminate | injection H as H; rewrite (K _ _ H); reflexivity].
Qed.
Lemma header_nonempty : forall s, is_nil (header s) = false.
Proof. intros [a b]. reflexivity. Qed.
Lemma header_eqb : forall a b, text_eqb (header a) (header b) = same a b.
Proof.
  intros a b. destruct (same a b) eqn:E.
  - apply same_ok in E. subst. apply text_eqb_ok. reflexivity.
  - destruct (text_eqb (header a) (header b)) eqn:F; [|reflexivity]. apply text_eqb_ok, header_inj in F. apply same_ok in F. congruence.
Qed.
Lemma header_eqb_nil : forall a, text_eqb (header a) [] = false.
Proof. reflexivity. Qed.
Lemma ends_line_app : forall a b, b <> [] -> ends_line (a ++ b) = ends_line b.
Proof. intros a b H. unfold ends_line. rewrite rev_app_distr. destruct (rev b) eqn:E; [|reflexivity]. apply (f_equal (@rev _)) in E. rewrite rev_involutive in E. cbn in E. contradiction. Qed.
Lemma sections_nonempty : forall l s t, In (s, t) (sections l) -> t <> [].
Proof.
  induction l as [|[s t] l IH]; intros s0 t0 H; [destruct H|]. cbn [sections] in H. destruct t as [|c t]; [exact (IH _ _ H)|].
  destruct (sections l) as [|[s' t'] r] eqn:E.
  - destruct H as [H|[]]. injection H as <- <-. discriminate.
  - destruct (same s s').
    + destruct H as [H|H]; [injection H as <- <-; discriminate | apply (IH s0 t0); right; exact H].
    + destruct H as [H|H]; [injection H as <- <-; discriminate | exact (IH _ _ H)].
Qed.
(** what is printed after something of source [s0] *)
Definition after (s0 : bool * nat) (nl : bool) (l : list (bool * nat * text)) : text :=
  match l with
  | [] => []
  | (s, t) :: r => if same s s0 then t ++ match r with [] => [] | _ => (if ends_line t then [] else [LF]) ++ layout r end
                   else (if nl then [] else [LF]) ++ layout l
  end.
Lemma layout_cons : forall s t r, layout ((s, t) :: r) = header s ++ LF :: t ++ match r with [] => [] | _ => (if ends_line t then [] else [LF]) ++ layout r end.
Proof. intros s t [|x r]; [cbn [layout]; rewrite app_nil_r|]; reflexivity. Qed.
(** adjacent sections have different sources *)
Lemma sections_diff : forall l s t s' t' r, sections l = (s, t) :: (s', t') :: r -> same s s' = false.
Proof.
  induction l as [|[s t] l IH]; intros s0 t0 s' t' r H; [discriminate|]. cbn [sections] in H. destruct t as [|c t]; [exact (IH _ _ _ _ _ H)|].
  destruct (sections l) as [|[s1 t1] r1] eqn:E; [discriminate|]. destruct (same s s1) eqn:S.
  - injection H as <- <- H. subst r1. apply same_ok in S. subst s1. exact (IH _ _ _ _ _ eq_refl).
  - injection H as <- <- <- <- _. exact S.
Qed.
Lemma after_cons : forall s c t l s0 nl, after s0 nl (sections ((s, c :: t) :: l)) =
  (if same s s0 then c :: t else (if nl then [] else [LF]) ++ header s ++ LF :: c :: t) ++ after s (ends_line (c :: t)) (sections l).
Proof.
  intros s c t l s0 nl. cbn [sections]. pose proof (sections_nonempty l) as NE. pose proof (sections_diff l) as D. destruct (sections l) as [|[s' t'] r].
  - cbn [after]. rewrite !app_nil_r. destruct (same s s0); reflexivity.
  - assert (T : t' <> []) by (apply (NE s'); left; reflexivity). assert (SS : same s' s' = true) by (apply same_ok; reflexivity). destruct (same s s') eqn:S.
    + apply same_ok in S. subst s'. cbn [after]. rewrite SS. rewrite ends_line_app by exact T. destruct (same s s0); [rewrite !app_assoc; reflexivity|]. rewrite layout_cons. rewrite ends_line_app by exact T. repeat (rewrite <- !app_assoc || cbn [app]). reflexivity.
    + assert (S' : same s' s = false) by (destruct (same s' s) eqn:X; [apply same_ok in X; subst; congruence | reflexivity]). cbn [after]. rewrite S'.
      destruct (same s s0); [reflexivity|]. rewrite layout_cons. repeat (rewrite <- !app_assoc || cbn [app]). reflexivity.
Qed.
Lemma display_after : forall l s0 nl, display_all l (header s0, nl) = after s0 nl (sections l).
Proof.
  induction l as [|[s t] l IH]; intros s0 nl; [reflexivity|]. destruct t as [|c t]; [cbn [display_all display_stream is_nil sections]; exact (IH s0 nl)|].
  rewrite after_cons. unfold display_all; fold display_all. unfold display_stream. cbn [is_nil]. rewrite header_nonempty, header_eqb. destruct (same s s0) eqn:S.
  - apply same_ok in S. subst s0. cbn [is_nil negb andb]. rewrite IH. reflexivity.
  - rewrite header_nonempty. cbn [negb andb]. rewrite IH. destruct nl; repeat (rewrite <- !app_assoc || cbn [app]); reflexivity.
Qed.
Lemma display_layout : forall l, display_all l ([], true) = layout (sections l).
Proof.
  induction l as [|[s t] l IH]; [reflexivity|]. destruct t as [|c t]; [cbn [display_all display_stream is_nil sections]; exact IH|].
  unfold display_all; fold display_all. unfold display_stream. cbn [is_nil]. rewrite header_nonempty, header_eqb_nil, header_nonempty. cbn [negb andb app]. rewrite display_after.
  cbn [sections]. pose proof (sections_nonempty l) as NE. pose proof (sections_diff l) as D. destruct (sections l) as [|[s' t'] r].
  - cbn [after layout]. rewrite app_nil_r. reflexivity.
  - assert (T : t' <> []) by (apply (NE s'); left; reflexivity). destruct (same s s') eqn:S.
    + apply same_ok in S. subst s'. cbn [after]. assert (SS : same s s = true) by (apply same_ok; reflexivity). rewrite SS, layout_cons, ends_line_app by exact T. repeat (rewrite <- !app_assoc || cbn [app]). reflexivity.
    + assert (SS : same s s = true) by (apply same_ok; reflexivity). assert (S' : same s' s = false) by (destruct (same s' s) eqn:X; [apply same_ok in X; subst; congruence | reflexivity]). cbn [after]. rewrite S', (layout_cons s (c :: t)). repeat (rewrite <- !app_assoc || cbn [app]). reflexivity.
Qed.
