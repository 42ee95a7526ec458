From Coq Require Import Ascii.
From stdpp Require Import base list gmap strings.
From Verif Require Import Imports_Spec Imports_Model.
From Coq Require Import Lia.
Local Open Scope string_scope.
Local Open Scope list_scope.

Lemma bind_err e w n xs : forall ns ns', snd (bind_all e w n xs ns) = snd (bind_all e w n xs ns').
Proof. induction xs as [|x xs IH]; intros; cbn [bind_all]; [reflexivity|]. destruct (found w n x); [apply IH|reflexivity]. Qed.
Lemma python_err w ns ns' i : snd (python_import w ns i) = snd (python_import w ns' i).
Proof. unfold python_import. destruct (negb _); [reflexivity|]. destruct (decide _); [reflexivity|]. destruct (i_from i); [reflexivity|apply bind_err]. Qed.
Lemma python_only_import_error w ns i e : snd (python_import w ns i) = Some e -> e = ImportError.
Proof.
  assert (B : forall xs ns, snd (bind_all ImportError w (i_name i) xs ns) = Some e -> e = ImportError) by (induction xs as [|x xs IH]; intros n; cbn [bind_all]; [discriminate|]; destruct (found w _ x); [apply IH|cbn; congruence]).
  unfold python_import. destruct (negb _); [cbn; congruence|]. destruct (decide _); [discriminate|]. destruct (i_from i); [discriminate|apply B].
Qed.
Lemma python_not_loads w ns i : loads w i = false -> python_import w ns i = (ns, Some ImportError).
Proof. intros H. unfold python_import. rewrite H. reflexivity. Qed.

(** keys *)
Lemma append_cancel a b c d x : has_char x a = false -> has_char x b = false -> String.append a (String x c) = String.append b (String x d) -> a = b /\ c = d.
Proof.
  revert b. induction a as [|p a IH]; intros [|q b] A B; cbn [String.append]; intros E.
  - injection E as E. auto.
  - injection E as -> E. cbn in B. rewrite Ascii.eqb_refl in B. discriminate.
  - injection E as <- E. cbn in A. rewrite Ascii.eqb_refl in A. discriminate.
  - injection E as -> E. cbn in A, B. apply orb_false_iff in A as [_ A]. apply orb_false_iff in B as [_ B]. destruct (IH b A B E) as [-> ->]. auto.
Qed.
Lemma has_append x a b : has_char x (String.append a b) = has_char x a || has_char x b.
Proof. induction a as [|c a IH]; [reflexivity|]. change (has_char x (String c a +:+ b)) with (Ascii.eqb c x || has_char x (a +:+ b)). rewrite IH. apply orb_assoc. Qed.
Lemma join_inj l : forall m, (forall x, x ∈ l -> fine x) -> (forall x, x ∈ m -> fine x) -> join l = join m -> l = m.
Proof.
  assert (One : forall a b m, fine a -> a = String.append b (String.append "," m) -> False).
  { intros a b m (_ & C & _) ->. rewrite !has_append in C. cbn in C. rewrite orb_true_r in C. discriminate. }
  induction l as [|a [|b l] IH]; intros [|c [|d m]] L M E; try reflexivity.
  - cbn in E. destruct (M c (elem_of_list_here _ _)) as [N _]. congruence.
  - exfalso. change (join []) with "" in E. change (join (c :: d :: m)) with (String.append c (String.append "," (join (d :: m)))) in E. destruct c; discriminate.
  - cbn in E. destruct (L a (elem_of_list_here _ _)) as [N _]. congruence.
  - cbn in E. subst. reflexivity.
  - exfalso. apply (One a c (join (d :: m)) (L a (elem_of_list_here _ _)) E).
  - exfalso. change (join []) with "" in E. change (join (a :: b :: l)) with (String.append a (String.append "," (join (b :: l)))) in E. destruct a; discriminate.
  - exfalso. apply (One c a (join (b :: l)) (M c (elem_of_list_here _ _)) (eq_sym E)).
  - change (join (a :: b :: l)) with (String.append a (String "," (join (b :: l)))) in E. change (join (c :: d :: m)) with (String.append c (String "," (join (d :: m)))) in E.
    apply append_cancel in E as [-> E]; [|apply (L a (elem_of_list_here _ _))|apply (M c (elem_of_list_here _ _))]. f_equal. apply IH; [intros x X; apply L; right; exact X|intros x X; apply M; right; exact X|exact E].
Qed.
Lemma key_inj i j : well_formed i -> well_formed j -> i_level i = i_level j -> key i = key j -> i = j.
Proof.
  intros [A B] [C D] Lv E. unfold key in E. change (String.append ":" (join (i_from i))) with (String ":" (join (i_from i))) in E. change (String.append ":" (join (i_from j))) with (String ":" (join (i_from j))) in E.
  apply append_cancel in E as [E F]; [|apply A|apply C]. apply join_inj in F; [|exact B|exact D]. destruct i, j; cbn in *. subst. reflexivity.
Qed.

(** the block *)
Definition imports_of (l : list stmt) : list import := omap (fun c => match c with Do _ _ i => Some i | Raise => None end) l.
Lemma body_local q w l : forall s, let '(s', r) := body true q w l s in alone w l (ns s) = (ns s', r).
Proof.
  induction l as [|c l IH]; intros s; cbn [body alone]; [reflexivity|]. destruct c as [own caught i|]; cbn [stmt_step]; [|reflexivity].
  unfold import_stmt.
  assert (K : forall s1 : state, ns s1 = ns s -> let '(s', r) := match (match (if own then let '(n, r) := python_import w (ns s1) i in (State (cur s1) (modules s1) (sent s1) (printed s1) n, r) else (s1, snd (python_import w ∅ i))) with (s0, Some ImportError) => (s0, if caught then None else Some ImportError) | r => r end) with (s0, None) => body true q w l s0 | r => r end in
             (let '(n, r) := python_import w (ns s) i in let n := if own then n else ns s in match r with Some e => if caught then alone w l n else (n, Some e) | None => alone w l n end) = (ns s', r)).
  { intros s1 E. rewrite E. pose proof (python_only_import_error w (ns s) i) as P. destruct own.
    - destruct (python_import w (ns s) i) as [n r] eqn:Pi. cbn in P. destruct r as [e|]; [rewrite (P e eq_refl)|]; [destruct caught|]; try apply (IH (State _ _ _ _ n)). reflexivity.
    - rewrite (python_err w ∅ (ns s)). destruct (python_import w (ns s) i) as [n r] eqn:Pi. cbn [snd] in *. destruct r as [e|]; [rewrite (P e eq_refl)|]; [destruct caught|]; rewrite <- E; try apply IH. reflexivity. }
  assert (Bad : forall s1 : state, ns s1 = ns s -> loads w i = false -> let '(s', r) := match (match (s1, Some ImportError) with (s0, Some ImportError) => (s0, if caught then None else Some ImportError) | r => r end) with (s0, None) => body true q w l s0 | r => r end in
             (let '(n, r) := python_import w (ns s) i in let n := if own then n else ns s in match r with Some e => if caught then alone w l n else (n, Some e) | None => alone w l n end) = (ns s', r)).
  { intros s1 E L. rewrite (python_not_loads _ _ _ L). destruct caught; destruct own; rewrite <- E; try apply IH; reflexivity. }
  destruct (cur s).
  - destruct (loads w i) eqn:L; [apply K; reflexivity|]. apply (Bad s eq_refl eq_refl).
  - unfold view_import. cbn [negb]. destruct (loads w i) eqn:L; cbn [negb].
    + destruct own; cbn [negb].
      * destruct (_ && _).
        -- specialize (K (set_cur (cur s) (State Original (key i :: modules s) (sent s ++ [i]) (if q then printed s else printed s ++ [i]) (ns s))) eq_refl). exact K.
        -- exact (K (set_cur (cur s) (set_cur Original s)) eq_refl).
      * exact (K (set_cur Original s) eq_refl).
    + destruct own; cbn [negb]; exact (Bad (set_cur Original s) eq_refl eq_refl).
Qed.

Lemma original_sends_nothing loc q w l : forall s, cur s = Original -> let s' := fst (body loc q w l s) in sent s' = sent s /\ printed s' = printed s /\ cur s' = Original.
Proof.
  induction l as [|c l IH]; intros s C; cbn [body]; [auto|]. destruct c as [own caught i|]; cbn [stmt_step]; [|auto]. unfold import_stmt. rewrite C.
  destruct (loads w i).
  2:{ destruct caught; [apply IH, C|auto]. }
  destruct own.
  - destruct (python_import w (ns s) i) as [n [[]|]]; try (destruct caught); try apply (IH (State _ _ _ _ n)); auto.
  - destruct (snd (python_import w ∅ i)) as [[]|]; try (destruct caught); try apply IH; auto.
Qed.
Lemma not_local q w l : forall s, sent (fst (body false q w l s)) = sent s.
Proof.
  induction l as [|c l IH]; intros s; cbn [body]; [reflexivity|]. destruct c as [own caught i|]; cbn [stmt_step]; [|reflexivity]. unfold import_stmt, view_import.
  destruct (cur s) eqn:C.
  - destruct (loads w i).
    2:{ destruct caught; [apply IH|reflexivity]. }
    destruct own.
    + destruct (python_import w (ns s) i) as [n [[]|]]; try (destruct caught); try apply (IH (State _ _ _ _ n)); reflexivity.
    + destruct (snd (python_import w ∅ i)) as [[]|]; try (destruct caught); try apply IH; reflexivity.
  - destruct own; cbn [negb]; [reflexivity|]. destruct (loads w i).
    + destruct (snd (python_import w ∅ i)) as [[]|]; try (destruct caught); try apply (IH (set_cur Original s)); reflexivity.
    + destruct caught; [apply (IH (set_cur Original s))|reflexivity].
Qed.
Lemma first_ones_seen {A} `{EqDecision A} (l : list A) : forall a b, (forall x, x ∈ a <-> x ∈ b) -> first_ones a l = first_ones b l.
Proof. induction l as [|x l IH]; intros a b E; cbn [first_ones]; [reflexivity|]. destruct (decide (x ∈ a)) as [X|X]; destruct (decide (x ∈ b)) as [Y|Y]; try (exfalso; apply E in X || apply E in Y; tauto); [apply IH, E|]. f_equal. apply IH. intros y. rewrite !elem_of_cons, E. reflexivity. Qed.
(** the requests: modules holds the keys of what was sent *)
Lemma body_sent q w l : forall s, (forall i, i ∈ sent s \/ i ∈ imports_of l -> well_formed i) -> (forall i, i ∈ sent s -> i_level i = 0) -> cur s = View -> (forall k, k ∈ modules s <-> exists i, i ∈ sent s /\ k = key i) ->
  sent (fst (body true q w l s)) = sent s ++ first_ones (sent s) (wanted w l).
Proof.
  induction l as [|c l IH]; intros s W Lv C M; cbn [body wanted]; [cbn; rewrite app_nil_r; reflexivity|]. destruct c as [own caught i|]; cbn [stmt_step]; [|cbn; rewrite app_nil_r; reflexivity].
  unfold import_stmt. rewrite C. unfold view_import. rewrite C. cbn [negb].
  destruct own; cbn [negb].
  2:{ cbn [first_ones]. rewrite app_nil_r. set (s1 := set_cur Original s). assert (S1 : sent s1 = sent s) by reflexivity. assert (C1 : cur s1 = Original) by reflexivity. destruct (original_sends_nothing true q w l s1 C1) as [E _]. 
      destruct (loads w i); [destruct (snd (python_import w ∅ i)) as [[]|]|]; try destruct caught; rewrite ?E; exact S1 || reflexivity. }
  destruct (loads w i) eqn:L; cbn [negb].
  2:{ cbn [first_ones]. rewrite app_nil_r. set (s1 := set_cur Original s). assert (S1 : sent s1 = sent s) by reflexivity. assert (C1 : cur s1 = Original) by reflexivity. destruct (original_sends_nothing true q w l s1 C1) as [E _]. destruct caught; [rewrite E|]; exact S1. }
  set (s1 := if _ && _ then _ else _).
  assert (Inv : sent s1 = sent s ++ first_ones (sent s) (if (i_level i =? 0)%nat then [i] else []) /\ (forall k, k ∈ modules s1 <-> exists j, j ∈ sent s1 /\ k = key j)).
  { unfold s1. cbn [sent modules set_cur]. destruct (i_level i) as [|n] eqn:Li; cbn [Nat.leb Nat.eqb andb].
    2:{ cbn [first_ones]. rewrite app_nil_r. split; [reflexivity|exact M]. }
    assert (Known : key i ∈ modules s <-> i ∈ sent s).
    { rewrite M. split; [|eauto]. intros (j & J & E). apply key_inj in E; [subst; exact J| | |].
      - apply W. right. cbn. left.
      - apply W. auto.
      - rewrite Li, (Lv j J). reflexivity. }
    cbn [first_ones]. destruct (bool_decide_reflect (key i ∉ modules s)) as [B|B]; cbn [sent modules].
    - rewrite decide_False by (rewrite <- Known; exact B). split; [reflexivity|]. intros k. rewrite elem_of_cons, M. split.
      + intros [->|(j & J & ->)]; [exists i; split; [apply elem_of_app; right; left|reflexivity]|exists j; split; [apply elem_of_app; auto|reflexivity]].
      + intros (j & J & ->). apply elem_of_app in J as [J|J]; [right; eauto|]. apply elem_of_list_singleton in J as ->. auto.
    - assert (X : i ∈ sent s) by (apply Known; destruct (decide (key i ∈ modules s)); tauto). rewrite decide_True by exact X. rewrite app_nil_r. split; [reflexivity|exact M]. }
  assert (N1 : ns s1 = ns s) by (unfold s1; destruct (_ && _); reflexivity).
  clearbody s1. destruct Inv as [Sn Md]. cbn [set_cur ns cur modules sent printed]. rewrite N1. rewrite (python_err w ∅ (ns s)). pose proof (python_only_import_error w (ns s) i) as Pe. destruct (python_import w (ns s) i) as [n r]. cbn [snd] in *.
  assert (Li0 : forall a, a ∈ sent s1 -> i_level a = 0).
  { intros a. rewrite Sn, elem_of_app. intros [A|A]; [apply Lv, A|]. destruct ((i_level i =? 0)%nat) eqn:Z; [|inversion A]. apply Nat.eqb_eq in Z. cbn [first_ones] in A. destruct (decide (i ∈ sent s)); [inversion A|]. apply elem_of_list_singleton in A as ->. exact Z. }
  assert (Next : sent (fst (body true q w l (State View (modules s1) (sent s1) (printed s1) n))) = sent s ++ first_ones (sent s) ((if (i_level i =? 0)%nat then [i] else []) ++ wanted w l)).
  { rewrite IH; cbn [sent modules cur]; [|intros j [J|J]|exact Li0|reflexivity|exact Md].
    - rewrite Sn. rewrite <- app_assoc. f_equal. destruct ((i_level i =? 0)%nat); cbn [first_ones app]; [|rewrite app_nil_r; reflexivity]. destruct (decide (i ∈ sent s)); cbn [app]; [rewrite app_nil_r; reflexivity|]. f_equal. apply first_ones_seen. intros x. rewrite elem_of_app, elem_of_list_singleton, elem_of_cons. tauto.
    - rewrite Sn in J. apply elem_of_app in J as [J|J]; [apply W; auto|]. apply W. right. destruct ((i_level i =? 0)%nat); [|inversion J]. cbn [first_ones] in J. destruct (decide (i ∈ sent s)); [inversion J|]. apply elem_of_list_singleton in J as ->. cbn. left.
    - apply W. right. cbn. right. exact J. }
  destruct r as [e|].
  - rewrite (Pe e eq_refl). destruct caught; cbn [orb].
    + exact Next.
    + cbn [fst sent]. rewrite app_nil_r. exact Sn.
  - rewrite orb_true_r. exact Next.
Qed.

Lemma first_ones_spec {A} `{EqDecision A} (l : list A) : forall seen, NoDup (first_ones seen l) /\ forall x, x ∈ first_ones seen l <-> x ∈ l /\ x ∉ seen.
Proof.
  induction l as [|a l IH]; intros seen; cbn [first_ones]; [split; [constructor|intros x; split; [intros X; inversion X|intros [X _]; inversion X]]|]. destruct (decide (a ∈ seen)) as [D|D].
  - destruct (IH seen) as [N E]. split; [exact N|]. intros x. rewrite E, elem_of_cons. split; [tauto|]. intros [[->|X] Y]; tauto.
  - destruct (IH (a :: seen)) as [N E]. split; [constructor; [rewrite E, elem_of_cons; tauto|exact N]|]. intros x. rewrite !elem_of_cons, E, elem_of_cons. destruct (decide (x = a)) as [->|]; tauto.
Qed.
Lemma wanted_spec w l i : i ∈ wanted w l <-> exists p c r, l = p ++ Do true c i :: r /\ loads w i = true /\ i_level i = 0 /\ Forall (undisturbing w) p.
Proof.
  induction l as [|c l IH]; [cbn; split; [intros X; inversion X|intros (p & c & r & E & _); destruct p; discriminate]|].
  split.
  - destruct c as [[] caught j|]; cbn [wanted]; try (intros X; inversion X; fail). destruct (loads w j) eqn:L; [|intros X; inversion X]. rewrite elem_of_app. intros [X|X].
    + destruct ((i_level j =? 0)%nat) eqn:Z; [|inversion X]. apply elem_of_list_singleton in X as ->. apply Nat.eqb_eq in Z. exists [], caught, l. repeat split; try assumption. constructor.
    + destruct (_ || _) eqn:O; [|inversion X]. apply IH in X as (p & c & r & -> & A & B & D). exists (Do true caught j :: p), c, r. repeat split; try assumption. constructor; [|exact D]. exists caught, j. repeat split; [exact L|]. apply orb_true_iff in O as [->|O]; [auto|]. right. destruct (snd _); [discriminate|reflexivity].
  - intros (p & c' & r & E & A & B & D). destruct p as [|c0 p]; cbn in E; injection E as -> ->.
    + cbn [wanted]. rewrite A, B. cbn. left.
    + inversion D as [|? ? (caught & j & -> & L & O) Dp]; subst. cbn [wanted]. rewrite L. apply elem_of_app. right. replace (caught || _) with true; [apply IH; exists p, c', r; auto|]. destruct O as [->|O]; [reflexivity|]. rewrite O. rewrite orb_true_r. reflexivity.
Qed.
