(** Lemmas for C81. *)
From Coq Require Import NArith ZArith String Ascii List Bool Lia ZifyN.
From Verif Require Import Batch_Spec Batch_Model Batch_Proofs Remote_Spec Remote_Model.
Import ListNotations.
Open Scope N_scope.
Ltac Zify.zify_post_hook ::= Z.div_mod_to_equations.

(* ------------------------------------------------------------ strings *)
Lemma unhex_hexdigit n : n < 16 -> unhex (hexdigit n) = Some n.
Proof.
  intros H. unfold hexdigit, unhex. destruct (n <? 10) eqn:E.
  - apply N.ltb_lt in E. replace ((48 <=? 48 + n) && (48 + n <=? 57)) with true; [f_equal; lia|].
    symmetry. apply andb_true_iff. split; apply N.leb_le; lia.
  - apply N.ltb_ge in E. replace ((48 <=? 87 + n) && (87 + n <=? 57)) with false.
    + replace ((97 <=? 87 + n) && (87 + n <=? 102)) with true; [f_equal; lia|]. symmetry. apply andb_true_iff. split; apply N.leb_le; lia.
    + symmetry. apply andb_false_iff. right. apply N.leb_gt. lia.
Qed.
Lemma unhex4_hex4 n : n < 65536 -> unhex4 (hexdigit (n / 4096)) (hexdigit (n / 256 mod 16)) (hexdigit (n / 16 mod 16)) (hexdigit (n mod 16)) = Some n.
Proof. intros H. unfold unhex4. rewrite !unhex_hexdigit by lia. f_equal. lia. Qed.

Lemma scan_u a b c d s :
  scanstring (92 :: 117 :: a :: b :: c :: d :: s) =
  match unhex4 a b c d with
  | None => None
  | Some u =>
      if (55296 <=? u) && (u <=? 56319) then
        match s with
        | x :: y :: a2 :: b2 :: c2 :: d2 :: s'' =>
            if (x =? 92) && (y =? 117) then
              match unhex4 a2 b2 c2 d2 with
              | None => None
              | Some u2 =>
                  if (56320 <=? u2) && (u2 <=? 57343) then prepend (65536 + (u - 55296) * 1024 + (u2 - 56320)) (scanstring s'')
                  else prepend u (scanstring s)
              end
            else prepend u (scanstring s)
        | _ => prepend u (scanstring s)
        end
      else prepend u (scanstring s)
  end.
Proof. reflexivity. Qed.
Lemma scan_plain c s : 32 <= c -> c <> 34 -> c <> 92 -> scanstring (c :: s) = prepend c (scanstring s).
Proof.
  intros H1 H2 H3. transitivity (if c =? 34 then Some ([], s) else if c =? 92 then scanstring (c :: s) else if c <? 32 then None else prepend c (scanstring s)).
  - destruct (c =? 34) eqn:A; [apply N.eqb_eq in A; congruence|]. destruct (c =? 92) eqn:B; [reflexivity|]. cbn [scanstring]. rewrite A, B. reflexivity.
  - apply N.eqb_neq in H2, H3. rewrite H2, H3. apply N.ltb_ge in H1. now rewrite H1.
Qed.
Lemma scan_escape c s : char_ok c -> scanstring (escape c ++ s) = prepend c (scanstring s).
Proof.
  intros [Hc Hs]. unfold escape.
  destruct (c =? 34) eqn:E1; [apply N.eqb_eq in E1; now subst|].
  destruct (c =? 92) eqn:E2; [apply N.eqb_eq in E2; now subst|].
  destruct (c =? 10) eqn:E3; [apply N.eqb_eq in E3; now subst|].
  destruct (c =? 13) eqn:E4; [apply N.eqb_eq in E4; now subst|].
  destruct (c =? 9) eqn:E5; [apply N.eqb_eq in E5; now subst|].
  destruct (c =? 12) eqn:E6; [apply N.eqb_eq in E6; now subst|].
  destruct (c =? 8) eqn:E7; [apply N.eqb_eq in E7; now subst|].
  destruct ((32 <=? c) && (c <=? 126)) eqn:E8.
  - apply andb_true_iff in E8. destruct E8 as [E8 _]. apply N.leb_le in E8. apply N.eqb_neq in E1, E2. now apply scan_plain.
  - destruct (c <? 65536) eqn:E9.
    + apply N.ltb_lt in E9. unfold hex4. cbn [app]. rewrite scan_u, unhex4_hex4 by exact E9.
      replace ((55296 <=? c) && (c <=? 56319)) with false; [reflexivity|]. symmetry. apply andb_false_iff.
      destruct (N.leb_spec 55296 c); [right; apply N.leb_gt; lia|now left].
    + apply N.ltb_ge in E9. cbv zeta. unfold hex4. cbn [app]. rewrite scan_u, unhex4_hex4 by lia.
      replace ((55296 <=? 55296 + (c - 65536) / 1024) && (55296 + (c - 65536) / 1024 <=? 56319)) with true
        by (symmetry; apply andb_true_iff; split; apply N.leb_le; lia).
      change ((92 =? 92) && (117 =? 117)) with true. cbv iota. rewrite unhex4_hex4 by lia.
      replace ((56320 <=? 56320 + (c - 65536) mod 1024) && (56320 + (c - 65536) mod 1024 <=? 57343)) with true
        by (symmetry; apply andb_true_iff; split; apply N.leb_le; lia).
      cbv iota. f_equal. lia.
Qed.
Lemma scan_string s : forall r, text_ok s -> scanstring (flat_map escape s ++ 34 :: r) = Some (s, r).
Proof.
  induction s as [|c s IH]; intros r H; [reflexivity|]. inversion_clear H as [|? ? Hc Hs].
  cbn [flat_map]. rewrite <- app_assoc, scan_escape by exact Hc. rewrite IH by exact Hs. reflexivity.
Qed.
Lemma hexdigit_ascii n : n < 16 -> hexdigit n < 128.
Proof. intros H. unfold hexdigit. destruct (n <? 10); lia. Qed.
Definition ascii_text (s : list N) : Prop := Forall (fun c => c < 128) s.
Lemma hex4_ascii n : n < 65536 -> ascii_text (hex4 n).
Proof. intros H. unfold hex4, ascii_text. repeat constructor; apply hexdigit_ascii; lia. Qed.
Lemma ascii_app a b : ascii_text a -> ascii_text b -> ascii_text (a ++ b).
Proof. intros. apply Forall_app. auto. Qed.
Lemma escape_ascii c : char_ok c -> ascii_text (escape c).
Proof.
  intros [Hc _]. unfold escape.
  repeat (match goal with |- ascii_text (if ?b then _ else _) => destruct b eqn:?E end;
          [try (unfold ascii_text; repeat constructor; fail)|]).
  - apply andb_true_iff in E6. destruct E6 as [_ E6]. apply N.leb_le in E6. constructor; [lia|constructor].
  - apply N.ltb_lt in E7. constructor; [lia|]. constructor; [lia|]. apply hex4_ascii. exact E7.
  - apply N.ltb_ge in E7. apply ascii_app; (constructor; [lia|]); (constructor; [lia|]); apply hex4_ascii; lia.
Qed.
Lemma flat_escape_ascii s : text_ok s -> ascii_text (flat_map escape s).
Proof.
  induction 1; [constructor|]. cbn [flat_map]. apply ascii_app; auto using escape_ascii.
Qed.
Lemma dumps_str_ascii s : text_ok s -> ascii_text (dumps_str s).
Proof. intros H. unfold dumps_str. constructor; [lia|]. apply ascii_app; [now apply flat_escape_ascii|]. repeat constructor. Qed.

(* ------------------------------------------------------------ json *)
Lemma json_induction (P : json -> Prop) :
  P JNull -> (forall b, P (JBool b)) -> (forall n, P (JNum n)) -> (forall s, P (JStr s)) ->
  (forall l, Forall P l -> P (JArr l)) -> (forall d, Forall (fun kv => P (snd kv)) d -> P (JObj d)) -> forall v, P v.
Proof.
  intros H1 H2 H3 H4 H5 H6. fix IH 1. intros [|b|n|s|l|d].
  - exact H1.
  - apply H2.
  - apply H3.
  - apply H4.
  - apply H5. induction l as [|x l IHl]; [constructor|]. constructor; [apply IH|exact IHl].
  - apply H6. induction d as [|[k x] d IHd]; [constructor|]. constructor; [apply IH|exact IHd].
Qed.
Fixpoint need (v : json) : nat :=
  match v with
  | JArr l => S (fold_right (fun x a => S (Nat.max (need x) a)) O l)
  | JObj d => S (fold_right (fun kv a => S (Nat.max (need (snd kv)) a)) O d)
  | _ => 1%nat
  end.
Definition stops (r : list N) : Prop := match r with c :: _ => digit c = false | [] => True end.
Definition reads (v : json) : Prop := data_ok v -> forall f r, (need v <= f)%nat -> stops r -> value f (dumps v ++ r) = Some (v, r).
Definition ws (c : N) : bool := (c =? 32) || (c =? 9) || (c =? 10) || (c =? 13).
Lemma skip_head c r : ws c = false -> skip (c :: r) = c :: r.
Proof. intros H. unfold ws in H. cbn [skip]. now rewrite H. Qed.
Lemma digit_cases c : digit c = true -> In c [48; 49; 50; 51; 52; 53; 54; 55; 56; 57].
Proof.
  unfold digit. intros H. apply andb_true_iff in H. destruct H as [H1 H2]. apply N.leb_le in H1, H2. cbn [In].
  assert (E : c = 48 \/ c = 49 \/ c = 50 \/ c = 51 \/ c = 52 \/ c = 53 \/ c = 54 \/ c = 55 \/ c = 56 \/ c = 57) by lia.
  repeat destruct E as [E|E]; subst; tauto.
Qed.
Lemma decimal_cons n : exists c r, decimal n = c :: r /\ digit c = true.
Proof.
  destruct (decimal_numeral n) as (H1 & H2 & _). destruct (decimal n) as [|c r]; [congruence|]. inversion_clear H2. eauto.
Qed.
Lemma dumps_head v : exists c r, dumps v = c :: r /\ ws c = false /\ c <> 93 /\ c <> 125.
Proof.
  destruct v as [|[]|n|s|l|d]; try (eexists _, _; split; [reflexivity|]; repeat split; discriminate).
  destruct (decimal_cons n) as (c & r & E & H). exists c, r. split; [exact E|].
  apply digit_cases in H. cbn [In] in H. repeat destruct H as [<-|H]; try (repeat split; discriminate). destruct H.
Qed.
Lemma skip_dumps v r : skip (dumps v ++ r) = dumps v ++ r.
Proof. destruct (dumps_head v) as (c & s & -> & H & _). cbn [app]. now apply skip_head. Qed.
Lemma digits_app ds r : Forall (fun c => digit c = true) ds -> stops r -> digits (ds ++ r) = (ds, r).
Proof.
  intros H Hr. induction H as [|c ds Hc H IH].
  - destruct r as [|c r]; [reflexivity|]. cbn [app digits]. cbn [stops] in Hr. now rewrite Hr.
  - cbn [app digits]. rewrite Hc, IH. reflexivity.
Qed.
Lemma value_num n f r : (1 <= f)%nat -> stops r -> value f (decimal n ++ r) = Some (JNum n, r).
Proof.
  intros Hf Hr. destruct f as [|f]; [lia|]. destruct (decimal_numeral n) as (H1 & H2 & H3).
  assert (E : forall c s, digit c = true -> value (S f) (c :: s) = let (a, b) := digits (c :: s) in Some (JNum (number a), b)).
  { intros c s H. apply digit_cases in H. cbn [In] in H. repeat destruct H as [<-|H]; try reflexivity. destruct H. }
  destruct (decimal_cons n) as (c & s & Ec & Hc). rewrite Ec. cbn [app]. rewrite E by exact Hc.
  change (c :: s ++ r) with ((c :: s) ++ r). rewrite <- Ec, digits_app by auto. now rewrite H3.
Qed.
Lemma value_str s f r : (1 <= f)%nat -> text_ok s -> value f (dumps_str s ++ r) = Some (JStr s, r).
Proof.
  intros Hf Hs. destruct f as [|f]; [lia|]. unfold dumps_str. cbn [app]. rewrite <- app_assoc. cbn [app].
  change (match scanstring (flat_map escape s ++ 34 :: r) with Some (t, r) => Some (JStr t, r) | None => None end = Some (JStr s, r)).
  now rewrite scan_string.
Qed.

Lemma elements_eq f s : elements (S f) s =
  match value f s with
  | Some (v, r) =>
      match skip r with
      | 44 :: r => match elements f (skip r) with Some (l, r) => Some (v :: l, r) | None => None end
      | 93 :: r => Some ([v], r)
      | _ => None
      end
  | None => None
  end.
Proof. reflexivity. Qed.
Lemma elements_ok l : l <> [] -> Forall reads l -> Forall data_ok l -> forall f r,
  (fold_right (fun x a => S (Nat.max (need x) a)) O l <= f)%nat -> elements f (join (lit ", ") (map dumps l) ++ 93 :: r) = Some (l, r).
Proof.
  intros Hn HP HD. revert Hn. induction l as [|x l IH]; intros Hn f r Hf; [congruence|].
  inversion_clear HP as [|? ? Px Pl]. inversion_clear HD as [|? ? Dx Dl]. cbn [fold_right] in Hf. destruct f as [|f]; [lia|].
  rewrite elements_eq. destruct l as [|y l].
  - cbn [map join]. rewrite (Px Dx f (93 :: r)); [reflexivity|lia|reflexivity].
  - change (join (lit ", ") (map dumps (x :: y :: l))) with (dumps x ++ 44 :: 32 :: join (lit ", ") (map dumps (y :: l))).
    rewrite <- app_assoc. cbn [app]. rewrite (Px Dx f); [|lia|reflexivity].
    assert (E : skip (44 :: 32 :: join (lit ", ") (map dumps (y :: l)) ++ 93 :: r) = 44 :: 32 :: join (lit ", ") (map dumps (y :: l)) ++ 93 :: r) by reflexivity.
    rewrite E. cbv iota.
    assert (E2 : skip (32 :: join (lit ", ") (map dumps (y :: l)) ++ 93 :: r) = join (lit ", ") (map dumps (y :: l)) ++ 93 :: r).
    { transitivity (skip (join (lit ", ") (map dumps (y :: l)) ++ 93 :: r)); [reflexivity|].
      assert (J : exists t, join (lit ", ") (map dumps (y :: l)) = dumps y ++ t).
      { destruct l as [|z l]; [exists []; symmetry; apply app_nil_r|eexists; reflexivity]. }
      destruct J as [t ->]. rewrite <- app_assoc. apply skip_dumps. }
    rewrite E2. rewrite (IH Pl Dl); [reflexivity|discriminate|lia].
Qed.

Lemma put_new {A} k (v : A) d : ~ In k (map fst d) -> put k v d = d ++ [(k, v)].
Proof.
  induction d as [|[k' v'] d IH]; intros H; [reflexivity|]. cbn [put]. unfold eqs.
  destruct (list_eq_dec N.eq_dec k k') as [->|n]; [exfalso; apply H; now left|]. rewrite IH; [reflexivity|]. intros HI. apply H. now right.
Qed.
Definition pair_text (kv : list N * json) : list N := dumps_str (fst kv) ++ lit ": " ++ dumps (snd kv).
Lemma members_eq f acc r : members (S f) acc (34 :: r) =
  match scanstring r with
  | Some (k, r) =>
      match skip r with
      | 58 :: r =>
          match value f (skip r) with
          | Some (v, r) =>
              match skip r with
              | 44 :: r => members f (put k v acc) (skip r)
              | 125 :: r => Some (put k v acc, r)
              | _ => None
              end
          | None => None
          end
      | _ => None
      end
  | None => None
  end.
Proof. reflexivity. Qed.
Lemma members_ok d : d <> [] -> Forall (fun kv => reads (snd kv)) d -> Forall (fun kv => text_ok (fst kv) /\ data_ok (snd kv)) d ->
  forall f acc r, NoDup (map fst (acc ++ d)) ->
  (fold_right (fun kv a => S (Nat.max (need (snd kv)) a)) O d <= f)%nat ->
  members f acc (join (lit ", ") (map pair_text d) ++ 125 :: r) = Some (acc ++ d, r).
Proof.
  intros Hn HP HD. revert Hn. induction d as [|[k x] d IH]; intros Hn f acc r Nd Hf; [congruence|].
  inversion_clear HP as [|? ? Px Pl]. inversion_clear HD as [|? ? [Tk Dx] Dl]. cbn [fold_right fst snd] in *. destruct f as [|f]; [lia|].
  assert (Nk : ~ In k (map fst acc)).
  { rewrite map_app in Nd. cbn [map fst] in Nd. apply NoDup_remove_2 in Nd. intros H. apply Nd. apply in_or_app. now left. }
  assert (A : forall t, members (S f) acc (pair_text (k, x) ++ t) =
    match value f (dumps x ++ t) with
    | Some (v, r) => match skip r with 44 :: r => members f (put k v acc) (skip r) | 125 :: r => Some (put k v acc, r) | _ => None end
    | None => None end).
  { intros t. unfold pair_text, dumps_str. cbn [fst snd app]. rewrite <- !app_assoc. cbn [app]. rewrite members_eq, scan_string by exact Tk.
    change (lit ": " ++ dumps x ++ t) with (58 :: 32 :: (dumps x ++ t)).
    rewrite (skip_head 58) by reflexivity. cbv iota.
    change (skip (32 :: (dumps x ++ t))) with (skip (dumps x ++ t)). now rewrite skip_dumps. }
  destruct d as [|y d].
  - cbn [map join]. rewrite A, (Px Dx f (125 :: r)); [|lia|reflexivity].
    rewrite (skip_head 125) by reflexivity. cbv iota. now rewrite put_new.
  - change (join (lit ", ") (map pair_text ((k, x) :: y :: d))) with (pair_text (k, x) ++ 44 :: 32 :: join (lit ", ") (map pair_text (y :: d))).
    rewrite <- app_assoc. cbn [app]. rewrite A, (Px Dx f); [|lia|reflexivity]. rewrite (skip_head 44) by reflexivity. cbv iota.
    assert (E2 : skip (32 :: join (lit ", ") (map pair_text (y :: d)) ++ 125 :: r) = join (lit ", ") (map pair_text (y :: d)) ++ 125 :: r).
    { transitivity (skip (join (lit ", ") (map pair_text (y :: d)) ++ 125 :: r)); [reflexivity|].
      assert (J : exists t, join (lit ", ") (map pair_text (y :: d)) = 34 :: t) by (destruct d; eexists; reflexivity).
      destruct J as [t ->]. apply skip_head. reflexivity. }
    rewrite E2, put_new by exact Nk.
    rewrite (IH Pl Dl); [|discriminate| |lia]; now rewrite <- app_assoc.
Qed.

Lemma reads_all v : reads v.
Proof.
  induction v as [|b|n|s|l IH|d IH] using json_induction; intros HD f r Hf Hr; inversion_clear HD.
  - destruct f; [cbn [need] in Hf; lia|reflexivity].
  - destruct f; [cbn [need] in Hf; lia|]. destruct b; reflexivity.
  - apply value_num; auto.
  - apply value_str; auto.
  - cbn [need] in Hf. destruct f as [|f]; [lia|]. cbn [dumps app]. rewrite <- app_assoc. cbn [app].
    destruct l as [|x l]; [reflexivity|].
    assert (J : exists c t, join (lit ", ") (map dumps (x :: l)) ++ 93 :: r = c :: t /\ ws c = false /\ c <> 93).
    { destruct (dumps_head x) as (c & t & E & H1 & H2 & _). destruct l as [|y l]; cbn [map join]; rewrite E; eexists _, _; (split; [reflexivity|auto]). }
    destruct J as (c & t & E & H1 & H2).
    pose proof (elements_ok (x :: l) ltac:(discriminate) IH H f r ltac:(lia)) as EO. rewrite E in *.
    change (match skip (c :: t) with
            | d :: r' => if d =? 93 then Some (JArr [], r') else match elements f (d :: r') with Some (l, r) => Some (JArr l, r) | None => None end
            | [] => None end = Some (JArr (x :: l), r)).
    rewrite skip_head by exact H1. apply N.eqb_neq in H2. now rewrite H2, EO.
  - cbn [need] in Hf. destruct f as [|f]; [lia|]. cbn [dumps app]. rewrite <- app_assoc. cbn [app].
    destruct d as [|kv d]; [reflexivity|].
    change (map (fun kv => dumps_str (fst kv) ++ lit ": " ++ dumps (snd kv)) (kv :: d)) with (map pair_text (kv :: d)).
    assert (J : exists t, join (lit ", ") (map pair_text (kv :: d)) ++ 125 :: r = 34 :: t) by (destruct d; eexists; reflexivity).
    destruct J as (t & E).
    pose proof (members_ok (kv :: d) ltac:(discriminate) IH H f [] r H0 ltac:(lia)) as EO. rewrite E in *.
    change (match members f [] (34 :: t) with Some (o, r) => Some (JObj o, r) | None => None end = Some (JObj (kv :: d), r)).
    now rewrite EO.
Qed.
Lemma join_length x y ls : (length x + 2 + length (join (lit ", ") (y :: ls)) = length (join (lit ", ") (x :: y :: ls)))%nat.
Proof. change (join (lit ", ") (x :: y :: ls)) with (x ++ lit ", " ++ join (lit ", ") (y :: ls)). rewrite !app_length. change (length (lit ", ")) with 2%nat. lia. Qed.
Lemma need_length v : (need v <= length (dumps v))%nat.
Proof.
  induction v as [|b|n|s|l IH|d IH] using json_induction.
  - cbn; lia.
  - destruct b; cbn; lia.
  - destruct (decimal_cons n) as (c & r & E & _). cbn [need dumps]. rewrite E. cbn [length]. lia.
  - cbn [need dumps dumps_str length]. lia.
  - cbn [need dumps length]. rewrite app_length. cbn [length].
    enough (H : l <> [] -> (fold_right (fun x a => S (Nat.max (need x) a)) O l <= S (length (join (lit ", ") (map dumps l))))%nat).
    { destruct l as [|x l]; [cbn; lia|]. specialize (H ltac:(discriminate)). lia. }
    induction IH as [|x l Hx Hl IHl]; intros Hn; [congruence|]. destruct l as [|y l].
    + cbn [fold_right map join]. lia.
    + specialize (IHl ltac:(discriminate)). cbn [map] in *. rewrite <- join_length. cbn [fold_right] in *. lia.
  - cbn [need dumps length]. rewrite app_length. cbn [length]. fold pair_text.
    enough (H : d <> [] -> (fold_right (fun kv a => S (Nat.max (need (snd kv)) a)) O d <= S (length (join (lit ", ") (map pair_text d))))%nat).
    { change (fun kv : list N * json => dumps_str (fst kv) ++ lit ": " ++ dumps (snd kv)) with pair_text.
      destruct d as [|x l]; [cbn; lia|]. specialize (H ltac:(discriminate)). lia. }
    assert (PL : forall kv, (length (dumps (snd kv)) <= length (pair_text kv))%nat).
    { intros kv. unfold pair_text. rewrite !app_length. lia. }
    induction IH as [|x l Hx Hl IHl]; intros Hn; [congruence|]. pose proof (PL x). destruct l as [|y l].
    + cbn [fold_right map join]. lia.
    + specialize (IHl ltac:(discriminate)). cbn [map] in *. rewrite <- join_length. cbn [fold_right] in *. lia.
Qed.
Lemma loads_dumps v : data_ok v -> loads (dumps v) = Some v.
Proof.
  intros H. unfold loads. pose proof (reads_all v H (S (length (dumps v))) [] ltac:(pose proof (need_length v); lia) I) as E.
  rewrite app_nil_r in E. pose proof (skip_dumps v []) as K. rewrite app_nil_r in K. rewrite K, E. reflexivity.
Qed.
Lemma join_ascii ls : Forall ascii_text ls -> ascii_text (join (lit ", ") ls).
Proof.
  induction 1 as [|x l Hx Hl IH]; [constructor|]. destruct l as [|y l]; [exact Hx|].
  change (join (lit ", ") (x :: y :: l)) with (x ++ lit ", " ++ join (lit ", ") (y :: l)). apply ascii_app; auto. apply ascii_app; auto. repeat constructor.
Qed.
Lemma dumps_ascii v : data_ok v -> ascii_text (dumps v).
Proof.
  induction v as [|b|n|s|l IH|d IH] using json_induction; intros HD; inversion_clear HD.
  - repeat constructor.
  - destruct b; repeat constructor.
  - cbn [dumps]. destruct (decimal_numeral n) as (_ & H & _). eapply Forall_impl; [|exact H]. intros c Hc. apply digit_cases in Hc. cbn [In] in Hc.
    repeat destruct Hc as [<-|Hc]; try reflexivity. destruct Hc.
  - now apply dumps_str_ascii.
  - cbn [dumps]. constructor; [lia|]. apply ascii_app; [|repeat constructor]. apply join_ascii. rewrite Forall_map, Forall_forall.
    rewrite Forall_forall in IH, H. auto.
  - cbn [dumps]. constructor; [lia|]. apply ascii_app; [|repeat constructor]. apply join_ascii. rewrite Forall_map, Forall_forall.
    rewrite Forall_forall in IH, H. intros kv Hk. destruct (H kv Hk). apply ascii_app; [now apply dumps_str_ascii|].
    apply ascii_app; [repeat constructor|auto].
Qed.
Lemma utf8_ascii s : ascii_text s -> utf8 s = Some s.
Proof.
  intros H. unfold utf8. replace (forallb (fun c => c <? 128) s) with true; [reflexivity|]. symmetry. apply forallb_forall.
  unfold ascii_text in H. rewrite Forall_forall in H. intros c Hc. apply N.ltb_lt. auto.
Qed.

(* ------------------------------------------------------------ base64 *)
Definition all64 : list N := map N.of_nat (seq 0 64).
Lemma in_all64 i : i < 64 -> In i all64.
Proof. intros H. unfold all64. apply in_map_iff. exists (N.to_nat i). split; [apply N2Nat.id|]. apply in_seq. lia. Qed.
Lemma code_position i : i < 64 -> position (code i) alphabet = Some i.
Proof.
  intros H. assert (T : forallb (fun i => match position (code i) alphabet with Some j => N.eqb i j | None => false end) all64 = true) by (vm_compute; reflexivity).
  rewrite forallb_forall in T. specialize (T i (in_all64 i H)). destruct (position (code i) alphabet) as [j|]; [|discriminate].
  apply N.eqb_eq in T. now subst.
Qed.
Lemma code_eq i : i < 64 -> code i =? 61 = false.
Proof.
  intros H. assert (T : forallb (fun i => negb (code i =? 61)) all64 = true) by (vm_compute; reflexivity).
  rewrite forallb_forall in T. specialize (T i (in_all64 i H)). now apply negb_true_iff in T.
Qed.
Lemma code_harmless i : i < 64 -> harmless (code i).
Proof.
  intros H. assert (T : forallb (fun i => letter (code i) || digit (code i) || is (code i) "+/=") all64 = true) by (vm_compute; reflexivity).
  rewrite forallb_forall in T. specialize (T i (in_all64 i H)). unfold harmless. rewrite !orb_true_iff, is_in in T. tauto.
Qed.
Lemma list_ind3 {A} (P : list A -> Prop) : P [] -> (forall a, P [a]) -> (forall a b, P [a; b]) -> (forall a b c l, P l -> P (a :: b :: c :: l)) -> forall l, P l.
Proof.
  intros H0 H1 H2 H3. fix IH 1. intros [|a [|b [|c l]]]; [exact H0|apply H1|apply H2|apply H3, IH].
Qed.
Lemma b64_roundtrip s : Forall (fun c => c < 256) s -> b64decode (b64encode s) = Some s.
Proof.
  induction s as [|a|a b|a b c s IH] using list_ind3; intros H.
  - reflexivity.
  - inversion_clear H. cbn [b64encode b64decode]. rewrite !code_position by lia. change ((61 =? 61) && (61 =? 61)) with true. cbv iota. do 2 f_equal. lia.
  - inversion_clear H as [|? ? Ha Hr]. inversion_clear Hr as [|? ? Hb _]. cbn [b64encode b64decode]. rewrite !code_position by lia. rewrite code_eq by lia.
    change (61 =? 61) with true. cbv iota. cbn [andb]. do 2 f_equal; [lia|]. f_equal. lia.
  - inversion_clear H as [|? ? Ha Hr]. inversion_clear Hr as [|? ? Hb Hr']. inversion_clear Hr' as [|? ? Hc Hs].
    cbn [b64encode b64decode]. rewrite !code_position by lia. rewrite !code_eq by lia. cbn [andb]. rewrite IH by exact Hs. f_equal. f_equal; [lia|]. f_equal; [lia|]. f_equal. lia.
Qed.
Lemma b64_harmless s : Forall (fun c => c < 256) s -> Forall harmless (b64encode s).
Proof.
  assert (E : harmless 61) by (right; right; cbn; tauto).
  induction s as [|a|a b|a b c s IH] using list_ind3; intros H; cbn [b64encode].
  - constructor.
  - inversion_clear H. repeat (apply Forall_cons; [first [exact E|apply code_harmless; lia]|]); constructor.
  - inversion_clear H as [|? ? Ha Hr]. inversion_clear Hr as [|? ? Hb _]. repeat (apply Forall_cons; [first [exact E|apply code_harmless; lia]|]); constructor.
  - inversion_clear H as [|? ? Ha Hr]. inversion_clear Hr as [|? ? Hb Hr']. inversion_clear Hr' as [|? ? Hc Hs].
    repeat (constructor; [apply code_harmless; lia|]). auto.
Qed.
Lemma ascii_bytes s : ascii_text s -> Forall (fun c => c < 256) s.
Proof. intros H. eapply Forall_impl; [|exact H]. intros c Hc. cbn beta in *. lia. Qed.
Lemma encode_some v : data_ok v -> encode v = Some (b64encode (dumps v)).
Proof. intros H. unfold encode. now rewrite (utf8_ascii _ (dumps_ascii v H)). Qed.
Lemma decode_encode v : data_ok v -> decode (b64encode (dumps v)) = Some v.
Proof.
  intros H. unfold decode. rewrite b64_roundtrip by (apply ascii_bytes, dumps_ascii, H). rewrite utf8_ascii by (apply dumps_ascii, H). now apply loads_dumps.
Qed.

(* ------------------------------------------------------------ reading the pid *)
Lemma span_nl f a t : f nl = false -> span f (a ++ nl :: t) = let (x, y) := span f a in (x, y ++ nl :: t).
Proof.
  intros Hf. induction a as [|c a IH]; cbn [app span]; [now rewrite Hf|].
  destruct (f c); [|reflexivity]. rewrite IH. now destruct (span f a).
Qed.
Lemma span_length f s : (length (snd (span f s)) <= length s)%nat.
Proof. induction s as [|c s IH]; cbn [span]; [cbn; lia|]. destruct (f c); [|cbn; lia]. destruct (span f s). cbn [snd length] in *. lia. Qed.
Lemma span_app f s : s = fst (span f s) ++ snd (span f s).
Proof. induction s as [|c s IH]; cbn [span]; [reflexivity|]. destruct (f c); [|reflexivity]. destruct (span f s). cbn [fst snd app] in *. congruence. Qed.

Lemma tail_match_nl c a t : tail_match c (a ++ nl :: t) = match tail_match c a with Some (k, v, r) => Some (k, v, r ++ nl :: t) | None => None end.
Proof.
  unfold tail_match. rewrite span_nl by reflexivity. destruct (span key_char a) as [[|k0 k] r]; [reflexivity|].
  destruct r as [|e r]; [reflexivity|]. cbn [app]. destruct (e =? 61); [|reflexivity].
  rewrite span_nl by reflexivity. destruct (span value_char r) as [[|v0 v] r']; [reflexivity|].
  destruct r' as [|x [|y r']]; cbn [app].
  - destruct t; reflexivity.
  - change (nl =? 95) with false. rewrite andb_false_r. reflexivity.
  - destruct ((x =? 95) && (y =? 95)); reflexivity.
Qed.
Lemma match_here_nl a t : match_here (a ++ nl :: t) = match match_here a with Some (k, v, r) => Some (k, v, r ++ nl :: t) | None => None end.
Proof.
  destruct a as [|x [|y [|c r]]]; cbn [app]; unfold match_here.
  - destruct t as [|? [|? ?]]; reflexivity.
  - destruct t as [|? ?]; [reflexivity|]. change (nl =? 95) with false. rewrite andb_false_r. reflexivity.
  - change (alpha nl) with false. now rewrite andb_false_r.
  - destruct ((x =? 95) && (y =? 95) && alpha c); [apply tail_match_nl|reflexivity].
Qed.
Lemma tail_match_spec c s k v r : tail_match c s = Some (k, v, r) -> exists k', k = c :: k' /\ s = k' ++ 61 :: v ++ 95 :: 95 :: r.
Proof.
  unfold tail_match. pose proof (span_app key_char s) as A. destruct (span key_char s) as [[|k0 k1] [|e r1]]; try discriminate.
  destruct (e =? 61) eqn:E; [|discriminate]. apply N.eqb_eq in E. subst e.
  pose proof (span_app value_char r1) as B. destruct (span value_char r1) as [[|v0 v1] [|x [|y r2]]]; try discriminate.
  destruct ((x =? 95) && (y =? 95)) eqn:E; [|discriminate]. apply andb_true_iff in E. destruct E as [E1 E2]. apply N.eqb_eq in E1, E2. subst x y.
  intros H. injection H as <- <- <-. exists (k0 :: k1). split; [reflexivity|]. cbn [fst snd] in *. rewrite A, B. reflexivity.
Qed.
Lemma match_here_spec s k v r : match_here s = Some (k, v, r) -> s = 95 :: 95 :: k ++ 61 :: v ++ 95 :: 95 :: r.
Proof.
  unfold match_here. destruct s as [|x [|y [|c t]]]; try discriminate.
  destruct ((x =? 95) && (y =? 95) && alpha c) eqn:E; [|discriminate]. rewrite !andb_true_iff in E. destruct E as [[E1 E2] _].
  apply N.eqb_eq in E1, E2. subst x y. intros H. apply tail_match_spec in H. destruct H as (k' & -> & ->). reflexivity.
Qed.
Lemma match_here_length s k v r : match_here s = Some (k, v, r) -> (length r < length s)%nat.
Proof. intros H. apply match_here_spec in H. rewrite H. cbn [length]. rewrite !app_length. cbn [length]. rewrite app_length. cbn [length]. lia. Qed.

Lemma findall_fuel f : forall g s, (length s < f)%nat -> (length s < g)%nat -> findall f s = findall g s.
Proof.
  induction f as [|f IH]; intros g s Hf Hg; [lia|]. destruct g as [|g]; [lia|]. cbn [findall].
  destruct (match_here s) as [[[k v] r]|] eqn:E.
  - apply match_here_length in E. f_equal. apply IH; lia.
  - destruct s as [|c s]; [reflexivity|]. cbn [length] in *. apply IH; lia.
Qed.
Definition found (s : list N) := findall (S (length s)) s.
Lemma found_eq s : found s = match match_here s with Some (k, v, r) => (k, v) :: found r | None => match s with [] => [] | _ :: s => found s end end.
Proof.
  unfold found at 1.
  change (findall (S (length s)) s) with (match match_here s with Some (k, v, r) => (k, v) :: findall (length s) r | None => match s with [] => [] | _ :: s' => findall (length s) s' end end).
  destruct (match_here s) as [[[k v] r]|] eqn:E.
  - apply match_here_length in E. f_equal. apply findall_fuel; lia.
  - destruct s as [|c s]; reflexivity.
Qed.
Lemma found_nl n : forall a t, (length a <= n)%nat -> found (a ++ nl :: t) = found a ++ found t.
Proof.
  induction n as [|n IH]; intros a t Hn.
  - destruct a; [|cbn in Hn; lia]. cbn [app]. rewrite (found_eq (nl :: t)). pose proof (match_here_nl [] t) as E. cbn [app] in E. rewrite E. reflexivity.
  - rewrite found_eq, (found_eq a), match_here_nl. destruct (match_here a) as [[[k v] r]|] eqn:E.
    + apply match_here_length in E. cbn [app]. f_equal. apply IH. lia.
    + destruct a as [|c a]; [reflexivity|]. cbn [app]. apply IH. cbn [length] in Hn. lia.
Qed.
Lemma found_within n : forall s k v, (length s <= n)%nat -> In (k, v) (found s) -> within (k ++ [61]) s.
Proof.
  induction n as [|n IH]; intros s k v Hn H.
  - destruct s; [|cbn in Hn; lia]. destruct H.
  - rewrite found_eq in H. destruct (match_here s) as [[[k' v'] r]|] eqn:E.
    + pose proof (match_here_length _ _ _ _ E) as L. apply match_here_spec in E. destruct H as [H|H].
      * injection H as -> ->. exists [95; 95], (v ++ 95 :: 95 :: r). rewrite E, <- app_assoc. reflexivity.
      * apply IH in H; [|lia]. destruct H as (a & b & ->). rewrite E. exists (95 :: 95 :: k' ++ 61 :: v' ++ 95 :: 95 :: a), b.
        cbn [app]. rewrite <- !app_assoc. cbn [app]. rewrite <- !app_assoc. reflexivity.
    + destruct s as [|c s]; [destruct H|]. apply IH in H; [|cbn [length] in Hn; lia]. destruct H as (a & b & ->). exists (c :: a), b. reflexivity.
Qed.
Lemma span_all f ds r : Forall (fun c => f c = true) ds -> match r with c :: _ => f c = false | [] => True end -> span f (ds ++ r) = (ds, r).
Proof.
  intros H Hr. induction H as [|c ds Hc H IH].
  - destruct r as [|c r]; [reflexivity|]. cbn [app span]. now rewrite Hr.
  - cbn [app span]. rewrite Hc, IH. reflexivity.
Qed.
Lemma found_pid p t : found (lit "__remote_pid=" ++ decimal p ++ lit "__" ++ nl :: t) = (lit "remote_pid", decimal p) :: found t.
Proof.
  rewrite found_eq.
  assert (E : match_here (lit "__remote_pid=" ++ decimal p ++ lit "__" ++ nl :: t) = Some (lit "remote_pid", decimal p, nl :: t)).
  { change (match_here (lit "__remote_pid=" ++ decimal p ++ lit "__" ++ nl :: t)) with (tail_match 114 (lit "emote_pid" ++ 61 :: decimal p ++ 95 :: 95 :: nl :: t)).
    unfold tail_match. rewrite span_all; [|repeat constructor|reflexivity].
    change (lit "emote_pid") with (101 :: lit "mote_pid") at 1. cbv iota. change (61 =? 61) with true. cbv iota.
    rewrite span_all.
    - destruct (decimal_cons p) as (c & r & Ep & _). rewrite Ep. reflexivity.
    - destruct (decimal_numeral p) as (_ & H & _). eapply Forall_impl; [|exact H]. intros c Hc. cbn beta. unfold value_char. rewrite Hc. now rewrite orb_true_r.
    - reflexivity. }
  rewrite E. f_equal. exact (found_nl 0 [] t (le_n 0)).
Qed.
Lemma eqs_true a b : eqs a b = true <-> a = b.
Proof. unfold eqs. destruct (list_eq_dec N.eq_dec a b); split; congruence. Qed.
Lemma last_of_other k (l : list (list N * list N)) r : (forall v, ~ In (k, v) l) -> fold_left (fun r kv => if eqs k (fst kv) then Some (snd kv) else r) l r = r.
Proof.
  revert r. induction l as [|[k' v'] l IH]; intros r H; [reflexivity|]. cbn [fold_left fst snd].
  destruct (eqs k k') eqn:E; [apply eqs_true in E; subst k'; exfalso; apply (H v'); now left|]. apply IH. intros v Hv. apply (H v). now right.
Qed.
Lemma get_pid_ok p a t : whole_lines a -> ~ within (lit "remote_pid=") t ->
  get_pid (a ++ (lit "__remote_pid=" ++ decimal p ++ lit "__" ++ [nl]) ++ t) = Ok p.
Proof.
  intros Ha Ht. unfold get_pid. fold (found (a ++ (lit "__remote_pid=" ++ decimal p ++ lit "__" ++ [nl]) ++ t)).
  rewrite <- !app_assoc. cbn [app].
  assert (F : exists l, found (a ++ lit "__remote_pid=" ++ decimal p ++ lit "__" ++ nl :: t) = l ++ (lit "remote_pid", decimal p) :: found t).
  { destruct Ha as [->|(r & ->)].
    - exists []. apply found_pid.
    - exists (found r). rewrite <- app_assoc. cbn [app]. rewrite (found_nl (length r)) by lia. f_equal. apply found_pid. }
  destruct F as [l F].
  assert (L : last_of (lit "remote_pid") (l ++ (lit "remote_pid", decimal p) :: found t) = Some (decimal p)).
  { unfold last_of. rewrite fold_left_app. cbn [fold_left fst snd]. replace (eqs (lit "remote_pid") (lit "remote_pid")) with true by (vm_compute; reflexivity).
    apply last_of_other. intros v Hv. apply (found_within (length t)) in Hv; [|lia]. apply Ht. exact Hv. }
  cbn [app] in F. cbn [app]. rewrite F, L. unfold as_int. destruct (decimal_numeral p) as (H1 & H2 & H3).
  replace (forallb digit (decimal p)) with true by (symmetry; apply forallb_forall; rewrite Forall_forall in H2; exact H2).
  destruct (decimal p) as [|c r] eqn:E; [congruence|]. cbn [nonempty andb]. now rewrite H3.
Qed.

(* ------------------------------------------------------------ contains *)
Lemma starts_with_spec p s : starts_with p s = true <-> exists b, s = p ++ b.
Proof.
  revert s. induction p as [|c p IH]; intros s; [split; [intros _; now exists s|reflexivity]|].
  destruct s as [|d s]; cbn [starts_with].
  - split; [discriminate|]. intros (b & H). discriminate.
  - rewrite andb_true_iff, IH, N.eqb_eq. split.
    + intros [-> (b & ->)]. now exists b.
    + intros (b & H). injection H as -> ->. eauto.
Qed.
Lemma contains_spec p s : contains p s = true <-> within p s.
Proof.
  induction s as [|c s IH]; cbn [contains]; rewrite orb_true_iff, starts_with_spec.
  - split.
    + intros [(b & H)|H]; [|discriminate]. exists [], b. exact H.
    + intros (a & b & H). destruct a; [|discriminate]. left. now exists b.
  - rewrite IH. split.
    + intros [(b & H)|(a & b & ->)]; [now exists [], b|]. now exists (c :: a), b.
    + intros (a & b & H). destruct a as [|d a]; [left; now exists b|]. injection H as -> ->. right. now exists a, b.
Qed.
Lemma within_split p a b : ~ In nl p -> within p (a ++ nl :: b) -> within p a \/ within p b.
Proof.
  intros Hp (x & y & E). revert a E. induction x as [|c x IH]; intros a E.
  - cbn [app] in E. left. exists []. cbn [app]. revert a E. induction p as [|d p IHp]; intros a E; [now exists a|].
    destruct a as [|c a]; cbn [app] in E; injection E as E1 E2.
    + exfalso. apply Hp. left. congruence.
    + subst c. destruct (IHp (fun H => Hp (or_intror H)) a E2) as [z Hz]. exists z. cbn [app]. now rewrite Hz at 1.
  - destruct a as [|d a]; cbn [app] in E; injection E as E1 E2.
    + right. exists x, y. exact E2.
    + destruct (IH a E2) as [(u & w & ->)|H]; [left; now exists (d :: u), w|now right].
Qed.

(* ------------------------------------------------------------ the environment *)
Lemma update_env_ok cs : forall e, NoDup (map fst cs) -> exists e', update_env e (map (fun kv => (fst kv, jopt (snd kv))) cs) = Some e' /\ changed e cs e'.
Proof.
  induction cs as [|[k v] cs IH]; intros e Nd.
  - exists e. split; [reflexivity|]. intros k. split; [intros v []|split; [intros v []|reflexivity]].
  - cbn [map fst] in Nd. inversion_clear Nd as [|? ? Hk Hd].
    set (v' := match v with Some (_ :: _) => v | _ => None end).
    destruct (IH (set_env e k v') Hd) as (e' & E & C). exists e'. split.
    { cbn [map fst snd update_env]. destruct v as [[|c v]|]; exact E. }
    intros q. destruct (C q) as (C1 & C2 & C3).
    assert (Nq : q = k -> forall w, ~ In (q, w) cs) by (intros -> w Hw; apply Hk; apply in_map_iff; exists (k, w); auto).
    split; [|split].
    + intros w [H|H] Hw; [|eauto]. injection H as -> ->. rewrite (C3 (Nq eq_refl)). unfold set_env.
      rewrite (proj2 (eqs_true q q) eq_refl). unfold v'. now destruct w.
    + intros w [H|H] Hw; [|eauto]. injection H as -> ->. rewrite (C3 (Nq eq_refl)). unfold set_env.
      rewrite (proj2 (eqs_true q q) eq_refl). unfold v'. destruct Hw as [->| ->]; reflexivity.
    + intros H. rewrite C3 by (intros w Hw; apply (H w); now right). unfold set_env. destruct (eqs k q) eqn:Ek; [|reflexivity].
      apply eqs_true in Ek. subst q. exfalso. apply (H v). now left.
Qed.
Lemma texts_ok l : texts (map JStr l) = Some l.
Proof. induction l as [|x l IH]; [reflexivity|]. cbn [map texts]. now rewrite IH. Qed.

(* ------------------------------------------------------------ sending *)
Lemma cmd_send_ok w method kw : data_ok (JObj kw) ->
  cmd_send w method kw =
  match receive (next_pid w) (machine_of w) method
     (b64encode (dumps (JObj [(lit "receive_parameters", JObj (if debugging w then [(lit "debugging", JBool true); (lit "log", JStr (lit "~/ipp_shellcmd.log"))] else [])); (lit "command_parameters", JObj kw)]))) with
  | Ok (m, out) => Ok (m, before w ++ out ++ after w) | Failed => Failed end /\
  decode (b64encode (dumps (JObj [(lit "receive_parameters", JObj (if debugging w then [(lit "debugging", JBool true); (lit "log", JStr (lit "~/ipp_shellcmd.log"))] else [])); (lit "command_parameters", JObj kw)]))) =
    Some (JObj [(lit "receive_parameters", JObj (if debugging w then [(lit "debugging", JBool true); (lit "log", JStr (lit "~/ipp_shellcmd.log"))] else [])); (lit "command_parameters", JObj kw)]).
Proof.
  intros H.
  assert (T : forall s, forallb (fun c => c <? 128) (lit s) = true -> text_ok (lit s)).
  { intros s Hs. unfold text_ok. rewrite Forall_forall. rewrite forallb_forall in Hs. intros c Hc. specialize (Hs c Hc). apply N.ltb_lt in Hs. split; lia. }
  assert (Nd2 : forall a b : list N, eqs a b = false -> NoDup [a; b]).
  { intros a b Hab. repeat constructor; cbn [In]; try tauto. intros [->|[]]. rewrite (proj2 (eqs_true a a) eq_refl) in Hab. discriminate. }
  assert (D : data_ok (JObj [(lit "receive_parameters", JObj (if debugging w then [(lit "debugging", JBool true); (lit "log", JStr (lit "~/ipp_shellcmd.log"))] else [])); (lit "command_parameters", JObj kw)])).
  { constructor; [|apply Nd2; vm_compute; reflexivity].
    constructor; [split; [apply T; vm_compute; reflexivity|]|constructor; [split; [apply T; vm_compute; reflexivity|exact H]|constructor]].
    cbn [snd]. destruct (debugging w); (constructor; [|try apply Nd2; try constructor; vm_compute; reflexivity]); [|constructor].
    constructor; [split; [apply T; vm_compute; reflexivity|constructor]|].
    constructor; [split; [apply T; vm_compute; reflexivity|constructor; apply T; vm_compute; reflexivity]|constructor]. }
  split; [|now apply decode_encode]. unfold cmd_send. cbv zeta. rewrite encode_some by exact D. reflexivity.
Qed.
