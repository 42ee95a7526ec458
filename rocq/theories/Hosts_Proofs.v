(** Lemmas for C82. *)
From Coq Require Import NArith ZArith String Ascii List Bool Lia.
From Coq Require FinFun.
From Verif Require Import Batch_Spec Batch_Model Batch_Proofs Hosts_Spec Hosts_Model.
Import ListNotations.

Lemma eqs_iff a b : eqs a b = true <-> a = b.
Proof. unfold eqs. destruct (list_eq_dec N.eq_dec a b); split; congruence. Qed.
Lemma mem_in x l : mem x l = true <-> In x l.
Proof. unfold mem. rewrite existsb_exists. split; [intros (y & H & E); apply eqs_iff in E; now subst|intros H; exists x; split; [exact H|now apply eqs_iff]]. Qed.
Lemma add_port_twice p a : add_port p (add_port p a) = add_port p a.
Proof.
  destruct p as [p|]; [|reflexivity]. unfold add_port. destruct (mem dash_p a) eqn:E; [now rewrite E|].
  replace (mem dash_p (a ++ [dash_p; p])) with true; [reflexivity|]. symmetry. apply mem_in, in_or_app. right. now left.
Qed.

Definition name (h : text) (j : nat) : text := h ++ lit "/" ++ decimal (N.of_nat j).
Lemma start_host_ok h u host p count : forall args i s r, (s + Z.of_nat count <= r)%Z ->
  start_host h u host p args i count s r =
  (map (fun j => Engine (name h j) (location_of u host) (add_port p args) (Nat.eqb j 0)) (seq i count),
   match count with O => args | _ => add_port p args end, (s + Z.of_nat count)%Z).
Proof.
  induction count as [|count IH]; intros args i s r H.
  - cbn [start_host seq map]. do 2 f_equal. lia.
  - cbn [start_host seq map]. fold (name h i). destruct (r <=? s + 1)%Z eqn:E.
    + apply Z.leb_le in E. assert (count = O) by lia. subst count. cbn [seq map]. do 2 f_equal. 
    + apply Z.leb_gt in E. rewrite IH by lia. rewrite add_port_twice. replace (s + 1 + Z.of_nat count)%Z with (s + Z.of_nat (S count))%Z by lia.
      destruct count; reflexivity.
Qed.

Definition own_args (e : entry) : option (list text) := match e with Config _ (Some a) => Some a | _ => None end.
Definition port_of (h : text) : option text := let '(_, _, p) := parse_host h in p.
Definition place_of (h : text) : text := let '(u, host, _) := parse_host h in location_of u host.
Record group := Group { g_host : text; g_entry : entry; g_count : nat; g_args : list text }.
Fixpoint plan (es : list (text * entry)) (args : list text) (m : Z) : list group :=
  match es with
  | [] => []
  | (h, e) :: r =>
      let k := Z.max 0 (Z.min (slots_of e) m) in
      let a := add_port (port_of h) (match own_args e with Some a => a | None => args end) in
      Group h e (Z.to_nat k) a :: plan r (match own_args e with Some _ => args | None => match Z.to_nat k with O => args | _ => a end end) (m - k)
  end.
Definition engines_of (g : group) : list engine :=
  map (fun j => Engine (name (g_host g) j) (place_of (g_host g)) (g_args g) (Nat.eqb j 0)) (seq 0 (g_count g)).
Lemma start_hosts_ok es : forall args s n,
  start_hosts es args s n = (flat_map engines_of (plan es args (n - s)), (s + Z.of_nat (length (flat_map engines_of (plan es args (n - s)))))%Z).
Proof.
  induction es as [|[h e] es IH]; intros args s n.
  - cbn [start_hosts plan flat_map length]. f_equal. lia.
  - cbn [start_hosts plan]. cbn [flat_map].
    assert (EO : forall c a, engines_of (Group h e c a) = map (fun j => Engine (name h j) (place_of h) a (Nat.eqb j 0)) (seq 0 c)) by reflexivity.
    rewrite !EO. assert (PP : parse_host h = (fst (fst (parse_host h)), snd (fst (parse_host h)), port_of h)).
    { unfold port_of. destruct (parse_host h) as [[u host] p]. reflexivity. }
    assert (PL : place_of h = location_of (fst (fst (parse_host h))) (snd (fst (parse_host h)))).
    { unfold place_of. destruct (parse_host h) as [[u host] p]. reflexivity. }
    rewrite !PL. destruct (parse_host h) as [[u host] p]. cbn [fst snd] in *. injection PP as PP. rewrite <- PP.
    assert (E : Z.to_nat (Z.min (slots_of e) (n - s)) = Z.to_nat (Z.max 0 (Z.min (slots_of e) (n - s)))) by lia. rewrite <- E.
    fold (own_args e).
    destruct (Z.to_nat (Z.min (slots_of e) (n - s))) as [|c] eqn:C.
    + cbn [start_host seq map app]. replace (n - s - Z.max 0 (Z.min (slots_of e) (n - s)))%Z with (n - s)%Z by lia.
      assert (A : match own_args e with Some _ => args | None => match own_args e with Some a => a | None => args end end = args) by (destruct (own_args e); reflexivity).
      assert (A' : match own_args e with Some _ => args | None => args end = args) by (destruct (own_args e); reflexivity).
      rewrite A, A', IH. reflexivity.
    + rewrite start_host_ok by lia. rewrite IH.
      replace (n - (s + Z.of_nat (S c)))%Z with (n - s - Z.max 0 (Z.min (slots_of e) (n - s)))%Z by lia.
      rewrite app_length, map_length, seq_length. f_equal. lia.
Qed.
Lemma plan_counts es : forall args m, map g_count (plan es args m) = filled m (map (fun x => slots_of (snd x)) es).
Proof. induction es as [|[h e] es IH]; intros args m; [reflexivity|]. cbn [plan map filled g_count snd]. now rewrite IH. Qed.
Lemma plan_hosts es : forall args m, map (fun g => (g_host g, g_entry g)) (plan es args m) = es.
Proof. induction es as [|[h e] es IH]; intros args m; [reflexivity|]. cbn [plan map g_host g_entry]. now rewrite IH. Qed.
Lemma filled_total slots : forall m, Z.of_nat (fold_right Nat.add O (filled m slots)) = Z.max 0 (Z.min m (total slots)).
Proof.
  unfold total. induction slots as [|s r IH]; intros m; [cbn [filled fold_right]; lia|].
  cbn [filled fold_right]. rewrite Nat2Z.inj_add, IH. 
  assert (T : (0 <= fold_right (fun s a => Z.max 0 s + a) 0 r)%Z) by (clear; induction r; cbn [fold_right]; lia). lia.
Qed.
Lemma length_flat_map {A B} (f : A -> list B) l : length (flat_map f l) = fold_right Nat.add O (map (fun x => length (f x)) l).
Proof. induction l as [|x l IH]; [reflexivity|]. cbn [flat_map map fold_right]. rewrite app_length. now rewrite IH. Qed.

(* ------------------------------------------------------------ names *)
Lemma no_slash n : ~ In 47%N (decimal n).
Proof. destruct (decimal_numeral n) as (_ & H & _). rewrite Forall_forall in H. intros HI. specialize (H _ HI). discriminate. Qed.
Lemma last_slash (a b c d : text) : ~ In 47%N c -> ~ In 47%N d -> a ++ 47%N :: c = b ++ 47%N :: d -> a = b /\ c = d.
Proof.
  intros Hc Hd. revert b. induction a as [|x a IH]; intros [|y b] E; cbn [app] in E; [injection E as E; auto| | |]; injection E as E1 E2.
  - exfalso. apply Hc. rewrite E2. apply in_or_app. right. now left.
  - exfalso. apply Hd. rewrite <- E2. apply in_or_app. right. now left.
  - destruct (IH b E2) as [-> ->]. subst. auto.
Qed.
Lemma name_inj h j h' j' : name h j = name h' j' -> h = h' /\ j = j'.
Proof.
  unfold name. change (lit "/") with [47%N]. cbn [app]. intros E. apply last_slash in E; try apply no_slash. destruct E as [-> E]. split; [reflexivity|].
  destruct (decimal_numeral (N.of_nat j)) as (_ & _ & H1). destruct (decimal_numeral (N.of_nat j')) as (_ & _ & H2). rewrite E in H1. lia.
Qed.
Lemma nodup_names gs : NoDup (map g_host gs) -> NoDup (map identifier (flat_map engines_of gs)).
Proof.
  induction gs as [|g gs IH]; intros H; [constructor|]. inversion_clear H as [|? ? H1 H2]. cbn [flat_map]. rewrite map_app.
  assert (I : forall g', map identifier (engines_of g') = map (name (g_host g')) (seq 0 (g_count g'))) by (intros g'; unfold engines_of; now rewrite map_map).
  assert (D : forall l, (forall x, In x l -> In x (map identifier (flat_map engines_of gs)) -> False) -> NoDup l -> NoDup (l ++ map identifier (flat_map engines_of gs))).
  { clear - IH H2. intros l. induction l as [|x l IHl]; intros Hd Hn; [exact (IH H2)|]. inversion_clear Hn. cbn [app]. constructor.
    - intros HI. apply in_app_or in HI. destruct HI as [HI|HI]; [auto|]. apply (Hd x); [now left|exact HI].
    - apply IHl; [|assumption]. intros y Hy. apply Hd. now right. }
  apply D.
  - intros x Hx Hy. rewrite I in Hx. apply in_map_iff in Hx. destruct Hx as (j & <- & _). apply in_map_iff in Hy. destruct Hy as (e & E & He).
    apply in_flat_map in He. destruct He as (g' & Hg & He). unfold engines_of in He. apply in_map_iff in He. destruct He as (j' & <- & _). cbn [identifier] in E.
    apply name_inj in E. destruct E as [E _]. apply H1. rewrite <- E. now apply in_map.
  - rewrite I. apply FinFun.Injective_map_NoDup; [|apply seq_NoDup]. intros a b E. now apply name_inj in E.
Qed.

(* ------------------------------------------------------------ addresses *)
Lemma split_none c s : ~ In c s -> split_at c s = None.
Proof.
  induction s as [|d s IH]; intros H; [reflexivity|]. cbn [split_at]. destruct (N.eqb_spec d c) as [->|n]; [exfalso; apply H; now left|].
  rewrite IH; [reflexivity|]. intros HI. apply H. now right.
Qed.
Lemma split_some c a b : ~ In c a -> split_at c (a ++ c :: b) = Some (a, b).
Proof.
  induction a as [|d a IH]; intros H; cbn [app split_at].
  - now rewrite N.eqb_refl.
  - destruct (N.eqb_spec d c) as [->|n]; [exfalso; apply H; now left|]. rewrite IH; [reflexivity|]. intros HI. apply H. now right.
Qed.
Lemma parse_ok full u h p : address full u h p -> parse_host full = (u, h, p).
Proof.
  intros A. unfold parse_host. destruct A as [h A1 A2|h p A1 A2 A3|u h A1 A2|u h p A1 A2].
  - rewrite split_none by exact A1. now rewrite split_none.
  - rewrite split_none; [now rewrite split_some|]. rewrite in_app_iff. cbn [In]. intros [H|[H|H]]; [auto|discriminate|auto].
  - rewrite split_some by exact A1. now rewrite split_none.
  - rewrite split_some by exact A1. now rewrite split_some.
Qed.

(* ------------------------------------------------------------ ports *)
Definition shares (g : group) : bool := match own_args (g_entry g) with None => negb (Nat.eqb (g_count g) 0) | Some _ => false end.
Fixpoint first_some (l : list (option text)) : option text := match l with [] => None | Some x :: _ => Some x | None :: l => first_some l end.
Lemma fold_port ps : forall a, fold_left (fun a p => add_port p a) ps a =
  if mem dash_p a then a else match first_some ps with Some p => a ++ [dash_p; p] | None => a end.
Proof.
  induction ps as [|[p|] ps IH]; intros a; cbn [fold_left first_some].
  - now destruct (mem dash_p a).
  - rewrite IH. unfold add_port. destruct (mem dash_p a) eqn:E; [now rewrite E|].
    replace (mem dash_p (a ++ [dash_p; p])) with true; [reflexivity|]. symmetry. apply mem_in, in_or_app. right. now left.
  - apply IH.
Qed.
Lemma plan_args es : forall args m before g after, plan es args m = before ++ g :: after ->
  g_args g = match own_args (g_entry g) with
             | Some a => add_port (port_of (g_host g)) a
             | None => fold_left (fun a p => add_port p a) (map (fun g => port_of (g_host g)) (filter shares before ++ [g])) args
             end.
Proof.
  induction es as [|[h e] es IH]; intros args m before g after E.
  - destruct before; discriminate.
  - cbn [plan] in E. destruct before as [|g0 before]; cbn [app] in E.
    + injection E as <- _. cbn [g_entry g_host g_args filter app map fold_left]. destruct (own_args e); reflexivity.
    + injection E as <- E. apply IH in E. rewrite E. destruct (own_args (g_entry g)); [reflexivity|].
      cbn [filter]. unfold shares at 2. cbn [g_entry g_count].
      destruct (own_args e); [reflexivity|]. destruct (Z.to_nat _); cbn [Nat.eqb negb]; reflexivity.
Qed.
