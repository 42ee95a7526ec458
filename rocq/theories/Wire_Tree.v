From stdpp Require Import base list strings.
From Verif Require Import Wire_Spec Wire_Model Wire_Proofs.
From Coq Require Import Lia.
Local Open Scope nat_scope.

(** * Bits *)
Lemma format_length i w : length (format_bits i w) = w.
Proof. unfold format_bits. rewrite map_length, seq_length. reflexivity. Qed.
Lemma format_snoc i w b : format_bits (2 * i + Nat.b2n b) (S w) = format_bits i w ++ [b].
Proof.
  unfold format_bits. rewrite seq_S, map_app. f_equal.
  - apply map_ext_in. intros j J. apply in_seq in J. replace (S w - 1 - j) with (S (w - 1 - j)) by lia. apply Nat.testbit_succ_r.
  - cbn [map]. replace (S w - 1 - (0 + w)) with 0 by lia. rewrite Nat.testbit_0_r. reflexivity.
Qed.
Lemma testbit_small i d : i < 2 ^ d -> Nat.testbit i d = false.
Proof. intros H. rewrite Nat.testbit_eqb. rewrite Nat.div_small by exact H. reflexivity. Qed.
Lemma format_cons i w : i < 2 ^ w -> format_bits i (w + 1) = false :: format_bits i w.
Proof.
  intros H. unfold format_bits. rewrite Nat.add_comm. change (1 + w) with (S w). change (seq 0 (S w)) with (0 :: seq 1 w). cbn [map]. f_equal.
  - replace (S w - 1 - 0) with w by lia. apply testbit_small, H.
  - rewrite <- seq_shift, map_map. apply map_ext_in. intros j J. f_equal. lia.
Qed.
Lemma int2_snoc l b : int2 (l ++ [b]) = 2 * int2 l + Nat.b2n b.
Proof. unfold int2. rewrite foldl_app. reflexivity. Qed.
Lemma int2_false l : int2 (false :: l) = int2 l.
Proof. reflexivity. Qed.
Lemma int2_lt l : int2 l < 2 ^ length l.
Proof.
  induction l as [|b l IH] using rev_ind; [cbn; lia|]. rewrite int2_snoc, app_length. cbn [length]. replace (length l + 1) with (S (length l)) by lia. rewrite Nat.pow_succ_r'. destruct b; cbn [Nat.b2n]; lia.
Qed.
Lemma format_int2 l : format_bits (int2 l) (length l) = l.
Proof.
  induction l as [|b l IH] using rev_ind; [reflexivity|]. rewrite int2_snoc, app_length. cbn [length]. replace (length l + 1) with (S (length l)) by lia. rewrite format_snoc, IH. reflexivity.
Qed.
Lemma int2_format w : forall i, i < 2 ^ w -> int2 (format_bits i w) = i.
Proof.
  induction w as [|w IH]; intros i H; [cbn in H; cbn; lia|]. rewrite Nat.pow_succ_r' in H. pose proof (Nat.div2_odd i) as E. rewrite E at 1. rewrite format_snoc, int2_snoc.
  rewrite IH; [symmetry; exact E|]. rewrite Nat.div2_div. apply Nat.div_lt_upper_bound; lia.
Qed.

Lemma NoDup_map_on {A B} (f : A -> B) (l : list A) : (forall a b, a ∈ l -> b ∈ l -> f a = f b -> a = b) -> NoDup l -> NoDup (map f l).
Proof.
  induction l as [|a l IH]; intros H N; [constructor|]. apply NoDup_cons in N as [X N]. cbn [map]. apply NoDup_cons. split.
  - intros Y. apply elem_of_list_In, in_map_iff in Y as (b & E & I). apply elem_of_list_In in I. apply X. rewrite (H a b); [exact I|left|right; exact I|symmetry; exact E].
  - apply IH; [|exact N]. intros x y A1 B1. apply H; right; assumption.
Qed.
(** * The inner places *)
Lemma ids_S D : broadcast_ids (S D) = broadcast_ids D ++ map (fun i => format_bits i (S D + 1)) (seq 0 (2 ^ S D)).
Proof. unfold broadcast_ids. rewrite seq_S, map_app, concat_app. cbn [map concat]. rewrite app_nil_r. reflexivity. Qed.
Lemma ids_length D : length (broadcast_ids D) = 2 ^ (D + 1) - 2.
Proof.
  induction D as [|D IH]; [reflexivity|]. rewrite ids_S, app_length, IH, map_length, seq_length. replace (S D + 1) with (S (S D)) by lia. replace (D + 1) with (S D) by lia. rewrite (Nat.pow_succ_r' 2 (S D)).
  assert (2 <= 2 ^ S D) by (rewrite Nat.pow_succ_r'; pose proof (Nat.pow_nonzero 2 D); lia). lia.
Qed.
Lemma ids_spec D x : x ∈ broadcast_ids D <-> exists p, x = false :: p /\ 1 <= length p <= D.
Proof.
  induction D as [|D IH].
  - split; [intros H; inversion H|intros (p & _ & L); lia].
  - rewrite ids_S, elem_of_app, IH, elem_of_list_In, in_map_iff. split.
    + intros [(p & E & L)|(i & E & I)]; [exists p; split; [exact E|lia]|]. apply in_seq in I. exists (format_bits i (S D)). rewrite format_length. split; [|lia]. rewrite <- E. apply format_cons. lia.
    + intros (p & E & L). destruct (decide (length p = S D)) as [Lp|Lp]; [right|left; exists p; split; [exact E|lia]]. exists (int2 p). pose proof (int2_lt p) as B. rewrite Lp in B. split; [|apply in_seq; lia].
      rewrite format_cons by exact B. rewrite <- Lp, format_int2. congruence.
Qed.
Lemma ids_NoDup D : NoDup (broadcast_ids D).
Proof.
  induction D as [|D IH]; [constructor|]. rewrite ids_S. apply NoDup_app. split; [exact IH|]. split.
  - intros x X Y. apply ids_spec in X as (p & -> & L). apply elem_of_list_In, in_map_iff in Y as (i & E & _). apply (f_equal length) in E. rewrite format_length in E. cbn in E. lia.
  - apply NoDup_map_on; [|apply NoDup_ListNoDup, seq_NoDup]. intros a b A B E. apply elem_of_list_In, in_seq in A. apply elem_of_list_In, in_seq in B. rewrite !format_cons in E by lia. apply (f_equal int2) in E. rewrite !int2_false, !int2_format in E by lia. exact E.
Qed.

(** * The tree *)
Lemma map_key_inj {A B} (f : A -> B) (l : list A) a b : NoDup (map f l) -> a ∈ l -> b ∈ l -> f a = f b -> a = b.
Proof.
  induction l as [|c l IH]; intros N X Y E; [inversion X|]. cbn [map] in N. apply NoDup_cons in N as [Z N]. apply elem_of_cons in X as [->|X]; apply elem_of_cons in Y as [->|Y]; [reflexivity| | |auto].
  - exfalso. apply Z. rewrite E. apply elem_of_list_In, in_map, elem_of_list_In, Y.
  - exfalso. apply Z. rewrite <- E. apply elem_of_list_In, in_map, elem_of_list_In, X.
Qed.
Lemma filter_one {A} (P : A -> Prop) (dec : forall x, Decision (P x)) (l : list A) x : NoDup l -> x ∈ l -> (forall y, y ∈ l -> P y <-> y = x) -> base.filter P l = [x].
Proof.
  induction l as [|a l IH]; intros N X K; [inversion X|]. apply NoDup_cons in N as [Z N]. destruct (decide (P a)) as [Pa|Pa].
  - assert (a = x) as -> by (apply K; [left|exact Pa]). rewrite filter_cons_True by exact Pa. f_equal. clear IH X. assert (forall y, y ∈ l -> ~ P y) as K' by (intros y Y PY; apply (K y (elem_of_list_further _ _ _ Y)) in PY as ->; exact (Z Y)).
    clear K N Z. induction l as [|b l IH]; [reflexivity|]. rewrite filter_cons_False by (apply K'; left). apply IH. intros y Y. apply K'. right. exact Y.
  - rewrite filter_cons_False by exact Pa. apply IH; [exact N| |].
    + apply elem_of_cons in X as [->|X]; [exfalso; apply Pa, K; [left|reflexivity]|exact X].
    + intros y Y. apply K. right. exact Y.
Qed.
Lemma nth_lookup_Some' {A} (l : list A) n d : n < length l -> l !! n = Some (nth n l d).
Proof. revert n. induction l as [|a l IH]; intros [|n] L; cbn in L; try lia; [reflexivity|]. cbn. apply IH. lia. Qed.
(** all places from one on, k levels *)
Fixpoint below (k : nat) (p : list bool) : list (list bool) := match k with 0 => [p] | S k => p :: below k (p ++ [false]) ++ below k (p ++ [true]) end.
Lemma below_spec k : forall p x, x ∈ below k p <-> exists q, x = p ++ q /\ length q <= k.
Proof.
  induction k as [|k IH]; intros p x; cbn [below].
  - rewrite elem_of_list_singleton. split; [intros ->; exists []; rewrite app_nil_r; auto|]. intros (q & -> & L). destruct q; [apply app_nil_r|cbn in L; lia].
  - rewrite elem_of_cons, elem_of_app, !IH. split.
    + intros [->|[(q & -> & L)|(q & -> & L)]]; [exists []; rewrite app_nil_r; split; [reflexivity|cbn; lia]| |].
      * exists (false :: q). rewrite <- app_assoc. split; [reflexivity|cbn; lia].
      * exists (true :: q). rewrite <- app_assoc. split; [reflexivity|cbn; lia].
    + intros (q & -> & L). destruct q as [|[] q]; [left; apply app_nil_r| |]; cbn in L; right; [right|left]; exists q; rewrite <- app_assoc; split; try reflexivity; lia.
Qed.
Lemma below_NoDup k : forall p, NoDup (below k p).
Proof.
  induction k as [|k IH]; intros p; cbn [below]; [apply NoDup_singleton|]. apply NoDup_cons. split.
  - rewrite elem_of_app, !below_spec. intros [(q & E & _)|(q & E & _)]; apply (f_equal length) in E; rewrite !app_length in E; cbn in E; lia.
  - apply NoDup_app. split; [apply IH|]. split; [|apply IH]. intros x X Y. apply below_spec in X as (q & E & _), Y as (r & F & _). subst x. rewrite <- !app_assoc in F. apply app_inv_head in F. cbn in F. discriminate F.
Qed.
Lemma below_length k : forall p, length (below k p) = 2 ^ (k + 1) - 1.
Proof.
  induction k as [|k IH]; intros p; [reflexivity|]. cbn [below length]. rewrite app_length, !IH. replace (S k + 1) with (S (k + 1)) by lia. rewrite (Nat.pow_succ_r' 2 (k + 1)). pose proof (Nat.pow_nonzero 2 (k + 1)). lia.
Qed.
Section Tree.
Context (D : nat) (transport engine_ip client_ip internal_ip monitor_ip : string) (i : info).
Hypothesis Hb : length (ei_bcast (eng i)) = 2 ^ D.
Hypothesis Hi : map fst (internal i) = broadcast_ids D.
Local Notation internal_url := (internal_url transport internal_ip i).
Local Notation make := (make D transport engine_ip client_ip internal_ip i).
Local Notation launch := (launch D transport engine_ip client_ip internal_ip i).
Local Notation iurl := (Url (interface transport internal_ip) (the_sep transport)).

Definition iport (p : list bool) : nat := match find (fun x => bool_decide (fst x = p)) (internal i) with Some (_, port) => port | None => 0 end.
Definition bport (n : nat) : nat := match ei_bcast (eng i) !! n with Some port => port | None => 0 end.
Lemma iurl_ok p : 1 <= length p <= D -> internal_url (false :: p) = Some (iurl (iport (false :: p))) /\ (false :: p, iport (false :: p)) ∈ internal i.
Proof.
  intros L. unfold Wire_Model.internal_url, iport. destruct (find _ _) as [[q port]|] eqn:F.
  - apply find_some in F as [I E]. apply bool_decide_eq_true in E. cbn in E. subst. split; [reflexivity|]. apply elem_of_list_In, I.
  - exfalso. assert (X : false :: p ∈ broadcast_ids D) by (apply ids_spec; eauto). rewrite <- Hi in X. apply elem_of_list_In, in_map_iff in X as (y & E & Y). pose proof (find_none _ _ F y Y) as Z. cbv beta in Z. apply bool_decide_eq_false in Z. exact (Z E).
Qed.
Lemma bport_ok n : n < 2 ^ D -> ei_bcast (eng i) !! n = Some (bport n).
Proof. intros H. unfold bport. destruct (lookup_lt_is_Some_2 (ei_bcast (eng i)) n) as [x X]; [lia|]. rewrite X. reflexivity. Qed.

(** the scheduler at a place *)
Definition sched (p : list bool) : scheduler :=
  Sched (false :: p) (length p) (length p =? D)
    (if length p =? 0 then client_url transport client_ip (ci_bcast (cli i)) else iurl (iport (false :: p)))
    (if length p =? D then [engine_url transport engine_ip (bport (int2 p))] else [iurl (iport (false :: p ++ [false])); iurl (iport (false :: p ++ [true]))]).
Lemma make_ok p : length p <= D -> make (false :: p) (length p) = Some (sched p).
Proof.
  intros L. unfold Wire_Model.make, sched. destruct (length p =? 0) eqn:Z.
  - destruct (length p =? D) eqn:ZD.
    + unfold engine_bcast_url. rewrite int2_false. apply Nat.eqb_eq in ZD. pose proof (int2_lt p) as B. rewrite ZD in B. rewrite bport_ok by exact B. reflexivity.
    + apply Nat.eqb_eq in Z. apply Nat.eqb_neq in ZD. cbn [app]. destruct (iurl_ok (p ++ [false])) as [-> _]; [rewrite app_length; cbn; lia|]. destruct (iurl_ok (p ++ [true])) as [-> _]; [rewrite app_length; cbn; lia|]. reflexivity.
  - apply Nat.eqb_neq in Z. destruct (iurl_ok p) as [-> _]; [lia|]. destruct (length p =? D) eqn:ZD.
    + unfold engine_bcast_url. rewrite int2_false. apply Nat.eqb_eq in ZD. pose proof (int2_lt p) as B. rewrite ZD in B. rewrite bport_ok by exact B. reflexivity.
    + apply Nat.eqb_neq in ZD. cbn [app]. destruct (iurl_ok (p ++ [false])) as [-> _]; [rewrite app_length; cbn; lia|]. destruct (iurl_ok (p ++ [true])) as [-> _]; [rewrite app_length; cbn; lia|]. reflexivity.
Qed.
Lemma launch_ok k : forall p, length p + k = D -> launch k (false :: p) (length p) = Some (map sched (below k p)).
Proof.
  induction k as [|k IH]; intros p L; cbn [Wire_Model.launch below map]; rewrite make_ok by lia; [reflexivity|]. cbn [app].
  replace (length p + 1) with (length (p ++ [false])) at 1 by (rewrite app_length; reflexivity). rewrite IH by (rewrite app_length; cbn; lia).
  replace (length p + 1) with (length (p ++ [true])) by (rewrite app_length; reflexivity). rewrite IH by (rewrite app_length; cbn; lia). rewrite map_app. reflexivity.
Qed.
(** ** Ports bound *)
Local Notation port := (fun b : device * side * url => u_port (snd b)).
Lemma launch_ports k : forall p, length p + k = D ->
  map port (concat (map sched_binds (map sched (below k p)))) ++ (if length p =? 0 then [] else [iport (false :: p)]) ≡ₚ (if length p =? 0 then [ci_bcast (cli i)] else [iport (false :: p)]) ++ map iport (map (cons false) (tail (below k p))) ++ map bport (seq (int2 p * 2 ^ k) (2 ^ k)).
Proof.
  induction k as [|k IH]; intros p L.
  - cbn [below map concat tail Nat.pow seq]. rewrite app_nil_r. unfold sched_binds, sched. cbn [depth leaf inward outward place]. replace (length p =? D) with true by (symmetry; apply Nat.eqb_eq; lia). rewrite Nat.mul_1_r. destruct (length p =? 0); cbn; [reflexivity|]. solve_Permutation.
  - cbn [below map concat]. rewrite !map_app, concat_app, !map_app.
    assert (La : length (p ++ [false]) + k = D) by (rewrite app_length; cbn; lia). assert (Lb : length (p ++ [true]) + k = D) by (rewrite app_length; cbn; lia).
    pose proof (IH _ La) as A. pose proof (IH _ Lb) as B.
    replace (length (p ++ [false]) =? 0) with false in A by (symmetry; apply Nat.eqb_neq; rewrite app_length; cbn; lia).
    replace (length (p ++ [true]) =? 0) with false in B by (symmetry; apply Nat.eqb_neq; rewrite app_length; cbn; lia).
    rewrite !int2_snoc in A, B. cbn [Nat.b2n] in A, B.
    replace (seq (int2 p * 2 ^ S k) (2 ^ S k)) with (seq ((2 * int2 p + 0) * 2 ^ k) (2 ^ k) ++ seq ((2 * int2 p + 1) * 2 ^ k) (2 ^ k)).
    2:{ rewrite Nat.pow_succ_r'. replace (2 * 2 ^ k) with (2 ^ k + 2 ^ k) by lia. rewrite seq_app. f_equal; f_equal; lia. }
    rewrite map_app. revert A B.
    generalize (map port (concat (map sched_binds (map sched (below k (p ++ [false])))))) as xa. generalize (map port (concat (map sched_binds (map sched (below k (p ++ [true])))))) as xb. intros xb xa A B.
    assert (Ta : map iport (map (cons false) (below k (p ++ [false]))) = iport (false :: p ++ [false]) :: map iport (map (cons false) (tail (below k (p ++ [false]))))) by (destruct k; reflexivity).
    assert (Tb : map iport (map (cons false) (below k (p ++ [true]))) = iport (false :: p ++ [true]) :: map iport (map (cons false) (tail (below k (p ++ [true]))))) by (destruct k; reflexivity).
    cbn [tail]. rewrite map_app, map_app, Ta, Tb. clear Ta Tb.
    assert (A' : xa ≡ₚ map iport (map (cons false) (tail (below k (p ++ [false])))) ++ map bport (seq ((2 * int2 p + 0) * 2 ^ k) (2 ^ k))).
    { eapply (Permutation_app_inv_r [iport (false :: p ++ [false])]). rewrite A. solve_Permutation. }
    assert (B' : xb ≡ₚ map iport (map (cons false) (tail (below k (p ++ [true])))) ++ map bport (seq ((2 * int2 p + 1) * 2 ^ k) (2 ^ k))).
    { eapply (Permutation_app_inv_r [iport (false :: p ++ [true])]). rewrite B. solve_Permutation. }
    rewrite A', B'. unfold sched_binds, sched. cbn [depth leaf inward outward place]. replace (length p =? D) with false by (symmetry; apply Nat.eqb_neq; lia).
    destruct (length p =? 0); cbn [app map zip_with snd u_port client_url engine_url]; solve_Permutation.
Qed.
Lemma bports_ok : map bport (seq 0 (2 ^ D)) = ei_bcast (eng i).
Proof.
  apply list_eq. intros n. destruct (decide (n < 2 ^ D)) as [L|L].
  - rewrite bport_ok by exact L. change (map bport (seq 0 (2 ^ D))) with (bport <$> seq 0 (2 ^ D)). rewrite list_lookup_fmap.
    assert (E : seq 0 (2 ^ D) !! n = Some n) by (rewrite (nth_lookup_Some' _ _ 0); [rewrite seq_nth by exact L; reflexivity|rewrite seq_length; exact L]). rewrite E. reflexivity.
  - rewrite !lookup_ge_None_2; [reflexivity|lia|rewrite map_length, seq_length; lia].
Qed.
Lemma iport_in x port : (x, port) ∈ internal i -> iport x = port.
Proof.
  intros X. unfold iport. destruct (find _ _) as [[q r]|] eqn:F.
  - apply find_some in F as [I E]. apply bool_decide_eq_true in E. cbn in E. subst. apply elem_of_list_In in I. assert (N : NoDup (map fst (internal i))) by (rewrite Hi; apply ids_NoDup).
    pose proof (map_key_inj fst _ _ _ N X I eq_refl) as E. congruence.
  - exfalso. apply elem_of_list_In in X. pose proof (find_none _ _ F _ X) as Z. cbv beta in Z. apply bool_decide_eq_false in Z. apply Z. reflexivity.
Qed.
Lemma iports_ok : map iport (map (cons false) (tail (below D []))) ≡ₚ map snd (internal i).
Proof.
  assert (E : map (cons false) (tail (below D [])) ≡ₚ broadcast_ids D).
  { assert (B : below D [] = [] :: tail (below D [])) by (destruct D; reflexivity). pose proof (below_NoDup D []) as N. rewrite B in N. apply NoDup_cons in N as [Z N]. apply NoDup_Permutation.
    - apply NoDup_map_on; [|exact N]. intros a b _ _ H. injection H as H. exact H.
    - apply ids_NoDup.
    - intros x. rewrite ids_spec, elem_of_list_In, in_map_iff. split.
      + intros (q & <- & Q). exists q. split; [reflexivity|]. apply elem_of_list_In in Q. split; [destruct q; [contradiction|cbn; lia]|]. assert (Q' : q ∈ below D []) by (rewrite B; right; exact Q). apply below_spec in Q' as (r & -> & L). exact L.
      + intros (q & -> & L). exists q. split; [reflexivity|]. apply elem_of_list_In. assert (Q' : q ∈ below D []) by (apply below_spec; exists q; split; [reflexivity|lia]). rewrite B in Q'. apply elem_of_cons in Q' as [->|Q']; [cbn in L; lia|exact Q']. }
  rewrite E, <- Hi, map_map. erewrite map_ext_in; [reflexivity|]. intros [x port] X. cbn. apply iport_in, elem_of_list_In, X.
Qed.
Local Notation all := (map sched (below D [])).
Lemma schedulers_ok : schedulers D transport engine_ip client_ip internal_ip i = Some all.
Proof. apply (launch_ok D []). reflexivity. Qed.
Lemma all_ports : map port (concat (map sched_binds all)) ≡ₚ ci_bcast (cli i) :: map snd (internal i) ++ ei_bcast (eng i).
Proof.
  pose proof (launch_ports D [] eq_refl) as H. cbn [length Nat.eqb] in H. rewrite app_nil_r in H. rewrite H, iports_ok. change (int2 []) with 0. cbn [Nat.mul]. rewrite bports_ok. reflexivity.
Qed.
Lemma rest_ports : map port (other_binds transport engine_ip client_ip monitor_ip i ++ concat (map sched_binds all)) ≡ₚ engine_ports_of (eng i) ++ client_ports_of (cli i) ++ inner_ports_of i.
Proof. rewrite map_app, all_ports. unfold other_binds, engine_ports_of, client_ports_of, inner_ports_of. cbn [map snd u_port client_url engine_url]. solve_Permutation. Qed.

(** ** The way of a message *)
Hypothesis Hn : NoDup (map snd (internal i)).
Lemma iport_inj p q : 1 <= length p <= D -> 1 <= length q <= D -> iport (false :: p) = iport (false :: q) -> p = q.
Proof.
  intros P Q E. destruct (iurl_ok p P) as [_ A], (iurl_ok q Q) as [_ B]. pose proof (map_key_inj snd _ _ _ Hn A B E) as H. congruence.
Qed.
Lemma sched_inj p q : sched p = sched q -> p = q.
Proof. unfold sched. intros H. apply (f_equal place) in H. cbn in H. congruence. Qed.
Lemma all_NoDup : NoDup all.
Proof. apply NoDup_map_on; [|apply below_NoDup]. intros a b _ _. apply sched_inj. Qed.
Lemma all_spec s : s ∈ all <-> exists p, s = sched p /\ length p <= D.
Proof.
  rewrite elem_of_list_In, in_map_iff. split.
  - intros (p & <- & P). exists p. split; [reflexivity|]. apply elem_of_list_In, below_spec in P as (q & -> & L). exact L.
  - intros (p & -> & L). exists p. split; [reflexivity|]. apply elem_of_list_In, below_spec. exists p. auto.
Qed.
Lemma connected_ok p : 1 <= length p <= D -> connected all (iurl (iport (false :: p))) = [sched p].
Proof.
  intros L. unfold connected. apply filter_one; [apply all_NoDup|apply all_spec; exists p; split; [reflexivity|lia]|]. intros y Y. apply all_spec in Y as (q & -> & Lq).
  assert (I : length q <> 0 -> inward (sched q) = iurl (iport (false :: q))) by (intros Z; unfold sched; cbn [inward]; destruct (length q =? 0) eqn:E; [apply Nat.eqb_eq in E; contradiction|reflexivity]). change (depth (sched q)) with (length q). split.
  - intros [Nz E]. rewrite (I Nz) in E. injection E as E. apply iport_inj in E; [|lia|exact L]. rewrite E. reflexivity.
  - intros E. apply sched_inj in E. subst q. split; [lia|]. apply I. lia.
Qed.
Lemma route_ok id k : forall p q, length p + k = D -> length q = k -> p ++ q = format_bits (id mod 2 ^ D) D -> route D all k (sched p) id = Some (sched (p ++ q)).
Proof.
  induction k as [|k IH]; intros p q L Lq E; cbn [route]; [destruct q; [rewrite app_nil_r; reflexivity|discriminate Lq]|].
  destruct q as [|b q]; [discriminate Lq|]. injection Lq as Lq.
  assert (X : next_idx D (length p) id = if b then 1 else 0).
  { unfold next_idx. rewrite format_cons by (apply Nat.mod_upper_bound; apply Nat.pow_nonzero; lia). rewrite <- E. replace (length p + 1) with (S (length p)) by lia. change ((false :: p ++ b :: q) !! S (length p)) with ((p ++ b :: q) !! length p). rewrite list_lookup_middle by reflexivity. destruct b; reflexivity. }
  change (depth (sched p)) with (length p). rewrite X. unfold sched at 1. cbn [outward]. replace (length p =? D) with false by (symmetry; apply Nat.eqb_neq; lia).
  assert (Y : [iurl (iport (false :: p ++ [false])); iurl (iport (false :: p ++ [true]))] !! (if b then 1 else 0) = Some (iurl (iport (false :: p ++ [b])))) by (destruct b; reflexivity). rewrite Y.
  rewrite connected_ok by (rewrite app_length; cbn; lia). rewrite (IH (p ++ [b]) q); [|rewrite app_length; cbn; lia|exact Lq|rewrite <- app_assoc; exact E]. rewrite <- app_assoc. reflexivity.
Qed.
End Tree.
