From stdpp Require Import base gmap strings list.
From Verif Require Import Ns_Spec Ns_Model Ns_Proofs Ns_Proofs2 Ns_Proofs3 Ns_Proofs4.
From Verif Require Map_Model Prelude Map_Spec Map_Proofs.
From Coq Require Import Lia ZArith.

(** * BroadcastView.map: what it sends *)
Definition cutn (n q j : nat) : nat := Map_Proofs.cut (Z.of_nat n) (Z.of_nat q) j.
Definition piece {A} (l : list A) (n q j : nat) : list A := Map_Proofs.nslice l (cutn n q j) (cutn n q (S j)).
Definition bslices (q : nat) (v : val) : list val := match v with VSeq k l => map (fun j => VSeq k (piece l (length l) q j)) (seq 0 q) | _ => [] end.
Lemma scatter_block key k l c ts : 0 < length ts -> scatter Map_Model.DistBlock false key (VSeq k l) c ts = Some (pushes c key ts (bslices (length ts) (VSeq k l))).
Proof.
  intros Q. destruct (scatter_eq Map_Model.DistBlock false key k l c ts Q) as (parts & P1 & P2 & P3 & ->). f_equal. f_equal. rewrite Map_Proofs.block_scatter_parts in P1. injection P1 as <-. rewrite map_map. cbn [bslices].
  apply map_ext. intros j. unfold flattened, piece, cutn. destruct (Map_Proofs.nslice _ _ _) as [|x [|]]; reflexivity.
Qed.
Lemma bslices_length q k l : length (bslices q (VSeq k l)) = q.
Proof. cbn. rewrite map_length, seq_length. reflexivity. Qed.
Lemma bslices_at q k l j : j < q -> bslices q (VSeq k l) !! j = Some (VSeq k (piece l (length l) q j)).
Proof. intros J. cbn [bslices]. apply list_lookup_fmap_Some. exists j. split; [|reflexivity]. apply lookup_seq. lia. Qed.

Definition is_seq (v : val) : Prop := is_Some (items_of v).
Lemma scatter_seqs_ok key c ts seqs : 0 < length ts -> Forall is_seq seqs -> forall i0, exists a, scatter_seqs key i0 c ts seqs = Some a /\ length a = length seqs * length ts /\
  forall i j v e, seqs !! i = Some v -> ts !! j = Some e -> exists p, bslices (length ts) v !! j = Some p /\ a !! (i * length ts + j) = Some (Send e c (Push [(seq_name key (i0 + i), p)])).
Proof.
  intros Q. induction 1 as [|v seqs Hv _ IH]; intros i0; [exists []; repeat split; intros; discriminate|]. destruct v as [| |k l]; try (destruct Hv; discriminate).
  destruct (IH (S i0)) as (a & A1 & A2 & A3). cbn [scatter_seqs]. rewrite scatter_block, A1 by exact Q. eexists. split; [reflexivity|].
  assert (LP : length (pushes c (seq_name key i0) ts (bslices (length ts) (VSeq k l))) = length ts) by (apply pushes_length, bslices_length). split; [rewrite app_length, LP, A2; cbn; lia|].
  intros [|i] j v e V E; assert (Jl : j < length ts) by (apply lookup_lt_Some in E; exact E).
  - injection V as <-. eexists. split; [apply bslices_at, Jl|]. cbn [Nat.mul Nat.add]. rewrite lookup_app_l by lia. apply pushes_at. exists e. eexists. split; [exact E|]. split; [apply bslices_at, Jl|]. rewrite Nat.add_0_r. reflexivity.
  - destruct (A3 i j v e V E) as (p & B1 & B2). exists p. split; [exact B1|]. rewrite lookup_app_r by (rewrite LP; cbn [Nat.mul]; lia). rewrite LP. replace (S i * length ts + j - length ts) with (i * length ts + j) by (cbn [Nat.mul]; lia).
    replace (i0 + S i) with (S i0 + i) by lia. exact B2.
Qed.

Lemma all_slices q j seqs : Forall is_seq seqs -> j < q -> exists vs, Forall2 (fun v p => bslices q v !! j = Some p) seqs vs.
Proof. intros H J. induction H as [|v l Hv _ [vs IH]]; [exists []; constructor|]. destruct v as [| |k l']; try (destruct Hv; discriminate). eexists (_ :: vs). constructor; [apply bslices_at, J|exact IH]. Qed.

(** popping the names *)
Lemma pop_all_ok names : forall ns vs, NoDup names -> Forall2 (fun x v => ns !! x = Some v) names vs ->
  exists ns', pop_all ns names = (ns', inl vs) /\ (forall x, x ∈ names -> ns' !! x = None) /\ (forall x, x ∉ names -> ns' !! x = ns !! x).
Proof.
  induction names as [|x names IH]; intros ns vs N F; inversion F as [|? v ? vs' Hx F']; subst.
  - exists ns. split; [reflexivity|]. split; [intros x X; inversion X|auto].
  - apply NoDup_cons in N as [N1 N2]. cbn [pop_all]. rewrite Hx. destruct (IH (delete x ns) vs' N2) as (ns' & P & D & O).
    { apply Forall2_same_length_lookup_2; [eapply Forall2_length; exact F'|]. intros i y v' Y V'. rewrite lookup_delete_ne; [eapply (Forall2_lookup_lr _ _ _ _ _ _ F'); eauto|]. intros <-. apply N1, elem_of_list_lookup. eauto. }
    rewrite P. exists ns'. split; [reflexivity|]. split.
    + intros y Y. apply elem_of_cons in Y as [->|Y]; [|auto]. rewrite O by exact N1. apply lookup_delete.
    + intros y Y. apply not_elem_of_cons in Y as [Y1 Y2]. rewrite O by exact Y2. apply lookup_delete_ne. congruence.
Qed.
Lemma map_names_nodup key n : NoDup (map_names key n).
Proof. unfold map_names. apply NoDup_fmap_2_strong; [intros a b _ _; apply seq_name_inj|apply NoDup_ListNoDup, seq_NoDup]. Qed.
Lemma map_names_at key n i x : map_names key n !! i = Some x <-> i < n /\ x = seq_name key i.
Proof. unfold map_names. rewrite list_lookup_fmap_Some. split; [intros (k & K & ->); apply lookup_seq in K as [-> K]; auto|intros [L ->]; exists i; split; [apply lookup_seq; auto|reflexivity]]. Qed.

Section Engine.
Context (builtins : namespace) (fn : nat -> list val -> val + nat) (code : nat -> namespace -> namespace * reply).
Notation exec := (exec builtins fn code).
Notation run := (run builtins fn code).
Notation leaves := (leaves exec).
Notation seen_by := (seen_by builtins fn code).

Lemma apply_all_ok f rows : forall vs, apply_all fn f rows = inl vs -> Forall2 (fun row v => fn f row = inl v) rows vs.
Proof.
  induction rows as [|r rows IH]; intros vs H; cbn [apply_all] in H; [injection H as <-; constructor|]. destruct (fn f r) as [v|] eqn:E; [|discriminate]. destruct (apply_all fn f rows) as [vs'|] eqn:E'; [|discriminate].
  injection H as <-. constructor; auto.
Qed.
Lemma apply_all_err f rows p : apply_all fn f rows = inr p -> exists row x, row ∈ rows /\ fn f row = inr x /\ p = UserError x.
Proof.
  induction rows as [|r rows IH]; cbn [apply_all]; [discriminate|]. destruct (fn f r) as [v|x] eqn:E.
  - destruct (apply_all fn f rows) as [vs'|p'] eqn:E'; [discriminate|]. intros [= ->]. destruct (IH eq_refl) as (row & x & A & B & D). exists row, x. split; [right; exact A|auto].
  - intros [= <-]. exists r, x. split; [left|auto].
Qed.

Section Map.
Context (h : list event) (key : string) (f c : nat) (ts : list nat) (seqs : list val) (A C a : list event).
Context (Q : ts <> []) (N : NoDup ts) (Hk : all_chars (fun x => letter x || digit x) key = true) (Hs : Forall is_seq seqs) (Ha : scatter_seqs key 0 c ts seqs = Some a).
Notation names := (map_names key (length seqs)).
Context (Hh : sends h = A ++ (a ++ to_all ts c (MapOn f names)) ++ C).
Context (HAC : forall e c' r x, Send e c' r ∈ A ++ C -> e ∈ ts -> c' <> c -> x ∈ names -> leaves r x).

Lemma Q' : 0 < length ts.
Proof. destruct ts; [contradiction|cbn; lia]. Qed.
Lemma a_length : length a = length seqs * length ts.
Proof. destruct (scatter_seqs_ok key c ts seqs Q' Hs 0) as (a' & A1 & A2 & _). rewrite Ha in A1. injection A1 as <-. exact A2. Qed.
Lemma a_at i j v e : seqs !! i = Some v -> ts !! j = Some e -> exists p, bslices (length ts) v !! j = Some p /\ a !! (i * length ts + j) = Some (Send e c (Push [(seq_name key i, p)])).
Proof. destruct (scatter_seqs_ok key c ts seqs Q' Hs 0) as (a' & A1 & _ & A3). rewrite Ha in A1. injection A1 as <-. apply A3. Qed.
Lemma a_inv k ev : a !! k = Some ev -> exists i j v e p, k = i * length ts + j /\ seqs !! i = Some v /\ ts !! j = Some e /\ ev = Send e c (Push [(seq_name key i, p)]).
Proof.
  intros H. pose proof Q' as Hq. pose proof (lookup_lt_Some _ _ _ H) as L. rewrite a_length in L. set (q := length ts) in *.
  assert (Hi : k / q < length seqs) by (apply Nat.div_lt_upper_bound; lia). assert (Hj : k mod q < length ts) by (apply Nat.mod_upper_bound; lia).
  destruct (lookup_lt_is_Some_2 _ _ Hi) as [v V]. destruct (lookup_lt_is_Some_2 _ _ Hj) as [e E]. destruct (a_at _ _ _ _ V E) as (p & _ & P). fold q in P.
  assert (K : k = k / q * q + k mod q) by (pose proof (Nat.div_mod k q); lia). rewrite <- K, H in P. injection P as ->. exists (k / q), (k mod q), v, e, p. auto.
Qed.
Definition base : nat := length (A ++ a).
Lemma task_at j e : ts !! j = Some e -> sent (run h) !! (base + j) = Some (Msg e c (base + j) (MapOn f names)).
Proof.
  intros J. apply sent_run. exists e, c, (MapOn f names). split; [|reflexivity]. rewrite Hh. replace (A ++ (a ++ to_all ts c (MapOn f names)) ++ C) with ((A ++ a) ++ to_all ts c (MapOn f names) ++ C) by (rewrite <- !app_assoc; reflexivity).
  unfold base. rewrite lookup_app_r by lia. replace (_ - _) with j by lia. apply lookup_app_l_Some, to_all_at. eauto.
Qed.
Lemma task_sees j e ns i v : ts !! j = Some e -> seen_by (run h) (Msg e c (base + j) (MapOn f names)) ns -> seqs !! i = Some v ->
  exists p, bslices (length ts) v !! j = Some p /\ ns !! seq_name key i = Some p.
Proof.
  intros J Sn V. destruct (a_at _ _ _ _ V J) as (p & P1 & P2). exists p. split; [exact P1|]. pose proof (inv_run builtins fn code h) as Iv. pose proof (task_at j e J) as S1.
  assert (Jl : j < length ts) by (apply lookup_lt_Some in J; exact J). pose proof (lookup_lt_Some _ _ _ P2) as L2. pose proof (lookup_lt_Some _ _ _ V) as Vl.
  assert (S2 : sent (run h) !! (length A + (i * length ts + j)) = Some (Msg e c (length A + (i * length ts + j)) (Push [(seq_name key i, p)]))).
  { apply sent_run. exists e, c, (Push [(seq_name key i, p)]). split; [|reflexivity]. rewrite Hh, lookup_app_r by lia. replace (_ - _) with (i * length ts + j) by lia. rewrite <- app_assoc. apply lookup_app_l_Some, P2. }
  eapply (holds_at _ _ _ _ (length A + (i * length ts + j)) (base + j)); [exact Iv|exact S2|exact S1|unfold base; rewrite app_length; lia|reflexivity|reflexivity| | |exact Sn]; cbn [m_req m_engine m_chan].
  - apply push1_sets; [apply seq_name_identifier, Hk|apply seq_name_not_tmp].
  - intros k m M Em K1 K2 W. apply sent_run in M as (e' & c' & r' & M & ->). cbn [m_req m_engine m_chan] in *. subst e'. assert (Et : e ∈ ts) by (apply elem_of_list_lookup; eauto).
    assert (Hx : seq_name key i ∈ names) by (apply elem_of_list_lookup; exists i; apply map_names_at; auto).
    rewrite Hh in M. unfold base in *. rewrite app_length in K2, W.
    apply lookup_app_Some in M as [M|[Z1 M]].
    { pose proof (lookup_lt_Some _ _ _ M). apply (HAC e c' r'); [apply elem_of_app; left; apply elem_of_list_lookup; eauto|exact Et| |exact Hx]. destruct W as [W|W]; [lia|exact W]. }
    rewrite <- app_assoc in M. apply lookup_app_Some in M as [M|[Z2 M]].
    { apply a_inv in M as (i2 & j2 & v2 & e2 & p2 & M1 & M2 & M3 & M4). assert (e2 = e) by congruence. subst e2. assert (j2 = j) by (eapply NoDup_lookup; eauto). subst j2.
      assert (r' = Push [(seq_name key i2, p2)]) by congruence. subst r'. apply push1_leaves. intros X. apply seq_name_inj in X. subst i2. lia. }
    apply lookup_app_Some in M as [M|[Z4 M]].
    { apply to_all_at in M as (e2 & M1 & M2). assert (e2 = e) by congruence. subst e2. assert (k - length A - length a = j) by (eapply NoDup_lookup; eauto). lia. }
    rewrite to_all_length in Z4.
    apply (HAC e c' r'); [apply elem_of_app; right; apply elem_of_list_lookup; eauto|exact Et| |exact Hx]. destruct W as [W|W]; [lia|exact W].
Qed.
(** what the task gets and leaves *)
Lemma task_does j e ns : ts !! j = Some e -> seen_by (run h) (Msg e c (base + j) (MapOn f names)) ns ->
  exists vs ns', Forall2 (fun v p => bslices (length ts) v !! j = Some p) seqs vs /\ exec (MapOn f names) ns = (ns', do_map fn f vs) /\ (forall x, x ∈ names -> ns' !! x = None) /\ (forall x, x ∉ names -> ns' !! x = ns !! x).
Proof.
  intros J Sn. assert (X : exists vs, Forall2 (fun v p => bslices (length ts) v !! j = Some p) seqs vs).
  { apply all_slices; [exact Hs|]. apply lookup_lt_Some in J. exact J. }
  destruct X as [vs F]. destruct (pop_all_ok names ns vs) as (ns' & P & D & O); [apply map_names_nodup| |].
  { apply Forall2_same_length_lookup_2; [unfold map_names; rewrite map_length, seq_length; eapply Forall2_length; exact F|]. intros i x p X P. apply map_names_at in X as [L ->].
    destruct (lookup_lt_is_Some_2 _ _ L) as [v V]. destruct (task_sees j e ns i v J Sn V) as (p' & P1 & P2). rewrite P2. f_equal. pose proof (Forall2_lookup_lr _ _ _ _ _ _ F V P) as P3. cbn in P3. congruence. }
  exists vs, ns'. split; [exact F|]. split; [|auto]. unfold Ns_Model.exec. rewrite P. reflexivity.
Qed.
(** the temporary names are gone after the task *)
Lemma task_clean j e x : ts !! j = Some e -> is_Some (replies (run h) !! (base + j)) -> x ∈ names ->
  (forall e' c' r, Send e' c' r ∈ C -> e' = e -> leaves r x) -> spaces (run h) e !! x = None.
Proof.
  intros J [r R] Hx HC. pose proof (inv_run builtins fn code h) as Iv. pose proof (task_at j e J) as S1. destruct (reply_seen _ _ _ _ _ _ _ Iv S1 R) as (ns & Sn & _).
  destruct (task_does j e ns J Sn) as (vs & ns' & _ & E & D & _). apply (stays _ _ _ _ (base + j) _ x None ns Iv S1 Sn); cbn [m_req m_engine m_chan].
  - rewrite E. apply D, Hx.
  - intros k m M Em K1 W. apply sent_run in M as (e' & c' & r' & M & ->). cbn [m_req m_engine m_chan] in *. subst e'. assert (Et : e ∈ ts) by (apply elem_of_list_lookup; eauto). pose proof (lookup_lt_Some _ _ _ J) as Jl.
    rewrite Hh in M. unfold base in *. rewrite app_length in K1, W.
    apply lookup_app_Some in M as [M|[Z1 M]].
    { pose proof (lookup_lt_Some _ _ _ M). apply (HAC e c' r'); [apply elem_of_app; left; apply elem_of_list_lookup; eauto|exact Et| |exact Hx]. destruct W as [W|W]; [lia|exact W]. }
    rewrite <- app_assoc in M. apply lookup_app_Some in M as [M|[Z2 M]].
    { pose proof (lookup_lt_Some _ _ _ M). apply a_inv in M as (i2 & j2 & v2 & e2 & p2 & M1 & M2 & M3 & M4). exfalso. destruct W as [W|W]; [lia|]. congruence. }
    apply lookup_app_Some in M as [M|[Z4 M]].
    { apply to_all_at in M as (e2 & M1 & M2). assert (e2 = e) by congruence. subst e2. assert (k - length A - length a = j) by (eapply NoDup_lookup; eauto). lia. }
    apply (HC e c' r'); [apply elem_of_list_lookup; eauto|reflexivity].
Qed.

(** * Sequences of equal length *)
Context (n : nat) (ls : list (list val)) (Hn : seqs <> []) (Hls : mapM items_of seqs = Some ls) (Hlen : Forall (fun l => length l = n) ls).
Lemma slices_items j vs : j < length ts -> Forall2 (fun v p => bslices (length ts) v !! j = Some p) seqs vs -> mapM items_of vs = Some (map (fun l => piece l n (length ts) j) ls).
Proof.
  intros J F. apply mapM_Some in Hls. apply mapM_Some. revert ls Hls Hlen. clear - F J. induction F as [|v p seqs vs H F IH]; intros ls Hls Hlen; inversion Hls as [|? l ? ls' H1 H2]; subst; [constructor|].
  apply Forall_cons in Hlen as [Hl Hlen]. cbn [map]. constructor; [|apply IH; assumption]. destruct v as [| |k l']; try discriminate. injection H1 as ->. rewrite bslices_at in H by exact J. injection H as <-. cbn. rewrite Hl. reflexivity.
Qed.
Lemma reply_is j e r : ts !! j = Some e -> replies (run h) !! (base + j) = Some r ->
  r = match apply_all fn f (piece (Map_Model.py_zip ls) n (length ts) j) with inl vs => RVal (VSeq KList vs) | inr p => RErr p end.
Proof.
  intros J R. pose proof (inv_run builtins fn code h) as Iv. pose proof (task_at j e J) as S1. destruct (reply_seen _ _ _ _ _ _ _ Iv S1 R) as (ns & Sn & ->). pose proof (lookup_lt_Some _ _ _ J) as Jl.
  destruct (task_does j e ns J Sn) as (vs & ns' & F & E & _). cbn [m_req]. rewrite E. cbn [snd]. unfold do_map. rewrite (slices_items j vs Jl F).
  unfold piece. rewrite Map_Proofs.zip_block; [reflexivity|]. intros ->. apply mapM_Some in Hls. inversion Hls. subst. contradiction.
Qed.

Lemma rows_length : length (Map_Model.py_zip ls) <= n.
Proof.
  destruct ls as [|l ls']; [apply mapM_Some in Hls; inversion Hls; subst; contradiction|]. pose proof (Map_Proofs.min_len_zip_le (l :: ls') l (or_introl eq_refl)) as L. apply Forall_cons in Hlen as [<- _]. exact L.
Qed.
Lemma map_result out : gathered Map_Model.DistBlock (run h) (seq base (length ts)) = Some out ->
  (exists vs, Forall2 (fun row v => fn f row = inl v) (Map_Model.py_zip ls) vs /\ out = inl (VSeq KList vs)) \/
  (exists row x, row ∈ Map_Model.py_zip ls /\ fn f row = inr x /\ out = inr (UserError x)).
Proof.
  intros G. set (rows := Map_Model.py_zip ls) in *. unfold gathered in G. destruct (collect (run h) (seq base (length ts))) as [o|] eqn:Co; [|discriminate]. apply collect_err in Co. destruct o as [parts|p].
  - left. assert (X : exists vss, parts = map (VSeq KList) vss /\ Forall2 (fun j vs => Forall2 (fun row v => fn f row = inl v) (piece rows n (length ts) j) vs) (seq 0 (length ts)) vss).
    { assert (Y : Forall2 (fun j v => exists vs, v = VSeq KList vs /\ Forall2 (fun row v => fn f row = inl v) (piece rows n (length ts) j) vs) (seq 0 (length ts)) parts).
      { apply Forall2_same_length_lookup_2; [rewrite seq_length, <- (seq_length (length ts) base); eapply Forall2_length; exact Co|]. intros j j' v J V. apply lookup_seq in J as [-> J]. cbn [Nat.add].
        assert (Ij : seq base (length ts) !! j = Some (base + j)) by (apply lookup_seq; auto). pose proof (Forall2_lookup_lr _ _ _ _ _ _ Co Ij V) as R. cbn in R.
        destruct (lookup_lt_is_Some_2 _ _ J) as [e E]. pose proof (reply_is _ _ _ E R) as R'. fold rows in R'. destruct (apply_all fn f _) as [vs|] eqn:Ap; [|discriminate]. exists vs. split; [congruence|]. apply apply_all_ok, Ap. }
      clear - Y. induction Y as [|j v l parts (vs & -> & F) _ (vss & -> & G)]; [exists []; split; constructor|]. exists (vs :: vss). split; [reflexivity|constructor; auto]. }
    destruct X as (vss & -> & F). exists (concat vss). assert (Fz : Forall2 (fun row v => fn f row = inl v) rows (concat vss)).
    { replace rows with (concat (map (fun j => piece rows n (length ts) j) (seq 0 (length ts)))); [|unfold piece, cutn; apply Map_Proofs.block_concat; [apply Q'|lia|rewrite Nat2Z.id; apply rows_length]].
      clear - F. induction F as [|j vs l vss H _ IH]; [constructor|]. cbn [map concat]. apply Forall2_app; assumption. }
    split; [exact Fz|]. rewrite (join_seq Map_Model.DistBlock KList vss (concat vss)) in G; [congruence|auto| |].
    + intros ->. apply Forall2_length in F. rewrite seq_length in F. cbn in F. pose proof Q'. lia.
    + destruct vss; [|reflexivity]. apply Forall2_length in F. rewrite seq_length in F. cbn in F. pose proof Q'. lia.
  - right. destruct Co as (i & Hi & R). injection G as <-. apply elem_of_seq in Hi. replace i with (base + (i - base)) in R by lia. destruct (lookup_lt_is_Some_2 ts (i - base)) as [e E]; [lia|].
    pose proof (reply_is _ _ _ E R) as R'. fold rows in R'. destruct (apply_all fn f _) as [|p'] eqn:Ap; [discriminate|]. injection R' as ->. apply apply_all_err in Ap as (row & x & Hr & Hx & ->).
    exists row, x. split; [|auto]. unfold piece in Hr. apply elem_of_list_In in Hr. apply elem_of_list_In. unfold Map_Proofs.nslice in Hr. apply (List.In_nth_error) in Hr as [k Hr]. rewrite Map_Proofs.nth_error_firstn in Hr. destruct (_ <? _); [|discriminate].
    rewrite Map_Proofs.nth_error_skipn in Hr. eapply nth_error_In. exact Hr.
Qed.
End Map.
End Engine.
