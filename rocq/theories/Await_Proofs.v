From stdpp Require Import base list gmap.
From Verif Require Import Await_Spec Await_Model.
From Coq Require Import Lia.
Local Open Scope nat_scope.

Lemma remove_one_spec x l : NoDup l -> NoDup (remove_one x l) /\ forall y, y ∈ remove_one x l <-> y ∈ l /\ y <> x.
Proof.
  induction l as [|a l IH]; intros N; cbn [remove_one].
  - split; [exact N|]. intros y. split; [intros H; inversion H|intros [H _]; exact H].
  - apply NoDup_cons in N as [X N]. destruct (IH N) as [N' S]. destruct (Nat.eqb_spec a x) as [->|E].
    + split; [exact N|]. intros y. rewrite elem_of_cons. split; [intros H; split; [right; exact H|]; intros ->; exact (X H)|intros [[->|H] Z]; [congruence|exact H]].
    + split; [apply NoDup_cons; split; [rewrite S; tauto|exact N']|]. intros y. rewrite !elem_of_cons, S. split; [intros [->|[H Z]]; [split; [left; reflexivity|exact E]|auto]|intros [[->|H] Z]; auto].
Qed.
Lemma remove_one_notin x l : x ∉ l -> remove_one x l = l.
Proof. induction l as [|a l IH]; intros N; cbn [remove_one]; [reflexivity|]. apply not_elem_of_cons in N as [Ne N]. destruct (Nat.eqb_spec a x); [congruence|]. rewrite IH by exact N. reflexivity. Qed.
Lemma remove_one_mid l w r : w ∉ l -> remove_one w (l ++ w :: r) = l ++ r.
Proof. induction l as [|a l IH]; intros N; cbn [remove_one app]; [rewrite Nat.eqb_refl; reflexivity|]. apply not_elem_of_cons in N as [Ne N]. destruct (Nat.eqb_spec a w); [congruence|]. rewrite IH by exact N. reflexivity. Qed.

(** ** The end of waits *)
Definition finish_all (o : outcome) (l : list nat) (s : state) : state := foldl (fun s w => finish w o s) s l.
Lemma finish_pending w o s n t : waits s !! w = Some (Wait n t None) ->
  finish w o s = State (ids s) (remove_one w (callbacks s)) (map (remove_one w) (stops s)) (after s) (<[w := Wait n t (Some o)]> (waits s)).
Proof. intros E. unfold finish. rewrite E. reflexivity. Qed.
Lemma finish_ids w o s : ids (finish w o s) = ids s.
Proof. unfold finish. destruct (waits s !! w) as [[n t [x|]]|]; reflexivity. Qed.
Lemma finish_after w o s : after (finish w o s) = after s /\ length (stops (finish w o s)) = length (stops s).
Proof. unfold finish. destruct (waits s !! w) as [[n t [x|]]|]; cbn; rewrite ?map_length; auto. Qed.
Lemma finish_other w o s v : v <> w -> waits (finish w o s) !! v = waits s !! v.
Proof. intros N. unfold finish. destruct (waits s !! w) as [[n t [x|]]|]; try reflexivity. cbn. apply lookup_insert_ne. congruence. Qed.
Lemma finish_self w o s : waits (finish w o s) !! w = match waits s !! w with Some (Wait n t None) => Some (Wait n t (Some o)) | x => x end.
Proof. unfold finish. destruct (waits s !! w) as [[n t [x|]]|] eqn:E; [exact E| |exact E]. cbn. apply lookup_insert. Qed.

Section Loop.
Context (get : state -> list nat) (f : nat -> state -> state) (gone : nat -> bool) (o : outcome) (s0 : state).
Hypothesis Hf : forall w s, ids s = ids s0 -> waits s !! w = waits s0 !! w -> f w s = if gone w then finish w o s else s.
Hypothesis Hg : forall w s, (exists n, pending s w n) -> get (finish w o s) = remove_one w (get s).
Lemma loop_ok k : forall d r s, ids s = ids s0 -> get s = d ++ r -> NoDup (d ++ r) -> (forall w, w ∈ r -> waits s !! w = waits s0 !! w /\ exists n, pending s w n) -> length r <= k ->
  loop k (length d) get f s = finish_all o (filter (fun w => gone w = true) (reached gone false r)) s.
Proof.
  induction k as [|k IH]; intros d r s I G N P L; cbn [loop].
  - destruct r; [reflexivity|cbn in L; lia].
  - rewrite G. destruct r as [|w r].
    + rewrite app_nil_r, lookup_ge_None_2 by lia. reflexivity.
    + rewrite list_lookup_middle by reflexivity. destruct (P w (elem_of_list_here _ _)) as [Ew Pw]. rewrite (Hf w s I Ew). cbn [reached].
      apply NoDup_app in N as (Nd & Dj & Nr). apply NoDup_cons in Nr as [Xw Nr]. destruct (gone w) eqn:Gw.
      * rewrite filter_cons_True by exact Gw. unfold finish_all. cbn [foldl]. change (foldl (fun s w => finish w o s) ?x ?l) with (finish_all o l x).
        assert (G' : get (finish w o s) = d ++ r) by (rewrite Hg, G, remove_one_mid; [reflexivity| |exact Pw]; intros X; apply (Dj w X); left).
        destruct r as [|v r].
        -- destruct k; cbn [loop reached]; [reflexivity|]. rewrite G', app_nil_r, lookup_ge_None_2 by lia. reflexivity.
        -- cbn [reached]. replace (S (length d)) with (length (d ++ [v])) by (rewrite app_length; cbn; lia).
           rewrite (IH (d ++ [v]) r (finish w o s)); [reflexivity| | | | |cbn in L; lia].
           ++ rewrite finish_ids. exact I.
           ++ rewrite G', <- app_assoc. reflexivity.
           ++ rewrite <- app_assoc. apply NoDup_app. split; [exact Nd|]. split; [|exact Nr]. intros x X Y. apply (Dj x X). right. exact Y.
           ++ intros x X. assert (x <> w) by (intros ->; apply Xw; right; exact X). destruct (P x) as [E1 (n & t & E2)]; [right; right; exact X|]. split; [rewrite finish_other by assumption; exact E1|]. exists n, t. rewrite finish_other by assumption. exact E2.
      * rewrite filter_cons_False by (rewrite Gw; discriminate). replace (S (length d)) with (length (d ++ [w])) by (rewrite app_length; cbn; lia).
        apply IH; [exact I|rewrite G, <- app_assoc; reflexivity| | |cbn in L; lia].
        -- rewrite <- app_assoc. apply NoDup_app. split; [exact Nd|]. split; [exact Dj|]. apply NoDup_cons. auto.
        -- intros x X. apply P. right. exact X.
Qed.
Lemma for_each_ok : NoDup (get s0) -> (forall w, w ∈ get s0 -> exists n, pending s0 w n) -> for_each get f s0 = finish_all o (filter (fun w => gone w = true) (reached gone false (get s0))) s0.
Proof. intros N P. unfold for_each. apply (loop_ok (length (get s0)) [] (get s0) s0); auto. Qed.
End Loop.

(** what has ended *)
Lemma all_waits o l : NoDup l -> forall s v, waits (finish_all o l s) !! v = if decide (v ∈ l) then match waits s !! v with Some (Wait n t None) => Some (Wait n t (Some o)) | x => x end else waits s !! v.
Proof.
  induction l as [|a l IH]; intros N s v; [reflexivity|]. apply NoDup_cons in N as [X N]. unfold finish_all. cbn [foldl]. change (foldl (fun s w => finish w o s) ?x ?l) with (finish_all o l x). rewrite IH by exact N.
  destruct (decide (v = a)) as [->|Ne].
  - rewrite decide_False by exact X. rewrite decide_True by left. apply finish_self.
  - rewrite finish_other by exact Ne. destruct (decide (v ∈ l)) as [H|H]; [rewrite decide_True by (right; exact H); reflexivity|]. rewrite decide_False; [reflexivity|]. rewrite elem_of_cons. tauto.
Qed.
Lemma all_ids o l : forall s, ids (finish_all o l s) = ids s /\ after (finish_all o l s) = after s /\ length (stops (finish_all o l s)) = length (stops s).
Proof.
  induction l as [|a l IH]; intros s; [auto|]. unfold finish_all. cbn [foldl]. change (foldl (fun s w => finish w o s) ?x ?l) with (finish_all o l x). destruct (IH (finish a o s)) as (A & B & C). rewrite A, B, C, finish_ids. destruct (finish_after a o s). auto.
Qed.

(** ** The invariant *)
Record inv (evs : list event) (s : state) : Prop := Inv {
  i_cb : NoDup (callbacks s);
  i_cbs : forall w, w ∈ callbacks s <-> Install w ∈ evs /\ exists n, pending s w n;
  i_st : forall k l, stops s !! k = Some l -> NoDup l /\ forall w, w ∈ l <-> Watch w ∈ evs /\ exists n, pending s w n;
  i_w : forall w n t x, waits s !! w = Some (Wait n t x) -> Call w n t ∈ evs;
  i_c : forall w n t, Call w n t ∈ evs -> exists x, waits s !! w = Some (Wait n t x) }.
Lemma finish_inv evs w o s : inv evs s -> inv evs (finish w o s).
Proof.
  intros [A B C D E]. unfold finish. destruct (waits s !! w) as [[n t [x|]]|] eqn:F; try (constructor; assumption). destruct (remove_one_spec w (callbacks s) A) as [A1 A2].
  assert (P : forall v, (exists m, pending (State (ids s) (remove_one w (callbacks s)) (map (remove_one w) (stops s)) (after s) (<[w := Wait n t (Some o)]> (waits s))) v m) <-> (exists m, pending s v m) /\ v <> w).
  { intros v. unfold pending. cbn. destruct (decide (v = w)) as [->|Ne]; [split; [intros (m & u & H); rewrite lookup_insert in H; discriminate|tauto]|]. split; [intros (m & u & H); rewrite lookup_insert_ne in H by congruence; eauto|intros [(m & u & H) _]; exists m, u; rewrite lookup_insert_ne by congruence; exact H]. }
  constructor; cbn.
  - exact A1.
  - intros v. rewrite A2, B, P. tauto.
  - intros k l H. change (map (remove_one w) (stops s)) with (remove_one w <$> stops s) in H. rewrite list_lookup_fmap in H. destruct (stops s !! k) as [l0|] eqn:K; [|discriminate H]. cbn in H. assert (l = remove_one w l0) as -> by congruence. destruct (C k l0 K) as [C1 C2]. destruct (remove_one_spec w l0 C1) as [R1 R2]. split; [exact R1|]. intros v. rewrite R2, C2, P. tauto.
  - intros v m u x H. destruct (decide (v = w)) as [->|Ne]; [rewrite lookup_insert in H; injection H as <- <- _; eapply D; exact F|rewrite lookup_insert_ne in H by congruence; eapply D; exact H].
  - intros v m u H. destruct (E v m u H) as [x X]. destruct (decide (v = w)) as [->|Ne]; [|exists x; rewrite lookup_insert_ne by congruence; exact X]. rewrite F in X. injection X as -> -> _. eexists. apply lookup_insert.
Qed.
Lemma finish_all_inv evs o l : forall s, inv evs s -> inv evs (finish_all o l s).
Proof. induction l as [|a l IH]; intros s H; [exact H|]. unfold finish_all. cbn [foldl]. apply IH, finish_inv, H. Qed.
Lemma inv_more evs ev s : (forall w n t, ev <> Call w n t) -> (forall w, ev <> Watch w) -> (forall w, ev <> Install w) -> inv evs s -> inv (evs ++ [ev]) s.
Proof.
  intros N1 N2 N3 [A B C D E].
  assert (X1 : forall w, Install w ∈ evs ++ [ev] <-> Install w ∈ evs) by (intros w; rewrite elem_of_app, elem_of_list_singleton; split; [intros [H|H]; [exact H|exfalso; apply (N3 w); congruence]|auto]).
  assert (X2 : forall w, Watch w ∈ evs ++ [ev] <-> Watch w ∈ evs) by (intros w; rewrite elem_of_app, elem_of_list_singleton; split; [intros [H|H]; [exact H|exfalso; apply (N2 w); congruence]|auto]).
  assert (X3 : forall w n t, Call w n t ∈ evs ++ [ev] <-> Call w n t ∈ evs) by (intros w n t; rewrite elem_of_app, elem_of_list_singleton; split; [intros [H|H]; [exact H|exfalso; apply (N1 w n t); congruence]|auto]).
  constructor; [exact A| | | |].
  - intros w. rewrite X1. apply B.
  - intros k l H. destruct (C k l H) as [C1 C2]. split; [exact C1|]. intros w. rewrite X2. apply C2.
  - intros w n t x H. rewrite X3. eapply D, H.
  - intros w n t H. apply E, X3, H.
Qed.
Lemma set_ids_inv evs l s : inv evs s -> inv evs (set_ids l s).
Proof. intros [A B C D E]. constructor; assumption. Qed.
Lemma stop_inv evs k s : inv evs s -> inv evs (State (ids s) (callbacks s) (stops s) (k :: after s) (waits s)).
Proof. intros [A B C D E]. constructor; assumption. Qed.

(** what each event ends *)
Definition enough (s : state) (w : nat) : bool := match waits s !! w with Some x => w_n x <=? length (ids s) | None => false end.
Lemma register_ok evs s e : inv evs s -> let s1 := set_ids (if bool_decide (e ∈ ids s) then ids s else e :: ids s) s in
  step s (Register e) = finish_all Ready (filter (fun w => enough s1 w = true) (reached (enough s1) false (callbacks s))) s1.
Proof.
  intros I s1. cbn [step]. fold s1. apply (for_each_ok callbacks notify_registered (enough s1) Ready s1).
  - intros w s' Ei Ew. unfold notify_registered, enough. rewrite <- Ew, <- Ei. unfold finish. destruct (waits s' !! w) as [[n t [x|]]|] eqn:W; cbn [w_n]; [destruct (n <=? _); reflexivity| |reflexivity]. destruct (n <=? length (ids s')); reflexivity.
  - intros w s' (n & t & P). rewrite (finish_pending _ _ _ _ _ P). reflexivity.
  - apply (i_cb _ _ I).
  - intros w W. apply (i_cbs _ _ I) in W as [_ W]. exact W.
Qed.
Lemma unregister_ok evs s e : inv evs s -> let s1 := set_ids (remove_one e (ids s)) s in
  step s (Unregister e) = finish_all (EngineGone e) (filter (fun _ => true = true) (reached (fun _ => true) false (callbacks s))) s1.
Proof.
  intros I s1. cbn [step]. fold s1. apply (for_each_ok callbacks (notify_unregistered e) (fun _ => true) (EngineGone e) s1).
  - intros w s' _ _. reflexivity.
  - intros w s' (n & t & P). rewrite (finish_pending _ _ _ _ _ P). reflexivity.
  - apply (i_cb _ _ I).
  - intros w W. apply (i_cbs _ _ I) in W as [_ W]. exact W.
Qed.
Lemma map_lookup_default k w ss : default [] (map (remove_one w) ss !! k) = remove_one w (default [] (ss !! k)).
Proof. change (map (remove_one w) ss) with (remove_one w <$> ss). rewrite list_lookup_fmap. destruct (ss !! k); reflexivity. Qed.
Lemma stop_ok evs s k : inv evs s -> k ∉ after s -> k < length (stops s) -> let s1 := State (ids s) (callbacks s) (stops s) (k :: after s) (waits s) in
  step s (Stop k) = finish_all (SetStopped k) (filter (fun _ => true = true) (reached (fun _ => true) false (default [] (stops s !! k)))) s1.
Proof.
  intros I Na Lk s1. cbn [step]. rewrite bool_decide_eq_false_2 by exact Na. rewrite (proj2 (Nat.ltb_lt k (length (stops s)))) by exact Lk. cbn [orb negb]. fold s1. destruct (lookup_lt_is_Some_2 _ _ Lk) as [l El]. destruct (i_st _ _ I k l El) as [N W].
  apply (for_each_ok (fun s => default [] (stops s !! k)) (signal_stopped k) (fun _ => true) (SetStopped k) s1).
  - intros w s' _ _. reflexivity.
  - intros w s' (n & t & P). rewrite (finish_pending _ _ _ _ _ P). cbn [stops]. apply map_lookup_default.
  - cbn [stops s1]. rewrite El. exact N.
  - cbn [stops s1]. rewrite El. intros w H. apply W in H as [_ H]. exact H.
Qed.
Lemma init_inv k : inv [] (start k).
Proof.
  constructor; cbn.
  - constructor.
  - intros w. split; [intros H; inversion H|intros [H _]; inversion H].
  - intros j l H. apply lookup_replicate in H as [-> _]. split; [constructor|]. intros w. split; [intros H; inversion H|intros [H _]; inversion H].
  - intros w n t x H. rewrite lookup_empty in H. discriminate.
  - intros w n t H. inversion H.
Qed.
Lemma snoc_other {A} (x y : A) l : x <> y -> x ∈ l ++ [y] <-> x ∈ l.
Proof. intros N. rewrite elem_of_app, elem_of_list_singleton. split; [intros [H|H]; [exact H|contradiction]|auto]. Qed.
Lemma snoc_self {A} (x : A) l : x ∈ l ++ [x].
Proof. apply elem_of_app. right. left. Qed.
Lemma step_inv evs s ev : inv evs s -> well_formed_after evs ev -> (forall w, Install w ∈ evs -> Watch w ∈ evs) -> (forall w, Watch w ∈ evs -> exists n t, Call w n t ∈ evs) -> inv (evs ++ [ev]) (step s ev).
Proof.
  intros I WF H1 H2. destruct ev as [w n t|w|w|e|e|k|w]; cbn [well_formed_after] in WF.
  - destruct I as [A B C D E]. cbn [step].
    assert (Fr : waits s !! w = None). { destruct (waits s !! w) as [[m u x]|] eqn:F; [|reflexivity]. exfalso. apply (WF m u). eapply D, F. }
    assert (P : forall v, v <> w -> (exists m, pending (State (ids s) (callbacks s) (stops s) (after s) (<[w := Wait n t (if n <=? length (ids s) then Some Ready else None)]> (waits s))) v m) <-> exists m, pending s v m).
    { intros v Ne. unfold pending. cbn. split; intros (m & u & H); exists m, u; rewrite lookup_insert_ne in * by congruence; exact H. }
    constructor; cbn.
    + exact A.
    + intros v. rewrite snoc_other by discriminate. destruct (decide (v = w)) as [->|Ne]; [|rewrite P by exact Ne; apply B]. split.
      * intros H. apply B in H as [_ (m & u & H)]. congruence.
      * intros [H _]. apply H1, H2 in H as (m & u & H). exfalso. eapply WF, H.
    + intros k l H. destruct (C k l H) as [C1 C2]. split; [exact C1|]. intros v. rewrite snoc_other by discriminate. destruct (decide (v = w)) as [->|Ne]; [|rewrite P by exact Ne; apply C2]. split.
      * intros X. apply C2 in X as [_ (m & u & X)]. congruence.
      * intros [X _]. apply H2 in X as (m & u & X). exfalso. eapply WF, X.
    + intros v m u x H. destruct (decide (v = w)) as [->|Ne]; [rewrite lookup_insert in H; injection H as <- <- _; apply snoc_self|]. rewrite lookup_insert_ne in H by congruence. apply elem_of_app. left. eapply D, H.
    + intros v m u H. apply elem_of_app in H as [H|H].
      * destruct (E v m u H) as [x X]. exists x. rewrite lookup_insert_ne; [exact X|]. intros ->. congruence.
      * apply elem_of_list_singleton in H. injection H as -> -> ->. eexists. apply lookup_insert.
  - cbn [step]. unfold watch. destruct WF as [(n & t & Cw) Nw]. destruct (i_c _ _ I w n t Cw) as [x X].
    assert (K : forall s', inv evs s' -> (forall m u, waits s' !! w <> Some (Wait m u None)) -> inv (evs ++ [Watch w]) s').
    { intros s' [A B C D E] Z. constructor; [exact A| | | |].
      - intros v. rewrite snoc_other by discriminate. apply B.
      - intros k l L. destruct (C k l L) as [C1 C2]. split; [exact C1|]. intros v. destruct (decide (v = w)) as [->|Ne].
        + split; [intros V; apply C2 in V as [_ (m & u & V)]; exfalso; apply (Z m u V)|intros [_ (m & u & V)]; exfalso; apply (Z m u V)].
        + rewrite snoc_other by congruence. apply C2.
      - intros v m u y V. rewrite snoc_other by discriminate. eapply D, V.
      - intros v m u V. apply E. rewrite snoc_other in V by discriminate. exact V. }
    destruct (find _ _) as [k|].
    + apply K; [apply finish_inv, I|]. intros m u. rewrite finish_self, X. destruct x; discriminate.
    + rewrite X. destruct x as [x|]; [apply K; [exact I|intros m u; rewrite X; discriminate]|]. destruct I as [A B C D E]. constructor; cbn.
      * exact A.
      * intros v. rewrite snoc_other by discriminate. apply B.
      * intros k l L. change (map (fun l => l ++ [w]) (stops s)) with ((fun l => l ++ [w]) <$> stops s) in L. rewrite list_lookup_fmap in L. destruct (stops s !! k) as [l0|] eqn:F; [|discriminate L]. cbn in L. assert (l = l0 ++ [w]) as -> by congruence. destruct (C k l0 F) as [C1 C2]. split.
        -- apply NoDup_app. split; [exact C1|]. split; [|apply NoDup_singleton]. intros v V Z. apply elem_of_list_singleton in Z as ->. apply C2 in V as [V _]. contradiction.
        -- intros v. destruct (decide (v = w)) as [->|Ne]; [split; [intros _; split; [apply snoc_self|exists n, t; exact X]|intros _; apply snoc_self]|]. rewrite !snoc_other by congruence. apply C2.
      * intros v m u y V. rewrite snoc_other by discriminate. eapply D, V.
      * intros v m u V. apply E. rewrite snoc_other in V by discriminate. exact V.
  - cbn [step]. unfold install. destruct WF as [Ww Nw]. destruct (H2 w Ww) as (n & t & Cw). destruct (i_c _ _ I w n t Cw) as [x X]. rewrite X. destruct I as [A B C D E]. destruct x as [x|]; constructor; cbn.
    + exact A.
    + intros v. destruct (decide (v = w)) as [->|Ne]; [split; [intros V; apply B in V as [_ (m & u & V)]; congruence|intros [_ (m & u & V)]; congruence]|]. rewrite snoc_other by congruence. apply B.
    + intros k l L. destruct (C k l L) as [C1 C2]. split; [exact C1|]. intros v. rewrite snoc_other by discriminate. apply C2.
    + intros v m u y V. rewrite snoc_other by discriminate. eapply D, V.
    + intros v m u V. apply E. rewrite snoc_other in V by discriminate. exact V.
    + apply NoDup_app. split; [exact A|]. split; [|apply NoDup_singleton]. intros v V Z. apply elem_of_list_singleton in Z as ->. apply B in V as [V _]. contradiction.
    + intros v. destruct (decide (v = w)) as [->|Ne]; [split; [intros _; split; [apply snoc_self|exists n, t; exact X]|intros _; apply snoc_self]|]. rewrite !snoc_other by congruence. apply B.
    + intros k l L. destruct (C k l L) as [C1 C2]. split; [exact C1|]. intros v. rewrite snoc_other by discriminate. apply C2.
    + intros v m u y V. rewrite snoc_other by discriminate. eapply D, V.
    + intros v m u V. apply E. rewrite snoc_other in V by discriminate. exact V.
  - rewrite (register_ok evs s e I). apply inv_more; try discriminate. apply finish_all_inv, set_ids_inv, I.
  - rewrite (unregister_ok evs s e I). apply inv_more; try discriminate. apply finish_all_inv, set_ids_inv, I.
  - destruct (decide (k ∈ after s)) as [Ka|Ka]; [cbn [step]; rewrite bool_decide_eq_true_2 by exact Ka; cbn [orb]; apply inv_more; try discriminate; exact I|]. destruct (decide (k < length (stops s))) as [Lk|Lk].
    + rewrite (stop_ok evs s k I Ka Lk). apply inv_more; try discriminate. apply finish_all_inv, stop_inv, I.
    + cbn [step]. rewrite bool_decide_eq_false_2 by exact Ka. replace (k <? length (stops s)) with false by (symmetry; apply Nat.ltb_ge; lia). cbn [orb negb]. apply inv_more; try discriminate. exact I.
  - cbn [step]. unfold on_timeout. apply inv_more; try discriminate. destruct (waits s !! w) as [[n [] [x|]]|]; try exact I. apply finish_inv, I.
Qed.
Lemma history_order evs : history evs -> (forall w, Install w ∈ evs -> Watch w ∈ evs) /\ (forall w, Watch w ∈ evs -> exists n t, Call w n t ∈ evs).
Proof.
  induction 1 as [|evs ev H [IH1 IH2] WF]; [split; intros w X; inversion X|]. split; intros w X; apply elem_of_app in X as [X|X].
  - apply elem_of_app. left. auto.
  - apply elem_of_list_singleton in X. subst ev. destruct WF as [WF _]. apply elem_of_app. left. exact WF.
  - destruct (IH2 w X) as (n & t & Y). exists n, t. apply elem_of_app. left. exact Y.
  - apply elem_of_list_singleton in X. subst ev. destruct WF as [(n & t & Y) _]. exists n, t. apply elem_of_app. left. exact Y.
Qed.
Lemma run_snoc k evs ev : run k (evs ++ [ev]) = step (run k evs) ev.
Proof. unfold run. rewrite foldl_app. reflexivity. Qed.
Lemma history_inv k evs : history evs -> inv evs (run k evs).
Proof.
  induction 1 as [|evs ev H IH WF]; [apply init_inv|]. rewrite run_snoc. destruct (history_order _ H). apply step_inv; assumption.
Qed.
Lemma history_app evs1 evs2 : history (evs1 ++ evs2) -> history evs1.
Proof.
  induction evs2 as [|ev evs2 IH] using rev_ind; [rewrite app_nil_r; auto|]. rewrite app_assoc. intros H. inversion H as [E|evs ev' H' _ E].
  - destruct (evs1 ++ evs2); discriminate.
  - apply app_inj_tail in E as [-> _]. auto.
Qed.
Lemma history_last evs ev : history (evs ++ [ev]) -> well_formed_after evs ev.
Proof. intros H. inversion H as [E|evs' ev' H' W E]; [destruct evs; discriminate|]. apply app_inj_tail in E as [-> ->]. exact W. Qed.
