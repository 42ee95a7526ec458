(** Proofs about Wait_Model. *)
From Coq Require Import List Arith Bool ZArith Lia Permutation.
From Verif Require Import Async_Spec Async_Model Wait_Spec Wait_Model.
Import ListNotations.

Section Waiting.
Context {V : Type} (res : nat -> outcome V) (arrives : nat -> option nat) (n : nat) (single return_exceptions : bool).
Notation arrived := (arrived arrives).
Notation there := (there res arrives n single return_exceptions).
Notation success := (success res n single return_exceptions).
Notation ready := (ready arrives n).

Definition is_there (t i : nat) : Prop := exists a, arrives i = Some a /\ a <= t.
Lemma arrived_spec t i : arrived t i = true <-> is_there t i.
Proof.
  unfold Wait_Model.arrived, is_there. destruct (arrives i) as [a|]; [|split; [discriminate|intros (a & [=] & _)]].
  rewrite Nat.leb_le. split; [eauto|intros (b & [= ->] & H); exact H].
Qed.
Lemma arrived_later t t' i : t <= t' -> arrived t i = true -> arrived t' i = true.
Proof. rewrite !arrived_spec. intros H (a & E & L). exists a. split; [exact E|lia]. Qed.
Lemma in_children i : In i (children n) <-> i < n.
Proof. unfold children. rewrite in_seq. lia. Qed.
Lemma ready_spec t : ready t = true <-> forall i, i < n -> is_there t i.
Proof.
  unfold Wait_Model.ready. rewrite forallb_forall. split.
  - intros H i Hi. apply arrived_spec, H, in_children, Hi.
  - intros H i Hi. apply arrived_spec, H, in_children, Hi.
Qed.
Lemma ready_later t t' : t <= t' -> ready t = true -> ready t' = true.
Proof. rewrite !ready_spec. intros H R i Hi. destruct (R i Hi) as (a & E & L). exists a. split; [exact E|lia]. Qed.

Definition failure (o : outcome V) : Prop := forall v, o <> Val v.
Lemma success_single i : n <> 1 -> success i = true <-> ~ failure (res i).
Proof.
  intros Hn. unfold Wait_Model.success, part_answer. rewrite (proj2 (Nat.eqb_neq n 1) Hn). unfold failure. destruct (res i) as [v|en a|k] eqn:E; cbn.
  - split; [intros _ H; exact (H v eq_refl)|reflexivity].
  - split; [discriminate|intros H; destruct H; intros v [=]].
  - split; [discriminate|intros H; destruct H; intros v [=]].
Qed.
Lemma there_spec rw t : there rw t = true <->
  match rw with
  | AllCompleted => forall i, i < n -> is_there t i
  | FirstCompleted => exists i, i < n /\ is_there t i
  | FirstException => (forall i, i < n -> is_there t i) \/ exists i, i < n /\ is_there t i /\ success i = false
  end.
Proof.
  destruct rw; cbn [Wait_Model.there].
  - apply ready_spec.
  - rewrite existsb_exists. split; intros (i & H1 & H2); exists i; rewrite in_children, arrived_spec in *; auto.
  - rewrite orb_true_iff, existsb_exists. change (forallb (arrived t) (children n)) with (ready t). rewrite ready_spec. split; (intros [H|(i & H1 & H2)]; [left; exact H|right; exists i]).
    + apply andb_true_iff in H2 as [H2 H3]. rewrite negb_true_iff in H3. rewrite in_children in H1. rewrite arrived_spec in H2. auto.
    + destruct H2 as [H2 H3]. rewrite in_children, andb_true_iff, arrived_spec, negb_true_iff. auto.
Qed.
Lemma there_enough rw t : there rw t = true <-> enough rw n (is_there t) (fun i => failure (res i)).
Proof.
  rewrite there_spec. destruct rw; [reflexivity|reflexivity|]. cbn [enough]. destruct (Nat.eq_dec n 1) as [E|E].
  - split; (intros [H|(i & H1 & H2 & _)]; left; [exact H|]); intros j Hj; replace j with i by lia; exact H2.
  - split; (intros [H|(i & H1 & H2 & H3)]; [left; exact H|right; exists i; split; [exact H1|split; [exact H2|]]]).
    + assert (Hd : failure (res i) \/ ~ failure (res i)) by (destruct (res i); [right; intros F; exact (F v eq_refl)|left; intros v [=]|left; intros v [=]]).
      destruct Hd as [Hd|Hd]; [exact Hd|]. apply (success_single i E) in Hd. congruence.
    + destruct (success i) eqn:Es; [|reflexivity]. apply (success_single i E) in Es. contradiction.
Qed.
Lemma there_later rw t t' : t <= t' -> there rw t = true -> there rw t' = true.
Proof.
  intros Ht. rewrite !there_spec. assert (M : forall i, is_there t i -> is_there t' i) by (intros i (a & E & L); exists a; split; [exact E|lia]). destruct rw.
  - auto.
  - intros (i & H1 & H2). eauto.
  - intros [H|(i & H1 & H2 & H3)]; [left; auto|right; eauto].
Qed.
Lemma finished_there rw t : finished res arrives n single return_exceptions rw t = there rw t.
Proof.
  destruct rw; cbn [finished Wait_Model.there wait_parts fst snd]; [reflexivity| |].
  - induction (children n) as [|i l IH]; [reflexivity|]. cbn. destruct (arrived t i); [reflexivity|exact IH].
  - assert (E1 : match filter (fun i => negb (arrived t i)) (children n) with [] => true | _ => false end = forallb (arrived t) (children n)).
    { induction (children n) as [|i l IH]; [reflexivity|]. cbn. destruct (arrived t i); cbn; [exact IH|reflexivity]. }
    assert (E2 : existsb (fun i => negb (success i)) (filter (arrived t) (children n)) = existsb (fun i => arrived t i && negb (success i)) (children n)).
    { clear E1. induction (children n) as [|i l IH]; [reflexivity|]. cbn. destruct (arrived t i); cbn; rewrite IH; reflexivity. }
    rewrite <- E1, E2. destruct (filter (fun i => negb (arrived t i)) (children n)); reflexivity.
Qed.

Lemma wait_until_spec p t k : let t1 := wait_until p t k in t <= t1 <= t + k /\ (p t1 = true \/ t1 = t + k) /\ forall t', t <= t' < t1 -> p t' = false.
Proof.
  cbn zeta. revert t. induction k as [|k IH]; intros t; cbn [wait_until]; destruct (p t) eqn:E.
  - split; [lia|]. split; [left; exact E|intros; lia].
  - split; [lia|]. split; [right; lia|intros; lia].
  - split; [lia|]. split; [left; exact E|intros; lia].
  - destruct (IH (S t)) as (H1 & H2 & H3). split; [lia|]. split; [destruct H2; [left; assumption|right; lia]|].
    intros t' Ht. destruct (Nat.eq_dec t' t) as [->|N]; [exact E|apply H3; lia].
Qed.

Context (progress_at : nat -> nat).
Notation Loop := (Loop res arrives n single return_exceptions progress_at).
Lemma loop_reason rw interval timeout tic delay t fin bar t' bar' : Loop rw interval timeout tic delay t fin bar t' bar' -> (fin = true -> there rw t = true) ->
  t <= t' /\ (there rw t' = true \/ exists T, timeout = Some T /\ T < t' - tic) /\ bar' = Z.of_nat (progress_at t').
Proof.
  induction 1 as [t fin bar H|t bar t' bar' HT t1 t2 HL IH]; intros Hf.
  - split; [lia|]. split; [destruct H as [H|H]; [left; auto|right; exact H]|lia].
  - destruct IH as (I1 & I2 & I3). { rewrite finished_there. auto. }
    pose proof (wait_until_spec (there rw) t interval) as (W & _). fold t1 in W. split; [lia|]. split; assumption.
Qed.
Lemma loop_soon rw interval timeout tic delay D t fin bar t' bar' tc : (forall x, delay x <= D) -> Loop rw interval timeout tic delay t fin bar t' bar' ->
  there rw tc = true -> t' <= Nat.max t tc + D.
Proof.
  intros HD HL Htc. induction HL as [t fin bar H|t bar t' bar' HT t1 t2 HL IH]; [lia|].
  pose proof (wait_until_spec (there rw) t interval) as (W & W2 & W3). fold t1 in W, W2, W3.
  assert (H1 : t1 <= Nat.max t tc).
  { destruct (le_lt_dec t1 (Nat.max t tc)) as [L|L]; [exact L|exfalso]. assert (Hm : there rw (Nat.max t tc) = true) by (apply there_later with tc; [lia|exact Htc]).
    rewrite W3 in Hm by lia. discriminate. }
  specialize (HD t1). assert (E2 : t2 = t1 + delay t1) by reflexivity. clearbody t2. destruct (le_lt_dec tc t2) as [L2|L2]; [|lia].
  assert (Hs : t' = t2); [|lia]. assert (Hf : finished res arrives n single return_exceptions rw t2 = true) by (rewrite finished_there; apply there_later with tc; assumption).
  rewrite Hf in HL. inversion HL; subst; reflexivity.
Qed.
(** With a timeout: no round begins after it *)
Lemma loop_late rw interval T tic delay D t fin bar t' bar' : (forall x, delay x <= D) -> Loop rw interval (Some T) tic delay t fin bar t' bar' -> tic <= t -> t' <= Nat.max t (tic + T + interval + D).
Proof.
  intros HD HL. induction HL as [t fin bar H|t bar t' bar' HT t1 t2 HL IH]; intros Ht; [lia|].
  pose proof (wait_until_spec (there rw) t interval) as (W & _). fold t1 in W. specialize (HD t1). specialize (HT T eq_refl). assert (E2 : t2 = t1 + delay t1) by reflexivity. clearbody t2. lia.
Qed.
(** It ends *)
Lemma loop_ends rw interval timeout tic delay tc : 1 <= interval -> (there rw tc = true \/ exists T, timeout = Some T /\ tic + T < tc) ->
  forall k t fin bar, tc <= t + k -> exists t' bar', Loop rw interval timeout tic delay t fin bar t' bar'.
Proof.
  intros Hi Hc. assert (Hdec : forall t, (forall T, timeout = Some T -> t - tic <= T) \/ exists T, timeout = Some T /\ T < t - tic).
  { intros t. destruct timeout as [T|]; [|left; intros T [=]]. destruct (le_lt_dec (t - tic) T); [left; intros T' [= <-]; assumption|right; eauto]. }
  assert (Hend : forall t bar, exists t' bar', Loop rw interval timeout tic delay t true bar t' bar') by (intros t bar; do 2 eexists; apply Loop_end; left; reflexivity).
  induction k as [|k IH]; intros t fin bar Hk.
  - destruct fin; [apply Hend|]. destruct (Hdec t) as [Hd|Hd]; [|do 2 eexists; apply Loop_end; right; exact Hd].
    destruct Hc as [Hc|(T & -> & HT)]; [|specialize (Hd T eq_refl); lia].
    pose proof (wait_until_spec (there rw) t interval) as (W & _). set (t1 := wait_until (there rw) t interval) in *. destruct (Hend (t1 + delay t1) (bar + (Z.of_nat (progress_at (t1 + delay t1)) - bar))%Z) as (t' & bar' & HL).
    exists t', bar'. apply Loop_round; [exact Hd|]. fold t1. rewrite finished_there, (there_later rw tc); [exact HL|lia|exact Hc].
  - destruct fin; [apply Hend|]. destruct (Hdec t) as [Hd|Hd]; [|do 2 eexists; apply Loop_end; right; exact Hd].
    pose proof (wait_until_spec (there rw) t interval) as (W & W2 & _). set (t1 := wait_until (there rw) t interval) in *.
    assert (Hx : exists t' bar', Loop rw interval timeout tic delay (t1 + delay t1) (finished res arrives n single return_exceptions rw (t1 + delay t1)) (bar + (Z.of_nat (progress_at (t1 + delay t1)) - bar))%Z t' bar').
    { destruct W2 as [W2|W2]; [|apply IH; lia]. rewrite finished_there, (there_later rw t1); [apply Hend|lia|exact W2]. }
    destruct Hx as (t' & bar' & HL). exists t', bar'. apply Loop_round; [exact Hd|exact HL].
Qed.
End Waiting.

(* ------------------------------------------------------------------ times *)
Lemma fold_min l : forall x, let m := fold_left Nat.min l x in (m = x \/ In m l) /\ m <= x /\ forall y, In y l -> m <= y.
Proof.
  cbn zeta. induction l as [|y l IH]; intros x; cbn [fold_left]; [split; [auto|split; [lia|intros y []]]|]. destruct (IH (Nat.min x y)) as (H1 & H2 & H3). split; [|split].
  - destruct H1 as [->|H1]; [|right; right; exact H1]. destruct (Nat.min_spec x y) as [[_ ->]|[_ ->]]; [left; reflexivity|right; left; reflexivity].
  - lia.
  - intros z [<-|Hz]; [lia|apply H3, Hz].
Qed.
Lemma fold_max l : forall x, let m := fold_left Nat.max l x in (m = x \/ In m l) /\ x <= m /\ forall y, In y l -> y <= m.
Proof.
  cbn zeta. induction l as [|y l IH]; intros x; cbn [fold_left]; [split; [auto|split; [lia|intros y []]]|]. destruct (IH (Nat.max x y)) as (H1 & H2 & H3). split; [|split].
  - destruct H1 as [->|H1]; [|right; right; exact H1]. destruct (Nat.max_spec x y) as [[_ ->]|[_ ->]]; [right; left; reflexivity|left; reflexivity].
  - lia.
  - intros z [<-|Hz]; [lia|apply H3, Hz].
Qed.
Lemma minimum_spec l m : minimum l = Some m -> In m l /\ forall y, In y l -> m <= y.
Proof.
  destruct l as [|x l]; [discriminate|]. cbn [minimum]. intros [= <-]. destruct (fold_min l x) as (H1 & H2 & H3). split; [destruct H1 as [E|H1]; [left; symmetry; exact E|right; exact H1]|].
  intros y [<-|Hy]; [exact H2|apply H3, Hy].
Qed.
Lemma maximum_spec l m : maximum l = Some m -> In m l /\ forall y, In y l -> y <= m.
Proof.
  destruct l as [|x l]; [discriminate|]. cbn [maximum]. intros [= <-]. destruct (fold_max l x) as (H1 & H2 & H3). split; [destruct H1 as [E|H1]; [left; symmetry; exact E|right; exact H1]|].
  intros y [<-|Hy]; [exact H2|apply H3, Hy].
Qed.

(** The length of intervals which do not overlap is at most that of an interval containing them. *)
Definition points (iv : nat * nat) : list nat := seq (fst iv) (snd iv - fst iv).
Lemma packing ivs a b : ForallOrdPairs (fun x y => snd x <= fst y \/ snd y <= fst x) ivs -> Forall (fun x => a <= fst x /\ fst x <= snd x /\ snd x <= b) ivs -> ivs <> [] ->
  list_sum (map (fun x => snd x - fst x) ivs) <= b - a.
Proof.
  intros HP HF Hne. assert (Hlen : list_sum (map (fun x => snd x - fst x) ivs) = length (flat_map points ivs)).
  { clear. induction ivs as [|x l IH]; [reflexivity|]. change (list_sum (map (fun x => snd x - fst x) (x :: l))) with ((snd x - fst x) + list_sum (map (fun x => snd x - fst x) l)).
    cbn [flat_map]. rewrite app_length, <- IH. unfold points at 1. rewrite seq_length. reflexivity. }
  rewrite Hlen, <- (seq_length (b - a) a). apply NoDup_incl_length.
  - clear Hlen Hne. induction HP as [|x l Hx HP IH]; [constructor|]. inversion HF as [|? ? Fx Fl]; subst. cbn [flat_map]. specialize (IH Fl).
    assert (Hdis : forall p, In p (points x) -> ~ In p (flat_map points l)).
    { intros p Hp Hq. apply in_flat_map in Hq as (y & Hy & Hq). rewrite Forall_forall in Hx. specialize (Hx y Hy). unfold points in Hp, Hq. rewrite in_seq in Hp, Hq. lia. }
    clear - IH Hdis. assert (Hn : NoDup (points x)) by apply seq_NoDup. induction (points x) as [|p q IHp]; [exact IH|]. inversion Hn; subst. cbn. constructor.
    + rewrite in_app_iff. intros [H|H]; [contradiction|]. exact (Hdis p (or_introl eq_refl) H).
    + apply IHp; [intros p' Hp'; apply Hdis; right; exact Hp'|assumption].
  - intros p Hp. apply in_flat_map in Hp as (x & Hx & Hp). rewrite Forall_forall in HF. specialize (HF x Hx). unfold points in Hp. rewrite in_seq in *. lia.
Qed.
Definition span (t : times) : nat := match started t, completed t with Some s, Some c => c - s | _, _ => 0 end.
Lemma packing_engine ts e a b : ForallOrdPairs (fun x y => engine x = engine y -> one_after_the_other x y) ts ->
  Forall (fun t => exists s c, started t = Some s /\ completed t = Some c /\ a <= s /\ s <= c /\ c <= b) ts ->
  list_sum (map span (filter (fun t => engine t =? e) ts)) <= b - a.
Proof.
  intros HP HF. set (l := filter _ ts).
  assert (HP' : ForallOrdPairs one_after_the_other l).
  { unfold l. clear l HF. induction HP as [|x ts Hx HP IH]; [constructor|]. cbn [filter]. destruct (Nat.eqb_spec (engine x) e) as [E|]; [|exact IH]. constructor; [|exact IH].
    rewrite Forall_forall in *. intros y Hy. apply filter_In in Hy as [Hy Ey]. apply Nat.eqb_eq in Ey. apply Hx; [exact Hy|congruence]. }
  assert (HF' : Forall (fun t => exists s c, started t = Some s /\ completed t = Some c /\ a <= s /\ s <= c /\ c <= b) l).
  { rewrite Forall_forall in *. intros y Hy. apply filter_In in Hy as [Hy _]. auto. }
  clearbody l. clear HP HF. set (iv := fun t => (match started t with Some s => s | None => 0 end, match completed t with Some c => c | None => 0 end)).
  destruct l as [|t0 l0] eqn:El; [cbn; lia|]. rewrite <- El in *. assert (Hne : map iv l <> []) by (rewrite El; discriminate). clear El t0 l0.
  replace (list_sum (map span l)) with (list_sum (map (fun x => snd x - fst x) (map iv l))).
  - apply packing; [| |exact Hne].
    + clear Hne. induction HP' as [|x l Hx HP IH]; [constructor|]. inversion HF' as [|? ? Fx Fl]; subst. cbn [map]. constructor; [|apply IH, Fl].
      rewrite Forall_forall in *. intros y Hy. apply in_map_iff in Hy as (t & <- & Ht). destruct Fx as (s & c & E1 & E2 & _). destruct (Fl t Ht) as (s' & c' & E3 & E4 & _).
      unfold iv. rewrite E1, E2, E3, E4. cbn [fst snd]. exact (Hx t Ht _ _ _ _ E1 E2 E3 E4).
    + rewrite Forall_forall in *. intros y Hy. apply in_map_iff in Hy as (t & <- & Ht). destruct (HF' t Ht) as (s & c & E1 & E2 & ?). unfold iv. rewrite E1, E2. cbn. lia.
  - rewrite map_map. f_equal. apply map_ext_in. intros t Ht. rewrite Forall_forall in HF'. destruct (HF' t Ht) as (s & c & E1 & E2 & _). unfold iv, span. rewrite E1, E2. reflexivity.
Qed.
Lemma sum_by_engine ts E : (forall t, In t ts -> In (engine t) E) -> list_sum (map span ts) <= list_sum (map (fun e => list_sum (map span (filter (fun t => engine t =? e) ts))) E).
Proof.
  intros H. induction ts as [|t ts IH]; [cbn; lia|]. cbn [map]. change (list_sum (span t :: map span ts)) with (span t + list_sum (map span ts)).
  specialize (IH (fun x Hx => H x (or_intror Hx))). assert (Ht : In (engine t) E) by (apply H; left; reflexivity). clear H.
  enough (G : span t + list_sum (map (fun e => list_sum (map span (filter (fun x => engine x =? e) ts))) E) <= list_sum (map (fun e => list_sum (map span (filter (fun x => engine x =? e) (t :: ts)))) E)) by lia.
  clear IH. induction E as [|e E IH]; [destruct Ht|]. cbn [map]. change (list_sum (?a :: ?l)) with (a + list_sum l).
  assert (Hle : list_sum (map span (filter (fun x => engine x =? e) ts)) <= list_sum (map span (filter (fun x => engine x =? e) (t :: ts)))).
  { cbn [filter]. destruct (engine t =? e); [cbn [map]; change (list_sum (?a :: ?l)) with (a + list_sum l); lia|lia]. }
  assert (Hall : list_sum (map (fun e => list_sum (map span (filter (fun x => engine x =? e) ts))) E) <= list_sum (map (fun e => list_sum (map span (filter (fun x => engine x =? e) (t :: ts)))) E)).
  { clear. induction E as [|e E IH]; [apply le_n|]. cbn [map]. change (list_sum (?a :: ?l)) with (a + list_sum l).
    assert (Hle : list_sum (map span (filter (fun x => engine x =? e) ts)) <= list_sum (map span (filter (fun x => engine x =? e) (t :: ts)))).
    { cbn [filter]. destruct (engine t =? e); [cbn [map]; change (list_sum (?a :: ?l)) with (a + list_sum l); lia|lia]. } lia. }
  destruct (Nat.eq_dec e (engine t)) as [->|N].
  - cbn [filter]. rewrite Nat.eqb_refl. cbn [map]. change (list_sum (span t :: ?l)) with (span t + list_sum l). cbn [filter] in Hall. lia.
  - destruct Ht as [Ht|Ht]; [congruence|]. specialize (IH Ht). lia.
Qed.
Lemma serial_spec ts : (forall t, In t ts -> exists s c, started t = Some s /\ completed t = Some c /\ s <= c) -> serial_time ts = Some (Z.of_nat (list_sum (map span ts))).
Proof.
  unfold serial_time. assert (G : forall ts x, (forall t, In t ts -> exists s c, started t = Some s /\ completed t = Some c /\ s <= c) ->
    fold_left (fun acc t => match acc, started t, completed t with Some x, Some s, Some c => Some (x + (Z.of_nat c - Z.of_nat s))%Z | _, _, _ => None end) ts (Some x) = Some (x + Z.of_nat (list_sum (map span ts)))%Z).
  { clear. induction ts as [|t ts IH]; intros x H; [cbn; f_equal; lia|]. cbn [fold_left map]. destruct (H t (or_introl eq_refl)) as (s & c & E1 & E2 & L). rewrite E1, E2.
    rewrite IH by (intros y Hy; apply H; right; exact Hy). change (list_sum (span t :: map span ts)) with (span t + list_sum (map span ts)). unfold span at 2. rewrite E1, E2. f_equal. lia. }
  intros H. rewrite G by exact H. f_equal.
Qed.
Lemma serial_none ts : (exists t, In t ts /\ (started t = None \/ completed t = None)) -> serial_time ts = None.
Proof.
  unfold serial_time. set (f := fun acc t => _). assert (Hn : forall l, fold_left f l None = None) by (induction l; [reflexivity|assumption]).
  intros (t & Ht & H). apply in_split in Ht as (l1 & l2 & ->). rewrite fold_left_app. cbn [fold_left]. replace (f (fold_left f l1 (Some 0%Z)) t) with (@None Z); [apply Hn|].
  unfold f at 1. destruct (fold_left _ _ _); [|reflexivity]. destruct H as [-> | ->]; [reflexivity|destruct (started t); reflexivity].
Qed.
Lemma serial_sum ts ds : Forall2 (fun t d => exists s c, started t = Some s /\ completed t = Some c /\ d = (Z.of_nat c - Z.of_nat s)%Z) ts ds -> serial_time ts = Some (fold_right Z.add 0%Z ds).
Proof.
  unfold serial_time. assert (G : forall x, Forall2 (fun t d => exists s c, started t = Some s /\ completed t = Some c /\ d = (Z.of_nat c - Z.of_nat s)%Z) ts ds ->
    fold_left (fun acc t => match acc, started t, completed t with Some x, Some s, Some c => Some (x + (Z.of_nat c - Z.of_nat s))%Z | _, _, _ => None end) ts (Some x) = Some (x + fold_right Z.add 0 ds)%Z).
  { intros x H. revert x. induction H as [|t d ts ds (s & c & E1 & E2 & ->) H IH]; intros x; cbn [fold_left fold_right]; [f_equal; lia|]. rewrite E1, E2, IH. f_equal. lia. }
  intros H. rewrite G by exact H. f_equal.
Qed.
Lemma durations_known ts : (forall t, In t ts -> started t <> None /\ completed t <> None) ->
  exists ds, Forall2 (fun t d => exists s c, started t = Some s /\ completed t = Some c /\ d = (Z.of_nat c - Z.of_nat s)%Z) ts ds.
Proof.
  induction ts as [|t ts IH]; intros H; [exists []; constructor|]. destruct IH as (ds & IH); [intros x Hx; apply H; right; exact Hx|].
  destruct (H t (or_introl eq_refl)) as [H1 H2]. destruct (started t) as [s|] eqn:E1; [|congruence]. destruct (completed t) as [c|] eqn:E2; [|congruence].
  eexists (_ :: ds). constructor; [exists s, c; split; [exact E1|split; [exact E2|reflexivity]]|exact IH].
Qed.
Lemma earliest_spec ts : forall now, let m := fold_left (fun s t => if (submitted t <? s)%nat then submitted t else s) ts now in
  (m = now \/ exists t, In t ts /\ submitted t = m) /\ m <= now /\ forall t, In t ts -> m <= submitted t.
Proof.
  cbn zeta. induction ts as [|t ts IH]; intros now; cbn [fold_left]; [split; [auto|split; [lia|intros t []]]|].
  destruct (Nat.ltb_spec (submitted t) now) as [L|L].
  - destruct (IH (submitted t)) as (H1 & H2 & H3). split; [|split; [lia|intros x [<-|Hx]; [exact H2|apply H3, Hx]]].
    destruct H1 as [H1|(x & Hx & E)]; [right; exists t; split; [left; reflexivity|congruence]|right; exists x; split; [right; exact Hx|exact E]].
  - destruct (IH now) as (H1 & H2 & H3). split; [|split; [lia|intros x [<-|Hx]; [lia|apply H3, Hx]]].
    destruct H1 as [H1|(x & Hx & E)]; [left; exact H1|right; exists x; split; [right; exact Hx|exact E]].
Qed.
