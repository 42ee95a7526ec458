From Coq Require Import List String Ascii Bool Arith Lia Permutation.
From Verif Require Import Out_Spec Out_Model Out_Proofs Str_Spec Str_Model Str_Proofs.
Import ListNotations.

Lemma upd_eq : forall A f (x : A) g, upd f x g f = x.
Proof. intros. unfold upd. rewrite Nat.eqb_refl. reflexivity. Qed.
Lemma upd_ne : forall A f (x : A) g i, i <> f -> upd f x g i = g i.
Proof. intros. unfold upd. destruct (Nat.eqb_spec i f); [contradiction | reflexivity]. Qed.
Lemma fold_app_flat : forall A B (f : A -> list B) l acc, fold_left (fun s c => s ++ f c) l acc = acc ++ flat_map f l.
Proof. intros A B f. induction l as [|x l IH]; intros acc; cbn [fold_left flat_map]; [rewrite app_nil_r; reflexivity|]. rewrite IH, app_assoc. reflexivity. Qed.

(** ** Schedules *)
Lemma NoDup_pre : forall A (a b : list A), NoDup (a ++ b) -> NoDup a.
Proof.
  intros A. induction a as [|x a IH]; intros b H; [constructor|]. cbn [app] in H. inversion_clear H. constructor; [|apply (IH b); assumption].
  intros X. apply H0, in_app_iff. left. exact X.
Qed.
Lemma program_NoDup : forall n, NoDup (program n).
Proof.
  intros n. unfold program. assert (G : forall m a, NoDup (flat_map (fun k => [Enter k; Publish k POut; Publish k PErr; Publish k POutputs; Publish k PResult]) (seq a m)) /\
    (forall k, In (Enter k) (flat_map (fun k => [Enter k; Publish k POut; Publish k PErr; Publish k POutputs; Publish k PResult]) (seq a m)) -> a <= k) /\
    (forall k p, In (Publish k p) (flat_map (fun k => [Enter k; Publish k POut; Publish k PErr; Publish k POutputs; Publish k PResult]) (seq a m)) -> a <= k) /\
    ~ In Leave (flat_map (fun k => [Enter k; Publish k POut; Publish k PErr; Publish k POutputs; Publish k PResult]) (seq a m))).
  { induction m as [|m IH]; intros a; cbn [seq flat_map].
    - repeat split; try (intros; contradiction); [constructor | intros []].
    - destruct (IH (S a)) as (N & E & P & L). split; [|split; [|split]].
      + cbn [app]. repeat constructor; try exact N; intros H; repeat (destruct H as [H|H]; [discriminate|]); first [apply E in H | apply P in H]; lia.
      + intros k H. cbn [app] in H. destruct H as [H|H]; [injection H as ->; lia|]. repeat (destruct H as [H|H]; [discriminate|]). apply E in H. lia.
      + intros k p H. cbn [app] in H. destruct H as [H|H]; [discriminate|]. repeat (destruct H as [H|H]; [injection H as -> _; lia|]). apply P in H. lia.
      + intros H. cbn [app] in H. repeat (destruct H as [H|H]; [discriminate|]). exact (L H). }
  destruct (G n 0) as (N & _ & _ & L).
  assert (X : forall l : list event, NoDup l -> ~ In Leave l -> NoDup (l ++ [Leave])).
  { induction l as [|x l IH]; intros Hn Hl; [repeat constructor; intros []|]. inversion_clear Hn. cbn [app]. constructor.
    - intros H1. apply in_app_iff in H1. destruct H1 as [H1|[H1|[]]]; [contradiction|]. subst. apply Hl. left. reflexivity.
    - apply IH; [assumption | intros H1; apply Hl; right; exact H1]. }
  apply X; assumption.
Qed.
Lemma main_NoDup : forall n p h q, schedule n p h q -> NoDup (filter is_main h).
Proof. intros n p h q [_ [rest E]]. pose proof (program_NoDup n) as N. rewrite <- E in N. apply NoDup_pre in N. exact N. Qed.
(** a caller's step occurs only once *)
Lemma main_once : forall n p h q x a b, schedule n p h q -> is_main x = true -> h = a ++ x :: b -> ~ In x a /\ ~ In x b.
Proof.
  intros n p h q x a b S M ->. pose proof (main_NoDup _ _ _ _ S) as N. rewrite filter_app in N. cbn [filter] in N. rewrite M in N. apply NoDup_remove_2 in N.
  split; intros H; apply N; apply in_app_iff; [left | right]; apply filter_In; split; assumption.
Qed.
(** after the end of the with statement the caller does nothing *)
Lemma leave_last : forall n p a b q, schedule n p (a ++ Leave :: b) q -> filter is_main b = [].
Proof.
  intros n p a b q S. pose proof (main_once _ _ _ _ Leave a b S eq_refl eq_refl) as [N1 N2]. destruct S as [_ [rest E]]. rewrite filter_app in E. cbn [filter is_main] in E.
  rewrite <- app_assoc in E. cbn [app] in E. unfold program in E.
  set (l := flat_map _ (seq 0 n)) in E. assert (NL : ~ In Leave l).
  { intros H. unfold l in H. apply in_flat_map in H. destruct H as (k & _ & H). repeat (destruct H as [H|H]; [discriminate|]). destruct H. }
  clearbody l. assert (NA : ~ In Leave (filter is_main a)) by (intros H; apply filter_In in H; destruct H; contradiction). revert l NL E NA. generalize (filter is_main a) as u, (filter is_main b) as v. clear.
  induction u as [|x u IH]; intros v l NL E NA.
  - destruct l as [|y l]; [|injection E as E1 E; subst y; destruct NL; left; reflexivity]. cbn [app] in E. injection E as E. destruct v; [reflexivity | discriminate].
  - destruct l as [|y l].
    + cbn [app] in E. injection E as E1 E. subst x. destruct NA. left. reflexivity.
    + cbn [app] in E. injection E as -> E. apply (IH v l); [intros H; apply NL; right; exact H | exact E | intros H; apply NA; right; exact H].
Qed.
Lemma leave_not_before : forall n p a x b q, schedule n p (a ++ x :: b) q -> is_main x = true -> ~ In Leave a.
Proof.
  intros n p a x b q S M H. apply in_split in H. destruct H as (a1 & a2 & ->). rewrite <- app_assoc in S. cbn [app] in S. apply leave_last in S.
  rewrite filter_app in S. cbn [filter] in S. rewrite M in S. apply app_eq_nil in S. destruct S. discriminate.
Qed.
Lemma io_app : forall a p b q, io p (a ++ b) q -> exists r, io p a r /\ io r b q.
Proof.
  induction a as [|x a IH]; intros p b q H; cbn [app] in H; [exists p; split; [constructor | exact H]|].
  inversion H; subst; match goal with X : io _ (a ++ b) _ |- _ => destruct (IH _ _ _ X) as (r & R1 & R2) end; exists r; (split; [|exact R2]).
  - apply io_arrive; exact R1. - apply io_callbacks; exact R1. - apply io_main; assumption.
Qed.
Definition pend (p : option (nat * output)) (f : nat) : list output := match p with Some (g, o) => if Nat.eqb g f then [o] else [] | None => [] end.
Lemma io_balance : forall p h q f, io p h q -> pend p f ++ arrivals f h = handled f h ++ pend q f.
Proof.
  intros p h q f H. induction H as [p|g o h q H IH|g o h q H IH|e p h q M H IH].
  - cbn. rewrite app_nil_r. reflexivity.
  - unfold arrivals, handled in *. cbn [flat_map pend app] in *. exact IH.
  - unfold arrivals, handled in *. cbn [flat_map pend app] in *. rewrite <- app_assoc, <- IH. reflexivity.
  - unfold arrivals, handled in *. cbn [flat_map]. destruct e; try discriminate M; exact IH.
Qed.

Section stream.
Context (w : place) (children : list (nat * nat)) (before : nat -> list output) (others : nat -> nat).
Notation step := (step w children).
Notation run := (run w children before others).
Notation callback := (callback w).
Lemma run_app : forall a b, run (a ++ b) = fold_left step b (run a).
Proof. intros. unfold Str_Model.run. apply fold_left_app. Qed.

(** ** What one step does *)
Definition citems (o : output) : list item := match o with Stream _ _ => if in_kernel w then [] else items (ipython w) o | _ => items (ipython w) o end.
Lemma callback_same : forall k e f par o s, mds (callback k e f par o s) = mds s /\ callbacks (callback k e f par o s) = callbacks s /\
  future_callbacks (callback k e f par o s) = future_callbacks s /\ screen (callback k e f par o s) = screen s ++ map (pair k) (citems o).
Proof.
  intros k e f par o s. unfold Str_Model.callback, citems. destruct o; cbn [items]; try (repeat split; rewrite app_nil_r; reflexivity); try (repeat split; reflexivity).
  - destruct (in_kernel w); repeat split; cbn; rewrite ?app_nil_r; reflexivity.
  - destruct (ipython w); repeat split; cbn; rewrite ?app_nil_r; reflexivity.
Qed.
Definition cb_items (o : output) (cb : option nat) : list (nat * item) :=
  match cb with Some j => match nth_error children j with Some _ => map (pair j) (citems o) | None => [] end | None => [] end.
Lemma run_callbacks_same : forall g o s, let s' := run_callbacks w children g o s in mds s' = mds s /\ callbacks s' = callbacks s /\ future_callbacks s' = future_callbacks s /\
  screen s' = screen s ++ flat_map (cb_items o) (callbacks s g).
Proof.
  intros g o s. unfold run_callbacks. generalize (callbacks s g) as l. intros l. revert s. induction l as [|cb l IH]; intros s; cbn [fold_left flat_map].
  - rewrite app_nil_r. repeat split; reflexivity.
  - match goal with |- context [fold_left ?F l ?x] => specialize (IH x) end. cbv zeta in IH. destruct IH as (I1 & I2 & I3 & I4). cbv zeta. rewrite I1, I2, I3, I4.
    destruct cb as [k|]; [|repeat split; reflexivity]. unfold cb_items at 2. destruct (nth_error children k) as [[e f]|]; [|repeat split; reflexivity].
    destruct (callback_same k e f (Some g) o s) as (C1 & C2 & C3 & C4). rewrite C1, C2, C3, C4, <- app_assoc. repeat split; reflexivity.
Qed.
Definition pitems (p : part) (m : md) : list item :=
  match p with
  | POut => if is_nil (stdout m) then [] else citems (Stream false (stdout m))
  | PErr => if is_nil (stderr m) then [] else citems (Stream true (stderr m))
  | POutputs => flat_map (fun c => citems (Display c)) (outputs m)
  | PResult => match execute_result m with Some c => citems (ResultOut c) | None => [] end
  end.
Lemma publish_same : forall k e f p s, let s' := publish w k e f p s in mds s' = mds s /\ callbacks s' = callbacks s /\ future_callbacks s' = future_callbacks s /\
  screen s' = screen s ++ map (pair k) (pitems p (mds s f)).
Proof.
  intros k e f p s. unfold publish, pitems. destruct p.
  - destruct (is_nil _); [cbn [map]; rewrite app_nil_r; repeat split; reflexivity | apply callback_same].
  - destruct (is_nil _); [cbn [map]; rewrite app_nil_r; repeat split; reflexivity | apply callback_same].
  - generalize (outputs (mds s f)) as l. intros l. cbv zeta. revert s. induction l as [|c l IH]; intros s; cbn [fold_left flat_map map]; [rewrite app_nil_r; repeat split; reflexivity|].
    specialize (IH (callback k e f None (Display c) s)). destruct IH as (I1 & I2 & I3 & I4). destruct (callback_same k e f None (Display c) s) as (C1 & C2 & C3 & C4).
    rewrite I1, I2, I3, I4, C1, C2, C3, C4, <- app_assoc, <- map_app. repeat split; reflexivity.
  - destruct (execute_result _); [apply callback_same | cbn [map]; rewrite app_nil_r; repeat split; reflexivity].
Qed.
(** ** The metadata *)
Lemma step_mds : forall s x f, mds (step s x) f = match x with Arrive g o => if Nat.eqb g f then capture o (mds s f) else mds s f | _ => mds s f end.
Proof.
  intros s x f. destruct x; cbn [Str_Model.step].
  - cbn [mds]. unfold upd. rewrite Nat.eqb_sym. destruct (Nat.eqb_spec f0 f); [subst|]; reflexivity.
  - rewrite (proj1 (run_callbacks_same _ _ _)). reflexivity.
  - destruct (nth_error children k) as [[e g]|]; reflexivity.
  - destruct (nth_error children k) as [[e g]|]; [|reflexivity]. rewrite (proj1 (publish_same _ _ _ _ _)). reflexivity.
  - reflexivity.
Qed.
Lemma holds_start : forall f, holds (before f) (mds (start before others) f).
Proof.
  intros f. cbn [start mds]. assert (G : forall l a m, holds a m -> holds (a ++ l) (fold_left (fun m o => capture o m) l m)).
  { induction l as [|o l IH]; intros a m H; cbn [fold_left]; [rewrite app_nil_r; exact H|]. replace (a ++ o :: l) with ((a ++ [o]) ++ l) by (rewrite <- app_assoc; reflexivity). apply IH, holds_snoc, H. }
  apply (G (before f) [] new_md holds_nil).
Qed.
Lemma holds_fold : forall h s a f, holds a (mds s f) -> holds (a ++ arrivals f h) (mds (fold_left step h s) f).
Proof.
  induction h as [|x h IH]; intros s a f H; cbn [fold_left]; [unfold arrivals; cbn [flat_map]; rewrite app_nil_r; exact H|].
  unfold arrivals. cbn [flat_map]. rewrite app_assoc. apply IH. rewrite step_mds. destruct x; try (rewrite app_nil_r; exact H). destruct (Nat.eqb f0 f); [apply holds_snoc; exact H | rewrite app_nil_r; exact H].
Qed.
Lemma holds_run : forall h f, holds (before f ++ arrivals f h) (mds (run h) f).
Proof. intros h f. apply holds_fold, holds_start. Qed.

(** ** What is shown for one child *)
Context (k e f : nat) (Hk : nth_error children k = Some (e, f)) (ND : NoDup (map snd children)).
Lemma other_child : forall j e' f', nth_error children j = Some (e', f') -> j <> k -> f' <> f.
Proof.
  intros j e' f' Hj N ->. assert (A : nth_error (map snd children) j = Some f) by (rewrite nth_error_map, Hj; reflexivity). assert (B : nth_error (map snd children) k = Some f) by (rewrite nth_error_map, Hk; reflexivity).
  apply N. apply (proj1 (NoDup_nth_error _) ND); [apply nth_error_Some; rewrite A; discriminate | rewrite A, B; reflexivity].
Qed.
Definition view (P : item -> bool) (s : st) : list item := filter P (map snd (filter (fun x => Nat.eqb (fst x) k) (screen s))).
Lemma view_app : forall P a b s s', screen s' = a ++ b -> screen s = a -> view P s' = view P s ++ filter P (map snd (filter (fun x => Nat.eqb (fst x) k) b)).
Proof. intros P a b s s' E1 E2. unfold view. rewrite E1, E2, filter_app, map_app, filter_app. reflexivity. Qed.
Lemma view_same : forall P s s', screen s' = screen s -> view P s' = view P s.
Proof. intros P s s' E. unfold view. rewrite E. reflexivity. Qed.
Lemma mine : forall l, map snd (filter (fun x : nat * item => Nat.eqb (fst x) k) (map (pair k) l)) = l.
Proof. induction l as [|x l IH]; [reflexivity|]. cbn [map filter fst]. rewrite Nat.eqb_refl. cbn [map snd]. rewrite IH. reflexivity. Qed.
Lemma not_mine : forall j l, j <> k -> map snd (filter (fun x : nat * item => Nat.eqb (fst x) k) (map (pair j) l)) = [].
Proof. intros j l N. induction l as [|x l IH]; [reflexivity|]. cbn [map filter fst]. destruct (Nat.eqb_spec j k); [contradiction | exact IH]. Qed.
Lemma cb_not_mine : forall o l, ~ In (Some k) l -> map snd (filter (fun x : nat * item => Nat.eqb (fst x) k) (flat_map (cb_items o) l)) = [].
Proof.
  intros o. induction l as [|cb l IH]; intros N; [reflexivity|]. cbn [flat_map]. rewrite filter_app, map_app, IH by (intros H; apply N; right; exact H). rewrite app_nil_r.
  destruct cb as [j|]; [|reflexivity]. cbn [cb_items]. destruct (nth_error children j); [|reflexivity]. apply not_mine. intros ->. apply N. left. reflexivity.
Qed.
Lemma not_in_none : forall m, ~ In (Some k) (repeat None m).
Proof. intros m H. apply repeat_spec in H. discriminate. Qed.

Definition entered_cbs (s : st) (entered : bool) : Prop :=
  callbacks s f = repeat None (others f) ++ (if entered then [Some k] else []) /\ forall g, g <> f -> ~ In (Some k) (callbacks s g).
Lemma segment : forall P entered h s, ~ In Leave h -> ~ In (Enter k) h -> (forall p, In (Publish k p) h -> forall m, filter P (pitems p m) = []) -> entered_cbs s entered ->
  let s' := fold_left step h s in
  view P s' = view P s ++ (if entered then filter P (flat_map citems (handled f h)) else []) /\ entered_cbs s' entered.
Proof.
  intros P entered. induction h as [|x h IH]; intros s NL NE NP [C1 C2]; cbn [fold_left].
  - split; [destruct entered; cbn; rewrite app_nil_r; reflexivity | split; assumption].
  - assert (X : view P (step s x) = view P s ++ (if entered then filter P (flat_map citems (handled f [x])) else []) /\ entered_cbs (step s x) entered).
    { destruct x as [g o|g o|j|j p|].
      - split; [|split; assumption]. cbn. destruct entered; rewrite app_nil_r; reflexivity.
      - cbn [Str_Model.step]. destruct (run_callbacks_same g o s) as (R1 & R2 & R3 & R4). split; [|unfold entered_cbs; rewrite R2; split; assumption].
        rewrite (view_app P _ _ s _ R4 eq_refl). f_equal. unfold handled. cbn [flat_map]. rewrite app_nil_r. destruct (Nat.eqb_spec g f) as [->|N].
        + rewrite C1, flat_map_app, filter_app, map_app, cb_not_mine by apply not_in_none. cbn [app]. destruct entered; [|reflexivity]. cbn [flat_map cb_items]. rewrite Hk, !app_nil_r. rewrite mine. reflexivity.
        + rewrite cb_not_mine by (apply C2; exact N). cbn. destruct entered; reflexivity.
      - cbn [Str_Model.step]. assert (N : j <> k) by (intros ->; apply NE; left; reflexivity). destruct (nth_error children j) as [[e' f']|] eqn:Ej.
        + pose proof (other_child _ _ _ Ej N) as N'. split; [cbn; destruct entered; rewrite app_nil_r; reflexivity|]. split; cbn [callbacks].
          * rewrite upd_ne by (intros X; apply N'; symmetry; exact X). exact C1.
          * intros g Ng H. unfold upd in H. destruct (Nat.eqb_spec g f') as [->|]; [|exact (C2 _ Ng H)]. apply in_app_iff in H. destruct H as [H|[H|[]]]; [exact (C2 _ N' H) | injection H as ->; apply N; reflexivity].
        + split; [cbn; destruct entered; rewrite app_nil_r; reflexivity | split; assumption].
      - cbn [Str_Model.step]. replace (if entered then filter P (flat_map citems (handled f [Publish j p])) else []) with (@nil item) by (destruct entered; reflexivity). rewrite app_nil_r.
        destruct (nth_error children j) as [[e' f']|] eqn:Ej; [|split; [reflexivity | split; assumption]].
        destruct (publish_same j e' f' p s) as (R1 & R2 & R3 & R4). split; [|unfold entered_cbs; rewrite R2; split; assumption]. rewrite (view_app P _ _ s _ R4 eq_refl).
        destruct (Nat.eq_dec j k) as [->|N]; [|rewrite not_mine by exact N; cbn; apply app_nil_r]. rewrite mine, (NP p) by (left; reflexivity). apply app_nil_r.
      - destruct NL. left. reflexivity. }
    destruct X as [X1 X2]. destruct (IH (step s x)) as [Y1 Y2]; [intros H; apply NL; right; exact H | intros H; apply NE; right; exact H | intros p H; apply NP; right; exact H | exact X2|].
    cbv zeta. split; [|exact Y2]. rewrite Y1, X1. destruct entered; [|rewrite !app_nil_r; reflexivity]. rewrite <- app_assoc. f_equal. rewrite <- filter_app, <- flat_map_app. unfold handled. cbn [flat_map]. rewrite app_nil_r. reflexivity.
Qed.
Lemma entered_start : entered_cbs (start before others) false.
Proof. split; [cbn; rewrite app_nil_r; reflexivity | intros g _; apply not_in_none]. Qed.
Lemma enter_step : forall s, entered_cbs s false -> entered_cbs (step s (Enter k)) true.
Proof.
  intros s [C1 C2]. cbn [Str_Model.step]. rewrite Hk. split; cbn [callbacks].
  - rewrite upd_eq, C1, app_nil_r. reflexivity.
  - intros g N. rewrite upd_ne by exact N. apply C2, N.
Qed.
Lemma pitems_part : forall c p m, p <> c -> filter (is_part c) (pitems p m) = [].
Proof.
  intros c p m N. unfold pitems, citems. destruct p.
  - destruct (is_nil _); [reflexivity|]. destruct (in_kernel w); [reflexivity|]. destruct c; first [contradiction | reflexivity].
  - destruct (is_nil _); [reflexivity|]. destruct (in_kernel w); [reflexivity|]. destruct c; first [contradiction | reflexivity].
  - cbn [items]. destruct (ipython w).
    + induction (outputs m) as [|x l IH]; [reflexivity|]. cbn [flat_map app filter]. rewrite IH. destruct c; first [contradiction | reflexivity].
    + induction (outputs m) as [|x l IH]; [reflexivity|]. cbn [flat_map app]. exact IH.
  - destruct (execute_result m); [|reflexivity]. destruct c; first [contradiction | reflexivity].
Qed.
Lemma pitems_captured : forall c os m, (in_kernel w = false \/ c = POutputs \/ c = PResult) -> holds os m -> shows_captured (ipython w) c os (filter (is_part c) (pitems c m)).
Proof.
  intros c os m K (H1 & H2 & H3 & H4 & H5 & H6 & H7). unfold pitems, citems. destruct c; cbn [shows_captured].
  - destruct K as [K|[K|K]]; [|discriminate|discriminate]. rewrite K. exists (stdout m). split; [exact H1|]. destruct (stdout m); reflexivity.
  - destruct K as [K|[K|K]]; [|discriminate|discriminate]. rewrite K. exists (stderr m). split; [exact H2|]. destruct (stderr m); reflexivity.
  - cbn [items]. rewrite <- H6. clear H6. destruct (ipython w).
    + induction (outputs m) as [|x l IH]; [reflexivity|]. cbn [flat_map app filter map is_part]. f_equal. exact IH.
    + induction (outputs m) as [|x l IH]; [reflexivity|]. exact IH.
  - rewrite <- H5. destruct (execute_result m); reflexivity.
Qed.
Lemma citems_part : forall c os, (in_kernel w = false \/ c = POutputs \/ c = PResult) -> filter (is_part c) (flat_map citems os) = part_items (ipython w) c os.
Proof.
  intros c os K. unfold part_items. induction os as [|o os IH]; [reflexivity|]. cbn [flat_map]. rewrite !filter_app, IH. f_equal. unfold citems. destruct o; try reflexivity.
  destruct (in_kernel w); [|reflexivity]. destruct K as [K|[K|K]]; [discriminate | subst c; reflexivity ..].
Qed.
Theorem streamed_ok : forall p q h1 h2 h3 c, schedule (List.length children) p (h1 ++ Enter k :: h2 ++ Publish k c :: h3) q -> ~ In Leave h3 ->
  (in_kernel w = false \/ c = POutputs \/ c = PResult) ->
  exists l, shows_captured (ipython w) c (before f ++ arrivals f (h1 ++ h2)) l /\
    view (is_part c) (run (h1 ++ Enter k :: h2 ++ Publish k c :: h3)) = part_items (ipython w) c (handled f h2) ++ l ++ part_items (ipython w) c (handled f h3).
Proof.
  intros p q h1 h2 h3 c S NL K. pose proof (main_once _ _ _ _ (Enter k) h1 (h2 ++ Publish k c :: h3) S eq_refl eq_refl) as [E1 E2].
  assert (S' : schedule (List.length children) p ((h1 ++ Enter k :: h2) ++ Publish k c :: h3) q) by (rewrite <- app_assoc; exact S).
  pose proof (main_once _ _ _ _ (Publish k c) _ _ S' eq_refl eq_refl) as [P1 P2]. pose proof (leave_not_before _ _ _ _ _ _ S' eq_refl) as L.
  assert (E2a : ~ In (Enter k) h2) by (intros H; apply E2, in_app_iff; left; exact H). assert (E2b : ~ In (Enter k) h3) by (intros H; apply E2, in_app_iff; right; right; exact H).
  assert (NP : forall h, ~ In (Publish k c) h -> forall p, In (Publish k p) h -> forall m, filter (is_part c) (pitems p m) = []).
  { intros h N p' H m. apply pitems_part. intros ->. contradiction. }
  rewrite run_app. cbn [fold_left]. rewrite fold_left_app. cbn [fold_left].
  set (s1 := run h1). destruct (segment (is_part c) false h1 (start before others)) as [V1 C1]; [intros H; apply L, in_app_iff; left; exact H | exact E1 | apply NP; intros H; apply P1, in_app_iff; left; exact H | apply entered_start|].
  fold (run h1) in V1, C1. fold s1 in V1, C1. cbn [app] in V1. rewrite app_nil_r in V1. change (view (is_part c) (start before others)) with (@nil item) in V1.
  pose proof (enter_step s1 C1) as C2. assert (V2 : view (is_part c) (step s1 (Enter k)) = []) by (rewrite <- V1; apply view_same; cbn [Str_Model.step]; rewrite Hk; reflexivity).
  destruct (segment (is_part c) true h2 (step s1 (Enter k))) as [V3 C3]; [intros H; apply L, in_app_iff; right; right; exact H | exact E2a | apply NP; intros H; apply P1, in_app_iff; right; right; exact H | exact C2|].
  set (s3 := fold_left step h2 (step s1 (Enter k))) in *. rewrite V2 in V3. cbn [app] in V3.
  assert (V4 : view (is_part c) (step s3 (Publish k c)) = view (is_part c) s3 ++ filter (is_part c) (pitems c (mds s3 f))).
  { cbn [Str_Model.step]. rewrite Hk. rewrite (view_app (is_part c) _ _ s3 _ (proj2 (proj2 (proj2 (publish_same k e f c s3)))) eq_refl), mine. reflexivity. }
  assert (C4 : entered_cbs (step s3 (Publish k c)) true). { cbn [Str_Model.step]. rewrite Hk. unfold entered_cbs. rewrite (proj1 (proj2 (publish_same k e f c s3))). exact C3. }
  destruct (segment (is_part c) true h3 (step s3 (Publish k c))) as [V5 _]; [exact NL | exact E2b | apply NP; exact P2 | exact C4|].
  exists (filter (is_part c) (pitems c (mds s3 f))). split.
  - apply pitems_captured; [exact K|]. unfold s3, s1. change (step (run h1) (Enter k)) with (fold_left step [Enter k] (run h1)). rewrite <- fold_left_app, <- run_app.
    replace (arrivals f (h1 ++ h2)) with (arrivals f (h1 ++ [Enter k] ++ h2)); [apply holds_run|]. unfold arrivals. rewrite !flat_map_app. reflexivity.
  - rewrite V5, V4, V3. rewrite !citems_part by exact K. rewrite <- app_assoc. reflexivity.
Qed.
Definition is_problem (i : item) : bool := match i with Problem _ => true | _ => false end.
Lemma no_problem : forall p m, filter is_problem (pitems p m) = [].
Proof.
  intros p m. unfold pitems, citems. destruct p.
  - destruct (is_nil _); [reflexivity|]. destruct (in_kernel w); reflexivity.
  - destruct (is_nil _); [reflexivity|]. destruct (in_kernel w); reflexivity.
  - cbn [items]. destruct (ipython w); induction (outputs m) as [|x l IH]; try reflexivity; exact IH.
  - destruct (execute_result m); reflexivity.
Qed.
Theorem errors_ok : forall p q h1 h2, schedule (List.length children) p (h1 ++ Enter k :: h2) q -> ~ In Leave h2 ->
  view is_problem (run (h1 ++ Enter k :: h2)) = filter is_problem (flat_map (items (ipython w)) (handled f h2)).
Proof.
  intros p q h1 h2 S NL. pose proof (main_once _ _ _ _ (Enter k) h1 h2 S eq_refl eq_refl) as [E1 E2]. pose proof (leave_not_before _ _ _ _ _ _ S eq_refl) as L.
  rewrite run_app. cbn [fold_left]. set (s1 := run h1). destruct (segment is_problem false h1 (start before others)) as [V1 C1]; [exact L | exact E1 | intros; apply no_problem | apply entered_start|].
  fold (run h1) in V1, C1. fold s1 in V1, C1. rewrite app_nil_r in V1. change (view is_problem (start before others)) with (@nil item) in V1.
  pose proof (enter_step s1 C1) as C2. assert (V2 : view is_problem (step s1 (Enter k)) = []) by (rewrite <- V1; apply view_same; cbn [Str_Model.step]; rewrite Hk; reflexivity).
  destruct (segment is_problem true h2 (step s1 (Enter k))) as [V3 C3]; [exact NL | exact E2 | intros; apply no_problem | exact C2|]. rewrite V3, V2. cbn [app].
  generalize (handled f h2) as os. intros os. induction os as [|o os IH]; [reflexivity|]. cbn [flat_map]. rewrite !filter_app, IH. f_equal. unfold citems. destruct o; try reflexivity. destruct (in_kernel w); reflexivity.
Qed.
End stream.
