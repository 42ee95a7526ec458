From Coq Require Import List String Ascii Bool Arith Lia Permutation.
From Verif Require Import Out_Spec Out_Model Out_Proofs Str_Spec Str_Model Str_Proofs Str_Proofs2.
Import ListNotations.

(** ** The end of the with statement *)
Section leave.
Context (w : place) (children : list (nat * nat)) (before : nat -> list output) (others : nat -> nat) (ND : NoDup (map snd children)).
Notation step := (step w children).
Notation run := (run w children before others).
Definition fut (j : nat) : nat := match nth_error children j with Some (_, f) => f | None => 0 end.
Lemma fut_inj : forall i j, i < List.length children -> j < List.length children -> fut i = fut j -> i = j.
Proof.
  intros i j Hi Hj E. apply (proj1 (NoDup_nth_error _) ND); [rewrite map_length; exact Hi|]. rewrite !nth_error_map. unfold fut in E.
  destruct (nth_error children i) as [[a b]|] eqn:Ei; [|apply nth_error_None in Ei; lia]. destruct (nth_error children j) as [[c d]|] eqn:Ej; [|apply nth_error_None in Ej; lia]. cbn in *. congruence.
Qed.
Definition entered (h : list event) : list nat := flat_map (fun x => match x with Enter j => [j] | _ => [] end) h.
Record Reg (ks : list nat) (s : st) : Prop := {
  g_fc : future_callbacks s = map (fun j => (fut j, j)) ks;
  g_cb : forall g, callbacks s g = repeat None (others g) ++ map Some (filter (fun j => Nat.eqb (fut j) g) ks) }.
Lemma put_future_new : forall f k l, ~ In f (map fst l) -> put_future f k l = l ++ [(f, k)].
Proof.
  intros f k. induction l as [|[g j] l IH]; intros N; [reflexivity|]. cbn [put_future]. destruct (Nat.eqb_spec g f) as [->|]; [destruct N; left; reflexivity|]. rewrite IH; [reflexivity | intros H; apply N; right; exact H].
Qed.
Lemma Reg_fold : forall h ks s, ~ In Leave h -> NoDup (ks ++ entered h) -> (forall j, In j (ks ++ entered h) -> j < List.length children) -> Reg ks s -> Reg (ks ++ entered h) (fold_left step h s).
Proof.
  induction h as [|x h IH]; intros ks s NL N B R; cbn [fold_left]; [unfold entered; cbn; rewrite app_nil_r; exact R|].
  assert (NL' : ~ In Leave h) by (intros H; apply NL; right; exact H). destruct R as [R1 R2]. destruct x as [g o|g o|j|j p|].
  - apply IH; try assumption. split; assumption.
  - apply IH; try assumption. cbn [Str_Model.step]. destruct (run_callbacks_same w children g o s) as (C1 & C2 & C3 & _). split; [rewrite C3 | rewrite C2]; assumption.
  - unfold entered in *. cbn [flat_map] in *. rewrite app_assoc in N, B |- *. apply IH; try assumption. assert (Bj : j < List.length children) by (apply B, in_app_iff; left; apply in_app_iff; right; left; reflexivity).
    cbn [Str_Model.step]. destruct (nth_error children j) as [[e f]|] eqn:Ej; [|apply nth_error_None in Ej; lia]. assert (Fj : fut j = f) by (unfold fut; rewrite Ej; reflexivity).
    assert (NK : ~ In j ks) by (apply NoDup_pre in N; apply NoDup_remove_2 in N; rewrite app_nil_r in N; exact N).
    assert (NF : forall i, In i ks -> fut i <> f). { intros i Hi X. rewrite <- Fj in X. apply fut_inj in X; [subst; contradiction | apply B, in_app_iff; left; apply in_app_iff; left; exact Hi | exact Bj]. }
    split; cbn [future_callbacks callbacks].
    + rewrite R1, put_future_new, map_app; [cbn [map]; rewrite Fj; reflexivity|]. rewrite map_map. intros H. apply in_map_iff in H. destruct H as (i & H1 & H2). exact (NF i H2 H1).
    + intros g. rewrite filter_app, map_app. cbn [filter]. rewrite Fj. unfold upd. rewrite (Nat.eqb_sym f g). destruct (Nat.eqb_spec g f) as [->|Ng].
      * rewrite R2, <- app_assoc. reflexivity.
      * cbn [map]. rewrite app_nil_r. apply R2.
  - apply IH; try assumption. cbn [Str_Model.step]. destruct (nth_error children j) as [[e f]|]; [|split; assumption]. destruct (publish_same w j e f p s) as (C1 & C2 & C3 & _). split; [rewrite C3 | rewrite C2]; assumption.
  - destruct NL. left. reflexivity.
Qed.
Lemma remove_cb : forall j m l, remove_callback j (repeat None m ++ Some j :: l) = repeat None m ++ l.
Proof. intros j m l. induction m as [|m IH]; cbn [repeat app remove_callback]; [rewrite Nat.eqb_refl; reflexivity | rewrite IH; reflexivity]. Qed.
Lemma filter_none : forall A (f : A -> bool) l, (forall x, In x l -> f x = false) -> filter f l = [].
Proof. intros A f. induction l as [|x l IH]; intros H; [reflexivity|]. cbn [filter]. rewrite (H x (or_introl eq_refl)). apply IH. intros y Hy. apply H. right. exact Hy. Qed.
Lemma leave_fold : forall ks c, NoDup ks -> (forall j, In j ks -> j < List.length children) -> (forall g, c g = repeat None (others g) ++ map Some (filter (fun j => Nat.eqb (fut j) g) ks)) ->
  forall g, fold_left (fun c x => upd (fst x) (remove_callback (snd x) (c (fst x))) c) (map (fun j => (fut j, j)) ks) c g = repeat None (others g).
Proof.
  induction ks as [|j ks IH]; intros c N B C g; cbn [map fold_left]; [rewrite C; cbn; rewrite app_nil_r; reflexivity|].
  inversion_clear N. apply IH; [assumption | intros i Hi; apply B; right; exact Hi|]. intros g'. cbn [fst snd]. unfold upd. destruct (Nat.eqb_spec g' (fut j)) as [->|Ng].
  - rewrite C. cbn [filter]. rewrite Nat.eqb_refl. cbn [map]. rewrite remove_cb. reflexivity.
  - rewrite C. cbn [filter]. destruct (Nat.eqb_spec (fut j) g') as [E|]; [congruence | reflexivity].
Qed.
Lemma io_only : forall h s, filter is_main h = [] -> (forall g, exists m, callbacks s g = repeat None m) ->
  screen (fold_left step h s) = screen s /\ streamed (fold_left step h s) = streamed s /\ forall g, callbacks (fold_left step h s) g = callbacks s g.
Proof.
  induction h as [|x h IH]; intros s M C; cbn [fold_left]; [repeat split; reflexivity|].
  assert (X : screen (step s x) = screen s /\ streamed (step s x) = streamed s /\ callbacks (step s x) = callbacks s).
  { destruct x; try discriminate M; [repeat split; reflexivity|]. cbn [Str_Model.step]. unfold run_callbacks. destruct (C f) as [m E]. rewrite E. clear. induction m as [|m IH]; [repeat split; reflexivity|]. exact IH. }
  assert (M' : filter is_main h = []) by (cbn [filter] in M; destruct (is_main x); [discriminate | exact M]).
  destruct X as (X1 & X2 & X3). destruct (IH (step s x) M') as (Y1 & Y2 & Y3); [intros g; rewrite X3; apply C|]. split; [congruence|]. split; [congruence|]. intros g. rewrite Y3, X3. reflexivity.
Qed.
Theorem leave_ok : forall p q h1 h2, schedule (List.length children) p (h1 ++ Leave :: h2) q ->
  let s := run (h1 ++ Leave :: h2) in (forall g, callbacks s g = repeat None (others g)) /\ screen s = screen (run h1) /\ streamed s = streamed (run h1).
Proof.
  intros p q h1 h2 S s. pose proof (leave_last _ _ _ _ _ S) as M. pose proof (main_NoDup _ _ _ _ S) as NM. pose proof (leave_not_before _ _ _ _ _ _ S eq_refl) as L.
  assert (EI : forall l j, In j (entered l) <-> In (Enter j) l).
  { intros l j. unfold entered. rewrite in_flat_map. split; [intros (x & H1 & H2); destruct x; cbn in H2; try destruct H2 as [->|[]]; try contradiction; exact H1 | intros H; exists (Enter j); split; [exact H | left; reflexivity]]. }
  assert (N : NoDup (entered h1)).
  { rewrite filter_app in NM. apply NoDup_pre in NM. clear -NM EI. induction h1 as [|x l IH]; [constructor|]. cbn [filter] in NM. destruct (is_main x) eqn:Mx.
    - inversion_clear NM. destruct x; try discriminate Mx; try (apply IH; assumption). unfold entered in *. cbn [flat_map]. constructor; [|apply IH; assumption]. intros X. apply EI in X. apply H, filter_In. split; [exact X | reflexivity].
    - destruct x; try discriminate Mx; apply IH; exact NM. }
  assert (B : forall j, In j (entered h1) -> j < List.length children).
  { intros j Hj. apply EI in Hj. destruct S as [_ [rest E]]. assert (X : In (Enter j) (program (List.length children))). { rewrite <- E. apply in_app_iff. left. apply filter_In. split; [apply in_app_iff; left; exact Hj | reflexivity]. }
    unfold program in X. apply in_app_iff in X. destruct X as [X|[X|[]]]; [|discriminate]. apply in_flat_map in X. destruct X as (i & X1 & X2). apply in_seq in X1. destruct X2 as [X2|X2]; [injection X2 as ->; lia|]. repeat (destruct X2 as [X2|X2]; [discriminate|]). destruct X2. }
  assert (R0 : Reg [] (start before others)) by (split; [reflexivity | intros g; cbn; rewrite app_nil_r; reflexivity]).
  pose proof (Reg_fold h1 [] (start before others) L N B R0) as [R1 R2]. fold (run h1) in R1, R2. cbn [app] in R1, R2.
  assert (CB : forall g, callbacks (step (run h1) Leave) g = repeat None (others g)). { intros g. cbn [Str_Model.step callbacks]. rewrite R1. apply leave_fold; assumption. }
  unfold s. rewrite run_app. cbn [fold_left]. destruct (io_only h2 (step (run h1) Leave) M) as (X1 & X2 & X3); [intros g; exists (others g); apply CB|].
  split; [intros g; rewrite X3; apply CB|]. split; [rewrite X1 | rewrite X2]; reflexivity.
Qed.
End leave.

(** ** In a notebook *)
Fixpoint get_display (id : option nat * bool) (l : list (option nat * bool * text)) : option text :=
  match l with [] => None | (i, t) :: l => if same_id i id then Some t else get_display id l end.
Lemma same_id_ok : forall a b, same_id a b = true <-> a = b.
Proof.
  intros [a1 a2] [b1 b2]. unfold same_id. cbn [fst snd]. rewrite andb_true_iff, Bool.eqb_true_iff. split.
  - intros [H ->]. destruct a1, b1; try discriminate; [apply Nat.eqb_eq in H; subst|]; reflexivity.
  - intros H. injection H as -> ->. split; [|reflexivity]. destruct b1; [apply Nat.eqb_refl | reflexivity].
Qed.
Lemma get_publish : forall id t l j, get_display j (publish_display id t l) = if same_id id j then Some t else get_display j l.
Proof.
  intros id t. induction l as [|[i u] l IH]; intros j; cbn [publish_display get_display]; [reflexivity|]. destruct (same_id i id) eqn:E.
  - apply same_id_ok in E. subst i. cbn [get_display]. destruct (same_id id j); reflexivity.
  - cbn [get_display]. rewrite IH. destruct (same_id i j) eqn:E2; [|reflexivity]. apply same_id_ok in E2. subst j. destruct (same_id id i) eqn:E3; [|reflexivity]. apply same_id_ok in E3. subst. assert (X : same_id i i = true) by (apply same_id_ok; reflexivity). congruence.
Qed.
Section notebook.
Context (children : list (nat * nat)) (before : nat -> list output) (others : nat -> nat) (k e f : nat) (Hk : nth_error children k = Some (e, f)) (ND : NoDup (map snd children)).
Notation step := (step Kernel children).
Notation run := (run Kernel children before others).
Notation entered_cbs := (entered_cbs others k f).
Lemma callback_other : forall j e' g par o s id, par <> fst id -> get_display id (streamed (callback Kernel j e' g par o s)) = get_display id (streamed s).
Proof.
  intros j e' g par o s id N. destruct o; try reflexivity. cbn [callback in_kernel streamed]. rewrite get_publish. destruct (same_id (par, err) id) eqn:E; [|reflexivity]. apply same_id_ok in E. subst id. destruct N. reflexivity.
Qed.
Lemma run_callbacks_other : forall g o s id, Some g <> fst id -> get_display id (streamed (run_callbacks Kernel children g o s)) = get_display id (streamed s).
Proof.
  intros g o s id N. unfold run_callbacks. generalize (callbacks s g) as l. intros l. revert s. induction l as [|cb l IH]; intros s; cbn [fold_left]; [reflexivity|]. rewrite IH.
  destruct cb as [j|]; [|reflexivity]. destruct (nth_error children j) as [[e' f']|]; [|reflexivity]. apply callback_other, N.
Qed.
Lemma publish_other : forall j e' g p s id, fst id <> None -> get_display id (streamed (publish Kernel j e' g p s)) = get_display id (streamed s).
Proof.
  intros j e' g p s id N. unfold publish. assert (N' : None <> fst id) by (intros X; apply N; symmetry; exact X). destruct p.
  - destruct (is_nil _); [reflexivity | apply callback_other, N'].
  - destruct (is_nil _); [reflexivity | apply callback_other, N'].
  - generalize (outputs (mds s g)) as l. intros l. revert s. induction l as [|c l IH]; intros s; cbn [fold_left]; [reflexivity|]. rewrite IH. apply callback_other, N'.
  - destruct (execute_result _); [apply callback_other, N' | reflexivity].
Qed.
Definition is_stream (err : bool) (o : output) : bool := match o with Stream b _ => Bool.eqb b err | _ => false end.
Lemma capture_stream : forall err o m, is_stream err o = false -> stream_of err (capture o m) = stream_of err m.
Proof. intros err o m H. destruct o as [b t|c|c|c|c|d| | |]; try (destruct err; reflexivity). destruct b, err; try discriminate H; reflexivity. Qed.
Lemma run_callbacks_kind : forall g o s err, is_stream err o = false -> get_display (Some f, err) (streamed (run_callbacks Kernel children g o s)) = get_display (Some f, err) (streamed s).
Proof.
  intros g o s err N. unfold run_callbacks. generalize (callbacks s g) as l. intros l. revert s. induction l as [|cb l IH]; intros s; cbn [fold_left]; [reflexivity|]. rewrite IH.
  destruct cb as [j|]; [|reflexivity]. destruct (nth_error children j) as [[e' f']|]; [|reflexivity]. destruct o as [b t|c|c|c|c|d| | |]; try reflexivity.
  cbn [callback in_kernel streamed]. rewrite get_publish. destruct (same_id (Some g, b) (Some f, err)) eqn:E; [|reflexivity]. apply same_id_ok in E. injection E as _ ->. cbn [is_stream] in N. rewrite Bool.eqb_reflx in N. discriminate.
Qed.
(** while child k is entered *)
Lemma notebook_segment : forall err h r q s seen, io r h q -> ~ In Leave h -> ~ In (Enter k) h -> entered_cbs s true ->
  (seen = true -> existsb (is_stream err) (pend r f) = false -> get_display (Some f, err) (streamed s) = Some (header (err, e) ++ stream_of err (mds s f))) ->
  let s' := fold_left step h s in
  seen || existsb (is_stream err) (handled f h) = true -> existsb (is_stream err) (pend q f) = false ->
  get_display (Some f, err) (streamed s') = Some (header (err, e) ++ stream_of err (mds s' f)).
Proof.
  intros err h. induction h as [|x h IH]; intros r q s seen I NL NE EC D s' Hs Hq.
  - inversion I; subst. cbn in Hs. rewrite orb_false_r in Hs. apply D; assumption.
  - assert (NL' : ~ In Leave h) by (intros H; apply NL; right; exact H). assert (NE' : ~ In (Enter k) h) by (intros H; apply NE; right; exact H).
    assert (EC' : entered_cbs (step s x) true). { destruct (segment Kernel children others k e f Hk ND (fun _ => false) true [x] s) as [_ X]; [intros [H|[]]; apply NL; left; exact H | intros [H|[]]; apply NE; left; exact H | | exact EC | exact X]. intros p _ m. clear. induction (pitems Kernel p m); [reflexivity | assumption]. }
    unfold s'. cbn [fold_left]. inversion I as [|g o h0 q0 I'|g o h0 q0 I'|x0 r0 h0 q0 M I']; subst.
    + (* arrive *)
      apply (IH (Some (g, o)) q (step s (Arrive g o)) seen); try assumption. intros Sn Pn. cbn [Str_Model.step streamed]. rewrite D by first [exact Sn | reflexivity]. do 2 f_equal. cbn [mds]. unfold upd. cbn [pend] in Pn.
      destruct (Nat.eqb_spec f g) as [->|]; [|reflexivity]. rewrite Nat.eqb_refl in Pn. cbn [existsb] in Pn. rewrite orb_false_r in Pn. symmetry. apply capture_stream, Pn.
    + (* callbacks *)
      set (now := Nat.eqb g f && is_stream err o).
      apply (IH None q (step s (Callbacks g o)) (seen || now)); try assumption.
      * intros Sn _. cbn [Str_Model.step]. rewrite (proj1 (run_callbacks_same Kernel children g o s)). destruct now eqn:En.
        -- unfold now in En. apply andb_true_iff in En. destruct En as [E1 E2]. apply Nat.eqb_eq in E1. subst g. destruct o as [b t|c|c|c|c|d| | |]; try discriminate E2. cbn [is_stream] in E2. apply Bool.eqb_prop in E2. subst b.
           unfold run_callbacks. rewrite (proj1 EC). rewrite fold_left_app. cbn [fold_left]. rewrite Hk.
           assert (X : forall m s0, fold_left (fun s cb => match cb with Some k0 => match nth_error children k0 with Some (e0, g) => callback Kernel k0 e0 g (Some f) (Stream err t) s | None => s end | None => s end) (repeat None m) s0 = s0) by (induction m as [|m IHm]; intros s0; [reflexivity | apply IHm]).
           rewrite X. cbn [callback in_kernel streamed]. rewrite get_publish. assert (Y : same_id (Some f, err) (Some f, err) = true) by (apply same_id_ok; reflexivity). rewrite Y. reflexivity.
        -- rewrite orb_false_r in Sn. destruct (Nat.eq_dec g f) as [->|Ng].
           ++ unfold now in En. rewrite Nat.eqb_refl in En. cbn [andb] in En.
              rewrite (run_callbacks_kind f o s err En).
              apply D; [exact Sn|]. cbn [pend]. rewrite Nat.eqb_refl. cbn [existsb]. rewrite En. reflexivity.
           ++ rewrite run_callbacks_other by (cbn; congruence). apply D; [exact Sn|]. cbn [pend]. destruct (Nat.eqb_spec g f); [contradiction | reflexivity].
      * rewrite <- Hs. unfold handled. cbn [flat_map]. fold (handled f h). unfold now. destruct (Nat.eqb g f); cbn [app existsb andb]; rewrite <- ?orb_assoc; reflexivity.
    + (* the caller *)
      assert (Hh : handled f (x :: h) = handled f h) by (unfold handled; cbn [flat_map]; destruct x; try discriminate M; reflexivity). rewrite Hh in Hs.
      apply (IH r q (step s x) seen); try assumption. intros Sn Pn. rewrite step_mds. assert (X : get_display (Some f, err) (streamed (step s x)) = get_display (Some f, err) (streamed s)).
      { destruct x as [g o|g o|j|j p|]; try discriminate M; cbn [Str_Model.step]; [destruct (nth_error children j) as [[e' f']|]; reflexivity| |reflexivity]. destruct (nth_error children j) as [[e' f']|]; [|reflexivity]. apply publish_other. discriminate. }
      rewrite X, D by assumption. destruct x; try discriminate M; reflexivity.
Qed.
Theorem notebook_ok : forall p q h1 h2 err, schedule (List.length children) p (h1 ++ Enter k :: h2) q -> ~ In Leave h2 ->
  existsb (is_stream err) (handled f h2) = true -> existsb (is_stream err) (pend q f) = false ->
  exists s, captures (pieces err (before f ++ arrivals f (h1 ++ Enter k :: h2))) s /\ get_display (Some f, err) (streamed (run (h1 ++ Enter k :: h2))) = Some (header (err, e) ++ s).
Proof.
  intros p q h1 h2 err S NL Hh Hq. pose proof (main_once _ _ _ _ (Enter k) h1 h2 S eq_refl eq_refl) as [E1 E2]. pose proof (leave_not_before _ _ _ _ _ _ S eq_refl) as L.
  exists (stream_of err (mds (run (h1 ++ Enter k :: h2)) f)). split.
  - destruct (holds_run Kernel children before others (h1 ++ Enter k :: h2) f) as (H1 & H2 & _). destruct err; [exact H2 | exact H1].
  - destruct S as [I _]. apply io_app in I. destruct I as (r & _ & I). inversion I as [|? ? ? ? ?|? ? ? ? ?|x r0 h0 q0 M I']; subst. rewrite run_app. cbn [fold_left].
    assert (C1 : entered_cbs (run h1) false). { destruct (segment Kernel children others k e f Hk ND (fun _ => false) false h1 (start before others)) as [_ X]; [exact L | exact E1 | | apply entered_start | exact X]. intros p0 _ m. clear. induction (pitems Kernel p0 m); [reflexivity | assumption]. }
    apply (notebook_segment err h2 r q (step (run h1) (Enter k)) false); try assumption; [apply (enter_step Kernel children others k e f Hk), C1 | discriminate].
Qed.
End notebook.
