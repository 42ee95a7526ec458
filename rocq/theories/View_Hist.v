(** Proofs about the history and the outstanding messages of views. *)
From stdpp Require Import base gmap sets list.
From Verif Require Import View_Model View_Spec.
From Coq Require Import Lia.

(** Induction over nested calls. *)
Section Ind.
Context (P : act -> Prop).
Hypothesis HS : P Send.
Hypothesis HR : forall m, P (Reply m).
Hypothesis HE : P RaiseErr.
Hypothesis HC : forall v b body, Forall P body -> P (Call v b body).
Fixpoint act_induct (a : act) : P a :=
  match a with
  | Send => HS | Reply m => HR m | RaiseErr => HE
  | Call v b body => HC v b body ((fix go l : Forall P l :=
      match l with [] => @List.Forall_nil act P | x :: r => @List.Forall_cons act P x r (act_induct x) (go r) end) body)
  end.
End Ind.

Lemma exec_call v saves body w :
  exec (Call v saves body) w =
    let saved_call (w : world) : world * bool :=
        let '(w', r) := execs body w in
        (if saves then save_ids_finally v (length (w_chist w)) w' else w', r) in
    if w_sync w v then saved_call w
    else let '(w', r) := saved_call (set_sync v true w) in (sync_results v (set_sync v false w'), r).
Proof. reflexivity. Qed.

Lemma upd_same {A} (f : nat -> A) v a : upd_fn f v a v = a.
Proof. unfold upd_fn. destruct (decide (v = v)); congruence. Qed.
Lemma upd_other {A} (f : nat -> A) v v' a : v' <> v -> upd_fn f v a v' = f v'.
Proof. intros. unfold upd_fn. destruct (decide (v' = v)); congruence. Qed.

(** ** The client's history only grows *)
Definition grows (w w' : world) : Prop := exists new, w_chist w' = w_chist w ++ new.
Lemma grows_refl w : grows w w.
Proof. exists []. rewrite app_nil_r. reflexivity. Qed.
Lemma grows_trans w1 w2 w3 : grows w1 w2 -> grows w2 w3 -> grows w1 w3.
Proof. intros [a E1] [b E2]. exists (a ++ b). rewrite E2, E1, app_assoc. reflexivity. Qed.

Lemma grows_execs body : Forall (fun a => forall w, grows w (fst (exec a w))) body -> forall w, grows w (fst (execs body w)).
Proof.
  induction 1 as [| a r Ha _ IH]; intros w; cbn [execs]; [apply grows_refl |].
  specialize (Ha w). destruct (exec a w) as [w1 [|]]; cbn [fst] in Ha; [exact Ha |].
  eapply grows_trans; [exact Ha | apply IH].
Qed.
Lemma grows_exec a : forall w, grows w (fst (exec a w)).
Proof.
  induction a as [| m | | v saves body IH] using act_induct; intros w; try apply grows_refl.
  - exists [w_next w]. reflexivity.
  - exists []. rewrite app_nil_r. reflexivity.
  - rewrite exec_call. cbn zeta.
    assert (H : forall w, grows w (fst (let '(w', r) := execs body w in
        (if saves then save_ids_finally v (length (w_chist w)) w' else w', r)))).
    { intros w1. pose proof (grows_execs body IH w1) as Hg. destruct (execs body w1) as [w2 r].
      cbn [fst] in *. destruct saves; exact Hg. }
    destruct (w_sync w v); [apply H |].
    specialize (H (set_sync v true w)).
    destruct (execs body (set_sync v true w)) as [w2 r]. exact H.
Qed.

(** ** A quiet action leaves the record of the view alone *)
Lemma quiet_execs v body :
  Forall (fun a => quiet v a -> forall w, w_vhist (fst (exec a w)) v = w_vhist w v) body ->
  foldr (fun a P => quiet v a /\ P) True body -> forall w, w_vhist (fst (execs body w)) v = w_vhist w v.
Proof.
  induction 1 as [| a r Ha _ IH]; intros Hq w; cbn [execs foldr] in *; [reflexivity |].
  destruct Hq as [Hqa Hqr]. specialize (Ha Hqa w). destruct (exec a w) as [w1 [|]]; cbn [fst] in Ha; [exact Ha |].
  rewrite IH by exact Hqr. exact Ha.
Qed.
Lemma quiet_exec v a : quiet v a -> forall w, w_vhist (fst (exec a w)) v = w_vhist w v.
Proof.
  induction a as [| m | | v' saves body IH] using act_induct; intros Hq w; try reflexivity.
  cbn [quiet] in Hq. destruct Hq as [Hv Hb]. rewrite exec_call. cbn zeta.
  assert (H : forall w, w_vhist (fst (let '(w', r) := execs body w in
        (if saves then save_ids_finally v' (length (w_chist w)) w' else w', r))) v = w_vhist w v).
  { intros w1. pose proof (quiet_execs v body IH Hb w1) as Hg. destruct (execs body w1) as [w2 r].
    cbn [fst] in *. destruct saves; [| exact Hg]. unfold save_ids_finally. cbn [w_vhist].
    rewrite upd_other; [exact Hg |]. destruct Hv; congruence. }
  destruct (w_sync w v'); [apply H |].
  specialize (H (set_sync v' true w)).
  destruct (execs body (set_sync v' true w)) as [w2 r]. exact H.
Qed.
Lemma quiet_body v body : foldr (fun a P => quiet v a /\ P) True body -> forall w, w_vhist (fst (execs body w)) v = w_vhist w v.
Proof. apply quiet_execs. apply Forall_forall. intros a _. apply quiet_exec. Qed.

(** ** Calls only add to the record *)
Lemma hist_execs v body :
  Forall (fun a => forall w, exists l, w_vhist (fst (exec a w)) v = w_vhist w v ++ l) body ->
  forall w, exists l, w_vhist (fst (execs body w)) v = w_vhist w v ++ l.
Proof.
  induction 1 as [| a r Ha _ IH]; intros w; cbn [execs].
  - exists []. rewrite app_nil_r. reflexivity.
  - destruct (Ha w) as [l1 E1]. destruct (exec a w) as [w1 [|]]; cbn [fst] in *; [eauto |].
    destruct (IH w1) as [l2 E2]. exists (l1 ++ l2). rewrite E2, E1, app_assoc. reflexivity.
Qed.
Lemma hist_exec v a : forall w, exists l, w_vhist (fst (exec a w)) v = w_vhist w v ++ l.
Proof.
  induction a as [| m | | v' saves body IH] using act_induct; intros w;
    try (exists []; rewrite app_nil_r; reflexivity).
  rewrite exec_call. cbn zeta.
  assert (H : forall w, exists l, w_vhist (fst (let '(w', r) := execs body w in
        (if saves then save_ids_finally v' (length (w_chist w)) w' else w', r))) v = w_vhist w v ++ l).
  { intros w1. destruct (hist_execs v body IH w1) as [l Hg]. destruct (execs body w1) as [w2 r].
    cbn [fst] in *. destruct saves; [| eauto]. unfold save_ids_finally. cbn [w_vhist].
    unfold upd_fn. destruct (decide (v = v')) as [<- | _]; [| eauto].
    rewrite Hg. eexists. rewrite <- app_assoc. reflexivity. }
  destruct (w_sync w v'); [apply H |].
  specialize (H (set_sync v' true w)).
  destruct (execs body (set_sync v' true w)) as [w2 r]. exact H.
Qed.

(** ** What one recording call adds *)
Lemma last_n_app (a b : list nat) : b <> [] -> last_n (length (a ++ b) - length a) (a ++ b) = b.
Proof.
  intros Hb. rewrite app_length. replace (length a + length b - length a) with (length b) by lia.
  unfold last_n. destruct b as [| x b]; [contradiction |]. cbn [length].
  rewrite app_length. cbn [length]. replace (length a + S (length b) - S (length b)) with (length a) by lia.
  rewrite drop_app. reflexivity.
Qed.

Definition call (v : nat) (body : list act) : act := Call v true body.

Lemma call_parts v body w :
  let w0 := if w_sync w v then w else set_sync v true w in
  let w1 := fst (execs body w0) in
  let w2 := save_ids_finally v (length (w_chist w)) w1 in
  fst (exec (call v body) w) = (if w_sync w v then w2 else sync_results v (set_sync v false w2)) /\
  w_chist w0 = w_chist w /\ w_vhist w0 = w_vhist w /\ w_vout w0 = w_vout w /\ w_cout w0 = w_cout w.
Proof.
  cbn zeta. unfold call. rewrite exec_call. cbn zeta. destruct (w_sync w v).
  - destruct (execs body w). cbn [fst]. auto.
  - change (w_chist (set_sync v true w)) with (w_chist w).
    destruct (execs body (set_sync v true w)). cbn [fst]. repeat split; reflexivity.
Qed.

Lemma call_record v body w : forall new, w_chist (fst (exec (call v body) w)) = w_chist w ++ new ->
  exists inner, w_vhist (fst (exec (call v body) w)) v =
    w_vhist w v ++ inner ++ (if decide (new = []) then w_chist w else new) /\
    (foldr (fun a P => quiet v a /\ P) True body -> inner = []).
Proof.
  intros new Hnew. destruct (call_parts v body w) as (E & Ec & Eh & _ & _). rewrite E in Hnew |- *. clear E.
  set (w0 := if w_sync w v then w else set_sync v true w) in *.
  set (w1 := fst (execs body w0)) in *.
  assert (Hn1 : w_chist w1 = w_chist w ++ new) by (destruct (w_sync w v); exact Hnew).
  destruct (hist_execs v body (ltac:(apply Forall_forall; intros a _; apply hist_exec)) w0) as [inner Hi].
  fold w1 in Hi. rewrite Eh in Hi.
  exists inner. split.
  - assert (Hh : w_vhist (save_ids_finally v (length (w_chist w)) w1) v =
      w_vhist w v ++ inner ++ (if decide (new = []) then w_chist w else new)).
    { unfold save_ids_finally. cbn [w_vhist]. rewrite upd_same, Hi, Hn1, <- app_assoc. do 2 f_equal.
      destruct (decide (new = [])) as [-> | Hne].
      - rewrite app_nil_r. rewrite Nat.sub_diag. reflexivity.
      - apply last_n_app, Hne. }
    destruct (w_sync w v); exact Hh.
  - intros Hq. pose proof (quiet_body v body Hq w0) as H. fold w1 in H. rewrite Hi, Eh in H.
    rewrite <- (app_nil_r (w_vhist w v)) in H at 2. apply app_inv_head in H. exact H.
Qed.

(** ** Outstanding *)
Lemma out_execs v body : foldr (fun a P => quiet v a /\ P) True body ->
  Forall (fun a => quiet v a -> forall w, w_sync w v = true ->
     w_vout (fst (exec a w)) v = w_vout w v /\ w_sync (fst (exec a w)) v = true) body ->
  forall w, w_sync w v = true -> w_vout (fst (execs body w)) v = w_vout w v /\ w_sync (fst (execs body w)) v = true.
Proof.
  intros Hq H. induction H as [| a r Ha _ IH]; intros w Hs; cbn [execs foldr] in *; [auto |].
  destruct Hq as [Hqa Hqr]. specialize (Ha Hqa w Hs). destruct (exec a w) as [w1 [|]]; cbn [fst] in Ha; [exact Ha |].
  destruct Ha as [Ha1 Ha2]. specialize (IH Hqr w1 Ha2). rewrite <- Ha1. exact IH.
Qed.
Lemma out_exec v a : quiet v a -> forall w, w_sync w v = true ->
  w_vout (fst (exec a w)) v = w_vout w v /\ w_sync (fst (exec a w)) v = true.
Proof.
  induction a as [| m | | v' saves body IH] using act_induct; intros Hq w Hs; try (split; [reflexivity | exact Hs]).
  cbn [quiet] in Hq. destruct Hq as [Hv Hb]. rewrite exec_call. cbn zeta.
  assert (H : forall w, w_sync w v = true -> let w' := fst (let '(w', r) := execs body w in
        (if saves then save_ids_finally v' (length (w_chist w)) w' else w', r)) in
        w_vout w' v = w_vout w v /\ w_sync w' v = true).
  { intros w1 Hs1. pose proof (out_execs v body Hb IH w1 Hs1) as Hg. destruct (execs body w1) as [w2 r].
    cbn [fst] in *. destruct saves; [| exact Hg]. unfold save_ids_finally. cbn [w_vout w_sync].
    rewrite upd_other; [exact Hg |]. destruct Hv; congruence. }
  destruct (decide (v' = v)) as [-> | Hne].
  { rewrite Hs. apply H, Hs. }
  destruct (w_sync w v') eqn:Es; [apply H, Hs |].
  specialize (H (set_sync v' true w)).
  assert (Hs' : w_sync (set_sync v' true w) v = true).
  { unfold set_sync. cbn [w_sync]. rewrite upd_other by congruence. exact Hs. }
  specialize (H Hs'). destruct (execs body (set_sync v' true w)) as [w2 r]. cbn [fst] in *.
  unfold sync_results, set_sync. cbn [w_vout w_sync]. rewrite !upd_other by congruence. exact H.
Qed.

Lemma call_outstanding v body w : forall new,
  w_sync w v = false -> foldr (fun a P => quiet v a /\ P) True body -> new <> [] ->
  w_chist (fst (exec (call v body) w)) = w_chist w ++ new ->
  w_vout (fst (exec (call v body) w)) v = (w_vout w v ∪ list_to_set new) ∩ w_cout (fst (exec (call v body) w)).
Proof.
  intros new Hs Hq Hne Hnew. destruct (call_parts v body w) as (E & Ec & Eh & Eo & Eco).
  rewrite E in Hnew |- *. clear E. rewrite Hs in *.
  set (w0 := set_sync v true w) in *. set (w1 := fst (execs body w0)) in *.
  assert (Hn1 : w_chist w1 = w_chist w ++ new) by exact Hnew.
  assert (Ho : w_vout w1 v = w_vout w v /\ w_sync w1 v = true).
  { rewrite <- Eo. apply (out_execs v body Hq); [apply Forall_forall; intros a _; apply out_exec |].
    unfold w0, set_sync. cbn [w_sync]. apply upd_same. }
  destruct Ho as [Ho _].
  unfold sync_results, set_sync, save_ids_finally. cbn [w_vout w_cout w_chist].
  rewrite !upd_same, Ho, Hn1, last_n_app by exact Hne.
  apply set_eq. intros x. destruct (decide (x ∈ w_cout w1)); set_solver.
Qed.

Lemma call_outstanding_sub v body w : w_sync w v = false ->
  w_vout (fst (exec (call v body) w)) v ⊆ w_cout (fst (exec (call v body) w)).
Proof.
  intros Hs. destruct (call_parts v body w) as (E & _). rewrite E. rewrite Hs.
  unfold sync_results, set_sync. cbn [w_vout w_cout]. rewrite upd_same. intros x Hx.
  match goal with |- x ∈ ?C => destruct (decide (x ∈ C)); [assumption | set_solver] end.
Qed.

(** Everything sent during the call is recorded, last. *)
Lemma call_records_all v body w : forall new, new <> [] ->
  w_chist (fst (exec (call v body) w)) = w_chist w ++ new ->
  exists before, w_vhist (fst (exec (call v body) w)) v = w_vhist w v ++ before ++ new.
Proof.
  intros new Hne Hnew. destruct (call_record v body w new Hnew) as (inner & E & _).
  rewrite decide_False in E by exact Hne. eauto.
Qed.

(** If every recording call on [v] sends something, only messages sent during the call are added. *)
Lemma app_self {A} (x l : list A) : x = x ++ l -> l = [].
Proof. intros H. rewrite <- (app_nil_r x) in H at 1. apply app_inv_head in H. auto. Qed.
Definition only_new (v : nat) (w w' : world) : Prop :=
  forall new, w_chist w' = w_chist w ++ new ->
  forall l, w_vhist w' v = w_vhist w v ++ l -> forall m, m ∈ l -> m ∈ new.

Lemma only_new_trans v w1 w2 w3 :
  grows w1 w2 -> grows w2 w3 -> (exists l, w_vhist w2 v = w_vhist w1 v ++ l) -> (exists l, w_vhist w3 v = w_vhist w2 v ++ l) ->
  only_new v w1 w2 -> only_new v w2 w3 -> only_new v w1 w3.
Proof.
  intros [a Ea] [b Eb] [l El] [k Ek] H1 H2 new Hnew l' Hl' m Hm.
  assert (new = a ++ b) as ->.
  { rewrite Eb, Ea, <- app_assoc in Hnew. apply app_inv_head in Hnew. congruence. }
  assert (l' = l ++ k) as ->.
  { rewrite Ek, El, <- app_assoc in Hl'. apply app_inv_head in Hl'. congruence. }
  apply elem_of_app in Hm as [Hm | Hm]; apply elem_of_app; [left | right].
  - apply (H1 a Ea l El m Hm).
  - apply (H2 b Eb k Ek m Hm).
Qed.

Lemma only_new_execs v body :
  Forall (fun a => sending v a -> forall w, only_new v w (fst (exec a w))) body ->
  foldr (fun a P => sending v a /\ P) True body -> forall w, only_new v w (fst (execs body w)).
Proof.
  induction 1 as [| a r Ha _ IH]; intros Hq w; cbn [execs foldr] in *.
  - intros new _ l Hl m Hm. apply app_self in Hl. subst l. inversion Hm.
  - destruct Hq as [Hqa Hqr]. specialize (Ha Hqa w). pose proof (grows_exec a w) as Hg. pose proof (hist_exec v a w) as Hh.
    destruct (exec a w) as [w1 [|]]; cbn [fst] in *; [exact Ha |].
    apply (only_new_trans v w w1); auto.
    + apply grows_execs. apply Forall_forall. intros x _. apply grows_exec.
    + apply hist_execs. apply Forall_forall. intros x _. apply hist_exec.
Qed.

Lemma only_new_exec v a : sending v a -> forall w, only_new v w (fst (exec a w)).
Proof.
  induction a as [| m | | v' saves body IH] using act_induct; intros Hq w;
    try (intros new _ l Hl x Hx; cbn [exec fst w_vhist] in Hl;
         apply app_self in Hl; subst l; inversion Hx).
  cbn [sending] in Hq. destruct Hq as [Hv Hb].
  assert (H : forall w, only_new v w (fst (let '(w', r) := execs body w in
        (if saves then save_ids_finally v' (length (w_chist w)) w' else w', r)))).
  { intros w1. pose proof (only_new_execs v body IH Hb w1) as Hg.
    pose proof (grows_execs body (ltac:(apply Forall_forall; intros x _; apply grows_exec)) w1) as [new Hnew].
    destruct (hist_execs v body (ltac:(apply Forall_forall; intros x _; apply hist_exec)) w1) as [l Hl].
    specialize (Hv). pose proof (fun E1 E2 => Hv E1 E2 w1) as Hv1.
    destruct (execs body w1) as [w2 r]. cbn [fst] in *. destruct saves; [| exact Hg].
    intros new' Hnew' l' Hl' m Hm. unfold save_ids_finally in Hnew', Hl'. cbn [w_chist w_vhist] in Hnew', Hl'.
    rewrite Hnew in Hnew'. apply app_inv_head in Hnew'. subst new'.
    unfold upd_fn in Hl'. destruct (decide (v = v')) as [<- | Hne].
    - rewrite Hl, <- app_assoc in Hl'. apply app_inv_head in Hl'. subst l'.
      apply elem_of_app in Hm as [Hm | Hm]; [apply (Hg new Hnew l Hl m Hm) |].
      rewrite Hnew in Hm. rewrite last_n_app in Hm; [exact Hm |].
      intros ->. apply (Hv1 eq_refl eq_refl). rewrite Hnew, app_nil_r. reflexivity.
    - apply (Hg new Hnew l' Hl' m Hm). }
  rewrite exec_call. cbn zeta.
  destruct (w_sync w v'); [apply H |].
  specialize (H (set_sync v' true w)).
  destruct (execs body (set_sync v' true w)) as [w2 r]. exact H.
Qed.
