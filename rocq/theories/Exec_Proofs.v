(** Proofs about Exec_Model. *)
From Coq Require Import List Arith Bool Lia.
From Verif Require Import Async_Spec Async_Model Async_Proofs Imap_Spec Imap_Model Imap_Proofs Exec_Model.
Import ListNotations.

(* ------------------------------------------------------------------ one map *)
Section One.
Context {V : Type} (ordered : bool) (limit : nat) (ret : bool) (inputs : nat -> input) (outcome_of : nat -> outcome V).
Notation istep := (Imap_Model.step ordered limit ret inputs outcome_of).
Notation irun := (Imap_Model.run ordered limit ret inputs outcome_of).
Ltac fields := cbn [pos jobs work open iterator_done recorded outstanding finished callbacks calling passed at_user yielded
  set_work set_user set_out yield_ set_calls signal_done submit shutdown take_job taken set_cbs] in *.
Ltac cases H :=
  repeat match type of H with
  | None = Some _ => discriminate H
  | match ?x with _ => _ end = Some _ => let E := fresh "E" in destruct x eqn:E; fields
  | Some (match ?x with _ => _ end) = Some _ => let E := fresh "E" in destruct x eqn:E; fields
  | Some (set_work (if ?x then _ else _) _) = Some _ => let E := fresh "E" in destruct x eqn:E; fields
  | Some _ = Some _ => injection H as <-; fields
  end.
Ltac steps s e H :=
  destruct s as [ps jb wk op dn rc out fin cbs cl pd us yl]; destruct e as [|k| | |ks|]; cbn [Imap_Model.step] in H;
    unfold worker_step, finish, cb_check, cb_submit, user_step, cancel, give in H; fields;
    repeat match goal with E : ?x = _ |- _ => is_var x; subst x end; cases H;
    repeat match goal with E : ?x = _ |- _ => is_var x; subst x end.
Lemma istep_grows (s : @st V) e s' : istep s e = Some s' ->
  incl (finished s) (finished s') /\ (recorded s = false -> recorded s' = false) /\
  (pos s' = pos s \/ pos s' = S (pos s) /\ (inputs (pos s) = Args \/ inputs (pos s) = Fail /\ In (pos s) (finished s'))).
Proof.
  intros H. steps s e H; (split; [try apply incl_refl; try (apply incl_appl, incl_refl)|split; [auto|]]); try (left; reflexivity);
    (right; split; [reflexivity|]; first [left; reflexivity|right; split; [reflexivity|]; apply in_or_app; right; left; reflexivity]).
Qed.
Lemma irun_snoc (s : @st V) es e : irun s (es ++ [e]) = match irun s es with Some s => istep s e | None => None end.
Proof. revert s. induction es as [|x es IH]; intros s; cbn [app Imap_Model.run]; [destruct (istep s e); reflexivity|]. destruct (istep s x); [apply IH|reflexivity]. Qed.
Lemma stopped_unique a b : (ends_after inputs a \/ exists k, a = S k /\ fails_after inputs k) -> (ends_after inputs b \/ exists k, b = S k /\ fails_after inputs k) -> a = b.
Proof using V inputs outcome_of.
  assert (W : forall a b, (forall k, k < a -> inputs k = Args) -> inputs b <> Args -> a <= b).
  { intros x y H1 H2. destruct (le_lt_dec x y) as [|L]; [assumption|]. destruct (H2 (H1 _ L)). }
  intros [(A1 & A2)|(k & -> & A1 & A2)] [(B1 & B2)|(j & -> & B1 & B2)].
  - pose proof (W a b A2 ltac:(congruence)). pose proof (W b a B2 ltac:(congruence)). lia.
  - pose proof (W a j A2 ltac:(congruence)). pose proof (W j a B2 ltac:(congruence)). replace j with a in * by lia. congruence.
  - pose proof (W k b A2 ltac:(congruence)). pose proof (W b k B2 ltac:(congruence)). replace k with b in * by lia. congruence.
  - pose proof (W k j A2 ltac:(congruence)). pose proof (W j k B2 ltac:(congruence)). lia.
Qed.
Lemma over_stopped es (s : @st V) : irun (start limit) es = Some s -> recorded s = false -> ~ In Cancel es -> ends_after inputs (pos s) \/ exists k, pos s = S k /\ fails_after inputs k.
Proof.
  intros H Hr Hc. destruct (reach _ _ _ _ _ _ _ H) as (_ & A & g & h & B). rewrite (a_rec _ _ A) in Hr. apply negb_false_iff in Hr.
  destruct (b_done _ _ _ _ _ _ _ _ B Hr) as [E|(Hs & _)]; [|exact Hs]. apply existsb_exists in E as (x & Hx & Ex). destruct x; try discriminate. contradiction.
Qed.
(** A map of which nothing can happen by itself is not recorded as outstanding, unless an exception came out of it. *)
Lemma quiet_done es (s : @st V) : irun (start limit) es = Some s -> (forall e, at_user s <> Raised e) ->
  istep s Worker = None -> (forall k, istep s (Finish k) = None) -> istep s CbCheck = None -> istep s CbSubmit = None ->
  recorded s = false.
Proof.
  intros H Hu Hw Hf Hc Hp. destruct (reach _ _ _ _ _ _ _ H) as ([C1 C2 C3 C4 C5 C6] & [A1 A2 A3 A4 A5 A6 A7] & _).
  rewrite A7. destruct (iterator_done s) eqn:Ed; [reflexivity|exfalso].
  assert (Ho : open s = true). { destruct (at_user s) eqn:Eu; try (apply A4; reflexivity); try (destruct (A6 eq_refl) as (_ & X & _); congruence); [destruct (A5 eq_refl); congruence|destruct (Hu e); reflexivity]. }
  specialize (A2 Ho eq_refl). unfold slots in A2. cbn [Imap_Model.step] in *. unfold worker_step in Hw. destruct (work s) eqn:Ew; try discriminate. destruct (jobs s); [|discriminate].
  unfold cb_check in Hc. destruct (calling s); [|discriminate]. unfold cb_submit in Hp. destruct (passed s); [|discriminate].
  destruct (callbacks s) as [|k r] eqn:Ek; [cbn [busy length] in A2; lia|]. destruct (C2 k (or_introl eq_refl)) as (H1 & H2). specialize (Hf k). unfold finish in Hf.
  apply Nat.ltb_lt in H1. apply mem_false in H2. rewrite H1, H2 in Hf. discriminate.
Qed.
Lemma quiet_finished (s : @st V) : (forall k, istep s (Finish k) = None) -> forall k, k < pos s -> In k (finished s).
Proof.
  intros Hf k Hk. destruct (in_dec Nat.eq_dec k (finished s)) as [|Hn]; [assumption|]. specialize (Hf k). cbn [Imap_Model.step] in Hf. unfold finish in Hf.
  apply Nat.ltb_lt in Hk. apply mem_false in Hn. rewrite Hk, Hn in Hf. discriminate.
Qed.
End One.

(* ------------------------------------------------------------------ the executor *)
Section Executor.
Context {V : Type}.
Implicit Types (s : est V) (p : params V).
Notation reached p es x := (Imap_Model.run (ordered p) (limit p) (ret p) (inputs p) (outcome_of p) (start (limit p)) es = Some x).

Lemma nth_replace {A} (l : list A) n a m : nth_error (replace n a l) m = if Nat.eqb m n then match nth_error l n with Some _ => Some a | None => None end else nth_error l m.
Proof.
  revert n m. induction l as [|b l IH]; intros n m.
  - assert (E : replace n a (@nil A) = []) by (destruct n; reflexivity). rewrite E. destruct n, m; cbn; try reflexivity. destruct (m =? n); reflexivity.
  - destruct n as [|n], m as [|m]; cbn [replace nth_error Nat.eqb]; try reflexivity. apply IH.
Qed.
Lemma nth_snoc {A} (l : list A) a m : nth_error (l ++ [a]) m = if Nat.eqb m (length l) then Some a else nth_error l m.
Proof.
  revert m. induction l as [|b l IH]; intros [|m]; cbn [app nth_error length Nat.eqb]; try reflexivity; [|apply IH].
  destruct m; reflexivity.
Qed.

(** What holds of every state: the events of the m-th map are among those of the executor. *)
Record einv (es : list (eevent V)) s : Prop := {
  e_maps : forall m p x, nth_error (maps s) m = Some (p, x) -> exists l, reached p l x /\ forall e, In e l -> In (InMap m e) es;
  e_sent : forall m p x k, nth_error (maps s) m = Some (p, x) -> k < pos x -> inputs p k = Args /\ In (Mapped m k) (history s) \/ In k (finished x);
  e_direct : forall i, i < directs s -> In (Direct i) (history s);
  e_known : forall t, In t (history s) -> match t with Direct i => i < directs s | Mapped m k => exists p x, nth_error (maps s) m = Some (p, x) /\ k < pos x end;
  e_wait : forall ids, now s = Waiting ids -> incl ids (history s) }.

Lemma einv_init : einv [] init.
Proof. constructor; cbn; try discriminate; try (intros [|m]; discriminate); try (intros; lia); intros t []. Qed.
Lemma einv_step lb es s e s' : einv es s -> estep lb s e = Some s' -> einv (es ++ [e]) s'.
Proof.
  intros [I1 I2 I3 I4 I5] H.
  assert (K : forall m p x, nth_error (maps s) m = Some (p, x) -> exists l, reached p l x /\ forall e0, In e0 l -> In (InMap m e0) (es ++ [e])).
  { intros m p x Hm. destruct (I1 m p x Hm) as (l & R & L). exists l. split; [exact R|]. intros y Hy. apply in_or_app. auto. }
  destruct e as [|i|p|m e| | |]; cbn [estep] in H.
  - injection H as <-. constructor; cbn [maps history directs ended now]; auto.
    + intros m p x k Hm Hk. destruct (I2 m p x k Hm Hk) as [(A & B)|B]; [left; split; [exact A|apply in_or_app; auto]|right; exact B].
    + intros i Hi. apply in_or_app. destruct (Nat.eq_dec i (directs s)) as [->|]; [right; left; reflexivity|left; apply I3; lia].
    + intros t Ht. apply in_app_iff in Ht as [Ht|[<-|[]]]; [|lia]. specialize (I4 t Ht). destruct t; [lia|exact I4].
    + intros ids Hi x Hx. apply in_or_app. left. apply (I5 ids Hi x Hx).
  - destruct (_ && _); [|discriminate]. injection H as <-. constructor; cbn [maps history directs ended now]; auto.
  - injection H as <-. constructor; cbn [maps history directs ended now]; auto.
    + intros m q x Hm. rewrite nth_snoc in Hm. destruct (Nat.eqb_spec m (length (maps s))); [|apply K, Hm]. injection Hm as <- <-. exists []. split; [reflexivity|intros y []].
    + intros m q x k Hm Hk. rewrite nth_snoc in Hm. destruct (Nat.eqb_spec m (length (maps s))); [|apply (I2 m q x k Hm Hk)]. injection Hm as <- <-. cbn in Hk. lia.
    + intros t Ht. specialize (I4 t Ht). destruct t as [i|m k]; [exact I4|]. destruct I4 as (q & x & Hm & Hk). exists q, x. split; [|exact Hk]. rewrite nth_snoc.
      destruct (Nat.eqb_spec m (length (maps s))) as [->|]; [|exact Hm]. rewrite (proj2 (nth_error_None (maps s) (length (maps s))) (le_n _)) in Hm. discriminate.
  - unfold map_step in H. destruct (nth_error (maps s) m) as [[p x]|] eqn:Em; [|discriminate]. destruct (Imap_Model.step _ _ _ _ _ x e) as [x'|] eqn:Es; [|discriminate].
    injection H as <-. destruct (istep_grows _ _ _ _ _ _ _ _ Es) as (G1 & G2 & G3).
    set (h' := if pos x <? pos x' then _ else _). assert (Hh : incl (history s) h').
    { unfold h'. destruct (pos x <? pos x'); [|apply incl_refl]. destruct (inputs p (pos x)); [apply incl_appl, incl_refl|apply incl_refl|apply incl_refl]. }
    constructor; cbn [maps history directs ended now]; auto.
    + intros j q y Hj. rewrite nth_replace in Hj. destruct (Nat.eqb_spec j m) as [->|]; [|apply K, Hj]. rewrite Em in Hj. injection Hj as <- <-.
      destruct (I1 m p x Em) as (l & R & L). exists (l ++ [e]). rewrite irun_snoc, R. split; [exact Es|]. intros y Hy. apply in_app_iff in Hy as [Hy|[<-|[]]]; apply in_or_app; [left; apply L, Hy|right; left; reflexivity].
    + intros j q y k Hj Hk. rewrite nth_replace in Hj. destruct (Nat.eqb_spec j m) as [->|].
      * rewrite Em in Hj. injection Hj as <- <-. destruct (le_lt_dec (pos x) k) as [Lk|Lk].
        -- assert (Ek : k = pos x /\ pos x' = S (pos x)) by (destruct G3 as [G3|(G3 & _)]; lia). destruct Ek as [-> Ep]. destruct G3 as [G3|(_ & [G3|(G3 & G4)])]; [lia| |right; exact G4].
           left. split; [exact G3|]. unfold h'. rewrite Ep, (proj2 (Nat.ltb_lt (pos x) (S (pos x)))), G3 by lia. apply in_or_app. right. left. reflexivity.
        -- destruct (I2 m p x k Em Lk) as [(A & B)|B]; [left; split; [exact A|apply Hh, B]|right; apply G1, B].
      * destruct (I2 j q y k Hj Hk) as [(A & B)|B]; [left; split; [exact A|apply Hh, B]|right; exact B].
    + assert (Old : forall t, In t (history s) -> match t with Direct i => i < directs s | Mapped j k => exists q y, nth_error (replace m (p, x') (maps s)) j = Some (q, y) /\ k < pos y end).
      { intros t Ht. specialize (I4 t Ht). destruct t as [i|j k]; [exact I4|]. destruct I4 as (q & y & Hj & Hk). rewrite nth_replace. destruct (Nat.eqb_spec j m) as [->|]; [|eauto].
        rewrite Em in *. injection Hj as <- <-. exists p, x'. split; [reflexivity|]. destruct G3 as [|[]]; lia. }
      intros t Ht. unfold h' in Ht. destruct (Nat.ltb_spec (pos x) (pos x')) as [L|L]; [|apply Old, Ht]. destruct (inputs p (pos x)); try (apply Old, Ht).
      apply in_app_iff in Ht as [Ht|[<-|[]]]; [apply Old, Ht|]. exists p, x'. rewrite nth_replace, Nat.eqb_refl, Em. split; [reflexivity|exact L].
    + intros ids Hi y Hy. apply Hh, (I5 ids Hi y Hy).
  - destruct (now s); try discriminate. injection H as <-. constructor; cbn [maps history directs ended now]; auto. destruct lb; discriminate.
  - destruct (now s); try discriminate. destruct (forallb _ _); [|discriminate]. injection H as <-. constructor; cbn [maps history directs ended now]; auto. intros ids [= <-]. apply incl_refl.
  - destruct (now s); try discriminate. destruct (forallb _ _); [|discriminate]. injection H as <-. constructor; cbn [maps history directs ended now]; auto. discriminate.
Qed.
Lemma erun_app lb s l l' : erun lb s (l ++ l') = match erun lb s l with Some s => erun lb s l' | None => None end.
Proof. revert s. induction l as [|e l IH]; intros s; cbn [app erun]; [reflexivity|]. destruct (estep lb s e); [apply IH|reflexivity]. Qed.
Lemma einv_run lb es s : erun lb init es = Some s -> einv es s.
Proof.
  revert s. induction es as [|e es IH] using rev_ind; intros s; [intros [= <-]; apply einv_init|]. rewrite erun_app. destruct (erun lb init es) as [s0|]; [|discriminate].
  cbn [erun]. destruct (estep lb s0 e) as [s1|] eqn:E; [|discriminate]. intros [= <-]. eapply einv_step; [apply IH; reflexivity|exact E].
Qed.

(** What a step keeps *)
Definition later s s' : Prop :=
  directs s <= directs s' /\ incl (ended s) (ended s') /\ incl (history s) (history s') /\
  forall m p x, nth_error (maps s) m = Some (p, x) -> exists x', nth_error (maps s') m = Some (p, x') /\ incl (finished x) (finished x') /\ pos x <= pos x' /\ (recorded x = false -> recorded x' = false).
Lemma later_refl s : later s s.
Proof. split; [lia|]. split; [apply incl_refl|]. split; [apply incl_refl|]. intros m p x H. exists x. split; [exact H|]. split; [apply incl_refl|]. split; [lia|auto]. Qed.
Lemma later_trans a b c : later a b -> later b c -> later a c.
Proof.
  intros (A1 & A2 & A3 & A4) (B1 & B2 & B3 & B4). split; [lia|]. split; [eapply incl_tran; eassumption|]. split; [eapply incl_tran; eassumption|]. intros m p x H.
  destruct (A4 m p x H) as (y & H1 & H2 & H3 & H4). destruct (B4 m p y H1) as (z & H5 & H6 & H7 & H8). exists z. split; [exact H5|]. split; [eapply incl_tran; eassumption|]. split; [lia|auto].
Qed.
Lemma later_step lb s e s' : estep lb s e = Some s' -> later s s'.
Proof.
  intros H. assert (Same : forall h d en n, directs s <= d -> incl (ended s) en -> incl (history s) h -> later s (Est (maps s) h d en n)).
  { intros h d en n H1 H2 H3. destruct (later_refl s) as (_ & _ & _ & L). split; [exact H1|]. split; [exact H2|]. split; [exact H3|exact L]. }
  destruct e as [|i|p|m e| | |]; cbn [estep] in H.
  - injection H as <-. apply Same; [lia|apply incl_refl|apply incl_appl, incl_refl].
  - destruct (_ && _); [|discriminate]. injection H as <-. apply Same; [lia|apply incl_appl, incl_refl|apply incl_refl].
  - injection H as <-. split; [cbn; lia|]. split; [apply incl_refl|]. split; [apply incl_refl|]. cbn [maps]. intros m q x Hm. exists x. rewrite nth_snoc.
    destruct (Nat.eqb_spec m (length (maps s))) as [->|]; [rewrite (proj2 (nth_error_None (maps s) (length (maps s))) (le_n _)) in Hm; discriminate|]. split; [exact Hm|]. split; [apply incl_refl|]. split; [lia|auto].
  - unfold map_step in H. destruct (nth_error (maps s) m) as [[p x]|] eqn:Em; [|discriminate]. destruct (Imap_Model.step _ _ _ _ _ x e) as [x'|] eqn:Es; [|discriminate].
    injection H as <-. destruct (istep_grows _ _ _ _ _ _ _ _ Es) as (G1 & G2 & G3). split; [cbn; lia|]. split; [apply incl_refl|]. split.
    + cbn [history]. destruct (pos x <? pos x'); [|apply incl_refl]. destruct (inputs p (pos x)); [apply incl_appl, incl_refl|apply incl_refl|apply incl_refl].
    + cbn [maps]. intros j q y Hj. rewrite nth_replace. destruct (Nat.eqb_spec j m) as [->|].
      * rewrite Em in *. injection Hj as <- <-. exists x'. split; [reflexivity|]. split; [exact G1|]. split; [destruct G3 as [|[]]; lia|exact G2].
      * exists y. split; [exact Hj|]. split; [apply incl_refl|]. split; [lia|auto].
  - destruct (now s); try discriminate. injection H as <-. apply Same; [lia|apply incl_refl|apply incl_refl].
  - destruct (now s); try discriminate. destruct (forallb _ _); [|discriminate]. injection H as <-. apply Same; [lia|apply incl_refl|apply incl_refl].
  - destruct (now s); try discriminate. destruct (forallb _ _); [|discriminate]. injection H as <-. apply Same; [lia|apply incl_refl|apply incl_refl].
Qed.
Lemma later_run lb es : forall s s', erun lb s es = Some s' -> later s s'.
Proof. induction es as [|e es IH]; intros s s'; cbn [erun]; [intros [= <-]; apply later_refl|]. destruct (estep lb s e) as [s1|] eqn:E; [|discriminate]. intros H. eapply later_trans; [eapply later_step, E|apply IH, H]. Qed.
Lemma has_result_later s s' t : later s s' -> has_result s t = true -> has_result s' t = true.
Proof.
  intros (_ & L2 & _ & L4). unfold has_result. destruct t as [i|m k]; [rewrite !mem_iff; apply L2|]. destruct (nth_error (maps s) m) as [[p x]|] eqn:E; [|discriminate].
  destruct (L4 m p x E) as (x' & -> & H & _). rewrite !mem_iff. apply H.
Qed.

(** A shutdown that has returned has polled, and then waited. *)
Lemma now_step lb s e s' : estep lb s e = Some s' -> now s' = now s \/ (e = Shutdown /\ now s = Running) \/
  (e = Poll /\ now s = Polling /\ forallb (fun px => negb (recorded (snd px))) (maps s) = true /\ s' = Est (maps s) (history s) (directs s) (ended s) (Waiting (history s))) \/
  (e = Return /\ exists ids, now s = Waiting ids /\ forallb (has_result s) ids = true).
Proof.
  intros H. destruct e as [|i|p|m e| | |]; cbn [estep] in H.
  - injection H as <-. left. reflexivity.
  - destruct (_ && _); [|discriminate]. injection H as <-. left. reflexivity.
  - injection H as <-. left. reflexivity.
  - unfold map_step in H. destruct (nth_error (maps s) m) as [[p x]|]; [|discriminate]. destruct (Imap_Model.step _ _ _ _ _ x e); [|discriminate]. injection H as <-. left. reflexivity.
  - right. left. destruct (now s); try discriminate. auto.
  - right. right. left. destruct (now s); try discriminate. destruct (forallb _ _) eqn:E; [|discriminate]. injection H as <-. auto.
  - right. right. right. split; [reflexivity|]. destruct (now s) as [| |ids| |]; try discriminate. exists ids. destruct (forallb _ _) eqn:E; [|discriminate]. auto.
Qed.
Lemma returned_waited lb es : forall s s' ids, erun lb s es = Some s' -> now s = Waiting ids -> now s' = Returned -> forall t, In t ids -> has_result s' t = true.
Proof.
  induction es as [|e es IH]; intros s s' ids; cbn [erun]; [intros [= <-]; congruence|]. destruct (estep lb s e) as [s1|] eqn:E; [|discriminate]. intros H Hn Hr t Ht.
  destruct (now_step _ _ _ _ E) as [N|[(_ & N)|[(_ & N & _)|(_ & ids' & N & F)]]]; [|congruence|congruence|].
  - apply (IH s1 s' ids H); congruence || assumption.
  - assert (ids' = ids) by congruence. subst ids'. apply (has_result_later s); [|rewrite forallb_forall in F; exact (F t Ht)].
    eapply later_trans; [eapply later_step, E|eapply later_run, H].
Qed.
Lemma returned_polled lb es : forall s s', erun lb s es = Some s' -> now s = Polling -> now s' = Returned ->
  exists es1 es2 s1, es = es1 ++ es2 /\ erun lb s es1 = Some s1 /\ erun lb s1 es2 = Some s' /\
    forallb (fun px => negb (recorded (snd px))) (maps s1) = true /\ forall t, In t (history s1) -> has_result s' t = true.
Proof.
  induction es as [|e es IH]; intros s s'; cbn [erun]; [intros [= <-]; congruence|]. destruct (estep lb s e) as [s1|] eqn:E; [|discriminate]. intros H Hn Hr.
  destruct (now_step _ _ _ _ E) as [N|[(_ & N)|[(Ee & N & F & Es)|(_ & ids' & N & F)]]]; [|congruence| |congruence].
  - destruct (IH s1 s' H ltac:(congruence) Hr) as (es1 & es2 & s2 & -> & R1 & R2 & R3). exists (e :: es1), es2, s2. split; [reflexivity|]. split; [cbn [erun]; rewrite E; exact R1|]. split; [exact R2|exact R3].
  - exists [], (e :: es), s. split; [reflexivity|]. split; [reflexivity|]. split; [cbn [erun]; rewrite E; exact H|]. split; [exact F|].
    apply (returned_waited lb es s1 s' (history s) H); [rewrite Es; reflexivity|exact Hr].
Qed.
End Executor.

(* ------------------------------------------------------------------ recording *)
Definition ok_call (s : rst) (c : at_call) : Prop :=
  match c with
  | Before => True
  | Entered n => n <= length (client_history s)
  | Sent n i => n <= i /\ nth_error (client_history s) i = Some i
  | Counted _ _ | Done _ => True
  end.
Lemma in_last_ones k l i : nth_error l i = Some i -> length l - k <= i -> In i (last_ones k l).
Proof.
  intros H L. unfold last_ones. destruct k as [|k]; [eapply nth_error_In, H|]. apply nth_error_In with (i - (length l - S k)).
  rewrite <- H. clear H. revert i L. generalize (length l - S k). intros m. revert l. induction m as [|m IH]; intros l i L; [rewrite Nat.sub_0_r; reflexivity|].
  destruct l as [|x l]; [destruct i; [lia|destruct (S i - S m); reflexivity]|]. destruct i as [|i]; [lia|]. cbn [skipn Nat.sub nth_error]. apply IH. lia.
Qed.
Lemma rstep_ok s e : (forall t, ok_call s (calls s t)) -> forall t, ok_call (rstep s e) (calls (rstep s e) t).
Proof.
  intros I t. destruct e as [u|].
  - cbn [rstep]. pose proof (I u) as Iu. destruct (calls s u) as [|n|n i|k i|i] eqn:Eu; cbn [calls client_history]; try apply I; unfold upd; destruct (Nat.eqb_spec t u) as [->|]; try exact Logic.I; try apply I.
    + cbn. lia.
    + cbn in *. rewrite nth_error_app2, Nat.sub_diag by lia. split; [lia|reflexivity].
    + specialize (I t). destruct (calls s t); cbn in *; try exact Logic.I; [rewrite app_length; lia|]. destruct I as [I1 I2]. split; [exact I1|]. rewrite nth_error_app1; [exact I2|]. apply nth_error_Some. congruence.
  - cbn [rstep calls client_history]. specialize (I t). destruct (calls s t); cbn in *; try exact Logic.I; [rewrite app_length; lia|]. destruct I as [I1 I2]. split; [exact I1|]. rewrite nth_error_app1; [exact I2|]. apply nth_error_Some. congruence.
Qed.
Lemma rrun_ok es : forall s, (forall t, ok_call s (calls s t)) -> forall t, ok_call (rrun s es) (calls (rrun s es) t).
Proof. induction es as [|e es IH]; intros s I; [exact I|]. apply IH, rstep_ok, I. Qed.
Lemma rrun_idle es t : ~ In (Step t) es -> forall s, calls (rrun s es) t = calls s t.
Proof.
  induction es as [|e es IH]; intros Hn s; [reflexivity|]. cbn [rrun fold_left]. fold (rrun (rstep s e) es). rewrite IH by (intros H; apply Hn; right; exact H).
  destruct e as [u|]; [|reflexivity]. cbn [rstep]. destruct (calls s u); cbn [calls]; try reflexivity; unfold upd; destruct (Nat.eqb_spec t u) as [->|]; try reflexivity; destruct Hn; left; reflexivity.
Qed.
Lemma rrun_view es : forall s, incl (view_history s) (view_history (rrun s es)).
Proof.
  induction es as [|e es IH]; intros s; [apply incl_refl|]. cbn [rrun fold_left]. fold (rrun (rstep s e) es). eapply incl_tran; [|apply IH].
  destruct e as [u|]; [|apply incl_refl]. cbn [rstep]. destruct (calls s u); cbn [view_history]; try apply incl_refl. apply incl_appl, incl_refl.
Qed.
