(** C91: the joblib backend. *)
From Coq Require Import List Bool Arith Lia.
From Verif Require Import Joblib_Spec Joblib_Model.
Import ListNotations.

Lemma upd_same {A} (f : nat -> A) k v : upd f k v k = v.
Proof. unfold upd. rewrite Nat.eqb_refl. reflexivity. Qed.
Lemma upd_other {A} (f : nat -> A) k v x : x <> k -> upd f k v x = f x.
Proof. unfold upd. intro H. apply Nat.eqb_neq in H. rewrite H. reflexivity. Qed.
Lemma upd_cases {A} (f : nat -> A) k v x : x = k /\ upd f k v x = v \/ x <> k /\ upd f k v x = f x.
Proof. destruct (Nat.eq_dec x k) as [->|H]; [left; split; [|apply upd_same]|right; split; [|apply upd_other]]; auto. Qed.

(** ** Who is closed *)
Definition opened (w : world) : world := set_open (snd (take w)) (fresh w) true.
Definition told (p : pickler) (w : world) : world :=
  match p with Plain => opened w | p => set_pickles (opened w) (fresh w) p end.
Lemma connect_cases owner c e w w1 r : connect owner c e w = (w1, r) ->
  r = Raised /\ w1 = w \/ r = Raised /\ w1 = opened w \/ r = Waits_forever /\ registered e < wanted e /\ w1 = opened w \/
  r = Made (Backend (View (fresh w) All) true owner (if owner then Some c else None)) /\ wanted e <= registered e /\ w1 = told (best e) w.
Proof.
  unfold connect, best, told. change (take w) with (fresh w, snd (take w)). cbv beta iota zeta.
  fold (opened w). destruct (fails e Connect); [intro H; injection H as <- <-; auto|].
  destruct (registered e <? wanted e) eqn:E.
  - apply Nat.ltb_lt in E. intro H; injection H as <- <-; auto 6.
  - apply Nat.ltb_ge in E. destruct (has_cloudpickle e), (has_dill e), (fails e Configure); intro H; injection H as <- <-; auto 8.
Qed.
Lemma told_open p w x : open (told p w) x = upd (open w) (fresh w) true x.
Proof. destruct p; reflexivity. Qed.
Lemma told_running p w : running (told p w) = running w.
Proof. destruct p; reflexivity. Qed.
Lemma told_sets p w : sets (told p w) = sets w.
Proof. destruct p; reflexivity. Qed.
Lemma told_pickles p w x : pickles (told p w) x = match p with Plain => pickles w x | p => upd (pickles w) (fresh w) p x end.
Proof. destruct p; reflexivity. Qed.
Lemma told_fresh p w : fresh (told p w) = S (fresh w).
Proof. destruct p; reflexivity. Qed.

(** [construct None], case by case. *)
Definition its_cluster (w : world) : world := set_sets (set_running (snd (take w)) (fresh w) true) (fresh w) 1.
Definition with_engines (c : nat) (w : world) : world := if Nat.eqb (sets w c) 0 then set_sets w c 1 else w.
Lemma construct_cases e w w1 r : construct None e w = (w1, r) ->
  (r = Raised /\ (w1 = w \/ cluster_file e = Missing /\ (w1 = set_running (snd (take w)) (fresh w) (half e) ) \/
                 exists c, cluster_file e = Found c /\ w1 = with_engines c w)) \/
  (cluster_file e = Missing /\ connect true (fresh w) e (its_cluster w) = (w1, r)) \/
  (exists c, cluster_file e = Found c /\ connect false c e (with_engines c w) = (w1, r)).
Proof.
  unfold construct, with_engines. destruct (cluster_file e) as [c| |] eqn:F.
  - intro H. destruct (Nat.eqb (sets w c) 0) eqn:Z.
    + destruct (fails e StartEngines).
      * injection H as <- <-. left. split; [reflexivity|]. right. right. exists c. rewrite Z. auto.
      * right. right. exists c. rewrite Z. auto.
    + right. right. exists c. rewrite Z. auto.
  - destruct (fails e NewCluster); [intro H; injection H as <- <-; auto|].
    change (take w) with (fresh w, snd (take w)). cbv beta iota zeta.
    destruct (fails e StartCluster); [intro H; injection H as <- <-; left; auto|].
    intro H. right. left. auto.
  - intro H; injection H as <- <-; auto.
Qed.
Lemma with_engines_open c w : open (with_engines c w) = open w /\ running (with_engines c w) = running w /\
  fresh (with_engines c w) = fresh w /\ pickles (with_engines c w) = pickles w.
Proof. unfold with_engines. destruct (Nat.eqb (sets w c) 0); auto. Qed.

(** A view that is given is used as it is; nothing is ever closed. *)
Theorem C91_given v e w : exists b,
  construct (Some v) e w = (w, Made b) /\ b_view b = v /\ forall e' w', terminate b e' w' = (w', true).
Proof. exists (Backend v false false None). auto. Qed.

(** Without a view, a backend that comes to be has a client of its own, open,
    of a number not taken before, with a view of all engines; there are as many
    engines as there should be, at least one; functions are pickled with the
    best pickler there is; other clients are not touched. *)
Theorem C91_ready e w w1 b : construct None e w = (w1, Made b) ->
  on (b_view b) = All /\ fresh w <= client (b_view b) /\ open w1 (client (b_view b)) = true /\
  1 <= registered e /\ (forall n, size e = Some n -> n <= registered e) /\
  (best e <> Plain -> pickles w1 (client (b_view b)) = best e) /\
  forall x, x <> client (b_view b) -> open w1 x = open w x /\ pickles w1 x = pickles w x.
Proof.
  intro H. apply construct_cases in H.
  assert (W : wanted e <= registered e -> 1 <= registered e /\ (forall n, size e = Some n -> n <= registered e)).
  { unfold wanted. destruct (size e) as [[|n]|]; intro L; (split; [lia|]); intros m E; inversion E; lia. }
  destruct H as [[H _]|[[F H]|[c [F H]]]]; [discriminate H| |];
    apply connect_cases in H; destruct H as [[H _]|[[H _]|[[H _]|[H [L ->]]]]]; try discriminate H;
    injection H as ->; cbn [b_view on client]; destruct (W L) as [W1 W2].
  - change (fresh (its_cluster w)) with (S (fresh w)). rewrite told_open, told_pickles. cbn [fresh its_cluster].
    change (fresh (its_cluster w)) with (S (fresh w)). rewrite upd_same.
    repeat split; auto.
    + intro B. destruct (best e); [contradiction| |]; apply upd_same.
    + rewrite told_open. change (fresh (its_cluster w)) with (S (fresh w)). rewrite upd_other by assumption. reflexivity.
    + rewrite told_pickles. change (fresh (its_cluster w)) with (S (fresh w)).
      destruct (best e); rewrite ?upd_other by assumption; reflexivity.
  - destruct (with_engines_open c w) as [O [R [Fr P]]]. rewrite told_open, told_pickles, Fr, upd_same.
    repeat split; auto.
    + intro B. destruct (best e); [contradiction| |]; apply upd_same.
    + rewrite told_open, Fr, O. rewrite upd_other by assumption. reflexivity.
    + rewrite told_pickles, Fr, P. destruct (best e); rewrite ?upd_other by assumption; reflexivity.
Qed.

(** It runs a cluster of its own iff there was no cluster file; a cluster that
    was found is neither started nor stopped; one engine set is started there
    iff it had none. *)
Theorem C91_cluster e w w1 b : construct None e w = (w1, Made b) ->
  match cluster_file e with
  | Missing => exists c, fresh w <= c /\ running w1 c = true /\ sets w1 c = 1 /\
      (forall x, x <> c -> running w1 x = running w x /\ sets w1 x = sets w x)
  | Found c => running w1 = running w /\ (forall x, sets w1 x = if Nat.eqb x c then max 1 (sets w c) else sets w x)
  | Unreadable => False
  end.
Proof.
  intro H. apply construct_cases in H.
  destruct H as [[H _]|[[F H]|[c [F H]]]]; [discriminate H| |];
    apply connect_cases in H; destruct H as [[H _]|[[H _]|[[H _]|[H [L ->]]]]]; try discriminate H; rewrite F.
  - exists (fresh w). rewrite told_running, told_sets. unfold its_cluster. cbn [running sets set_sets set_running snd take].
    rewrite !upd_same. repeat split; auto; rewrite upd_other by assumption; reflexivity.
  - destruct (with_engines_open c w) as [O [R [Fr P]]]. rewrite told_running, R. split; [reflexivity|].
    intro x. rewrite told_sets. unfold with_engines. destruct (Nat.eqb (sets w c) 0) eqn:Z.
    + apply Nat.eqb_eq in Z. cbn [sets set_sets]. unfold upd. rewrite Z. reflexivity.
    + apply Nat.eqb_neq in Z. destruct (Nat.eqb_spec x c) as [->|]; [lia|reflexivity].
Qed.

(** What [terminate] does to whatever there is then: it closes the client and
    stops the cluster the backend came with, if it returns; nothing else, in
    any case. *)
Theorem C91_closes e w w1 b e' w' w2 : sane w -> construct None e w = (w1, Made b) -> terminate b e' w' = (w2, true) ->
  (forall c, open w1 c = true -> open w c = false -> open w2 c = false) /\
  (forall c, running w1 c = true -> running w c = false -> running w2 c = false /\ sets w2 c = 0).
Proof.
  intros S H T. pose proof (C91_ready _ _ _ _ H) as [_ [Cf [_ [_ [_ [_ Oth]]]]]]. apply construct_cases in H.
  destruct H as [[H _]|[[F H]|[c [F H]]]]; [discriminate H| |];
    apply connect_cases in H; destruct H as [[H _]|[[H _]|[[H _]|[H [L ->]]]]]; try discriminate H;
    injection H as ->; cbn [b_view client] in Oth; unfold terminate in T; cbn [client_owner cluster_owner b_cluster b_view client] in T;
    (destruct (fails e' CloseClient); [discriminate T|]).
  - destruct (fails e' StopCluster); [discriminate T|]. injection T as <-. cbn [open running set_sets set_running set_open].
    split; intros x X Y.
    + destruct (Nat.eq_dec x (fresh (its_cluster w))) as [->|N]; [apply upd_same|].
      destruct (Oth x N) as [E _]. congruence.
    + rewrite told_running in X. unfold its_cluster in X. cbn [running set_sets set_running snd take] in X.
      destruct (upd_cases (running w) (fresh w) true x) as [[-> E]|[N E]]; [|congruence].
      cbn [sets set_sets]. rewrite !upd_same. auto.
  - injection T as <-. destruct (with_engines_open c w) as [O [R [Fr P]]]. split; intros x X Y.
    + cbn [open set_open]. destruct (Nat.eq_dec x (fresh (with_engines c w))) as [->|N]; [apply upd_same|].
      destruct (Oth x N) as [E _]. congruence.
    + rewrite told_running, R in X. congruence.
Qed.

(** If nothing goes wrong, a backend comes to be iff there are engines enough
    in the end, and it can be terminated. *)
Theorem C91_works e w e' w' : cluster_file e <> Unreadable -> (forall o, fails e o = false) -> (forall o, fails e' o = false) ->
  if Nat.max 1 (match size e with Some n => n | None => 1 end) <=? registered e
  then exists w1 b, construct None e w = (w1, Made b) /\ exists w2, terminate b e' w' = (w2, true)
  else exists w1, construct None e w = (w1, Waits_forever).
Proof.
  intros F G G'. assert (W : Nat.max 1 (match size e with Some n => n | None => 1 end) = wanted e).
  { unfold wanted. destruct (size e) as [[|[|n]]|]; reflexivity. }
  rewrite W. assert (C : forall owner c w, if wanted e <=? registered e
    then exists w1 b, connect owner c e w = (w1, Made b) /\ exists w2, terminate b e' w' = (w2, true)
    else exists w1, connect owner c e w = (w1, Waits_forever)).
  { intros owner c v. unfold connect. rewrite !G. change (take v) with (fresh v, snd (take v)). cbv beta iota zeta.
    destruct (Nat.leb_spec (wanted e) (registered e)) as [L|L].
    - apply Nat.ltb_ge in L. rewrite L.
      assert (T : forall b, client_owner b = true -> cluster_owner b = owner -> b_cluster b = (if owner then Some c else None) -> exists w2, terminate b e' w' = (w2, true)).
      { intros b B1 B2 B3. unfold terminate. rewrite B1, B2, !G'. destruct owner; [rewrite B3|]; eauto. }
      destruct (has_cloudpickle e), (has_dill e); do 2 eexists; (split; [reflexivity|apply T; reflexivity]).
    - apply Nat.ltb_lt in L. rewrite L. eauto. }
  unfold construct. rewrite !G. destruct (cluster_file e) as [c| |]; [| |contradiction].
  - destruct (Nat.eqb (sets w c) 0); apply C.
  - change (take w) with (fresh w, snd (take w)). cbv beta iota zeta. apply C.
Qed.

(** It waits for engines only if there are too few. *)
Theorem C91_waits e w w1 : construct None e w = (w1, Waits_forever) ->
  registered e = 0 \/ exists n, size e = Some n /\ registered e < n.
Proof.
  intro H. assert (L : registered e < wanted e -> registered e = 0 \/ exists n, size e = Some n /\ registered e < n).
  { unfold wanted. destruct (size e) as [[|n]|]; intro L; [left; lia|right; eauto|left; lia]. }
  apply L. apply construct_cases in H. destruct H as [[H _]|[[F H]|[c [F H]]]]; [discriminate H| |];
    apply connect_cases in H; destruct H as [[H _]|[[H _]|[[_ [H _]]|[H _]]]]; try discriminate H; exact H.
Qed.

Theorem C91_closes_only e w w1 b e' w' w2 done : sane w -> construct None e w = (w1, Made b) -> terminate b e' w' = (w2, done) ->
  (forall c, open w2 c <> open w' c -> open w c = false /\ open w1 c = true /\ open w2 c = false) /\
  (forall c, running w2 c <> running w' c -> running w c = false /\ running w1 c = true /\ running w2 c = false) /\
  (forall c, sets w2 c <> sets w' c -> running w c = false /\ running w1 c = true) /\ pickles w2 = pickles w'.
Proof.
  intros S H T. apply construct_cases in H.
  destruct H as [[H _]|[[F H]|[c [F H]]]]; [discriminate H| |];
    apply connect_cases in H; destruct H as [[H _]|[[H _]|[[H _]|[H [L ->]]]]]; try discriminate H;
    injection H as ->; unfold terminate in T; cbn [client_owner cluster_owner b_cluster b_view client] in T;
    (destruct (fails e' CloseClient); [injection T as <- <-; repeat split; congruence|]).
  - assert (OP : forall x, upd (open w') (fresh (its_cluster w)) false x <> open w' x ->
      open w x = false /\ open (told (best e) (its_cluster w)) x = true /\ upd (open w') (fresh (its_cluster w)) false x = false).
    { intros x N. destruct (upd_cases (open w') (fresh (its_cluster w)) false x) as [[-> E]|[N' E]]; [|congruence].
      rewrite told_open, !upd_same. split; [|auto]. change (fresh (its_cluster w)) with (Datatypes.S (fresh w)). apply S. lia. }
    assert (RU : forall x, x = fresh w -> running w x = false /\ running (told (best e) (its_cluster w)) x = true).
    { intros x ->. rewrite told_running. unfold its_cluster. cbn [running set_sets set_running snd take]. rewrite upd_same. split; [apply S; lia|reflexivity]. }
    destruct (fails e' StopCluster); injection T as <- <-; cbn [open running sets pickles set_sets set_running set_open].
    + split; [exact OP|]. repeat split; congruence.
    + split; [exact OP|]. split; [|split; [|reflexivity]]; intros x N.
      * destruct (upd_cases (running w') (fresh w) false x) as [[-> E]|[N' E]]; [|congruence].
        rewrite E. destruct (RU _ eq_refl). auto.
      * destruct (upd_cases (sets w') (fresh w) 0 x) as [[-> E]|[N' E]]; [|congruence]. exact (RU _ eq_refl).
  - injection T as <- <-. destruct (with_engines_open c w) as [O [R [Fr P]]]. cbn [open running sets pickles set_open].
    split; [|repeat split; congruence]. intros x N.
    destruct (upd_cases (open w') (fresh (with_engines c w)) false x) as [[-> E]|[N' E]]; [|congruence].
    rewrite told_open, Fr, !upd_same. split; [apply S; lia|auto].
Qed.

(** However the construction ends, no client and no cluster that was there is
    closed or stopped, and at most one client and one cluster are left over. *)
Theorem C91_spares v e w w1 r : sane w -> construct v e w = (w1, r) ->
  (forall c, open w c = true -> open w1 c = true) /\ (forall c, running w c = true -> running w1 c = true) /\
  (forall c d, open w1 c = true -> open w c = false -> open w1 d = true -> open w d = false -> c = d) /\
  (forall c d, running w1 c = true -> running w c = false -> running w1 d = true -> running w d = false -> c = d).
Proof.
  intros S H. destruct v as [v|]; [injection H as <- <-; repeat split; auto; congruence|].
  assert (U : forall f k b (G : f k = false), (forall c : nat, f c = true -> upd f k b c = true) /\
     (forall c d, upd f k b c = true -> f c = false -> upd f k b d = true -> f d = false -> c = d)).
  { intros f k b G. split.
    - intros c E. rewrite upd_other; [exact E|congruence].
    - intros c d C1 C2 D1 D2. destruct (upd_cases f k b c) as [[-> _]|[_ X]]; [|congruence].
      destruct (upd_cases f k b d) as [[-> _]|[_ X]]; congruence. }
  assert (I : forall f : nat -> bool, (forall c, f c = true -> f c = true) /\
     (forall c d, f c = true -> f c = false -> f d = true -> f d = false -> c = d)) by (split; [auto|congruence]).
  assert (X : forall A B C D : Prop, A /\ C -> B /\ D -> A /\ B /\ C /\ D) by tauto.
  assert (S1 : open w (Datatypes.S (fresh w)) = false) by (apply S; lia).
  assert (S2 : open w (fresh w) = false) by (apply S; lia).
  assert (S3 : running w (fresh w) = false) by (apply S; lia).
  apply construct_cases in H. destruct H as [[_ [->|[[_ ->]|[c [_ ->]]]]]|[[F H]|[c [F H]]]]; apply X; try apply I.
  all: try (destruct (with_engines_open c w) as [O [R [Fr P]]]).
  all: try (apply connect_cases in H; destruct H as [[_ ->]|[[_ ->]|[[_ [_ ->]]|[_ [_ ->]]]]]).
  all: rewrite ?told_running; unfold told; try destruct (best e); unfold its_cluster, opened;
    cbn [open running set_open set_sets set_running set_pickles snd take fresh]; rewrite ?O, ?R, ?Fr;
    first [apply I | apply (U (open w)); assumption | apply (U (running w)); assumption].
Qed.

(** Terminating again does nothing more. *)
Theorem C91_again b e e' w w1 w2 done : terminate b e w = (w1, true) -> terminate b e' w1 = (w2, done) ->
  forall c, open w2 c = open w1 c /\ running w2 c = running w1 c /\ sets w2 c = sets w1 c.
Proof.
  assert (U : forall A (f : nat -> A) k v c, upd (upd f k v) k v c = upd f k v c)
    by (intros A f k v c; unfold upd; destruct (Nat.eqb c k); reflexivity).
  unfold terminate. intros H H' c. destruct (client_owner b), (cluster_owner b), (b_cluster b) as [k|];
  repeat match type of H with context[if ?x then _ else _] => destruct x; try discriminate H end;
  repeat match type of H' with context[if ?x then _ else _] => destruct x end;
  try discriminate H; injection H as <-; injection H' as <- <-;
  cbn [open running sets set_open set_sets set_running]; rewrite ?U; auto.
Qed.

(** As many jobs as the view has engines run at a time. *)
Theorem C91_jobs v e w b engines : construct v e w = (fst (construct v e w), Made b) ->
  effective_n_jobs b engines = match v with
    | Some (View _ (Some_of l)) => length l | Some (View _ (One _)) => 1 | Some (View _ All) | None => engines end.
Proof.
  destruct v as [[c [|x|l]]|]; intro H; try (injection H as <-; reflexivity).
  destruct (C91_ready _ _ _ _ H) as [A _]. unfold effective_n_jobs. rewrite A. reflexivity.
Qed.

(** ** Callbacks *)
Inductive told_of (i : nat) : job -> list event -> Prop :=
| K_un : told_of i (Job Unsent Pending false false) []
| K_sent cb : told_of i (Job (Sent cb) Pending false false) [Sends i cb]
| K_early cb o : told_of i (Job (Sent cb) (Resolved o) false false) [Sends i cb; Done i o]
| K_sub cb : told_of i (Job Submitted Pending cb false) [Sends i cb]
| K_due cb o : told_of i (Job Submitted (Resolved o) false cb) [Sends i cb; Done i o]
| K_called o : told_of i (Job Submitted (Resolved o) false false) ([Sends i true; Done i o] ++ call i (Resolved o)).

Lemma of_job_app i l m : of_job i (l ++ m) = of_job i l ++ of_job i m.
Proof. apply filter_app. Qed.
Lemma of_job_call i f j : of_job j (call i f) = if Nat.eqb i j then call i f else [].
Proof. destruct f as [|[v|]]; unfold of_job; cbn [call filter job_of]; destruct (Nat.eqb i j); reflexivity. Qed.

Lemma told_run l s : jrun l s -> forall i, told_of i (s i) (of_job i l).
Proof.
  induction 1 as [|l s k t R IH St]; intro j; [constructor|].
  rewrite of_job_app. specialize (IH j).
  destruct St as [s i cb f a t E|s i f a t E|s i a t E|s i o a t E|s i p a t o E N|s i p f a E];
    (destruct (upd_cases s i (s i) j) as [[-> _]|[N' _]];
     [rewrite upd_same|rewrite upd_other by exact N'; rewrite ?of_job_call; try (unfold of_job at 2); cbn [filter job_of];
        rewrite ?(proj2 (Nat.eqb_neq i j)) by auto; rewrite app_nil_r; exact IH]).
  all: rewrite E in IH; rewrite ?of_job_call; try (unfold of_job at 2); cbn [filter job_of]; rewrite ?Nat.eqb_refl.
  all: inversion IH; subst; rewrite ?app_nil_r; try contradiction; try constructor.
Qed.

(** Whatever the order of things, what happens to a job is the beginning of
    this story: it is sent, it is done, its callback is called, once, with what
    it came to; not if it failed. *)
Theorem C91_story l s i : jrun l s -> exists cb o, prefix (of_job i l) (story i cb o).
Proof.
  intro R. pose proof (told_run l s R i) as K. remember (s i) as j. remember (of_job i l) as m.
  destruct K as [|cb|cb o|cb|cb o|o].
  - exists true, Error. eexists. reflexivity.
  - exists cb, Error. eexists. reflexivity.
  - exists cb, o. eexists. reflexivity.
  - exists cb, Error. eexists. reflexivity.
  - exists cb, o. eexists. reflexivity.
  - exists true, o. exists []. destruct o; reflexivity.
Qed.

Lemma in_of_job e l : In e l <-> In e (of_job (job_of e) l).
Proof. unfold of_job. rewrite filter_In, Nat.eqb_refl. tauto. Qed.

(** A callback is called only with the value its job came to. *)
Theorem C91_calls l s i v : jrun l s -> In (Calls i v) l -> In (Sends i true) l /\ In (Done i (Value v)) l.
Proof.
  intros R I. apply in_of_job in I. cbn [job_of] in I.
  rewrite (in_of_job (Sends i true)), (in_of_job (Done i (Value v))). cbn [job_of].
  pose proof (told_run l s R i) as K. remember (of_job i l) as m. remember (s i) as j.
  destruct K as [|cb|cb o|cb|cb o|o]; try (repeat destruct I as [I|I]; try discriminate I; contradiction).
  destruct o as [u|]; cbn [call app In] in I |- *; repeat destruct I as [I|I]; try discriminate I; try contradiction.
  injection I as ->. auto.
Qed.

(** When there is nothing left to do but to send and to finish jobs, every
    callback of a job that came to a value has been called. *)
Theorem C91_called l s i cb o : jrun l s ->
  (forall k t, jstep s k t -> exists j, (exists c, k = [Sends j c]) \/ (exists p, k = [Done j p])) ->
  In (Sends i cb) l -> In (Done i o) l -> of_job i l = story i cb o.
Proof.
  intros R Q I J. apply in_of_job in I, J. cbn [job_of] in I, J.
  pose proof (told_run l s R i) as K. remember (of_job i l) as m. remember (s i) as j eqn:E. symmetry in E.
  destruct K as [|c|c p|c|c p|p].
  - contradiction.
  - repeat destruct J as [J|J]; try discriminate J; contradiction.
  - exfalso. destruct c.
    + destruct (Q _ _ (J_at_once s i p false false E)) as [y [[z X]|[z X]]]; destruct p; discriminate X.
    + destruct (Q _ _ (J_no_callback s i (Resolved p) false false E)) as [y [[z X]|[z X]]]; discriminate X.
  - repeat destruct J as [J|J]; try discriminate J; contradiction.
  - destruct c.
    + exfalso. destruct (Q _ _ (J_call s i Submitted (Resolved p) false E)) as [y [[z X]|[z X]]]; destruct p; discriminate X.
    + destruct I as [I|[I|[]]]; [|discriminate I]. destruct J as [J|[J|[]]]; [discriminate J|].
      injection I as <-. injection J as <-. reflexivity.
  - destruct I as [I|I]; [|exfalso; destruct p; cbn [call app In] in I; repeat destruct I as [I|I]; try discriminate I; contradiction].
    injection I as <-. destruct J as [J|[J|J]]; [discriminate J| |exfalso; destruct p; cbn [call app In] in J; repeat destruct J as [J|J]; try discriminate J; contradiction].
    injection J as <-. destruct p; reflexivity.
Qed.

(** And that comes: nothing stands in the way of a callback. *)
Theorem C91_comes l s i cb o : jrun l s -> In (Sends i cb) l -> In (Done i o) l ->
  exists k t, jrun (l ++ k) t /\ of_job i (l ++ k) = story i cb o.
Proof.
  intros R I J. pose proof R as R0. apply in_of_job in I, J. cbn [job_of] in I, J.
  pose proof (told_run l s R i) as K. remember (of_job i l) as m eqn:M. remember (s i) as j eqn:E. symmetry in E, M.
  destruct K as [|c|c p|c|c p|p].
  - contradiction.
  - repeat destruct J as [J|J]; try discriminate J; contradiction.
  - destruct I as [I|[I|[]]]; [|discriminate I]. destruct J as [J|[J|[]]]; [discriminate J|]. injection I as <-. injection J as <-.
    destruct c.
    + exists (call i (Resolved p)), (upd s i (Job Submitted (Resolved p) false false)). split; [eapply jrun_on; [exact R|constructor; exact E]|].
      rewrite of_job_app, M, of_job_call, Nat.eqb_refl. destruct p; reflexivity.
    + exists [], (upd s i (Job Submitted (Resolved p) false false)). split; [eapply jrun_on; [exact R|constructor; exact E]|].
      rewrite app_nil_r, M. reflexivity.
  - repeat destruct J as [J|J]; try discriminate J; contradiction.
  - destruct I as [I|[I|[]]]; [|discriminate I]. destruct J as [J|[J|[]]]; [discriminate J|]. injection I as <-. injection J as <-.
    destruct c.
    + exists (call i (Resolved p)), (upd s i (Job Submitted (Resolved p) false false)). split; [eapply jrun_on; [exact R|constructor; exact E]|].
      rewrite of_job_app, M, of_job_call, Nat.eqb_refl. destruct p; reflexivity.
    + exists [], s. rewrite app_nil_r. split; [exact R|]. rewrite M. reflexivity.
  - exists [], s. rewrite app_nil_r. split; [exact R|]. rewrite M.
    destruct I as [I|I]; [|exfalso; destruct p; cbn [call app In] in I; repeat destruct I as [I|I]; try discriminate I; contradiction].
    injection I as <-. destruct J as [J|[J|J]]; [discriminate J| |exfalso; destruct p; cbn [call app In] in J; repeat destruct J as [J|J]; try discriminate J; contradiction].
    injection J as <-. destruct p; reflexivity.
Qed.

(** A job that was sent can still be done; a job that was not can be sent. *)
Theorem C91_goes_on l s i : jrun l s ->
  ((forall cb, ~ In (Sends i cb) l) -> forall cb, exists t, jrun (l ++ [Sends i cb]) t) /\
  (forall cb, In (Sends i cb) l -> (forall o, ~ In (Done i o) l) -> forall o, exists t, jrun (l ++ [Done i o]) t).
Proof.
  intro R. pose proof (told_run l s R i) as K. remember (of_job i l) as m eqn:M. remember (s i) as j eqn:E. symmetry in E, M.
  assert (A : forall e, job_of e = i -> In e m -> In e l).
  { intros e <- I. rewrite <- M in I. apply in_of_job in I. exact I. }
  split.
  - intros N cb. destruct K as [|c|c p|c|c p|p];
      try (exfalso; eapply N; apply A; [|left; reflexivity]; reflexivity).
    eexists. eapply jrun_on; [exact R|]. eapply J_send. exact E.
  - intros cb I N o. destruct K as [|c|c p|c|c p|p].
    + exfalso. apply in_of_job in I. cbn [job_of] in I. rewrite M in I. contradiction.
    + eexists. eapply jrun_on; [exact R|]. eapply J_resolve; [exact E|discriminate].
    + exfalso. eapply N; apply A; [|right; left; reflexivity]; reflexivity.
    + eexists. eapply jrun_on; [exact R|]. eapply J_resolve; [exact E|discriminate].
    + exfalso. eapply N; apply A; [|right; left; reflexivity]; reflexivity.
    + exfalso. eapply N; apply A; [|right; left; reflexivity]; reflexivity.
Qed.

Print Assumptions C91_given.
Print Assumptions C91_ready.
Print Assumptions C91_cluster.
Print Assumptions C91_closes.
Print Assumptions C91_closes_only.
Print Assumptions C91_spares.
Print Assumptions C91_works.
Print Assumptions C91_waits.
Print Assumptions C91_again.
Print Assumptions C91_jobs.
Print Assumptions C91_story.
Print Assumptions C91_calls.
Print Assumptions C91_called.
Print Assumptions C91_comes.
Print Assumptions C91_goes_on.

(** ** Examples *)
Definition w0 : world := World (Nat.eqb 3) (Nat.eqb 4) (fun c => if Nat.eqb c 4 then 2 else 0) (fun _ => Plain) 7.
Example C91_ex_sane : sane w0.
Proof. intros c L. cbn [fresh w0] in L. cbn [open running w0]. split; apply Nat.eqb_neq; lia. Qed.
Definition fine (f : file) : env := Env f (Some 2) 4 (fun _ => false) false true false.
Example C91_ex_own : let '(w, m) := construct None (fine Missing) w0 in
  m = Made (Backend (View 8 All) true true (Some 7)) /\ open w 8 = true /\ running w 7 = true /\ pickles w 8 = Cloud /\
  forall b, m = Made b -> effective_n_jobs b 4 = 4 /\
  let '(w, done) := terminate b (fine Missing) w in done = true /\ open w 8 = false /\ running w 7 = false /\ open w 3 = true /\ running w 4 = true.
Proof. vm_compute. repeat apply conj; try reflexivity; intros b H; injection H as <-; repeat split; reflexivity. Qed.
Example C91_ex_found : let '(w, m) := construct None (fine (Found 4)) w0 in
  m = Made (Backend (View 7 All) true false None) /\ open w 7 = true /\ sets w 4 = 2 /\
  forall b, m = Made b -> let '(w, done) := terminate b (fine Missing) w in done = true /\ open w 7 = false /\ running w 4 = true /\ open w 3 = true.
Proof. vm_compute. repeat apply conj; try reflexivity; intros b H; injection H as <-; repeat split; reflexivity. Qed.
(** Two jobs: the first is done before its callback is added; the second fails. *)
Example C91_ex_run : exists s, jrun [Sends 0 true; Sends 1 true; Done 0 (Value 5); Calls 0 5; Done 1 Error] s /\
  forall k t, jstep s k t -> exists j, (exists c, k = [Sends j c]) \/ (exists p, k = [Done j p]).
Proof.
  eexists. split.
  - change [Sends 0 true; Sends 1 true; Done 0 (Value 5); Calls 0 5; Done 1 Error] with
      ((((((([] ++ [Sends 0 true]) ++ [Sends 1 true]) ++ [Done 0 (Value 5)]) ++ call 0 (Resolved (Value 5))) ++ []) ++ [Done 1 Error]) ++ call 1 (Resolved Error)).
    eapply jrun_on; [eapply jrun_on; [eapply jrun_on; [eapply jrun_on; [eapply jrun_on; [eapply jrun_on; [eapply jrun_on; [apply jrun_start|]|]|]|]|]|]|].
    + eapply J_send; reflexivity.
    + eapply J_send; reflexivity.
    + eapply J_resolve; [reflexivity|discriminate].
    + eapply J_at_once; reflexivity.
    + eapply (J_add _ 1); reflexivity.
    + eapply J_resolve; [reflexivity|discriminate].
    + eapply J_call; reflexivity.
  - intros k t H. inversion H as [s i cb f a x E|s i f a x E|s i a x E|s i o a x E|s i p a x o E N|s i p f a E]; subst;
      try (exists i; eauto; fail);
      destruct i as [|[|i]]; vm_compute in E; discriminate E.
Qed.

(** ** What does not hold *)
(** Not everything that was started is stopped: engines started for a cluster
    that was found without engines stay. *)
Theorem C91_engines_refuted : ~ (forall e w w1 b e' w2, sane w -> construct None e w = (w1, Made b) -> terminate b e' w1 = (w2, true) ->
  forall c, sets w2 c = sets w c).
Proof.
  intro H. set (w := World (Nat.eqb 3) (Nat.eqb 4) (fun _ => 0) (fun _ => Plain) 7).
  assert (S : sane w) by (intros c L; cbn [fresh w] in L; cbn [open running w]; split; apply Nat.eqb_neq; lia).
  specialize (H (fine (Found 4)) w _ _ (fine Missing) _ S eq_refl eq_refl 4). discriminate H.
Qed.
(** A construction that fails leaves a cluster and a client: nobody can
    terminate the backend that did not come to be. *)
Theorem C91_leak_refuted : ~ (forall e w w1, sane w -> construct None e w = (w1, Raised) ->
  (forall c, open w1 c = open w c) /\ (forall c, running w1 c = running w c)).
Proof.
  intro H. set (e := Env Missing (Some 2) 4 (fun o => match o with Configure => true | _ => false end) false true false).
  destruct (H e w0 _ C91_ex_sane eq_refl) as [O R]. specialize (O 8). discriminate O.
Qed.
(** If the client cannot be closed, the cluster is not stopped. *)
Theorem C91_close_refuted : ~ (forall e w w1 b e' w2 done c, sane w -> construct None e w = (w1, Made b) -> terminate b e' w1 = (w2, done) ->
  fails e' StopCluster = false -> running w2 c = running w c).
Proof.
  intro H. set (e' := Env Missing None 0 (fun o => match o with CloseClient => true | _ => false end) false true false).
  specialize (H (fine Missing) w0 _ _ e' _ _ 7 C91_ex_sane eq_refl eq_refl eq_refl). discriminate H.
Qed.
(** A cluster that was found with fewer engines than it should have is waited for, for ever. *)
Theorem C91_wait_refuted : ~ (forall e w w1 r, sane w -> 1 <= registered e -> construct None e w = (w1, r) -> r <> Waits_forever).
Proof.
  intro H. set (e := Env (Found 4) (Some 3) 2 (fun _ => false) false true false).
  apply (H e w0 _ _ C91_ex_sane (le_S _ _ (le_n 1)) eq_refl). reflexivity.
Qed.
