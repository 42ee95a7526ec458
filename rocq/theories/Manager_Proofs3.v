(** Lemmas for C83: cleaning, keys, histories. *)
From Coq Require Import NArith String Ascii PeanoNat List Bool Lia.
From Verif Require Import Batch_Spec Manager_Spec Manager_Model Manager_Notions Manager_Proofs Manager_Proofs2.
Import ListNotations.

Lemma each_ind {A} (step : A -> disk -> disk * outcome) (P : disk -> Prop) l :
  (forall a d, In a l -> P d -> P (fst (step a d))) -> forall d, P d -> P (fst (each step l d)).
Proof.
  induction l as [|a l IH]; intros H d Pd; cbn [each]; auto. assert (X := H a d (or_introl eq_refl) Pd). destruct (step a d) as [d' [| |]]; cbn [fst] in *; auto.
  apply IH; auto. intros b e B. apply H. now right.
Qed.
(** what a call that returns has done for one of the list *)
Lemma each_done {A} (step : A -> disk -> disk * outcome) (P Q : disk -> Prop) l a :
  (forall b d, P d -> P (fst (step b d))) -> (forall b d, Q d -> Q (fst (step b d))) ->
  (forall d, P d -> snd (step a d) = Done -> Q (fst (step a d))) ->
  In a l -> forall d, P d -> snd (each step l d) = Done -> Q (fst (each step l d)).
Proof.
  intros HP HQ HA. induction l as [|b l IH]; intros I d Pd E; [destruct I|]. cbn [each] in *. assert (XP := HP b d Pd).
  destruct I as [->|I].
  - assert (Y := HA d Pd). destruct (step a d) as [d' [| |]]; cbn [fst snd] in *; try discriminate. assert (Z := each_ind step Q l (fun b e _ => HQ b e) d' (Y eq_refl)). exact Z.
  - destruct (step b d) as [d' [| |]]; cbn [fst snd] in *; try discriminate. apply IH; auto.
Qed.
Lemma each_outcome {A} (step : A -> disk -> disk * outcome) l o : (forall a d, In a l -> snd (step a d) = Done \/ snd (step a d) = o) -> forall d, snd (each step l d) = Done \/ snd (each step l d) = o.
Proof.
  induction l as [|a l IH]; intros H d; cbn [each]; auto. destruct (H a d (or_introl eq_refl)) as [X|X]; destruct (step a d) as [d' r]; cbn [snd] in X; subst.
  - apply IH. intros b e B. apply H. now right.
  - destruct o; cbn [snd]; auto. apply IH. intros b e B. apply H. now right.
Qed.

Lemma remove_disk log f d : NoDup (map fst d) -> NoDup (map fst (fst (remove log f d))) /\ (forall g, g <> f -> get g (fst (remove log f d)) = get g d) /\
  (get f (fst (remove log f d)) = None \/ get f (fst (remove log f d)) = get f d) /\
  (snd (remove log f d) = Done -> forall x, get f (fst (remove log f d)) <> Some (File x true)).
Proof.
  intros ND. unfold remove. destruct (get f d) as [[x [|]]|] eqn:E; cbn [fst snd].
  - split; [now apply nodup_del|]. split; [intros g G; now apply get_del_other|]. rewrite get_del_same by exact ND. split; auto. intros _ y. discriminate.
  - repeat split; auto. intros _ y. congruence.
  - repeat split; auto. intros _ y. congruence.
Qed.
Lemma clean_file_disk alive log force f d : NoDup (map fst d) -> NoDup (map fst (fst (clean_file alive log force f d))) /\
  (forall g, g <> f -> get g (fst (clean_file alive log force f d)) = get g d) /\
  (snd (clean_file alive log force f d) = Done -> forall x, get f (fst (clean_file alive log force f d)) <> Some (File x true)) /\
  (force = false -> forall i r, get f d = Some (File (Says i) r) -> live alive i ->
     snd (clean_file alive log force f d) = StillRunning /\ exists j, get f (fst (clean_file alive log force f d)) = Some (File (Says j) r) /\ (j = i \/ j = reload alive i)) /\
  (snd (clean_file alive log force f d) = StillRunning -> force = false /\ exists i r, get f d = Some (File (Says i) r) /\ live alive i).
Proof.
  intros ND. unfold clean_file. destruct force.
  { destruct (remove_disk log f d ND) as (H1 & H2 & H3 & H4). split; [exact H1|]. split; [exact H2|]. split; [exact H4|]. split; [discriminate|].
    intros X. exfalso. revert X. unfold remove. destruct (get f d) as [[x [|]]|]; cbn [snd]; destruct log; discriminate. }
  assert (FD := from_file_disk alive 0 f d ND). assert (FC := from_file_cluster alive 0 f d). assert (FL := fun i r => from_file_loads alive 0 f d i r).
  destruct (from_file alive 0 f d) as [d' [c|]] eqn:E; cbn [fst snd] in *; destruct FD as (F1 & F2 & F3).
  - destruct (FC c eq_refl) as (i & r & G & ->). destruct (is_running (restored 0 f (reload alive i))) eqn:R.
    + assert (L : live alive i) by now apply (reload_live alive 0 f). cbn [fst snd]. split; [exact F1|]. split; [exact F2|]. split; [discriminate|]. split; [|intros _; split; eauto].
      intros _ j q X _. rewrite G in X. injection X as <- <-. destruct F3 as [F3|(j & q & X & [[_ Y]|[Y _]])].
      * split; [reflexivity|]. rewrite F3. eauto.
      * split; [reflexivity|]. rewrite G in X. injection X as <- <-. eauto.
      * rewrite G in X. injection X as <- <-. contradiction.
    + assert (L : ~ live alive i) by (rewrite <- (reload_live alive 0 f); congruence). destruct (remove_disk log f d' F1) as (H1 & H2 & H3 & H4).
      split; auto. split; [intros g X; rewrite H2; auto|]. split; auto. split.
      * intros _ j q X. rewrite G in X. injection X as <- <-. contradiction.
      * intros X. exfalso. revert X. unfold remove. destruct (get f d') as [[x [|]]|]; cbn [snd]; destruct log; discriminate.
  - destruct (remove_disk log f d' F1) as (H1 & H2 & H3 & H4). split; auto. split; [intros g X; rewrite H2; auto|]. split; auto. split.
    + intros _ j q X L. specialize (FL j q X (or_intror L)). discriminate.
    + intros X. exfalso. revert X. unfold remove. destruct (get f d') as [[x [|]]|]; cbn [snd]; destruct log; discriminate.
Qed.
Lemma remove_outcome log f d : snd (remove log f d) = Done \/ (log = false /\ snd (remove log f d) = NoLog).
Proof. unfold remove. destruct (get f d) as [[x [|]]|]; cbn [snd]; destruct log; auto. Qed.
Lemma clean_file_logged alive force f d : snd (clean_file alive true force f d) = Done \/ snd (clean_file alive true force f d) = StillRunning.
Proof.
  unfold clean_file. destruct force; [left; destruct (remove_outcome true f d) as [X|[X _]]; [exact X|discriminate]|].
  destruct (from_file alive 0 f d) as [d' [c|]]; [destruct (is_running c); [now right|]|]; left; destruct (remove_outcome true f d') as [X|[X _]]; [exact X|discriminate|exact X|discriminate].
Qed.

Lemma cluster_files_in d dir f : In f (cluster_files d dir) <-> is_cluster_file dir f /\ exists x, get f d = Some x.
Proof.
  unfold cluster_files. rewrite filter_In, glob_iff. fold (is_cluster_file dir f).
  assert (X : In f (map fst d) <-> exists x, get f d = Some x).
  { destruct (get f d) as [x|] eqn:E; [split; [eauto|]|]. - intros _. apply get_in in E. now apply (in_map fst) in E. - apply get_none in E. split; [contradiction|intros (x & Y); discriminate]. }
  rewrite X. tauto.
Qed.
Lemma connection_files_in d dir f : In f (connection_files d dir) <-> is_connection_file dir f /\ exists x, get f d = Some x.
Proof.
  unfold connection_files. rewrite filter_In, glob_iff. fold (is_connection_file dir f).
  assert (X : In f (map fst d) <-> exists x, get f d = Some x).
  { destruct (get f d) as [x|] eqn:E; [split; [eauto|]|]. - intros _. apply get_in in E. now apply (in_map fst) in E. - apply get_none in E. split; [contradiction|intros (x & Y); discriminate]. }
  rewrite X. tauto.
Qed.
Lemma log_files_in d dir f : In f (log_files d dir) <-> is_log_file dir f /\ exists x, get f d = Some x.
Proof.
  unfold log_files, is_log_file. rewrite filter_In, andb_true_iff, glob_iff.
  assert (X : In f (map fst d) <-> exists x, get f d = Some x).
  { destruct (get f d) as [x|] eqn:E; [split; [eauto|]|]. - intros _. apply get_in in E. now apply (in_map fst) in E. - apply get_none in E. split; [contradiction|intros (x & Y); discriminate]. }
  rewrite X. assert (Y : (match after (dir ++ lit "/log/.") f with Some _ => false | None => true end) = true <-> ~ exists x, f = dir ++ lit "/log/." ++ x).
  { destruct (after (dir ++ lit "/log/.") f) as [r|] eqn:E.
    - apply after_iff in E. split; [discriminate|]. intros H. destruct H. exists r. now rewrite E, <- app_assoc.
    - split; auto. intros _ (r & ->). assert (Z : after (dir ++ lit "/log/.") (dir ++ lit "/log/." ++ r) = Some r) by (apply after_iff; now rewrite <- app_assoc). congruence. }
  rewrite Y. tauto.
Qed.

(** a property of the disk that no removal of a matching file can end *)
Lemma clean_dir_ind alive log force dir (P : disk -> Prop) :
  (forall f d, is_cluster_file dir f -> P d -> P (fst (clean_file alive log force f d))) ->
  (forall f d, is_log_file dir f \/ is_connection_file dir f -> P d -> P (fst (remove log f d))) ->
  forall d, P d -> P (fst (clean_dir alive log force dir d)).
Proof.
  intros H1 H2 d Pd. unfold clean_dir.
  assert (A := each_ind (clean_file alive log force) P (cluster_files d dir) (fun f e I => H1 f e (proj1 (proj1 (cluster_files_in d dir f) I))) d Pd).
  destruct (each (clean_file alive log force) (cluster_files d dir) d) as [d1 [| |]]; cbn [fst] in *; auto.
  assert (B := each_ind (remove log) P (log_files d1 dir) (fun f e I => H2 f e (or_introl (proj1 (proj1 (log_files_in d1 dir f) I)))) d1 A).
  destruct (each (remove log) (log_files d1 dir) d1) as [d2 [| |]]; cbn [fst] in *; auto.
  exact (each_ind (remove log) P (connection_files d2 dir) (fun f e I => H2 f e (or_intror (proj1 (proj1 (connection_files_in d2 dir f) I)))) d2 B).
Qed.
Lemma clean_ind alive log force dirs (P : disk -> Prop) :
  (forall dir f d, In dir dirs -> is_cluster_file dir f -> P d -> P (fst (clean_file alive log force f d))) ->
  (forall dir f d, In dir dirs -> is_log_file dir f \/ is_connection_file dir f -> P d -> P (fst (remove log f d))) ->
  forall d, P d -> P (fst (clean_cluster_files alive log force dirs d)).
Proof. intros H1 H2. apply each_ind. intros dir d D. apply clean_dir_ind; intros f e; [apply (H1 dir f e D)|apply (H2 dir f e D)]. Qed.
Lemma clean_nodup alive log force dirs d : NoDup (map fst d) -> NoDup (map fst (fst (clean_cluster_files alive log force dirs d))).
Proof. apply (clean_ind alive log force dirs (fun d => NoDup (map fst d))); intros dir f e _ _ ND; [now apply clean_file_disk|now apply remove_disk]. Qed.

(** only what fits is touched *)
Lemma clean_other alive log force dirs d f : NoDup (map fst d) ->
  (forall dir, In dir dirs -> ~ is_cluster_file dir f /\ ~ is_log_file dir f /\ ~ is_connection_file dir f) ->
  get f (fst (clean_cluster_files alive log force dirs d)) = get f d.
Proof.
  intros ND H. apply (clean_ind alive log force dirs (fun e => NoDup (map fst e) /\ get f e = get f d)); auto.
  - intros dir g e D F [N1 E]. destruct (clean_file_disk alive log force g e N1) as (X & Y & _). split; auto. rewrite Y; auto. intros ->. destruct (H dir D) as (Z & _). auto.
  - intros dir g e D F [N1 E]. destruct (remove_disk log g e N1) as (X & Y & _). split; auto. rewrite Y; auto. intros ->. destruct (H dir D) as (_ & Z1 & Z2). tauto.
Qed.
Lemma clean_live alive log dirs d f dir0 i r : NoDup (map fst d) -> is_cluster_file dir0 f -> get f d = Some (File (Says i) r) -> live alive i ->
  exists j, get f (fst (clean_cluster_files alive log false dirs d)) = Some (File (Says j) r) /\ (j = i \/ j = reload alive i).
Proof.
  intros ND F0 G L. apply (clean_ind alive log false dirs (fun e => NoDup (map fst e) /\ exists j, get f e = Some (File (Says j) r) /\ (j = i \/ j = reload alive i))); eauto.
  - intros dir g e D F [N1 (j & E & J)]. destruct (clean_file_disk alive log false g e N1) as (X & Y & _ & Z & _). split; auto.
    destruct (list_eq_dec N.eq_dec f g) as [<-|N0]; [|rewrite Y by exact N0; eauto].
    assert (LJ : live alive j) by (destruct J as [->| ->]; [|apply live_reload]; exact L). destruct (Z eq_refl j r E LJ) as (_ & j' & E' & J'). exists j'. split; auto.
    destruct J as [->| ->]; auto. rewrite reload_twice in J'. tauto.
  - intros dir g e D F [N1 (j & E & J)]. destruct (remove_disk log g e N1) as (X & Y & _). split; auto. exists j. split; auto. rewrite Y; auto. intros ->.
    destruct F as [[F _]|F]; [eapply cluster_not_log; eauto|eapply cluster_not_connection; eauto].
Qed.
(** no removable file that fits is left *)
Definition gone (f : path) (d : disk) : Prop := NoDup (map fst d) /\ forall x, get f d <> Some (File x true).
Lemma gone_clean alive log force f g d : gone f d -> gone f (fst (clean_file alive log force g d)).
Proof.
  intros [ND G]. destruct (clean_file_disk alive log force g d ND) as (H1 & H2 & _). split; auto. intros x. destruct (list_eq_dec N.eq_dec f g) as [<-|N0]; [|rewrite H2; auto].
  unfold clean_file. destruct force.
  - destruct (remove_disk log f d ND) as (_ & _ & [X|X] & _); rewrite X; [discriminate|auto].
  - destruct (from_file_disk alive 0 f d ND) as (F1 & _ & F3). assert (F4 : forall x, get f (fst (from_file alive 0 f d)) <> Some (File x true)).
    { intros y. destruct F3 as [F3|(i & r & E & [[_ X]|[_ X]])]; rewrite ?F3, ?X; auto; [|discriminate]. intros Q. injection Q as _ ->. now apply (G (Says i)). }
    destruct (from_file alive 0 f d) as [d' [c|]]; cbn [fst] in *; [destruct (is_running c); [apply F4|]|];
      destruct (remove_disk log f d' F1) as (_ & _ & [X|X] & _); rewrite X; auto; discriminate.
Qed.
Lemma gone_remove log f g d : gone f d -> gone f (fst (remove log g d)).
Proof.
  intros [ND G]. destruct (remove_disk log g d ND) as (H1 & H2 & H3 & _). split; auto. intros x. destruct (list_eq_dec N.eq_dec f g) as [<-|N0]; [|rewrite H2; auto].
  destruct H3 as [X|X]; rewrite X; [discriminate|auto].
Qed.
Lemma gone_clean_dir alive log force f dir d : gone f d -> gone f (fst (clean_dir alive log force dir d)).
Proof. apply clean_dir_ind; intros g e _; [apply gone_clean|apply gone_remove]. Qed.
Lemma absent_gone f d : NoDup (map fst d) -> ~ (exists x, get f d = Some x) -> gone f d.
Proof. intros ND H. split; auto. intros x E. apply H. eauto. Qed.
Lemma clean_dir_done alive log force dir d f : NoDup (map fst d) -> snd (clean_dir alive log force dir d) = Done ->
  is_cluster_file dir f \/ is_log_file dir f \/ is_connection_file dir f -> gone f (fst (clean_dir alive log force dir d)).
Proof.
  intros ND. unfold clean_dir. set (ND' := fun e : disk => NoDup (map fst e)).
  assert (PC : forall b e, ND' e -> ND' (fst (clean_file alive log force b e))) by (intros b e N1; now apply clean_file_disk).
  assert (PR : forall b e, ND' e -> ND' (fst (remove log b e))) by (intros b e N1; now apply remove_disk).
  assert (A1 := each_ind (clean_file alive log force) ND' (cluster_files d dir) (fun b e _ => PC b e) d ND).
  assert (A2 := fun I => each_done (clean_file alive log force) ND' (gone f) (cluster_files d dir) f PC (fun b e => gone_clean alive log force f b e)
      (fun e N1 E => conj (PC f e N1) (proj1 (proj2 (proj2 (clean_file_disk alive log force f e N1))) E)) I d ND).
  assert (A3 := fun G => each_ind (clean_file alive log force) (gone f) (cluster_files d dir) (fun b e _ => gone_clean alive log force f b e) d G).
  destruct (each (clean_file alive log force) (cluster_files d dir) d) as [d1 [| |]]; cbn [fst snd] in *; try discriminate.
  assert (B1 := each_ind (remove log) ND' (log_files d1 dir) (fun b e _ => PR b e) d1 A1).
  assert (B2 := fun I => each_done (remove log) ND' (gone f) (log_files d1 dir) f PR (fun b e => gone_remove log f b e)
      (fun e N1 E => conj (PR f e N1) (proj2 (proj2 (proj2 (remove_disk log f e N1))) E)) I d1 A1).
  assert (B3 := fun G => each_ind (remove log) (gone f) (log_files d1 dir) (fun b e _ => gone_remove log f b e) d1 G).
  destruct (each (remove log) (log_files d1 dir) d1) as [d2 [| |]]; cbn [fst snd] in *; try discriminate.
  assert (C2 := fun I => each_done (remove log) ND' (gone f) (connection_files d2 dir) f PR (fun b e => gone_remove log f b e)
      (fun e N1 E => conj (PR f e N1) (proj2 (proj2 (proj2 (remove_disk log f e N1))) E)) I d2 B1).
  assert (C3 := fun G => each_ind (remove log) (gone f) (connection_files d2 dir) (fun b e _ => gone_remove log f b e) d2 G).
  intros E [F|[F|F]].
  - apply C3, B3. destruct (get f d) eqn:G; [apply A2; auto; apply cluster_files_in; split; [exact F|rewrite G; eauto]|].
    apply A3. split; auto. intros x X. congruence.
  - apply C3. destruct (get f d1) eqn:G; [apply B2; auto; apply log_files_in; split; [exact F|rewrite G; eauto]|].
    apply B3. split; auto. intros x X. congruence.
  - destruct (get f d2) eqn:G; [apply C2; auto; apply connection_files_in; split; [exact F|rewrite G; eauto]|].
    apply C3. split; auto. intros x X. congruence.
Qed.
Lemma clean_done alive log force dirs d dir f x : NoDup (map fst d) -> snd (clean_cluster_files alive log force dirs d) = Done -> In dir dirs ->
  is_cluster_file dir f \/ is_log_file dir f \/ is_connection_file dir f -> get f (fst (clean_cluster_files alive log force dirs d)) <> Some (File x true).
Proof.
  intros ND E D F. apply (each_done (clean_dir alive log force) (fun e => NoDup (map fst e)) (gone f) dirs dir); auto.
  - intros b e N1. apply clean_dir_ind; auto; intros g h _ N2; [now apply clean_file_disk|now apply remove_disk].
  - intros b e. apply gone_clean_dir.
  - intros e N1 X. now apply clean_dir_done.
Qed.
(** a cluster that runs is noticed *)
Lemma clean_dir_notices alive log dir d f i r : NoDup (map fst d) -> is_cluster_file dir f -> get f d = Some (File (Says i) r) -> live alive i -> snd (clean_dir alive log false dir d) <> Done.
Proof.
  intros ND F G L E. unfold clean_dir in E.
  assert (X : snd (each (clean_file alive log false) (cluster_files d dir) d) <> Done).
  { assert (I : In f (cluster_files d dir)) by (apply cluster_files_in; eauto). revert I. generalize (cluster_files d dir). clear E.
    assert (W : NoDup (map fst d) /\ exists j, get f d = Some (File (Says j) r) /\ live alive j) by eauto. clear ND G. revert d W.
    intros d W l. revert d W. induction l as [|g l IH]; intros d [ND (j & G & LJ)] I; [destruct I|]. cbn [each].
    destruct (clean_file_disk alive log false g d ND) as (H1 & H2 & _ & H4 & _).
    destruct (list_eq_dec N.eq_dec f g) as [<-|N0].
    - destruct (H4 eq_refl j r G LJ) as (O & _). destruct (clean_file alive log false f d) as [d' o]; cbn [snd] in *. subst o. discriminate.
    - destruct (clean_file alive log false g d) as [d' [| |]]; cbn [fst snd] in *; try discriminate. apply IH.
      + split; auto. rewrite H2 by exact N0. eauto.
      + destruct I as [<-|I]; [congruence|exact I]. }
  destruct (each (clean_file alive log false) (cluster_files d dir) d) as [d1 [| |]]; cbn [fst snd] in *; try discriminate. now destruct X.
Qed.
Lemma clean_notices alive log dirs d dir f i r : NoDup (map fst d) -> In dir dirs -> is_cluster_file dir f -> get f d = Some (File (Says i) r) -> live alive i ->
  snd (clean_cluster_files alive log false dirs d) <> Done.
Proof.
  intros ND D F G L. unfold clean_cluster_files. revert d ND i G L. induction dirs as [|d0 dirs IH]; intros d ND i G L; [destruct D|]. cbn [each].
  destruct (list_eq_dec N.eq_dec dir d0) as [<-|N0].
  - assert (X := clean_dir_notices alive log dir d f i r ND F G L). destruct (clean_dir alive log false dir d) as [d' [| |]]; cbn [snd] in *; congruence.
  - destruct D as [->|D]; [congruence|].
    assert (Y := clean_live alive log [d0] d f dir i r ND F G L). assert (Z := clean_nodup alive log false [d0] d ND). unfold clean_cluster_files in Y, Z. cbn [each] in Y, Z.
    destruct (clean_dir alive log false d0 d) as [d' [| |]]; cbn [fst snd] in *; try discriminate. destruct Y as (j & G' & J). apply (IH D d' Z j G').
    destruct J as [->| ->]; [|apply live_reload]; exact L.
Qed.
(** and the error means that there is one *)
Definition witnessed alive dirs (d : disk) : Prop := exists dir f i r, In dir dirs /\ is_cluster_file dir f /\ get f d = Some (File (Says i) r) /\ live alive i.
(** every file says what it said, or what is left of it *)
Definition older alive (d0 d : disk) : Prop := NoDup (map fst d) /\ forall f i r, get f d = Some (File (Says i) r) -> exists i0, get f d0 = Some (File (Says i0) r) /\ (live alive i -> live alive i0).
Lemma older_remove alive log d0 f d : older alive d0 d -> older alive d0 (fst (remove log f d)).
Proof.
  intros [ND H]. destruct (remove_disk log f d ND) as (H1 & H2 & H3 & _). split; auto. intros g i r E. destruct (list_eq_dec N.eq_dec g f) as [->|N0]; [|rewrite H2 in E; auto].
  destruct H3 as [X|X]; rewrite X in E; [discriminate|auto].
Qed.
Lemma older_from_file alive d0 f d : older alive d0 d -> older alive d0 (fst (from_file alive 0 f d)).
Proof.
  intros [ND H]. destruct (from_file_disk alive 0 f d ND) as (H1 & H2 & H3). split; auto. intros g i r E. destruct (list_eq_dec N.eq_dec g f) as [->|N0]; [|rewrite H2 in E; auto].
  destruct H3 as [X|(j & q & X & [[L Y]|[L Y]])].
  - rewrite X in E. auto.
  - rewrite Y in E. injection E as <- <-. destruct (H f j q X) as (i0 & E0 & L0). exists i0. split; auto.
  - congruence.
Qed.
Lemma older_clean alive log force d0 f d : older alive d0 d -> older alive d0 (fst (clean_file alive log force f d)).
Proof.
  intros H. unfold clean_file. destruct force; [now apply older_remove|]. assert (X := older_from_file alive d0 f d H).
  destruct (from_file alive 0 f d) as [d' [c|]]; cbn [fst] in *; [destruct (is_running c); [exact X|]|]; now apply older_remove.
Qed.
Lemma each_raises {A} (step : A -> disk -> disk * outcome) (P : disk -> Prop) o l : o <> Done -> (forall a d, P d -> P (fst (step a d))) ->
  forall d, P d -> snd (each step l d) = o -> exists a e, In a l /\ P e /\ snd (step a e) = o.
Proof.
  intros O HP. induction l as [|a l IH]; intros d Pd E; cbn [each snd] in E; [congruence|]. assert (X := HP a d Pd). destruct (step a d) as [d' r] eqn:S. cbn [fst] in X.
  destruct r; cbn [snd] in E; [destruct (IH d' X E) as (b & e & B & Q & R); exists b, e; split; [now right|auto]| |]; exists a, d; (split; [now left|]); rewrite S; auto.
Qed.
Lemma clean_raises alive log force dirs d : NoDup (map fst d) -> snd (clean_cluster_files alive log force dirs d) = StillRunning -> force = false /\ witnessed alive dirs d.
Proof.
  intros ND E. assert (O0 : older alive d d) by (split; eauto).
  apply (each_raises (clean_dir alive log force) (older alive d)) in E; [|discriminate| |exact O0].
  2: { intros dir e. apply clean_dir_ind; intros f h _; [apply older_clean|apply older_remove]. }
  destruct E as (dir & e & D & O & E). unfold clean_dir in E.
  assert (R : forall l e, snd (each (remove log) l e) <> StillRunning).
  { clear. induction l as [|a l IH]; intros e; cbn [each]; [discriminate|]. destruct (remove_outcome log a e) as [X|[_ X]]; destruct (remove log a e) as [e' o]; cbn [snd] in X; subst o; [apply IH|discriminate]. }
  destruct (each (clean_file alive log force) (cluster_files e dir) e) as [e1 o] eqn:E1.
  destruct o; cbn [snd] in E; [| |discriminate].
  - assert (R1 := R (log_files e1 dir) e1). destruct (each (remove log) (log_files e1 dir) e1) as [e2 [| |]]; cbn [snd] in *; [|congruence|discriminate].
    exfalso. eapply R; eauto.
  - assert (E2 : snd (each (clean_file alive log force) (cluster_files e dir) e) = StillRunning) by now rewrite E1.
    apply (each_raises (clean_file alive log force) (older alive d)) in E2; [|discriminate|intros a h; apply older_clean|exact O].
    destruct E2 as (f & h & F & OH & E2). destruct (clean_file_disk alive log force f h (proj1 OH)) as (_ & _ & _ & _ & Z). destruct (Z E2) as (-> & i & r & G & L).
    split; auto. destruct OH as [_ OH]. destruct (OH f i r G) as (i0 & G0 & L0). exists dir, f, i0, r. split; auto. split; [now apply cluster_files_in in F|]. auto.
Qed.
Lemma clean_logged alive force dirs d : snd (clean_cluster_files alive true force dirs d) = Done \/ snd (clean_cluster_files alive true force dirs d) = StillRunning.
Proof.
  apply each_outcome. intros dir e _. unfold clean_dir.
  destruct (each_outcome (clean_file alive true force) (cluster_files e dir) StillRunning (fun f h _ => clean_file_logged alive force f h) e) as [X|X];
    destruct (each (clean_file alive true force) (cluster_files e dir) e) as [e1 o]; cbn [snd] in X; subst o; [|now right].
  assert (R : forall l e, snd (each (remove true) l e) = Done).
  { clear. induction l as [|a l IH]; intros e; cbn [each]; [reflexivity|]. destruct (remove_outcome true a e) as [X|[X _]]; [|discriminate]. destruct (remove true a e) as [e' o]; cbn [snd] in X; subst o. apply IH. }
  assert (X := R (log_files e1 dir) e1). destruct (each (remove true) (log_files e1 dir) e1) as [e2 o]; cbn [snd] in X; subst o. left. apply R.
Qed.

(* ------------------------------------------------------------ keys *)
Lemma last_colon (a x b y : list N) : ~ In 58%N x -> ~ In 58%N y -> a ++ 58%N :: x = b ++ 58%N :: y -> a = b /\ x = y.
Proof.
  revert b. induction a as [|n a IH]; intros [|m b] Hx Hy E; cbn [app] in E.
  - split; congruence.
  - injection E as _ ->. exfalso. apply Hx. apply in_or_app. right. now left.
  - injection E as _ E. exfalso. apply Hy. rewrite <- E. apply in_or_app. right. now left.
  - injection E as -> E. apply IH in E; auto. destruct E as [-> ->]. auto.
Qed.
Lemma keys_inj home d1 i1 d2 i2 : ~ In 58%N i1 -> ~ In 58%N i2 -> (exists r, d1 = 47%N :: r) -> (exists r, d2 = 47%N :: r) ->
  (forall r, d1 <> home ++ lit "/profile_/" ++ r) -> (forall r, d2 <> home ++ lit "/profile_/" ++ r) ->
  cluster_key home d1 i1 = cluster_key home d2 i2 -> d1 = d2 /\ i1 = i2.
Proof.
  intros I1 I2 (r1 & A1) (r2 & A2) P1 P2 E. unfold cluster_key in E. change (lit ":") with [58%N] in E. cbn [app] in E. apply last_colon in E; auto. destruct E as [E ->]. split; auto.
  unfold abbreviate in E. destruct (after (home ++ lit "/profile_") d1) as [x|] eqn:X; destruct (after (home ++ lit "/profile_") d2) as [y|] eqn:Y; auto.
  - apply after_iff in X, Y. congruence.
  - exfalso. apply after_iff in X. subst x. rewrite A2 in X. apply (P1 r2). rewrite X. change (lit "/profile_/") with (lit "/profile_" ++ [47%N]). now rewrite <- !app_assoc.
  - exfalso. apply after_iff in Y. subst y. rewrite A1 in Y. apply (P2 r1). rewrite Y. change (lit "/profile_/") with (lit "/profile_" ++ [47%N]). now rewrite <- !app_assoc.
Qed.

(* ------------------------------------------------------------ histories *)
(** every cluster is listed under its own key, once *)
Definition tidy home (s : state) : Prop :=
  NoDup (map fst (files s)) /\ NoDup (map fst (clusters s)) /\ (forall k c, In (k, c) (clusters s) -> k = key_of home c) /\
  (forall k c, In (k, c) (clusters s) -> (serial c < next s)%N) /\
  (forall k1 c1 k2 c2, In (k1, c1) (clusters s) -> In (k2, c2) (clusters s) -> serial c1 = serial c2 -> k1 = k2).
Lemma tidy_add home c s d : tidy home s -> NoDup (map fst d) -> serial c = next s -> tidy home (State (put (key_of home c) c (clusters s)) (N.succ (next s)) d).
Proof.
  intros (_ & H2 & H3 & H4 & H5) ND E. repeat split; cbn [clusters next files]; auto.
  - now apply nodup_put.
  - intros k c' I. apply in_put in I. destruct I as [I|I]; [now injection I as -> ->|auto].
  - intros k c' I. apply in_put in I. destruct I as [I|I]; [injection I as _ ->; lia|]. apply H4 in I. lia.
  - intros k1 c1 k2 c2 I1 I2 S. apply in_put in I1, I2. destruct I1 as [I1|I1], I2 as [I2|I2]; try (injection I1 as -> ->); try (injection I2 as -> ->); auto.
    + apply H4 in I2. lia.
    + apply H4 in I1. lia.
    + eauto.
Qed.
Lemma tidy_sub home s l d : tidy home s -> NoDup (map fst d) -> NoDup (map fst l) -> incl l (clusters s) -> tidy home (State l (next s) d).
Proof. intros (_ & H2 & H3 & H4 & H5) ND NL IC. repeat split; cbn [clusters next files]; eauto. Qed.
Lemma tidy_load home alive init dirs s : tidy home s -> tidy home (load home alive init dirs s).
Proof.
  intros T. unfold load. cbv zeta. fold (kept s). apply load_ind.
  - intros t dir _ _ _ Tt. unfold load_default. cbv zeta. destruct (has _ _); auto. unfold add. apply tidy_add; auto. apply Tt.
  - intros t dir f _ _ K Tt. rewrite load_file_eq by exact K. destruct (from_file_disk alive (next t) f (files t) (proj1 Tt)) as (N1 & _).
    destruct (snd (from_file alive (next t) f (files t))) as [c|] eqn:E.
    + apply tidy_add; auto. apply from_file_cluster in E. destruct E as (i & r & _ & ->). reflexivity.
    + apply tidy_sub; auto; [apply Tt|apply incl_refl].
  - apply tidy_sub; auto; [apply T|apply kept_nodup, T|]. intros [k c] I. now apply kept_in in I.
Qed.
Lemma Forall2_fst (a b : list (list N * cluster)) : Forall2 (fun a b => fst a = fst b /\ same (snd a) (snd b)) a b -> map fst b = map fst a.
Proof. induction 1 as [|x y a b [E _] _ IH]; cbn [map]; auto. now rewrite IH, E. Qed.
Lemma Forall2_in_r (a b : list (list N * cluster)) k c : Forall2 (fun a b => fst a = fst b /\ same (snd a) (snd b)) a b -> In (k, c) b -> exists c0, In (k, c0) a /\ same c0 c.
Proof.
  induction 1 as [|[j x] [j' y] a b [E S] _ IH]; intros I; [destruct I|]. cbn [fst snd] in *. destruct I as [I|I].
  - injection I as -> ->. subst j. exists x. split; [now left|exact S].
  - destruct (IH I) as (c0 & I0 & S0). exists c0. split; [now right|exact S0].
Qed.
Lemma Forall2_get (a b : list (list N * cluster)) k c : Forall2 (fun a b => fst a = fst b /\ same (snd a) (snd b)) a b -> get k a = Some c -> exists c', get k b = Some c' /\ same c c'.
Proof.
  induction 1 as [|[j x] [j' y] a b [E S] _ IH]; cbn [get]; [discriminate|]. cbn [fst snd] in *. subst j'. destruct (eqs k j); [|exact IH]. intros X. injection X as ->. eauto.
Qed.
Lemma tidy_step home s e s' : tidy home (fst s) -> step home s e s' -> tidy home (fst s').
Proof.
  intros T H. destruct H as [s alive locate all w init|s alive dir id k s' E|s alive k s' E|s alive l d alive' F ND]; cbn [fst] in *.
  - unfold load_clusters. destruct (searched locate all w); cbn [fst]; [now apply tidy_load|]. apply tidy_sub; auto; [apply T|apply (kept_nodup s), T|]. intros [k c] I. now apply (kept_in s) in I.
  - unfold new_cluster in E. cbv zeta in E. destruct (has _ _); [discriminate|]. injection E as <- <-. unfold add. apply tidy_add; auto. apply T.
  - unfold remove_cluster in E. destruct (has _ _); [|discriminate]. injection E as <-. apply tidy_sub; auto; [apply T|apply nodup_del, T|]. intros x. apply in_del.
  - destruct T as (_ & H2 & H3 & H4 & H5). repeat split; cbn [clusters next files]; auto.
    + now rewrite (Forall2_fst _ _ F).
    + intros k c I. destruct (Forall2_in_r _ _ _ _ F I) as (c0 & I0 & (_ & _ & S1 & S2)). apply H3 in I0. unfold key_of in *. now rewrite <- S1, <- S2.
    + intros k c I. destruct (Forall2_in_r _ _ _ _ F I) as (c0 & I0 & (S & _)). apply H4 in I0. lia.
    + intros k1 c1 k2 c2 I1 I2 E. destruct (Forall2_in_r _ _ _ _ F I1) as (d1 & J1 & (S1 & _)). destruct (Forall2_in_r _ _ _ _ F I2) as (d2 & J2 & (S2 & _)).
      apply (H5 k1 d1 k2 d2); auto. congruence.
Qed.
Lemma tidy_reachable home s : reachable home s -> tidy home (fst s).
Proof.
  induction 1 as [n d alive ND|s e s' _ IH H]; [|eapply tidy_step; eauto]. repeat split; cbn [fst clusters next files]; auto; try (intros; contradiction). constructor.
Qed.
(** a cluster that has not stopped stays *)
Definition undisturbed home (k : list N) (n : N) (e : event) (s : state * (N -> bool)) : Prop :=
  match e with
  | Forget j => j <> k
  | Load => exists c, get k (clusters (fst s)) = Some c /\ serial c = n /\ ~ has_stopped c /\
      forall f i r, get f (files (fst s)) = Some (File (Says i) r) -> cluster_key home (profile i) (ident i) = k -> f = cluster_file c
  | _ => True
  end.
Lemma kept_get s k c : NoDup (map fst (clusters s)) -> get k (clusters s) = Some c -> ~ has_stopped c -> get k (kept s) = Some c.
Proof. intros ND G NS. apply in_get; [now apply kept_nodup|]. apply kept_in. split; auto. now apply get_in. Qed.
Lemma stays home k c s t : tidy home (fst s) -> get k (clusters (fst s)) = Some c -> run home (undisturbed home k (serial c)) s t ->
  exists c', get k (clusters (fst t)) = Some c' /\ same c c'.
Proof.
  intros T G R. assert (X : exists c', get k (clusters (fst s)) = Some c' /\ same c c') by (exists c; repeat split; auto). clear G. revert T X. remember (serial c) as n eqn:En. revert En.
  induction R as [s|s e s' t OK ST _ IH]; intros En T (c' & G & S); [eauto|]. apply IH; auto; [eapply tidy_step; eauto|]. clear IH.
  destruct ST as [s alive locate all w init|s alive dir id j s' E|s alive j s' E|s alive l d alive' F ND]; cbn [fst] in *.
  - destruct OK as (c0 & G0 & S0 & NS & U). cbn [fst] in *. rewrite G in G0. injection G0 as <-.
    assert (KG : get k (kept s) = Some c') by (apply kept_get; auto; apply T).
    unfold load_clusters. destruct (searched locate all w) as [dirs|]; cbn [fst clusters]; [|exists c'; split; [exact KG|exact S]].
    destruct (load_during home alive init dirs s (proj1 T)) as (_ & _ & _ & _ & H5). destruct (H5 k c' KG) as [X|(c2 & X & (dir & i & r & D & F & O & NK & Q & EK & _))]; [eauto|].
    exfalso. apply NK. assert (X2 := U _ i r O (eq_sym EK)). exists k, c'. split; [now apply get_in|]. auto.
  - unfold new_cluster in E. cbv zeta in E. destruct (has _ _) eqn:HK; [discriminate|]. injection E as <- <-. unfold add. cbn [clusters]. exists c'. split; auto.
    rewrite get_put_other; auto. intros ->. assert (Z := proj2 (has_get _ _) (ex_intro _ c' G)). congruence.
  - unfold remove_cluster in E. destruct (has _ _); [|discriminate]. injection E as <-. cbn [clusters]. exists c'. split; auto. rewrite get_del_other; auto.
  - cbn [clusters]. destruct (Forall2_get _ _ _ _ F G) as (c2 & G2 & S2). exists c2. split; auto.
    destruct S as (A1 & A2 & A3 & A4), S2 as (B1 & B2 & B3 & B4). repeat split; congruence.
Qed.

(* ------------------------------------------------------------ the default cluster *)
Lemma has_put {A} j k (a : A) l : has j l = true -> has j (put k a l) = true.
Proof. rewrite !has_get. intros (b & E). destruct (list_eq_dec N.eq_dec j k) as [->|N0]; [rewrite get_put_same; eauto|rewrite get_put_other; eauto]. Qed.
Lemma default_there home alive dirs s dir : NoDup (map fst (files s)) -> In dir dirs -> (forall f x, is_cluster_file dir f -> get f (files s) <> Some x) ->
  has (cluster_key home dir []) (clusters (load home alive true dirs s)) = true.
Proof.
  intros ND D NF. unfold load. cbv zeta. fold (kept s). fold (kept_files s). set (k := cluster_key home dir []).
  set (P := fun t => NoDup (map fst (files t)) /\ forall f x, is_cluster_file dir f -> get f (files t) <> Some x).
  assert (PF : forall t f, P t -> P (load_file home alive (kept_files s) t f)).
  { intros t f [P1 P2]. destruct (existsb (eqs f) (kept_files s)) eqn:K; [unfold load_file; rewrite K; split; auto|]. rewrite load_file_eq by exact K.
    destruct (from_file_disk alive (next t) f (files t) P1) as (N1 & N2 & N3).
    assert (X : NoDup (map fst (fst (from_file alive (next t) f (files t)))) /\ forall g x, is_cluster_file dir g -> get g (fst (from_file alive (next t) f (files t))) <> Some x).
    { split; auto. intros g x G. destruct (list_eq_dec N.eq_dec g f) as [->|N0]; [|rewrite N2; auto]. destruct N3 as [N3|(i & r & E & _)]; [rewrite N3; auto|]. now apply P2 in E. }
    destruct (snd _); exact X. }
  assert (PD : forall t d, P t -> P (load_default home d t)) by (intros t d Pt; unfold load_default; cbv zeta; destruct (has _ _); exact Pt).
  assert (HF : forall t f, has k (clusters t) = true -> has k (clusters (load_file home alive (kept_files s) t f)) = true).
  { intros t f H. destruct (existsb (eqs f) (kept_files s)) eqn:K; [unfold load_file; rewrite K; exact H|]. rewrite load_file_eq by exact K. destruct (snd _); cbn [clusters]; auto. now apply has_put. }
  assert (HD : forall t d, has k (clusters t) = true -> has k (clusters (load_default home d t)) = true).
  { intros t d H. unfold load_default. cbv zeta. match goal with |- context [if has ?a ?b then _ else _] => destruct (has a b) end; auto. unfold add. cbn [clusters]. now apply has_put. }
  assert (ALL : forall ds t, P t -> (In dir ds \/ has k (clusters t) = true) -> has k (clusters (fold_left (load_dir home alive true (kept_files s)) ds t)) = true).
  { induction ds as [|d ds IH]; intros t Pt H; cbn [fold_left]; [destruct H as [[]|H]; exact H|]. apply IH.
    - unfold load_dir. cbv zeta. apply load_files_ind; [intros t' f _ _; apply PF|]. destruct (cluster_files (files t) d); auto.
    - destruct H as [[->|H]|H]; [right|now left|right].
      + assert (E : cluster_files (files t) dir = []).
        { destruct (cluster_files (files t) dir) as [|f l] eqn:E; auto. exfalso. assert (I : In f (cluster_files (files t) dir)) by (rewrite E; now left).
          apply cluster_files_in in I. destruct I as (F & x & G). destruct Pt as [_ Pt]. now apply (Pt f x). }
        unfold load_dir. cbv zeta. rewrite E. cbn [fold_left]. unfold load_default. cbv zeta.
        match goal with |- context [has ?a (clusters t)] => change a with k end. destruct (has k (clusters t)) eqn:HK; auto. unfold add. cbn [clusters]. apply has_get. eexists. apply (get_put_same k).
      + unfold load_dir. cbv zeta. apply (load_files_ind home alive (kept_files s) (fun t => has k (clusters t) = true)); [intros t' f _ _; apply HF|]. destruct (cluster_files (files t) d); auto. }
  apply ALL; [split; auto|now left].
Qed.
