(** Lemmas for C83: loading. *)
From Coq Require Import NArith String Ascii PeanoNat List Bool Lia.
From Verif Require Import Batch_Spec Manager_Spec Manager_Model Manager_Notions Manager_Proofs.
Import ListNotations.

Lemma runs_iff c : runs c <-> is_running c = true.
Proof.
  unfold runs, component, is_running. rewrite orb_true_iff, existsb_exists. split.
  - intros (s & [H|(k & H)] & E); [left; rewrite H; destruct s; auto; congruence|]. right. exists (k, s). split; auto. destruct s; auto; now destruct E.
  - intros [H|([k s] & H & E)].
    + destruct (controller c) as [s|] eqn:E; [|discriminate]. exists s. split; [now left|]. intros ->. discriminate.
    + exists s. split; [right; eauto|]. intros ->. discriminate.
Qed.
Lemma stopped_iff c : has_stopped c <-> stopped c = true.
Proof.
  unfold has_stopped, stopped. split.
  - intros ((s & E) & H). rewrite E. apply negb_true_iff. destruct (is_running c) eqn:R; auto. apply runs_iff in R. destruct R as (t & T & N0). now destruct N0; apply H.
  - destruct (controller c) as [s|] eqn:E; [|discriminate]. intros H. apply negb_true_iff in H. split; [eauto|]. intros t T. destruct t; auto.
    + assert (X : runs c) by (exists Before; split; [exact T|discriminate]). apply runs_iff in X. congruence.
    + assert (X : runs c) by (exists Running; split; [exact T|discriminate]). apply runs_iff in X. congruence.
Qed.
Lemma not_stopped_iff c : ~ has_stopped c <-> stopped c = false.
Proof. rewrite stopped_iff. destruct (stopped c); split; congruence. Qed.
Definition kept (s : state) := drop_stopped (clusters s).
Definition kept_files (s : state) := map (fun kc => cluster_file (snd kc)) (kept s).
Lemma kept_in s k c : In (k, c) (kept s) <-> In (k, c) (clusters s) /\ ~ has_stopped c.
Proof. unfold kept, drop_stopped. rewrite filter_In, not_stopped_iff. cbn [snd]. rewrite negb_true_iff. reflexivity. Qed.
Lemma known_files s f : In f (kept_files s) <-> known s f.
Proof.
  unfold kept_files, known. rewrite in_map_iff. split.
  - intros ([k c] & E & H). apply kept_in in H. exists k, c. tauto.
  - intros (k & c & H1 & H2 & E). exists (k, c). split; [exact E|]. apply kept_in. auto.
Qed.
Lemma kept_nodup s : NoDup (map fst (clusters s)) -> NoDup (map fst (kept s)).
Proof.
  unfold kept, drop_stopped. induction (clusters s) as [|[k c] l IH]; cbn [map fst filter snd]; intros H; auto. inversion H; subst.
  destruct (negb (stopped c)); auto. cbn [map fst]. constructor; auto. rewrite in_map_iff. intros ([j b] & E & X). cbn [fst] in E. subst j. apply H2.
  apply filter_In in X. destruct X as [X _]. now apply (in_map fst) in X.
Qed.
Lemma restored_of alive n f i : is_cluster_of alive i (restored n f (reload alive i)).
Proof.
  unfold is_cluster_of, restored, component. cbn [profile_dir cluster_id controller engines].
  split; [reflexivity|]. split; [reflexivity|]. split; [|split].
  - intros s [H|(k & H)].
    + destruct (control (reload alive i)); congruence.
    + apply in_map_iff in H. destruct H as (x & E & _). congruence.
  - unfold reload. cbn [control]. destruct (control i) as [p|]; [|split; [congruence|intros (p & X & _); discriminate]].
    destruct (alive p) eqn:E; [split; [eauto|discriminate]|]. split; [congruence|]. intros (q & X & Y). congruence.
  - intros k. rewrite map_map. cbn [fst]. unfold reload. cbn [sets]. rewrite in_map_iff. split.
    + intros ([j ps] & E & H). cbn [fst] in E. subst j. apply filter_In in H. destruct H as [H1 H2]. apply in_map_iff in H1. destruct H1 as ([j qs] & E & H1).
      cbn [fst snd] in *. injection E as -> <-. destruct (filter alive qs) as [|p r] eqn:F; [discriminate|].
      assert (X : In p (filter alive qs)) by (rewrite F; now left). apply filter_In in X. exists qs, p. tauto.
    + intros (ps & p & H1 & H2 & H3). exists (k, filter alive ps). split; [reflexivity|]. apply filter_In. split.
      * apply in_map_iff. exists (k, ps). auto.
      * cbn [snd]. destruct (filter alive ps) eqn:F; auto. assert (X : In p (filter alive ps)) by (apply filter_In; auto). now rewrite F in X.
Qed.
Lemma restored_of_reloaded alive n f i : is_cluster_of alive i (restored n f (reload alive (reload alive i))).
Proof. rewrite reload_twice. apply restored_of. Qed.
Lemma key_restored home n f i : key_of home (restored n f i) = cluster_key home (profile i) (ident i).
Proof. reflexivity. Qed.

(** The state while clusters are being loaded *)
Definition during home alive init dirs (s0 s : state) : Prop :=
  evolves alive (fun f => (exists dir, In dir dirs /\ is_cluster_file dir f) /\ ~ known s0 f) (files s0) (files s) /\
  (next s0 <= next s)%N /\
  (NoDup (map fst (clusters s0)) -> NoDup (map fst (clusters s))) /\
  (forall k c, In (k, c) (clusters s) ->
     In (k, c) (kept s0) \/ loaded home alive dirs s0 k c \/
     (init = true /\ exists dir, In dir dirs /\ k = cluster_key home dir [] /\ serial c >= next s0 /\ c = Cluster (serial c) (default_file dir []) dir [] None [] /\
        forall f x r, is_cluster_file dir f -> on (files s0) f (File x r) -> exists i, x = Says i /\ ~ live alive i))%N /\
  (forall k c, get k (kept s0) = Some c -> get k (clusters s) = Some c \/ exists c', get k (clusters s) = Some c' /\ loaded home alive dirs s0 k c').

Lemma during_default home alive init dirs s0 s dir : In dir dirs -> init = true -> cluster_files (files s) dir = [] ->
  during home alive init dirs s0 s -> during home alive init dirs s0 (load_default home dir s).
Proof.
  intros D I E (H1 & H2 & H3 & H4 & H5). unfold load_default. cbv zeta. set (c0 := Cluster (next s) (default_file dir []) dir [] None []).
  destruct (has (key_of home c0) (clusters s)) eqn:HK; [repeat split; auto; apply H1|]. unfold add. repeat split; cbn [clusters next files].
  - apply H1.
  - apply H1.
  - lia.
  - intros ND. apply nodup_put. auto.
  - intros k c IN. apply in_put in IN. destruct IN as [IN|IN]; [|auto]. injection IN as -> ->. right. right. split; auto. exists dir. split; auto. split; [reflexivity|].
    split; [cbn [serial c0]; lia|]. split; [reflexivity|]. intros f x r F O. destruct H1 as [_ EV]. destruct (EV f) as [X|(_ & i & r' & X & Y)].
    + exfalso. assert (Z : In f (cluster_files (files s) dir)); [|rewrite E in Z; destruct Z]. unfold cluster_files. apply filter_In. split; [|now apply glob_iff].
      unfold on in O. rewrite O in X. apply get_in in X. now apply (in_map fst) in X.
    + unfold on in O. rewrite O in X. injection X as -> ->. exists i. split; auto. destruct Y as [[L Y]|[L Y]]; auto. exfalso.
      assert (Z : In f (cluster_files (files s) dir)); [|rewrite E in Z; destruct Z]. unfold cluster_files. apply filter_In. split; [|now apply glob_iff].
      apply get_in in Y. now apply (in_map fst) in Y.
  - intros k c K. destruct (H5 k c K) as [X|(c' & X & Y)].
    + left. rewrite get_put_other; auto. intros ->. assert (Z : has (key_of home c0) (clusters s) = true) by (apply has_get; eauto). congruence.
    + right. exists c'. split; auto. rewrite get_put_other; auto. intros ->. assert (Z : has (key_of home c0) (clusters s) = true) by (apply has_get; eauto). congruence.
Qed.
Lemma during_loaded home alive init dirs s0 s dir f c : In dir dirs -> is_cluster_file dir f -> ~ known s0 f -> during home alive init dirs s0 s ->
  snd (from_file alive (next s) f (files s)) = Some c -> loaded home alive dirs s0 (key_of home c) c /\ cluster_file c = f.
Proof.
  intros D F K (H1 & H2 & _) E. apply from_file_cluster in E. destruct E as (i & r & G & ->). split; [|reflexivity].
  destruct (evolves_get _ _ _ _ _ _ _ H1 G) as (y & G0 & [<-|(j & -> & E)]).
  - exists dir, i, r. repeat (split; [first [assumption|apply restored_of]|]). split; [|exact H2]. reflexivity.
  - injection E as ->. exists dir, j, r. split; auto. split; auto. split; [exact G0|]. split; auto. split; [apply restored_of_reloaded|]. split; [reflexivity|exact H2].
Qed.
Lemma during_file home alive init dirs s0 s dir f : In dir dirs -> is_cluster_file dir f -> existsb (eqs f) (kept_files s0) = false ->
  during home alive init dirs s0 s -> during home alive init dirs s0 (load_file home alive (kept_files s0) s f).
Proof.
  intros D F K H. assert (NK : ~ known s0 f) by (rewrite <- known_files; now apply known_iff). rewrite load_file_eq by exact K.
  assert (EV := evolves_step alive (fun f => (exists dir, In dir dirs /\ is_cluster_file dir f) /\ ~ known s0 f) (files s0) (next s) f (files s)
                 (conj (ex_intro _ dir (conj D F)) NK) (proj1 H)).
  destruct (snd (from_file alive (next s) f (files s))) as [c|] eqn:E.
  - destruct (during_loaded _ _ _ _ _ _ _ _ _ D F NK H E) as [LD CF]. destruct H as (H1 & H2 & H3 & H4 & H5).
    repeat split; cbn [clusters next files]; try apply EV; [lia| | |].
    + intros ND. apply nodup_put. auto.
    + intros k c' IN. apply in_put in IN. destruct IN as [IN|IN]; [|auto]. injection IN as -> ->. auto.
    + intros k c0 G. destruct (list_eq_dec N.eq_dec k (key_of home c)) as [->|N0].
      * right. exists c. split; [apply get_put_same|exact LD].
      * rewrite get_put_other by exact N0. auto.
  - destruct H as (H1 & H2 & H3 & H4 & H5). repeat split; cbn [clusters next files]; auto; apply EV.
Qed.
Lemma load_during home alive init dirs s : NoDup (map fst (files s)) -> during home alive init dirs s (load home alive init dirs s).
Proof.
  intros ND. unfold load. cbv zeta. fold (kept s). fold (kept_files s). apply load_ind.
  - intros s' dir. apply during_default.
  - intros s' dir f. apply during_file.
  - repeat split; cbn [clusters next files]; auto; [lia|apply kept_nodup].
Qed.

(** every file that was found is there in the end *)
Definition waiting home alive dirs s0 k (f : path) fl (s : state) : Prop :=
  (exists c, get k (clusters s) = Some c /\ loaded home alive dirs s0 k c) \/ get f (files s) = Some fl.
Lemma load_complete home alive init dirs s dir f i r : NoDup (map fst (files s)) -> In dir dirs -> is_cluster_file dir f ->
  get f (files s) = Some (File (Says i) r) -> r = true \/ live alive i -> ~ known s f ->
  exists c, get (cluster_key home (profile i) (ident i)) (clusters (load home alive init dirs s)) = Some c /\ loaded home alive dirs s (cluster_key home (profile i) (ident i)) c.
Proof.
  intros ND D F G LO NK. set (k := cluster_key home (profile i) (ident i)). assert (K : existsb (eqs f) (kept_files s) = false) by (apply known_iff; now rewrite known_files).
  unfold load. cbv zeta. fold (kept s). fold (kept_files s).
  (* steps *)
  assert (SD : forall s' d', has (key_of home (Cluster (next s') (default_file d' []) d' [] None [])) (clusters s') = false ->
     forall c, get k (clusters s') = Some c -> get k (put (key_of home (Cluster (next s') (default_file d' []) d' [] None [])) (Cluster (next s') (default_file d' []) d' [] None []) (clusters s')) = Some c).
  { intros s' d' HK c X. rewrite get_put_other; auto. intros E. assert (Z : has k (clusters s') = true) by (apply has_get; eauto). rewrite E in Z. congruence. }
  assert (LF : forall s' d' g, In d' dirs -> is_cluster_file d' g -> existsb (eqs g) (kept_files s) = false -> during home alive init dirs s s' ->
     (exists c, get k (clusters s') = Some c /\ loaded home alive dirs s k c) ->
     exists c, get k (clusters (load_file home alive (kept_files s) s' g)) = Some c /\ loaded home alive dirs s k c).
  { intros s' d' g D' F' K' DU (c & X & Y). rewrite load_file_eq by exact K'. destruct (snd (from_file alive (next s') g (files s'))) as [c'|] eqn:E; cbn [clusters]; [|eauto].
    destruct (list_eq_dec N.eq_dec k (key_of home c')) as [E'|N0]; [|rewrite get_put_other by exact N0; eauto]. rewrite E', get_put_same. exists c'. split; auto.
    eapply during_loaded; eauto. rewrite <- known_files. now apply known_iff. }
  assert (LW : forall s' d' g, In d' dirs -> is_cluster_file d' g -> existsb (eqs g) (kept_files s) = false -> during home alive init dirs s s' ->
     waiting home alive dirs s k f (File (Says i) r) s' -> waiting home alive dirs s k f (File (Says i) r) (load_file home alive (kept_files s) s' g)).
  { intros s' d' g D' F' K' DU [W|W]; [left; eapply LF; eauto|]. destruct (list_eq_dec N.eq_dec f g) as [<-|N0].
    - left. rewrite load_file_eq by exact K'. rewrite (from_file_loads _ _ _ _ _ _ W LO). cbn [clusters].
      exists (restored (next s') f (reload alive i)). split; [apply (get_put_same k)|]. apply (during_loaded home alive init dirs s s' dir f); auto. now apply from_file_loads with (r := r).
    - right. rewrite load_file_eq by exact K'. assert (X := proj1 (proj2 (from_file_disk alive (next s') g (files s') (proj1 (proj1 DU)))) f N0).
      destruct (snd _); cbn [files]; now rewrite X. }
  assert (ALL : forall ds s', incl ds dirs -> during home alive init dirs s s' -> waiting home alive dirs s k f (File (Says i) r) s' ->
     (In dir ds \/ exists c, get k (clusters s') = Some c /\ loaded home alive dirs s k c) ->
     exists c, get k (clusters (fold_left (load_dir home alive init (kept_files s)) ds s')) = Some c /\ loaded home alive dirs s k c).
  { induction ds as [|d' ds IH]; intros s' IC DU W IN; cbn [fold_left]; [destruct IN as [[]|IN]; exact IN|].
    assert (D' : In d' dirs) by (apply IC; now left). assert (IC' : incl ds dirs) by (intros x X; apply IC; now right).
    set (P := fun t => during home alive init dirs s t /\ waiting home alive dirs s k f (File (Says i) r) t).
    assert (DEF : forall t, init = true -> cluster_files (files t) d' = [] -> P t -> P (load_default home d' t)).
    { intros t I0 E [P1 P2]. split; [now apply during_default|]. unfold load_default. cbv zeta. destruct (has _ _) eqn:HK; auto. destruct P2 as [(c & X & Y)|P2].
      - left. exists c. split; auto. unfold add. cbn [clusters]. now apply SD.
      - right. exact P2. }
    assert (FIL : forall l t, (forall g, In g l -> is_cluster_file d' g) -> P t -> P (fold_left (load_file home alive (kept_files s)) l t) /\
       ((In f l \/ exists c, get k (clusters t) = Some c /\ loaded home alive dirs s k c) ->
        exists c, get k (clusters (fold_left (load_file home alive (kept_files s)) l t)) = Some c /\ loaded home alive dirs s k c)).
    { induction l as [|g l IHl]; intros t FL PT; cbn [fold_left]; [split; [exact PT|intros [[]|X]; exact X]|].
      assert (PG : P (load_file home alive (kept_files s) t g)).
      { destruct (existsb (eqs g) (kept_files s)) eqn:EK; [unfold load_file; now rewrite EK|]. destruct PT as [P1 P2]. assert (Fg : is_cluster_file d' g) by (apply FL; now left). split; [eapply during_file; eauto|eapply LW; eauto]. }
      destruct (IHl (load_file home alive (kept_files s) t g)) as [R1 R2]; [intros x X; apply FL; now right|exact PG|]. split; [exact R1|]. intros Q. apply R2.
      destruct Q as [[<-|Q]|Q]; [|now left|right].
      - right. destruct PT as [P1 [W'|W']]; [eapply LF; eauto; apply FL; now left|].
        rewrite load_file_eq by exact K. rewrite (from_file_loads _ _ _ _ _ _ W' LO). cbn [clusters].
        exists (restored (next t) g (reload alive i)). split; [apply (get_put_same k)|]. apply (during_loaded home alive init dirs s t dir g); auto. now apply from_file_loads with (r := r).
      - destruct (existsb (eqs g) (kept_files s)) eqn:EK; [unfold load_file; now rewrite EK|]. destruct PT as [P1 P2]. eapply LF; eauto. apply FL. now left. }
    unfold load_dir at 2. cbv zeta. set (l := cluster_files (files s') d'). set (t := if init then match l with [] => load_default home d' s' | _ :: _ => s' end else s').
    assert (PT : P t). { unfold t. destruct init eqn:I0; [|split; auto]. destruct l eqn:EL; [|split; auto]. apply DEF; auto. split; auto. }
    assert (FLs : forall g, In g l -> is_cluster_file d' g) by (intros g Gl; unfold l, cluster_files in Gl; apply filter_In in Gl; now apply glob_iff).
    destruct (FIL l t FLs PT) as [R1 R2]. apply IH; auto; [apply R1|apply R1|].
    destruct IN as [[->|IN]|IN]; [right|now left|right].
    - apply R2. destruct W as [W|W].
      + right. destruct W as (c & X & Y). exists c. split; auto. unfold t. destruct init; auto. destruct l; auto. unfold load_default. cbv zeta. destruct (has _ _) eqn:HK; auto. unfold add. cbn [clusters]. now apply SD.
      + left. unfold l, cluster_files. apply filter_In. split; [|now apply glob_iff]. apply get_in in W. now apply (in_map fst) in W.
    - apply R2. right. destruct IN as (c & X & Y). exists c. split; auto. unfold t. destruct init; auto. destruct l; auto. unfold load_default. cbv zeta. destruct (has _ _) eqn:HK; auto. unfold add. cbn [clusters]. now apply SD. }
  apply ALL.
  - apply incl_refl.
  - repeat split; cbn [clusters next files]; auto; [lia|apply kept_nodup].
  - right. exact G.
  - now left.
Qed.
