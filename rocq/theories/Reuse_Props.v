(** C88: connection files and controllers. *)
From Coq Require Import NArith List Bool.
From Verif Require Import Reuse_Spec Reuse_Model.
Import ListNotations.

Lemma mismatch_false e c : mismatch e c = false -> key c = key e /\ reg c = reg e /\ format c = format e.
Proof.
  unfold mismatch. intros H. apply negb_false_iff in H. apply andb_true_iff in H as (H & H3). apply andb_true_iff in H as (H1 & H2).
  apply N.eqb_eq in H1, H2, H3. auto.
Qed.
Lemma mismatch_refl_ok e c : key c = key e -> reg c = reg e -> format c = format e -> mismatch e c = false.
Proof. intros A B C. unfold mismatch. rewrite A, B, C, !N.eqb_refl. reflexivity. Qed.
Lemma start_cases cfg d r : snd (start cfg d) = Some r ->
  (exists e c, fst (start cfg d) = [] /\ reuse cfg = true /\ engine_file d = Good e /\ client_file d = Good c /\ mismatch e c = false /\
     r = Running (key e) (conf_format cfg) (conf_curve cfg) (reg e) (ports e) (ports c) (location e)) \/
  (exists k loc essh cssh, r = Running k (conf_format cfg) (conf_curve cfg) (new_reg cfg) (new_engine cfg) (new_client cfg) loc /\
     let c := CFile k (conf_format cfg) (conf_curve cfg) (new_reg cfg) (new_client cfg) loc cssh in
     let e := CFile k (conf_format cfg) (conf_curve cfg) (new_reg cfg) (new_engine cfg) loc essh in
     fst (start cfg d) = [Disk (engine_file d) Garbled; Disk (engine_file d) (Good c); Disk Garbled (Good c); Disk (Good e) (Good c)]).
Proof.
  unfold start, load. destruct (reuse cfg); cbn [negb].
  - destruct (engine_file d) as [| | |e]; cbn [fst snd]; try discriminate.
    + intros E. injection E as <-. right. do 4 eexists. split; reflexivity.
    + destruct (client_file d) as [| | |c]; cbn [fst snd]; try discriminate.
      * intros E. injection E as <-. right. do 4 eexists. split; reflexivity.
      * destruct (mismatch e c) eqn:M; cbn [fst snd]; intros E; injection E as <-.
        -- right. do 4 eexists. split; reflexivity.
        -- left. exists e, c. auto 8.
  - cbn [fst snd]. intros E. injection E as <-. right. do 4 eexists. split; reflexivity.
Qed.

(** After a start that did not find files to reuse, both files are there and are for this controller, whatever there was before *)
Theorem C88_fresh cfg d r : snd (start cfg d) = Some r -> reuse cfg = false \/ engine_file d = Missing \/ (client_file d = Missing /\ exists e, engine_file d = Good e) ->
  let d' := final d (fst (start cfg d)) in engines_talk (engine_file d') r /\ clients_talk (client_file d') r.
Proof.
  intros H C d'. destruct (start_cases _ _ _ H) as [(e & c & _ & R & E1 & E2 & _)|(k & loc & essh & cssh & -> & E)].
  - exfalso. destruct C as [C|[C|(C & _)]]; congruence.
  - unfold d'. cbv zeta in E. rewrite E. split; eexists; (split; [reflexivity|]); repeat split.
Qed.
Print Assumptions C88_fresh.

(** Reusing: if both files can be read and agree, they stay as they are, and the controller is where they say, with their key *)
Theorem C88_reused cfg d e c : reuse cfg = true -> engine_file d = Good e -> client_file d = Good c -> key c = key e -> reg c = reg e -> format c = format e ->
  exists r, start cfg d = ([], Some r) /\ r_key r = key e /\ r_reg r = reg e /\ r_reg r = reg c /\ r_engine r = ports e /\ r_client r = ports c /\ r_location r = location e /\
    (format e = conf_format cfg -> curve e = conf_curve cfg -> engines_talk (engine_file d) r) /\
    (format c = conf_format cfg -> curve c = conf_curve cfg -> location c = location e -> clients_talk (client_file d) r).
Proof.
  intros R E C K G F. unfold start, load. rewrite R, E, C, (mismatch_refl_ok e c K G F). cbn [negb]. eexists. split; [reflexivity|]. cbn [r_key r_reg r_engine r_client r_location].
  split; auto. split; auto. split; auto. split; auto. split; auto. split; auto. split.
  - intros Ef Ec. exists e. split; auto. split; auto. repeat split; auto.
  - intros Ef Ec El. exists c. split; auto. split; auto. repeat split; auto.
Qed.
Print Assumptions C88_reused.

(** A start raises iff files are to be reused and one of them is damaged (the client's file: if that of the engines is not) *)
Theorem C88_raises cfg d : snd (start cfg d) = None <->
  reuse cfg = true /\ (engine_file d = Garbled \/ engine_file d = Lacks \/ ((client_file d = Garbled \/ client_file d = Lacks) /\ exists e, engine_file d = Good e)).
Proof.
  unfold start, load. destruct (reuse cfg); cbn [negb].
  - destruct (engine_file d) as [| | |e]; cbn [fst snd].
    + split; [discriminate|]. intros (_ & [H|[H|(_ & e & H)]]); discriminate.
    + split; auto.
    + split; auto.
    + destruct (client_file d) as [| | |c]; cbn [fst snd].
      * split; [discriminate|]. intros (_ & [H|[H|([H|H] & _)]]); discriminate.
      * split; [|auto]. intros _. split; auto. right. right. split; eauto.
      * split; [|auto]. intros _. split; auto. right. right. split; eauto.
      * destruct (mismatch e c); cbn [snd]; (split; [discriminate|]); intros (_ & [H|[H|([H|H] & _)]]); discriminate.
  - cbn [snd]. split; [discriminate|]. intros (H & _). discriminate.
Qed.
Print Assumptions C88_raises.

(** The ssh servers in the files that are written: the clients' is the configured one; the engines' too, unless none is configured and a file of engines was read, whose server it keeps *)
Theorem C88_ssh cfg d r : snd (start cfg d) = Some r -> fst (start cfg d) <> [] ->
  exists e c, final d (fst (start cfg d)) = Disk (Good e) (Good c) /\ ssh c = conf_client_ssh cfg /\
    (conf_engine_ssh cfg <> 0%N -> ssh e = conf_engine_ssh cfg) /\
    (conf_engine_ssh cfg = 0%N -> reuse cfg = true -> forall old, engine_file d = Good old -> ssh e = ssh old) /\
    (conf_engine_ssh cfg = 0%N -> reuse cfg = false \/ engine_file d = Missing -> ssh e = 0%N).
Proof.
  intros H NE. assert (OE : forall a b, (a <> 0%N -> or_else a b = a) /\ (a = 0%N -> or_else a b = b)).
  { intros a b. unfold or_else. split; intros Ha; [apply N.eqb_neq in Ha; now rewrite Ha|subst a; reflexivity]. }
  unfold start, load in *. destruct (reuse cfg) eqn:R; cbn [negb] in *.
  - destruct (engine_file d) as [| | |e] eqn:E; cbn [fst snd] in *; try discriminate.
    + do 2 eexists. split; [reflexivity|]. cbn [ssh]. split; auto. split; auto. split; [intros; congruence|]. intros; auto.
    + destruct (client_file d) as [| | |c]; cbn [fst snd] in *; try discriminate.
      * do 2 eexists. split; [reflexivity|]. cbn [ssh]. destruct (OE (conf_engine_ssh cfg) (ssh e)) as (O1 & O2). split; auto. split; auto.
        split; [intros Z _ old Eo; injection Eo as <-; auto|]. intros _ [X|X]; congruence.
      * destruct (mismatch e c); cbn [fst snd] in *; [|congruence].
        do 2 eexists. split; [reflexivity|]. cbn [ssh]. destruct (OE (conf_engine_ssh cfg) (ssh e)) as (O1 & O2). split; auto. split; auto.
        split; [intros Z _ old Eo; injection Eo as <-; auto|]. intros _ [X|X]; congruence.
  - cbn [fst snd] in *. do 2 eexists. split; [reflexivity|]. cbn [ssh]. split; auto. split; auto. split; [intros; congruence|]. auto.
Qed.
Print Assumptions C88_ssh.
Example C88_ex_ssh : let cfg := Config true 5 0 None 0 0 8 10 11 12 in let d := Disk (Good (CFile 3 0 None 1 2 0 7)) Missing in
  snd (start cfg d) <> None /\ match final d (fst (start cfg d)) with Disk (Good e) (Good c) => ssh e = 7%N /\ ssh c = 8%N | _ => False end.
Proof. split; [discriminate|split; reflexivity]. Qed.

(** Controllers configured alike: the same format of messages and the same CURVE key (or none) at the same location *)
Definition alike (F : N) (C : option N) (L : N) (cfg : config) : Prop := conf_format cfg = F /\ conf_curve cfg = C /\ conf_location cfg = L.
Definition tidy_content (F : N) (C : option N) (L : N) (x : content) : Prop := match x with Good f => format f = F /\ curve f = C /\ location f = L | Lacks => False | _ => True end.
Definition tidy (F : N) (C : option N) (L : N) (d : disk) : Prop := tidy_content F C L (engine_file d) /\ tidy_content F C L (client_file d).
Definition configs (P : config -> Prop) (e : event) : Prop := match e with Starts c | Fails c | Killed_starting c => P c | _ => True end.

Lemma load_location F C L cfg d k loc essh cssh i : alike F C L cfg -> tidy F C L d -> load cfg d = Loaded k loc essh cssh i -> loc = L.
Proof.
  intros (_ & _ & A) (T1 & T2). unfold load. destruct (reuse cfg); cbn [negb]; [|congruence].
  destruct (engine_file d) as [| | |e]; try congruence. destruct T1 as (_ & _ & T1). destruct (client_file d) as [| | |c]; try congruence. destruct (mismatch e c); congruence.
Qed.
Lemma start_tidy F C L cfg d : alike F C L cfg -> tidy F C L d -> forall d', In d' (d :: fst (start cfg d)) -> tidy F C L d'.
Proof.
  intros A T d' [<-|I]; auto. unfold start in I. destruct (load cfg d) as [|k loc essh cssh [(e, c)|]] eqn:E; cbn [fst] in I; try contradiction.
  pose proof (load_location _ _ _ _ _ _ _ _ _ _ A T E) as El. destruct A as (A1 & A2 & A3). destruct T as (T1 & T2).
  repeat destruct I as [<-|I]; try contradiction; split; cbn [engine_file client_file tidy_content format curve location]; auto.
Qed.
Lemma final_in d ds : In (final d ds) (d :: ds).
Proof.
  unfold final. destruct ds as [|x ds]; [left; auto|]. right. destruct (exists_last (l := x :: ds)) as (l & y & E); [discriminate|]. rewrite E. rewrite last_last. apply in_or_app. right. left. auto.
Qed.
Definition good_world F C L (w : world) : Prop :=
  match w with
  | Idle d => tidy F C L d
  | Up cfg r d => alike F C L cfg /\ tidy F C L d /\ engines_talk (engine_file d) r /\ clients_talk (client_file d) r
  end.
Lemma start_talks F C L cfg d r : alike F C L cfg -> tidy F C L d -> snd (start cfg d) = Some r ->
  engines_talk (engine_file (final d (fst (start cfg d)))) r /\ clients_talk (client_file (final d (fst (start cfg d)))) r.
Proof.
  intros A (T1 & T2) H. destruct (start_cases _ _ _ H) as [(e & c & F0 & R & E1 & E2 & M & ->)|(k & loc & essh & cssh & -> & E)].
  - rewrite F0. apply mismatch_false in M as (M1 & M2 & M3). unfold final; cbn [last]. rewrite E1 in T1. rewrite E2 in T2. destruct T1 as (T11 & T12 & T13), T2 as (T21 & T22 & T23), A as (A1 & A2 & A3).
    split; [exists e | exists c]; (split; [auto|]); (split; [|reflexivity]); repeat split; cbn [r_key r_format r_curve r_reg r_location]; congruence.
  - cbv zeta in E. rewrite E. split; eexists; (split; [reflexivity|]); repeat split.
Qed.
Lemma good_step F C L w e w' : good_world F C L w -> configs (alike F C L) e -> step w e w' -> good_world F C L w'.
Proof.
  intros G A H. destruct H as [cfg d r H|cfg d H|cfg d d' H|cfg r d|cfg r d]; cbn [good_world configs] in *.
  - split; auto. split; [eapply start_tidy; eauto; apply final_in|]. now apply (start_talks F C L).
  - auto.
  - eapply start_tidy; eauto.
  - destruct G as (_ & T & _). unfold cleanup. destruct (reuse cfg); auto. split; exact I.
  - apply G.
Qed.

(** In every history of controllers configured alike, reusing files or not, killed at any moment, beginning with no files: whenever a controller is up, both files are there, and engines and clients
    that read them can talk to it *)
Theorem C88_up F C L w cfg r d : run (configs (alike F C L)) (Idle (Disk Missing Missing)) w -> w = Up cfg r d -> engines_talk (engine_file d) r /\ clients_talk (client_file d) r.
Proof.
  intros R E. assert (G : good_world F C L w).
  { assert (G0 : good_world F C L (Idle (Disk Missing Missing))) by (split; exact I). revert G0. induction R as [w|w e w' w'' O S R IH]; auto. intros G0. apply IH; auto. eapply good_step; eauto. }
  subst w. apply G.
Qed.
Print Assumptions C88_up.

(** Engines and clients of a controller need not read the files again when it is started again reusing them: what they know is true of the new one *)
Theorem C88_again F C L w cfg r d cfg' d0 : run (configs (alike F C L)) (Idle (Disk Missing Missing)) w -> w = Up cfg r d -> alike F C L cfg' -> reuse cfg' = true ->
  (d0 = d \/ (reuse cfg = true /\ d0 = cleanup cfg d)) ->
  exists r', start cfg' d0 = ([], Some r') /\ r' = r.
Proof.
  intros R E A RU D0. assert (D : d0 = d). { destruct D0 as [->|(Ru & ->)]; auto. unfold cleanup. now rewrite Ru. } subst d0.
  destruct (C88_up F C L w cfg r d R E) as ((e & E1 & T1 & P1) & (c & E2 & T2 & P2)).
  destruct T1 as (K1 & F1 & C1 & G1 & L1), T2 as (K2 & F2 & C2 & G2 & L2).
  assert (G : good_world F C L w).
  { assert (G0 : good_world F C L (Idle (Disk Missing Missing))) by (split; exact I). revert G0. clear E. induction R as [w|w ev w' w'' O S R IH]; auto. intros G0. apply IH; auto. eapply good_step; eauto. }
  rewrite E in G. destruct G as ((A1 & A2 & A3) & (T1 & T2) & _). rewrite E1 in T1. destruct T1 as (T11 & T12 & T13). destruct A as (B1 & B2 & B3).
  unfold start, load. rewrite RU, E1, E2, mismatch_refl_ok; try congruence. cbn [negb]. eexists. split; [reflexivity|]. destruct r. cbn in *. congruence.
Qed.
Print Assumptions C88_again.

(** Nothing but a kill while files are written damages them: otherwise a start never raises *)
Theorem C88_no_damage w cfg d : run (fun e => match e with Killed_starting _ => False | _ => True end) (Idle (Disk Missing Missing)) w -> w = Idle d -> snd (start cfg d) <> None.
Proof.
  intros R E H. assert (G : match w with Idle d | Up _ _ d => (engine_file d = Missing /\ client_file d = Missing) \/ exists e c, engine_file d = Good e /\ client_file d = Good c end).
  { assert (G0 : match Idle (Disk Missing Missing) with Idle d | Up _ _ d => (engine_file d = Missing /\ client_file d = Missing) \/ exists e c, engine_file d = Good e /\ client_file d = Good c end) by (left; split; reflexivity).
    revert G0. clear E H. induction R as [w|w e w' w'' O S R IH]; [intros G0; exact G0|]. intros G0. apply IH. clear IH R.
    destruct S as [cfg' d' r H|cfg' d' H|cfg' d' d'' H|cfg' r d'|cfg' r d']; auto; try contradiction.
    - destruct (start_cases _ _ _ H) as [(e & c & -> & _)|(k & loc & essh & cssh & _ & E)]; auto. cbv zeta in E. rewrite E. right. do 2 eexists. split; reflexivity.
    - unfold cleanup. destruct (reuse cfg'); auto. }
  subst w. apply C88_raises in H as (_ & [H|[H|([H|H] & _)]]); destruct G as [(G1 & G2)|(e & c & G1 & G2)]; congruence.
Qed.
Print Assumptions C88_no_damage.

(** A controller that does not reuse files leaves none; one that does leaves them *)
Theorem C88_end cfg r d e w : step (Up cfg r d) e w -> e = Ends -> w = Idle (if reuse cfg then d else Disk Missing Missing).
Proof. intros H E. inversion H; subst; try discriminate. reflexivity. Qed.
Print Assumptions C88_end.

(* ------------------------------------------------------------------ examples *)
Definition cfg1 : config := Config true 11 1 None 5 0 0 100 101 102.
Definition cfg2 : config := Config true 22 1 None 5 0 0 200 201 202.
Definition empty := Disk Missing Missing.
Definition after1 : disk := final empty (fst (start cfg1 empty)).
Example C88_ex_again : start cfg2 after1 = ([], Some (Running 11 1 None 100 101 102 5)) /\ snd (start cfg1 empty) = Some (Running 11 1 None 100 101 102 5).
Proof. split; reflexivity. Qed.
(** killed after writing the client's file only; started again reusing files *)
Example C88_ex_killed : let d := nth 1 (fst (start cfg1 empty)) empty in snd (start cfg2 d) = Some (Running 22 1 None 200 201 202 5) /\
  engine_file (final d (fst (start cfg2 d))) = Good (CFile 22 1 None 200 201 5 0).
Proof. split; reflexivity. Qed.
Example C88_ex_run : run (configs (alike 1 None 5)) (Idle empty) (Up cfg2 (Running 11 1 None 100 101 102 5) after1).
Proof.
  eapply (run_on _ _ (Starts cfg1)); [repeat split | apply (step_starts cfg1 empty); reflexivity|].
  eapply (run_on _ _ Killed); [exact I | apply step_killed|].
  eapply (run_on _ _ (Starts cfg2)); [repeat split | | apply run_here]. apply (step_starts cfg2 after1). reflexivity.
Qed.

(* ------------------------------------------------------------------ refuted *)
(** Killed while a file is written: every later start that reuses files raises *)
Theorem C88_damaged_refuted : exists d, run (configs (alike 1 None 5)) (Idle empty) (Idle d) /\ snd (start cfg2 d) = None.
Proof.
  exists (nth 2 (fst (start cfg1 empty)) empty). split; [|reflexivity]. eapply (run_on _ _ (Killed_starting cfg1)); [repeat split | | apply run_here].
  apply step_killed_starting. right. right. right. left. reflexivity.
Qed.
Print Assumptions C88_damaged_refuted.
(** With CURVE and no configured key pair, every start has a new key pair: a controller that reuses its files cannot be talked to *)
Theorem C88_curve_refuted : ~ (forall cfg d r, reuse cfg = true -> snd (start cfg d) = Some r -> engines_talk (engine_file (final d (fst (start cfg d)))) r).
Proof.
  intros H. specialize (H (Config true 0 1 (Some 8%N) 5 0 0 200 201 202) (final empty (fst (start (Config true 0 1 (Some 7%N) 5 0 0 100 101 102) empty))) _ eq_refl eq_refl).
  destruct H as (f & E & (_ & _ & T & _) & _). injection E as <-. discriminate T.
Qed.
Print Assumptions C88_curve_refuted.
(** nor can one that is configured to use another packer than the files say *)
Theorem C88_format_refuted : ~ (forall cfg d r, reuse cfg = true -> snd (start cfg d) = Some r -> clients_talk (client_file (final d (fst (start cfg d)))) r).
Proof.
  intros H. specialize (H (Config true 22 2 None 5 0 0 200 201 202) after1 _ eq_refl eq_refl). destruct H as (f & E & (_ & T & _) & _). injection E as <-. discriminate T.
Qed.
Print Assumptions C88_format_refuted.
(** The location that a controller is started with is not used if it reuses files *)
Theorem C88_location_refuted : ~ (forall cfg d r, snd (start cfg d) = Some r -> r_location r = conf_location cfg).
Proof. intros H. specialize (H (Config true 22 1 None 6 0 0 200 201 202) after1 _ eq_refl). discriminate H. Qed.
Print Assumptions C88_location_refuted.
