(** Proofs for C56: the record agrees with the history after every event. *)
From Coq Require Import List String Bool Arith Lia.
From Verif Require Import Rec_Spec Rec_Model.
Import ListNotations.
Local Open Scope string_scope.

Lemma eqb_sym' : forall a b, String.eqb a b = String.eqb b a.
Proof. exact String.eqb_sym. Qed.
Lemma mem_In : forall m l, mem m l = true <-> In m l.
Proof.
  intros m l. unfold mem. rewrite existsb_exists. split.
  - intros [x [H1 H2]]. apply String.eqb_eq in H2. subst. exact H1.
  - intros H. exists m. split; [exact H | apply String.eqb_refl].
Qed.
Lemma mem_del : forall m n l, mem m (del n l) = mem m l && negb (String.eqb m n).
Proof.
  intros m n l. apply eq_true_iff_eq. rewrite mem_In, andb_true_iff, mem_In. unfold del. rewrite filter_In. tauto.
Qed.
Lemma mem_add : forall m n l, mem m (add n l) = mem m l || String.eqb m n.
Proof.
  intros m n l. unfold add. destruct (mem n l) eqn:E.
  - destruct (String.eqb_spec m n) as [->|]; [rewrite E; reflexivity | rewrite orb_false_r; reflexivity].
  - cbn [mem existsb]. fold (mem m l). rewrite orb_comm. reflexivity.
Qed.

Lemma NoDup_snoc : forall (A : Type) (l : list A) x, NoDup l -> ~ In x l -> NoDup (l ++ [x]).
Proof.
  intros A l x H N. induction H as [|y l Hy H IH]; cbn [app]; [constructor; [exact N | constructor]|].
  constructor.
  - rewrite in_app_iff. intros [C|[C|[]]]; [contradiction|]. apply N. left. congruence.
  - apply IH. intros C. apply N. right. exact C.
Qed.

(** ** The history *)
Lemma registered_ever : forall h u, registered h u = true -> ever h u = true.
Proof.
  induction h as [|e h IH]; intros u H; [discriminate|].
  destruct e; cbn [registered ever] in *; auto.
  - apply orb_true_iff in H. destruct H as [H|H]; [rewrite H; reflexivity | rewrite (IH _ H), orb_true_r; reflexivity].
  - apply andb_true_iff in H. apply IH, H.
Qed.
Lemma request_ever : forall h m u q, request_of h m = Some (Mux u, q) -> ever h u = true.
Proof.
  induction h as [|e h IH]; intros m u q H; [discriminate|].
  destruct e; cbn [request_of ever] in *; try (eapply IH; eassumption).
  - erewrite IH by eassumption. apply orb_true_r.
  - destruct (String.eqb (q_id q0) m); cbn [andb] in H; [|eapply IH; eassumption].
    destruct k; try (injection H as ? ?; congruence).
    destruct (registered h u0) eqn:E; [|eapply IH; eassumption].
    injection H as ? ?. subst. apply registered_ever, E.
Qed.
Lemma request_id : forall h m k q, request_of h m = Some (k, q) -> q_id q = m.
Proof.
  induction h as [|e h IH]; intros m k q H; [discriminate|].
  destruct e; cbn [request_of] in *; try (eapply IH; eassumption).
  destruct (String.eqb_spec (q_id q0) m) as [E|E]; cbn [andb] in H; [|eapply IH; eassumption].
  destruct (match k0 with Mux u => registered h u | _ => true end); [|eapply IH; eassumption].
  congruence.
Qed.
Lemma given_up_ever : forall h u, orderly h -> given_up h u = true -> ever h u = true /\ registered h u = false.
Proof.
  induction h as [|e h IH]; intros u H H1; [discriminate|]. destruct H as [H0 H].
  destruct e; cbn [given_up ever registered may_happen] in *; try (apply IH; assumption).
  - destruct (IH u H H1) as [H2 H3]. destruct (String.eqb_spec u0 u) as [->|]; [congruence|]. cbn [orb]. auto.
  - destruct (IH u H H1) as [H2 H3]. rewrite H3, andb_false_r. auto.
  - destruct (String.eqb_spec u0 u) as [->|]; cbn [orb] in H1; [tauto | auto].
Qed.
(** without a request there is no outcome, no engine, no repetition *)
Lemma no_request : forall h m, orderly h -> request_of h m = None ->
  outcome_of h m = None /\ engine_of h m = VNone /\ repeated_by h m = VNone.
Proof.
  induction h as [|e h IH]; intros m H H1; [repeat split|]. destruct H as [H0 H].
  destruct e; cbn [request_of outcome_of engine_of repeated_by may_happen] in *; try (apply IH; assumption).
  - destruct (IH m H H1) as (I1 & I2 & I3). rewrite H1, I1. repeat split; assumption.
  - destruct (String.eqb (q_id q) m); cbn [andb] in *.
    + destruct k; try discriminate. destruct (registered h u); [discriminate|]. apply IH; assumption.
    + destruct (IH m H H1) as (I1 & I2 & I3). destruct k; auto.
  - destruct (IH m H H1) as (I1 & I2 & I3). destruct (String.eqb_spec m0 m) as [->|]; cbn [andb]; [rewrite H1 in H0; contradiction | auto].
  - destruct (IH m H H1) as (I1 & I2 & I3). rewrite H1. destruct (String.eqb m0 m); destruct k; auto.
  - destruct (IH m H H1) as (I1 & I2 & I3). destruct (String.eqb_spec old m) as [->|]; [tauto | auto].
Qed.
Lemma mux_engine : forall h m u q, orderly h -> request_of h m = Some (Mux u, q) -> engine_of h m = VText u.
Proof.
  induction h as [|e h IH]; intros m u q H H1; [discriminate|]. destruct H as [H0 H].
  destruct e; cbn [request_of engine_of may_happen] in *; try (eapply IH; eassumption).
  - destruct (String.eqb_spec (q_id q0) m) as [E|E]; cbn [andb] in *; [|destruct k; eapply IH; eassumption].
    destruct k; try (injection H1 as ? ?; discriminate); try discriminate. destruct (registered h u0); [congruence|]. eapply IH; eassumption.
  - destruct (String.eqb_spec m0 m) as [->|]; cbn [andb]; [rewrite H1 in H0; contradiction | eapply IH; eassumption].
  - destruct (String.eqb_spec m0 m) as [->|]; [|eapply IH; eassumption]. rewrite H1 in *.
    destruct k; try contradiction. destruct (outcome_of h m); eapply IH; eassumption.
Qed.
Lemma known_sent : forall h m, known h m = false -> sent h m = None /\ request_of h m = None /\ resubmission h m = None /\ printed_any h m = false.
Proof.
  intros h m H. unfold known in H. destruct (sent h m) eqn:E; [discriminate|]. unfold sent in E.
  destruct (request_of h m) as [[k q]|]; [discriminate|]. auto.
Qed.
Lemma no_output : forall h m, printed_any h m = false ->
  (forall e, printed e h m = "") /\ last_output an_error h m = VNone /\ last_output an_input h m = VNone /\ last_output a_result h m = VNone /\ last_output a_display h m = VNone.
Proof.
  induction h as [|e h IH]; intros m H; [repeat split|].
  destruct e; cbn [printed_any printed last_output] in *; try (apply IH; assumption).
  apply orb_false_iff in H. destruct H as [H1 H2]. destruct (IH m H2) as (I0 & I1 & I2 & I3 & I4).
  destruct (String.eqb m0 m).
  - destruct o; try discriminate. repeat split; assumption.
  - destruct o; repeat split; try assumption. 
Qed.

(** ** The database *)
Section Db.
Context (strict : bool).
Lemma get_add : forall m r d n, get_record n (add_record strict m r d) =
  match get_record n d with
  | Some x => Some x
  | None => if String.eqb m n then Some (if strict then fun k => if is_column k then r k else VNone else r) else None
  end.
Proof.
  intros m r d n. unfold add_record. destruct (get_record m d) eqn:E.
  - destruct (get_record n d) eqn:F; [reflexivity|]. destruct (String.eqb_spec m n) as [->|]; [congruence | reflexivity].
  - cbn [get_record]. destruct (String.eqb_spec m n) as [->|]; [rewrite E; reflexivity|]. destruct (get_record n d); reflexivity.
Qed.
Lemma get_update : forall m u d n, (strict = true -> u DisplayData = None) ->
  get_record n (update_record strict m u d) =
  if String.eqb m n then option_map (fun r => update r u) (get_record n d) else get_record n d.
Proof.
  intros m u d n Hs.
  assert (E : strict && match u DisplayData with Some _ => true | None => false end = false).
  { destruct strict; [rewrite Hs by reflexivity|]; reflexivity. }
  induction d as [|[i r] d IH]; cbn [update_record]; rewrite E.
  - destruct (String.eqb m n); reflexivity.
  - destruct (String.eqb_spec i m) as [->|N]; cbn [get_record].
    + destruct (String.eqb m n); reflexivity.
    + destruct (String.eqb_spec i n) as [->|]; [|exact IH].
      destruct (String.eqb_spec m n) as [->|]; [congruence | reflexivity].
Qed.
Lemma get_update_strict : forall m u d n v, strict = true -> u DisplayData = Some v -> get_record n (update_record strict m u d) = get_record n d.
Proof. intros m u d n v Hs Hu. destruct d as [|[i r] d]; cbn [update_record]; rewrite Hs, Hu; reflexivity. Qed.

Definition good (h : history) (m : string) (o : option record) : Prop :=
  match o with
  | Some r => known h m = true /\ forall k, agrees k (r k) (expected strict h m k)
  | None => known h m = false
  end.
Record Inv (h : history) (s : hub) : Prop := {
  i_reg : forall u, mem u (by_ident s) = registered h u;
  i_pend : forall m, mem m (pending s) = match sent h m, outcome_of h m with Some _, None => true | _, _ => false end;
  i_done : forall m, mem m (all_completed s) = match outcome_of h m with Some _ => true | None => false end;
  i_queue : forall u m, In (u, m) (queues s) -> exists q, request_of h m = Some (Mux u, q);
  i_waiting : forall u m, given_up h u = false -> (In (u, m) (queues s) <-> exists q, request_of h m = Some (Mux u, q) /\ outcome_of h m = None);
  i_nodup : NoDup (queues s);
  i_db : forall m, good h m (get_record m (db s)) }.

Lemma agrees_refl : forall k v, agrees k v v.
Proof. intros. left. reflexivity. Qed.
Lemma agrees_exact : forall k v w, agrees k v w -> match k with Error | ExecuteInput | ExecuteResult => False | _ => True end -> v = w.
Proof. intros k v w [H|[H _]] H1; [exact H|]. destruct k; contradiction. Qed.

(** nothing changes about [m] *)
Definition same_about (h h' : history) (m : string) : Prop :=
  request_of h' m = request_of h m /\ resubmission h' m = resubmission h m /\ outcome_of h' m = outcome_of h m /\ engine_of h' m = engine_of h m
  /\ (forall e, printed e h' m = printed e h m) /\ (forall p, p OtherOut = None -> last_output p h' m = last_output p h m) /\ repeated_by h' m = repeated_by h m
  /\ printed_any h' m = printed_any h m.
Lemma same_expected : forall h h' m, same_about h h' m -> known h' m = known h m /\ sent h' m = sent h m /\ forall k, expected strict h' m k = expected strict h m k.
Proof.
  intros h h' m (A1 & A2 & A3 & A4 & A5 & A6 & A7 & A8). unfold expected, known, sent.
  repeat split; try (rewrite ?A1, ?A2, ?A8; reflexivity).
  intros k. rewrite A1, A2, A3, A4, A7, !A5, !A6 by reflexivity. reflexivity.
Qed.
Lemma same_good : forall h h' m o, same_about h h' m -> good h m o -> good h' m o.
Proof.
  intros h h' m o A H. destruct (same_expected _ _ _ A) as (K & _ & E). unfold good in *. destruct o as [r|].
  - destruct H as [H1 H2]. split; [congruence|]. intros k. rewrite E. apply H2.
  - congruence.
Qed.

Lemma Inv_init : Inv [] init.
Proof.
  constructor; try reflexivity; try (intros; contradiction); try (exact (NoDup_nil _)).
  intros u m _. split; [intros H; contradiction|]. intros [q [H _]]. discriminate.
Qed.

Ltac by_col H := match goal with |- agrees ?k _ _ => exact (H k) end.
Ltac same := unfold same_about; cbn [request_of resubmission outcome_of engine_of printed last_output repeated_by printed_any]; repeat split; intros; try reflexivity.

Lemma Inv_register : forall h s u, orderly h -> Inv h s -> may_happen h (Register u) -> Inv (Register u :: h) (step strict s (Register u)).
Proof.
  intros h s u Ho I Hm. cbn [may_happen] in Hm. destruct I as [I1 I2 I3 I4 I5 I6 I7].
  assert (Q : filter (fun p : string * string => negb (String.eqb (fst p) u)) (queues s) = queues s).
  { assert (A : forall l, (forall v m, In (v, m) l -> v <> u) -> filter (fun p : string * string => negb (String.eqb (fst p) u)) l = l).
    { induction l as [|[v m] l IH]; intros H; [reflexivity|]. cbn [filter fst]. destruct (String.eqb_spec v u) as [->|N].
      - exfalso. apply (H u m); [left|]; reflexivity.
      - cbn [negb]. f_equal. apply IH. intros v' m' H'. apply (H v' m'). right. exact H'. }
    apply A. intros v m H ->. destruct (I4 _ _ H) as [q E]. apply request_ever in E. congruence. }
  cbn [step]. rewrite Q. constructor; cbn [by_ident queues pending all_completed db].
  - intros v. rewrite mem_add, I1. cbn [registered]. rewrite orb_comm, String.eqb_sym. reflexivity.
  - exact I2.
  - exact I3.
  - exact I4.
  - exact I5.
  - exact I6.
  - intros m. apply (same_good h); [same | apply I7].
Qed.
Lemma Inv_unregister : forall h s u, Inv h s -> Inv (Unregister u :: h) (step strict s (Unregister u)).
Proof.
  intros h s u I. destruct I as [I1 I2 I3 I4 I5 I6 I7].
  cbn [step]. constructor; cbn [by_ident queues pending all_completed db].
  - intros v. rewrite mem_del, I1. cbn [registered]. rewrite andb_comm, String.eqb_sym. reflexivity.
  - exact I2.
  - exact I3.
  - exact I4.
  - exact I5.
  - exact I6.
  - intros m. apply (same_good h); [same | apply I7].
Qed.

(** the columns of the request *)
Lemma expected_request : forall h m k q, request_of h m = None -> orderly h -> 
  forall kd, request_of (Request kd q :: h) m = Some (kd, q) ->
  q_id q = m ->
  match resubmission h m with Some q' => q' = q | None => True end ->
  expected strict (Request kd q :: h) m k =
  match k with
  | ClientUuid => VText (q_session q)
  | Queue => match kd with Task => VText "task" | Mux _ => VText "mux" | Broadcast => VNone end
  | EngineUuid => match kd with Mux u => VText u | _ => VNone end
  | Header | Metadata | Content | Buffers | Submitted | Label => init_record q k
  | _ => expected strict h m k
  end.
Proof.
  intros h m k q H Ho kd H1 H2 H3. destruct (no_request _ _ Ho H) as (N1 & N2 & N3).
  unfold expected, sent. rewrite H1.
  destruct k; cbn [init_record outcome_of printed last_output repeated_by]; try reflexivity.
  cbn [engine_of request_of] in *. destruct kd; try exact N2.
  rewrite H2, String.eqb_refl in *. cbn [andb] in *. destruct (registered h u); [reflexivity|congruence].
Qed.
Lemma request_good : forall h s m q kd existing (skip : col -> bool) rec,
  Inv h s -> orderly h -> request_of h m = None -> request_of (Request kd q :: h) m = Some (kd, q) -> q_id q = m ->
  match resubmission h m with Some q' => q' = q | None => True end ->
  get_record m (db s) = Some existing ->
  (forall k, skip k = true -> k = Buffers \/ k = ResultBuffers) ->
  (forall k, rec k = match k with
     | ClientUuid => VText (q_session q)
     | Queue => match kd with Task => VText "task" | Mux _ => VText "mux" | Broadcast => VNone end
     | EngineUuid => match kd with Mux u => VText u | _ => VNone end
     | _ => init_record q k end) ->
  good (Request kd q :: h) m (Some (update existing (merge skip existing (as_dict rec)))).
Proof.
  intros h s m q kd existing skip rec I Ho H H1 H2 H3 G Hs Hr.
  pose proof (i_db _ _ I m) as D. rewrite G in D. destruct D as [D0 D].
  split; [unfold known, sent; rewrite H1; reflexivity|].
  destruct (no_request _ _ Ho H) as (N1 & N2 & N3).
  intros k. rewrite (expected_request h m k q H Ho kd H1 H2 H3).
  assert (Ex : forall j, match j with Error | ExecuteInput | ExecuteResult => False | _ => True end -> existing j = expected strict h m j).
  { intros j Hj. apply (agrees_exact j); [apply D | exact Hj]. }
  assert (A : forall j, is_column j = true -> update existing (merge skip existing (as_dict rec)) j = rec j
             \/ (skip j = false /\ update existing (merge skip existing (as_dict rec)) j = existing j /\ truthy (existing j) = true /\ truthy (rec j) = false)).
  { intros j Hj. unfold update, merge, as_dict. rewrite Hj. destruct (skip j); [left; reflexivity|].
    destruct (truthy (existing j)) eqn:T; [|left; reflexivity]. destruct (truthy (rec j)) eqn:T'; [left; reflexivity|]. right. auto. }
  assert (C : forall j, match j with Header | Metadata | Content | Buffers | Submitted | Label => True | _ => False end ->
            update existing (merge skip existing (as_dict rec)) j = init_record q j).
  { intros j Hj. destruct (A j) as [E|(_ & E & T & T')]; [destruct j; try contradiction; reflexivity| |].
    - rewrite E, Hr. destruct j; try contradiction; reflexivity.
    - rewrite E. rewrite Ex in T |- * by (destruct j; try contradiction; exact Logic.I).
      assert (Z : sent h m = resubmission h m) by (unfold sent; rewrite H; reflexivity).
      destruct j; try contradiction; unfold expected in T |- *; rewrite Z in T |- *;
        (destruct (resubmission h m) as [q'|]; [subst q'; reflexivity | discriminate]). }
  assert (B : forall j, is_column j = true -> truthy (rec j) = false -> (existing j = rec j \/ truthy (existing j) = true \/ match j with Error | ExecuteInput | ExecuteResult => True | _ => False end) -> 
            (skip j = true -> existing j = rec j) -> rec j = VNone \/ match j with Error | ExecuteInput | ExecuteResult => False | _ => True end ->
            agrees j (update existing (merge skip existing (as_dict rec)) j) (expected strict h m j)).
  { intros j Hj F [E|[E|E]] Sk Rn.
    - destruct (A j Hj) as [E'|(_ & E' & _)]; rewrite E'; [rewrite <- E|]; apply D.
    - destruct (A j Hj) as [E'|(_ & E' & _)]; rewrite E'; [|apply D].
      destruct (skip j) eqn:Sj; [rewrite <- Sk by reflexivity; apply D|].
      exfalso. unfold update, merge, as_dict in E'. rewrite Hj, Sj, E, F in E'. cbn [andb negb] in E'. congruence.
    - destruct (A j Hj) as [E'|(_ & E' & _)]; rewrite E'; [|apply D].
      destruct (skip j) eqn:Sj; [rewrite <- Sk by reflexivity; apply D|].
      destruct (truthy (existing j)) eqn:T.
      + exfalso. unfold update, merge, as_dict in E'. rewrite Hj, Sj, T, F in E'. cbn [andb negb] in E'. congruence.
      + right. split; [exact E|]. split; [exact F|]. destruct (D j) as [D'|[_ [_ D']]]; [congruence | exact D']. }
  assert (SN : forall j, skip j = true -> match j with Buffers | ResultBuffers => True | _ => False end).
  { intros j Sj. destruct (Hs j Sj) as [->| ->]; exact Logic.I. }
  assert (O : forall j, match j with Started | Completed | Resubmitted | Received | ResultHeader | ResultMetadata | ResultContent | ResultBuffers => True | _ => False end -> existing j = VNone).
  { intros j Hj. rewrite Ex by (destruct j; try contradiction; exact Logic.I). unfold expected. rewrite N1, N3. destruct j; try contradiction; reflexivity. }
  assert (V : forall j, match j with ClientUuid | EngineUuid | Queue => True | _ => False end -> update existing (merge skip existing (as_dict rec)) j = rec j).
  { intros j Hj. destruct (A j) as [E|(_ & _ & T & _)]; [destruct j; try contradiction; reflexivity | exact E|].
    rewrite Ex in T by (destruct j; try contradiction; exact Logic.I). unfold expected in T. rewrite N2, H in T. destruct j; try contradiction; discriminate. }
  assert (P : forall j e, match j, e with Stdout, false | Stderr, true => True | _, _ => False end -> agrees j (update existing (merge skip existing (as_dict rec)) j) (expected strict h m j)).
  { intros j e Hj. assert (Ej : existing j = VText (printed e h m)).
    { rewrite Ex by (destruct j; try contradiction; exact Logic.I). destruct j; try contradiction; destruct e; try contradiction; reflexivity. }
    assert (Rj : rec j = VText "") by (rewrite Hr; destruct j; try contradiction; reflexivity).
    apply B.
    - destruct j; try contradiction; reflexivity.
    - rewrite Rj. reflexivity.
    - rewrite Ej, Rj. unfold truthy. destruct (String.eqb_spec (printed e h m) "") as [->|]; [left; reflexivity | right; left; reflexivity].
    - intros Sj. apply SN in Sj. destruct j; contradiction.
    - right. destruct j; try contradiction; exact Logic.I. }
  destruct k; try (rewrite C by exact Logic.I; apply agrees_refl); try (rewrite V by exact Logic.I; rewrite Hr; apply agrees_refl).
  { left. destruct (A MsgId eq_refl) as [E|(_ & E & _)]; rewrite E.
    - rewrite Hr. cbn [init_record]. rewrite H2. reflexivity.
    - apply (Ex MsgId). exact Logic.I. }
  all: try (apply (P _ false); exact Logic.I); try (apply (P _ true); exact Logic.I).
  all: try (apply B; [reflexivity | rewrite Hr; reflexivity | rewrite Hr; cbn [init_record]; first [left; apply O; exact Logic.I | right; right; exact Logic.I]
    | rewrite Hr; cbn [init_record]; intros Sj; first [apply O; exact Logic.I | apply SN in Sj; contradiction] | left; rewrite Hr; reflexivity]).
  unfold update, merge, as_dict. cbn [is_column truthy negb]. rewrite andb_true_r.
  destruct (skip DisplayData); [apply D|]. destruct (truthy (existing DisplayData)); apply D.
Qed.

(** the database after a request, whichever way *)
Lemma request_new : forall h m q kd rec,
  orderly h -> request_of h m = None -> request_of (Request kd q :: h) m = Some (kd, q) -> q_id q = m -> known h m = false ->
  (forall k, rec k = match k with
     | ClientUuid => VText (q_session q)
     | Queue => match kd with Task => VText "task" | Mux _ => VText "mux" | Broadcast => VNone end
     | EngineUuid => match kd with Mux u => VText u | _ => VNone end
     | _ => init_record q k end) ->
  good (Request kd q :: h) m (Some (if strict then fun k => if is_column k then rec k else VNone else rec)).
Proof.
  intros h m q kd rec Ho H H1 H2 K Hr. destruct (known_sent _ _ K) as (K1 & K2 & K3 & K4).
  destruct (no_output _ _ K4) as (O0 & O1 & O2 & O3 & O4). destruct (no_request _ _ Ho H) as (N1 & N2 & N3).
  split; [unfold known, sent; rewrite H1; reflexivity|].
  intros k. rewrite (expected_request h m k q H Ho kd H1 H2) by (rewrite K3; exact Logic.I).
  left. replace ((if strict then fun k0 => if is_column k0 then rec k0 else VNone else rec) k) with (rec k).
  - rewrite Hr. unfold expected. rewrite K1, N1, N3, !O0, O1, O2, O3, O4.
    destruct k; cbn [init_record]; rewrite ?H2; try reflexivity. destruct strict; reflexivity.
  - destruct strict; [|reflexivity]. destruct k; try reflexivity. cbn [is_column]. rewrite Hr. reflexivity.
Qed.
Lemma request_other : forall h kd q m, q_id q <> m \/ match kd with Mux u => registered h u = false | _ => False end ->
  same_about h (Request kd q :: h) m.
Proof.
  intros h kd q m H. same; destruct H as [H|H].
  - apply String.eqb_neq in H. rewrite H. reflexivity.
  - destruct kd; try contradiction. rewrite H, andb_false_r. reflexivity.
  - apply String.eqb_neq in H. rewrite H. destruct kd; reflexivity.
  - destruct kd; try contradiction. rewrite H, andb_false_r. reflexivity.
Qed.
Lemma request_db : forall h s q kd rec skip m,
  Inv h s -> orderly h -> may_happen h (Request kd q) -> match kd with Mux u => registered h u = true | Broadcast => False | Task => True end ->
  (forall k, skip k = true -> k = Buffers \/ k = ResultBuffers) ->
  (forall k, rec k = match k with
     | ClientUuid => VText (q_session q)
     | Queue => match kd with Task => VText "task" | Mux _ => VText "mux" | Broadcast => VNone end
     | EngineUuid => match kd with Mux u => VText u | _ => VNone end
     | _ => init_record q k end) ->
  good (Request kd q :: h) m
    (get_record m (match get_record (q_id q) (db s) with
                   | Some existing => update_record strict (q_id q) (merge skip existing (as_dict rec)) (db s)
                   | None => add_record strict (q_id q) rec (db s)
                   end)).
Proof.
  intros h s q kd rec skip m I Ho [H1 H2] Hk Hs Hr.
  pose proof (i_db _ _ I (q_id q)) as D.
  assert (R : request_of (Request kd q :: h) (q_id q) = Some (kd, q)).
  { cbn [request_of]. rewrite String.eqb_refl. destruct kd; try contradiction; [reflexivity|]. rewrite Hk. reflexivity. }
  destruct (get_record (q_id q) (db s)) as [existing|] eqn:G.
  - rewrite get_update.
    + destruct (String.eqb_spec (q_id q) m) as [E|N].
      * rewrite <- E, G. cbn [option_map]. apply (request_good h s); auto. 
        destruct kd; [exact H2 | rewrite H2; exact Logic.I | contradiction].
      * apply (same_good h); [apply request_other; left; exact N | apply (i_db _ _ I)].
    + intros S. unfold merge, as_dict. cbn [is_column]. destruct D as [_ D].
      assert (E : existing DisplayData = VNone).
      { rewrite (agrees_exact DisplayData _ _ (D DisplayData) Logic.I). unfold expected. rewrite S. reflexivity. }
      rewrite E. destruct (skip DisplayData); reflexivity.
  - rewrite get_add. destruct (String.eqb_spec (q_id q) m) as [E|N].
    + rewrite <- E, G. apply request_new; auto.
    + destruct (get_record m (db s)) eqn:G'; (apply (same_good h); [apply request_other; left; exact N | rewrite <- G'; apply (i_db _ _ I)]).
Qed.
Lemma request_pending : forall h s q kd m, Inv h s -> orderly h -> request_of h (q_id q) = None -> request_of (Request kd q :: h) (q_id q) = Some (kd, q) ->
  mem m (add (q_id q) (pending s)) = match sent (Request kd q :: h) m, outcome_of (Request kd q :: h) m with Some _, None => true | _, _ => false end.
Proof.
  intros h s q kd m I Ho H H1. rewrite mem_add, (i_pend _ _ I). cbn [outcome_of].
  destruct (String.eqb_spec m (q_id q)) as [->|N].
  - unfold sent. rewrite H1. destruct (no_request _ _ Ho H) as (N1 & _). rewrite N1. apply orb_true_r.
  - rewrite orb_false_r. destruct (same_expected h (Request kd q :: h) m) as (_ & S & _); [apply request_other; left; congruence|].
    rewrite S. reflexivity.
Qed.
Lemma Inv_task_request : forall h s q, Inv h s -> orderly h -> may_happen h (Request Task q) -> Inv (Request Task q :: h) (step strict s (Request Task q)).
Proof.
  intros h s q I Ho Hm. pose proof Hm as [H1 H2].
  assert (R : request_of (Request Task q :: h) (q_id q) = Some (Task, q)) by (cbn [request_of]; rewrite String.eqb_refl; reflexivity).
  cbn [step]. unfold save_task_request. constructor; cbn [by_ident queues pending all_completed db].
  - apply (i_reg _ _ I).
  - intros m. apply request_pending; assumption.
  - apply (i_done _ _ I).
  - intros u m Hi. destruct (i_queue _ _ I _ _ Hi) as [q' E]. exists q'. cbn [request_of].
    destruct (String.eqb_spec (q_id q) m) as [<-|]; [congruence | exact E].
  - intros u m Hg. rewrite (i_waiting _ _ I u m Hg). cbn [request_of outcome_of].
    destruct (String.eqb_spec (q_id q) m) as [<-|]; [|reflexivity]. cbn [andb]. rewrite H1. split; intros [q' [E _]]; discriminate.
  - apply (i_nodup _ _ I).
  - intros m.
    replace (match get_record (q_id q) (db s) with Some existing => _ | None => _ end) with
      (match get_record (q_id q) (db s) with
       | Some existing => update_record strict (q_id q) (merge (fun k => match k with Buffers | ResultBuffers => true | _ => false end) existing
                            (as_dict (set Queue (VText "task") (set ClientUuid (VText (q_session q)) (init_record q))))) (db s)
       | None => add_record strict (q_id q) (set Queue (VText "task") (set ClientUuid (VText (q_session q)) (init_record q))) (db s)
       end).
    + apply request_db; auto.
      * intros k; destruct k; intros; try discriminate; auto.
      * intros k. destruct k; reflexivity.
    + destruct (get_record (q_id q) (db s)) as [existing|] eqn:G; [|reflexivity].
      pose proof (i_db _ _ I (q_id q)) as D. rewrite G in D. destruct D as [_ D].
      destruct (no_request _ _ Ho H1) as (_ & _ & N3).
      assert (E : existing Resubmitted = VNone).
      { rewrite (agrees_exact Resubmitted _ _ (D Resubmitted) Logic.I). unfold expected. exact N3. }
      rewrite E. reflexivity.
Qed.
Lemma Inv_broadcast_request : forall h s q, Inv h s -> orderly h -> may_happen h (Request Broadcast q) -> Inv (Request Broadcast q :: h) (step strict s (Request Broadcast q)).
Proof.
  intros h s q I Ho Hm. pose proof Hm as [H1 H2].
  assert (R : request_of (Request Broadcast q :: h) (q_id q) = Some (Broadcast, q)) by (cbn [request_of]; rewrite String.eqb_refl; reflexivity).
  cbn [step]. unfold save_broadcast_request. constructor; cbn [by_ident queues pending all_completed db].
  - apply (i_reg _ _ I).
  - intros m. apply request_pending; assumption.
  - apply (i_done _ _ I).
  - intros u m Hi. destruct (i_queue _ _ I _ _ Hi) as [q' E]. exists q'. cbn [request_of].
    destruct (String.eqb_spec (q_id q) m) as [<-|]; [congruence | exact E].
  - intros u m Hg. rewrite (i_waiting _ _ I u m Hg). cbn [request_of outcome_of].
    destruct (String.eqb_spec (q_id q) m) as [<-|]; [|reflexivity]. cbn [andb]. rewrite H1. split; intros [q' [E _]]; discriminate.
  - apply (i_nodup _ _ I).
  - intros m. rewrite get_add. pose proof (i_db _ _ I (q_id q)) as D.
    destruct (String.eqb_spec (q_id q) m) as [E|N].
    + subst m. destruct (get_record (q_id q) (db s)) eqn:G; [destruct D; congruence|].
      apply request_new; auto. intros k. destruct k; reflexivity.
    + destruct (get_record m (db s)) eqn:G'; (apply (same_good h); [apply request_other; left; exact N | rewrite <- G'; apply (i_db _ _ I)]).
Qed.
Lemma Inv_mux_request : forall h s u q, Inv h s -> orderly h -> may_happen h (Request (Mux u) q) -> Inv (Request (Mux u) q :: h) (step strict s (Request (Mux u) q)).
Proof.
  intros h s u q I Ho Hm. pose proof Hm as [H1 H2].
  cbn [step]. unfold save_queue_request. rewrite (i_reg _ _ I). destruct (registered h u) eqn:Hu.
  2:{ assert (S : forall m, same_about h (Request (Mux u) q :: h) m) by (intros m; apply request_other; right; exact Hu).
      destruct I as [I1 I2 I3 I4 I5 I6 I7]. constructor; auto.
      - intros m. destruct (same_expected _ _ _ (S m)) as (_ & E & _). rewrite E. apply I2.
      - intros v m Hi. destruct (S m) as (E & _). rewrite E. apply I4, Hi.
      - intros v m Hg. destruct (S m) as (E & _). rewrite E. apply I5, Hg.
      - intros m. apply (same_good h); [apply S | apply I7]. }
  assert (R : request_of (Request (Mux u) q :: h) (q_id q) = Some (Mux u, q)) by (cbn [request_of]; rewrite String.eqb_refl, Hu; reflexivity).
  assert (Q0 : forall v, ~ In (v, q_id q) (queues s)).
  { intros v Hi. destruct (i_queue _ _ I _ _ Hi) as [q' E]. congruence. }
  constructor; cbn [by_ident queues pending all_completed db].
  - apply (i_reg _ _ I).
  - intros m. apply request_pending; assumption.
  - apply (i_done _ _ I).
  - intros v m Hi. rewrite in_app_iff in Hi. cbn [request_of]. rewrite Hu. destruct Hi as [Hi|[Hi|[]]].
    + destruct (i_queue _ _ I _ _ Hi) as [q' E]. exists q'.
      destruct (String.eqb_spec (q_id q) m) as [<-|]; [congruence | exact E].
    + injection Hi as -> ->. exists q. rewrite String.eqb_refl. reflexivity.
  - intros v m Hg. rewrite in_app_iff, (i_waiting _ _ I v m Hg). cbn [request_of outcome_of In]. rewrite Hu.
    destruct (String.eqb_spec (q_id q) m) as [<-|N]; cbn [andb].
    + destruct (no_request _ _ Ho H1) as (N1 & _). rewrite N1, H1. split.
      * intros [[q' [E _]]|[E|[]]]; [discriminate|]. injection E as ->. exists q. auto.
      * intros [q' [E _]]. injection E as -> _. right. left. reflexivity.
    + split; [intros [E|[E|[]]]; [exact E | congruence] | intros E; left; exact E].
  - apply NoDup_snoc; [apply (i_nodup _ _ I) | apply Q0].
  - intros m. apply request_db; auto.
    + intros k; destruct k; intros; try discriminate; auto.
    + intros k. destruct k; reflexivity.
Qed.

(** an event that concerns only the record of [m] and only changes columns *)
Lemma update_good : forall h h' s m u n, (forall n, n <> m -> same_about h h' n) ->
  Inv h s -> (strict = true -> u DisplayData = None) -> known h' m = known h m ->
  (forall r, (forall k, agrees k (r k) (expected strict h m k)) -> forall k, agrees k (update r u k) (expected strict h' m k)) ->
  good h' n (get_record n (update_record strict m u (db s))).
Proof.
  intros h h' s m u n S I Hs K Hk. rewrite get_update by exact Hs. pose proof (i_db _ _ I n) as D.
  destruct (String.eqb_spec m n) as [<-|N].
  - unfold good in *. destruct (get_record m (db s)) as [r|]; cbn [option_map]; [|congruence].
    destruct D as [D1 D2]. split; [congruence|]. apply Hk, D2.
  - apply (same_good h); [apply S; congruence | exact D].
Qed.
Lemma Inv_destination : forall h s m u, Inv h s -> orderly h -> may_happen h (Destination m u) -> Inv (Destination m u :: h) (step strict s (Destination m u)).
Proof.
  intros h s m u I Ho Hm. cbn [step]. unfold save_task_destination. rewrite (i_reg _ _ I).
  assert (S : forall n, n <> m -> same_about h (Destination m u :: h) n).
  { intros n N. same. destruct (String.eqb_spec m n); [congruence | reflexivity]. }
  destruct (registered h u) eqn:Hu.
  - constructor; cbn [by_ident queues pending all_completed db with_db]; try apply I.
    intros n. apply (update_good h); auto.
    intros r Hr k. unfold update, expected. cbn [engine_of]. rewrite String.eqb_refl, Hu. destruct k; try (by_col Hr). left. reflexivity.
  - constructor; try apply I.
    intros n. apply (same_good h); [|apply I]. same. rewrite Hu, andb_false_r. reflexivity.
Qed.
Lemma Inv_output : forall h s m o, Inv h s -> orderly h -> Inv (Output m o :: h) (step strict s (Output m o)).
Proof.
  intros h s m o I Ho. cbn [step].
  assert (S : forall n, n <> m -> same_about h (Output m o :: h) n).
  { intros n N. apply not_eq_sym in N. apply String.eqb_neq in N. same; destruct o; rewrite ?N; try reflexivity; match goal with p : output -> option val |- context [match ?q ?o with Some _ => _ | None => _ end] => destruct (q o); reflexivity end. }
  assert (F : forall d, (forall n, good (Output m o :: h) n (get_record n d)) -> Inv (Output m o :: h) (with_db s d)).
  { intros d Hd. constructor; cbn [by_ident queues pending all_completed db with_db]; try apply I. exact Hd. }
  unfold save_iopub_message. pose proof (i_db _ _ I m) as D.
  destruct (get_record m (db s)) as [r|] eqn:G.
  - destruct D as [D1 D2].
    assert (K : known (Output m o :: h) m = known h m).
    { rewrite D1. unfold known in *. change (sent (Output m o :: h) m) with (sent h m). destruct (sent h m); [reflexivity|]. cbn [printed_any]. rewrite D1. apply orb_true_r. }
    assert (St : forall e t, Stream e t = o -> r (if e then Stderr else Stdout) = VText (printed e h m)).
    { intros e t _. destruct e; [exact (agrees_exact Stderr _ _ (D2 Stderr) Logic.I) | exact (agrees_exact Stdout _ _ (D2 Stdout) Logic.I)]. }
    destruct o as [e t|c|c|c|c|]; cbn [output_item].
    + rewrite (St e t eq_refl). apply F. intros n. rewrite get_update by (intros; destruct e; reflexivity).
      pose proof (i_db _ _ I n) as Dn. destruct (String.eqb_spec m n) as [<-|N]; [|apply (same_good h); [apply S; congruence | exact Dn]].
      rewrite G. cbn [option_map]. split; [congruence|]. intros k. unfold update, expected. cbn [printed last_output an_error an_input a_result a_display]. rewrite String.eqb_refl.
      destruct e, k; cbn [col_eqb andb Bool.eqb]; try (by_col D2); left; reflexivity.
    + apply F. intros n. apply (update_good h); auto. intros x Hx k. unfold update, expected. cbn [printed last_output an_error an_input a_result a_display]. rewrite String.eqb_refl.
      destruct k; cbn [col_eqb]; try (by_col Hx); left; reflexivity.
    + apply F. intros n. apply (update_good h); auto. intros x Hx k. unfold update, expected. cbn [printed last_output an_error an_input a_result a_display]. rewrite String.eqb_refl.
      destruct k; cbn [col_eqb]; try (by_col Hx); left; reflexivity.
    + apply F. intros n. apply (update_good h); auto. intros x Hx k. unfold update, expected. cbn [printed last_output an_error an_input a_result a_display]. rewrite String.eqb_refl.
      destruct k; cbn [col_eqb]; try (by_col Hx); left; reflexivity.
    + apply F. intros n. assert (C : strict = true \/ strict = false) by (destruct strict; auto). destruct C as [Es|Es].
      * rewrite (get_update_strict _ _ _ _ (VDict c)) by (auto; reflexivity).
        pose proof (i_db _ _ I n) as Dn. destruct (String.eqb_spec m n) as [<-|N]; [|apply (same_good h); [apply S; congruence | exact Dn]].
        rewrite G. split; [congruence|]. intros k. unfold expected. cbn [printed last_output an_error an_input a_result a_display].
        destruct k; try (by_col D2). rewrite Es. left. rewrite (agrees_exact DisplayData _ _ (D2 DisplayData) Logic.I). unfold expected. rewrite Es. reflexivity.
      * apply (update_good h); auto; [congruence|]. intros x Hx k. unfold update, expected. cbn [printed last_output an_error an_input a_result a_display]. rewrite String.eqb_refl.
        destruct k; cbn [col_eqb]; try (by_col Hx). rewrite Es. left; reflexivity.
    + replace s with (with_db s (db s)) by (destruct s; reflexivity). apply F. intros n. pose proof (i_db _ _ I n) as Dn.
      apply (same_good h); [|exact Dn]. same; [match goal with H : _ OtherOut = None |- _ => rewrite H; reflexivity end | rewrite andb_false_r; reflexivity].
  - destruct (known_sent _ _ D) as (K1 & K2 & K3 & K4). destruct (no_output _ _ K4) as (O0 & O1 & O2 & O3 & O4).
    assert (N : forall v k, output_item None o = Some (k, v) -> Inv (Output m o :: h) (with_db s (add_record strict m (set k v (set MsgId (VText m) empty_record)) (db s)))).
    { intros v k E. apply F. intros n. rewrite get_add. pose proof (i_db _ _ I n) as Dn.
      destruct (String.eqb_spec m n) as [<-|N].
      2:{ destruct (get_record n (db s)); (apply (same_good h); [apply S; congruence | exact Dn]). }
      rewrite G. split.
      { unfold known. change (sent (Output m o :: h) m) with (sent h m). rewrite K1. cbn [printed_any]. rewrite String.eqb_refl. destruct o; try discriminate; reflexivity. }
      intros j. left. unfold expected. change (sent (Output m o :: h) m) with (sent h m).
      cbn [printed last_output engine_of outcome_of request_of repeated_by]. rewrite K1, K2, String.eqb_refl.
      destruct (no_request _ _ Ho K2) as (N1 & N2 & N3). rewrite N1, N2, N3.
      destruct o as [e t|c|c|c|c|]; cbn [output_item] in E; try discriminate; injection E as <- <-;
        cbn [an_error an_input a_result a_display]; rewrite ?O0, ?O1, ?O2, ?O3, ?O4;
        try destruct e; destruct strict, j; cbn [is_column set col_eqb andb Bool.eqb empty_record]; try reflexivity. }
    destruct (output_item None o) as [[k v]|] eqn:E.
    + apply N. reflexivity.
    + replace s with (with_db s (db s)) by (destruct s; reflexivity). apply F. intros n. pose proof (i_db _ _ I n) as Dn.
      destruct o; try discriminate. apply (same_good h); [|exact Dn]. same; [match goal with H : _ OtherOut = None |- _ => rewrite H; reflexivity end | rewrite andb_false_r; reflexivity].
Qed.

Lemma Inv_resubmit : forall h s old q, Inv h s -> orderly h -> may_happen h (Resubmit old q) -> Inv (Resubmit old q :: h) (step strict s (Resubmit old q)).
Proof.
  intros h s old q I Ho [K Hold]. destruct (known_sent _ _ K) as (K1 & K2 & K3 & K4).
  assert (N : old <> q_id q) by (intros ->; contradiction).
  assert (S : forall n, n <> q_id q -> n <> old -> same_about h (Resubmit old q :: h) n).
  { intros n N1 N2. apply not_eq_sym, String.eqb_neq in N1, N2. same; rewrite ?N1, ?N2; reflexivity. }
  assert (Sq : forall n, n <> q_id q -> sent (Resubmit old q :: h) n = sent h n).
  { intros n N1. apply not_eq_sym, String.eqb_neq in N1. unfold sent. cbn [request_of resubmission]. rewrite N1. reflexivity. }
  assert (Sn : sent (Resubmit old q :: h) (q_id q) = Some q).
  { unfold sent. cbn [request_of resubmission]. rewrite K2, String.eqb_refl. reflexivity. }
  cbn [step]. unfold resubmit. constructor; cbn [by_ident queues pending all_completed db]; try apply I.
  - intros m. rewrite mem_add, (i_pend _ _ I). cbn [outcome_of]. destruct (String.eqb_spec m (q_id q)) as [->|N1].
    + rewrite Sn. destruct (no_request _ _ Ho K2) as (N1 & _). rewrite N1. apply orb_true_r.
    + rewrite (Sq m N1), orb_false_r. reflexivity.
  - intros m. rewrite get_update by reflexivity. rewrite get_add. pose proof (i_db _ _ I m) as D.
    destruct (String.eqb_spec old m) as [<-|N1].
    + destruct (get_record old (db s)) as [r|].
      * cbn [option_map]. destruct D as [D1 D2]. split.
        { unfold known in *. rewrite Sq by exact N. exact D1. }
        intros k. unfold update, expected. rewrite Sq by exact N. cbn [request_of outcome_of engine_of printed last_output repeated_by]. rewrite String.eqb_refl.
        destruct k; try (by_col D2). left. reflexivity.
      * exfalso. apply Hold. apply (known_sent _ _ D).
    + destruct (String.eqb_spec (q_id q) m) as [<-|N2].
      * destruct (get_record (q_id q) (db s)) as [r|]; [destruct D; congruence|].
        split; [unfold known; rewrite Sn; reflexivity|].
        destruct (no_request _ _ Ho K2) as (E1 & E2 & E3). destruct (no_output _ _ K4) as (O0 & O1 & O2 & O3 & O4).
        intros k. left. unfold expected. rewrite Sn. cbn [request_of outcome_of engine_of printed last_output repeated_by].
        apply String.eqb_neq in N1. rewrite N1, K2, E1, E2, E3, !O0, O1, O2, O3, O4.
        destruct strict, k; reflexivity.
      * destruct (get_record m (db s)); (apply (same_good h); [apply S; congruence | exact D]).
Qed.

Lemma result_other : forall h k m r now n, n <> m \/ request_of h n = None -> same_about h (Result k m r now :: h) n.
Proof.
  intros h k m r now n H. same.
  - destruct (String.eqb_spec m n) as [->|]; [|reflexivity]. destruct H as [H|H]; [congruence|]. rewrite H. reflexivity.
  - destruct (String.eqb_spec m n) as [->|]; [|reflexivity]. destruct H as [H|H]; [congruence|]. rewrite H. reflexivity.
Qed.
Lemma Inv_same : forall h h' s, (forall n, same_about h h' n) -> (forall u, registered h' u = registered h u) -> (forall u, given_up h' u = given_up h u) ->
  Inv h s -> Inv h' s.
Proof.
  intros h h' s S R G [I1 I2 I3 I4 I5 I6 I7]. constructor; auto.
  - intros u. rewrite R. apply I1.
  - intros m. destruct (same_expected _ _ _ (S m)) as (_ & E & _). destruct (S m) as (_ & _ & E' & _). rewrite E, E'. apply I2.
  - intros m. destruct (S m) as (_ & _ & E' & _). rewrite E'. apply I3.
  - intros u m H. destruct (S m) as (E & _). rewrite E. apply I4, H.
  - intros u m H. destruct (S m) as (E & _ & E' & _). rewrite E, E'. apply I5. rewrite <- G. exact H.
  - intros m. apply (same_good h); [apply S | apply I7].
Qed.
Lemma Inv_task_result : forall h s k m r now, match k with Mux _ => False | _ => True end ->
  Inv h s -> orderly h -> may_happen h (Result k m r now) -> Inv (Result k m r now :: h) (save_task_result strict s m r now).
Proof.
  intros h s k m r now Hk I Ho Hm. cbn [may_happen] in Hm. unfold save_task_result. rewrite (i_pend _ _ I). unfold sent.
  destruct (request_of h m) as [[j q]|] eqn:R.
  2:{ rewrite Hm. apply (Inv_same h); auto. intros n. apply result_other. destruct (String.eqb_spec n m) as [->|]; auto. }
  assert (J : match j with Mux _ => False | _ => True end) by (destruct j, k; try contradiction; exact Logic.I).
  destruct (outcome_of h m) as [o|] eqn:E.
  { apply (Inv_same h); auto. intros n. destruct (String.eqb_spec n m) as [->|]; [|apply result_other; auto].
    same; rewrite String.eqb_refl, R, E; destruct k; try contradiction; reflexivity. }
  assert (E' : outcome_of (Result k m r now :: h) m = Some (Finished r now)).
  { cbn [outcome_of]. rewrite String.eqb_refl, R, E. destruct k; try contradiction; reflexivity. }
  assert (E2 : forall n, n <> m -> outcome_of (Result k m r now :: h) n = outcome_of h n).
  { intros n N. apply not_eq_sym, String.eqb_neq in N. cbn [outcome_of]. rewrite N. reflexivity. }
  constructor; cbn [by_ident queues pending all_completed db]; try apply I.
  - intros n. rewrite mem_del, (i_pend _ _ I). change (sent (Result k m r now :: h) n) with (sent h n).
    destruct (String.eqb_spec n m) as [->|N]; [rewrite E', andb_false_r; destruct (sent h m); reflexivity | rewrite (E2 n N), andb_true_r; reflexivity].
  - intros n. rewrite mem_add, (i_done _ _ I). destruct (String.eqb_spec n m) as [->|N]; [rewrite E', orb_true_r; reflexivity | rewrite (E2 n N), orb_false_r; reflexivity].
  - intros u n Hg. rewrite (i_waiting _ _ I u n Hg). change (request_of (Result k m r now :: h) n) with (request_of h n).
    destruct (String.eqb_spec n m) as [->|N]; [|rewrite (E2 n N); reflexivity]. rewrite R. split; intros [q' [C _]]; injection C as -> _; contradiction.
  - intros n. apply (update_good h); auto; [intros; apply result_other; auto|].
    intros x Hx c. unfold update, with_engine, result_dict, expected. rewrite E'. change (sent (Result k m r now :: h) m) with (sent h m). 
    cbn [engine_of request_of printed last_output repeated_by]. rewrite String.eqb_refl, R, E.
    pose proof (Hx c) as Xc. unfold expected in Xc. rewrite R in Xc.
    destruct c; try exact Xc; left; try reflexivity. destruct k; try contradiction; reflexivity.
Qed.
Lemma queue_remove_spec : forall u m l, NoDup l -> In (u, m) l ->
  exists l', queue_remove u m l = Some l' /\ NoDup l' /\ forall p, In p l' <-> In p l /\ p <> (u, m).
Proof.
  intros u m l H. induction H as [|[v n] l Hy H IH]; intros Hi; [contradiction|].
  cbn [queue_remove]. destruct (String.eqb_spec v u) as [->|N]; [destruct (String.eqb_spec n m) as [->|N]|]; cbn [andb].
  - exists l. split; [reflexivity|]. split; [exact H|]. intros p. split.
    + intros Hp. split; [right; exact Hp|]. intros ->. contradiction.
    + intros [[Hp|Hp] Hn]; [congruence | exact Hp].
  - destruct IH as (l' & E & Hn & Hl); [destruct Hi as [Hi|Hi]; [congruence | exact Hi]|]. rewrite E. exists ((u, n) :: l'). split; [reflexivity|]. split.
    + constructor; [rewrite Hl; tauto | exact Hn].
    + intros p. cbn [In]. rewrite Hl. split; [intros [<-|Hp]; [split; [auto|congruence] | tauto] | intros [[<-|Hp] Hq]; auto].
  - destruct IH as (l' & E & Hn & Hl); [destruct Hi as [Hi|Hi]; [congruence | exact Hi]|]. rewrite E. exists ((v, n) :: l'). split; [reflexivity|]. split.
    + constructor; [rewrite Hl; tauto | exact Hn].
    + intros p. cbn [In]. rewrite Hl. split; [intros [<-|Hp]; [split; [auto|congruence] | tauto] | intros [[<-|Hp] Hq]; auto].
Qed.
Lemma Inv_mux_result : forall h s u m r now,
  Inv h s -> orderly h -> may_happen h (Result (Mux u) m r now) -> Inv (Result (Mux u) m r now :: h) (save_queue_result strict s u m r now).
Proof.
  intros h s u m r now I Ho Hm. cbn [may_happen] in Hm. unfold save_queue_result. rewrite (i_reg _ _ I).
  destruct (registered h u) eqn:Hu.
  2:{ apply (Inv_same h); auto. intros n. destruct (String.eqb_spec n m) as [->|]; [|apply result_other; auto].
      same; rewrite String.eqb_refl, ?Hu; destruct (request_of h m), (outcome_of h m); reflexivity. }
  rewrite (i_pend _ _ I). unfold sent.
  destruct (request_of h m) as [[j q]|] eqn:R.
  2:{ rewrite Hm, (i_done _ _ I). destruct (no_request _ _ Ho R) as (E & _). rewrite E. apply (Inv_same h); auto. intros n. apply result_other.
      destruct (String.eqb_spec n m) as [->|]; auto. }
  destruct j as [|v|]; try contradiction. cbn [same_way] in Hm. subst v.
  assert (Hg : given_up h u = false).
  { destruct (given_up h u) eqn:G; [|reflexivity]. destruct (given_up_ever _ _ Ho G). congruence. }
  assert (E' : outcome_of (Result (Mux u) m r now :: h) m = Some (Finished r now)).
  { cbn [outcome_of]. rewrite String.eqb_refl, R, Hu. reflexivity. }
  assert (E2 : forall n, n <> m -> outcome_of (Result (Mux u) m r now :: h) n = outcome_of h n).
  { intros n N. apply not_eq_sym, String.eqb_neq in N. cbn [outcome_of]. rewrite N. reflexivity. }
  assert (Db : forall n, good (Result (Mux u) m r now :: h) n (get_record n (update_record strict m (result_dict r now) (db s)))).
  { intros n. apply (update_good h); auto; [intros; apply result_other; auto|].
    intros x Hx c. unfold update, result_dict, expected. rewrite E'. change (sent (Result (Mux u) m r now :: h) m) with (sent h m). 
    cbn [engine_of request_of printed last_output repeated_by]. rewrite String.eqb_refl, R.
    pose proof (Hx c) as Xc. unfold expected in Xc. rewrite R in Xc.
    destruct c; try exact Xc; try (left; reflexivity). destruct (outcome_of h m); exact Xc. }
  destruct (outcome_of h m) as [o|] eqn:E.
  - rewrite (i_done _ _ I), E. constructor; cbn [with_db by_ident queues pending all_completed db]; try apply I; auto.
    + intros n. rewrite (i_pend _ _ I). change (sent (Result (Mux u) m r now :: h) n) with (sent h n).
      destruct (String.eqb_spec n m) as [->|N]; [rewrite E, E'; reflexivity | rewrite (E2 n N); reflexivity].
    + intros n. rewrite (i_done _ _ I). destruct (String.eqb_spec n m) as [->|N]; [rewrite E, E'; reflexivity | rewrite (E2 n N); reflexivity].
    + intros v n Hv. rewrite (i_waiting _ _ I v n Hv). change (request_of (Result (Mux u) m r now :: h) n) with (request_of h n).
      destruct (String.eqb_spec n m) as [->|N]; [|rewrite (E2 n N); reflexivity]. rewrite E, E'. split; intros [q' [_ C]]; discriminate.
  - cbn [queues]. assert (Hq : In (u, m) (queues s)) by (apply (i_waiting _ _ I u m Hg); eauto).
    destruct (queue_remove_spec u m (queues s) (i_nodup _ _ I) Hq) as (l & El & Hn & Hl). rewrite El.
    constructor; cbn [by_ident queues pending all_completed db]; try apply I; auto.
    + intros n. rewrite mem_del, (i_pend _ _ I). change (sent (Result (Mux u) m r now :: h) n) with (sent h n).
      destruct (String.eqb_spec n m) as [->|N]; [rewrite E', andb_false_r; destruct (sent h m); reflexivity | rewrite (E2 n N), andb_true_r; reflexivity].
    + intros n. rewrite mem_add, (i_done _ _ I). destruct (String.eqb_spec n m) as [->|N]; [rewrite E', orb_true_r; reflexivity | rewrite (E2 n N), orb_false_r; reflexivity].
    + intros v n Hi. apply Hl in Hi. apply (i_queue _ _ I). tauto.
    + intros v n Hv. rewrite Hl, (i_waiting _ _ I v n Hv). change (request_of (Result (Mux u) m r now :: h) n) with (request_of h n).
      destruct (String.eqb_spec n m) as [->|N].
      * rewrite E', R. split; [intros [[q' [C _]] C']; exfalso; injection C as -> _; congruence | intros [q' [_ C]]; discriminate].
      * rewrite (E2 n N). split; [tauto|]. intros C. split; [exact C|]. congruence.
Qed.

(** the loop over the messages of an engine that is given up *)
Definition lost_dict (u : string) (now : nat) (content : dict) : partial :=
  fun k => match k with
           | ResultContent => Some (VDict content)
           | ResultHeader => Some (VDict [("engine", u)])
           | ResultBuffers => Some (VBufs [])
           | Completed => Some (VTime now)
           | EngineUuid => Some (VText u)
           | _ => None
           end.
Lemma strand_spec : forall u now c l s, NoDup l -> (forall m, In m l -> mem m (pending s) = true) ->
  let s' := strand strict u now c l s in
  by_ident s' = by_ident s /\ queues s' = queues s /\ (forall n, mem n (pending s') = mem n (pending s) && negb (mem n l)) /\
  (forall n, mem n (all_completed s') = mem n (all_completed s) || mem n l) /\
  (forall n, get_record n (db s') = if mem n l then option_map (fun r => update r (lost_dict u now c)) (get_record n (db s)) else get_record n (db s)).
Proof.
  intros u now c l. induction l as [|m l IH]; intros s Hn Hp s'; subst s'.
  - cbn [strand mem existsb]. repeat split; intros; rewrite ?andb_true_r, ?orb_false_r; reflexivity.
  - inversion Hn as [|? ? Hm Hl]; subst. cbn [strand]. rewrite (Hp m) by (left; reflexivity).
    match goal with |- context [strand strict u now c l ?x] => destruct (IH x Hl) as (A1 & A2 & A3 & A4 & A5) end.
    + intros n Hi. cbn [pending]. rewrite mem_del, (Hp n) by (right; exact Hi). cbn [andb]. destruct (String.eqb_spec n m) as [->|]; [contradiction | reflexivity].
    + cbn [by_ident queues pending all_completed db] in *. split; [exact A1|]. split; [exact A2|].
      assert (M : forall n, mem n (m :: l) = String.eqb n m || mem n l) by reflexivity.
      assert (Ml : mem m l = false) by (destruct (mem m l) eqn:X; [apply mem_In in X; contradiction | reflexivity]).
      split; [|split].
      * intros n. rewrite A3, mem_del, M, negb_orb, andb_assoc. reflexivity.
      * intros n. rewrite A4, mem_add, M, orb_assoc. reflexivity.
      * intros n. rewrite A5, M. fold (lost_dict u now c). rewrite get_update by reflexivity. rewrite (String.eqb_sym m n).
        destruct (String.eqb_spec n m) as [->|]; [|reflexivity]. rewrite Ml. reflexivity.
Qed.
Lemma Inv_died : forall h s u now c, Inv h s -> orderly h -> may_happen h (Died u now c) -> Inv (Died u now c :: h) (step strict s (Died u now c)).
Proof.
  intros h s u now c I Ho (He & Hr & Hg). cbn [step]. unfold handle_stranded_msgs.
  set (l := map snd (filter (fun p => String.eqb (fst p) u) (queues s))).
  assert (L : forall m, In m l <-> In (u, m) (queues s)).
  { intros m. unfold l. rewrite in_map_iff. split.
    - intros [[v n] [E H]]. apply filter_In in H. cbn [fst snd] in *. destruct H as [H Ev]. apply String.eqb_eq in Ev. subst. exact H.
    - intros H. exists (u, m). split; [reflexivity|]. apply filter_In. split; [exact H | apply String.eqb_refl]. }
  assert (Nl : NoDup l).
  { unfold l. pose proof (i_nodup _ _ I) as N. clear -N. induction N as [|[v n] q Hy N IH]; [constructor|]. cbn [filter fst].
    destruct (String.eqb_spec v u) as [->|]; [|exact IH]. cbn [map snd]. constructor; [|exact IH].
    rewrite in_map_iff. intros [[v' n'] [E H]]. apply filter_In in H. cbn [fst snd] in *. destruct H as [H Ev]. apply String.eqb_eq in Ev. subst. contradiction. }
  assert (W : forall m, mem m l = match request_of h m, outcome_of h m with Some (Mux v, _), None => String.eqb u v | _, _ => false end).
  { intros m. apply eq_true_iff_eq. rewrite mem_In, L, (i_waiting _ _ I u m Hg). split.
    - intros [q [E1 E2]]. rewrite E1, E2. apply String.eqb_refl.
    - intros E. destruct (request_of h m) as [[[|v|] q]|]; try discriminate. destruct (outcome_of h m); [discriminate|]. apply String.eqb_eq in E. subst. eauto. }
  destruct (strand_spec u now c l s Nl) as (A1 & A2 & A3 & A4 & A5).
  { intros m Hm. apply L, (i_waiting _ _ I u m Hg) in Hm. destruct Hm as [q [E1 E2]]. rewrite (i_pend _ _ I). unfold sent. rewrite E1, E2. reflexivity. }
  assert (O : forall n, outcome_of (Died u now c :: h) n = if mem n l then Some (Lost u now c) else outcome_of h n).
  { intros n. rewrite W. cbn [outcome_of]. destruct (request_of h n) as [[[|v|] q]|]; try reflexivity. destruct (outcome_of h n); reflexivity. }
  assert (On : forall n, mem n l = true -> outcome_of h n = None /\ exists q, request_of h n = Some (Mux u, q)).
  { intros n Hn. rewrite mem_In, L in Hn. apply (i_waiting _ _ I u n Hg) in Hn. destruct Hn as [q [E1 E2]]. eauto. }
  constructor; rewrite ?A1, ?A2; try apply I.
  - intros n. rewrite A3, (i_pend _ _ I), O. change (sent (Died u now c :: h) n) with (sent h n).
    destruct (mem n l); [rewrite andb_false_r; destruct (sent h n); reflexivity | apply andb_true_r].
  - intros n. rewrite A4, (i_done _ _ I), O. destruct (mem n l); [apply orb_true_r | apply orb_false_r].
  - intros v n Hv. cbn [given_up] in Hv. apply orb_false_iff in Hv. destruct Hv as [Hv1 Hv]. rewrite (i_waiting _ _ I v n Hv), O.
    change (request_of (Died u now c :: h) n) with (request_of h n). destruct (mem n l) eqn:M; [|reflexivity].
    destruct (On n M) as [E [q Eq]]. rewrite Eq. apply String.eqb_neq in Hv1. split; intros [q' [C _]]; injection C as <- _; congruence.
  - intros n. rewrite A5. pose proof (i_db _ _ I n) as D. destruct (mem n l) eqn:M.
    + destruct (On n M) as [E [q Eq]]. destruct (get_record n (db s)) as [x|]; cbn [option_map].
      * destruct D as [D1 D2]. split; [exact D1|]. intros k. unfold update, lost_dict, expected. rewrite O, M.
        change (sent (Died u now c :: h) n) with (sent h n). cbn [request_of engine_of printed last_output repeated_by].
        pose proof (D2 k) as Xk. unfold expected in Xk. rewrite E in Xk.
        destruct k; try exact Xk; left; try reflexivity. symmetry. apply (mux_engine h n u q Ho Eq).
      * exfalso. destruct (known_sent _ _ D) as (_ & C & _). congruence.
    + apply (same_good h); [|exact D]. pose proof (O n) as On'. rewrite M in On'. unfold same_about. rewrite On'. repeat split; intros; reflexivity.
Qed.

Theorem Inv_run : forall h, orderly h -> Inv h (run strict h).
Proof.
  induction h as [|e h IH]; intros H; [apply Inv_init|]. destruct H as [Hm Ho]. specialize (IH Ho). cbn [run].
  destruct e as [u|u|u now c|k q|m u|k m r now|m o|old q].
  - apply Inv_register; assumption.
  - apply Inv_unregister; assumption.
  - apply Inv_died; assumption.
  - destruct k; [apply Inv_task_request | apply Inv_mux_request | apply Inv_broadcast_request]; assumption.
  - apply Inv_destination; assumption.
  - destruct k; cbn [step]; [apply Inv_task_result | apply Inv_mux_result | apply Inv_task_result]; try assumption; exact Logic.I.
  - apply Inv_output; assumption.
  - apply Inv_resubmit; assumption.
Qed.
End Db.
