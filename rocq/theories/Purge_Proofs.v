From Coq Require Import List ZArith String Bool Lia.
From Verif Require Import Prelude PyValue DictDB_Spec Sqlite_Spec Purge_Spec Purge_Model.
From Verif Require DictDB_Model DictDB_Proofs DictDB_Store DictDB_History Sqlite_Model Sqlite_Proofs SqlStore_Spec SqlStore_Model SqlStore_Proofs Targets_Spec Targets_Model.
Import ListNotations.
Local Open Scope string_scope.

Lemma purged_ext {R} (P Q : string -> R -> Prop) a b : (forall m r, a m = Some r -> P m r <-> Q m r) -> purged P a b -> purged Q a b.
Proof.
  intros H S m. destruct (S m) as [S1 S2]. split; [exact S1|]. intros r Hr. destruct (S2 r Hr) as [X Y]. specialize (H m r Hr). split; intros; [apply X|apply Y]; tauto.
Qed.
Lemma purged_then {R} (P Q : string -> R -> Prop) a b c : purged P a b -> purged Q b c -> (forall m r, P m r \/ ~ P m r) -> purged (fun m r => P m r \/ Q m r) a c.
Proof.
  intros S T D m. destruct (S m) as [S1 S2]. destruct (T m) as [T1 T2]. split; [auto|]. intros r Hr. destruct (S2 r Hr) as [S3 S4]. destruct (D m r) as [Hp|Hp].
  - split; [auto|]. intros X. destruct X. auto.
  - specialize (S4 Hp). destruct (T2 r S4) as [T3 T4]. split; intros X; [destruct X; [contradiction|auto]|apply T4; tauto].
Qed.
Lemma purged_refl {R} (P : string -> R -> Prop) a : (forall m r, ~ P m r) -> purged P a a.
Proof. intros H m. split; [auto|]. intros r Hr. split; [intros X; destruct (H m r X)|auto]. Qed.
(** ** The in-memory database *)
Section Memory.
Import DictDB_Model.
Context (glob : string -> string -> bool).
Definition look_dict (d : db) (m : string) : option record := match get_record d m with Ok r => Some r | Raise _ => None end.
Lemma look_some d m r : look_dict d m = Some r <-> ~ In m (culled d) /\ dget m (recs d) = Some r.
Proof.
  rewrite <- (DictDB_History.get_ok glob). unfold look_dict. destruct (get_record d m); split; intros H; congruence.
Qed.
Lemma look_none d m : look_dict d m = None <-> In m (culled d) \/ dget m (recs d) = None.
Proof.
  unfold look_dict, get_record. destruct (existsb (String.eqb m) (culled d)) eqn:E.
  - apply DictDB_Proofs.existsb_eqb in E. tauto.
  - destruct (dget m (recs d)) eqn:F; [|tauto]. split; [discriminate|]. intros [H|H]; [|congruence]. apply DictDB_Proofs.existsb_eqb in H. congruence.
Qed.
(** A query of tests that cannot raise *)
Lemma drop_total q d : DictDB_Store.Inv d -> supported q -> (forall k l o b, In (k, COps l) q -> In (o, b) l -> total_op o b) ->
  exists d', drop_matching_records glob q d = Done d' /\ DictDB_Store.Inv d' /\ (forall m r, dget m (recs d') = Some r -> dget m (recs d) = Some r) /\
    purged (fun _ r => matches glob q r) (look_dict d) (look_dict d').
Proof.
  intros I Hs Ht. unfold drop_matching_records.
  destruct (DictDB_Proofs.find_total glob d q Ht) as [out E]. unfold find_records in E.
  unfold match_ in *. destruct (make_tests glob (last_value q) q) as [tests|] eqn:T; [|discriminate]. cbn [bind] in *.
  destruct (match_recs tests (recs d)) as [ms|] eqn:M; [|discriminate]. injection E as <-.
  destruct (DictDB_Store.match_recs_sub glob q tests (recs d) ms Hs T M (DictDB_Store.i_nodup _ I)) as (sub & -> & N & Hsub).
  destruct (DictDB_Store.drop_all_spec sub d I N) as (d' & E & I' & C & G & _).
  { intros m r H. apply Hsub in H as [H _]. apply DictDB_Proofs.in_dget; [apply I|exact H]. }
  exists d'. split; [exact E|]. split; [exact I'|]. split; [intros m r; rewrite G; destruct (existsb _ _); congruence|]. intros m. split.
  - intros H. apply look_none in H. apply look_none. rewrite C, G. destruct H as [H|H]; [auto|]. right. rewrite H. destruct (existsb _ _); reflexivity.
  - intros r H. apply look_some in H as [Hc Hm]. split.
    + intros Hq. apply look_none. right. rewrite G. assert (X : existsb (String.eqb m) (dkeys sub) = true); [|rewrite X; reflexivity].
      apply DictDB_Proofs.existsb_eqb. apply in_map_iff. exists (m, r). split; [reflexivity|]. apply Hsub. split; [apply DictDB_Proofs.dget_in, Hm|exact Hq].
    + intros Hq. apply look_some. rewrite C, G. split; [exact Hc|]. destruct (existsb (String.eqb m) (dkeys sub)) eqn:X; [|exact Hm].
      apply DictDB_Proofs.existsb_eqb in X. apply in_map_iff in X as ([m' r'] & Em & Hin). cbn in Em. subst m'. apply Hsub in Hin as [Hin Hq'].
      apply DictDB_Proofs.in_dget in Hin; [|apply I]. congruence.
Qed.
Lemma py_eq_none a : py_eq a VNone = true <-> a = VNone.
Proof. destruct a; cbn; split; congruence. Qed.
Lemma drop_completed d : DictDB_Store.Inv d -> exists d', drop_dict glob q_completed d = (d', true) /\ DictDB_Store.Inv d' /\
  purged (fun _ r => field r "completed" <> VNone) (look_dict d) (look_dict d').
Proof.
  intros I. destruct (drop_total (abs_query q_completed) d I) as (d' & E & I' & _ & S).
  - split; cbn.
    + intros k l o b [H|[]] Hl. injection H as <- <-. destruct Hl as [H|[]]. injection H as <- <-. split; discriminate.
    + intros k v [H|[]]. discriminate.
  - cbn. intros k l o b [H|[]] Hl. injection H as <- <-. destruct Hl as [H|[]]. injection H as <- <-. exact Logic.I.
  - exists d'. split; [unfold drop_dict; rewrite E; reflexivity|]. split; [exact I'|]. eapply purged_ext; [|exact S]. intros m r _. cbn beta. split.
    + intros H X. specialize (H "completed" _ (or_introl eq_refl)). cbn in H. specialize (H ONe VNone (or_introl eq_refl)). cbn in H. apply H. unfold equal. rewrite X. reflexivity.
    + intros H k c [E'|[]]. injection E' as <- <-. cbn. intros o b [X|[]]. injection X as <- <-. cbn. unfold equal. rewrite py_eq_none. exact H.
Qed.
Lemma drop_ids d l : DictDB_Store.Inv d -> exists d', drop_dict glob (q_ids l) d = (d', true) /\ DictDB_Store.Inv d' /\
  (forall m r, dget m (recs d') = Some r -> dget m (recs d) = Some r) /\
  purged (fun m _ => In m l) (look_dict d) (look_dict d').
Proof.
  intros I. destruct (drop_total (abs_query (q_ids l)) d I) as (d' & E & I' & Q & S).
  - split; cbn.
    + intros k x o b [H|[]] Hl. injection H as <- <-. destruct Hl as [H|[]]. injection H as <- <-. split; discriminate.
    + intros k v [H|[]]. discriminate.
  - cbn. intros k x o b [H|[]] Hl. injection H as <- <-. destruct Hl as [H|[]]. injection H as <- <-. cbn. eauto.
  - exists d'. split; [unfold drop_dict; rewrite E; reflexivity|]. split; [exact I'|]. split; [exact Q|]. eapply purged_ext; [|exact S]. intros m r Hr. cbn beta.
    apply look_some in Hr as [_ Hr]. apply DictDB_Proofs.dget_in in Hr. destruct (DictDB_Store.i_recs _ I m r Hr) as (Hid & _).
    assert (F : field r "msg_id" = VStr m) by (unfold field; rewrite Hid; reflexivity). split.
    + intros H. specialize (H "msg_id" _ (or_introl eq_refl)). cbn in H. specialize (H OIn _ (or_introl eq_refl)). cbn in H. destruct H as (x & Hx & Q').
      rewrite F in Q'. rewrite map_map in Hx. apply in_map_iff in Hx as (y & <- & Hy). unfold equal in Q'. cbn in Q'. apply String.eqb_eq in Q'. subst y. exact Hy.
    + intros H k c [E'|[]]. injection E' as <- <-. cbn. intros o b [X|[]]. injection X as <- <-. cbn. rewrite map_map. exists (VStr m). split.
      * apply in_map_iff. exists m. split; [reflexivity|exact H].
      * rewrite F. unfold equal. cbn. apply String.eqb_refl.
Qed.
(** The closure of dictdb.py 161: engine_uuid is compared with the dict for completed *)
Definition plain (v : value) : Prop := match v with VDict _ => False | _ => True end.
Lemma drop_engine d u : (forall m r, dget m (recs d) = Some r -> plain (field r "engine_uuid")) -> NoDup (dkeys (recs d)) ->
  drop_dict glob (q_engine u) d = (d, true).
Proof.
  intros H N. assert (H' : forall m r, In (m, r) (recs d) -> plain (field r "engine_uuid")).
  { intros m r Hin. apply (H m). apply DictDB_Proofs.in_dget; assumption. }
  assert (M : forall tests l, (forall m r, In (m, r) l -> plain (field r "engine_uuid")) ->
    match_recs (("engine_uuid", fun o => Ok (py_eq (add_tz o) (add_tz (VDict [("$ne", VNone)])))) :: tests) l = Ok []).
  { intros tests. induction l as [|[m r] l IH]; intros Hl; [reflexivity|]. cbn [match_recs match_one]. rewrite IH by (intros m' r' Hin; apply (Hl m'); right; exact Hin).
    pose proof (Hl m r (or_introl eq_refl)) as Hp. unfold field in Hp. destruct (dget "engine_uuid" r) as [v|]; [|reflexivity]. destruct v; try reflexivity. destruct Hp. }
  unfold drop_dict, drop_matching_records, match_.
  assert (T : exists t, make_tests glob (last_value (abs_query (q_engine u))) (abs_query (q_engine u))
     = Ok (("engine_uuid", fun o => Ok (py_eq (add_tz o) (add_tz (VDict [("$ne", VNone)])))) :: t)) by (eexists; reflexivity).
  destruct T as [t ->]. cbn [bind]. rewrite M by exact H'. reflexivity.
Qed.
End Memory.

(** ** SQLite *)
Section Sql.
Import SqlStore_Spec SqlStore_Model.
Context (glob : string -> string -> bool) (iso : time -> string) (off : Z) (Hiso : forall a b, (local a < local b)%Z -> String.compare (iso a) (iso b) = Lt).
Definition look_sql (t : table) (m : string) : option prec := match get_record glob iso m t with Ok r => Some r | Raise _ => None end.
Notation Inv := (SqlStore_Proofs.Inv glob iso off).
Notation mid := SqlStore_Proofs.mid.
Definition as_prec (l : line) : prec := list_to_dict (fetch iso schema l) keys_.
Lemma look_sql_find t m : look_sql t m = option_map as_prec (find (is_msg glob iso m) t).
Proof. unfold look_sql, get_record. destruct (find _ t); reflexivity. Qed.
Lemma find_filter {A} (f p : A -> bool) l : (forall x y, In x l -> In y l -> f x = true -> f y = true -> x = y) ->
  find f (filter p l) = match find f l with Some x => if p x then Some x else None | None => None end.
Proof.
  induction l as [|x l IH]; intros H; [reflexivity|]. cbn [filter find].
  assert (IH' : find f (filter p l) = match find f l with Some y => if p y then Some y else None | None => None end) by (apply IH; intros; apply H; cbn; auto).
  destruct (p x) eqn:P; cbn [find]; destruct (f x) eqn:F; rewrite ?P; auto.
  rewrite IH'. destruct (find f l) as [y|] eqn:Fy; [|reflexivity]. apply find_some in Fy as [Hy Fy]. assert (x = y) as <- by (apply H; cbn; auto). rewrite P. reflexivity.
Qed.
Lemma drop_good q t h : Inv t h -> good_call off (SDropMatching q) -> exists t', drop_sql glob iso q t = (t', true) /\ Inv t' (SDropMatching q :: h) /\
  forall (P : string -> prec -> Prop), (forall m l, In l t -> mid l = SText m -> P m (as_prec l) <-> sql_matches glob q (col l)) -> purged P (look_sql t) (look_sql t').
Proof.
  intros I G. destruct (SqlStore_Proofs.delete_selects glob iso off Hiso q t h I G) as (p & Hp & E). exists (filter p t).
  split; [unfold drop_sql; rewrite E; reflexivity|]. split; [eapply SqlStore_Proofs.Inv_drop_matching; eassumption|]. intros P HP m.
  assert (F : find (is_msg glob iso m) (filter p t) = match find (is_msg glob iso m) t with Some x => if p x then Some x else None | None => None end).
  { apply find_filter. intros x y Hx Hy Fx Fy. apply (SqlStore_Proofs.is_msg_iff glob iso) in Fx; [|apply (SqlStore_Proofs.i_ok _ _ _ _ _ I x Hx)].
    apply (SqlStore_Proofs.is_msg_iff glob iso) in Fy; [|apply (SqlStore_Proofs.i_ok _ _ _ _ _ I y Hy)].
    eapply SqlStore_Proofs.same_line; [apply I|exact Hx|exact Hy|congruence]. }
  rewrite !look_sql_find, F. destruct (find (is_msg glob iso m) t) as [l|] eqn:El; cbn [option_map]; [|split; [reflexivity|discriminate]].
  destruct (SqlStore_Proofs.find_some glob iso off _ _ _ _ I El) as [Hl Hm]. split; [discriminate|]. intros r Hr.
  assert (r = as_prec l) by congruence. subst r. clear Hr. rewrite (HP m l Hl Hm). specialize (Hp l Hl). destruct (p l).
  - split; [intros X; apply Hp in X; discriminate|reflexivity].
  - split; [reflexivity|]. intros X. destruct X. apply Hp. reflexivity.
Qed.
Lemma abs_row_field (r : row) k : In k columns -> field (abs_row r) k = abs (r k).
Proof.
  intros H. unfold field, abs_row. rewrite (SqlStore_Proofs.dget_map_in (fun k => abs (r k))).
  assert (X : existsb (String.eqb k) columns = true) by (apply existsb_exists; exists k; split; [exact H|apply String.eqb_refl]). rewrite X. reflexivity.
Qed.
Lemma abs_none v : abs v = VNone <-> v = SNone. Proof. destruct v; cbn; split; congruence. Qed.
Lemma c_completed : In "completed" columns. Proof. do 9 right; left; reflexivity. Qed.
Lemma c_engine : In "engine_uuid" columns. Proof. do 7 right; left; reflexivity. Qed.
Lemma c_msg : In "msg_id" columns. Proof. left; reflexivity. Qed.
Lemma m_completed (r : row) : sql_matches glob q_completed r <-> r "completed" <> SNone.
Proof.
  unfold sql_matches. split.
  - intros [H _] X. specialize (H "completed" (COps [(ONe, VNone)]) (or_introl eq_refl) ONe VNone (or_introl eq_refl)). cbn [says aware] in H. apply H. rewrite (abs_row_field r _ c_completed), X. reflexivity.
  - intros H. split.
    + intros k c [E|[]]. injection E as <- <-. intros o b [X|[]]. injection X as <- <-. cbn [says aware abs_arg abs]. rewrite (abs_row_field r _ c_completed). unfold equal. rewrite py_eq_none, abs_none. exact H.
    + intros k c [E|[]] Hn. injection E as <- <-. contradiction.
Qed.
Lemma m_ids (r : row) l : sql_matches glob (q_ids l) r <-> exists x, In x l /\ r "msg_id" = SText x.
Proof.
  unfold sql_matches. split.
  - intros [H _]. specialize (H "msg_id" (COps [(OIn, VList (map abs (map SText l)))]) (or_introl eq_refl) OIn _ (or_introl eq_refl)). cbn [says aware inside] in H. destruct H as (x & Hx & Q).
    rewrite map_map in Hx. apply in_map_iff in Hx as (y & <- & Hy). rewrite (abs_row_field r _ c_msg) in Q. unfold equal in Q. exists y. split; [exact Hy|].
    destruct (r "msg_id"); cbn in Q; try discriminate. apply String.eqb_eq in Q. congruence.
  - intros (x & Hx & E). split.
    + intros k c [E'|[]]. injection E' as <- <-. intros o b [X|[]]. injection X as <- <-. cbn [says aware abs_arg abs inside]. rewrite map_map. exists (VStr x). split.
      * apply in_map_iff. exists x. auto.
      * rewrite (abs_row_field r _ c_msg), E. unfold equal. cbn. apply String.eqb_refl.
    + intros k c [E'|[]] Hn. injection E' as <- <-. congruence.
Qed.
Lemma m_engine (r : row) u : sql_matches glob (q_engine u) r <-> r "completed" <> SNone /\ r "engine_uuid" = SText u.
Proof.
  unfold sql_matches. split.
  - intros [H _]. split.
    + intros X. specialize (H "completed" (COps [(ONe, VNone)]) (or_intror (or_introl eq_refl)) ONe VNone (or_introl eq_refl)). cbn [says aware] in H. apply H. rewrite (abs_row_field r _ c_completed), X. reflexivity.
    + specialize (H "engine_uuid" (CVal (VStr u)) (or_introl eq_refl)). cbv beta iota in H. rewrite (abs_row_field r _ c_engine) in H. unfold equal in H. destruct (r "engine_uuid"); cbn in H; try discriminate. apply String.eqb_eq in H. congruence.
  - intros [H E]. split.
    + intros k c [E'|[E'|[]]]; injection E' as <- <-.
      * rewrite (abs_row_field r _ c_engine), E. unfold equal. cbn. apply String.eqb_refl.
      * intros o b [X|[]]. injection X as <- <-. cbn [says aware abs_arg abs]. rewrite (abs_row_field r _ c_completed). unfold equal. rewrite py_eq_none, abs_none. exact H.
    + intros k c [E'|[E'|[]]] Hn; injection E' as <- <-; [congruence|contradiction].
Qed.
Lemma get_completed t h l : Inv t h -> In l t -> dget "completed" (as_prec l) <> Some PNone <-> col l "completed" <> SNone.
Proof.
  intros I Hl. destruct (SqlStore_Proofs.i_ok _ _ _ _ _ I l Hl) as (L & F & _). unfold as_prec. rewrite (SqlStore_Proofs.record_of_line iso l "completed" L).
  change (existsb (String.eqb "completed") columns) with true. cbv iota. change (SqlStore_Proofs.decl_in schema "completed") with DTimestamp.
  specialize (F "completed"). destruct (col l "completed") as [|s|tt]; cbn in *; split; intros; congruence.
Qed.
Lemma get_engine t h l u : Inv t h -> In l t -> dget "engine_uuid" (as_prec l) = Some (PText u) <-> col l "engine_uuid" = SText u.
Proof.
  intros I Hl. destruct (SqlStore_Proofs.i_ok _ _ _ _ _ I l Hl) as (L & F & _). unfold as_prec. rewrite (SqlStore_Proofs.record_of_line iso l "engine_uuid" L).
  change (existsb (String.eqb "engine_uuid") columns) with true. cbv iota. change (SqlStore_Proofs.decl_in schema "engine_uuid") with DText.
  specialize (F "engine_uuid"). destruct (col l "engine_uuid") as [|s|tt]; cbn in *; split; intros X; try congruence. destruct F; discriminate.
Qed.
Definition finished_on (u : string) (r : prec) : Prop := dget "completed" r <> Some PNone /\ dget "engine_uuid" r = Some (PText u).

Lemma sql_completed t h : Inv t h -> exists t' h', drop_sql glob iso q_completed t = (t', true) /\ Inv t' h' /\
  purged (fun _ r => dget "completed" r <> Some PNone) (look_sql t) (look_sql t').
Proof.
  intros I. destruct (drop_good q_completed t h I) as (t' & E & I' & S).
  { split; [split; [|split]|].
    - exists "completed", (SOps [(ONe, Sqlite_Spec.One SNone)]). split; [left; reflexivity|discriminate].
    - intros k c [X|[]]. injection X as <- <-. exact c_completed.
    - intros k l o a [X|[]] Y. injection X as <- <-. destruct Y as [Y|[]]. injection Y as <- <-. exact Logic.I.
    - intros k c [X|[]]. injection X as <- <-. intros o a [Y|[]]. injection Y as <- <-. exact Logic.I. }
  exists t', (SDropMatching q_completed :: h). split; [exact E|]. split; [exact I'|]. apply S. intros m l Hl _. rewrite m_completed. exact (get_completed t h l I Hl).
Qed.
Lemma sql_ids t h l : l <> [] -> Inv t h -> exists t' h', drop_sql glob iso (q_ids l) t = (t', true) /\ Inv t' h' /\ purged (fun m _ => In m l) (look_sql t) (look_sql t').
Proof.
  intros Hn I. destruct (drop_good (q_ids l) t h I) as (t' & E & I' & S).
  { split; [split; [|split]|].
    - exists "msg_id", (SOps [(OIn, Many (map SText l))]). split; [left; reflexivity|discriminate].
    - intros k c [X|[]]. injection X as <- <-. exact c_msg.
    - intros k x o a [X|[]] Y. injection X as <- <-. destruct Y as [Y|[]]. injection Y as <- <-. cbn. split; [destruct l; [congruence|discriminate]|].
      rewrite in_map_iff. intros (y & Z & _). discriminate.
    - intros k c [X|[]]. injection X as <- <-. intros o a [Y|[]]. injection Y as <- <-. cbn. intros v Hv. apply in_map_iff in Hv as (y & <- & _). reflexivity. }
  exists t', (SDropMatching (q_ids l) :: h). split; [exact E|]. split; [exact I'|]. apply S. intros m x Hx Hm. rewrite m_ids. split.
  - intros Hin. exists m. auto.
  - intros (y & Hy & Ey). change (col x "msg_id" = SText m) in Hm. congruence.
Qed.
Lemma sql_engine t h u : Inv t h -> exists t' h', drop_sql glob iso (q_engine u) t = (t', true) /\ Inv t' h' /\ purged (fun _ r => finished_on u r) (look_sql t) (look_sql t').
Proof.
  intros I. destruct (drop_good (q_engine u) t h I) as (t' & E & I' & S).
  { split; [split; [|split]|].
    - exists "completed", (SOps [(ONe, Sqlite_Spec.One SNone)]). split; [right; left; reflexivity|discriminate].
    - intros k c [X|[X|[]]]; injection X as <- <-; [exact c_engine|exact c_completed].
    - intros k l o a [X|[X|[]]] Y; [discriminate|]. injection X as <- <-. destruct Y as [Y|[]]. injection Y as <- <-. exact Logic.I.
    - intros k c [X|[X|[]]]; injection X as <- <-; [reflexivity|]. intros o a [Y|[]]. injection Y as <- <-. exact Logic.I. }
  exists t', (SDropMatching (q_engine u) :: h). split; [exact E|]. split; [exact I'|]. apply S. intros m l Hl _. unfold finished_on. rewrite m_engine, (get_completed t h l I Hl), (get_engine t h l u I Hl). reflexivity.
Qed.
Lemma pv_eq_dec (a b : pv) : a = b \/ a <> b.
Proof.
  destruct a as [|s|[t1 o1]|s|s|], b as [|s'|[t2 o2]|s'|s'|]; try (right; discriminate); try (left; reflexivity); try (destruct (string_dec s s'); [left|right]; congruence).
  destruct (Z.eq_dec t1 t2), (Z.eq_dec o1 o2); [left|right..]; congruence.
Qed.
Lemma opt_pv_dec (a b : option pv) : a = b \/ a <> b.
Proof. destruct a as [x|], b as [y|]; try (right; discriminate); try (left; reflexivity). destruct (pv_eq_dec x y); [left|right]; congruence. Qed.
Lemma finished_dec u r : finished_on u r \/ ~ finished_on u r.
Proof. unfold finished_on. destruct (opt_pv_dec (dget "completed" r) (Some PNone)), (opt_pv_dec (dget "engine_uuid" r) (Some (PText u))); tauto. Qed.

Lemma sql_engines l : forall hb h hb' r, Inv (db hb) h -> purge_engines (drop_sql glob iso) l hb = (hb', r) ->
  pending hb' = pending hb /\ engines hb' = engines hb /\
  exists done rest, (l = done ++ rest)%list /\ (r = RDone /\ rest = [] \/ exists x rest', rest = x :: rest' /\ r = RNoEngine x /\ engine hb x = None) /\
    (forall x, In x done -> engine hb x <> None) /\
    purged (fun _ rec => exists x u, In x done /\ engine hb x = Some u /\ finished_on u rec) (look_sql (db hb)) (look_sql (db hb')).
Proof.
  induction l as [|e l IH]; intros hb h hb' r I H; cbn [purge_engines] in H.
  - injection H as <- <-. do 2 (split; [reflexivity|]). exists [], []. split; [reflexivity|]. split; [left; auto|]. split; [intros x []|]. apply purged_refl. intros m r (x & u & [] & _).
  - destruct (engine hb e) as [u|] eqn:Eu.
    + destruct (sql_engine (db hb) h u I) as (t' & h' & E & I' & S). rewrite E in H.
      destruct (IH (with_db hb t') h' hb' r I' H) as (P1 & P2 & done & rest & -> & O & R & T). do 2 (split; [assumption|]).
      exists (e :: done), rest. split; [reflexivity|]. split; [exact O|]. split; [intros x [<-|Hx]; [congruence|apply R, Hx]|].
      refine (purged_ext _ _ _ _ _ (purged_then _ _ _ _ _ S T _)).
      * intros m rec _. cbn beta. split.
        -- intros [X|(x & v & Hx & Ex & F)]; [exists e, u|exists x, v]; cbn; auto.
        -- intros (x & v & [<-|Hx] & Ex & F); [left; congruence|right; exists x, v; auto].
      * intros m rec. apply finished_dec.
    + injection H as <- <-. do 2 (split; [reflexivity|]). exists [], (e :: l). split; [reflexivity|]. split; [right; exists e, l; auto|]. split; [intros x []|].
      apply purged_refl. intros m r (x & u & [] & _).
Qed.
End Sql.
Lemma memory_engines glob (l : list Z) : forall hb hb' r, (forall u, drop_dict glob (q_engine u) (db hb) = (db hb, true)) ->
  purge_engines (drop_dict glob) l hb = (hb', r) -> hb' = hb /\
  (r = RDone /\ (forall x, In x l -> engine hb x <> None) \/ exists x, In x l /\ r = RNoEngine x /\ engine hb x = None).
Proof.
  induction l as [|e l IH]; intros hb hb' r D H; cbn [purge_engines] in H.
  - injection H as <- <-. split; [reflexivity|]. left. split; [reflexivity|intros x []].
  - destruct (engine hb e) as [u|] eqn:Eu.
    + rewrite D in H. assert (W : with_db hb (db hb) = hb) by (destruct hb; reflexivity). rewrite W in H. destruct (IH hb hb' r D H) as [-> [[-> R]|(x & Hx & -> & Ex)]]; (split; [reflexivity|]).
      * left. split; [reflexivity|]. intros x [<-|Hx]; [congruence|apply R, Hx].
      * right. exists x. cbn; auto.
    + injection H as <- <-. split; [reflexivity|]. right. exists e. cbn; auto.
Qed.
Lemma engine_in {D} (hb : hub (D := D)) x : engine hb x <> None <-> exists u, In (x, u) (engines hb).
Proof.
  unfold engine. destruct (find _ (engines hb)) as [[y u]|] eqn:E; cbn.
  - apply find_some in E as [H E]. apply Z.eqb_eq in E. cbn in E. subst y. split; [eauto|discriminate].
  - split; [congruence|]. intros [u H]. apply (find_none _ _ E) in H. cbn in H. rewrite Z.eqb_refl in H. discriminate.
Qed.
Lemma engine_some {D} (hb : hub (D := D)) x u : NoDup (map fst (engines hb)) -> engine hb x = Some u <-> In (x, u) (engines hb).
Proof.
  intros N. unfold engine. induction (engines hb) as [|[y v] l IH]; cbn; [split; [discriminate|tauto]|]. inversion N as [|a b Hn Nl]; subst.
  destruct (Z.eqb_spec y x) as [->|Hne]; cbn.
  - split; [intros E; injection E as ->; auto|]. intros [E|H]; [congruence|]. destruct Hn. apply (in_map fst) in H. exact H.
  - rewrite (IH Nl). split; [auto|]. intros [E|H]; [congruence|exact H].
Qed.

(** ** The client *)
Section Client.
Context {V : Type}.
Implicit Type c : client V.
Lemma from_target_none c t l : (forall m u v b, In (m, (u, v)) (metadata c) -> u <> UBytes b) -> msg_ids_from_target c t = Some l -> l = [].
Proof.
  intros H. unfold msg_ids_from_target. destruct (no_targets t); [congruence|]. destruct (Targets_Model.build_targets _ t) as [us ids| | | | |]; try discriminate. intros E.
  assert (F : filter (fun p => existsb (uuid_eqb (fst (snd p))) (map UBytes us)) (metadata c) = []); [|rewrite F in E; cbn in E; congruence].
  clear E. induction (metadata c) as [|[m [u v]] md IH]; [reflexivity|]. cbn [filter fst snd].
  replace (existsb (uuid_eqb u) (map UBytes us)) with false; [apply IH; intros; eapply H; right; eassumption|].
  symmetry. pose proof (fun b => H m u v b (or_introl eq_refl)) as Hu. clear -Hu. induction us as [|b us IH]; [reflexivity|]. cbn. rewrite IH. destruct u; try reflexivity. destruct (Hu s eq_refl).
Qed.
Lemma py_index_names h i m : py_index h i = Some m <-> names h (Index i) [m].
Proof.
  unfold py_index. split.
  - destruct (Z.leb_spec 0 i) as [H|H].
    + intros E. rewrite <- (Z2Nat.id i H). constructor. exact E.
    + destruct (Z.leb_spec 0 (Z.of_nat (List.length h) + i)) as [H'|H']; [|discriminate]. intros E. apply nth_error_split in E as (b & a & Eh & Lb).
      assert (La : (i = - Z.of_nat (S (List.length a)))%Z).
      { apply (f_equal (@List.length string)) in Eh as Lh. rewrite app_length in Lh. cbn in Lh. lia. }
      rewrite La. econstructor; [exact Eh|reflexivity].
  - intros N. inversion N as [k x E|k x b a Eh La| |]; subst.
    + destruct (Z.leb_spec 0 (Z.of_nat k)); [|lia]. rewrite Nat2Z.id. exact E.
    + destruct (Z.leb_spec 0 (- Z.of_nat (S (List.length a)))); [lia|]. rewrite app_length. cbn [List.length].
      destruct (Z.leb_spec 0 (Z.of_nat (List.length b + S (List.length a)) + - Z.of_nat (S (List.length a)))); [|lia].
      replace (Z.to_nat _) with (List.length b) by lia. rewrite nth_error_app2, Nat.sub_diag by lia. reflexivity.
Qed.
Lemma ids_of_names h j l : ids_of h j = Ok l <-> names h j l.
Proof.
  destruct j; cbn.
  - destruct (py_index h i) as [m|] eqn:E.
    + split; [intros X; injection X as <-; apply py_index_names, E|]. intros N. assert (exists m', l = [m']) as [m' ->] by (inversion N; eauto).
      apply py_index_names in N. congruence.
    + split; [discriminate|]. intros N. assert (exists m', l = [m']) as [m' ->] by (inversion N; eauto). apply py_index_names in N. congruence.
  - split; [intros X; injection X as <-; constructor|intros N; inversion N; reflexivity].
  - split; [intros X; injection X as <-; constructor|intros N; inversion N; reflexivity].
  - split; [discriminate|intros N; inversion N].
Qed.
Lemma traverse_ok {A B} (f : A -> res B) (P : A -> B -> Prop) l : (forall x y, f x = Ok y <-> P x y) -> forall out, traverse f l = Ok out <-> Forall2 P l out.
Proof.
  intros H. induction l as [|x l IH]; intros out; cbn.
  - split; [intros E; injection E as <-; constructor|intros F; inversion F; reflexivity].
  - split.
    + destruct (f x) as [y|] eqn:E; [|discriminate]. destruct (traverse f l) as [ys|] eqn:T; [|discriminate]. cbn. intros X. injection X as <-. constructor; [apply H, E|apply IH; reflexivity].
    + intros F. inversion F as [|a b c d Hp Hf]; subst. apply H in Hp. rewrite Hp. apply IH in Hf. rewrite Hf. reflexivity.
Qed.
Lemma from_jobs_asked c j l : msg_ids_from_jobs c j = Ok l <-> asked (history c) j l.
Proof.
  unfold msg_ids_from_jobs. destruct j as [j|js]; cbn [asked].
  - cbn [traverse]. destruct (ids_of (history c) j) as [x|] eqn:E; cbn.
    + rewrite app_nil_r. rewrite <- ids_of_names, E. split; congruence.
    + rewrite <- ids_of_names, E. split; congruence.
  - pose proof (traverse_ok (ids_of (history c)) (names (history c)) js (fun x y => ids_of_names (history c) x y)) as T. destruct (traverse (ids_of (history c)) js) as [x|] eqn:E; cbn.
    + split; [intros X; injection X as <-; exists x; split; [apply T; reflexivity|reflexivity]|]. intros (y & F & ->). apply T in F. congruence.
    + split; [discriminate|]. intros (y & F & _). apply T in F. discriminate.
Qed.
Definition forgets c (m : string) : Prop :=
  dget m (results c) = None /\ dget m (metadata c) = None /\ dget m (futures c) = None /\ dget m (output_futures c) = None.
Definition same_about c c' (m : string) : Prop :=
  dget m (results c') = dget m (results c) /\ dget m (metadata c') = dget m (metadata c) /\ dget m (futures c') = dget m (futures c) /\
  dget m (output_futures c') = dget m (output_futures c).
Definition unique_keys c : Prop :=
  NoDup (dkeys (results c)) /\ NoDup (dkeys (metadata c)) /\ NoDup (dkeys (futures c)) /\ NoDup (dkeys (output_futures c)).
End Client.
