(** Property theorems C55: purging results. *)
From Coq Require Import List ZArith String Bool Lia.
From Verif Require Import Prelude PyValue DictDB_Spec Sqlite_Spec Purge_Spec Purge_Model Purge_Proofs.
From Verif Require DictDB_Model DictDB_Store DictDB_History SqlStore_Spec SqlStore_Model SqlStore_Proofs Sqlite_Props Targets_Spec Targets_Model.
Import ListNotations.
Local Open Scope string_scope.

(** ** In the client *)
Lemma pop_spec {V} ids : forall c : client V, unique_keys c -> let c' := fold_left (fun c m => pop m c) ids c in
  history c' = history c /\ outstanding c' = outstanding c /\ forall m, (In m ids -> forgets c' m) /\ (~ In m ids -> same_about c c' m).
Proof.
  induction ids as [|x ids IH]; intros c U; cbn [fold_left].
  - do 2 (split; [reflexivity|]). intros m. split; [intros []|]. intros _. repeat split.
  - assert (U' : unique_keys (pop x c)) by (destruct U as (A & B & C & D); repeat split; apply DictDB_Proofs.nodup_ddel; assumption).
    destruct (IH _ U') as (A & B & C). split; [exact A|]. split; [exact B|]. intros m. destruct (C m) as [F S]. destruct U as (U1 & U2 & U3 & U4).
    assert (X : forall W (d : dict W), NoDup (dkeys d) -> dget m (ddel x d) = if String.eqb m x then None else dget m d) by (intros; apply DictDB_Proofs.dget_ddel; assumption).
    unfold forgets, same_about in *. cbn [pop results metadata futures output_futures] in S.
    split.
    + intros H. destruct (in_dec string_dec m ids) as [Hi|Hi]; [auto|]. destruct H as [<-|H]; [|contradiction].
      destruct (S Hi) as (-> & -> & -> & ->). rewrite !X, String.eqb_refl by assumption. auto.
    + intros Hn. cbn in Hn. assert (Hi : ~ In m ids) by tauto. destruct (S Hi) as (-> & -> & -> & ->). rewrite !X by assumption. destruct (String.eqb_spec m x); [subst; tauto|auto].
Qed.

(** purge_local_results, on a client whose dicts have unique keys and whose metadata have engine uuids
    that are text, as they come from messages.
    If it raises nothing has changed.  If it returns it has forgotten exactly the messages that were asked
    for, and none of them was outstanding; or everything, and none was outstanding. *)
Theorem C55_local : forall V (c c' : client V) j t f,
  unique_keys c -> (forall m u v b, In (m, (u, v)) (metadata c) -> u <> UBytes b) ->
  purge_local_results j t c = (c', f) ->
  history c' = history c /\ outstanding c' = outstanding c /\
  (f <> Fine -> c' = c) /\
  (f = Fine -> j = everything -> outstanding c = [] /\ forall m, forgets c' m) /\
  (f = Fine -> j <> everything -> exists ids, asked (history c) j ids /\ (forall m, In m ids -> ~ In m (outstanding c)) /\
     forall m, (In m ids -> forgets c' m) /\ (~ In m ids -> same_about c c' m)).
Proof.
  intros V c c' j t f U M H. unfold purge_local_results in H.
  destruct (no_targets t && no_jobs j); [injection H as <- <-; repeat split; auto; discriminate|].
  assert (A : is_all j = true <-> j = everything).
  { unfold everything. destruct j as [[i|m|l|]|js]; cbn; try (split; discriminate). rewrite String.eqb_eq. split; congruence. }
  destruct (is_all j) eqn:Ej.
  - assert (j = everything) by tauto. destruct (outstanding c) eqn:Eo; injection H as <- <-; cbn; rewrite ?Eo.
    + repeat split; auto; try contradiction.
    + repeat split; auto; discriminate.
  - assert (Hj : j <> everything) by (intros X; apply A in X; discriminate).
    destruct (msg_ids_from_target c t) as [ts|] eqn:Et; [|injection H as <- <-; repeat split; auto; discriminate].
    apply from_target_none in Et; [|exact M]. subst ts. cbn [app] in H.
    destruct (msg_ids_from_jobs c j) as [ids|e] eqn:Em; [|injection H as <- <-; assert (X : fate_of e <> Fine) by (destruct e; discriminate); repeat split; auto; contradiction].
    apply from_jobs_asked in Em.
    destruct (existsb (fun m => existsb (String.eqb m) (outstanding c)) ids) eqn:Eo; [injection H as <- <-; repeat split; auto; discriminate|].
    injection H as <- <-. destruct (pop_spec ids c U) as (P1 & P2 & P3). split; [exact P1|]. split; [exact P2|]. split; [congruence|]. split; [intros _ X; contradiction|].
    intros _ _. exists ids. split; [exact Em|]. split; [|exact P3]. intros m Hm Ho. assert (X : existsb (fun m => existsb (String.eqb m) (outstanding c)) ids = true); [|congruence].
    apply existsb_exists. exists m. split; [exact Hm|]. apply DictDB_Proofs.existsb_eqb, Ho.
Qed.
Print Assumptions C55_local.

(** It returns if a list of jobs that stand for something is given, and none of them is outstanding; it
    raises RuntimeError if one is.  For everything: if nothing is outstanding. *)
Theorem C55_local_returns : forall V (c : client V) js ids,
  js <> [] -> asked (history c) (Several js) ids ->
  snd (purge_local_results (Several js) (Targets_Spec.TList []) c) = (if existsb (fun m => existsb (String.eqb m) (outstanding c)) ids then RuntimeError else Fine) /\
  snd (purge_local_results everything (Targets_Spec.TList []) c) = (match outstanding c with [] => Fine | _ => RuntimeError end).
Proof.
  intros V c js ids Hn Ha. split.
  - unfold purge_local_results. cbn [no_targets]. replace (no_jobs (Several js)) with false by (destruct js; [congruence|reflexivity]). cbn [andb is_all].
    unfold msg_ids_from_target. cbn [no_targets]. apply from_jobs_asked in Ha. rewrite Ha. cbn [app]. destruct (existsb _ ids); reflexivity.
  - unfold purge_local_results, everything. cbn [no_targets no_jobs is_all]. cbn. destruct (outstanding c); reflexivity.
Qed.
Print Assumptions C55_local_returns.

(** ** At the Hub *)
Lemma pending_none p l : (forall m, In m l -> ~ In m p) -> filter (fun m => existsb (String.eqb m) p) l = [].
Proof.
  induction l as [|m l IH]; intros H; [reflexivity|]. cbn. destruct (existsb (String.eqb m) p) eqn:E.
  - apply DictDB_Proofs.existsb_eqb in E. destruct (H m); cbn; auto.
  - apply IH. intros x Hx. apply H. right. exact Hx.
Qed.
Lemma pending_some p l m r : filter (fun m => existsb (String.eqb m) p) l = m :: r -> In m l /\ In m p.
Proof.
  intros E. assert (H : In m (filter (fun m => existsb (String.eqb m) p) l)) by (rewrite E; left; reflexivity). apply filter_In in H as [H1 H2].
  split; [exact H1|]. apply DictDB_Proofs.existsb_eqb, H2.
Qed.
Definition registered {D} (h : hub (D := D)) (x : Z) : Prop := exists u, In (x, u) (engines h).

(** With the in-memory database, after any history of well-formed calls: asking for everything removes
    exactly the records of finished tasks.  Asking for ids removes nothing if one of them is pending, and
    the error names a pending one; otherwise exactly these records are removed.  Engines: see the limits below. *)
Theorem C55_hub_memory : forall glob lim ops d log p es ms eids h' r,
  Forall well_formed ops -> DictDB_Model.run glob lim ops DictDB_Model.empty [] = Some (d, log) ->
  (forall m rec, dget m (DictDB_Model.recs d) = Some rec -> plain (field rec "engine_uuid")) ->
  hub_purge (drop_dict glob) ms eids (Hub p es d) = (h', r) ->
  pending h' = p /\ engines h' = es /\
  match ms with
  | Everything => r = RDone /\ purged (fun _ rec => field rec "completed" <> VNone) (look_dict d) (look_dict (db h'))
  | These l =>
      ((exists m, In m l /\ In m p) -> exists m, r = RPending m /\ In m l /\ In m p /\ db h' = d) /\
      ((forall m, In m l -> ~ In m p) -> purged (fun m _ => In m l) (look_dict d) (look_dict (db h')) /\
         (r = RDone <-> exists e, eids = Engines e /\ forall x, In x e -> registered (Hub p es d) x))
  end.
Proof.
  intros glob lim ops d log p es ms eids h' r W R Pl H.
  assert (I : DictDB_Store.Inv d) by (apply (DictDB_History.g_inv _ _ _ (DictDB_History.hist_run glob lim ops d log W R))).
  destruct ms as [|l]; cbn [hub_purge db] in H.
  - destruct (drop_completed glob d I) as (d' & E & _ & S). rewrite E in H. injection H as <- <-. do 2 (split; [reflexivity|]). split; [reflexivity|exact S].
  - change (pending (Hub p es d)) with p in H. destruct (filter (fun m => existsb (String.eqb m) p) l) as [|m0 rest] eqn:F.
    + assert (NP : forall m, In m l -> ~ In m p).
      { intros m Hm Hp. assert (X : In m (filter (fun m => existsb (String.eqb m) p) l)) by (apply filter_In; split; [exact Hm|apply DictDB_Proofs.existsb_eqb, Hp]). rewrite F in X. destruct X. }
      destruct (drop_ids glob d l I) as (d' & E & I' & Q0 & S). change (db (Hub p es d)) with d in H. rewrite E in H.
      assert (Pl' : forall m rec, dget m (DictDB_Model.recs d') = Some rec -> plain (field rec "engine_uuid")).
      { intros m rec Hm. apply (Pl m). apply Q0, Hm. }
      destruct eids as [e|].
      * destruct (memory_engines glob e (with_db (Hub p es d) d') h' r) as [-> O]; [intros u; apply drop_engine; [exact Pl'|apply I']|exact H|].
        do 2 (split; [reflexivity|]). split; [intros (m & A & B); destruct (NP m A B)|]. intros _. split; [exact S|].
        destruct O as [[-> Q]|(x & Hx & -> & Q)].
        -- split; [intros _|reflexivity]. exists e. split; [reflexivity|]. intros x Hx. apply Q in Hx. apply engine_in in Hx. exact Hx.
        -- split; [discriminate|]. intros (e' & Ee & G). injection Ee as <-. specialize (G x Hx). apply (engine_in (with_db (Hub p es d) d') x) in G. contradiction.
      * injection H as <- <-. do 2 (split; [reflexivity|]). split; [intros (m & A & B); destruct (NP m A B)|]. intros _. split; [exact S|]. split; [discriminate|].
        intros (e' & Ee & _). discriminate.
    + injection H as <- <-. do 2 (split; [reflexivity|]). apply pending_some in F as [F1 F2]. split; [intros _; exists m0; auto|]. intros NP. destruct (NP m0 F1 F2).
Qed.
Print Assumptions C55_hub_memory.

(** With SQLite, after any history of good calls, commits and crashes: also, if ids are asked for together with engines, the records of
    finished tasks of these engines are removed, up to the first engine that is not registered. *)
Theorem C55_hub_sql : forall glob iso off evs s log p es ms eids h' r,
  Sqlite_Props.iso_orders iso -> Forall (SqlStore_Spec.good off) evs -> SqlStore_Model.run glob iso evs SqlStore_Model.start = (s, log) ->
  NoDup (map fst es) -> ms <> These [] ->
  let t := SqlStore_Model.current s in
  hub_purge (drop_sql glob iso) ms eids (Hub p es t) = (h', r) ->
  pending h' = p /\ engines h' = es /\
  match ms with
  | Everything => r = RDone /\ purged (fun _ rec => dget "completed" rec <> Some SqlStore_Spec.PNone) (look_sql glob iso t) (look_sql glob iso (db h'))
  | These l =>
      ((exists m, In m l /\ In m p) -> exists m, r = RPending m /\ In m l /\ In m p /\ db h' = t) /\
      ((forall m, In m l -> ~ In m p) ->
         exists done rest,
         (r = RDone /\ eids = Engines done \/ (exists x, eids = Engines (done ++ x :: rest) /\ r = RNoEngine x /\ ~ registered (Hub p es t) x) \/
          (eids = NotIterable /\ done = [] /\ r = RTypeError)) /\
         (forall x, In x done -> registered (Hub p es t) x) /\
         purged (fun m rec => In m l \/ exists x u, In x done /\ In (x, u) es /\ finished_on u rec) (look_sql glob iso t) (look_sql glob iso (db h')))
  end.
Proof.
  intros glob iso off evs s log p es ms eids h' r Hi Hg Hr Nes Hne t H.
  assert (I : SqlStore_Proofs.Inv glob iso off t (SqlStore_Spec.kept log)) by (eapply SqlStore_Proofs.Inv_reached; eassumption). clearbody t.
  destruct ms as [|l]; cbn [hub_purge db] in H.
  - destruct (sql_completed glob iso off Hi t _ I) as (d' & hh & E & _ & S). rewrite E in H. injection H as <- <-. do 2 (split; [reflexivity|]). split; [reflexivity|exact S].
  - assert (Hl : l <> []) by congruence. change (pending (Hub p es t)) with p in H. destruct (filter (fun m => existsb (String.eqb m) p) l) as [|m0 rest] eqn:F.
    + assert (NP : forall m, In m l -> ~ In m p).
      { intros m Hm Hp. assert (X : In m (filter (fun m => existsb (String.eqb m) p) l)) by (apply filter_In; split; [exact Hm|apply DictDB_Proofs.existsb_eqb, Hp]). rewrite F in X. destruct X. }
      destruct (sql_ids glob iso off Hi t _ l Hl I) as (d' & hh & E & I' & S). change (db (Hub p es t)) with t in H. rewrite E in H.
      destruct eids as [e|].
      * destruct (sql_engines glob iso off Hi e (with_db (Hub p es t) d') hh h' r I' H) as (P1 & P2 & done & rest & -> & O & G & T).
        split; [exact P1|]. split; [exact P2|]. split; [intros (m & A & B); destruct (NP m A B)|]. intros _. exists done, (tl rest). split; [|split].
        -- destruct O as [[-> ->]|(x & rest' & -> & -> & Ex)]; [left; rewrite app_nil_r; auto|]. right. left. exists x. split; [reflexivity|]. split; [reflexivity|].
           intros X. apply (engine_in (with_db (Hub p es t) d') x) in X. contradiction.
        -- intros x Hx. apply G in Hx. apply engine_in in Hx. exact Hx.
        -- refine (purged_ext _ _ _ _ _ (purged_then _ _ _ _ _ S T _)).
           ++ intros m rec _. cbn beta. split; (intros [A|(x & u & A & B & C)]; [left; exact A|right; exists x, u; split; [exact A|split; [|exact C]]]);
              apply (engine_some (with_db (Hub p es t) d') x u Nes); exact B.
           ++ intros m rec. destruct (in_dec string_dec m l); auto.
      * injection H as <- <-. do 2 (split; [reflexivity|]). split; [intros (m & A & B); destruct (NP m A B)|]. intros _. exists [], []. split; [right; right; auto|]. split; [intros x []|].
        refine (purged_ext _ _ _ _ _ S). intros m rec _. cbn beta. split; [auto|]. intros [A|(x & u & [] & _)]. exact A.
    + injection H as <- <-. do 2 (split; [reflexivity|]). apply pending_some in F as [F1 F2]. split; [intros _; exists m0; auto|]. intros NP. destruct (NP m0 F1 F2).
Qed.
Print Assumptions C55_hub_sql.

(** purge_results does both: if the client refuses the Hub is not asked; it returns only if both did what
    they were asked for. *)
Theorem C55_both : forall V D (drop : squery -> D -> D * bool) j t (c c' : client V) h h' f,
  purge_results drop j t c h = (c', h', f) ->
  let '(c1, f1) := purge_local_results j t c in
  c' = c1 /\ (f1 <> Fine -> h' = h /\ f = f1) /\ (f1 = Fine -> purge_hub_results drop j t c1 h = (h', f)).
Proof.
  intros V D drop j t c c' h h' f H. unfold purge_results in H. destruct (purge_local_results j t c) as [c1 f1].
  destruct f1; try (injection H as <- <- <-; repeat split; auto; congruence).
  destruct (purge_hub_results drop j t c1 h) as [h1 f1]. injection H as <- <- <-. repeat split; auto; congruence.
Qed.
Print Assumptions C55_both.
(** What the Hub is asked for: the ids the client was asked for, or everything. *)
Theorem C55_asks : forall V D (drop : squery -> D -> D * bool) j (c : client V) h h' f,
  purge_hub_results drop j (Targets_Spec.TList []) c h = (h', f) -> f = Fine ->
  (j = everything -> hub_purge drop Everything (Engines []) h = (h', RDone)) /\
  (j <> everything -> exists ids, asked (history c) j ids /\ hub_purge drop (These ids) (Engines []) h = (h', RDone)).
Proof.
  intros V D drop j c h h' f H ->. unfold purge_hub_results in H. cbn [no_targets] in H. destruct (true && no_jobs j); [discriminate|].
  assert (A : is_all j = true <-> j = everything).
  { unfold everything. destruct j as [[i|m|l|]|js]; cbn; try (split; discriminate). rewrite String.eqb_eq. split; congruence. }
  destruct (is_all j) eqn:E.
  - destruct (hub_purge drop Everything (Engines []) h) as [h1 r]. destruct r; try discriminate. injection H as ->. split; [reflexivity|]. intros X. destruct X. apply A. reflexivity.
  - split; [intros X; apply A in X; discriminate|]. intros _. destruct (msg_ids_from_jobs c j) as [ids|e] eqn:Em; cbn [bind] in H.
    + exists ids. split; [apply from_jobs_asked; exact Em|]. destruct (hub_purge drop (These ids) (Engines []) h) as [h1 r]. destruct r; try discriminate. injection H as ->. reflexivity.
    + destruct e; discriminate.
Qed.
Print Assumptions C55_asks.
(** purge_everything: on return the client has forgotten everything, its history too, and the Hub has removed the
    records of finished tasks. *)
Theorem C55_everything : forall V D (drop : squery -> D -> D * bool) (c c' : client V) h h' f,
  purge_everything drop c h = (c', h', f) -> f = Fine ->
  outstanding c = [] /\ history c' = [] /\ (forall m, forgets c' m) /\ hub_purge drop Everything (Engines []) h = (h', RDone).
Proof.
  intros V D drop c c' h h' f H ->. unfold purge_everything, purge_results, purge_local_results, everything in H. cbn in H.
  destruct (outstanding c) eqn:E; [|discriminate]. unfold purge_hub_results in H. cbn [no_targets no_jobs is_all andb String.eqb Ascii.eqb Bool.eqb] in H. cbn in H.
  unfold hub_purge. destruct (drop q_completed (db h)) as [d ok]. destruct ok; cbn in H; [|discriminate]. injection H as <- <-. repeat split; reflexivity.
Qed.
Print Assumptions C55_everything.

(** ** Examples: three tasks, "a" finished on engine 1, "b" finished on engine 0, "c" pending *)
Definition noglob (_ _ : string) : bool := false.
Definition reg : Targets_Model.registry (U := string) := Targets_Model.run [Targets_Spec.Register 0 "e0"; Targets_Spec.Register 1 "e1"].
Definition cl : client nat := Client [("a", 1); ("b", 2)] [("a", (UStr "e1", 0)); ("b", (UStr "e0", 0)); ("c", (UNone, 0))] [("c", 3)] [("c", 3)] ["c"] ["a"; "b"; "c"] reg.
Lemma nodup_check (l : list string) : nodup string_dec l = l -> NoDup l.
Proof. intros <-. apply NoDup_nodup. Qed.
Example C55_client : unique_keys cl /\ (forall m u v b, In (m, (u, v)) (metadata cl) -> u <> UBytes b) /\
  asked (history cl) (Several [Index (-2); Handle ["a"]]) ["b"; "a"] /\
  (let '(c', f) := purge_local_results (Several [Index (-2); Handle ["a"]]) (Targets_Spec.TList []) cl in f = Fine /\ results c' = [] /\ map fst (metadata c') = ["c"] /\ map fst (futures c') = ["c"]) /\
  purge_local_results (Several [Id "a"; Id "c"]) (Targets_Spec.TList []) cl = (cl, RuntimeError) /\
  purge_local_results everything (Targets_Spec.TList []) cl = (cl, RuntimeError).
Proof.
  split; [repeat split; apply nodup_check; reflexivity|]. split.
  { intros m u v b H. cbn in H. destruct H as [H|[H|[H|[]]]]; injection H as <- <- <-; discriminate. }
  split. { exists [["b"]; ["a"]]. split; [|reflexivity]. constructor; [|repeat constructor]. apply (n_index_end _ 1 "b" ["a"] ["c"]); reflexivity. }
  split; [vm_compute; auto|]. split; reflexivity.
Qed.
Definition dmem (m e : string) (done : value) : dbop := OpAdd m [("msg_id", VStr m); ("submitted", VTime 1); ("engine_uuid", VStr e); ("completed", done)].
Definition lim55 : DictDB_Model.limits := DictDB_Model.Limits 1000 100 1 10.
Definition mem_ops : list dbop := [dmem "a" "e1" (VTime 5); dmem "b" "e0" (VTime 6); dmem "c" "e1" VNone].
Definition mem : DictDB_Model.db := match DictDB_Model.run noglob lim55 mem_ops DictDB_Model.empty [] with Some (d, _) => d | None => DictDB_Model.empty end.
Definition es55 : list (Z * string) := [(0%Z, "e0"); (1%Z, "e1")].
Lemma mem_ok : Forall well_formed mem_ops /\ DictDB_Model.run noglob lim55 mem_ops DictDB_Model.empty [] = Some (mem, rev mem_ops) /\
  (forall m rec, dget m (DictDB_Model.recs mem) = Some rec -> plain (field rec "engine_uuid")).
Proof.
  split; [|split; [reflexivity|]].
  - repeat apply Forall_cons; try apply Forall_nil; (split; [apply nodup_check; reflexivity|]); (split; [reflexivity|cbn; auto]).
  - intros m rec H. apply DictDB_Proofs.dget_in in H. vm_compute in H. destruct H as [H|[H|[H|[]]]]; injection H as <- <-; exact Logic.I.
Qed.
Definition there {R} (look : string -> option R) : list bool := map (fun m => match look m with Some _ => true | None => false end) ["a"; "b"; "c"].
Example C55_memory_example :
  let h := Hub ["c"] es55 mem in
  there (look_dict mem) = [true; true; true] /\
  (let '(h', r) := hub_purge (drop_dict noglob) Everything (Engines []) h in r = RDone /\ there (look_dict (db h')) = [false; false; true]) /\
  (let '(h', r) := hub_purge (drop_dict noglob) (These ["b"; "zz"]) (Engines []) h in r = RDone /\ there (look_dict (db h')) = [true; false; true]) /\
  hub_purge (drop_dict noglob) (These ["b"; "c"]) (Engines []) h = (h, RPending "c").
Proof. vm_compute. repeat split; reflexivity. Qed.
Definition dsql (m e : string) (done : SqlStore_Spec.pv) : SqlStore_Spec.sevent :=
  SqlStore_Spec.Call (SqlStore_Spec.SAdd m [("submitted", SqlStore_Spec.PTime (Time 1 0)); ("engine_uuid", SqlStore_Spec.PText e); ("completed", done)]).
Definition sql_evs := [dsql "a" "e1" (SqlStore_Spec.PTime (Time 5 0)); dsql "b" "e0" (SqlStore_Spec.PTime (Time 6 0)); dsql "c" "e1" SqlStore_Spec.PNone].
Notation iso0 := Sqlite_Props.iso0.
Definition sql : SqlStore_Model.table := SqlStore_Model.current (fst (SqlStore_Model.run noglob iso0 sql_evs SqlStore_Model.start)).
Lemma sql_ok : Forall (SqlStore_Spec.good 0) sql_evs.
Proof.
  repeat apply Forall_cons; try apply Forall_nil; (split; [apply nodup_check; reflexivity|]); intros k v H; cbn in H;
  repeat match goal with
  | H : (if String.eqb ?k ?x then _ else _) = Some _ |- _ => destruct (String.eqb_spec k x) as [->|]; [injection H as <-; intros; vm_compute; auto|]
  | H : None = Some _ |- _ => discriminate H
  end.
Qed.
Example C55_sql_example :
  let h := Hub ["c"] es55 sql in let look := look_sql noglob iso0 in
  there (look sql) = [true; true; true] /\
  (let '(h', r) := hub_purge (drop_sql noglob iso0) Everything (Engines []) h in r = RDone /\ there (look (db h')) = [false; false; true]) /\
  (let '(h', r) := hub_purge (drop_sql noglob iso0) (These ["zz"]) (Engines [1%Z]) h in r = RDone /\ there (look (db h')) = [false; true; true]) /\
  (let '(h', r) := hub_purge (drop_sql noglob iso0) (These ["zz"]) (Engines [1%Z; 7%Z; 0%Z]) h in r = RNoEngine 7 /\ there (look (db h')) = [false; true; true]) /\
  hub_purge (drop_sql noglob iso0) (These ["b"; "c"]) (Engines []) h = (h, RPending "c").
Proof. vm_compute. repeat split; reflexivity. Qed.

(** ** Limits *)
(** Purging the results of an engine does nothing in the client: it compares text with bytes. *)
Theorem C55_local_targets_refuted : purge_local_results (Several []) (Targets_Spec.TList [1%Z]) cl = (cl, Fine) /\
  dget "a" (results cl) = Some 1 /\ dget "a" (metadata cl) = Some (UStr "e1", 0).
Proof. vm_compute. auto. Qed.
(** At the Hub with the in-memory database it does nothing, with SQLite it is an error (the empty list of
    ids makes bad SQL). *)
Theorem C55_memory_engines_refuted : exists r, look_dict mem "a" = Some r /\ field r "engine_uuid" = VStr "e1" /\ field r "completed" <> VNone /\
  hub_purge (drop_dict noglob) (These []) (Engines [1%Z]) (Hub ["c"] es55 mem) = (Hub ["c"] es55 mem, RDone).
Proof. eexists. split; [reflexivity|]. split; [reflexivity|]. split; [discriminate|]. vm_compute. reflexivity. Qed.
Theorem C55_sql_engines_refuted : forall glob iso t p es e, hub_purge (drop_sql glob iso) (These []) (Engines e) (Hub p es t) = (Hub p es t, RDatabase).
Proof. reflexivity. Qed.
(** Engine 0, or the first entry of the history, count as "nothing given"; without targets (None) the Hub
    fails after it has removed the records. *)
Theorem C55_zero_refuted : Targets_Model.build_targets (registry cl) (Targets_Spec.TInt 0) = Targets_Spec.Chosen ["e0"] [0%Z] /\
  purge_local_results (Several []) (Targets_Spec.TInt 0) cl = (cl, ValueError) /\
  purge_local_results (One (Index 0)) (Targets_Spec.TList []) cl = (cl, ValueError).
Proof. vm_compute. auto. Qed.
Theorem C55_none_refuted : let '(h', f) := purge_hub_results (drop_dict noglob) (One (Id "b")) Targets_Spec.TNone cl (Hub ["c"] es55 mem) in
  f = HubError RTypeError /\ there (look_dict (db h')) = [true; false; true].
Proof. vm_compute. auto. Qed.
Print Assumptions C55_local_targets_refuted. Print Assumptions C55_memory_engines_refuted. Print Assumptions C55_sql_engines_refuted.
Print Assumptions C55_zero_refuted. Print Assumptions C55_none_refuted.
