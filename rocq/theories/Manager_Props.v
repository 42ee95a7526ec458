(** C83: finding, listing and cleaning up clusters. *)
From Coq Require Import NArith String List Bool Lia.
From Verif Require Import Batch_Spec Manager_Spec Manager_Model Manager_Notions Manager_Proofs Manager_Proofs2 Manager_Proofs3.
Import ListNotations.

(* ------------------------------------------------------------ where clusters are looked for *)
Theorem C83_where (locate : list N -> option path) (all : list path) (ds : list path) (d : path) (ps : list (list N)) (p : list N) (o : option path) (o' : option (list (list N))) (o'' : option (list N)) :
  searched locate all (Where (Some ds) o o' o'') = Some ds /\
  searched locate all (Where None (Some d) o' o'') = Some [d] /\
  (forall dirs, searched locate all (Where None None (Some ps) o'') = Some dirs <-> Forall2 (fun p d => locate p = Some d) ps dirs) /\
  (forall dirs, searched locate all (Where None None None (Some p)) = Some dirs <-> exists d, dirs = [d] /\ locate p = Some d) /\
  searched locate all (Where None None None None) = Some all.
Proof.
  split; [reflexivity|]. split; [reflexivity|]. split; [|split; [|reflexivity]].
  - intros dirs. cbn [searched profile_dirs one_dir profiles one_profile]. revert dirs. induction ps as [|q ps IH]; intros dirs; cbn [locate_all].
    + split; [intros E; injection E as <-; constructor|]. intros H. now inversion H.
    + destruct (locate q) as [e|] eqn:L; [|split; [discriminate|intros H; inversion H; congruence]].
      destruct (locate_all locate ps) as [es|].
      * split; [intros E; injection E as <-; constructor; [exact L|now apply IH]|]. intros H. inversion H as [|? ? ? ? L' H']; subst. apply IH in H'. congruence.
      * split; [discriminate|]. intros H. inversion H as [|? ? ? ? L' H']; subst. apply IH in H'. discriminate.
  - intros dirs. cbn [searched profile_dirs one_dir profiles one_profile locate_all]. destruct (locate p) as [e|].
    + split; [intros E; injection E as <-; eauto|intros (e' & -> & E); congruence].
    + split; [discriminate|intros (e' & -> & E); discriminate].
Qed.
Print Assumptions C83_where.

(* ------------------------------------------------------------ what is listed *)
Theorem C83_listed (home : path) (alive : N -> bool) (init : bool) (dirs : list path) (s : state) (k : list N) (c : cluster) :
  NoDup (map fst (files s)) -> In (k, c) (clusters (load home alive init dirs s)) ->
  In (k, c) (clusters s) /\ ~ has_stopped c \/
  loaded home alive dirs s k c \/
  (init = true /\ exists dir, In dir dirs /\ k = cluster_key home dir [] /\ profile_dir c = dir /\ cluster_id c = [] /\ (forall x, ~ component c x) /\ (next s <= serial c)%N /\
     forall f x r, is_cluster_file dir f -> on (files s) f (File x r) -> exists i, x = Says i /\ ~ live alive i).
Proof.
  intros ND I. destruct (load_during home alive init dirs s ND) as (_ & _ & _ & H & _). destruct (H k c I) as [X|[X|(X & dir & D & E & SE & EC & F)]]; auto.
  - left. now apply kept_in.
  - right. right. split; auto. exists dir. split; auto. split; auto. rewrite EC. cbn [profile_dir cluster_id serial]. repeat split; auto.
    + intros x [Y|(j & Y)]; [discriminate Y|exact Y].
    + lia.
Qed.
Print Assumptions C83_listed.
Theorem C83_kept (home : path) (alive : N -> bool) (init : bool) (dirs : list path) (s : state) (k : list N) (c : cluster) :
  NoDup (map fst (files s)) -> NoDup (map fst (clusters s)) -> on (clusters s) k c -> ~ has_stopped c ->
  on (clusters (load home alive init dirs s)) k c \/ exists c', on (clusters (load home alive init dirs s)) k c' /\ loaded home alive dirs s k c'.
Proof.
  intros ND NC G NS. destruct (load_during home alive init dirs s ND) as (_ & _ & _ & _ & H). apply H. now apply kept_get.
Qed.
Print Assumptions C83_kept.
Theorem C83_complete (home : path) (alive : N -> bool) (init : bool) (dirs : list path) (s : state) (dir f : path) (i : info) (r : bool) :
  NoDup (map fst (files s)) -> In dir dirs -> is_cluster_file dir f -> on (files s) f (File (Says i) r) -> r = true \/ live alive i -> ~ known s f ->
  exists c, on (clusters (load home alive init dirs s)) (cluster_key home (profile i) (ident i)) c /\ loaded home alive dirs s (cluster_key home (profile i) (ident i)) c /\
    ((forall dir' f' i' r', In dir' dirs -> is_cluster_file dir' f' -> on (files s) f' (File (Says i') r') ->
        cluster_key home (profile i') (ident i') = cluster_key home (profile i) (ident i) -> f' = f) -> cluster_file c = f).
Proof.
  intros ND D F G LO NK. destruct (load_complete home alive init dirs s dir f i r ND D F G LO NK) as (c & X & Y). exists c. split; auto. split; auto. intros U.
  destruct Y as (dir' & i' & r' & D' & F' & O' & _ & _ & E & _). now apply (U dir' _ i' r').
Qed.
Print Assumptions C83_complete.
Theorem C83_default (home : path) (alive : N -> bool) (dirs : list path) (s : state) (dir : path) :
  NoDup (map fst (files s)) -> In dir dirs -> (forall f x, is_cluster_file dir f -> ~ on (files s) f x) ->
  exists c, on (clusters (load home alive true dirs s)) (cluster_key home dir []) c.
Proof. intros ND D NF. apply has_get. now apply default_there. Qed.
Print Assumptions C83_default.
(** Loading changes only files that it reads, and only if processes are gone; no file of a cluster with a process is removed. *)
Theorem C83_files (home : path) (alive : N -> bool) (init : bool) (dirs : list path) (s : state) (f : path) :
  NoDup (map fst (files s)) ->
  let s' := load home alive init dirs s in
  get f (files s') = get f (files s) \/
  ((exists dir, In dir dirs /\ is_cluster_file dir f) /\ ~ known s f /\ exists i r, on (files s) f (File (Says i) r) /\
     (live alive i /\ (exists j, on (files s') f (File (Says j) r) /\ survivors alive i j) \/ ~ live alive i /\ get f (files s') = None)).
Proof.
  intros ND s'. destruct (load_during home alive init dirs s ND) as ((_ & EV) & _). destruct (EV f) as [X|((X & NK) & i & r & E & Y)]; [now left|right].
  split; auto. split; auto. exists i, r. split; [exact E|]. destruct Y as [[L Y]|[L Y]]; [left|now right]. split; auto. exists (reload alive i). split; [exact Y|].
  split; [reflexivity|]. split; [reflexivity|]. apply reload_processes.
Qed.
Print Assumptions C83_files.

Definition home0 : path := lit "/h/.ipython".
Definition dir0 : path := lit "/h/.ipython/profile_default".
Definition dir1 : path := lit "/h/.ipython/profile_x".
Definition running0 (n : N) : info := Info dir0 (lit "a") (Some n) [(lit "1", [20; 21])]%N.
Definition alive0 (p : N) : bool := N.eqb p 10 || N.eqb p 20.
Definition disk0 : disk :=
  [(dir0 ++ lit "/security/cluster-a.json", File (Says (running0 10)) true);
   (dir0 ++ lit "/security/cluster-b.json", File (Says (Info dir0 (lit "b") (Some 99) []))%N true);
   (dir0 ++ lit "/security/cluster-c.json", File Unreadable true);
   (dir0 ++ lit "/security/ipcontroller-a-client.json", File Unreadable true);
   (dir0 ++ lit "/log/ipcontroller-1.log", File Unreadable true);
   (dir0 ++ lit "/ipython_config.py", File Unreadable true)].
Definition empty (d : disk) : state := State [] 0 d.
(** Two clusters are found: one runs, of one the processes are gone: its file is removed. A file that says nothing stays. *)
Example C83_ex_load :
  let s := load home0 alive0 true [dir0; dir1] (empty disk0) in
  map (fun kc => (fst kc, is_running (snd kc))) (clusters s) = [(lit "default:a", true); (lit "default:b", false); (lit "x:", false)] /\
  map fst (files s) = map fst (filter (fun f => negb (eqs (fst f) (dir0 ++ lit "/security/cluster-b.json"))) disk0) /\
  get (dir0 ++ lit "/security/cluster-a.json") (files s) = Some (File (Says (Info dir0 (lit "a") (Some 10) [(lit "1", [20])]))%N true).
Proof. vm_compute. repeat split. Qed.

(* ------------------------------------------------------------ new clusters *)
Theorem C83_new (home dir : path) (id : list N) (s : state) :
  let k := cluster_key home dir id in
  (new_cluster home dir id s = None <-> exists c, on (clusters s) k c) /\
  forall k' s', new_cluster home dir id s = Some (k', s') ->
    k' = k /\ files s' = files s /\ (forall j c, on (clusters s) j c -> on (clusters s') j c) /\
    exists c, get_cluster k s' = Some c /\ profile_dir c = dir /\ cluster_id c = id /\ cluster_file c = dir ++ lit "/security/cluster-" ++ id ++ lit ".json" /\
      (forall x, ~ component c x) /\ serial c = next s /\ forall j c', on (clusters s') j c' -> j <> k -> on (clusters s) j c'.
Proof.
  intros k. unfold new_cluster. cbv zeta. match goal with |- context [has ?a (clusters s)] => change a with k end. split.
  - rewrite <- (has_get k (clusters s)). destruct (has k (clusters s)); split; congruence.
  - intros k' s' H. destruct (has k (clusters s)) eqn:E; [discriminate|]. injection H as <- <-. unfold add, get_cluster, on. cbn [clusters files]. split; [reflexivity|]. split; [reflexivity|]. split.
    + intros j c J. rewrite get_put_other; auto. intros ->. assert (X := proj2 (has_get _ _) (ex_intro _ c J)). unfold key_of in X. cbn [profile_dir cluster_id] in X. fold k in X. congruence.
    + eexists. split; [apply (get_put_same k)|]. cbn [profile_dir cluster_id cluster_file serial]. repeat split; auto.
      * intros x [Y|(j & Y)]; [discriminate Y|exact Y].
      * intros j c' J N0. rewrite get_put_other in J; auto.
Qed.
Print Assumptions C83_new.
Theorem C83_remove (k : list N) (s : state) :
  (remove_cluster k s = None <-> forall c, ~ on (clusters s) k c) /\
  forall s', NoDup (map fst (clusters s)) -> remove_cluster k s = Some s' ->
    files s' = files s /\ forall j c, on (clusters s') j c <-> on (clusters s) j c /\ j <> k.
Proof.
  unfold remove_cluster, has, on. split.
  - destruct (get k (clusters s)) as [c|]; [split; [discriminate|intros H; now destruct (H c)]|]. split; [discriminate|auto].
  - intros s' ND H. destruct (get k (clusters s)); [|discriminate]. injection H as <-. cbn [files clusters]. split; auto. intros j c'.
    destruct (list_eq_dec N.eq_dec j k) as [->|N0]; [rewrite get_del_same by exact ND; split; [discriminate|tauto]|]. rewrite get_del_other by exact N0. tauto.
Qed.
Print Assumptions C83_remove.

(* ------------------------------------------------------------ keys *)
(** At any time: every cluster is under the key of its profile and id, and no cluster is listed twice. *)
Theorem C83_unique (home : path) (s : state * (N -> bool)) : reachable home s ->
  NoDup (map fst (clusters (fst s))) /\
  (forall k c, In (k, c) (clusters (fst s)) -> k = cluster_key home (profile_dir c) (cluster_id c)) /\
  (forall k1 c1 k2 c2, In (k1, c1) (clusters (fst s)) -> In (k2, c2) (clusters (fst s)) -> serial c1 = serial c2 -> (k1, c1) = (k2, c2)).
Proof.
  intros R. destruct (tidy_reachable _ _ R) as (_ & H2 & H3 & _ & H5). split; auto. split; [exact H3|]. intros k1 c1 k2 c2 I1 I2 E. assert (K := H5 _ _ _ _ I1 I2 E). subst k2. f_equal.
  apply in_get in I1, I2; auto. congruence.
Qed.
Print Assumptions C83_unique.
(** Clusters of different profiles or ids have different keys, unless an id has a colon or a profile has no name. *)
Theorem C83_keys (home d1 d2 : path) (i1 i2 : list N) :
  ~ In 58%N i1 -> ~ In 58%N i2 -> (exists r, d1 = 47%N :: r) -> (exists r, d2 = 47%N :: r) ->
  (forall r, d1 <> home ++ lit "/profile_/" ++ r) -> (forall r, d2 <> home ++ lit "/profile_/" ++ r) ->
  cluster_key home d1 i1 = cluster_key home d2 i2 -> d1 = d2 /\ i1 = i2.
Proof. apply keys_inj. Qed.
Print Assumptions C83_keys.
Example C83_ex_keys : cluster_key home0 dir0 (lit "a") = lit "default:a" /\ cluster_key home0 (lit "/tmp/p") (lit "a") = lit "/tmp/p:a".
Proof. vm_compute. split; reflexivity. Qed.
(** With a colon they may have the same. *)
Theorem C83_keys_refuted : exists i1 i2 d1 d2, d1 <> d2 /\ cluster_key home0 d1 i1 = cluster_key home0 d2 i2 /\ (exists r, d1 = 47%N :: r) /\ exists r, d2 = 47%N :: r.
Proof. exists (lit "b:c"), (lit "c"), (lit "/a"), (lit "/a:b"). split; [discriminate|]. vm_compute. eauto. Qed.

(* ------------------------------------------------------------ a cluster that has not stopped stays *)
Theorem C83_stays (home : path) (s t : state * (N -> bool)) (k : list N) (c : cluster) :
  reachable home s -> on (clusters (fst s)) k c ->
  run home (fun e u =>
    match e with
    | Forget j => j <> k
    | Load => exists c', on (clusters (fst u)) k c' /\ serial c' = serial c /\ ~ has_stopped c' /\
        forall f i r, on (files (fst u)) f (File (Says i) r) -> cluster_key home (profile i) (ident i) = k -> f = cluster_file c'
    | _ => True
    end) s t ->
  exists c', on (clusters (fst t)) k c' /\ serial c' = serial c /\ cluster_file c' = cluster_file c.
Proof.
  intros R G H. destruct (stays home k c s t (tidy_reachable _ _ R) G H) as (c' & G' & (S1 & S2 & _)). exists c'. repeat split; auto.
Qed.
Print Assumptions C83_stays.
(** A run in which the cluster a is loaded, another is made and clusters are loaded again *)
Example C83_ex_stays : exists s t c, reachable home0 s /\ on (clusters (fst s)) (lit "default:a") c /\ runs c /\
  run home0 (fun e u => match e with Load => exists c', on (clusters (fst u)) (lit "default:a") c' /\ serial c' = serial c /\ ~ has_stopped c' /\
      forall f i r, on (files (fst u)) f (File (Says i) r) -> cluster_key home0 (profile i) (ident i) = lit "default:a" -> f = cluster_file c' | Forget _ => False | _ => True end) s t /\
  map fst (clusters (fst t)) = [lit "default:a"; lit "default:b"; lit "x:new"].
Proof.
  set (w := Where (Some [dir0]) None None None).
  set (s0 := (empty disk0, alive0)). set (s := (fst (load_clusters home0 alive0 (fun _ => None) [] w false (empty disk0)), alive0)).
  assert (R0 : reachable home0 s0) by (apply Reach_start; vm_compute; repeat constructor; cbn; intuition discriminate).
  assert (R1 : reachable home0 s) by (eapply Reach_step; [exact R0|apply Step_load]).
  destruct (new_cluster home0 dir1 (lit "new") (fst s)) as [[k u]|] eqn:E; [|vm_compute in E; discriminate E].
  exists s, (fst (load_clusters home0 alive0 (fun _ => None) [] w false u), alive0), (restored 0 (dir0 ++ lit "/security/cluster-a.json") (reload alive0 (running0 10))).
  split; [exact R1|]. split; [vm_compute; reflexivity|]. split; [exists Running; split; [left; reflexivity|discriminate]|]. split.
  - eapply Run_on; [|eapply Step_new; exact E|]; [exact I|]. eapply Run_on; [|apply Step_load|apply Run_here].
    exists (restored 0 (dir0 ++ lit "/security/cluster-a.json") (reload alive0 (running0 10))). vm_compute in E. injection E as <- <-. cbn [fst]. split; [vm_compute; reflexivity|]. split; [reflexivity|]. split.
    + intros [_ H]. assert (X := H Running (or_introl eq_refl)). discriminate X.
    + intros f i r G. apply get_in in G. cbn [files In] in G. intros KE. repeat destruct G as [G|G]; try discriminate G; try contradiction; injection G as <- <- <-; try (vm_compute; reflexivity); vm_compute in KE; discriminate KE.
  - vm_compute in E. injection E as <- <-. vm_compute. reflexivity.
Qed.
(** A cluster whose key another file has is replaced though it runs: here the id of the other has a colon. *)
Theorem C83_stays_refuted : exists d alive dirs k c c',
  on (clusters (load home0 alive false [lit "/a:b"] (empty d))) k c /\ runs c /\
  on (clusters (load home0 alive false dirs (load home0 alive false [lit "/a:b"] (empty d)))) k c' /\ cluster_file c' <> cluster_file c.
Proof.
  set (d := [(lit "/a:b/security/cluster-c.json", File (Says (Info (lit "/a:b") (lit "c") (Some 1) []))%N true); (lit "/a/security/cluster-b:c.json", File (Says (Info (lit "/a") (lit "b:c") (Some 2) []))%N true)]).
  exists d, (fun _ => true), [lit "/a"], (lit "/a:b:c").
  do 2 eexists. split; [vm_compute; reflexivity|]. split; [exists Running; split; [left; reflexivity|discriminate]|]. split; [vm_compute; reflexivity|]. vm_compute. discriminate.
Qed.
(** A directory that is named twice is loaded twice: another cluster object takes the place of the first. *)
Theorem C83_twice_refuted : exists c, on (clusters (load home0 alive0 false [dir0; dir0] (empty disk0))) (lit "default:a") c /\ serial c = 2%N /\
  exists c0, on (clusters (load home0 alive0 false [dir0] (empty disk0))) (lit "default:a") c0 /\ serial c0 = 0%N.
Proof. eexists. split; [vm_compute; reflexivity|]. split; [reflexivity|]. eexists. split; [vm_compute; reflexivity|reflexivity]. Qed.
(** A cluster of which no process is left when its file is read is never dropped: it has no controller, so that it looks like one that has not been started. *)
Theorem C83_gone_refuted : exists c,
  on (clusters (load home0 alive0 false [dir0] (load home0 alive0 false [dir0] (empty disk0)))) (lit "default:b") c /\ ~ runs c /\
  ~ exists x, on (files (load home0 alive0 false [dir0] (empty disk0))) (cluster_file c) x.
Proof.
  eexists. split; [vm_compute; reflexivity|]. split.
  - rewrite runs_iff. vm_compute. discriminate.
  - intros (x & H). vm_compute in H. discriminate H.
Qed.
(** "a stopped Cluster object is loaded for every profile dir with cluster_id="" if no running cluster is found" (953-955): not if there is any file. *)
Theorem C83_default_refuted : let d := [(dir0 ++ lit "/security/cluster-c.json", File Unreadable true)] in clusters (load home0 alive0 true [dir0] (empty d)) = [].
Proof. vm_compute. reflexivity. Qed.

(* ------------------------------------------------------------ cleaning up *)
(** Without force, a cluster file that can be read stays if there is a process of the cluster, whatever happens. *)
Theorem C83_clean_running (alive : N -> bool) (log : bool) (dirs : list path) (d : disk) (dir f : path) (i : info) (r : bool) :
  NoDup (map fst d) -> is_cluster_file dir f -> on d f (File (Says i) r) -> live alive i ->
  exists j, on (fst (clean_cluster_files alive log false dirs d)) f (File (Says j) r) /\ survivors alive i (reload alive j) /\ live alive j.
Proof.
  intros ND F G L. destruct (clean_live alive log dirs d f dir i r ND F G L) as (j & E & J). exists j. split; [exact E|]. destruct J as [->| ->].
  - split; auto. split; [reflexivity|]. split; [reflexivity|]. apply reload_processes.
  - split; [|now apply live_reload]. rewrite reload_twice. split; [reflexivity|]. split; [reflexivity|]. apply reload_processes.
Qed.
Print Assumptions C83_clean_running.
(** With a log: it fails iff it is not forced and there is such a cluster. *)
Theorem C83_clean_raises (alive : N -> bool) (force : bool) (dirs : list path) (d : disk) : NoDup (map fst d) ->
  (snd (clean_cluster_files alive true force dirs d) = StillRunning <->
   force = false /\ exists dir f i r, In dir dirs /\ is_cluster_file dir f /\ on d f (File (Says i) r) /\ live alive i) /\
  (snd (clean_cluster_files alive true force dirs d) = Done \/ snd (clean_cluster_files alive true force dirs d) = StillRunning).
Proof.
  intros ND. split; [|apply clean_logged]. split; [apply clean_raises; exact ND|]. intros (-> & dir & f & i & r & D & F & G & L).
  destruct (clean_logged alive false dirs d) as [X|X]; auto. exfalso. eapply clean_notices; eauto.
Qed.
Print Assumptions C83_clean_raises.
(** When it returns, nothing is left that could be removed: no cluster file, no connection file, no log. *)
Theorem C83_clean_done (alive : N -> bool) (log force : bool) (dirs : list path) (d : disk) (dir f : path) (x : content) :
  NoDup (map fst d) -> snd (clean_cluster_files alive log force dirs d) = Done -> In dir dirs ->
  is_cluster_file dir f \/ is_log_file dir f \/ is_connection_file dir f -> ~ on (fst (clean_cluster_files alive log force dirs d)) f (File x true).
Proof. apply clean_done. Qed.
Print Assumptions C83_clean_done.
(** All other files stay as they are. *)
Theorem C83_clean_others (alive : N -> bool) (log force : bool) (dirs : list path) (d : disk) (f : path) : NoDup (map fst d) ->
  (forall dir, In dir dirs -> ~ is_cluster_file dir f /\ ~ is_log_file dir f /\ ~ is_connection_file dir f) ->
  get f (fst (clean_cluster_files alive log force dirs d)) = get f d.
Proof. apply clean_other. Qed.
Print Assumptions C83_clean_others.
(** disk0 has a cluster that runs: cleaning fails; with force, or when its processes have ended, only the configuration is left *)
Example C83_ex_clean :
  snd (clean_cluster_files alive0 true false [dir0] disk0) = StillRunning /\
  (let r := clean_cluster_files alive0 true true [dir0] disk0 in snd r = Done /\ map fst (fst r) = [dir0 ++ lit "/ipython_config.py"]) /\
  (let r := clean_cluster_files (fun _ => false) true false [dir0] disk0 in snd r = Done /\ map fst (fst r) = [dir0 ++ lit "/ipython_config.py"]).
Proof. vm_compute. repeat split. Qed.
(** Without a log (the default), cleaning fails at the first cluster that has stopped: reading its file has removed it, and the error about that cannot be logged (1069). *)
Theorem C83_clean_log_refuted : snd (clean_cluster_files (fun _ => false) false false [dir0] disk0) = NoLog.
Proof. vm_compute. reflexivity. Qed.
(** When it fails, files of other profiles may have been removed already. *)
Theorem C83_clean_atomic_refuted : let d := (dir1 ++ lit "/log/a.log", File Unreadable true) :: disk0 in
  snd (clean_cluster_files alive0 true false [dir1; dir0] d) = StillRunning /\ get (dir1 ++ lit "/log/a.log") (fst (clean_cluster_files alive0 true false [dir1; dir0] d)) = None.
Proof. vm_compute. split; reflexivity. Qed.
