(** C87: the web service for clusters. *)
From Coq Require Import NArith String List Bool Lia Permutation Sorted.
From Verif Require Import Batch_Spec Manager_Spec Manager_Model Manager_Notions Manager_Proofs Manager_Proofs2 Manager_Proofs3 Web_Spec Web_Model Web_Proofs.
Import ListNotations.

(** Everything that happens to the service is something that happens to its manager *)
Lemma wstep_reachable home s e s' : reachable home s -> wstep home s e s' -> reachable home s'.
Proof.
  intros R H. destruct H as [s alive all|s alive dir_of abspath random b|s alive k|s alive s' H].
  - unfold list_clusters. cbn [fst]. eapply Reach_step; [exact R|]. exact (Step_load home s alive (fun _ => None) all (Where None None None None) true).
  - unfold create. cbv zeta. destruct (new_cluster _ _ _ _) as [(k, s')|] eqn:E; cbn [fst]; [|exact R].
    assert (R' : reachable home (s', alive)) by (eapply Reach_step; [exact R | eapply Step_new; exact E]). destruct (get_cluster k s'); exact R'.
  - unfold delete_ends. destruct (remove_cluster k s) as [s'|] eqn:E; cbn [fst]; [|exact R]. eapply Reach_step; [exact R | eapply Step_forget; exact E].
  - eapply Reach_step; eauto.
Qed.
Lemma wrun_reachable home ok s t : wrun home ok s t -> reachable home s -> reachable home t.
Proof. induction 1; auto. intros R. apply IHwrun. eapply wstep_reachable; eauto. Qed.

Lemma id_names home s k c : reachable home s -> In (k, c) (clusters (fst s)) -> k = profile_name (model home (k, c)) ++ lit ":" ++ cluster_name (model home (k, c)).
Proof. intros R I. destruct (tidy_reachable _ _ R) as (_ & _ & H3 & _ & _). exact (H3 k c I). Qed.

(** GET /clusters: every cluster of the manager once, in the order specified, which determines the answer; and GET of each one's id finds it *)
Theorem C87_list home s alive all s' l : reachable home (s, alive) -> list_clusters home alive all s = (s', Listed l) ->
  s' = load home alive true all s /\
  Permutation l (map (model home) (clusters s')) /\ NoDup (map id l) /\ StronglySorted shown_before l /\
  (forall l', Permutation l' (map (model home) (clusters s')) -> StronglySorted shown_before l' -> l' = l) /\
  (forall e, In e l -> id e = profile_name e ++ lit ":" ++ cluster_name e /\ show home (id e) s' = OK e).
Proof.
  intros R H. unfold list_clusters in H. injection H as E1 E2. rewrite E1 in E2.
  assert (R' : reachable home (s', alive)).
  { rewrite <- E1. eapply Reach_step; [exact R|]. exact (Step_load home s alive (fun _ => None) all (Where None None None None) true). }
  destruct (tidy_reachable _ _ R') as (_ & ND & _ & _ & _). cbn [fst] in ND.
  assert (P : Permutation l (map (model home) (clusters s'))) by (rewrite <- E2; apply sorted_perm).
  assert (ND1 : NoDup (map id (map (model home) (clusters s')))) by (rewrite map_map; exact ND).
  assert (ND2 : NoDup (map names_of (map (model home) (clusters s')))).
  { rewrite map_map. assert (K : forall x, In x (clusters s') -> (let n := names_of (model home x) in fst n ++ lit ":" ++ snd n) = fst x).
    { intros (k, c) I. symmetry. exact (id_names home (s', alive) k c R' I). }
    clear - ND K. induction (clusters s') as [|x r IH]; [constructor|]. cbn [map] in *. inversion ND as [|? ? NI ND']; subst. constructor.
    - intros I. apply NI. apply in_map_iff in I as (y & e & I). rewrite <- (K x (or_introl eq_refl)), <- e, (K y (or_intror I)). now apply in_map.
    - apply IH; auto. intros y I. apply K. now right. }
  assert (S : StronglySorted shown_before l) by (rewrite <- E2; now apply sorted_sorted).
  split; [auto|]. split; [exact P|]. split.
  { eapply Permutation_NoDup; [|exact ND1]. apply Permutation_map. now apply Permutation_sym. }
  split; [exact S|]. split.
  { intros l' P' S'. apply sorted_unique; auto. rewrite P'. now apply Permutation_sym. }
  intros e I. apply (Permutation_in _ P) in I. apply in_map_iff in I as ((k, c) & <- & I). split; [exact (id_names home (s', alive) k c R' I)|].
  unfold show, get_cluster. cbn [model id fst snd]. now rewrite (in_get k c _ ND I).
Qed.
Print Assumptions C87_list.

(** POST /clusters: the cluster that was asked for is there, not started, and nothing else has changed; it fails iff there is a cluster of that name, changing nothing.
    The directory: that of the profile, or the profile itself if it is a path. The name: the one given; none if a profile but no name is given and the profile
    has no nameless cluster; a random one otherwise. *)
Theorem C87_create home dir_of abspath random b s s' r : create home dir_of abspath random b s = (s', r) ->
  let profile := match b_profile b with Some [] => None | p => p end in
  exists dir name,
    (forall p, profile = Some p -> In 47%N p -> dir = abspath p) /\
    (forall p, profile = Some p -> ~ In 47%N p -> dir = dir_of (Some p)) /\
    (profile = None -> dir = dir_of None) /\
    (forall n, b_id b = Some n -> n <> [] -> name = n) /\
    (b_id b = None \/ b_id b = Some [] ->
       (forall p, profile = Some p -> ~ In 47%N p -> (forall c, ~ on (clusters s) (p ++ lit ":") c) -> name = []) /\
       (forall p c, profile = Some p -> on (clusters s) (p ++ lit ":") c -> name = random) /\
       (profile = None -> name = random)) /\
    ((r = ServerError /\ s' = s /\ exists c, on (clusters s) (cluster_key home dir name) c) \/
     (exists e, r = OK e /\ id e = cluster_key home dir name /\ profile_name e = abbreviate home dir /\ cluster_name e = name /\ started e = false /\
        (forall c, ~ on (clusters s) (id e) c) /\ show home (id e) s' = OK e /\ files s' = files s /\
        forall j c, j <> id e -> (on (clusters s') j c <-> on (clusters s) j c))).
Proof.
  intros H profile. unfold create in H. cbv zeta in H.
  assert (EP : cleared (b_profile b) = profile) by (unfold profile, cleared; destruct (b_profile b) as [[|]|]; reflexivity).
  rewrite EP in H. clearbody profile. clear EP.
  set (is_path := match profile with Some p => existsb (N.eqb 47) p | None => false end) in H.
  set (dir := if is_path then _ else _) in H. set (name := match (if is_path then None else profile) with Some _ => _ | None => _ end) in H.
  assert (PP : forall p, existsb (N.eqb 47) p = true <-> In 47%N p).
  { intros p. rewrite existsb_exists. split; [intros (x & I & E); apply N.eqb_eq in E; now subst | intros I; exists 47%N; split; auto]. }
  assert (PN : forall p, ~ In 47%N p -> existsb (N.eqb 47) p = false) by (intros p NI; destruct (existsb (N.eqb 47) p) eqn:E; auto; apply PP in E; contradiction).
  exists dir, name. split; [|split; [|split; [|split; [|split]]]].
  - intros p E I. unfold dir, is_path. rewrite E. apply PP in I. now rewrite I.
  - intros p E I. unfold dir, is_path. rewrite E. apply PN in I. now rewrite I.
  - intros E. unfold dir, is_path. now rewrite E.
  - intros n E NE. unfold name. rewrite E. unfold cleared. destruct n as [|x n]; [congruence|]. destruct (if is_path then None else profile); auto.
  - intros E. assert (C : cleared (b_id b) = None) by (destruct E as [-> | ->]; auto). unfold name. rewrite C. split; [|split].
    + intros p Ep NI NC. unfold is_path. rewrite Ep. rewrite (PN _ NI). destruct (has (p ++ lit ":") (clusters s)) eqn:Eh; auto.
      apply has_get in Eh as (c & G). exfalso. eapply NC; eauto.
    + intros p c Ep G. unfold is_path. rewrite Ep. destruct (existsb (N.eqb 47) p); auto.
      assert (Eh : has (p ++ lit ":") (clusters s) = true) by (apply has_get; eauto). now rewrite Eh.
    + intros Ep. unfold is_path. rewrite Ep. auto.
  - unfold new_cluster in H. cbv zeta in H. set (c0 := Cluster (next s) (default_file dir name) dir name None []) in H.
    assert (K : key_of home c0 = cluster_key home dir name) by reflexivity. rewrite K in H.
    destruct (has (cluster_key home dir name) (clusters s)) eqn:E.
    + injection H as <- <-. left. split; auto. split; auto. now apply has_get.
    + right. unfold get_cluster, add in H. cbn [clusters] in H. rewrite K in H. rewrite get_put_same in H. injection H as <- <-.
      eexists. split; [reflexivity|]. cbn [id profile_name cluster_name started model fst snd c0 profile_dir cluster_id controller]. split; auto. split; auto. split; auto. split; auto.
      split; [intros c G; assert (X : has (cluster_key home dir name) (clusters s) = true) by (apply has_get; eauto); congruence|].
      split; [unfold show, get_cluster; cbn [clusters]; now rewrite get_put_same|]. split; auto.
      intros j c NE. unfold on. cbn [clusters]. now rewrite get_put_other.
Qed.
Print Assumptions C87_create.

(** GET, POST and DELETE of one cluster: 404 iff there is no such cluster; 400 iff there is and n is not a number; otherwise it is the cluster of that name that is acted on *)
Theorem C87_actions home k n s :
  (show home k s = NotFound <-> forall c, ~ on (clusters s) k c) /\ (start k n s = NotFound <-> forall c, ~ on (clusters s) k c) /\
  (delete_begins k s = NotFound <-> forall c, ~ on (clusters s) k c) /\
  (start k n s = BadRequest <-> n = Other /\ exists c, on (clusters s) k c) /\
  (forall c, on (clusters s) k c -> show home k s = OK (model home (k, c)) /\ delete_begins k s = Waits (serial c) /\ (n <> Other -> start k n s = Waits (serial c))).
Proof.
  unfold show, start, delete_begins, get_cluster, on. destruct (get k (clusters s)) as [c|].
  - split; [split; [discriminate | intros H; now destruct (H c)]|]. split; [split; [destruct n; discriminate | intros H; now destruct (H c)]|].
    split; [split; [discriminate | intros H; now destruct (H c)]|]. split; [destruct n; split; try discriminate; try (intros (? & _); discriminate); eauto|].
    intros c' E. injection E as <-. split; auto. split; auto. destruct n; congruence.
  - split; [split; auto; intros _ c; discriminate|]. split; [split; auto; intros _ c; discriminate|]. split; [split; auto; intros _ c; discriminate|].
    split; [split; [discriminate | intros (_ & c & E); discriminate]|]. intros c E. discriminate.
Qed.
Print Assumptions C87_actions.

(** What is said of a cluster is true of it: its id, profile and name, and whether it has a controller that has not ended *)
Theorem C87_says home k s e : show home k s = OK e <->
  exists c, on (clusters s) k c /\ id e = k /\ profile_name e = abbreviate home (profile_dir c) /\ cluster_name e = cluster_id c /\
    (started e = true <-> exists x, controller c = Some x /\ x <> After).
Proof.
  unfold show, get_cluster, on. destruct (get k (clusters s)) as [c|].
  - assert (B : started (model home (k, c)) = true <-> exists x, controller c = Some x /\ x <> After).
    { cbn [model started snd]. destruct (controller c) as [[| |]|]; cbn [not_after]; split; intros H; try discriminate H; auto; try (eexists; split; [reflexivity | discriminate]);
        destruct H as (x & E & N); congruence. }
    split.
    + intros E. injection E as <-. exists c. split; [reflexivity|]. split; [reflexivity|]. split; [reflexivity|]. split; [reflexivity | exact B].
    + intros (c' & E & E1 & E2 & E3 & E4). injection E as <-. f_equal. destruct e as [i p n st]. cbn [id profile_name cluster_name started] in *. subst i p n.
      unfold model in *. cbn [fst snd started] in *. f_equal. destruct st; destruct (match controller c with Some s0 => not_after s0 | None => false end); auto.
      * apply B. apply E4. auto.
      * symmetry. apply E4. apply B. auto.
  - split; [discriminate|]. intros (c & E & _). discriminate.
Qed.
Print Assumptions C87_says.

Lemma keeps home k n e s s' : wstep home s e s' -> e <> WList -> e <> WDelete k -> reachable home s ->
  (exists c, on (clusters (fst s)) k c /\ serial c = n) -> exists c, on (clusters (fst s')) k c /\ serial c = n.
Proof.
  intros H NL ND R (c & G & E). destruct H as [s alive all|s alive dir_of abspath random b|s alive j|s alive s' H]; [congruence| | |].
  - cbn [fst] in *. destruct (create home dir_of abspath random b s) as (s', r) eqn:C. cbn [fst].
    destruct (C87_create _ _ _ _ _ _ _ _ C) as (dir & name & _ & _ & _ & _ & _ & [(_ & -> & _)|(e & _ & _ & _ & _ & _ & NC & _ & _ & O)]); eauto.
    exists c. split; auto. apply O; auto. intros ->. eapply NC; eauto.
  - cbn [fst] in *. unfold delete_ends, remove_cluster. destruct (has j (clusters s)); cbn [fst]; eauto. exists c. split; auto. unfold on. cbn [clusters].
    rewrite get_del_other; auto. congruence.
  - inversion H as [ | | | ? ? l d alive' F NDd]; subst. cbn [fst clusters] in *. destruct (tidy_reachable _ _ R) as (_ & NDk & _). cbn [fst] in NDk.
    clear - F G NDk. unfold on in *. revert G. induction F as [|(k1, c1) (k2, c2) l1 l2 (E1 & E2) F IH]; cbn [get]; intros G; [discriminate|]. cbn [fst snd map] in *. subst k2.
    inversion NDk; subst. destruct (eqs k k1); auto. injection G as ->. exists c2. destruct E2 as (E2 & _). auto.
Qed.

(** How DELETE ends: with an error, and nothing is changed, iff the cluster is gone by then; with success otherwise *)
Theorem C87_delete_answers k s s' r : delete_ends k s = (s', r) ->
  ((forall c, ~ on (clusters s) k c) -> r = ServerError /\ s' = s) /\ ((exists c, on (clusters s) k c) -> r = Deleted).
Proof.
  unfold delete_ends, remove_cluster. destruct (has k (clusters s)) eqn:H; intros E; injection E as <- <-.
  - apply has_get in H. destruct H as (c & G). split; [intros N; destruct (N c G) | auto].
  - split; [auto|]. intros (c & G). assert (X : has k (clusters s) = true) by (apply has_get; eauto). congruence.
Qed.
Print Assumptions C87_delete_answers.

(** DELETE: whatever happened while the cluster was being stopped, in the end there is no cluster of that name.  If the list of clusters was not asked for and no other DELETE
    of that name ended meanwhile, the answer is success, and it is the cluster that was stopped that is gone: no other. *)
Theorem C87_delete home s t k n : reachable home s -> delete_begins k (fst s) = Waits n ->
  (forall ok, wrun home ok s t -> forall c, ~ on (clusters (fst (delete_ends k (fst t)))) k c) /\
  (wrun home (fun e => e <> WList /\ e <> WDelete k) s t ->
     exists c t', on (clusters (fst t)) k c /\ serial c = n /\ delete_ends k (fst t) = (t', Deleted) /\
       forall j c', on (clusters t') j c' <-> on (clusters (fst t)) j c' /\ j <> k /\ serial c' <> n).
Proof.
  intros R D. assert (G0 : exists c, on (clusters (fst s)) k c /\ serial c = n).
  { unfold delete_begins, get_cluster in D. destruct (get k (clusters (fst s))) as [c|] eqn:E; [|discriminate]. injection D as <-. eauto. }
  assert (X : forall t, reachable home t -> forall s', remove_cluster k (fst t) = Some s' -> forall j c, on (clusters s') j c <-> on (clusters (fst t)) j c /\ j <> k).
  { intros u Ru s' E. destruct (tidy_reachable _ _ Ru) as (_ & NDk & _). unfold remove_cluster in E. destruct (has k (clusters (fst u))); [|discriminate]. injection E as <-. intros j c. unfold on. cbn [clusters].
    destruct (list_eq_dec N.eq_dec j k) as [->|ne].
    - rewrite get_del_same; auto. split; [discriminate | intros (_ & ?); congruence].
    - rewrite get_del_other; auto. split; [auto | tauto]. }
  split.
  - intros ok W c G. pose proof (wrun_reachable _ _ _ _ W R) as Rt. unfold delete_ends in G. destruct (remove_cluster k (fst t)) as [s'|] eqn:E; cbn [fst] in G.
    + apply (X t Rt s' E) in G. now destruct G.
    + unfold remove_cluster in E. destruct (has k (clusters (fst t))) eqn:Eh; [discriminate|]. assert (Z : has k (clusters (fst t)) = true) by (apply has_get; eauto). congruence.
  - intros W. pose proof (wrun_reachable _ _ _ _ W R) as Rt.
    assert (Gt : exists c, on (clusters (fst t)) k c /\ serial c = n).
    { clear X D Rt. induction W as [|s e s' t (N1 & N2) H W IH]; auto. apply IH; [eapply wstep_reachable; eauto|]. eapply keeps; eauto. }
    destruct Gt as (c & G & E). destruct (remove_cluster k (fst t)) as [t'|] eqn:Er.
    2: { exfalso. unfold remove_cluster in Er. assert (Z : has k (clusters (fst t)) = true) by (apply has_get; eauto). rewrite Z in Er. discriminate. }
    exists c, t'. split; auto. split; auto. split; [unfold delete_ends; now rewrite Er|]. intros j c'. rewrite (X t Rt t' Er). split; [|tauto].
    intros (Gj & NE). split; auto. split; auto. intros Es. destruct (tidy_reachable _ _ Rt) as (_ & NDk & _ & _ & U). apply NE.
    assert (InG : forall a b, on (clusters (fst t)) a b -> In (a, b) (clusters (fst t))).
    { clear. unfold on. intros a b. induction (clusters (fst t)) as [|(x, y) r IH]; cbn [get]; [discriminate|]. destruct (eqs a x) eqn:Ex; [|intros; right; auto].
      apply eqs_iff in Ex. subst. intros H; injection H as ->. left; auto. }
    eapply (U j c' k c); eauto. congruence.
Qed.
Print Assumptions C87_delete.

(* ------------------------------------------------------------------ examples *)
Definition whome : path := lit "/h".
Definition wdir : path := lit "/h/profile_default".
Definition wdir_of (p : option (list N)) : path := match p with Some p => lit "/h/profile_" ++ p | None => wdir end.
Definition all_alive (_ : N) : bool := true.
Definition w0 : state := State [] 0 [].
Definition made (b : body) (s : state) : state := fst (create whome wdir_of (fun p => p) (lit "rnd") b s).
Definition wa : state := made (Body (Some (lit "default")) (Some (lit "a"))) w0.
Definition with_controller (x : lstate) : state := State [(lit "default:a", Cluster 0 (default_file wdir (lit "a")) wdir (lit "a") (Some x) [])] 1 [].
Lemma wa_reachable : reachable whome (wa, all_alive).
Proof. apply (wstep_reachable whome (w0, all_alive) WCreate); [constructor; constructor | exact (W_create whome w0 all_alive wdir_of (fun p => p) (lit "rnd") _)]. Qed.
Lemma with_reachable x : reachable whome (with_controller x, all_alive).
Proof. eapply Reach_step; [exact wa_reachable|]. apply Step_around; [|constructor]. constructor; [|constructor]. split; [reflexivity|]. repeat split. Qed.
Example C87_ex_create : snd (create whome wdir_of (fun p => p) (lit "rnd") (Body (Some (lit "default")) None) wa) = OK (Entry (lit "default:") (lit "default") [] false) /\
  snd (create whome wdir_of (fun p => p) (lit "rnd") (Body (Some (lit "default")) (Some (lit "a"))) wa) = ServerError.
Proof. split; vm_compute; reflexivity. Qed.
Example C87_ex_list : snd (list_clusters whome all_alive [wdir] (made (Body (Some (lit "z")) (Some (lit "b"))) (made (Body (Some (lit "c")) None) (with_controller Running)))) =
  Listed [Entry (lit "default:a") (lit "default") (lit "a") true; Entry (lit "default:") (lit "default") [] false;
          Entry (lit "c:") (lit "c") [] false; Entry (lit "z:b") (lit "z") (lit "b") false].
Proof. vm_compute. reflexivity. Qed.
Example C87_ex_delete : delete_begins (lit "default:a") (with_controller Running) = Waits 0 /\
  wrun whome (fun e => e <> WList /\ e <> WDelete (lit "default:a")) (with_controller Running, all_alive) (with_controller After, all_alive).
Proof.
  split; [reflexivity|]. eapply (wrun_on _ _ _ WAround); [split; discriminate | | apply wrun_here]. apply W_around. apply Step_around; [|constructor]. constructor; [|constructor]. split; [reflexivity|]. repeat split.
Qed.

(* ------------------------------------------------------------------ refuted *)
(** The list of clusters is asked for between the end of the cluster and the end of the request (the page does so every few seconds): DELETE stops the cluster, and fails *)
Theorem C87_delete_list_refuted : ~ (forall home s t k n, reachable home s -> delete_begins k (fst s) = Waits n ->
  wrun home (fun e => e <> WDelete k) s t -> snd (delete_ends k (fst t)) = Deleted).
Proof.
  intros H. specialize (H whome (with_controller Running, all_alive) (fst (list_clusters whome all_alive [] (with_controller After)), all_alive) (lit "default:a") 0%N (with_reachable _) eq_refl).
  assert (W : wrun whome (fun e => e <> WDelete (lit "default:a")) (with_controller Running, all_alive) (fst (list_clusters whome all_alive [] (with_controller After)), all_alive)).
  { eapply (wrun_on _ _ _ WAround); [discriminate | apply W_around, (Step_around whome _ all_alive (clusters (with_controller After)) [] all_alive); [|constructor]|].
    - constructor; [|constructor]. split; [reflexivity|]. repeat split.
    - eapply (wrun_on _ _ _ WList); [discriminate | | apply wrun_here]. exact (W_list whome (with_controller After) all_alive []). }
  specialize (H W). vm_compute in H. discriminate H.
Qed.
Print Assumptions C87_delete_list_refuted.
(** and if a cluster of the same name was created after that, DELETE of the old one removes the new one from the list *)
Theorem C87_delete_other_refuted : ~ (forall home s t k n c, reachable home s -> delete_begins k (fst s) = Waits n ->
  wrun home (fun e => e <> WDelete k) s t -> on (clusters (fst t)) k c -> serial c <> n -> on (clusters (fst (delete_ends k (fst t)))) k c).
Proof.
  intros H. set (u := fst (list_clusters whome all_alive [] (with_controller After))).
  set (v := made (Body (Some (lit "default")) (Some (lit "a"))) u).
  assert (W : wrun whome (fun e => e <> WDelete (lit "default:a")) (with_controller Running, all_alive) (v, all_alive)).
  { eapply (wrun_on _ _ _ WAround); [discriminate | apply W_around, (Step_around whome _ all_alive (clusters (with_controller After)) [] all_alive); [|constructor]|].
    - constructor; [|constructor]. split; [reflexivity|]. repeat split.
    - eapply (wrun_on _ _ _ WList); [discriminate | exact (W_list whome (with_controller After) all_alive [])|].
      eapply (wrun_on _ _ _ WCreate); [discriminate | | apply wrun_here]. exact (W_create whome u all_alive wdir_of (fun p => p) (lit "rnd") _). }
  specialize (H whome _ _ (lit "default:a") 0%N (Cluster 1 (default_file wdir (lit "a")) wdir (lit "a") None []) (with_reachable Running) eq_refl W eq_refl ltac:(discriminate)).
  vm_compute in H. discriminate H.
Qed.
Print Assumptions C87_delete_other_refuted.
(** "if no cluster exists for a profile, default for no cluster id instead of random": not if the profile is given as a path *)
Theorem C87_path_refuted : ~ (forall home dir_of abspath random b s s' e p, create home dir_of abspath random b s = (s', OK e) -> clusters s = [] -> b_profile b = Some p -> p <> [] -> b_id b = None -> cluster_name e = []).
Proof.
  intros H. specialize (H whome wdir_of (fun p => p) (lit "rnd") (Body (Some (lit "/p")) None) w0 _ _ (lit "/p") eq_refl eq_refl eq_refl ltac:(discriminate) eq_refl). vm_compute in H. discriminate H.
Qed.
Print Assumptions C87_path_refuted.
(** A nameless cluster that was deleted is listed again *)
Theorem C87_back_refuted : let s := made (Body (Some (lit "default")) None) w0 in
  snd (delete_ends (lit "default:") s) = Deleted /\
  snd (list_clusters whome all_alive [wdir] (fst (delete_ends (lit "default:") s))) = Listed [Entry (lit "default:") (lit "default") [] false].
Proof. split; vm_compute; reflexivity. Qed.
Print Assumptions C87_back_refuted.
