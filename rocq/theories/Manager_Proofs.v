(** Lemmas for C83. *)
From Coq Require Import NArith String Ascii PeanoNat List Bool Lia.
From Verif Require Import Batch_Spec Manager_Spec Manager_Model.
Import ListNotations.

Lemma eqs_iff a b : eqs a b = true <-> a = b.
Proof. unfold eqs. destruct (list_eq_dec N.eq_dec a b); split; congruence. Qed.
Lemma eqs_refl a : eqs a a = true.
Proof. now apply eqs_iff. Qed.
Lemma eqs_ne a b : a <> b -> eqs a b = false.
Proof. intros H. destruct (eqs a b) eqn:E; auto. now apply eqs_iff in E. Qed.
Lemma get_put_same {A} k (a : A) l : get k (put k a l) = Some a.
Proof.
  induction l as [|[j b] l IH]; cbn [put get]; [now rewrite eqs_refl|]. destruct (eqs k j) eqn:E; cbn [get]; [now rewrite eqs_refl|]. now rewrite E.
Qed.
Lemma get_put_other {A} k j (a : A) l : j <> k -> get j (put k a l) = get j l.
Proof.
  intros N0. induction l as [|[i b] l IH]; cbn [put get]; [now rewrite (eqs_ne j k N0)|].
  destruct (eqs k i) eqn:E; cbn [get].
  - apply eqs_iff in E. subst i. now rewrite (eqs_ne j k N0).
  - destruct (eqs j i); auto.
Qed.
Lemma get_del_other {A} k j (l : list (list N * A)) : j <> k -> get j (del k l) = get j l.
Proof.
  intros N0. induction l as [|[i b] l IH]; cbn [del get]; [reflexivity|].
  destruct (eqs k i) eqn:E; cbn [get].
  - apply eqs_iff in E. subst i. now rewrite (eqs_ne j k N0).
  - destruct (eqs j i); auto.
Qed.
Lemma get_in {A} k (a : A) l : get k l = Some a -> In (k, a) l.
Proof.
  induction l as [|[j b] l IH]; cbn [get]; [discriminate|]. destruct (eqs k j) eqn:E; intros H.
  - apply eqs_iff in E. injection H as ->. subst. now left.
  - right. auto.
Qed.
Lemma get_none {A} k (l : list (list N * A)) : get k l = None <-> ~ In k (map fst l).
Proof.
  induction l as [|[j b] l IH]; cbn [get map fst]; [firstorder|]. destruct (eqs k j) eqn:E.
  - apply eqs_iff in E. subst. split; [discriminate|]. intros H. destruct H. now left.
  - rewrite IH. split; intros H; [intros [->|X]; [now rewrite eqs_refl in E|auto]|intros X; apply H; now right].
Qed.
Lemma in_get {A} k (a : A) l : NoDup (map fst l) -> In (k, a) l -> get k l = Some a.
Proof.
  induction l as [|[j b] l IH]; cbn [map fst]; intros H I; [destruct I|]. inversion H; subst. destruct I as [E|I].
  - injection E as -> ->. cbn [get]. now rewrite eqs_refl.
  - cbn [get]. rewrite eqs_ne; auto. intros ->. apply H2. now apply (in_map fst) in I.
Qed.
Lemma has_get {A} k (l : list (list N * A)) : has k l = true <-> exists a, get k l = Some a.
Proof. unfold has. destruct (get k l); split; [eauto|reflexivity|discriminate|intros (a & E); discriminate]. Qed.
Lemma in_del {A} x k (l : list (list N * A)) : In x (del k l) -> In x l.
Proof. induction l as [|[j b] l IH]; cbn [del]; auto. destruct (eqs k j); [now right|]. intros [->|H]; [now left|right; auto]. Qed.
Lemma fst_del {A} x k (l : list (list N * A)) : In x (map fst (del k l)) -> In x (map fst l).
Proof. rewrite !in_map_iff. intros (y & E & H). exists y. split; [exact E|]. eapply in_del; eauto. Qed.
Lemma nodup_del {A} k (l : list (list N * A)) : NoDup (map fst l) -> NoDup (map fst (del k l)).
Proof.
  induction l as [|[j b] l IH]; cbn [del map fst]; intros H; auto. inversion H; subst. destruct (eqs k j); auto. cbn [map fst]. constructor; auto.
  intros X. apply H2. eapply fst_del; eauto.
Qed.
Lemma get_del_same {A} k (l : list (list N * A)) : NoDup (map fst l) -> get k (del k l) = None.
Proof.
  induction l as [|[j b] l IH]; cbn [del map fst]; intros H; auto. inversion H; subst. destruct (eqs k j) eqn:E.
  - apply eqs_iff in E. subst. now apply get_none.
  - cbn [get]. rewrite E. auto.
Qed.
Lemma fst_put {A} x k (a : A) l : In x (map fst (put k a l)) <-> x = k \/ In x (map fst l).
Proof.
  induction l as [|[j b] l IH]; cbn [put map fst In]; [firstorder|]. destruct (eqs k j) eqn:E; cbn [map fst In].
  - apply eqs_iff in E. subst. firstorder.
  - rewrite IH. firstorder.
Qed.
Lemma nodup_put {A} k (a : A) l : NoDup (map fst l) -> NoDup (map fst (put k a l)).
Proof.
  induction l as [|[j b] l IH]; cbn [put map fst]; intros H; [constructor; [intros []|constructor]|]. inversion H; subst. destruct (eqs k j) eqn:E; cbn [map fst].
  - apply eqs_iff in E. subst. exact H.
  - constructor; auto. rewrite fst_put. intros [->|X]; [now rewrite eqs_refl in E|auto].
Qed.
Lemma in_put {A} x k (a : A) l : In x (put k a l) -> x = (k, a) \/ In x l.
Proof.
  induction l as [|[j b] l IH]; cbn [put]; [intros [<-|[]]; now left|]. destruct (eqs k j).
  - intros [<-|H]; [now left|right; now right].
  - intros [<-|H]; [right; now left|]. destruct (IH H); auto. right. now right.
Qed.
Lemma in_put_key {A} k (a b : A) l : NoDup (map fst l) -> In (k, b) (put k a l) -> b = a.
Proof. intros H I. apply in_get in I; [|now apply nodup_put]. rewrite get_put_same in I. congruence. Qed.

(* ------------------------------------------------------------ names *)
Lemma after_iff p s r : after p s = Some r <-> s = p ++ r.
Proof.
  revert s. induction p as [|a p IH]; intros s; cbn [after app]; [split; congruence|]. destruct s as [|b s]; [split; discriminate|].
  destruct (N.eqb a b) eqn:E.
  - apply N.eqb_eq in E. subst. rewrite IH. split; [now intros ->|congruence].
  - apply N.eqb_neq in E. split; [discriminate|congruence].
Qed.
Lemma no_slash x : negb (existsb (N.eqb 47) x) = true <-> ~ In 47%N x.
Proof.
  rewrite negb_true_iff. split.
  - intros H I. assert (X : existsb (N.eqb 47) x = true) by (apply existsb_exists; exists 47%N; split; [exact I|reflexivity]). congruence.
  - intros H. destruct (existsb (N.eqb 47) x) eqn:E; auto. apply existsb_exists in E. destruct E as (y & Hy & E). apply N.eqb_eq in E. now subst.
Qed.
Lemma glob_iff dir b a f : glob1 dir b a f = true <-> fits dir b a f.
Proof.
  unfold glob1, fits. split.
  - destruct (after (dir ++ lit b) f) as [r|] eqn:E; [|discriminate]. apply after_iff in E. cbv zeta. rewrite andb_true_iff, eqs_iff, no_slash. intros [H1 H2].
    exists (firstn (length r - length (lit a)) r). split; [|exact H2]. rewrite H1. now rewrite E, app_assoc.
  - intros (x & -> & H). replace (dir ++ lit b ++ x ++ lit a) with ((dir ++ lit b) ++ x ++ lit a) by now rewrite <- app_assoc.
    replace (after (dir ++ lit b) ((dir ++ lit b) ++ x ++ lit a)) with (Some (x ++ lit a)) by (symmetry; now apply after_iff).
    cbv zeta. rewrite app_length, Nat.add_sub, firstn_app, Nat.sub_diag, firstn_all, firstn_O, app_nil_r, eqs_refl. cbn [andb]. now apply no_slash.
Qed.
Lemma last_slash (a x b y : list N) : ~ In 47%N x -> ~ In 47%N y -> a ++ 47%N :: x = b ++ 47%N :: y -> a = b /\ x = y.
Proof.
  revert b. induction a as [|n a IH]; intros [|m b] Hx Hy E; cbn [app] in E.
  - split; congruence.
  - injection E as _ ->. exfalso. apply Hx. apply in_or_app. right. now left.
  - injection E as _ E. exfalso. apply Hy. rewrite <- E. apply in_or_app. right. now left.
  - injection E as -> E. apply IH in E; auto. destruct E as [-> ->]. auto.
Qed.
Lemma cluster_not_log dir dir' f : is_cluster_file dir f -> ~ fits dir' "/log/" "" f.
Proof.
  intros (x & -> & Hx) (y & E & Hy).
  change (lit "/security/cluster-") with (lit "/security" ++ 47%N :: lit "cluster-") in E. change (lit "/log/") with (lit "/log" ++ 47%N :: []) in E.
  rewrite <- !app_assoc in E. rewrite !app_assoc in E. rewrite <- (app_assoc _ (47%N :: lit "cluster-")) in E. rewrite <- !app_assoc in E. cbn [app] in E.
  rewrite (app_assoc dir), (app_assoc dir') in E. change (lit "") with (@nil N) in E. rewrite app_nil_r in E.
  apply last_slash in E; auto.
  - destruct E as [E _]. apply (f_equal (@rev N)) in E. rewrite !rev_app_distr in E. discriminate E.
  - rewrite !in_app_iff. intros [H|[H|H]]; auto; revert H; vm_compute; intuition discriminate.
Qed.
Lemma cluster_not_connection dir dir' f : is_cluster_file dir f -> ~ is_connection_file dir' f.
Proof.
  intros (x & -> & Hx) (y & E & Hy).
  change (lit "/security/cluster-") with (lit "/security" ++ 47%N :: lit "cluster-") in E.
  change (lit "/security/ipcontroller-") with (lit "/security" ++ 47%N :: lit "ipcontroller-") in E.
  rewrite <- !app_assoc in E. cbn [app] in E. rewrite (app_assoc dir), (app_assoc dir') in E.
  apply last_slash in E.
  - destruct E as [_ E]. discriminate E.
  - rewrite !in_app_iff. intros [H|[H|H]]; auto; revert H; vm_compute; intuition discriminate.
  - rewrite !in_app_iff. intros [H|[H|H]]; auto; revert H; vm_compute; intuition discriminate.
Qed.

(* ------------------------------------------------------------ what is left of a cluster *)
Definition tops (i : info) : list N := match control i with Some p => [p] | None => [] end.
Lemma reload_control alive i p : In p (tops (reload alive i)) <-> In p (tops i) /\ alive p = true.
Proof.
  unfold tops, reload. cbn [control]. destruct (control i) as [q|]; [|cbn; tauto]. destruct (alive q) eqn:E; cbn [In].
  - split; [intros [->|[]]; auto|tauto].
  - split; [tauto|]. intros [[->|[]] H]. congruence.
Qed.
Lemma reload_sets alive (l : list (list N * list N)) p :
  In p (concat (map snd (filter (fun s => match snd s with [] => false | _ => true end) (map (fun s => (fst s, filter alive (snd s))) l)))) <->
  In p (concat (map snd l)) /\ alive p = true.
Proof.
  induction l as [|[k ps] l IH]; cbn [map filter concat snd fst]; [cbn; tauto|]. rewrite in_app_iff.
  assert (F : In p (filter alive ps) <-> In p ps /\ alive p = true) by apply filter_In.
  destruct (filter alive ps) as [|q r] eqn:E; cbn [map concat snd].
  - rewrite IH. cbn [In] in F. tauto.
  - rewrite in_app_iff, IH, F. tauto.
Qed.
Lemma reload_processes alive i p : In p (processes (reload alive i)) <-> In p (processes i) /\ alive p = true.
Proof.
  unfold processes. rewrite !in_app_iff. fold (tops (reload alive i)) (tops i). rewrite reload_control. unfold reload. cbn [sets]. rewrite reload_sets. tauto.
Qed.
Lemma filter_true {A} (p : A -> bool) l : (forall x, In x l -> p x = true) -> filter p l = l.
Proof. induction l as [|a l IH]; intros H; cbn [filter]; auto. rewrite H by now left. rewrite IH; auto. intros x I. apply H. now right. Qed.
Lemma reload_twice alive i : reload alive (reload alive i) = reload alive i.
Proof.
  set (j := reload alive i). change (reload alive j) with (Info (profile j) (ident j) (match control j with Some p => if alive p then Some p else None | None => None end)
    (filter (fun s => match snd s with [] => false | _ => true end) (map (fun s => (fst s, filter alive (snd s))) (sets j)))).
  replace j with (Info (profile j) (ident j) (control j) (sets j)) at 5 by (destruct j; reflexivity). f_equal.
  - unfold j, reload. cbn [control]. destruct (control i) as [p|]; auto. destruct (alive p) eqn:E; auto. now rewrite E.
  - unfold j, reload. cbn [sets]. induction (sets i) as [|[k ps] l IH]; cbn [map filter snd fst]; auto.
    destruct (filter alive ps) as [|q r] eqn:E; auto. cbn [map snd fst].
    assert (E2 : filter alive (q :: r) = q :: r) by (apply filter_true; intros x Hx; rewrite <- E in Hx; apply filter_In in Hx; tauto).
    rewrite E2. cbn [filter snd]. f_equal. exact IH.
Qed.
Lemma restored_running n f i : is_running (restored n f i) = match control i with Some _ => true | None => false end || match sets i with [] => false | _ => true end.
Proof. unfold is_running, restored. cbn [controller engines]. destruct (control i); cbn [not_after orb]; [reflexivity|]. destruct (sets i); reflexivity. Qed.
Lemma reload_live alive n f i : is_running (restored n f (reload alive i)) = true <-> live alive i.
Proof.
  rewrite restored_running. unfold live. split.
  - intros H. assert (X : exists p, In p (processes (reload alive i))).
    { unfold processes. destruct (control (reload alive i)) as [p|]; [exists p; now left|]. cbn [orb] in H.
      unfold reload in *. cbn [sets] in *. induction (sets i) as [|[k ps] l IH]; cbn [map filter snd fst] in *; [discriminate|].
      destruct (filter alive ps) as [|q r] eqn:E; [auto|]. exists q. cbn [app map concat snd In]. now left. }
    destruct X as (p & X). apply reload_processes in X. eauto.
  - intros (p & H). apply reload_processes in H. unfold processes in H. destruct (control (reload alive i)); auto. cbn [app orb] in *.
    destruct (sets (reload alive i)); [destruct H|reflexivity].
Qed.
Lemma reload_dec alive i : live alive i \/ ~ live alive i.
Proof. rewrite <- (reload_live alive 0 []). destruct (is_running _); [now left|right; discriminate]. Qed.

(** The disk after files have been read: as it was, but for the files of which processes are gone *)
Definition looked_at (alive : N -> bool) (d0 d : disk) (f : path) : Prop :=
  exists i r, get f d0 = Some (File (Says i) r) /\
    (live alive i /\ get f d = Some (File (Says (reload alive i)) r) \/ ~ live alive i /\ get f d = None).
Definition evolves (alive : N -> bool) (p : path -> Prop) (d0 d : disk) : Prop :=
  NoDup (map fst d) /\ forall f, get f d = get f d0 \/ p f /\ looked_at alive d0 d f.

Lemma from_file_disk alive n f d : NoDup (map fst d) -> NoDup (map fst (fst (from_file alive n f d))) /\
  (forall g, g <> f -> get g (fst (from_file alive n f d)) = get g d) /\
  (get f (fst (from_file alive n f d)) = get f d \/ looked_at alive d (fst (from_file alive n f d)) f).
Proof.
  intros H. unfold from_file, looked_at. destruct (get f d) as [[[|i] r]|] eqn:E; auto 10. cbv zeta.
  destruct (info_eq_dec (reload alive i) i) as [e|e]; [cbn [fst]; auto|].
  destruct (is_running (restored n f (reload alive i))) eqn:R.
  - cbn [fst]. split; [now apply nodup_put|]. split; [intros g G; now apply get_put_other|]. right. exists i, r. split; auto. left.
    split; [now apply reload_live in R|apply get_put_same].
  - destruct r; cbn [fst]; auto. split; [now apply nodup_del|]. split; [intros g G; now apply get_del_other|]. right. exists i, true. split; auto. right.
    split; [|now apply get_del_same]. intros L. apply (reload_live alive n f) in L. congruence.
Qed.
Lemma from_file_cluster alive n f d c : snd (from_file alive n f d) = Some c -> exists i r, get f d = Some (File (Says i) r) /\ c = restored n f (reload alive i).
Proof.
  unfold from_file. destruct (get f d) as [[[|i] r]|] eqn:E; try discriminate. cbv zeta. intros H. exists i, r. split; auto.
  destruct (info_eq_dec (reload alive i) i) as [e|e]; [cbn in H; congruence|]. destruct (is_running _); [cbn in H; congruence|]. destruct r; cbn in H; congruence.
Qed.
Lemma from_file_loads alive n f d i r : get f d = Some (File (Says i) r) -> r = true \/ live alive i -> snd (from_file alive n f d) = Some (restored n f (reload alive i)).
Proof.
  intros E H. unfold from_file. rewrite E. cbv zeta. destruct (info_eq_dec (reload alive i) i) as [e|e]; [reflexivity|].
  destruct (is_running (restored n f (reload alive i))) eqn:R; [reflexivity|]. destruct r; [reflexivity|]. destruct H as [H|H]; [discriminate|].
  apply (reload_live alive n f) in H. congruence.
Qed.
Lemma live_reload alive i : live alive (reload alive i) <-> live alive i.
Proof. unfold live. split; intros (p & H1 & H2); exists p; rewrite reload_processes in *; tauto. Qed.
Lemma evolves_step alive (p : path -> Prop) d0 n f d : p f -> evolves alive p d0 d -> evolves alive p d0 (fst (from_file alive n f d)).
Proof.
  intros Pf [ND EV]. destruct (from_file_disk alive n f d ND) as (H1 & H2 & H3). split; auto. intros g.
  destruct (list_eq_dec N.eq_dec g f) as [->|N0].
  - destruct H3 as [H3|(i & r & E & H3)]; [rewrite H3; destruct (EV f) as [X|(X & Y)]; auto; right; split; auto; unfold looked_at in *; now rewrite H3|].
    right. split; auto. destruct (EV f) as [X|(_ & i0 & r0 & E0 & [[L X]|[L X]])].
    + rewrite X in E. exists i, r. split; auto.
    + rewrite X in E. injection E as <- <-. exists i0, r0. split; auto. rewrite live_reload, reload_twice in H3. exact H3.
    + congruence.
  - rewrite H2 by exact N0. destruct (EV g) as [X|(X & Y)]; auto. right. split; auto. unfold looked_at in *. now rewrite H2.
Qed.
Lemma evolves_refl alive p d : NoDup (map fst d) -> evolves alive p d d.
Proof. split; auto. Qed.
(** what a file on the disk said in the beginning *)
Lemma evolves_get alive p d0 d f x r : evolves alive p d0 d -> get f d = Some (File x r) ->
  exists y, get f d0 = Some (File y r) /\ (x = y \/ exists i, y = Says i /\ x = Says (reload alive i)).
Proof.
  intros [_ EV] E. destruct (EV f) as [X|(_ & i & r' & E0 & [[L X]|[L X]])].
  - rewrite X in E. eauto.
  - rewrite X in E. injection E as <- <-. eauto 6.
  - congruence.
Qed.

(* ------------------------------------------------------------ load *)
Lemma load_files_ind home alive known (P : state -> Prop) l :
  (forall s f, In f l -> existsb (eqs f) known = false -> P s -> P (load_file home alive known s f)) ->
  forall s, P s -> P (fold_left (load_file home alive known) l s).
Proof.
  induction l as [|f l IH]; intros H s Ps; cbn [fold_left]; auto. apply IH.
  - intros s' g G. apply H. now right.
  - destruct (existsb (eqs f) known) eqn:E; [unfold load_file; now rewrite E|]. apply H; auto. now left.
Qed.
Lemma load_ind home alive init known (P : state -> Prop) dirs :
  (forall s dir, In dir dirs -> init = true -> cluster_files (files s) dir = [] -> P s -> P (load_default home dir s)) ->
  (forall s dir f, In dir dirs -> is_cluster_file dir f -> existsb (eqs f) known = false -> P s -> P (load_file home alive known s f)) ->
  forall s, P s -> P (fold_left (load_dir home alive init known) dirs s).
Proof.
  induction dirs as [|dir dirs IH]; intros H1 H2 s Ps; cbn [fold_left]; auto. apply IH.
  - intros s' d D. apply H1. now right.
  - intros s' d f D. apply (H2 s' d f). now right.
  - unfold load_dir. cbv zeta. apply load_files_ind.
    + intros s' f F K Ps'. apply (H2 s' dir f); auto; [now left|]. unfold cluster_files in F. apply filter_In in F. now apply glob_iff.
    + destruct init; auto. destruct (cluster_files (files s) dir) eqn:E; auto. apply H1; auto. now left.
Qed.
Lemma known_iff f known : existsb (eqs f) known = false <-> ~ In f known.
Proof.
  split.
  - intros H I. assert (X : existsb (eqs f) known = true) by (apply existsb_exists; exists f; split; [exact I|apply eqs_refl]). congruence.
  - intros H. destruct (existsb (eqs f) known) eqn:E; auto. apply existsb_exists in E. destruct E as (g & G & E). apply eqs_iff in E. now subst.
Qed.
Lemma load_file_eq home alive known s f : existsb (eqs f) known = false ->
  load_file home alive known s f =
  match snd (from_file alive (next s) f (files s)) with
  | Some c => State (put (key_of home c) c (clusters s)) (N.succ (next s)) (fst (from_file alive (next s) f (files s)))
  | None => State (clusters s) (next s) (fst (from_file alive (next s) f (files s)))
  end.
Proof. intros K. unfold load_file. rewrite K. destruct (from_file alive (next s) f (files s)) as [d [c|]]; reflexivity. Qed.
