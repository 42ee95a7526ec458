(** C72: with view.sync_imports() *)
From Coq Require Import Ascii.
From stdpp Require Import base list gmap strings.
From Verif Require Import Imports_Spec Imports_Model Imports_Proofs.
From Coq Require Import Lia.
Local Open Scope string_scope.
Local Open Scope list_scope.

(** When the block is left, in whatever way, __import__ is the original one *)
Theorem C72_restored local quiet w worlds l n : o_cur (sync_imports local quiet w worlds l n) = Original.
Proof. unfold sync_imports. destruct (body _ _ _ _ _). reflexivity. Qed.
Print Assumptions C72_restored.

(** Here the imports do what they do without sync_imports: they bind the same names to the same values, and raise the same exception *)
Theorem C72_local quiet w worlds l n : let o := sync_imports true quiet w worlds l n in o_ns o = fst (alone w l n) /\ (forall e, o_raised o = Some (InBlock e) <-> snd (alone w l n) = Some e).
Proof.
  intros o. subst o. unfold sync_imports. pose proof (body_local quiet w l (State View [] [] [] n)) as H. destruct (body true quiet w l _) as [s r]. cbn [ns] in H. rewrite H. cbn [fst snd]. split; [reflexivity|]. intros e. cbn [o_raised].
  destruct r as [[]|]; try (split; intros X; congruence). unfold first_error. destruct (find _ _); split; discriminate.
Qed.
Print Assumptions C72_local.

(** What the engines are asked to import: each import once, in the order of the block: those of the block's own frame, absolute, of modules that load, up to the first statement that disturbs *)
Theorem C72_forwarded quiet w worlds l n : (forall i, i ∈ imports_of l -> well_formed i) -> o_sent (sync_imports true quiet w worlds l n) = first_ones [] (wanted w l).
Proof.
  intros W. pose proof (body_sent quiet w l (State View [] [] [] n)) as H. cbn [sent modules cur app] in H. unfold sync_imports. destruct (body true quiet w l _) as [s r]. cbn [fst o_sent set_cur sent] in *. apply H; [|intros i X; inversion X|reflexivity|].
  - intros i [X|X]; [inversion X|apply W, X].
  - intros k. split; [intros X; inversion X|intros (i & X & _); inversion X].
Qed.
Print Assumptions C72_forwarded.
Theorem C72_which quiet w worlds l n i : (forall i, i ∈ imports_of l -> well_formed i) -> NoDup (o_sent (sync_imports true quiet w worlds l n)) /\
  (i ∈ o_sent (sync_imports true quiet w worlds l n) <-> exists p caught r, l = p ++ Do true caught i :: r /\ loads w i = true /\ i_level i = 0 /\ Forall (undisturbing w) p).
Proof.
  intros W. rewrite (C72_forwarded _ _ _ _ _ W). destruct (first_ones_spec (wanted w l) []) as [N E]. split; [exact N|]. rewrite E, wanted_spec. split; [tauto|]. intros X. split; [exact X|]. intros Y. inversion Y.
Qed.
Print Assumptions C72_which.
(** what is printed is what is sent, unless quiet *)
Lemma body_printed (loc q : bool) w l : forall s : state, (if q then printed s = [] else printed s = sent s) -> let s' := fst (body loc q w l s) in (if q then printed s' = [] else printed s' = sent s').
Proof.
  induction l as [|c l IH]; intros s H; cbn [body]; [exact H|]. destruct c as [own caught i|]; cbn [stmt_step]; [|exact H]. unfold import_stmt.
  set (r := match cur s with Original => _ | View => _ end).
  assert (K : if q then printed (fst r) = [] else printed (fst r) = sent (fst r)).
  { subst r. unfold view_import. destruct (cur s); [exact H|]. destruct (negb own); [exact H|]. destruct (negb loc); [exact H|]. destruct (negb (loads w i)); [exact H|]. destruct (_ && _); [|exact H]. cbn. destruct q; [exact H|rewrite H; reflexivity]. }
  clearbody r. destruct r as [s1 [e|]]; cbn [fst] in K.
  - destruct e; try exact K. destruct caught; [apply IH, K|exact K].
  - destruct own.
    + destruct (python_import w (ns s1) i) as [m [[]|]]; try destruct caught; try apply (IH (State _ _ _ _ m)); exact K.
    + destruct (snd (python_import w ∅ i)) as [[]|]; try destruct caught; try apply IH; exact K.
Qed.
Theorem C72_printed local quiet w worlds l n : o_printed (sync_imports local quiet w worlds l n) = if quiet then [] else o_sent (sync_imports local quiet w worlds l n).
Proof. pose proof (body_printed local quiet w l (State View [] [] [] n)) as H. unfold sync_imports. destruct (body local quiet w l _) as [s r]. cbn [fst o_printed o_sent set_cur printed sent] in *. destruct quiet; apply H; reflexivity. Qed.
Print Assumptions C72_printed.
(** local=False is not implemented: nothing is sent, and an import raises *)
Theorem C72_not_local quiet w worlds l n : let o := sync_imports false quiet w worlds l n in o_sent o = [] /\ forall caught i r, l = Do true caught i :: r -> o_raised o = Some (InBlock NotImplementedError).
Proof.
  intros o. subst o. split.
  - pose proof (not_local quiet w l (State View [] [] [] n)) as H. unfold sync_imports. destruct (body false quiet w l _). exact H.
  - intros caught i r ->. unfold sync_imports. cbn [body stmt_step]. unfold import_stmt, view_import. cbn [cur negb]. reflexivity.
Qed.
Print Assumptions C72_not_local.

(** On the engines *)
Definition importing (w : world) (n : space) (l : list import) : space := foldl (fun n i => fst (python_import w n i)) n l.
Lemma top_plain s : has_char "."%char s = false -> top s = s.
Proof. induction s as [|c s IH]; cbn [has_char top]; [reflexivity|]. intros H. apply orb_false_iff in H as [H1 H2]. rewrite H1, (IH H2). reflexivity. Qed.
Lemma remote_plain w n i : plain i -> fst (remote_import w n i) = fst (python_import w n i) /\ (snd (remote_import w n i) = None <-> snd (python_import w n i) = None).
Proof.
  intros (_ & D & S). unfold remote_import, python_import. destruct (negb _); [cbn; split; [reflexivity|split; discriminate]|]. rewrite decide_False by (intros E; rewrite E in S; apply S; left). rewrite (top_plain _ D).
  destruct (i_from i) as [|x xs]; [cbn; tauto|]. generalize (x :: xs) as l. intros l. revert n. induction l as [|y l IH]; intros n; cbn [bind_all]; [cbn; tauto|]. destruct (found w _ y); [apply IH|]. cbn. split; [reflexivity|split; discriminate].
Qed.
Lemma engine_answers w l : forall n k, snd (engine w n l) !! k = (fun i => snd (remote_import w ∅ i)) <$> l !! k.
Proof.
  induction l as [|i l IH]; intros n k; cbn [engine]; [reflexivity|]. assert (E : snd (remote_import w n i) = snd (remote_import w ∅ i)) by (unfold remote_import; destruct (negb _); [reflexivity|]; destruct (i_from i); [reflexivity|apply bind_err]).
  destruct (remote_import w n i) as [m r]. specialize (IH m). destruct (engine w m l) as [m' rs]. cbn [snd] in *. destruct k as [|k]; cbn; [rewrite E; reflexivity|apply IH].
Qed.
Lemma engine_space w l : forall n, Forall plain l -> fst (engine w n l) = importing w n l.
Proof. induction l as [|i l IH]; intros n P; cbn [engine importing foldl]; [reflexivity|]. inversion P; subst. destruct (remote_plain w n i) as [E _]; [assumption|]. destruct (remote_import w n i) as [m r]. cbn [fst] in E. specialize (IH m). destruct (engine w m l) as [m' rs]. cbn [fst] in *. rewrite IH by assumption. rewrite E. reflexivity. Qed.
(** each engine does what Python's import statement does there (for plain imports) *)
Theorem C72_engines quiet w worlds l n : (forall i, i ∈ imports_of l -> well_formed i /\ plain i) ->
  let o := sync_imports true quiet w worlds l n in o_engines o = map (fun x => importing (fst x) (snd x) (o_sent o)) worlds.
Proof.
  intros W o. assert (P : Forall plain (o_sent o)).
  { unfold o. apply Forall_forall. intros i X. apply C72_which in X; [|intros j J; apply W, J]. destruct X as (p & c & r & -> & _). apply W. unfold imports_of. rewrite omap_app. apply elem_of_app. right. cbn. left. }
  revert P. subst o. unfold sync_imports. destruct (body true quiet w l _) as [s r]. cbn [o_engines o_sent set_cur sent]. intros P. rewrite map_map. apply map_ext. intros [we ne]. apply engine_space, P.
Qed.
Print Assumptions C72_engines.
(** if the block raises nothing: an exception is raised after it if and only if one of the imports fails on some engine; it is the first such import's *)
Theorem C72_raises quiet w worlds l n : let o := sync_imports true quiet w worlds l n in snd (alone w l n) = None ->
  (o_raised o = None <-> forall i we ne, i ∈ o_sent o -> (we, ne) ∈ worlds -> snd (remote_import we ∅ i) = None) /\
  (forall k, o_raised o = Some (Remote k) <-> exists i, o_sent o !! k = Some i /\ (exists we ne, (we, ne) ∈ worlds /\ snd (remote_import we ∅ i) <> None) /\
     forall k' j we ne, k' < k -> o_sent o !! k' = Some j -> (we, ne) ∈ worlds -> snd (remote_import we ∅ j) = None)%nat.
Proof.
  intros o A. subst o. unfold sync_imports. pose proof (body_local quiet w l (State View [] [] [] n)) as H. destruct (body true quiet w l _) as [s r]. cbn [ns] in H. rewrite H in A. cbn [snd] in A. subst r. cbn [o_raised o_sent set_cur sent].
  set (answers := map snd _). set (bad := fun k => existsb (fun a : list (option exc) => match a !! k with Some (Some _) => true | _ => false end) answers).
  assert (Bad : forall k, bad k = true <-> exists i, sent s !! k = Some i /\ exists we ne, (we, ne) ∈ worlds /\ snd (remote_import we ∅ i) <> None).
  { intros k. unfold bad. rewrite existsb_exists. split.
    - intros (a & Ia & X). unfold answers in Ia. rewrite map_map in Ia. apply in_map_iff in Ia as ([we ne] & <- & Ia). cbn [fst snd] in X. rewrite engine_answers in X. destruct (sent s !! k) as [i|] eqn:E; [|discriminate]. exists i. split; [reflexivity|]. exists we, ne. split; [apply elem_of_list_In, Ia|]. cbn in X. destruct (snd (remote_import we ∅ i)); [discriminate|discriminate X].
    - intros (i & E & we & ne & Ia & X). exists (snd (engine we ne (sent s))). split; [unfold answers; rewrite map_map; apply in_map_iff; exists (we, ne); split; [reflexivity|apply elem_of_list_In, Ia]|]. rewrite engine_answers, E. cbn. destruct (snd (remote_import we ∅ i)); [reflexivity|congruence]. }
  assert (Good : forall k i we ne, bad k = false -> sent s !! k = Some i -> (we, ne) ∈ worlds -> snd (remote_import we ∅ i) = None).
  { intros k i we ne B E X. destruct (snd (remote_import we ∅ i)) eqn:Y; [|reflexivity]. exfalso. assert (bad k = true) by (apply Bad; exists i; split; [exact E|]; exists we, ne; split; [exact X|rewrite Y; discriminate]). congruence. }
  unfold first_error. fold bad. split.
  - destruct (find bad _) as [k|] eqn:F; cbn.
    + split; [discriminate|]. intros X. exfalso. apply find_some in F as [_ F]. apply Bad in F as (i & E & we & ne & Y & Z). apply Z. eapply X; [eapply elem_of_list_lookup_2; exact E|exact Y].
    + split; [|reflexivity]. intros _ i we ne X Y. apply elem_of_list_lookup in X as [k X]. eapply Good; [|exact X|exact Y]. eapply find_none; [exact F|]. apply in_seq. apply lookup_lt_Some in X. lia.
  - intros k. assert (First : find bad (seq 0 (length (sent s))) = Some k <-> (k < length (sent s))%nat /\ bad k = true /\ forall k', (k' < k)%nat -> bad k' = false).
    { generalize (length (sent s)). intros N. assert (G : forall N a, find bad (seq a N) = Some k <-> (a <= k < a + N)%nat /\ bad k = true /\ forall k', (a <= k' < k)%nat -> bad k' = false).
      { clear. induction N as [|N IH]; intros a; cbn [seq find]; [split; [discriminate|lia]|]. destruct (bad a) eqn:B.
        - split; [intros E; injection E as <-; split; [lia|]; split; [exact B|lia]|]. intros (L & Bk & F). destruct (decide (a = k)) as [->|]; [reflexivity|]. rewrite F in B by lia. discriminate.
        - rewrite IH. split; intros (L & Bk & F); (split; [|split; [exact Bk|]]).
          + lia.
          + intros k' L'. destruct (decide (k' = a)) as [->|]; [exact B|]. apply F. lia.
          + destruct (decide (a = k)) as [->|]; [congruence|lia].
          + intros k' L'. apply F. lia. }
      rewrite G. split; intros (L & Bk & F); (split; [lia|split; [exact Bk|intros; apply F; lia]]). }
    transitivity (find bad (seq 0 (length (sent s))) = Some k); [destruct (find bad _); cbn; split; congruence|]. rewrite First. split.
    + intros (L & Bk & F). apply Bad in Bk as (i & E & X). exists i. split; [exact E|]. split; [exact X|]. intros k' j we ne L' Ej Y. eapply Good; [apply F, L'|exact Ej|exact Y].
    + intros (i & E & X & F). split; [apply lookup_lt_Some in E; exact E|]. split; [apply Bad; eauto|]. intros k' L'. destruct (bad k') eqn:B; [|reflexivity]. apply Bad in B as (j & Ej & we & ne & Y & Z). exfalso. apply Z. eapply F; eauto.
Qed.
Print Assumptions C72_raises.

(** Together: if nothing is raised, the engines have the names of all imports of the block, with what is imported there; and the same here; other names are as before *)
Definition imported (w : world) (i : import) (x : string) : option value := match i_from i with [] => Some (Module (i_name i)) | _ => found w (i_name i) x end.
Lemma bind_lookup e w name xs : forall n n', bind_all e w name xs n = (n', None) -> forall x, n' !! x = if decide (x ∈ xs) then found w name x else n !! x.
Proof.
  induction xs as [|y xs IH]; intros n n' E x; cbn [bind_all] in E; [injection E as <-; rewrite decide_False by (intros X; inversion X); reflexivity|]. destruct (found w name y) as [v|] eqn:F; [|discriminate]. rewrite (IH _ _ E x).
  destruct (decide (x ∈ xs)) as [X|X]; [rewrite decide_True by (right; exact X); reflexivity|]. destruct (decide (x = y)) as [->|N].
  - rewrite lookup_insert, decide_True by left. symmetry. exact F.
  - rewrite lookup_insert_ne by congruence. rewrite decide_False; [reflexivity|]. rewrite elem_of_cons. tauto.
Qed.
Lemma python_lookup w n i : plain i -> snd (python_import w n i) = None -> forall x, fst (python_import w n i) !! x = if decide (x ∈ binds i) then imported w i x else n !! x.
Proof.
  intros (_ & D & S) E x. unfold python_import in *. destruct (negb _); [discriminate|]. rewrite decide_False in * by (intros F; rewrite F in S; apply S; left). rewrite (top_plain _ D) in *. unfold binds, imported. destruct (i_from i) as [|y l] eqn:F.
  - cbn [fst]. destruct (decide (x = i_name i)) as [->|N]; [rewrite lookup_insert, decide_True by left; reflexivity|]. rewrite lookup_insert_ne by congruence. rewrite decide_False; [reflexivity|]. rewrite elem_of_list_singleton. exact N.
  - destruct (bind_all _ _ _ _ _) as [n' r] eqn:B. cbn [snd fst] in *. subst r. apply (bind_lookup _ _ _ _ _ _ B).
Qed.
Lemma importing_lookup w l : forall n, Forall plain l -> (forall i, i ∈ l -> snd (python_import w ∅ i) = None) -> (forall i j x, i ∈ l -> j ∈ l -> x ∈ binds i -> x ∈ binds j -> i = j) ->
  (forall i x, i ∈ l -> x ∈ binds i -> importing w n l !! x = imported w i x) /\ (forall x, (forall i, i ∈ l -> x ∉ binds i) -> importing w n l !! x = n !! x).
Proof.
  induction l as [|j l IH] using rev_ind; intros n P E D; [split; [intros i x X; inversion X|reflexivity]|]. apply Forall_app in P as [P Pj]. inversion Pj; subst.
  destruct (IH n P) as [A B]; [intros i X; apply E, elem_of_app; auto|intros i i' x X Y; apply D; apply elem_of_app; auto|].
  unfold importing in *. rewrite foldl_app. cbn [foldl]. set (m := foldl _ _ _) in *. assert (Ej : snd (python_import w m j) = None) by (rewrite (python_err w m ∅); apply E, elem_of_app; right; left). pose proof (python_lookup w m j ltac:(assumption) Ej) as L. split.
  - intros i x X Y. rewrite L. destruct (decide (x ∈ binds j)) as [Z|Z].
    + rewrite (D i j x X); [reflexivity|apply elem_of_app; right; left|exact Y|exact Z].
    + apply elem_of_app in X as [X|X]; [apply A; assumption|]. apply elem_of_list_singleton in X as ->. tauto.
  - intros x N. rewrite L, decide_False by (apply N, elem_of_app; right; left). apply B. intros i X. apply N, elem_of_app. auto.
Qed.
Theorem C72_same quiet w worlds imports n : let l := map (Do true false) imports in let o := sync_imports true quiet w worlds l n in
  (forall i, i ∈ imports -> well_formed i /\ plain i) -> (forall i j x, i ∈ imports -> j ∈ imports -> x ∈ binds i -> x ∈ binds j -> i = j) -> o_raised o = None ->
  (forall i, i ∈ imports <-> i ∈ o_sent o) /\
  (forall k we ne me, worlds !! k = Some (we, ne) -> o_engines o !! k = Some me ->
     (forall i x, i ∈ imports -> x ∈ binds i -> me !! x = imported we i x /\ o_ns o !! x = imported w i x) /\
     (forall x, (forall i, i ∈ imports -> x ∉ binds i) -> me !! x = ne !! x /\ o_ns o !! x = n !! x)).
Proof.
  intros l o W D R. assert (Im : imports_of l = imports) by (unfold l, imports_of; clear; induction imports as [|i imports IH]; cbn; [reflexivity|]; f_equal; exact IH).
  pose proof (C72_local quiet w worlds l n) as [Ln Lr]. fold o in Ln, Lr.
  assert (Na : snd (alone w l n) = None) by (destruct (snd (alone w l n)) as [e|] eqn:E; [|reflexivity]; pose proof (proj2 (Lr e) eq_refl); congruence).
  assert (Al : forall imports n, snd (alone w (map (Do true false) imports) n) = None -> fst (alone w (map (Do true false) imports) n) = importing w n imports /\ forall i, i ∈ imports -> snd (python_import w ∅ i) = None).
  { clear. induction imports as [|i imports IH]; intros n H; cbn [map alone importing foldl] in *; [split; [reflexivity|intros i X; inversion X]|]. destruct (python_import w n i) as [m r] eqn:E. destruct r as [e|]; [discriminate|]. destruct (IH m H) as [A B]. split; [exact A|]. intros j J. apply elem_of_cons in J as [->|J]; [rewrite (python_err w ∅ n), E; reflexivity|apply B, J]. }
  destruct (Al imports n Na) as [A1 A2]. clear Al.
  assert (Sent : forall i, i ∈ imports <-> i ∈ o_sent o).
  { intros i. unfold o. destruct (C72_which quiet w worlds l n i) as [_ E]; [intros j J; rewrite Im in J; apply W, J|]. rewrite E. clear E. split.
    - intros X. apply elem_of_list_split in X as (a & b & ->). exists (map (Do true false) a), false, (map (Do true false) b). split; [unfold l; rewrite map_app; reflexivity|].
      assert (Ld : forall j, j ∈ a ++ i :: b -> loads w j = true) by (intros j J; specialize (A2 j J); unfold python_import in A2; destruct (loads w j); [reflexivity|discriminate]).
      split; [apply Ld, elem_of_app; right; left|]. split; [apply W, elem_of_app; right; left|]. apply Forall_forall. intros c Hc. apply elem_of_list_fmap in Hc as (j & -> & J). exists false, j. split; [reflexivity|]. split; [apply Ld, elem_of_app; auto|]. right. apply A2, elem_of_app. auto.
    - intros (p & c & r & E & _). rewrite <- Im. unfold imports_of. rewrite E, omap_app. apply elem_of_app. right. cbn. left. }
  split; [exact Sent|]. intros k we ne me Ek Em.
  assert (Wl : forall i, i ∈ imports_of l -> well_formed i /\ plain i) by (intros i X; rewrite Im in X; apply W, X).
  pose proof (C72_engines quiet w worlds l n Wl) as En. fold o in En. cbv zeta in En. rewrite En in Em. change (map ?f worlds !! k) with ((f <$> worlds) !! k) in Em. rewrite list_lookup_fmap, Ek in Em. cbn in Em. injection Em as <-.
  assert (Pl : Forall plain imports) by (apply Forall_forall; intros i X; apply W, X). assert (Ps : Forall plain (o_sent o)) by (apply Forall_forall; intros i X; apply W, Sent, X).
  pose proof (C72_raises quiet w worlds l n) as Rs. fold o in Rs. cbv zeta in Rs. destruct (Rs Na) as [Rn _]. clear Rs. pose proof (proj1 Rn R) as Ok.
  assert (Oke : forall i, i ∈ o_sent o -> snd (python_import we ∅ i) = None) by (intros i X; apply (remote_plain we ∅ i); [apply W, Sent, X|]; eapply Ok; [exact X|eapply elem_of_list_lookup_2; exact Ek]).
  assert (Ds : forall i j x, i ∈ o_sent o -> j ∈ o_sent o -> x ∈ binds i -> x ∈ binds j -> i = j) by (intros i j x X Y; apply D; apply Sent; assumption).
  destruct (importing_lookup we (o_sent o) ne Ps Oke Ds) as [E1 E2]. destruct (importing_lookup w imports n Pl A2 D) as [L1 L2]. fold l in A1. rewrite Ln, A1. split.
  - intros i x X Y. split; [apply E1; [apply Sent, X|exact Y]|apply L1; assumption].
  - intros x N. split; [apply E2; intros i X; apply N, Sent, X|apply L2, N].
Qed.
Print Assumptions C72_same.

(** What breaks it.  All with a world where everything is found *)
Definition all : world := World (fun _ => true) (fun m x => Some (Attribute m x)) (fun _ => ∅).
Definition from (m x : string) : import := Import m [x] 0.
Definition import_ (m : string) : import := Import m [] 0.
(** a function called in the block that imports something: later imports of the block do not reach the engines *)
Theorem C72_nested_refuted : exists l, snd (alone all l ∅) = None /\ Do true false (import_ "b") ∈ l /\ import_ "b" ∉ o_sent (sync_imports true true all [(all, ∅)] l ∅) /\ o_raised (sync_imports true true all [(all, ∅)] l ∅) = None.
Proof. exists [Do true false (import_ "a"); Do false false (import_ "c"); Do true false (import_ "b")]. split; [reflexivity|]. split; [apply elem_of_list_In; cbn; tauto|]. split; [|vm_compute; reflexivity]. intros X. vm_compute in X. repeat (apply elem_of_cons in X as [X|X]; [discriminate|]). inversion X. Qed.
(** try: import a except ImportError: neither *)
Theorem C72_caught_refuted : exists w l, snd (alone w l ∅) = None /\ Do true false (import_ "b") ∈ l /\ loads w (import_ "b") = true /\ import_ "b" ∉ o_sent (sync_imports true true w [(w, ∅)] l ∅) /\ o_raised (sync_imports true true w [(w, ∅)] l ∅) = None.
Proof. exists (World (fun i => negb (bool_decide (i_name i = "a"))) (fun m x => Some (Attribute m x)) (fun _ => ∅)), [Do true true (import_ "a"); Do true false (import_ "b")]. split; [reflexivity|]. split; [apply elem_of_list_In; cbn; tauto|]. split; [reflexivity|]. split; [|vm_compute; reflexivity]. intros X. vm_compute in X. inversion X. Qed.
(** import a.b: here the name a is bound, on the engines it is not *)
Theorem C72_dotted_refuted : exists m, o_engines (sync_imports true true all [(all, ∅)] [Do true false (import_ "a.b")] ∅) = [m] /\ m !! "a" = None /\ o_ns (sync_imports true true all [(all, ∅)] [Do true false (import_ "a.b")] ∅) !! "a" = Some (Module "a") /\ o_raised (sync_imports true true all [(all, ∅)] [Do true false (import_ "a.b")] ∅) = None.
Proof. eexists. split; [vm_compute; reflexivity|]. split; [vm_compute; reflexivity|]. split; vm_compute; reflexivity. Qed.
(** from a import *: works here, raises on every engine *)
Theorem C72_star_refuted : exists w, snd (alone w [Do true false (from "a" "*")] ∅) = None /\ o_raised (sync_imports true true w [(w, ∅)] [Do true false (from "a" "*")] ∅) = Some (Remote 0).
Proof. exists (World (fun _ => true) (fun m x => if bool_decide (x = "*") then None else Some (Attribute m x)) (fun _ => ∅)). split; vm_compute; reflexivity. Qed.
(** the same name from two modules: an import repeated is not repeated on the engines, which end with the other value *)
Theorem C72_again_refuted : exists l m, o_engines (sync_imports true true all [(all, ∅)] l ∅) = [m] /\ o_raised (sync_imports true true all [(all, ∅)] l ∅) = None /\ m !! "x" = Some (Attribute "b" "x") /\ o_ns (sync_imports true true all [(all, ∅)] l ∅) !! "x" = Some (Attribute "a" "x").
Proof. exists [Do true false (from "a" "x"); Do true false (from "b" "x"); Do true false (from "a" "x")]. eexists. split; [vm_compute; reflexivity|]. repeat split; vm_compute; reflexivity. Qed.

(** An example for C72_same: two modules, two engines, one of which lacks nothing *)
Example C72_example : let o := sync_imports true false all [(all, <["y" := Other 1]> ∅); (all, ∅)] (map (Do true false) [import_ "a"; from "b" "x"; import_ "a"]) ∅ in
  o_sent o = [import_ "a"; from "b" "x"] /\ o_raised o = None /\ map (fun m : space => (m !! "a", m !! "x", m !! "y")) (o_engines o) = [(Some (Module "a"), Some (Attribute "b" "x"), Some (Other 1)); (Some (Module "a"), Some (Attribute "b" "x"), None)].
Proof. vm_compute. auto. Qed.
Example C72_example_hyps : forall i, i ∈ [import_ "a"; from "b" "x"; import_ "a"] -> well_formed i /\ plain i.
Proof.
  intros i X. assert (E : i = import_ "a" \/ i = from "b" "x") by (repeat (apply elem_of_cons in X as [X|X]; [auto|]); inversion X). destruct E as [-> | ->]; (split; [split; [repeat split; discriminate|intros x Y]|split; [reflexivity|split; [reflexivity|]]]).
  - inversion Y.
  - intros Y. inversion Y.
  - apply elem_of_list_singleton in Y as ->. repeat split; discriminate.
  - intros Y. apply elem_of_list_singleton in Y. discriminate.
Qed.
(** a remote failure is reported: the second engine has no module b *)
Example C72_example_error : o_raised (sync_imports true true all [(all, ∅); (World (fun i => negb (bool_decide (i_name i = "b"))) (fun m x => Some (Attribute m x)) (fun _ => ∅), ∅)] (map (Do true false) [import_ "a"; from "b" "x"; from "b" "y"]) ∅) = Some (Remote 1).
Proof. vm_compute. reflexivity. Qed.
