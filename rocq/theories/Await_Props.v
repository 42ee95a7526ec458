(** C71: Client.wait_for_engines *)
From stdpp Require Import base list gmap.
From Verif Require Import Await_Spec Await_Model Await_Proofs Await_Proofs2.
From Coq Require Import Lia.
Local Open Scope nat_scope.

(** the engines known to the client are those whose last notice was a registration *)
Definition here (evs : list event) (e : nat) : bool :=
  foldl (fun b ev => match ev with Register e' => if e' =? e then true else b | Unregister e' => if e' =? e then false else b | _ => b end) false evs.
Theorem C71_known sets evs : history evs -> NoDup (ids (run sets evs)) /\ forall e, e ∈ ids (run sets evs) <-> here evs e = true.
Proof.
  intros H. split; [apply run_ids_nodup, H|]. induction H as [|evs ev H IH WF]; intros e; [cbn; split; [intros X; inversion X|discriminate]|].
  rewrite run_snoc, (step_ids evs _ _ (history_inv _ _ H)). unfold here. rewrite foldl_app. cbn [foldl]. fold (here evs e). destruct ev as [| | |x|x| |]; try apply IH.
  - destruct (Nat.eqb_spec x e) as [->|N].
    + split; [reflexivity|]. intros _. destruct (bool_decide_reflect (e ∈ ids (run sets evs))) as [A|A]; [exact A|left].
    + rewrite <- IH. destruct (bool_decide _); [reflexivity|]. rewrite elem_of_cons. split; [intros [->|X]; [congruence|exact X]|auto].
  - rewrite (proj2 (remove_one_spec x _ (run_ids_nodup sets _ H))). destruct (Nat.eqb_spec x e) as [->|N]; [split; [tauto|discriminate]|]. rewrite <- IH. split; [tauto|auto].
Qed.
Print Assumptions C71_known.

(** it returns only if at some time of the wait there were n engines *)
Theorem C71_ready sets evs w : history evs -> result (run sets evs) w = Some Ready -> exists n t evs1 evs2, evs = evs1 ++ evs2 /\ Call w n t ∈ evs1 /\ n <= length (ids (run sets evs1)).
Proof.
  intros H R. apply (ended_at sets _ _ _ H) in R as (evs1 & ev & evs2 & -> & H1 & R & N). pose proof (history_app _ _ H1) as H0. pose proof (history_inv sets _ H0) as I.
  destruct ev as [v n t|v|v|e|e|k|v]; cbn [news] in N.
  - destruct (decide (w = v)) as [<-|]; [|discriminate]. destruct (n <=? _) eqn:L; [|discriminate]. apply Nat.leb_le in L. exists n, t, (evs1 ++ [Call w n t]), evs2. split; [rewrite <- app_assoc; reflexivity|]. split; [apply snoc_self|]. rewrite run_snoc. exact L.
  - destruct (decide _); [|discriminate]. destruct (find _ _); discriminate.
  - discriminate.
  - cbv zeta in N. destruct (decide _) as [[X Y]|]; [|discriminate]. apply reached_in, (i_cbs _ _ I) in X as [_ (n & t & P)]. exists n, t, (evs1 ++ [Register e]), evs2. split; [rewrite <- app_assoc; reflexivity|]. split; [apply elem_of_app; left; eapply (i_w _ _ I), P|].
    rewrite run_snoc, (step_ids evs1 _ _ I). unfold enough in Y. cbn [set_ids waits ids] in Y. rewrite P in Y. apply Nat.leb_le, Y.
  - destruct (decide _); discriminate.
  - destruct (decide _); discriminate.
  - destruct (waits (run sets evs1) !! v) as [[n [] [x|]]|] eqn:E; try discriminate. destruct (decide (w = v)) as [<-|]; [|discriminate]. destruct (n <=? _) eqn:L; [|discriminate]. apply Nat.leb_le in L. exists n, true, evs1, (Timer w :: evs2). split; [reflexivity|]. split; [eapply (i_w _ _ I), E|exact L].
Qed.
Print Assumptions C71_ready.
(** TimeoutError only if a timeout was given, it has passed, and there are fewer engines at that time *)
Theorem C71_timeout sets evs w : history evs -> result (run sets evs) w = Some TimedOut -> exists n evs1 evs2, evs = evs1 ++ Timer w :: evs2 /\ Call w n true ∈ evs1 /\ length (ids (run sets evs1)) < n.
Proof.
  intros H R. apply (ended_at sets _ _ _ H) in R as (evs1 & ev & evs2 & -> & H1 & R & N). pose proof (history_app _ _ H1) as H0. pose proof (history_inv sets _ H0) as I.
  destruct ev as [v n t|v|v|e|e|k|v]; cbn [news] in N; try (destruct (decide _); discriminate); try discriminate.
  - destruct (decide _); [|discriminate]. destruct (n <=? _); discriminate.
  - destruct (decide _); [|discriminate]. destruct (find _ _); discriminate.
  - destruct (waits (run sets evs1) !! v) as [[n [] [x|]]|] eqn:E; try discriminate. destruct (decide (w = v)) as [<-|]; [|discriminate]. destruct (n <=? _) eqn:L; [discriminate|]. apply Nat.leb_gt in L. exists n, evs1, evs2. split; [reflexivity|]. split; [eapply (i_w _ _ I), E|exact L].
Qed.
Print Assumptions C71_timeout.
(** EngineError only if an engine unregistered, or an engine set stopped, while waiting (or the set had stopped before) *)
Theorem C71_gone sets evs w e : history evs -> result (run sets evs) w = Some (EngineGone e) -> exists evs1 evs2, evs = evs1 ++ Unregister e :: evs2 /\ Install w ∈ evs1 /\ result (run sets evs1) w = None.
Proof.
  intros H R. apply (ended_at sets _ _ _ H) in R as (evs1 & ev & evs2 & -> & H1 & R & N). pose proof (history_app _ _ H1) as H0. pose proof (history_inv sets _ H0) as I.
  destruct ev as [v n t|v|v|x|x|k|v]; cbn [news] in N; try discriminate.
  - destruct (decide _); [|discriminate]. destruct (n <=? _); discriminate.
  - destruct (decide _); [|discriminate]. destruct (find _ _); discriminate.
  - cbv zeta in N. destruct (decide _); discriminate.
  - destruct (decide _) as [X|]; [|discriminate]. assert (x = e) as -> by congruence. exists evs1, evs2. split; [reflexivity|]. split; [|exact R]. apply reached_in, (i_cbs _ _ I) in X. tauto.
  - destruct (decide _); discriminate.
  - destruct (waits (run sets evs1) !! v) as [[n [] [y|]]|] eqn:E; try discriminate. destruct (decide (w = v)) as [<-|]; [|discriminate]. destruct (n <=? _); discriminate.
Qed.
Print Assumptions C71_gone.
Theorem C71_stopped sets evs w k : history evs -> result (run sets evs) w = Some (SetStopped k) -> k < sets /\ exists evs1 evs2, evs = evs1 ++ evs2 /\ Stop k ∈ evs1 /\ Watch w ∈ evs1.
Proof.
  intros H R. apply (ended_at sets _ _ _ H) in R as (evs1 & ev & evs2 & -> & H1 & R & N). pose proof (history_app _ _ H1) as H0. pose proof (history_inv sets _ H0) as I.
  destruct ev as [v n t|v|v|x|x|j|v]; cbn [news] in N; try discriminate.
  - destruct (decide _); [|discriminate]. destruct (n <=? _); discriminate.
  - destruct (decide (w = v /\ _)) as [[<- _]|]; [|discriminate]. destruct (find _ _) as [j|] eqn:F; [|discriminate]. assert (j = k) as -> by (cbn in N; congruence). apply find_some in F as [_ F]. apply bool_decide_eq_true in F. apply (run_after _ _ _ H0) in F as [A B]. split; [exact B|].
    exists (evs1 ++ [Watch w]), evs2. split; [rewrite <- app_assoc; reflexivity|]. split; [apply elem_of_app; auto|apply snoc_self].
  - cbv zeta in N. destruct (decide _); discriminate.
  - destruct (decide _); discriminate.
  - destruct (decide _) as [(A & B & X)|]; [|discriminate]. assert (j = k) as -> by congruence. split; [rewrite <- (run_stops sets _ H0); exact B|]. exists (evs1 ++ [Stop k]), evs2. split; [rewrite <- app_assoc; reflexivity|]. split; [apply snoc_self|]. apply elem_of_app. left.
    destruct (lookup_lt_is_Some_2 _ _ B) as [l El]. rewrite El in X. cbn in X. apply reached_in, (proj2 (i_st _ _ I k l El)) in X. tauto.
  - destruct (waits (run sets evs1) !! v) as [[n [] [y|]]|] eqn:E; try discriminate. destruct (decide (w = v)) as [<-|]; [|discriminate]. destruct (n <=? _); discriminate.
Qed.
Print Assumptions C71_stopped.
(** a wait ends once *)
Theorem C71_once sets evs1 evs2 w o : history (evs1 ++ evs2) -> result (run sets evs1) w = Some o -> result (run sets (evs1 ++ evs2)) w = Some o.
Proof. apply keeps. Qed.
Print Assumptions C71_once.
(** with a timeout it ends at the latest then, and rightly *)
Theorem C71_deadline sets evs w n : history (evs ++ [Timer w]) -> Call w n true ∈ evs ->
  exists o, result (run sets (evs ++ [Timer w])) w = Some o /\ (result (run sets evs) w = None -> o = if n <=? length (ids (run sets evs)) then Ready else TimedOut).
Proof.
  intros H C. pose proof (history_app _ _ H) as H0. pose proof (history_inv sets _ H0) as I. rewrite run_snoc, (step_result evs _ _ w I (history_last _ _ H)). destruct (result (run sets evs) w) as [o|] eqn:R; [exists o; split; [reflexivity|discriminate]|]. cbn [news].
  destruct (i_c _ _ I _ _ _ C) as [x X]. unfold result in R. rewrite X in R. cbn in R. subst x. rewrite X, decide_True by reflexivity. eexists. split; [reflexivity|]. reflexivity.
Qed.
Print Assumptions C71_deadline.

(** Which waits notice a new engine: the client calls the callbacks of the waits, in the order of their installation, but skips the one after each that ends *)
Definition installs (evs : list event) : list nat := omap (fun ev => match ev with Install w => Some w | _ => None end) evs.
Lemma sublist_filter_eq (P : nat -> Prop) (dec : forall x, Decision (P x)) l k : sublist l k -> NoDup k -> (forall x, x ∈ l <-> P x /\ x ∈ k) -> l = filter P k.
Proof.
  induction 1 as [|x l k S IH|x l k S IH]; intros N H; [reflexivity| |]; apply NoDup_cons in N as [X N].
  - assert (Px : P x) by (apply H; left). rewrite filter_cons_True by exact Px. f_equal. apply IH; [exact N|]. intros y. split.
    + intros Y. split; [apply H; right; exact Y|]. apply (elem_of_submseteq _ _ _ Y), sublist_submseteq, S.
    + intros [PY Y]. assert (Z : y ∈ x :: l) by (apply H; split; [exact PY|right; exact Y]). apply elem_of_cons in Z as [->|Z]; [contradiction|exact Z].
  - assert (Px : ~ P x). { intros Px. assert (Z : x ∈ l) by (apply H; split; [exact Px|left]). apply X. apply (elem_of_submseteq _ _ _ Z), sublist_submseteq, S. }
    rewrite filter_cons_False by exact Px. apply IH; [exact N|]. intros y. rewrite H, elem_of_cons. split; [intros [A [->|B]]; [contradiction|auto]|intros [A B]; auto].
Qed.
Lemma installs_in evs w : w ∈ installs evs <-> Install w ∈ evs.
Proof.
  unfold installs. rewrite elem_of_list_omap. split; [intros (ev & E & H); destruct ev; try discriminate; injection H as ->; exact E|intros E; exists (Install w); auto].
Qed.
Lemma installs_nodup evs : history evs -> NoDup (installs evs).
Proof.
  induction 1 as [|evs ev H IH WF]; [constructor|]. unfold installs. rewrite omap_app. fold (installs evs). destruct ev; cbn; rewrite ?app_nil_r; try exact IH. apply NoDup_app. split; [exact IH|]. split; [|apply NoDup_singleton]. intros x X Y. apply elem_of_list_singleton in Y as ->. apply installs_in in X. cbn in WF. tauto.
Qed.
Lemma remove_one_sublist x l : sublist (remove_one x l) l.
Proof. induction l as [|a l IH]; cbn [remove_one]; [constructor|]. destruct (a =? x); [apply sublist_cons; reflexivity|apply sublist_skip, IH]. Qed.
Lemma finish_sublist w o s : sublist (callbacks (finish w o s)) (callbacks s).
Proof. unfold finish. destruct (waits s !! w) as [[n t [x|]]|]; try reflexivity. apply remove_one_sublist. Qed.
Lemma finish_all_sublist o l : forall s, sublist (callbacks (finish_all o l s)) (callbacks s).
Proof. induction l as [|a l IH]; intros s; [reflexivity|]. unfold finish_all. cbn [foldl]. etransitivity; [apply IH|apply finish_sublist]. Qed.
Lemma callbacks_sublist sets evs : history evs -> sublist (callbacks (run sets evs)) (installs evs).
Proof.
  induction 1 as [|evs ev H IH WF]; [constructor|]. rewrite run_snoc. unfold installs. rewrite omap_app. fold (installs evs). pose proof (history_inv sets _ H) as I. destruct ev as [w n t|w|w|e|e|k|w].
  - cbn. rewrite app_nil_r. exact IH.
  - cbn [omap list_omap]. rewrite app_nil_r. cbn [step]. unfold watch. destruct (find _ _); [etransitivity; [apply finish_sublist|exact IH]|]. destruct (waits (run sets evs) !! w) as [[? ? [?|]]|]; exact IH.
  - cbn [step omap list_omap]. unfold install. destruct (waits (run sets evs) !! w) as [[? ? [?|]]|]; cbn [callbacks]; try (apply sublist_inserts_r; exact IH). apply sublist_app; [exact IH|reflexivity].
  - cbn [omap list_omap]. rewrite app_nil_r, (register_ok evs _ e I). cbv zeta. etransitivity; [apply finish_all_sublist|exact IH].
  - cbn [omap list_omap]. rewrite app_nil_r, (unregister_ok evs _ e I). cbv zeta. etransitivity; [apply finish_all_sublist|exact IH].
  - cbn [omap list_omap]. rewrite app_nil_r. destruct (decide (k ∈ after (run sets evs))) as [Ka|Ka]; [cbn [step]; rewrite bool_decide_eq_true_2 by exact Ka; exact IH|]. destruct (decide (k < length (stops (run sets evs)))) as [Lk|Lk].
    + rewrite (stop_ok evs _ k I Ka Lk). cbv zeta. etransitivity; [apply finish_all_sublist|exact IH].
    + cbn [step]. rewrite bool_decide_eq_false_2 by exact Ka. replace (k <? length (stops (run sets evs))) with false by (symmetry; apply Nat.ltb_ge; lia). exact IH.
  - cbn [omap list_omap]. rewrite app_nil_r. cbn [step]. unfold on_timeout. destruct (waits (run sets evs) !! w) as [[? [] [?|]]|]; try exact IH. etransitivity; [apply finish_sublist|exact IH].
Qed.
(** the waits going on, in the order of installation *)
Definition going_on (sets : nat) (evs : list event) : list nat := filter (fun w => result (run sets evs) w = None) (installs evs).
Lemma callbacks_are sets evs : history evs -> callbacks (run sets evs) = going_on sets evs.
Proof.
  intros H. unfold going_on. apply sublist_filter_eq; [apply callbacks_sublist, H|apply installs_nodup, H|]. intros w. pose proof (history_inv sets _ H) as I. rewrite (i_cbs _ _ I), installs_in. split.
  - intros [A (n & P)]. split; [apply (result_pending _ _ _ P)|exact A].
  - intros [R A]. split; [exact A|]. destruct (history_order _ H) as [H1 H2]. destruct (H2 w (H1 w A)) as (n & t & C). exists n. apply (pending_result _ _ _ _ I). eauto.
Qed.
Theorem C71_register sets evs e w n t : history (evs ++ [Register e]) -> Call w n t ∈ evs -> Install w ∈ evs -> result (run sets evs) w = None ->
  let s' := run sets (evs ++ [Register e]) in
  let ends v := existsb (fun ev => match ev with Call v' m _ => (v' =? v) && (m <=? length (ids s')) | _ => false end) evs in
  (result s' w = Some Ready <-> n <= length (ids s') /\ w ∈ reached ends false (going_on sets evs)) /\ (result s' w = None <-> ~ (n <= length (ids s') /\ w ∈ reached ends false (going_on sets evs))).
Proof.
  intros H C In R s' ends. pose proof (history_app _ _ H) as H0. pose proof (history_inv sets _ H0) as I. subst ends s'. rewrite !run_snoc. set (ends := fun v : nat => existsb _ evs). rewrite !(step_result evs _ _ w I (history_last _ _ H)), R. cbn [news].
  assert (Ids : ids (step (run sets evs) (Register e)) = (if bool_decide (e ∈ ids (run sets evs)) then ids (run sets evs) else e :: ids (run sets evs))) by exact (step_ids evs _ (Register e) I).
  cbv zeta. rewrite <- Ids. set (s1 := set_ids _ _).
  assert (En : forall v, v ∈ callbacks (run sets evs) -> enough s1 v = ends v).
  { intros v V. apply (i_cbs _ _ I) in V as [_ (m & u & P)]. unfold enough, s1, set_ids. cbn [waits ids]. rewrite P. cbn [w_n]. unfold ends. symmetry. destruct (m <=? length (ids (step (run sets evs) (Register e)))) eqn:L.
    - apply existsb_exists. exists (Call v m u). split; [apply elem_of_list_In; eapply (i_w _ _ I), P|]. rewrite Nat.eqb_refl. exact L.
    - destruct (existsb _ evs) eqn:X; [|reflexivity]. apply existsb_exists in X as (ev & E & X). apply elem_of_list_In in E. destruct ev as [v' m' u'| | | | | |]; try discriminate. apply andb_true_iff in X as [X Y]. apply Nat.eqb_eq in X. subst v'. destruct (i_c _ _ I _ _ _ E) as [x X]. rewrite P in X. injection X as <- <- _. congruence. }
  assert (Re : reached (enough s1) false (callbacks (run sets evs)) = reached ends false (callbacks (run sets evs))).
  { revert En. generalize (callbacks (run sets evs)) as l. intros l. generalize false. induction l as [|a l IH]; intros b K; cbn [reached]; [reflexivity|]. rewrite (K a (elem_of_list_here _ _)). rewrite !IH by (intros v V; apply K; right; exact V). reflexivity. }
  rewrite Re, (callbacks_are sets _ H0).
  assert (Pw : pending (run sets evs) w n) by (apply (pending_result _ _ _ _ I); eauto).
  assert (Ew : enough s1 w = true <-> n <= length (ids (step (run sets evs) (Register e)))) by (destruct Pw as [u Pw]; unfold enough, s1, set_ids; cbn [waits ids]; rewrite Pw; cbn [w_n]; apply Nat.leb_le).
  destruct (decide _) as [[X Y]|X].
  - split; split; intros Z; [split; [apply Ew, Y|exact X]|reflexivity|discriminate|exfalso; apply Z; split; [apply Ew, Y|exact X]].
  - split; split; intros Z; [discriminate|exfalso; apply X; split; [tauto|apply Ew; tauto]|intros [A B]; apply X; split; [exact B|apply Ew, A]|reflexivity].
Qed.
Print Assumptions C71_register.
(** so: the wait that has waited longest, and one whose predecessor does not end, is not skipped *)
Theorem C71_first sets evs e w n t l : history (evs ++ [Register e]) -> Call w n t ∈ evs -> going_on sets evs = w :: l -> n <= length (ids (run sets (evs ++ [Register e]))) -> result (run sets (evs ++ [Register e])) w = Some Ready.
Proof.
  intros H C G L. assert (W : w ∈ going_on sets evs) by (rewrite G; left). unfold going_on in W. apply elem_of_list_filter in W as [R W]. apply installs_in in W. pose proof (C71_register sets evs e w n t H C W R) as X. cbv zeta in X. apply X. split; [exact L|]. rewrite G. cbn [reached]. left.
Qed.
Print Assumptions C71_first.

(** One wait at a time, and nothing in between its look at the engines and its installation: it ends as soon as there are n engines, one goes, or an engine set stops *)
Theorem C71_prompt sets evs1 evs2 w n t : history (evs1 ++ [Call w n t; Watch w; Install w] ++ evs2) -> (forall v m u, Call v m u ∈ evs1 ++ [Call w n t; Watch w; Install w] ++ evs2 -> v = w) ->
  result (run sets (evs1 ++ [Call w n t; Watch w; Install w] ++ evs2)) w = None ->
  length (ids (run sets (evs1 ++ [Call w n t; Watch w; Install w] ++ evs2))) < n /\ (forall e, Unregister e ∉ evs2) /\ (forall k, k < sets -> Stop k ∉ evs1 ++ evs2) /\ (t = true -> Timer w ∉ evs2).
Proof.
  induction evs2 as [|ev evs2 IH] using rev_ind.
  - rewrite app_nil_r. intros H O R.
    replace (evs1 ++ [Call w n t; Watch w; Install w]) with (((evs1 ++ [Call w n t]) ++ [Watch w]) ++ [Install w]) in * by (rewrite <- !app_assoc; reflexivity).
    pose proof (history_app _ _ H) as H2. pose proof (history_app _ _ H2) as H1. pose proof (history_app _ _ H1) as H0. pose proof (history_inv sets _ H0) as I0. pose proof (history_inv sets _ H1) as I1. pose proof (history_inv sets _ H2) as I2.
    rewrite run_snoc, (step_result _ _ _ w I2 (history_last _ _ H)) in R. destruct (result (run sets ((evs1 ++ [Call w n t]) ++ [Watch w])) w) eqn:R2; [discriminate|]. clear R.
    pose proof R2 as R2'. rewrite run_snoc, (step_result _ _ _ w I1 (history_last _ _ H2)) in R2'. destruct (result (run sets (evs1 ++ [Call w n t])) w) eqn:R1; [discriminate|].
    pose proof R1 as R1'. rewrite run_snoc, (step_result _ _ _ w I0 (history_last _ _ H1)) in R1'. destruct (result (run sets evs1) w) eqn:R0; [discriminate|]. cbn [news] in R1', R2'. rewrite decide_True in R1' by reflexivity. destruct (n <=? length (ids (run sets evs1))) eqn:L; [discriminate|]. apply Nat.leb_gt in L.
    rewrite run_snoc, (step_ids _ _ _ I2), run_snoc, (step_ids _ _ _ I1), run_snoc, (step_ids _ _ _ I0). split; [exact L|]. split; [intros e X; inversion X|]. split; [|intros _ X; inversion X].
    intros k Lk X. rewrite app_nil_r in X. rewrite decide_True in R2'.
    2:{ split; [reflexivity|]. exists n. apply (pending_result _ _ _ _ I1). split; [exact R1|]. exists t. apply snoc_self. }
    destruct (find _ _) eqn:F; [discriminate|]. pose proof (find_none _ _ F k) as Z. rewrite (run_stops sets _ H1) in Z. specialize (Z ltac:(apply in_seq; lia)). cbv beta in Z. apply bool_decide_eq_false in Z. apply Z. apply (run_after _ _ _ H1). split; [apply elem_of_app; left; exact X|exact Lk].
  - intros H O R. rewrite !app_assoc in *. rewrite <- (app_assoc evs1) in *. set (evs := evs1 ++ [Call w n t; Watch w; Install w] ++ evs2) in *.
    assert (Ev : (evs1 ++ [Call w n t; Watch w; Install w]) ++ evs2 = evs) by (unfold evs; rewrite <- app_assoc; reflexivity).
    pose proof (history_app _ _ H) as H0. pose proof (history_inv sets _ H0) as I. pose proof R as R'. rewrite run_snoc, (step_result _ _ _ w I (history_last _ _ H)) in R'. destruct (result (run sets evs) w) eqn:R0; [discriminate|].
    destruct (IH H0) as (A & B & C & T); [intros v m u X; apply (O v m u), elem_of_app; left; exact X|reflexivity|].
    assert (Cw : Call w n t ∈ evs) by (unfold evs; apply elem_of_app; right; left).
    assert (Iw : Install w ∈ evs) by (unfold evs; apply elem_of_app; right; right; right; left).
    assert (Ww : Watch w ∈ evs) by (unfold evs; apply elem_of_app; right; right; left).
    assert (Pw : pending (run sets evs) w n) by (apply (pending_result _ _ _ _ I); eauto).
    assert (Only : forall v m, pending (run sets evs) v m -> v = w) by (intros v m P; apply (pending_result _ _ _ _ I) in P as (_ & u & P); apply (O v m u), elem_of_app; left; exact P).
    assert (Cb : callbacks (run sets evs) = [w]).
    { pose proof (i_cb _ _ I) as N. assert (W : w ∈ callbacks (run sets evs)) by (apply (i_cbs _ _ I); eauto). assert (K : forall v, v ∈ callbacks (run sets evs) -> v = w) by (intros v V; apply (i_cbs _ _ I) in V as [_ (m & V)]; apply (Only v m V)).
      destruct (callbacks (run sets evs)) as [|a [|b l]]; [inversion W|rewrite (K a (elem_of_list_here _ _)); reflexivity|]. exfalso. apply NoDup_cons in N as [N _]. apply N. rewrite (K a (elem_of_list_here _ _)), <- (K b); [left|right; left]. }
    rewrite run_snoc, (step_ids _ _ _ I). destruct ev as [v m u|v|v|e|e|k|v]; cbn [news] in R'.
    + assert (v = w) as -> by (apply (O v m u), snoc_self). exfalso. apply (history_last _ _ H n t Cw).
    + split; [exact A|]. repeat split; [intros e X|intros k Lk X|intros E X]; rewrite ?app_assoc in X; rewrite snoc_other in X by discriminate; [eapply B, X|eapply C; [exact Lk|exact X]|exact (T E X)].
    + split; [exact A|]. repeat split; [intros e X|intros k Lk X|intros E X]; rewrite ?app_assoc in X; rewrite snoc_other in X by discriminate; [eapply B, X|eapply C; [exact Lk|exact X]|exact (T E X)].
    + cbv zeta in R'. rewrite Cb in R'. cbn [reached] in R'. set (ids1 := if bool_decide (e ∈ ids (run sets evs)) then ids (run sets evs) else e :: ids (run sets evs)) in *. split.
      * destruct (decide _) as [X|X] in R'; [discriminate|]. destruct (decide (n <= length ids1)) as [L|L]; [|lia]. exfalso. apply X. split; [left|]. destruct Pw as [u Pw]. unfold enough, set_ids. cbn [waits ids]. rewrite Pw. apply Nat.leb_le, L.
      * repeat split; [intros x X|intros k Lk X|intros E X]; rewrite ?app_assoc in X; rewrite snoc_other in X by discriminate; [eapply B, X|eapply C; [exact Lk|exact X]|exact (T E X)].
    + rewrite Cb in R'. cbn [reached] in R'. rewrite decide_True in R' by left. discriminate.
    + split; [exact A|]. repeat split; [intros e X; rewrite snoc_other in X by discriminate; eapply B, X| |intros E X; rewrite snoc_other in X by discriminate; exact (T E X)].
      intros j Lj X. rewrite ?app_assoc in X. apply elem_of_app in X as [X|X]; [eapply C; [exact Lj|exact X]|]. apply elem_of_list_singleton in X. injection X as ->. 
      assert (Na : k ∉ after (run sets evs)) by (rewrite (run_after _ _ _ H0); intros [X _]; unfold evs in X; apply (C k Lj); apply elem_of_app; apply elem_of_app in X as [X|X]; [left; exact X|right]; cbn in X; apply elem_of_cons in X as [X|X]; [discriminate|]; apply elem_of_cons in X as [X|X]; [discriminate|]; apply elem_of_cons in X as [X|X]; [discriminate|exact X]).
      rewrite <- (run_stops sets _ H0) in Lj. destruct (lookup_lt_is_Some_2 _ _ Lj) as [l El]. rewrite El in R'. cbn [default from_option id] in R'. destruct (i_st _ _ I k l El) as [N W].
      assert (El1 : l = [w]).
      { assert (Wl : w ∈ l) by (apply W; eauto). assert (K : forall v, v ∈ l -> v = w) by (intros v V; apply W in V as [_ (m & V)]; apply (Only v m V)).
        destruct l as [|a [|b l]]; [inversion Wl|rewrite (K a (elem_of_list_here _ _)); reflexivity|]. exfalso. apply NoDup_cons in N as [N _]. apply N. rewrite (K a (elem_of_list_here _ _)), <- (K b); [left|right; left]. }
      rewrite El1 in R'. cbn [reached] in R'. rewrite decide_True in R'; [discriminate|]. split; [exact Na|]. split; [exact Lj|left].
    + split; [exact A|]. repeat split; [intros e X; rewrite snoc_other in X by discriminate; eapply B, X|intros k Lk X; rewrite ?app_assoc in X; rewrite snoc_other in X by discriminate; eapply C; [exact Lk|exact X]|].
      intros -> X. apply elem_of_app in X as [X|X]; [exact (T eq_refl X)|]. apply elem_of_list_singleton in X. injection X as <-. destruct Pw as [u Pw]. pose proof (i_w _ _ I _ _ _ _ Pw) as Cu. destruct (i_c _ _ I _ _ _ Cw) as [x X]. rewrite Pw in X. injection X as -> _. rewrite Pw, decide_True in R' by reflexivity. discriminate.
Qed.
Print Assumptions C71_prompt.

Fixpoint check (seen todo : list event) : bool :=
  match todo with
  | [] => true
  | ev :: todo =>
      match ev with
      | Call w _ _ => forallb (fun x => match x with Call v _ _ => negb (v =? w) | _ => true end) seen
      | Watch w => existsb (fun x => match x with Call v _ _ => v =? w | _ => false end) seen && forallb (fun x => match x with Watch v => negb (v =? w) | _ => true end) seen
      | Install w => existsb (fun x => match x with Watch v => v =? w | _ => false end) seen && forallb (fun x => match x with Install v => negb (v =? w) | _ => true end) seen
      | Timer w => existsb (fun x => match x with Install v => v =? w | _ => false end) seen && existsb (fun x => match x with Call v _ t => (v =? w) && t | _ => false end) seen
      | _ => true
      end && check (seen ++ [ev]) todo
  end.
Lemma check_ok todo : forall seen, history seen -> check seen todo = true -> history (seen ++ todo).
Proof.
  induction todo as [|ev todo IH]; intros seen H C; [rewrite app_nil_r; exact H|]. cbn [check] in C. apply andb_true_iff in C as [C1 C2]. replace (seen ++ ev :: todo) with ((seen ++ [ev]) ++ todo) by (rewrite <- app_assoc; reflexivity). apply IH; [|exact C2]. apply h_snoc; [exact H|].
  destruct ev as [w n t|w|w|e|e|k|w]; cbn [well_formed_after]; try exact I.
  - intros m u X. rewrite forallb_forall in C1. apply elem_of_list_In in X. specialize (C1 _ X). cbn in C1. rewrite Nat.eqb_refl in C1. discriminate.
  - apply andb_true_iff in C1 as [A B]. split.
    + apply existsb_exists in A as (x & X & E). destruct x as [v m u| | | | | |]; try discriminate. apply Nat.eqb_eq in E as ->. exists m, u. apply elem_of_list_In, X.
    + intros X. rewrite forallb_forall in B. apply elem_of_list_In in X. specialize (B _ X). cbn in B. rewrite Nat.eqb_refl in B. discriminate.
  - apply andb_true_iff in C1 as [A B]. split.
    + apply existsb_exists in A as (x & X & E). destruct x as [| | | | | |]; try discriminate. apply Nat.eqb_eq in E as ->. apply elem_of_list_In, X.
    + intros X. rewrite forallb_forall in B. apply elem_of_list_In in X. specialize (B _ X). cbn in B. rewrite Nat.eqb_refl in B. discriminate.
  - apply andb_true_iff in C1 as [A B]. split.
    + apply existsb_exists in A as (x & X & E). destruct x as [| | | | | |]; try discriminate. apply Nat.eqb_eq in E as ->. apply elem_of_list_In, X.
    + apply existsb_exists in B as (x & X & E). destruct x as [v m u| | | | | |]; try discriminate. apply andb_true_iff in E as [E ->]. apply Nat.eqb_eq in E as ->. exists m. apply elem_of_list_In, X.
Qed.
(** Not prompt in general: with two waits for the same engines the second is skipped, and goes on though there are engines enough *)
Theorem C71_two_waits_refuted : exists evs, history evs /\ ids (run 0 evs) = [0] /\ result (run 0 evs) 1 = Some Ready /\ Call 2 1 false ∈ evs /\ Install 2 ∈ evs /\ result (run 0 evs) 2 = None.
Proof.
  exists [Call 1 1 false; Watch 1; Install 1; Call 2 1 false; Watch 2; Install 2; Register 0]. split; [apply (check_ok _ []); [constructor|reflexivity]|]. split; [reflexivity|]. split; [vm_compute; reflexivity|]. split; [apply elem_of_list_In; cbn; tauto|]. split; [apply elem_of_list_In; cbn; tauto|vm_compute; reflexivity].
Qed.
(** an engine that registers between the look at the engines and the installation is not noticed *)
Theorem C71_window_refuted : exists evs, history evs /\ ids (run 0 evs) = [0] /\ Call 1 1 false ∈ evs /\ Install 1 ∈ evs /\ result (run 0 evs) 1 = None.
Proof.
  exists [Call 1 1 false; Register 0; Watch 1; Install 1]. split; [apply (check_ok _ []); [constructor|reflexivity]|]. split; [reflexivity|]. split; [apply elem_of_list_In; cbn; tauto|]. split; [apply elem_of_list_In; cbn; tauto|vm_compute; reflexivity].
Qed.
Example C71_example : exists evs, history evs /\ map (result (run 1 evs)) [1; 2; 3; 4] = [Some Ready; Some TimedOut; Some (EngineGone 7); Some (SetStopped 0)].
Proof.
  exists [Call 1 2 false; Watch 1; Install 1; Call 2 3 true; Watch 2; Install 2; Register 5; Register 7; Timer 2; Call 3 3 false; Watch 3; Install 3; Unregister 7; Call 4 2 false; Watch 4; Install 4; Stop 0].
  split; [apply (check_ok _ []); [constructor|reflexivity]|]. vm_compute. reflexivity.
Qed.
