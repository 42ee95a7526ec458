(** C59, C60, C61: a cluster's processes, its cluster file, and the stop notices of its engine sets. *)
From stdpp Require Import base gmap list strings pretty.
From Coq Require Import ZArith Lia.
From Verif Require Import Clu_Spec Clu_Model Clu_Proofs Clu_Proofs2.

(** ** C59 *)
Lemma alive_place : forall s p, Struct_ any s -> p ∈ alive s -> is_controller s p \/ exists sid, in_set s sid p.
Proof.
  intros s p S Hp. destruct (t_alive _ _ S p Hp I) as [L [X|(sid & o & i & X1 & X2)]]; [left; exact X|]. right. destruct (t_owner _ _ S _ _ _ X1 L) as (e & He & Hm). exists sid, o, e, i. repeat split; assumption.
Qed.
Lemma in_set_at : forall s sid p, Struct_ any s -> in_set s sid p -> exists i, at_ s p (Some (sid, i)).
Proof. intros s sid p S (o & e & i & X1 & X2 & X3). exists i, o. split; [apply (t_member _ _ S _ _ _ _ X2 X3) | exact X1]. Qed.
Lemma at_in_set : forall s sid i p, Struct_ any s -> p ∈ alive s -> at_ s p (Some (sid, i)) -> in_set s sid p.
Proof.
  intros s sid i p S Hp (o & X1 & X2). destruct (t_alive _ _ S p Hp I) as [L _]. destruct (t_owner _ _ S _ _ _ X1 L) as (e & He & Hm). exists o, e, i. repeat split; assumption.
Qed.
(** Every live process is the controller or belongs to exactly one engine set of the Cluster. *)
Theorem C59_known : forall W saving h p, orderly W saving h -> manageable saving h -> p ∈ alive (run W saving h) ->
  (is_controller (run W saving h) p /\ forall sid, ~ in_set (run W saving h) sid p) \/
  (~ is_controller (run W saving h) p /\ exists sid, in_set (run W saving h) sid p /\ forall sid', in_set (run W saving h) sid' p -> sid' = sid).
Proof.
  intros W saving h p O M Hp. destruct (all_run W saving h O M) as [S _]. destruct (alive_place _ p S Hp) as [C|[sid X]].
  - left. split; [exact C|]. intros sid X. destruct (in_set_at _ _ _ S X) as [i A]. pose proof (at_inj _ p _ None S A C). discriminate.
  - right. destruct (in_set_at _ _ _ S X) as [i A]. split; [intros C; pose proof (at_inj _ p _ None S A C); discriminate|]. exists sid. split; [exact X|]. intros sid' Y. destruct (in_set_at _ _ _ S Y) as [j B]. pose proof (at_inj _ p _ _ S A B) as E. congruence.
Qed.
(** stop_cluster: unless it raises an exception no process is left, whatever happens afterwards by itself, and when the engine sets' parts
    have returned the Cluster and its file know of none.  It raises an exception only if a process has survived a KILL. *)
Theorem C59_stop_cluster : forall W saving h, orderly W saving h -> manageable saving h ->
  let '(s, r) := step W saving (run W saving h) StopCluster in
  (forall e, r = Raised e -> exists p, p ∈ alive s /\ immortal W p = true) /\
  ((forall e, r <> Raised e) -> forall more, forallb happens more = true ->
     let s' := run W saving (h ++ StopCluster :: more) in
     alive s' = ∅ /\ ctl s' = None /\ (tasks s' = [] -> engines s' = [] /\ (saving = true -> file s' = None))).
Proof.
  intros W saving h O M. destruct (all_run W saving h O M) as [S _]. destruct (step W saving (run W saving h) StopCluster) as [s r] eqn:E.
  destruct (stop_cluster_spec W saving _ _ _ S E) as [[NR V]|(e & p & -> & P1 & P2)].
  - split; [intros e X; destruct (NR e X)|]. intros _ more Hm s'.
    assert (V' : Struct_ any s' /\ Over saving s').
    { unfold s'. clear s'. induction more as [|x more IH] using rev_ind.
      - rewrite run_snoc, E. cbn. split; [|exact V]. pose proof (Struct_step W saving _ StopCluster S ltac:(discriminate) I) as X. rewrite E in X. exact X.
      - rewrite forallb_app in Hm. apply andb_true_iff in Hm. destruct Hm as [Hm1 Hm2]. cbn in Hm2. rewrite andb_true_r in Hm2. destruct (IH Hm1) as [S1 V1].
        change (h ++ StopCluster :: more ++ [x]) with (h ++ (StopCluster :: more) ++ [x]). rewrite app_assoc, run_snoc. split; [|apply Over_step; assumption].
        apply Struct_step; [exact S1 | intros ->; discriminate | destruct x; try discriminate; exact I]. }
    destruct V' as [S' [V1 V2 V3 V4]]. split; [exact V2|]. split; [exact V1|]. intros T. assert (En : engines s' = []).
    { destruct (engines s') as [|[k o] l]; [reflexivity|]. exfalso. specialize (V3 k ltac:(left)). rewrite T in V3. apply elem_of_nil in V3. exact V3. }
    split; [exact En|]. intros Sv. exact (V4 Sv En).
  - split; [|intros X; destruct (X e eq_refl)]. intros e' X. exists p. split; assumption.
Qed.
(** stop_engines of one set: an unknown id is a KeyError; else exactly the processes of this set are gone, and after the call has returned the
    set is gone, and the other sets are as before.  A TimeoutError means that one of its processes has survived a KILL. *)
Theorem C59_stop_engines : forall W saving h sid, orderly W saving h -> manageable saving h ->
  let s := run W saving h in let '(s1, r) := step W saving s (StopEngines sid) in
  (sid ∉ (engines s).*1 -> r = Raised "KeyError" /\ s1 = s) /\
  (sid ∈ (engines s).*1 ->
     (forall p, p ∈ alive s -> ~ in_set s sid p -> p ∈ alive s1) /\ engines s1 = engines s /\ ctl s1 = ctl s /\
     ((r = Waiting /\ (forall p, in_set s sid p -> p ∉ alive s1) /\ exists i o, tasks s1 !! i = Some (sid, o) /\
         let s2 := fst (step W saving s1 (Resume i)) in sid ∉ (engines s2).*1 /\ (forall k x, k <> sid -> (k, x) ∈ engines s2 <-> (k, x) ∈ engines s) /\ sets s2 = sets s) \/
      (r = Raised "TimeoutError" /\ exists p, in_set s sid p /\ p ∈ alive s1 /\ immortal W p = true))).
Proof.
  intros W saving h sid O M s. destruct (all_run W saving h O M) as [S _]. fold s in S. cbn [step]. destruct (stop_set W sid s) as [s1 r] eqn:E. destruct (stop_set_spec _ _ _ _ _ S E) as (S1 & K & T & C).
  destruct (get_key sid (engines s)) as [o|] eqn:G.
  - pose proof (get_key_Some _ _ _ G) as Gi. split; [intros X; destruct X; apply elem_of_list_fmap; exists (sid, o); split; [reflexivity | exact Gi]|]. intros _. destruct (t_engines _ _ S _ _ Gi) as (e & He & Hid).
    assert (IS : forall p, in_set s sid p <-> p ∈ pids e).
    { intros p. rewrite in_pids. split.
      - intros (o' & e' & i & X1 & X2 & X3). assert (o' = o) by (pose proof (get_key_In _ _ _ (t_ids _ _ S) X1); congruence). subst. exists i. congruence.
      - intros (i & X). exists o, e, i. repeat split; assumption. }
    split; [|split; [apply (g_engines _ _ K)|split; [apply (g_ctl _ _ K)|]]].
    + intros p Hp N. assert (A : s1 = fst (stop_set W sid s)) by (rewrite E; reflexivity). rewrite A. apply (stop_set_others W sid o e p s G He); [|exact Hp]. intros X. apply N, IS, X.
    + destruct C as [[-> Ct]|(-> & Ct & e' & p & P1 & P2 & P3 & P4)].
      * left. split; [reflexivity|]. assert (Ht : (sid, o) ∈ tasks s1) by (rewrite Ct; apply elem_of_app; right; apply elem_of_list_singleton; reflexivity). split.
        -- intros p X. apply IS, in_pids in X. destruct X as (i & X). destruct (t_tasks _ _ S1 _ _ Ht) as (_ & _ & T3). apply (T3 e i p); [rewrite (g_sets _ _ K); exact He | exact X].
        -- apply elem_of_list_lookup in Ht. destruct Ht as (i & Ht). exists i, o. split; [exact Ht|]. cbn [step fst]. rewrite Ht. cbn [fst]. unfold finish_set. cbn [engines put_tasks]. rewrite (g_engines _ _ K), G.
           match goal with |- context [update_cluster_file saving ?t] => destruct (update_same saving t) as (_ & _ & U & _); rewrite U, sets_update end. cbn. split; [apply drop_key_NoDup, (t_ids _ _ S)|]. split; [|apply (g_sets _ _ K)].
           intros k x Nk. split; [apply drop_key_sub | intros X; apply drop_key_keep; assumption].
      * right. split; [reflexivity|]. exists p. rewrite He in P1. injection P1 as <-. split; [apply IS, P2|]. split; assumption.
  - destruct C as [-> ->]. split; [intros _; split; reflexivity|]. intros X. destruct (get_key_None _ _ G X).
Qed.
(** stop_controller: its process is gone, and no other *)
Theorem C59_stop_controller : forall W saving h, orderly W saving h -> manageable saving h ->
  let s := run W saving h in let '(s1, r) := step W saving s StopController in
  (forall p, p ∈ alive s -> ~ is_controller s p -> p ∈ alive s1) /\ engines s1 = engines s /\
  ((r = Returned /\ ctl s1 = None /\ forall p, is_controller s p -> p ∉ alive s1) \/
   (r = Raised "TimeoutError" /\ exists p, is_controller s p /\ p ∈ alive s1 /\ immortal W p = true)).
Proof.
  intros W saving h O M s. destruct (all_run W saving h O M) as [S _]. fold s in S. cbn [step]. destruct (stop_controller W saving s) as [s1 r] eqn:E. split; [|split].
  - intros p Hp N. unfold stop_controller in E. unfold is_controller in N. destruct (ctl s) as [[q|]|]; [|injection E as <- _; match goal with |- _ ∈ alive (update_cluster_file saving ?t) => rewrite (proj1 (update_same saving t)) end; exact Hp ..].
    assert (X : p ∈ alive (fst (stop_process W q s))) by (apply stop_process_others; [congruence | exact Hp]). destruct (stop_process W q s) as [s2 []]; injection E as <- _; [match goal with |- _ ∈ alive (update_cluster_file saving ?t) => rewrite (proj1 (update_same saving t)) end|]; exact X.
  - unfold stop_controller in E. destruct (ctl s) as [[q|]|]; [|injection E as <- _; match goal with |- engines (update_cluster_file saving ?t) = _ => rewrite (proj1 (proj2 (proj2 (update_same saving t)))) end; reflexivity ..].
    destruct (stop_process W q s) as [s2 b] eqn:E2. destruct (stop_process_spec _ _ _ _ _ S E2) as (_ & K & _). destruct b; injection E as <- _; [match goal with |- engines (update_cluster_file saving ?t) = _ => rewrite (proj1 (proj2 (proj2 (update_same saving t)))) end|]; apply (m_engines _ _ K).
  - destruct (stop_controller_spec W saving _ _ _ S E) as [(-> & C & _ & D)|(-> & p & P1 & P2 & P3)]; [left; repeat split; assumption | right; split; [reflexivity|]; exists p; repeat split; assumption].
Qed.

(** The engine set id that start_engines makes itself is not that of another engine set. *)
Lemma length_append : forall a b, String.length (a +:+ b) = String.length a + String.length b.
Proof. induction a as [|c a IH]; intros b; [reflexivity|]. exact (f_equal S (IH b)). Qed.
Lemma new_id_from_fresh : forall fuel base i ids k seen, NoDup (k :: seen) -> (forall x, x ∈ seen -> x ∈ ids) ->
  (forall x, x ∈ k :: seen -> x = base \/ exists j, j < i /\ x = base +:+ "-" +:+ pretty j) -> length ids < length seen + fuel -> new_id_from fuel base i ids k ∉ ids.
Proof.
  induction fuel as [|fuel IH]; intros base i ids k seen N Sub Names Len.
  - exfalso. apply NoDup_cons in N. destruct N as [_ N]. pose proof (submseteq_length seen ids (NoDup_submseteq seen ids N Sub)). lia.
  - cbn [new_id_from]. case_bool_decide as K; [|exact K]. apply (IH base (S i) ids _ (k :: seen)).
    + apply NoDup_cons. split; [|exact N]. intros X. destruct (Names _ X) as [E|(j & J & E)].
      * apply (f_equal String.length) in E. rewrite !length_append in E. cbn in E. lia.
      * apply (inj (String.append base)) in E. apply (inj (String.append "-")) in E. apply (inj pretty) in E. lia.
    + intros x X. apply elem_of_cons in X. destruct X as [->|X]; [exact K | exact (Sub x X)].
    + intros x X. apply elem_of_cons in X. destruct X as [->|X]; [right; exists i; split; [lia | reflexivity]|]. destruct (Names x X) as [E|(j & J & E)]; [left; exact E | right; exists j; split; [lia | exact E]].
    + cbn [length]. lia.
Qed.
Theorem C59_new_id : forall base s, new_id base s ∉ (engines s).*1.
Proof.
  intros base s. unfold new_id. apply (new_id_from_fresh _ base 1 _ base []).
  - apply NoDup_singleton.
  - intros x X. apply elem_of_nil in X. destruct X.
  - intros x X. apply elem_of_list_singleton in X. left. exact X.
  - rewrite fmap_length. cbn [length]. lia.
Qed.

(** ** C60 *)
(** The cluster file lists every live process, where it belongs. *)
Theorem C60_listed : forall W h p, orderly W true h -> forallb starts_well h = true -> p ∈ alive (run W true h) ->
  let s := run W true h in (is_controller s p <-> file_controller s p) /\ (forall sid, in_set s sid p <-> file_set s sid p) /\ (file_controller s p \/ exists sid, file_set s sid p).
Proof.
  intros W h p O SW Hp s. destruct (Good_run W true h eq_refl O SW) as [[S F _] _]. fold s in S, F, Hp.
  destruct (f_cover _ F p Hp) as (d & Ed & X). destruct (saved_says d p X) as [x Sx]. pose proof (f_agree _ F d p x Ed Hp Sx) as A.
  assert (FC : file_controller s p -> is_controller s p) by (intros (d' & E' & Y); exact (f_agree _ F d' p None E' Hp Y)).
  assert (FS : forall sid, file_set s sid p -> in_set s sid p).
  { intros sid (d' & ss & i & E' & Y1 & Y2). apply (at_in_set s sid i p S Hp). apply (f_agree _ F d' p (Some (sid, i)) E' Hp). exists ss. split; assumption. }
  assert (Z : file_controller s p \/ exists sid, file_set s sid p).
  { destruct x as [[sid i]|]; [right; exists sid; destruct Sx as (ss & Y1 & Y2); exists d, ss, i; repeat split; assumption | left; exists d; split; assumption]. }
  split; [|split; [|exact Z]].
  - split; [|exact FC]. intros C. destruct Z as [Z|[sid Z]]; [exact Z|]. destruct (in_set_at s sid p S (FS _ Z)) as [i B]. pose proof (at_inj s p _ None S B C). discriminate.
  - intros sid. split; [|apply FS]. intros Y. destruct (in_set_at s sid p S Y) as [i B]. destruct Z as [Z|[sid' Z]].
    + pose proof (at_inj s p _ None S B (FC Z)). discriminate.
    + destruct (in_set_at s sid' p S (FS _ Z)) as [j B']. pose proof (at_inj s p _ _ S B B') as Q. injection Q as -> _. exact Z.
Qed.
(** Cluster.from_file, in another Python process: the same processes live, and each belongs where it did. *)
Theorem C60_reload : forall W h, orderly W true h -> forallb starts_well h = true ->
  let s := run W true h in let s' := run W true (h ++ [Reload]) in
  alive s' = alive s /\ forall p, p ∈ alive s -> (is_controller s p <-> is_controller s' p) /\ forall sid, in_set s sid p <-> in_set s' sid p.
Proof.
  intros W h O SW s s'. destruct (Good_run W true h eq_refl O SW) as [G _]. fold s in G. destruct (Good_reload true s eq_refl G) as [G' AT].
  assert (E : s' = reload true s) by (unfold s', s; rewrite run_snoc; reflexivity). rewrite E in *. destruct G as [S F _]. destruct G' as [S' _ _].
  assert (AL : alive (reload true s) = alive s).
  { destruct (file s) as [d|] eqn:Ef; [|unfold reload; rewrite Ef; reflexivity]. destruct (reload_restored true s d S (f_ok _ F) Ef) as (s1 & Er & R). rewrite Er. pose proof (r_alive _ _ _ _ R) as X. cbn in X. destruct (decide _); [exact X|]. rewrite (proj1 (update_same true s1)). exact X. }
  split; [exact AL|]. intros p Hp. assert (Hp' : p ∈ alive (reload true s)) by (rewrite AL; exact Hp).
  assert (X : forall x y, at_ s p x -> at_ (reload true s) p y -> x = y) by (intros x y A B; exact (at_inj _ p x y S' (AT p x Hp A) B)).
  assert (Z : exists x, at_ s p x).
  { destruct (alive_place s p S Hp) as [C|[sid C]]; [exists None; exact C|]. destruct (in_set_at s sid p S C) as [i B]. exists (Some (sid, i)). exact B. }
  destruct Z as [x A]. pose proof (AT p x Hp A) as A'. split.
  - split; intros C; [exact (AT p None Hp C)|]. rewrite (X x None A C) in A. exact A.
  - intros sid. split; intros C.
    + destruct (in_set_at s sid p S C) as [i B]. apply (at_in_set _ sid i p S' Hp'). exact (AT p (Some (sid, i)) Hp B).
    + destruct (in_set_at _ sid p S' C) as [i B]. apply (at_in_set s sid i p S Hp). rewrite (X x _ A B) in A. exact A.
Qed.
(** When every process has ended and the ends have been noticed, then there is no cluster file (if the controller did not fail to start). *)
Theorem C60_gone : forall W h, orderly W true h -> forallb starts_well h = true -> forallb some_engines h = true ->
  let s := run W true h in quiet s -> alive s = ∅ -> ctl s <> Some None -> file s = None.
Proof.
  intros W h O SW SE s [Q1 Q2] A C. destruct (Good_run W true h eq_refl O SW) as [[S F SO] _]. pose proof (NonEmpty_run W true h O (or_intror (conj eq_refl SW)) SE) as NE. fold s in S, F, SO, NE.
  destruct (file s) as [d|] eqn:Ef; [|reflexivity]. exfalso. pose proof (f_running _ F d Ef) as R. unfold is_running in R. apply orb_true_iff in R. destruct R as [R|R].
  - destruct (ctl s) as [[p|]|] eqn:Cs; [|congruence|discriminate]. destruct (t_ctl _ _ S p Cs) as [_ L]. destruct (t_lst _ _ S p L) as [X|X].
    + pose proof (quiet_running s p S Q1 Q2 X) as Y. rewrite A in Y. apply elem_of_empty in Y. exact Y.
    + cbn in R. rewrite X in R. cbn in R. rewrite bool_decide_eq_true_2 in R by reflexivity. discriminate.
  - apply existsb_exists in R. destruct R as ([sid o] & R1 & R2). apply negb_true_iff, bool_decide_eq_false in R2. unfold set_state in R2. cbn in R2. destruct (sets s !! o) as [e|] eqn:Es; [|congruence].
    destruct (SO o e Es) as (_ & B2 & B3). destruct (members e) as [|[i [p|]] ms] eqn:Ms.
    + destruct (B2 eq_refl) as [X|X]; [contradiction | exact (NE o e Es X)].
    + assert (Hm : (i, Some p) ∈ members e) by (rewrite Ms; left). destruct (t_member _ _ S o e i p Es Hm) as [_ L]. pose proof (quiet_running s p S Q1 Q2 L) as Y. rewrite A in Y. apply elem_of_empty in Y. exact Y.
    + apply (B3 i). left.
Qed.

(** ** C61 *)
(** A stop notice of an engine set comes when an engine set with this id, for which there was none, has lost its last engine: every process of
    it has ended, the exit codes recorded are those of its engines, each once, and the set's exit code is the first that says there was an
    error.  The set is left as it is from then on. *)
Theorem C61_set_notice : forall W saving h x, orderly W saving (h ++ [x]) -> manageable saving (h ++ [x]) ->
  let s := run W saving h in let s' := run W saving (h ++ [x]) in
  forall sid c, notices s' = notices s ++ [(Some sid, c)] ->
  exists o e e', sets s !! o = Some e /\ e_state e <> After /\ sets s' !! o = Some e' /\ e_sid e' = sid /\ e_state e' = After /\ members e' = [] /\
    c = set_code (map snd (ended e')) /\ NoDup (map fst (ended e')) /\
    (forall p i, owner s' !! p = Some (Some (o, i)) -> p ∉ alive s' /\ (i, exit_code W p) ∈ ended e') /\
    (forall i z, (i, z) ∈ ended e' -> exists p, owner s' !! p = Some (Some (o, i)) /\ z = exit_code W p) /\
    (forall h', orderly W saving (h ++ [x] ++ h') -> manageable saving (h ++ [x] ++ h') -> Reload ∉ h' -> sets (run W saving (h ++ [x] ++ h')) !! o = Some e').
Proof.
  intros W saving h x O M s s' sid c Hn. assert (M0 : manageable saving h).
  { destruct M as [X|[V SW]]; [left; intros Y; apply X, elem_of_app; left; exact Y|]. right. split; [exact V|]. rewrite forallb_app in SW. apply andb_true_iff in SW. apply SW. }
  destruct (all_run W saving h (orderly_app W saving h [x] O) M0) as [S _]. destruct (all_run W saving _ O M) as [S' E']. fold s in S. fold s' in S', E'.
  assert (Es : s' = fst (step W saving s x)) by (unfold s', s; apply run_snoc).
  destruct (notices_step W saving s x S) as [Q|[(p & c' & Q & _)|(k & c' & Q & _ & o & e & e' & X1 & X2 & X3 & X4 & X5 & X6 & X7 & X8 & X9)]]; rewrite <- Es in *; rewrite Hn in Q.
  - apply (f_equal length) in Q. rewrite app_length in Q. cbn in Q. lia.
  - apply app_inv_head in Q. discriminate.
  - apply app_inv_head in Q. injection Q as -> ->. exists o, e, e'. repeat (split; [assumption|]). split; [exact (n_once _ _ E' o e' X5)|]. split; [|split].
    + intros p i Ho. assert (L : lst s' !! p = Some After).
      { destruct (t_lst _ _ S' p (n_known _ _ E' p ltac:(rewrite Ho; eexists; reflexivity))) as [L|L]; [|exact L]. destruct (t_owner _ _ S' p o i Ho L) as (e1 & Z1 & Z2). rewrite X5 in Z1. injection Z1 as <-. rewrite X8 in Z2. apply elem_of_nil in Z2. destruct Z2. }
      split; [intros Y; destruct (t_alive _ _ S' p Y I) as [Z _]; congruence|]. destruct (n_all _ _ E' p o i Ho L) as (e1 & Z1 & Z2). congruence.
    + intros i z Hz. destruct (n_code _ _ E' o e' i z X5 Hz) as (p & P1 & _ & P2). exists p. split; assumption.
    + intros h' O' M' N. rewrite app_assoc in *. apply after_run; assumption.
Qed.
(** ... so there are at most as many stop notices with an id as times it was used, *)
Theorem C61_at_most_once : forall W saving h sid, orderly W saving h -> Reload ∉ h -> notices_of sid (notices (run W saving h)) <= starts_of sid h.
Proof. intros W saving h sid O N. destruct (count_run W saving sid h O N) as [X _]. lia. Qed.
(** ... and exactly as many when the processes of the sets with this id have ended and the ends have been noticed. *)
Theorem C61_all : forall W saving h sid, orderly W saving h -> Reload ∉ h -> forallb starts_well h = true -> forallb some_engines h = true ->
  let s := run W saving h in quiet s -> (forall o e i p, sets s !! o = Some e -> e_sid e = sid -> (i, Some p) ∈ members e -> p ∉ alive s) ->
  notices_of sid (notices s) = starts_of sid h.
Proof.
  intros W saving h sid O N SW SE s [Q1 Q2] D. destruct (count_run W saving sid h O N) as [_ X]. specialize (X SW). fold s in X. rewrite count_zero in X; [lia|].
  intros o e Es. unfold unfinished. destruct (String.eqb_spec (e_sid e) sid) as [Hs|]; [|reflexivity]. cbn. apply negb_false_iff, bool_decide_eq_true_2.
  destruct (SetsOK_run W saving h O N SW o e Es) as (_ & B2 & B3). pose proof (NonEmpty_run W saving h O (or_introl N) SE o e Es) as NE. destruct (all_run W saving h O (or_introl N)) as [S _]. fold s in S.
  destruct (members e) as [|[i [p|]] ms] eqn:Ms.
  - destruct (B2 eq_refl) as [Y|Y]; [exact Y | contradiction].
  - exfalso. assert (Hm : (i, Some p) ∈ members e) by (rewrite Ms; left). destruct (t_member _ _ S o e i p Es Hm) as [_ L]. exact (D o e i p Es Hs Hm (quiet_running s p S Q1 Q2 L)).
  - destruct (B3 i). left.
Qed.
(** A stop notice of the controller: its process has ended, with this exit code. *)
Theorem C61_controller_notice : forall W saving h x, orderly W saving h -> manageable saving h ->
  let s := run W saving h in let s' := run W saving (h ++ [x]) in
  forall c, notices s' = notices s ++ [(None, c)] ->
  exists p, owner s !! p = Some None /\ lst s !! p = Some Running /\ lst s' !! p = Some After /\ p ∉ alive s /\ c = exit_code W p.
Proof.
  intros W saving h x O M s s' c Hn. destruct (all_run W saving h O M) as [S _]. fold s in S. assert (Es : s' = fst (step W saving s x)) by (unfold s', s; apply run_snoc).
  destruct (notices_step W saving s x S) as [Q|[(p & c' & Q & X1 & X2 & X3 & X4 & X5)|(k & c' & Q & _)]]; rewrite <- Es in *; rewrite Hn in Q.
  - apply (f_equal length) in Q. rewrite app_length in Q. cbn in Q. lia.
  - apply app_inv_head in Q. injection Q as ->. exists p. repeat split; assumption.
  - apply app_inv_head in Q. discriminate.
Qed.

(** ** Examples *)
Definition world0 : world := World (fun _ => false) (fun p => if Nat.eqb p 3 then Some 1%Z else Some 0%Z).
(** a check of [orderly] *)
Fixpoint orderlyb (W : world) (saving : bool) (h1 h : list op) : bool :=
  match h with
  | [] => true
  | x :: h => match x with
              | StartEngines sid _ _ => bool_decide (sid ∉ (engines (run W saving h1)).*1) && bool_decide (sid ∉ (tasks (run W saving h1)).*1)
              | _ => true end && orderlyb W saving (h1 ++ [x]) h
  end.
Lemma orderlyb_ok : forall W saving h, orderlyb W saving [] h = true -> orderly W saving h.
Proof.
  intros W saving h H. assert (G : forall h1, orderlyb W saving h1 h = true -> forall h2 sid n fail h3, h = h2 ++ StartEngines sid n fail :: h3 -> sid ∉ (engines (run W saving (h1 ++ h2))).*1 /\ sid ∉ (tasks (run W saving (h1 ++ h2))).*1).
  { clear H. induction h as [|x h IH]; intros h1 H h2 sid n fail h3 E; [destruct h2; discriminate|]. cbn in H. apply andb_true_iff in H. destruct H as [H1 H2]. destruct h2 as [|y h2].
    - injection E as -> ->. rewrite app_nil_r. apply andb_true_iff in H1. destruct H1 as [X Y]. apply bool_decide_eq_true in X, Y. split; assumption.
    - injection E as -> ->. specialize (IH _ H2 h2 sid n fail h3 eq_refl). rewrite <- app_assoc in IH. exact IH. }
  intros h1 sid n fail h2 E. exact (G [] H h1 sid n fail h2 E).
Qed.
(** the controller (1), two engines (2, 3) in one set and one (4) in another; one engine dies; another Python process takes over *)
Definition story : list op :=
  [StartController true; StartEngines "a" 2 None; StartEngines "b" 1 None; Die 2; ThreadSees 2; Callback; Reload].
Example story_orderly : orderly world0 true story /\ forallb starts_well story = true /\ forallb some_engines story = true /\ elements (alive (run world0 true story)) = [1; 3; 4].
Proof. split; [apply orderlyb_ok; vm_compute; reflexivity | vm_compute; repeat split]. Qed.
Example C59_known_nonvacuous : in_set (run world0 true story) "a" 3 /\ in_set (run world0 true story) "b" 4 /\ is_controller (run world0 true story) 1.
Proof.
  assert (E : engines (run world0 true story) = [("a", 0); ("b", 1)]) by (vm_compute; reflexivity).
  assert (Ea : sets (run world0 true story) !! 0 = Some (ESet "a" 1 Running [("1", Some 3)] [] true)) by (vm_compute; reflexivity).
  assert (Eb : sets (run world0 true story) !! 1 = Some (ESet "b" 1 Running [("0", Some 4)] [] true)) by (vm_compute; reflexivity).
  split; [|split].
  - exists 0, (ESet "a" 1 Running [("1", Some 3)] [] true), "1". split; [rewrite E; left|]. split; [exact Ea | left].
  - exists 1, (ESet "b" 1 Running [("0", Some 4)] [] true), "0". split; [rewrite E; right; left|]. split; [exact Eb | left].
  - vm_compute. reflexivity.
Qed.
Example C59_stop_cluster_nonvacuous : snd (step world0 true (run world0 true story) StopCluster) = Waiting /\
  (let s := run world0 true (story ++ [StopCluster; Callback; Resume 0; Resume 0; Callback]) in tasks s = [] /\ engines s = [] /\ file s = None) /\
  snd (step (World (fun p => Nat.eqb p 3) (fun _ => None)) true (run world0 true story) StopCluster) = Raised "TimeoutError".
Proof. vm_compute. repeat split. Qed.
Example C59_stop_engines_nonvacuous : snd (step world0 true (run world0 true story) (StopEngines "a")) = Waiting /\ elements (alive (fst (step world0 true (run world0 true story) (StopEngines "a")))) = [1; 4].
Proof. vm_compute. split; reflexivity. Qed.
Example C60_nonvacuous : file (run world0 true story) = Some (Saved (Some (Some 1)) [("a", SavedSet 1 Running [("1", Some 3)]); ("b", SavedSet 1 Running [("0", Some 4)])]).
Proof. vm_compute. reflexivity. Qed.
Example C60_gone_nonvacuous : let s := run world0 true (story ++ [Die 1; Die 3; Die 4; ThreadSees 4; ThreadSees 3; ThreadSees 1; Callback; Callback; Callback]) in
  pending s = [] /\ elements (threads s) = [] /\ elements (alive s) = [] /\ ctl s = Some (Some 1) /\ map fst (engines s) = ["a"; "b"] /\ file s = None.
Proof. vm_compute. repeat split. Qed.
Example C61_nonvacuous : notices (run world0 true [StartController true; StartEngines "a" 2 None; Die 2; Die 3; ThreadSees 2; ThreadSees 3; Callback; Callback; StopController; Callback]) = [(Some "a", Some 1%Z); (None, Some 0%Z)].
Proof. vm_compute. reflexivity. Qed.

(** ** What does not hold *)
(** If engines are started with the id of another set then the engines of that set are forgotten: stop_cluster returns and leaves them. *)
Theorem C59_reused_id_refuted : exists h, snd (step world0 true (run world0 true h) StopCluster) = Waiting /\
  elements (alive (fst (step world0 true (run world0 true h) StopCluster))) <> [] /\ forallb starts_well h = true /\ Reload ∉ h.
Proof.
  exists [StartController true; StartEngines "a" 1 None; StartEngines "a" 1 None]. split; [vm_compute; reflexivity|]. split; [vm_compute; discriminate|]. split; [reflexivity|].
  intros X. apply elem_of_list_In in X. repeat (destruct X as [X|X]; [discriminate|]). destruct X.
Qed.
(** If stop_engines has been called twice for a set and the id is used again in between, then the second call, when it goes on, forgets the new engines. *)
Theorem C59_stale_stop_refuted : exists h, (forall h1 sid n fail h2, h = h1 ++ StartEngines sid n fail :: h2 -> sid ∉ (engines (run world0 true h1)).*1) /\
  snd (step world0 true (run world0 true h) StopCluster) = Returned /\ elements (alive (fst (step world0 true (run world0 true h) StopCluster))) = [2] /\ forallb starts_well h = true.
Proof.
  exists [StartEngines "a" 1 None; StopEngines "a"; StopEngines "a"; Resume 0; StartEngines "a" 1 None; Resume 0]. split; [|vm_compute; repeat split].
  intros h1 sid n fail h2 E.
  repeat (destruct h1 as [|? h1]; [first [discriminate E | injection E; intros; subst; vm_compute; intros X; apply elem_of_list_In in X; exact X]|];
          first [discriminate E | injection E; clear E; intros E ?; subst]).
Qed.
(** A start of engines that fails half-way leaves engines that the cluster file does not list; a Cluster made from the file does not stop them. *)
Theorem C60_failed_start_refuted : exists h, orderly world0 true h /\ ~ (forall p, p ∈ alive (run world0 true h) -> file_controller (run world0 true h) p \/ exists sid, file_set (run world0 true h) sid p) /\
  elements (alive (run world0 true (h ++ [Reload; StopCluster; Resume 0; Resume 0]))) = [2].
Proof.
  exists [StartController true; StartEngines "a" 2 (Some (1, true))]. split; [apply orderlyb_ok; vm_compute; reflexivity|]. split; [|vm_compute; reflexivity]. intros H.
  destruct (H 2) as [(d & E & X)|(sid & d & ss & i & E & X & _)].
  - change (2 ∈ alive (run world0 true [StartController true; StartEngines "a" 2 (Some (1, true))])). apply elem_of_elements, elem_of_list_In. vm_compute. tauto.
  - vm_compute in E. injection E as <-. discriminate.
  - vm_compute in E. injection E as <-. apply elem_of_nil in X. exact X.
Qed.
(** ... and its engine set is never over: the cluster file stays when everything has ended. *)
Theorem C60_stale_file_refuted : exists h, orderly world0 true h /\ quiet (run world0 true h) /\ alive (run world0 true h) = ∅ /\ ctl (run world0 true h) <> Some None /\ file (run world0 true h) <> None.
Proof.
  exists [StartEngines "a" 1 (Some (0, true)); StartController true; Die 1; ThreadSees 1; Callback]. split; [apply orderlyb_ok; vm_compute; reflexivity|].
  split; [split; [vm_compute; reflexivity|]|].
  - intros p Hp. apply elem_of_elements in Hp. assert (E : elements (threads (run world0 true [StartEngines "a" 1 (Some (0, true)); StartController true; Die 1; ThreadSees 1; Callback])) = []) by (vm_compute; reflexivity). rewrite E in Hp. apply elem_of_nil in Hp. destruct Hp.
  - split; [apply leibniz_equiv, elements_empty_inv; vm_compute; reflexivity|]. split; vm_compute; discriminate.
Qed.
(** Process ids are used again: a process that has nothing to do with the cluster but has the id of one that has ended since the file was
    written is taken for it and stopped. *)
Theorem C60_reused_pid_refuted : exists h p, orderly world0 true h /\ forallb starts_well h = true /\ p ∉ alive (run world0 true h) /\
  (let s := put_alive ({[p]} ∪ alive (run world0 true h)) (run world0 true h) in             (* another process gets this id *)
   p ∉ alive (fst (step world0 true (fst (step world0 true s Reload)) StopCluster))).
Proof.
  exists [StartController true; StartEngines "a" 1 None; Die 2], 2. split; [apply orderlyb_ok; vm_compute; reflexivity|]. split; [reflexivity|].
  assert (K : forall (A : gset nat), bool_decide (2 ∈ A) = false -> 2 ∉ A) by (intros A X; apply bool_decide_eq_false in X; exact X).
  split; [apply K; vm_compute; reflexivity|]. apply K. vm_compute. reflexivity.
Qed.
Print Assumptions C59_known.
Print Assumptions C59_stop_cluster.
Print Assumptions C59_stop_engines.
Print Assumptions C59_stop_controller.
Print Assumptions C59_new_id.
Print Assumptions C60_listed.
Print Assumptions C60_reload.
Print Assumptions C60_gone.
Print Assumptions C61_set_notice.
Print Assumptions C61_at_most_once.
Print Assumptions C61_all.
Print Assumptions C61_controller_notice.
Print Assumptions C59_reused_id_refuted.
Print Assumptions C59_stale_stop_refuted.
Print Assumptions C60_failed_start_refuted.
Print Assumptions C60_stale_file_refuted.
Print Assumptions C60_reused_pid_refuted.
