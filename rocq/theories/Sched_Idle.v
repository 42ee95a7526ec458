(** Work conservation with dependencies, high-water mark 1: the traversals. *)
From stdpp Require Import base gmap sets list.
From Verif Require Import Dependency_Model Dependency_Spec Dependency_Proofs Sched_Trace Sched_Spec Sched_Model Sched_Env
  Sched_Base Sched_Traverse Sched_Safety Sched_Load Sched_Once Sched_Blame Sched_Strand Sched_Idle_Spec Sched_Idle_Inv.
From Verif Require Prelude.
From Coq Require Import ZArith Lia.

Definition forget (m : nat) (g : gmap nat (gset nat)) : gmap nat (gset nat) := (fun X => X ∖ {[m]}) <$> g.
Lemma forget_id m g : (forall d X, g !! d = Some X -> m ∉ X) -> forget m g = g.
Proof.
  intros H. apply map_eq. intros d. unfold forget. rewrite lookup_fmap. destruct (g !! d) as [X|] eqn:E; [|reflexivity].
  simpl. f_equal. specialize (H d X E). set_solver.
Qed.
(** graph_remove cannot raise. *)
Definition strict (s : sched) (jb : job) : Prop :=
  forall d X, d ∈ dependents jb -> s_graph s !! d = Some X -> j_msg jb ∈ X.

Lemma set_graph_same s : set_graph (fun _ => s_graph s) s = s.
Proof. destruct s; reflexivity. Qed.

Lemma graph_remove_exact jb (Q : unit -> sched -> Prop) (E : sched -> Prop) s :
  strict s jb -> (forall d X, s_graph s !! d = Some X -> j_msg jb ∈ X -> d ∈ dependents jb) ->
  Q tt (set_graph (fun _ => forget (j_msg jb) (s_graph s)) s) ->
  wp (graph_remove jb) Q E s.
Proof.
  intros Hs Hd HQ. unfold graph_remove. set (m := j_msg jb) in *.
  assert (Hgen : forall l g1, NoDup l -> (forall d, d ∈ l -> d ∈ dependents jb) ->
    (forall d, g1 !! d = if decide (d ∈ l) then s_graph s !! d else forget m (s_graph s) !! d) ->
    wp (for_each l (fun mid => do g <- get s_graph; match g !! mid with None => ret tt | Some ds =>
       if decide (m ∈ ds) then upd (set_graph (<[mid := ds ∖ {[m]}]>)) else raise end)) Q E (set_graph (fun _ => g1) s)).
  { induction l as [|d l IH]; intros g1 Hnd Hl Hg; cbn [for_each].
    - apply wp_ret. replace g1 with (forget m (s_graph s)); [exact HQ|]. apply map_eq. intros d. rewrite Hg.
      rewrite decide_False by (intros H; inversion H). reflexivity.
    - apply NoDup_cons in Hnd as [Hn Hnd]. apply wp_bind, wp_bind, wp_get. cbn [s_graph set_graph].
      assert (Hgd : g1 !! d = s_graph s !! d) by (rewrite Hg, decide_True by left; reflexivity).
      assert (Hrest : forall g2 : gmap nat (gset nat), g2 !! d = forget m (s_graph s) !! d -> (forall d', d' <> d -> g2 !! d' = g1 !! d') ->
        forall d', g2 !! d' = if decide (d' ∈ l) then s_graph s !! d' else forget m (s_graph s) !! d').
      { intros g2 A B d'. destruct (decide (d' = d)) as [->|Hne]; [rewrite decide_False by exact Hn; exact A|].
        rewrite B, Hg by exact Hne. destruct (decide (d' ∈ l)).
        - rewrite decide_True by (right; assumption). reflexivity.
        - rewrite decide_False; [reflexivity|]. intros H. apply elem_of_cons in H as [?|?]; contradiction. }
      rewrite Hgd. destruct (s_graph s !! d) as [X|] eqn:EX.
      + rewrite decide_True by (apply (Hs d X); [apply Hl; left|exact EX]). apply wp_upd.
        change (wp (for_each l (fun mid => do g <- get s_graph; match g !! mid with None => ret tt | Some ds =>
          if decide (m ∈ ds) then upd (set_graph (<[mid := ds ∖ {[m]}]>)) else raise end)) Q E (set_graph (fun _ => <[d := X ∖ {[m]}]> g1) s)).
        apply IH; [exact Hnd|intros; apply Hl; right; assumption|]. apply Hrest.
        * rewrite lookup_insert. unfold forget. rewrite lookup_fmap, EX. reflexivity.
        * intros d' Hne. apply lookup_insert_ne. congruence.
      + apply wp_ret. apply IH; [exact Hnd|intros; apply Hl; right; assumption|]. apply Hrest; [|auto].
        rewrite Hgd. unfold forget. rewrite lookup_fmap, EX. reflexivity. }
  rewrite <- (set_graph_same s). apply Hgen; [apply NoDup_elements|intros d H; apply elem_of_elements in H; exact H|].
  intros d. destruct (decide (d ∈ elements (dependents jb))) as [H|H]; [reflexivity|].
  unfold forget. rewrite lookup_fmap. destruct (s_graph s !! d) as [X|] eqn:EX; [|reflexivity]. simpl. f_equal.
  assert (m ∉ X); [|set_solver]. intros Hin. apply H, elem_of_elements. eapply Hd; eauto.
Qed.
(** A job that is nowhere in the graph: nothing changes, or KeyError. *)
Lemma graph_remove_absent jb (Q : unit -> sched -> Prop) (E : sched -> Prop) s :
  (forall d X, s_graph s !! d = Some X -> j_msg jb ∉ X) -> Q tt s -> E s -> wp (graph_remove jb) Q E s.
Proof.
  intros Hno HQ HE. unfold graph_remove.
  eapply wp_mono with (Q := fun _ s' => s' = s) (E := fun s' => s' = s); [|intros [] s' ->; exact HQ|intros s' ->; exact HE].
  apply wp_for_each with (I := fun s' => s' = s); [reflexivity|]. intros d s' _ ->.
  apply wp_bind, wp_get. destruct (s_graph s !! d) as [X|] eqn:EX; [|apply wp_ret; reflexivity].
  rewrite decide_False by (eapply Hno; eauto). apply wp_raise. reflexivity.
Qed.

(** Job [j] would be sent to engine [e] if it were looked at now. *)
Definition ready (s : sched) (j e : nat) : Prop := exists jb i ld c f,
  s_jobs s !! j = Some jb /\ j_removed jb = false /\ check (j_after jb) (s_all_completed s) (s_all_failed s) = true /\
  s_targets s !! i = Some e /\ s_loads s !! i = Some ld /\ (ld < 1)%Z /\
  e ∉ j_blacklist jb /\ (j_targets jb = ∅ \/ e ∈ j_targets jb) /\
  s_completed s !! e = Some c /\ s_failed s !! e = Some f /\ check (j_follow jb) c f = true.

Definition later_state (s s' : sched) : Prop :=
  s_all_failed s ⊆ s_all_failed s' /\ (full s -> full s') /\ (forall j, j ∈ s_queue s' -> j ∈ s_queue s) /\
  (forall j e, ready s' j e -> ready s j e) /\
  (forall j jb, s_jobs s !! j = Some jb -> exists jb', s_jobs s' !! j = Some jb' /\ j_msg jb' = j_msg jb /\
     (j_removed jb = true -> j_removed jb' = true)).
Lemma later_refl s : later_state s s.
Proof. repeat split; auto. intros j jb Hj. exists jb. auto. Qed.
Lemma later_trans s1 s2 s3 : later_state s1 s2 -> later_state s2 s3 -> later_state s1 s3.
Proof.
  intros (A1 & A2 & A3 & A4 & A5) (B1 & B2 & B3 & B4 & B5). split; [set_solver|]. split; [auto|]. split; [auto|].
  split; [auto|]. intros j jb Hj. destruct (A5 j jb Hj) as (jb' & C1 & C2 & C3). destruct (B5 j jb' C1) as (jb2 & D1 & D2 & D3).
  exists jb2. split; [exact D1|]. split; [congruence|auto].
Qed.
Definition gone (j : nat) (s : sched) : Prop := exists jb, s_jobs s !! j = Some jb /\ j_removed jb = true.
Lemma later_gone s s' j : later_state s s' -> gone j s -> gone j s'.
Proof. intros (_ & _ & _ & _ & H) (jb & A & B). destruct (H j jb A) as (jb' & C & D & E). exists jb'. auto. Qed.
Lemma gone_not_ready s j e : gone j s -> ~ ready s j e.
Proof. intros (jb & A & B) (jb' & i & ld & c & f & C & D & _). congruence. Qed.
Lemma full_not_ready s j e : full s -> ~ ready s j e.
Proof.
  intros Hf (jb & i & ld & c & f & _ & _ & _ & Ht & Hl & Hlt & _). unfold full, available_engines in Hf.
  rewrite decide_False in Hf by discriminate.
  assert (Hin : i ∈ (List.filter (fun idx => match s_loads s !! idx with Some l => bool_decide (l < Z.of_nat 1)%Z | None => false end)
                 (seq 0 (length (s_targets s))))).
  { apply elem_of_list_In, filter_In. split; [apply in_seq; apply lookup_lt_Some in Ht; lia|]. rewrite Hl. apply bool_decide_eq_true_2. lia. }
  rewrite Hf in Hin. inversion Hin.
Qed.

Section Idle.
Context (scheme : nat -> list Z -> nat).
Context (Hscheme : forall k l, l <> [] -> scheme k l < length l).
Let hwm := 1.
Context (X1 : list nat).
Local Notation X := (X1, (None : option nat)).
Let HX : snd X = None := eq_refl.

Definition J (Y F : list nat) (D : option nat) (s : sched) : Prop := I11 X (Y ++ F) s /\ NS Y F D s.

Definition goodJ (ug : option nat -> M unit) : Prop := forall d Y F s, J Y F d s ->
  wp (ug d) (fun _ s' => J Y F None s' /\ later_state s s' /\ forall j e, j ∈ s_queue s' -> ~ ready s' j e) (fun _ => False) s.

Lemma J_inj Y F D s j j' jb jb' : J Y F D s -> s_jobs s !! j = Some jb -> s_jobs s !! j' = Some jb' -> j_msg jb' = j_msg jb -> j' = j.
Proof. intros [HI _] Hj Hj' E. exact (w_inj _ _ _ _ _ _ _ _ _ _ _ HI j' j jb' jb Hj' Hj E). Qed.
Lemma J_waiting Y F D s j jb : J Y F D s -> j ∈ Y ++ F ++ s_queue s -> s_jobs s !! j = Some jb -> j_removed jb = false ->
  phase_of (s_log s) (j_msg jb) = Waiting.
Proof.
  intros [HI _] Hin Hj Hr. destruct (w_live _ _ _ _ _ _ _ _ _ _ _ HI j) as (jb' & A & B).
  - rewrite <- app_assoc. exact Hin.
  - rewrite Hj in A. injection A as <-. auto.
Qed.

(** Reporting that task [j_msg jb] cannot run, from the moment it is in the queue map. *)
Lemma fail_hereN ug j jb jobs1 f w Y F s :
  goodJ ug -> J Y F None s -> s_jobs s !! j = Some jb -> j_removed jb = false -> j ∈ Y ++ F ++ s_queue s ->
  alter set_removed j jobs1 = alter f j (s_jobs s) -> same_job jb (f jb) ->
  (forall x, j_msg (f x) = j_msg x /\ j_blacklist x ⊆ j_blacklist (f x) /\ j_removed (f x) = true) ->
  strict s jb \/ (j ∈ Y /\ dead (s_log s) (j_msg jb)) ->
  wp (fail_unreachable ug (j_msg jb) w)
     (fun _ s' => J Y F None s' /\ later_state s s' /\ gone j s' /\ j_msg jb ∈ s_all_failed s')
     (fun s' => ~ strict s jb /\ J Y F None s' /\ later_state s s' /\ dead (s_log s') (j_msg jb))
     (set_qmap (<[j_msg jb := j]>) (set_jobs (fun _ => jobs1) s)).
Proof.
  intros Hug HJ Hj Hr HL Halt Hsame Hf Hcase. set (m := j_msg jb) in *.
  pose proof (J_waiting _ _ _ _ _ _ HJ HL Hj Hr) as Hw. fold m in Hw.
  assert (Hu : forall j' jb', s_jobs s !! j' = Some jb' -> j_msg jb' = m -> j' = j).
  { intros j' jb' A B. eapply J_inj; [exact HJ|exact Hj|exact A|exact B]. }
  destruct HJ as [HI HN]. unfold fail_unreachable.
  apply wp_bind, wp_get. cbn [s_qmap set_qmap set_jobs]. rewrite lookup_insert.
  apply wp_bind, wp_upd. apply wp_bind, wp_upd.
  set (s1 := set_jobs (alter set_removed j) _).
  assert (Es1 : s1 = set_jobs (alter f j) (set_qmap (delete m) s)).
  { unfold s1. clear -Halt. destruct s as [a1 a2 a3 a4 a5 a6 a7 a8 a9 a10 a11 a12 a13 a14 a15 a16 a17 a18 a19 a20]. unfold set_jobs, set_qmap. 
    cbn [s_jobs s_next s_targets s_loads s_queue s_qmap s_graph s_retries s_pending s_completed s_failed s_dest s_all_ids s_all_done s_all_completed s_all_failed s_draws s_strand_timers s_job_timers s_log] in *.
    rewrite Halt, delete_insert_delete. reflexivity. }
  clearbody s1. subst s1.
  assert (Hj1 : alter f j (s_jobs s) !! j = Some (f jb)) by (rewrite lookup_alter, Hj; reflexivity).
  apply wp_bind, wp_get_job; [|cbn; intros E; rewrite Hj1 in E; discriminate].
  cbn [s_jobs set_jobs set_qmap]. intros jb1 E. rewrite Hj1 in E. injection E as <-.
  assert (Em : j_msg (f jb) = m) by apply Hsame.
  set (s1 := set_jobs (alter f j) (set_qmap (delete m) s)).
  assert (HI1 : I11 X (Y ++ F) s1).
  { apply (inv11_alter scheme); [apply inv11_qm_delete; exact HI| |].
    - intros x. destruct (Hf x) as (A & B & C). auto.
    - intros x e Hx Hon. exfalso. change (s_jobs s !! j = Some x) in Hx. rewrite Hj in Hx. injection Hx as <-.
      change (phase_of (s_log s) m = OnEngine e) in Hon. congruence. }
  assert (Hlater1 : later_state s s1).
  { split; [reflexivity|]. split; [auto|]. split; [auto|]. split.
    - intros j' e (b & i & ld & c & fl & A1 & A2 & A3). cbn in A1.
      apply lookup_alter_Some in A1 as [(-> & b0 & B1 & ->)|(Hne & B1)]; [exfalso; rewrite (proj2 (proj2 (Hf b0))) in A2; discriminate|].
      exists b, i, ld, c, fl. split; [exact B1|]. split; [exact A2|]. exact A3.
    - intros j' b Hb. cbn. destruct (decide (j' = j)) as [->|Hne].
      + rewrite lookup_alter, Hb. exists (f b). destruct (Hf b) as (A & B & C). auto.
      + exists b. rewrite lookup_alter_ne by congruence. auto. }
  assert (Hok : forall s2, s2 = set_graph (fun _ => forget m (s_graph s1)) s1 ->
     wp (upd (set_all_done (fun X => {[m]} ∪ X)) ;; upd (set_all_failed (fun X => {[m]} ∪ X)) ;;
         emit (ObsReply m (Unreachable w)) ;; ug (Some m))
     (fun _ s' => J Y F None s' /\ later_state s s' /\ gone j s' /\ m ∈ s_all_failed s') (fun _ => False) s2).
  { intros s2 ->. apply wp_bind, wp_upd. apply wp_bind, wp_upd. apply wp_bind, wp_upd. set (s3 := set_log _ _).
    assert (HJ3 : J Y F (Some m) s3).
    { split.
      - apply inv11_reply; [exact Hw|cbn; apply lookup_delete| |exact HI1].
        intros j' jb' A B _. cbn in A. apply lookup_alter_Some in A as [(-> & b0 & B1 & ->)|(Hne & B1)].
        + apply Hf. + exfalso. apply Hne. symmetry. eauto.
      - unfold NS. cbn. unfold m. eapply invN_fail; [exact HN|exact Hj|exact Hw|exact Hsame|apply Hf|exact Hu]. }
    assert (Hg3 : gone j s3) by (exists (f jb); split; [exact Hj1|apply Hf]).
    assert (Hlater3 : later_state s s3).
    { eapply later_trans; [exact Hlater1|]. split; [cbn; set_solver|]. split; [auto|]. split; [auto|]. split.
      - intros j' e (b & i & ld & c & fl & A1 & A2 & A3 & A4). exists b, i, ld, c, fl. split; [exact A1|]. split; [exact A2|]. split; [|exact A4].
        cbn in A1. apply lookup_alter_Some in A1 as [(-> & b0 & B1 & ->)|(Hne & B1)]; [rewrite (proj2 (proj2 (Hf b0))) in A2; discriminate|].
        destruct (n_job _ _ _ _ _ _ _ _ _ _ _ _ _ _ _ _ HN j' b B1) as (md & _ & Hd & _).
        apply (check_dflt _ _ _ Hd) in A3. apply (check_dflt _ _ _ Hd). exact A3.
      - intros j' b Hb. exists b. auto. }
    eapply wp_mono; [apply Hug; exact HJ3| |auto]. intros [] s' (A & B & _).
    split; [exact A|]. split; [eapply later_trans; eassumption|]. split; [eapply later_gone; eassumption|].
    apply B. cbn. set_solver. }
  assert (Hdeps : dependents (f jb) = dependents jb) by apply same_dependents, Hsame.
  destruct Hcase as [Hst|[HY Hdead]].
  - apply wp_bind. apply graph_remove_exact.
    + intros d Z Hd HZ. rewrite Em. rewrite Hdeps in Hd. exact (Hst d Z Hd HZ).
    + intros d Z HZ Hin. rewrite Em in Hin. rewrite Hdeps. cbn in HZ.
      destruct (n_graph _ _ _ _ _ _ _ _ _ _ _ _ _ _ _ _ HN d Z m HZ Hin) as (j' & jb' & A & B & C).
      destruct (n_qm _ _ _ _ _ _ _ _ _ _ _ _ _ _ _ _ HN m j' A) as (jb2 & A2 & B2 & _). assert (jb2 = jb') by congruence. subst jb2.
      assert (j' = j) by eauto. subst j'. rewrite Hj in B. injection B as <-. exact C.
    + rewrite Em. eapply wp_mono; [apply Hok; reflexivity|auto|intros s' []].
  - assert (Hqm : s_qmap s !! m = None) by exact (n_y _ _ _ _ _ _ _ _ _ _ _ _ _ _ _ _ HN j jb HY Hj).
    destruct (decide (forall d, d ∈ dependents jb -> s_graph s !! d = None)) as [Hall|Hex].
    + apply wp_bind. apply graph_remove_exact.
      * intros d Z Hd HZ. rewrite Hdeps in Hd. cbn in HZ. rewrite (Hall d Hd) in HZ. discriminate.
      * intros d Z HZ Hin. rewrite Em in Hin. cbn in HZ.
        destruct (n_graph _ _ _ _ _ _ _ _ _ _ _ _ _ _ _ _ HN d Z m HZ Hin) as (j' & jb' & A & _). congruence.
      * rewrite Em. eapply wp_mono; [apply Hok; reflexivity|auto|intros s' []].
    + apply wp_bind. apply graph_remove_absent.
      * intros d Z HZ Hin. rewrite Em in Hin. cbn in HZ.
        destruct (n_graph _ _ _ _ _ _ _ _ _ _ _ _ _ _ _ _ HN d Z m HZ Hin) as (j' & jb' & A & _). congruence.
      * eapply wp_mono; [apply Hok|auto|intros s' []].
        replace (forget m (s_graph s1)) with (s_graph s1); [symmetry; apply set_graph_same|]. symmetry. apply forget_id.
        intros d Z HZ Hin. cbn in HZ. destruct (n_graph _ _ _ _ _ _ _ _ _ _ _ _ _ _ _ _ HN d Z m HZ Hin) as (j' & jb' & A & _). congruence.
      * split; [|split; [|split; [exact Hlater1|exact Hdead]]].
        -- intros Hst. apply Hex. intros d Hd. destruct (s_graph s !! d) as [Z|] eqn:EZ; [|reflexivity].
           destruct (n_graph _ _ _ _ _ _ _ _ _ _ _ _ _ _ _ _ HN d Z m EZ (Hst d Z Hd EZ)) as (j' & jb' & A & _). congruence.
        -- split; [exact HI1|]. unfold NS. cbn. rewrite delete_notin by exact Hqm.
           eapply invN_lost; [exact HN|exact Hj|exact Hsame|exact Hqm|exact Hu|apply Hf].
Qed.

Lemma J_qm Y F D s m j : J Y F D s -> s_qmap s !! m = Some j ->
  exists jb, s_jobs s !! j = Some jb /\ j_msg jb = m /\ j ∈ F ++ s_queue s /\ j_removed jb = false /\ strict s jb.
Proof.
  intros [_ HN] Hq. destruct (n_qm _ _ _ _ _ _ _ _ _ _ _ _ _ _ _ _ HN m j Hq) as (jb & A & B & C & E & G).
  exists jb. repeat (split; [assumption|]). unfold strict. rewrite B. exact G.
Qed.
Lemma J_saved Y F D s j jb : J Y F D s -> j ∈ F ++ s_queue s -> s_jobs s !! j = Some jb -> j_removed jb = false ->
  s_qmap s !! j_msg jb = Some j /\ strict s jb.
Proof.
  intros HJ HL Hj Hr. assert (Hq : s_qmap s !! j_msg jb = Some j).
  { destruct HJ as [_ HN]. exact (n_saved _ _ _ _ _ _ _ _ _ _ _ _ _ _ _ _ HN j jb HL Hj Hr). }
  split; [exact Hq|]. destruct (J_qm _ _ _ _ _ _ HJ Hq) as (jb' & A & _ & _ & _ & B).
  rewrite Hj in A. injection A as <-. exact B.
Qed.

(** Reporting a task of the queue map. *)
Lemma failN ug m j w Y F s :
  goodJ ug -> J Y F None s -> s_qmap s !! m = Some j ->
  wp (fail_unreachable ug m w)
     (fun _ s' => J Y F None s' /\ later_state s s' /\ gone j s' /\ m ∈ s_all_failed s') (fun _ => False) s.
Proof.
  intros Hug HJ Hq. destruct (J_qm _ _ _ _ _ _ HJ Hq) as (jb & Hj & Hm & HL & Hr & Hst). subst m.
  replace s with (set_qmap (<[j_msg jb := j]>) (set_jobs (fun _ => s_jobs s) s)) at 1.
  2:{ destruct s. unfold set_qmap, set_jobs. cbn in *. f_equal. apply insert_id. exact Hq. }
  eapply wp_mono; [apply (fail_hereN ug j jb (s_jobs s) set_removed w Y F s); auto| |].
  - apply elem_of_app. auto.
  - repeat split; auto.
  - cbn. auto.
  - intros s' (H & _). contradiction.
Qed.

Definition settledN (Y F : list nat) (j m : nat) (s s' : sched) : Prop :=
  J Y F None s' /\ later_state s s' /\
  ((m ∈ s_all_failed s' /\ gone j s') \/
   (s_qmap s' = s_qmap s /\ s_graph s' = s_graph s /\ s_queue s' = s_queue s /\ s_all_done s' = s_all_done s /\
    s_log s' = s_log s /\
    exists jb jb', s_jobs s !! j = Some jb /\ s_jobs s' !! j = Some jb' /\ same_job jb jb' /\ j_removed jb' = false)).

Lemma later_alter s j f : (forall x, j_msg (f x) = j_msg x /\ j_removed (f x) = j_removed x /\ j_after (f x) = j_after x /\
    j_follow (f x) = j_follow x /\ j_blacklist (f x) = j_blacklist x) ->
  (forall x e, s_jobs s !! j = Some x -> e ∉ j_blacklist x -> j_targets (f x) = ∅ \/ e ∈ j_targets (f x) ->
     j_targets x = ∅ \/ e ∈ j_targets x) ->
  later_state s (set_jobs (alter f j) s).
Proof.
  intros Hf Ht. split; [reflexivity|]. split; [auto|]. split; [auto|]. split.
  - intros j' e (b & i & ld & c & fl & A1 & A2 & A3 & A4 & A5 & A6 & A7 & A8 & A9 & A10 & A11). cbn in A1.
    apply lookup_alter_Some in A1 as [(-> & b0 & B1 & ->)|(Hne & B1)].
    + destruct (Hf b0) as (E1 & E2 & E3 & E4 & E5). rewrite E2 in A2. rewrite E3 in A3. rewrite E4 in A11. rewrite E5 in A7.
      exists b0, i, ld, c, fl. repeat (split; [assumption|]). split; [apply (Ht b0 e B1 A7 A8)|]. auto.
    + exists b, i, ld, c, fl. repeat (split; [assumption|]). auto.
  - intros j' b Hb. cbn. destruct (decide (j' = j)) as [->|Hne].
    + rewrite lookup_alter, Hb. exists (f b). destruct (Hf b) as (A & B & C). split; [reflexivity|]. split; [exact A|]. congruence.
    + exists b. rewrite lookup_alter_ne by congruence. auto.
Qed.

Lemma dead_targets Y F D s j jb : J Y F D s -> s_jobs s !! j = Some jb -> j_targets jb <> ∅ ->
  (forall e, e ∈ j_targets jb -> e ∉ j_blacklist jb -> e ∉ s_targets s) -> dead (s_log s) (j_msg jb).
Proof.
  intros [_ HN] Hj Hne Hgone. destruct (n_job _ _ _ _ _ _ _ _ _ _ _ _ _ _ _ _ HN j jb Hj) as (md & A & _ & _ & _ & _ & B & C & E).
  exists md. split; [exact A|]. right. right. split; [intros H; apply Hne, B, H|].
  intros e He. destruct (decide (e ∈ j_blacklist jb)) as [Hb|Hb]; [right; auto|]. left.
  split; [apply (n_targets _ _ _ _ _ _ _ _ _ _ _ _ _ _ _ _ HN (j_msg jb) md A); exact He|].
  destruct (registered (s_log s) e) eqn:Er; [|reflexivity]. exfalso. destruct (C e He) as [Ht|Ht]; [|contradiction].
  apply (Hgone e Ht Hb). apply (n_reg _ _ _ _ _ _ _ _ _ _ _ _ _ _ _ _ HN e Er).
Qed.

Definition raisedN (Y F : list nat) (j : nat) (jb : job) (s s' : sched) : Prop :=
  ~ strict s jb /\ J Y F None s' /\ later_state s s' /\ dead (s_log s') (j_msg jb).

Lemma check_targetsN ug j jb Y F s :
  goodJ ug -> J Y F None s -> s_jobs s !! j = Some jb -> j_removed jb = false -> j ∈ Y ++ F ++ s_queue s ->
  strict s jb \/ j ∈ Y ->
  wp (check_targets ug j) (fun b s' => b = false /\ settledN Y F j (j_msg jb) s s') (raisedN Y F j jb s) s.
Proof.
  intros Hug HJ Hj Hr HL Hcase. unfold check_targets.
  apply wp_bind, wp_get_job; [|intros E; congruence]. intros jb' E. rewrite Hj in E. injection E as <-.
  destruct (decide (j_targets jb = ∅)) as [He|He].
  { apply wp_ret. split; [reflexivity|]. split; [exact HJ|]. split; [apply later_refl|]. right.
    do 5 (split; [reflexivity|]). exists jb, jb. split; [exact Hj|]. split; [exact Hj|]. split; [apply same_job_refl|exact Hr]. }
  apply wp_bind, wp_upd. change (fun x : job => set_jtargets (j_targets x ∖ j_blacklist x) x) with shrink. set (s1 := set_jobs (alter shrink j) s).
  assert (Hj1 : s_jobs s1 !! j = Some (shrink jb)) by (cbn; rewrite lookup_alter, Hj; reflexivity).
  assert (Hsame : same_job jb (shrink jb)).
  { repeat split; cbn; auto; [intros E; contradiction|]. intros e Hin. destruct (decide (e ∈ j_blacklist jb)); [auto|left; set_solver]. }
  apply wp_bind, wp_get_job; [|intros E; congruence]. intros jb1 Hjb1. rewrite Hj1 in Hjb1. injection Hjb1 as <-.
  apply wp_bind, wp_get. change (s_targets s1) with (s_targets s). change (j_msg (shrink jb)) with (j_msg jb).
  destruct (decide _) as [Hd|Hd].
  - apply wp_bind, wp_upd, wp_bind.
    assert (Hdead : dead (s_log s) (j_msg jb)).
    { eapply dead_targets; [exact HJ|exact Hj|exact He|]. intros e H1 H2 H3. cbn in Hd. destruct Hd as [Hd|Hd]; set_solver. }
    eapply wp_mono; [apply (fail_hereN ug j jb (alter shrink j (s_jobs s)) (set_removed ∘ shrink) ImpossibleDep Y F s)| |]; try assumption.
    + rewrite <- alter_compose. reflexivity.
    + cbn. auto.
    + destruct Hcase; auto.
    + intros [] s' (A & B & C & E). apply wp_ret. split; [reflexivity|]. split; [exact A|]. split; [exact B|]. left. auto.
    + auto.
  - apply wp_ret. split; [reflexivity|]. split; [|split].
    + split; [apply (inv11_alter scheme); [apply HJ|cbn; auto|cbn; auto]|].
      eapply invN_alter; [apply HJ|exact Hj|exact Hsame|reflexivity].
    + apply later_alter; [cbn; auto|]. intros x e Hx Hb Ht. rewrite Hj in Hx. injection Hx as <-.
      right. destruct Ht as [Ht|Ht]; [exfalso; apply Hd; left; exact Ht|]. cbn in Ht. set_solver.
    + right. do 5 (split; [reflexivity|]). exists jb, (shrink jb). auto.
Qed.

Definition takes (j : nat) (Y F Y' F' : list nat) : Prop := (Y ≡ₚ j :: Y' /\ F' = F) \/ (Y' = Y /\ F ≡ₚ j :: F').
Lemma takes_perm j Y F Y' F' : takes j Y F Y' F' -> Y ++ F ≡ₚ (Y' ++ F') ++ [j].
Proof.
  intros [[A ->]|[-> A]]; rewrite A; [rewrite <- app_comm_cons|rewrite <- Permutation_middle]; rewrite Permutation_cons_append; reflexivity.
Qed.
Lemma takes_mem j Y F Y' F' q : takes j Y F Y' F' -> NoDup ((Y ++ F) ++ q) ->
  (forall j', j' ∈ F' ++ q <-> j' ∈ F ++ q /\ j' <> j) /\ (forall j', j' ∈ Y' <-> j' ∈ Y /\ j' <> j).
Proof.
  intros H Hn. assert (Hn2 : NoDup (j :: (Y' ++ F') ++ q)).
  { rewrite (takes_perm _ _ _ _ _ H) in Hn. rewrite <- app_assoc in Hn. cbn [app] in Hn.
    rewrite <- Permutation_middle in Hn. exact Hn. }
  apply NoDup_cons in Hn2 as [Hj _]. rewrite !elem_of_app in Hj.
  destruct H as [[A ->]|[-> A]]; split; intros j'; rewrite ?A, ?elem_of_app, ?elem_of_cons; split; intros B; intuition (subst; auto).
Qed.

Lemma submit_taskN j jb ix Y F Y' F' s :
  J Y F None s -> s_jobs s !! j = Some jb -> j_removed jb = false -> takes j Y F Y' F' ->
  ix <> [] -> (forall i, i ∈ ix -> i ∈ available_engines hwm s /\ can_run hwm s jb i = Some true) ->
  d_ids (j_after jb) ⊆ s_all_done s ->
  wp (submit_task scheme j (Some ix))
     (fun _ s' => s_qmap s' = s_qmap s /\ s_graph s' = s_graph s /\ s_jobs s' = s_jobs s /\ s_queue s' = s_queue s /\ later_state s s' /\
        J Y' F' None (set_graph (fun _ => forget (j_msg jb) (s_graph s)) (set_qmap (delete (j_msg jb)) s'))) (fun _ => False) s.
Proof.
  intros HJ Hj Hr Htk Hne Hix Had. 
  assert (HLin : j ∈ Y ++ F ++ s_queue s).
  { rewrite app_assoc, (takes_perm _ _ _ _ _ Htk), !elem_of_app. left. right. left. }
  pose proof (J_waiting _ _ _ _ _ _ HJ HLin Hj Hr) as Hp.
  assert (Hu : forall j' jb', s_jobs s !! j' = Some jb' -> j_msg jb' = j_msg jb -> j' = j).
  { intros j' jb' A B. eapply J_inj; [exact HJ|exact Hj|exact A|exact B]. }
  pose proof HJ as [HI HN]. unfold submit_task.
  apply wp_bind, wp_get_job; [|intros E; congruence]. intros jb' E. rewrite Hj in E. injection E as <-.
  apply wp_bind, wp_get. apply wp_bind, wp_get. cbv zeta. apply wp_bind, wp_upd.
  assert (Hlen : length (omap (fun i => s_loads s !! i) ix) = length ix).
  { clear -Hix. induction ix as [|i ix IH]; [reflexivity|]. cbn [omap list_omap].
    destruct (Hix i (elem_of_list_here i ix)) as [A _]. apply available_spec in A as (ld & e & A & _).
    cbn. rewrite A. cbn. f_equal. apply IH. intros i' Hi'. apply Hix. right. exact Hi'. }
  set (loads := omap _ _) in *.
  assert (Hlt : scheme (s_draws s) loads < length ix).
  { rewrite <- Hlen. apply Hscheme. intros E. rewrite E in Hlen. destruct ix; [congruence|discriminate]. }
  apply wp_bind, wp_of_option; [|intros E; apply lookup_ge_None in E; lia]. intros idx Hidx.
  apply elem_of_list_lookup_2, Hix in Hidx as [Hav Hcan].
  apply available_spec in Hav as (ld & target & Hld & Ht & Hlt1).
  apply wp_bind, wp_get. change (s_targets (set_draws S s)) with (s_targets s). rewrite Ht. apply wp_bind, wp_ret.
  destruct (w_load _ _ _ _ _ _ _ _ _ _ _ HI idx target Ht) as (l & Hl & Hl').
  apply wp_bind, wp_upd. apply wp_bind. unfold add_job.
  apply wp_bind, wp_upd. apply wp_bind, wp_upd. apply wp_upd.
  apply wp_bind, wp_get. apply wp_bind, wp_of_option; [|intros E; change (s_pending s !! target = None) in E; congruence].
  intros l' E. change (s_pending s !! target = Some l') in E. rewrite Hl in E. injection E as <-.
  apply wp_upd. do 4 (split; [reflexivity|]).
  assert (Hdone : dependents jb ⊆ s_all_done s).
  { unfold dependents. apply union_subseteq. split; [|exact Had].
    unfold can_run in Hcan. rewrite Hld, Ht in Hcan. do 3 (destruct (decide _) in Hcan; [discriminate|]).
    destruct (s_completed s !! target) as [c|] eqn:Ec; [|discriminate]. destruct (s_failed s !! target); [|discriminate].
    injection Hcan as Hcan. destruct (n_job _ _ _ _ _ _ _ _ _ _ _ _ _ _ _ _ HN j jb Hj) as (md & _ & _ & Hd & _).
    apply (check_dflt _ _ _ Hd) in Hcan. pose proof (n_cod _ _ _ _ _ _ _ _ _ _ _ _ _ _ _ _ HN target c Ec). set_solver. }
  assert (Hnb : target ∉ j_blacklist jb) by (eapply can_run_black; eauto).
  assert (Htin : target ∈ s_targets s) by (eapply elem_of_list_lookup_2; eauto).
  split.
  - split; [reflexivity|]. split.
    { intros Hf. exfalso. apply (full_not_ready s j target Hf).
      exfalso. unfold full, available_engines in Hf. rewrite decide_False in Hf by discriminate.
      assert (Hin : idx ∈ (List.filter (fun idx => match s_loads s !! idx with Some l => bool_decide (l < Z.of_nat 1)%Z | None => false end)
                 (seq 0 (length (s_targets s))))).
      { apply elem_of_list_In, filter_In. split; [apply in_seq; apply lookup_lt_Some in Ht; lia|]. rewrite Hld. apply bool_decide_eq_true_2. lia. }
      rewrite Hf in Hin. inversion Hin. }
    split; [auto|]. split.
    + intros j' e (b & i & ld' & c & fl & A1 & A2 & A3 & A4 & A5 & A6 & A7 & A8 & A9 & A10 & A11). cbn in A4, A5.
      destruct (rotate_lookup_other _ _ _ _ _ A4 Ht) as (k' & Hk' & _ & Hall).
      rewrite Hall in A5 by (rewrite alter_length; exact (w_len _ _ _ _ _ _ _ _ _ _ _ HI)).
      destruct (decide (k' = idx)) as [->|Hnk].
      * exfalso. rewrite list_lookup_alter, Hld in A5. cbn in A5. injection A5 as <-. rewrite Hld in Hl'. injection Hl' as ->. lia.
      * rewrite list_lookup_alter_ne in A5 by congruence. exists b, k', ld', c, fl. repeat (split; [assumption|]). auto.
    + intros j' b Hb. exists b. auto.
  - split.
    + unfold I11. cbn. apply (inv11_send scheme X); try assumption; try discriminate.
      eapply (inv11_L scheme); [|exact HI]. rewrite (takes_perm _ _ _ _ _ Htk). reflexivity.
    + unfold NS. cbn. destruct (takes_mem _ _ _ _ _ _ Htk (w_nodup _ _ _ _ _ _ _ _ _ _ _ HI)) as [M1 M2].
      eapply invN_send; [exact HN|exact Hj|exact Hp|exact Hu|exact M1|exact M2| |exact Htin|exact Hdone].
      intros e. apply rotate_elem.
Qed.

Lemma filter_can_run_total Y F D s jb l : J Y F D s -> (forall i, i ∈ l -> i ∈ available_engines hwm s) ->
  exists ix, filter_can_run hwm s jb l = Some ix /\ forall i, i ∈ ix <-> i ∈ l /\ can_run hwm s jb i = Some true.
Proof.
  intros [HI HN]. induction l as [|i l IH]; intros Hl; cbn [filter_can_run].
  { exists []. split; [reflexivity|]. intros i. split; [intros H; inversion H|intros [H _]; inversion H]. }
  destruct IH as (ix & E & Hix); [intros; apply Hl; right; assumption|].
  assert (Hcan : exists b, can_run hwm s jb i = Some b).
  { destruct (available_spec s i (Hl i (elem_of_list_here i l))) as (ld & e & A & B & _). unfold can_run. rewrite A, B.
    do 3 (destruct (decide _); [eauto|]).
    destruct (n_cf _ _ _ _ _ _ _ _ _ _ _ _ _ _ _ _ HN e) as [[c Hc] [f Hf]]; [left; eapply elem_of_list_lookup_2; eauto|].
    rewrite Hc, Hf. eauto. }
  destruct Hcan as [b Hb]. rewrite Hb, E. eexists. split; [reflexivity|]. intros i'. destruct b.
  - rewrite !elem_of_cons, Hix. split; [intros [->|[? ?]]; auto|intros [[->|?] ?]; auto].
  - rewrite Hix, elem_of_cons. split; [intros [? ?]; auto|]. intros [[->|?] ?]; [congruence|auto].
Qed.
Lemma follow_dests_total Y F D s j jb : J Y F D s -> s_jobs s !! j = Some jb ->
  exists X, follow_dests s jb = Some X /\ forall e, e ∈ X -> exists m, m ∈ d_ids (j_follow jb) /\ m ∈ s_all_completed s /\ s_dest s !! m = Some e.
Proof.
  intros [HI HN] Hj. destruct (n_job _ _ _ _ _ _ _ _ _ _ _ _ _ _ _ _ HN j jb Hj) as (md & _ & _ & (_ & B & C) & _).
  unfold follow_dests. rewrite B, C. set (rel := d_ids (j_follow jb) ∩ _).
  assert (Hrel : forall m, m ∈ elements rel -> m ∈ d_ids (j_follow jb) /\ m ∈ s_all_completed s).
  { intros m Hm. apply elem_of_elements in Hm. unfold rel in Hm. set_solver. }
  induction (elements rel) as [|m l IH]; cbn [foldr]; [exists ∅; split; [reflexivity|set_solver]|].
  destruct IH as (X & E & HX'); [intros; apply Hrel; right; assumption|]. rewrite E.
  destruct (Hrel m (elem_of_list_here m l)) as [A1 A2].
  destruct (n_dest _ _ _ _ _ _ _ _ _ _ _ _ _ _ _ _ HN m A2) as (e & A3 & _). rewrite A3. eexists. split; [reflexivity|].
  intros e' He'. apply elem_of_union in He' as [He'|He']; [|auto]. apply elem_of_singleton in He' as ->. eauto.
Qed.
Lemma dead_split Y F D s j jb X : J Y F D s -> s_jobs s !! j = Some jb -> follow_dests s jb = Some X -> 1 < size X ->
  dead (s_log s) (j_msg jb).
Proof.
  intros HJ Hj Hf Hsz. destruct (follow_dests_total _ _ _ _ _ _ HJ Hj) as (X' & E & HX'). rewrite Hf in E. injection E as <-.
  destruct HJ as [HI HN]. destruct (n_job _ _ _ _ _ _ _ _ _ _ _ _ _ _ _ _ HN j jb Hj) as (md & A & _ & _ & _ & B & _).
  apply (two_elements scheme) in Hsz as (e1 & e2 & H1 & H2 & Hne). apply HX' in H1 as (m1 & A1 & A2 & A3). apply HX' in H2 as (m2 & B1 & B2 & B3).
  destruct (n_dest _ _ _ _ _ _ _ _ _ _ _ _ _ _ _ _ HN m1 A2) as (e1' & A4 & A5).
  destruct (n_dest _ _ _ _ _ _ _ _ _ _ _ _ _ _ _ _ HN m2 B2) as (e2' & B4 & B5).
  exists md. split; [exact A|]. right. left. exists m1, m2, e1, e2, true, true.
  replace e1' with e1 in A5 by congruence. replace e2' with e2 in B5 by congruence.
  split; [apply B, A1|]. split; [apply B, B1|]. auto.
Qed.

(** Running a job, or finding that it cannot run now. *)
Lemma maybe_runN ug j jb Y F Y' F' s :
  goodJ ug -> J Y F None s -> s_jobs s !! j = Some jb -> j_removed jb = false -> strict s jb \/ j ∈ Y ->
  takes j Y F Y' F' -> d_ids (j_after jb) ⊆ s_all_done s ->
  wp (maybe_run hwm scheme ug j)
     (fun b s' => later_state s s' /\
        if b : bool then s_qmap s' = s_qmap s /\ s_graph s' = s_graph s /\ s_jobs s' = s_jobs s /\ s_queue s' = s_queue s /\
          J Y' F' None (set_graph (fun _ => forget (j_msg jb) (s_graph s)) (set_qmap (delete (j_msg jb)) s'))
        else settledN Y F j (j_msg jb) s s' /\ forall e, ~ ready s' j e)
     (raisedN Y F j jb s) s.
Proof.
  intros Hug HJ Hj Hr Hcase Htk Had. unfold maybe_run.
  assert (HL : j ∈ Y ++ F ++ s_queue s).
  { rewrite app_assoc, (takes_perm _ _ _ _ _ Htk), !elem_of_app. left. right. left. }
  assert (Hstay : settledN Y F j (j_msg jb) s s).
  { split; [exact HJ|]. split; [apply later_refl|]. right. do 5 (split; [reflexivity|]). exists jb, jb.
    split; [exact Hj|]. split; [exact Hj|]. split; [apply same_job_refl|exact Hr]. }
  apply wp_bind, wp_get_job; [|intros E; congruence]. intros jb' E. rewrite Hj in E. injection E as <-.
  apply wp_bind, wp_get.
  destruct (decide (available_engines hwm s = [])) as [Hav|Hav].
  { apply wp_ret. split; [apply later_refl|]. split; [exact Hstay|]. intros e. apply full_not_ready. exact Hav. }
  rewrite decide_True by (right; right; right; discriminate).
  destruct (filter_can_run_total Y F None s jb (available_engines hwm s) HJ) as (ix & Eix & Hix); [auto|].
  apply wp_bind, wp_get. rewrite Eix. apply wp_bind, wp_ret.
  destruct (decide (ix = [])) as [->|Hne].
  - assert (Hnr : forall e, ~ ready s j e).
    { intros e (b & i & ld & c & fl & A1 & A2 & A3 & A4 & A5 & A6 & A7 & A8 & A9 & A10 & A11).
      rewrite Hj in A1. injection A1 as <-. cut (i ∈ []); [intros H; inversion H|]. apply Hix. split.
      - unfold available_engines. rewrite decide_False by discriminate. apply elem_of_list_In, filter_In.
        split; [apply in_seq; apply lookup_lt_Some in A4; lia|]. rewrite A5. apply bool_decide_eq_true_2. exact A6.
      - unfold can_run. rewrite A5, A4. rewrite decide_False by (intros [_ E]; change (Z.of_nat hwm) with 1%Z in E; lia).
        rewrite decide_False by exact A7. rewrite decide_False by (intros [? ?]; destruct A8; contradiction).
        rewrite A9, A10, A11. reflexivity. }
    assert (Hpost : forall s', settledN Y F j (j_msg jb) s s' ->
      later_state s s' /\ settledN Y F j (j_msg jb) s s' /\ forall e, ~ ready s' j e).
    { intros s' H. split; [apply H|]. split; [exact H|]. intros e He. apply (Hnr e). apply (proj1 (proj2 H)). exact He. }
    assert (Hct : wp (check_targets ug j) (fun b s' => later_state s s' /\
        if b : bool then s_qmap s' = s_qmap s /\ s_graph s' = s_graph s /\ s_jobs s' = s_jobs s /\ s_queue s' = s_queue s /\
          J Y' F' None (set_graph (fun _ => forget (j_msg jb) (s_graph s)) (set_qmap (delete (j_msg jb)) s'))
        else settledN Y F j (j_msg jb) s s' /\ forall e, ~ ready s' j e) (raisedN Y F j jb s) s).
    { eapply wp_mono; [eapply check_targetsN; eauto| |auto]. intros b s' [-> H]. auto. }
    destruct (d_all (j_follow jb)); [|exact Hct].
    destruct (follow_dests_total _ _ _ _ _ _ HJ Hj) as (dests & Ed & _).
    apply wp_bind, wp_get. rewrite Ed. apply wp_bind, wp_ret.
    destruct (decide (1 < size dests)) as [Hsz|Hsz]; [|exact Hct].
    pose proof (dead_split _ _ _ _ _ _ _ HJ Hj Ed Hsz) as Hdead.
    apply wp_bind, wp_upd, wp_bind.
    replace (set_qmap (<[j_msg jb := j]>) s) with (set_qmap (<[j_msg jb := j]>) (set_jobs (fun _ => s_jobs s) s)) by (destruct s; reflexivity).
    eapply wp_mono; [apply (fail_hereN ug j jb (s_jobs s) set_removed ImpossibleDep Y F s)| |]; try assumption; try reflexivity.
    + repeat split; auto.
    + cbn. auto.
    + destruct Hcase; auto.
    + intros [] s' (A & B & C & E). apply wp_ret. apply Hpost. split; [exact A|]. split; [exact B|]. left. auto.
    + auto.
  - apply wp_bind. eapply wp_mono; [eapply (submit_taskN j jb ix Y F Y' F' s); eauto| |intros s' []].
    + intros i Hi. apply Hix in Hi. exact Hi.
    + intros [] s' (A & B & C & E & G & H). apply wp_ret. split; [exact G|]. auto.
Qed.

Lemma J_drop Y F D s j : J Y (F ++ [j]) D s -> gone j s -> J Y F D s.
Proof.
  intros [HI HN] (jb & Hj & Hr). split.
  - apply (I11_frame scheme X (Y ++ F ++ [j])); [|exact HI]. rewrite app_assoc. apply submseteq_inserts_r. reflexivity.
  - unfold NS in *. eapply invN_L; [| |exact HN].
    + intros j' H. rewrite <- app_assoc. apply elem_of_app in H as [H|H]; apply elem_of_app; [auto|]. right. right. exact H.
    + intros j' jb' H Hj' Hr'. rewrite <- app_assoc in H. apply elem_of_app in H as [H|H]; apply elem_of_app; [auto|].
      apply elem_of_cons in H as [->|H]; [congruence|auto].
Qed.

Lemma ug_bodyN ug j jb Y F s :
  goodJ ug -> J Y (F ++ [j]) None s -> s_jobs s !! j = Some jb -> j_removed jb = false ->
  wp (ug_body hwm scheme ug j)
     (fun r s' => later_state s s' /\ (snd r = true -> full s') /\
        if fst r then J Y (F ++ [j]) None s' /\ forall e, ~ ready s' j e else J Y F None s') (fun _ => False) s.
Proof.
  intros Hug HJ Hj Hr. unfold ug_body.
  assert (HLin : j ∈ (F ++ [j]) ++ s_queue s) by (rewrite <- app_assoc; apply elem_of_app; right; left).
  destruct (J_saved _ _ _ _ _ _ HJ HLin Hj Hr) as [Hq Hst].
  apply wp_bind, wp_get_job; [|intros E; congruence]. intros jb' E. rewrite Hj in E. injection E as <-.
  apply wp_bind, wp_get. apply wp_bind, wp_get.
  destruct (_ || _).
  - apply wp_bind. eapply wp_mono; [eapply (failN ug (j_msg jb) j); [exact Hug|exact HJ|exact Hq]| |auto].
    intros [] s' (A & B & C & _). apply wp_ret. split; [exact B|]. split; [discriminate|]. cbn [fst]. eapply J_drop; eassumption.
  - destruct (check (j_after jb) _ _) eqn:Ec.
    2:{ apply wp_ret. split; [apply later_refl|]. split; [discriminate|]. cbn [fst]. split; [exact HJ|].
        intros e (b & i & ld & c & fl & A1 & A2 & A3 & _). rewrite Hj in A1. injection A1 as <-. congruence. }
    apply wp_bind.
    assert (Had : d_ids (j_after jb) ⊆ s_all_done s).
    { destruct HJ as [HI HN]. destruct (n_job _ _ _ _ _ _ _ _ _ _ _ _ _ _ _ _ HN j jb Hj) as (md & _ & Hd & _).
      apply (check_dflt _ _ _ Hd) in Ec. pose proof (n_acd _ _ _ _ _ _ _ _ _ _ _ _ _ _ _ _ HN). set_solver. }
    eapply wp_mono; [eapply (maybe_runN ug j jb Y (F ++ [j]) Y F s); eauto| |].
    + right. split; [reflexivity|]. rewrite <- Permutation_cons_append. reflexivity.
    + intros ran s' [Hlat H]. cbv beta. destruct ran.
      * destruct H as (A & B & C & E & HJ').
        apply wp_bind, wp_get. rewrite A, Hq. rewrite decide_True by eauto.
        apply wp_bind, wp_upd. apply wp_bind, wp_get_job; cbn [s_jobs set_qmap]; rewrite C, Hj; [|discriminate].
        intros jb2 E2. injection E2 as <-.
        apply wp_bind. apply graph_remove_exact.
        -- intros d Z Hd HZ. cbn in HZ. rewrite B in HZ. exact (Hst d Z Hd HZ).
        -- intros d Z HZ Hin. cbn in HZ. rewrite B in HZ. destruct HJ as [HI HN].
           destruct (n_graph _ _ _ _ _ _ _ _ _ _ _ _ _ _ _ _ HN d Z _ HZ Hin) as (j' & jb' & C1 & C2 & C3).
           rewrite Hq in C1. injection C1 as <-. rewrite Hj in C2. injection C2 as <-. exact C3.
        -- cbn [s_graph set_qmap]. rewrite B. apply wp_bind, wp_get, wp_ret.
           split; [exact Hlat|]. split; [|exact HJ']. cbn [snd]. intros Hb. apply bool_decide_eq_true in Hb. exact Hb.
      * destruct H as [(A & B & _) Hn]. apply wp_ret. split; [exact B|]. split; [discriminate|]. cbn [fst]. auto.
    + intros s' (H & _). contradiction.
Qed.

Lemma queue_loopN ug fuel : goodJ ug -> forall Y F back s, J Y (F ++ back) None s -> (forall j e, j ∈ back -> ~ ready s j e) ->
  wp (queue_loop hwm scheme ug fuel back)
     (fun back' s' => J Y (F ++ back') None s' /\ later_state s s' /\ (forall j, j ∈ back' -> j ∈ back \/ j ∈ s_queue s) /\
        (forall j e, j ∈ back' -> ~ ready s' j e) /\ (s_queue s' = [] \/ full s')) (fun _ => False) s.
Proof.
  intros Hug. induction fuel as [|fuel IH]; intros Y F back s HJ Hb; [exact Logic.I|].
  cbn [queue_loop]. apply wp_bind, wp_get. destruct (s_queue s) as [|j q] eqn:Eq.
  { apply wp_ret. split; [exact HJ|]. split; [apply later_refl|]. split; [auto|]. split; [exact Hb|]. left. exact Eq. }
  apply wp_bind, wp_upd. set (s1 := set_queue (fun _ => q) s).
  assert (HJ1 : J Y ((F ++ back) ++ [j]) None s1).
  { destruct HJ as [HI HN]. split.
    - unfold I11 in *. cbn. rewrite Eq in HI. rewrite <- !app_assoc in *. exact HI.
    - unfold NS in *. cbn. rewrite Eq in HN. rewrite <- !app_assoc in *. exact HN. }
  assert (Hl1 : later_state s s1).
  { destruct (later_refl s) as (A & B & C & E & G). split; [exact A|]. split; [exact B|]. split; [|split; [exact E|exact G]].
    intros j' Hj'. cbn in Hj'. rewrite Eq. right. exact Hj'. }
  assert (Hjob : exists jb, s_jobs s1 !! j = Some jb).
  { destruct HJ1 as [HI _]. destruct (w_live _ _ _ _ _ _ _ _ _ _ _ HI j) as (jb & A & _); [|eauto].
    rewrite !elem_of_app. left. right. right. left. }
  destruct Hjob as [jb Hj]. apply wp_bind, wp_get_job; [|intros E; congruence]. intros jb' E. rewrite Hj in E. injection E as <-.
  assert (Hcont : forall back2 s2, J Y (F ++ back2) None s2 -> later_state s1 s2 -> (forall j', j' ∈ back2 -> j' ∈ back \/ j' = j) ->
     (forall j' e, j' ∈ back2 -> ~ ready s2 j' e) ->
     wp (queue_loop hwm scheme ug fuel back2)
     (fun back' s' => J Y (F ++ back') None s' /\ later_state s s' /\ (forall j', j' ∈ back' -> j' ∈ back \/ j' ∈ j :: q) /\
        (forall j e, j ∈ back' -> ~ ready s' j e) /\ (s_queue s' = [] \/ full s')) (fun _ => False) s2).
  { intros back2 s2 A1 A2 A3 A4. eapply wp_mono; [apply (IH Y F back2 s2 A1 A4)| |auto].
    intros back' s' (B1 & B2 & B3 & B4 & B5). split; [exact B1|].
    split; [eapply later_trans; [exact Hl1|]; eapply later_trans; eassumption|]. split; [|auto].
    intros j' Hj'. destruct (B3 j' Hj') as [H|H].
    - destruct (A3 j' H) as [H'|H']; [auto|right; subst; left].
    - right. right. apply (proj1 (proj2 (proj2 A2)) j' H). }
  destruct (j_removed jb) eqn:Er.
  - apply Hcont; [|apply later_refl|auto|exact Hb]. eapply J_drop; [exact HJ1|]. exists jb. auto.
  - apply wp_bind. eapply wp_mono; [eapply (ug_bodyN ug j jb Y (F ++ back) s1); eauto| |auto].
    intros [b1 b2] s2 (A1 & A2 & A3). cbn [fst snd] in *. cbv zeta.
    assert (Hb2 : forall j' e, j' ∈ back -> ~ ready s2 j' e).
    { intros j' e Hj' Hrd. apply (Hb j' e Hj'). apply Hl1. apply A1. exact Hrd. }
    assert (Hall : J Y (F ++ (if b1 then back ++ [j] else back)) None s2 /\
       (forall j', j' ∈ (if b1 then back ++ [j] else back) -> j' ∈ back \/ j' = j) /\
       (forall j' e, j' ∈ (if b1 then back ++ [j] else back) -> ~ ready s2 j' e)).
    { destruct b1.
      - destruct A3 as [A3 A4]. split; [rewrite app_assoc; exact A3|]. split; intros j'.
        + intros H. apply elem_of_app in H as [H|H]; [auto|]. apply elem_of_list_singleton in H. auto.
        + intros e H. apply elem_of_app in H as [H|H]; [auto|]. apply elem_of_list_singleton in H as ->. auto.
      - auto. }
    destruct Hall as (B1 & B2 & B3). destruct b2; [|apply Hcont; auto].
    apply wp_ret. split; [exact B1|]. split; [eapply later_trans; eassumption|]. split; [|auto].
    intros j' Hj'. destruct (B2 j' Hj') as [H| ->]; [auto|right; left].
Qed.

Lemma failN_any ug m w Y F s :
  goodJ ug -> J Y F None s ->
  wp (fail_unreachable ug m w) (fun _ s' => J Y F None s' /\ later_state s s') (fun _ => False) s.
Proof.
  intros Hug HJ. destruct (s_qmap s !! m) as [j|] eqn:Eq.
  - eapply wp_mono; [eapply failN; eauto| |auto]. intros [] s' (A & B & _). auto.
  - unfold fail_unreachable. apply wp_bind, wp_get. rewrite Eq. apply wp_ret. split; [exact HJ|apply later_refl].
Qed.

Lemma list_loopN ug js : goodJ ug -> forall Y F s, J Y F None s -> full s -> (forall j, j ∈ js -> is_Some (s_jobs s !! j)) ->
  wp (list_loop hwm scheme ug js) (fun _ s' => J Y F None s' /\ later_state s s') (fun _ => False) s.
Proof.
  intros Hug. induction js as [|j js IH]; intros Y F s HJ Hf Hjs; cbn [list_loop]; [apply wp_ret; split; [exact HJ|apply later_refl]|].
  destruct (Hjs j (elem_of_list_here j js)) as [jb Hj].
  apply wp_bind, wp_get_job; [|intros E; congruence]. intros jb' E. rewrite Hj in E. injection E as <-.
  assert (Hcont : forall s2, J Y F None s2 -> later_state s s2 ->
    wp (list_loop hwm scheme ug js) (fun _ s' => J Y F None s' /\ later_state s s') (fun _ => False) s2).
  { intros s2 A B. eapply wp_mono; [apply (IH Y F s2 A)| |auto].
    - apply B, Hf.
    - intros j' Hj'. destruct (Hjs j' (elem_of_list_further _ _ _ Hj')) as [jb' Hjb']. destruct B as (_ & _ & _ & _ & B).
      destruct (B j' jb' Hjb') as (jb2 & C & _). eauto.
    - intros [] s' [C D]. split; [exact C|]. eapply later_trans; eassumption. }
  destruct (j_removed jb) eqn:Er; [apply Hcont; [exact HJ|apply later_refl]|].
  apply wp_bind. eapply wp_mono with (Q := fun b s' => J Y F None s' /\ later_state s s') (E := fun _ => False); [| |auto].
  - unfold ug_body. apply wp_bind, wp_get_job; [|intros E; congruence]. intros jb' E. rewrite Hj in E. injection E as <-.
    apply wp_bind, wp_get. apply wp_bind, wp_get.
    destruct (_ || _).
    + apply wp_bind. eapply wp_mono; [eapply failN_any; [exact Hug|exact HJ]| |auto].
      intros [] s' H. apply wp_ret. exact H.
    + destruct (check (j_after jb) _ _); [|apply wp_ret; split; [exact HJ|apply later_refl]].
      apply wp_bind. unfold maybe_run. apply wp_bind, wp_get_job; [|intros E; congruence]. intros jb' _.
      apply wp_bind, wp_get. rewrite decide_True by exact Hf. apply wp_ret, wp_ret. split; [exact HJ|apply later_refl].
  - intros b s' [A B]. cbv beta. destruct (snd b); [apply wp_ret; auto|]. apply Hcont; assumption.
Qed.

Lemma insert_sorted_mem x y l : y ∈ insert_sorted x l -> y = x \/ y ∈ l.
Proof.
  induction l as [|z l IH]; cbn [insert_sorted]; intros H; [apply elem_of_list_singleton in H; auto|].
  destruct (decide (x <= z)); [apply elem_of_cons in H; tauto|].
  apply elem_of_cons in H as [->|H]; [right; left|]. destruct (IH H); [auto|right; right; assumption].
Qed.
Lemma sort_jobs_mem y l : y ∈ sort_jobs l -> y ∈ l.
Proof.
  induction l as [|x l IH]; cbn [sort_jobs foldr]; [auto|]. intros H. apply insert_sorted_mem in H as [->|H]; [left|right; auto].
Qed.

Lemma update_graphN fuel : goodJ (update_graph hwm scheme fuel).
Proof.
  induction fuel as [|n IH]; intros d Y F s HJ; [exact Logic.I|].
  cbn [update_graph]. apply wp_bind, wp_get. cbv zeta. apply wp_bind, wp_upd.
  set (s1 := set_graph _ s).
  assert (HJ1 : J Y F None s1).
  { destruct HJ as [HI HN]. split; [exact HI|]. unfold NS in *. cbn. apply invN_pop in HN. exact HN. }
  assert (Hl1 : later_state s s1) by exact (later_refl s).
  apply wp_bind, wp_get. destruct (decide _) as [Hd|Hd].
  - apply wp_bind. eapply wp_mono; [apply (queue_loopN _ _ IH Y F [] s1)| |auto].
    + rewrite app_nil_r. exact HJ1.
    + intros j e H. inversion H.
    + intros back s' (A1 & A2 & A3 & A4 & A5). apply wp_upd.
      assert (Hpm : (F ++ back) ++ s_queue s' ≡ₚ F ++ reverse back ++ s_queue s').
      { rewrite <- app_assoc, reverse_Permutation. reflexivity. }
      split; [|split].
      * destruct A1 as [HI HN]. split.
        -- unfold I11 in *. cbn. eapply (inv11_L scheme); [|exact HI]. rewrite <- !app_assoc, reverse_Permutation. reflexivity.
        -- unfold NS in *. cbn. eapply invN_L; [| |exact HN].
           ++ intros j' H. rewrite Hpm. exact H.
           ++ intros j' jb' H _ _. rewrite <- Hpm. exact H.
      * eapply later_trans; [exact Hl1|]. destruct A2 as (B1 & B2 & B3 & B4 & B5). split; [exact B1|]. split; [exact B2|].
        split; [|split; [exact B4|exact B5]]. intros j' Hj'. cbn in Hj'. apply elem_of_app in Hj' as [Hj'|Hj'].
        -- rewrite elem_of_reverse in Hj'. destruct (A3 j' Hj') as [H|H]; [inversion H|exact H].
        -- exact (B3 j' Hj').
      * intros j e Hj. cbn in Hj. apply elem_of_app in Hj as [Hj|Hj].
        -- rewrite elem_of_reverse in Hj. exact (A4 j e Hj).
        -- destruct A5 as [A5|A5]; [rewrite A5 in Hj; inversion Hj|]. exact (full_not_ready s' j e A5).
  - assert (Hfull : full s1).
    { unfold full. destruct (available_engines hwm s1) as [|i r] eqn:Ea; [exact Ea|exfalso].
      destruct (available_spec s1 i) as (ld & e & E1 & E2 & E3); [change (i ∈ available_engines hwm s1); rewrite Ea; left|].
      destruct HJ1 as [HI1 _]. destruct (w_load _ _ _ _ _ _ _ _ _ _ _ HI1 i e E2) as (l & _ & E4).
      rewrite E1 in E4. injection E4 as ->. apply Hd. right. split; [discriminate|].
      assert (E5 : Z.of_nat (length l) = 0%Z) by lia. rewrite E5 in E1. change (Z.of_nat hwm - 1)%Z with 0%Z.
      eapply elem_of_list_lookup_2; eauto. }
    apply wp_bind, wp_get. set (ids := elements _).
    assert (Hids : forall m, m ∈ ids -> is_Some (s_qmap s1 !! m)).
    { intros m Hm. unfold ids in Hm. apply elem_of_elements in Hm. destruct d as [d|]; [|set_solver].
      destruct (s_graph s !! d) as [Z|] eqn:EZ; [|cbn in Hm; set_solver]. cbn in Hm. destruct HJ as [_ HN].
      destruct (n_graph _ _ _ _ _ _ _ _ _ _ _ _ _ _ _ _ HN d Z m EZ Hm) as (j & jb & A & _). exists j. exact A. }
    destruct (mapM (fun m => s_qmap s1 !! m) ids) as [js|] eqn:Ejs.
    2:{ exfalso. apply mapM_None, Exists_exists in Ejs as (m & Hm & E). destruct (Hids m Hm). congruence. }
    eapply wp_mono; [apply (list_loopN _ _ IH Y F s1 HJ1 Hfull)| |auto].
    + intros j Hj. apply sort_jobs_mem in Hj. apply mapM_Some in Ejs. 
      apply elem_of_list_lookup in Hj as [k Hk]. destruct (Forall2_lookup_r _ _ _ _ _ Ejs Hk) as (m & _ & Hq).
      destruct (J_qm _ _ _ _ _ _ HJ1 Hq) as (jb & A & _). eauto.
    + intros [] s' [A B]. split; [exact A|]. split; [eapply later_trans; [exact Hl1|exact B]|].
      intros j e _. apply full_not_ready. apply B. exact Hfull.
Qed.
End Idle.
