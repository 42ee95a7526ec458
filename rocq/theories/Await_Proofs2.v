From stdpp Require Import base list gmap.
From Verif Require Import Await_Spec Await_Model Await_Proofs.
From Coq Require Import Lia.
Local Open Scope nat_scope.

Lemma reached_sublist gone l : forall b, sublist (reached gone b l) l.
Proof. induction l as [|a l IH]; intros b; cbn [reached]; [constructor|]. destruct b; [apply sublist_cons, IH|apply sublist_skip, IH]. Qed.
Lemma sublist_nodup {A} (l k : list A) : sublist l k -> NoDup k -> NoDup l.
Proof.
  induction 1 as [|x l k S IH|x l k S IH]; intros N; [exact N| |apply NoDup_cons in N as [_ N]; auto]. apply NoDup_cons in N as [X N]. apply NoDup_cons. split; [|auto]. intros Y. apply X.
  apply (elem_of_submseteq l k x Y). apply sublist_submseteq, S.
Qed.
Lemma reached_in gone b l x : x ∈ reached gone b l -> x ∈ l.
Proof. intros H. apply (elem_of_submseteq _ _ _ H), sublist_submseteq, reached_sublist. Qed.
Lemma reached_nodup (P : nat -> Prop) `{!forall x, Decision (P x)} gone b l : NoDup l -> NoDup (filter P (reached gone b l)).
Proof. intros N. apply NoDup_filter. apply (sublist_nodup _ _ (reached_sublist gone l b) N). Qed.

Global Instance pending_dec s w : Decision (exists n, pending s w n).
Proof.
  unfold pending. destruct (waits s !! w) as [[n t [x|]]|]; [right|left; eauto|right]; intros (m & u & H); discriminate.
Defined.

Lemma result_pending s w n : pending s w n -> result s w = None.
Proof. intros [t P]. unfold result. rewrite P. reflexivity. Qed.
Lemma all_result o l s w : NoDup l -> result (finish_all o l s) w = match result s w with Some x => Some x | None => if decide (w ∈ l /\ exists n, pending s w n) then Some o else None end.
Proof.
  intros N. unfold result. rewrite (all_waits o l N s w). destruct (decide (w ∈ l)) as [W|W].
  - destruct (waits s !! w) as [[n t [x|]]|] eqn:E; cbn [w_out]; [reflexivity| |].
    + rewrite decide_True; [reflexivity|]. split; [exact W|]. exists n, t. exact E.
    + rewrite decide_False; [reflexivity|]. intros [_ (n & t & H)]. congruence.
  - destruct (waits s !! w) as [[n t [x|]]|] eqn:E; cbn [w_out]; [reflexivity| |]; rewrite decide_False; try reflexivity; intros [H _]; contradiction.
Qed.
Lemma finish_result o v s w : result (finish v o s) w = match result s w with Some x => Some x | None => if decide (w = v /\ exists n, pending s w n) then Some o else None end.
Proof.
  change (finish v o s) with (finish_all o [v] s). rewrite all_result by apply NoDup_singleton. destruct (result s w); [reflexivity|]. destruct (decide (w ∈ [v] /\ _)) as [[H P]|H]; [rewrite decide_True by (apply elem_of_list_singleton in H; auto); reflexivity|].
  rewrite decide_False; [reflexivity|]. intros [-> P]. apply H. split; [left|exact P].
Qed.

(** ** One event *)
Lemma step_ids evs s ev : inv evs s -> ids (step s ev) = match ev with Register e => if bool_decide (e ∈ ids s) then ids s else e :: ids s | Unregister e => remove_one e (ids s) | _ => ids s end.
Proof.
  intros I. destruct ev as [w n t|w|w|e|e|k|w].
  - reflexivity.
  - cbn [step]. unfold watch. destruct (find _ _); [apply finish_ids|]. destruct (waits s !! w) as [[? ? [?|]]|]; reflexivity.
  - cbn [step]. unfold install. destruct (waits s !! w) as [[? ? [?|]]|]; reflexivity.
  - rewrite (register_ok evs s e I). destruct (all_ids Ready (filter (fun w => enough (set_ids (if bool_decide (e ∈ ids s) then ids s else e :: ids s) s) w = true) (reached (enough (set_ids (if bool_decide (e ∈ ids s) then ids s else e :: ids s) s)) false (callbacks s))) (set_ids (if bool_decide (e ∈ ids s) then ids s else e :: ids s) s)) as [-> _]. reflexivity.
  - rewrite (unregister_ok evs s e I). cbv zeta. rewrite (proj1 (all_ids _ _ _)). reflexivity.
  - destruct (decide (k ∈ after s)) as [Ka|Ka]; [cbn [step]; rewrite bool_decide_eq_true_2 by exact Ka; reflexivity|]. destruct (decide (k < length (stops s))) as [Lk|Lk].
    + rewrite (stop_ok evs s k I Ka Lk). cbv zeta. rewrite (proj1 (all_ids _ _ _)). reflexivity.
    + cbn [step]. rewrite bool_decide_eq_false_2 by exact Ka. replace (k <? length (stops s)) with false by (symmetry; apply Nat.ltb_ge; lia). reflexivity.
  - cbn [step]. unfold on_timeout. destruct (waits s !! w) as [[n [] [x|]]|]; try reflexivity. apply finish_ids.
Qed.
Lemma step_after evs s ev : inv evs s -> length (stops (step s ev)) = length (stops s) /\ after (step s ev) = match ev with Stop k => if bool_decide (k ∈ after s) || negb (k <? length (stops s)) then after s else k :: after s | _ => after s end.
Proof.
  intros I. destruct ev as [w n t|w|w|e|e|k|w].
  - auto.
  - cbn [step]. unfold watch. destruct (find _ _); [destruct (finish_after w (SetStopped n) s); auto|]. destruct (waits s !! w) as [[? ? [?|]]|]; cbn; rewrite ?map_length; auto.
  - cbn [step]. unfold install. destruct (waits s !! w) as [[? ? [?|]]|]; auto.
  - rewrite (register_ok evs s e I). cbv zeta. destruct (all_ids Ready (filter (fun w => enough (set_ids (if bool_decide (e ∈ ids s) then ids s else e :: ids s) s) w = true) (reached (enough (set_ids (if bool_decide (e ∈ ids s) then ids s else e :: ids s) s)) false (callbacks s))) (set_ids (if bool_decide (e ∈ ids s) then ids s else e :: ids s) s)) as (_ & -> & ->). auto.
  - rewrite (unregister_ok evs s e I). cbv zeta. rewrite (proj1 (proj2 (all_ids _ _ _))), (proj2 (proj2 (all_ids _ _ _))). auto.
  - destruct (decide (k ∈ after s)) as [Ka|Ka]; [cbn [step]; rewrite bool_decide_eq_true_2 by exact Ka; auto|]. destruct (decide (k < length (stops s))) as [Lk|Lk].
    + rewrite (stop_ok evs s k I Ka Lk). cbv zeta. rewrite (proj1 (proj2 (all_ids _ _ _))), (proj2 (proj2 (all_ids _ _ _))). cbn [after stops]. rewrite bool_decide_eq_false_2 by exact Ka. rewrite (proj2 (Nat.ltb_lt k (length (stops s)))) by exact Lk. auto.
    + cbn [step]. rewrite bool_decide_eq_false_2 by exact Ka. replace (k <? length (stops s)) with false by (symmetry; apply Nat.ltb_ge; lia). auto.
  - cbn [step]. unfold on_timeout. destruct (waits s !! w) as [[n [] [x|]]|]; auto. destruct (finish_after w (if n <=? length (ids s) then Ready else TimedOut) s). auto.
Qed.
(** what it ends *)
Definition news (evs : list event) (s : state) (ev : event) (w : nat) : option outcome :=
  match ev with
  | Call v n t => if decide (w = v) then (if n <=? length (ids s) then Some Ready else None) else None
  | Watch v => if decide (w = v /\ exists n, pending s w n) then option_map SetStopped (find (fun k => bool_decide (k ∈ after s)) (seq 0 (length (stops s)))) else None
  | Install _ => None
  | Register e => let s1 := set_ids (if bool_decide (e ∈ ids s) then ids s else e :: ids s) s in if decide (w ∈ reached (enough s1) false (callbacks s) /\ enough s1 w = true) then Some Ready else None
  | Unregister e => if decide (w ∈ reached (fun _ => true) false (callbacks s)) then Some (EngineGone e) else None
  | Stop k => if decide (k ∉ after s /\ k < length (stops s) /\ w ∈ reached (fun _ => true) false (default [] (stops s !! k))) then Some (SetStopped k) else None
  | Timer v => match waits s !! v with Some (Wait n true None) => if decide (w = v) then Some (if n <=? length (ids s) then Ready else TimedOut) else None | _ => None end
  end.
Lemma step_result evs s ev w : inv evs s -> well_formed_after evs ev -> result (step s ev) w = match result s w with Some x => Some x | None => news evs s ev w end.
Proof.
  intros I WF. destruct ev as [v n t|v|v|e|e|k|v]; cbn [news].
  - cbn [step well_formed_after] in *. unfold result. cbn. destruct (decide (w = v)) as [->|Ne].
    + rewrite lookup_insert. destruct (waits s !! v) as [[m u x]|] eqn:E; [exfalso; apply (WF m u); eapply (i_w _ _ I), E|]. reflexivity.
    + rewrite lookup_insert_ne by congruence. destruct (waits s !! w) as [[m u [x|]]|]; reflexivity.
  - cbn [step]. unfold watch. destruct (find _ _) as [k|].
    + rewrite finish_result. reflexivity.
    + destruct (decide _); destruct (waits s !! v) as [[? ? [?|]]|]; unfold result; cbn; destruct (waits s !! w) as [[? ? [?|]]|]; reflexivity.
  - cbn [step]. unfold install. destruct (waits s !! v) as [[? ? [?|]]|]; unfold result; cbn; destruct (waits s !! w) as [[? ? [?|]]|]; reflexivity.
  - rewrite (register_ok evs s e I). cbv zeta. set (s1 := set_ids _ s). rewrite all_result by (apply reached_nodup, (i_cb _ _ I)). change (result s1 w) with (result s w). destruct (result s w); [reflexivity|].
    destruct (decide (w ∈ filter _ _ /\ _)) as [[H P]|H]; [rewrite elem_of_list_filter in H; rewrite decide_True by tauto; reflexivity|]. rewrite decide_False; [reflexivity|]. intros [X Y]. apply H. rewrite elem_of_list_filter. split; [auto|]. apply reached_in, (i_cbs _ _ I) in X as [_ X]. exact X.
  - rewrite (unregister_ok evs s e I). cbv zeta. set (s1 := set_ids _ s). rewrite all_result by (apply reached_nodup, (i_cb _ _ I)). change (result s1 w) with (result s w). destruct (result s w); [reflexivity|].
    destruct (decide (w ∈ filter _ _ /\ _)) as [[H P]|H]; [rewrite elem_of_list_filter in H; rewrite decide_True by tauto; reflexivity|]. rewrite decide_False; [reflexivity|]. intros X. apply H. rewrite elem_of_list_filter. split; [auto|]. apply reached_in, (i_cbs _ _ I) in X as [_ X]. exact X.
  - destruct (decide (k ∈ after s)) as [Ka|Ka].
    { cbn [step]; rewrite bool_decide_eq_true_2 by exact Ka. cbn [orb]. destruct (result s w); [reflexivity|]. rewrite decide_False; [reflexivity|tauto]. }
    destruct (decide (k < length (stops s))) as [Lk|Lk].
    + rewrite (stop_ok evs s k I Ka Lk). cbv zeta. destruct (lookup_lt_is_Some_2 _ _ Lk) as [l El]. rewrite El. cbn [default from_option id]. destruct (i_st _ _ I k l El) as [N W]. rewrite all_result by (apply reached_nodup, N). set (s1 := State _ _ _ _ _). change (result s1 w) with (result s w). destruct (result s w); [reflexivity|].
      destruct (decide (w ∈ filter _ _ /\ _)) as [[H P]|H]; [rewrite elem_of_list_filter in H; rewrite decide_True by tauto; reflexivity|]. rewrite decide_False; [reflexivity|]. intros (_ & _ & X). apply H. rewrite elem_of_list_filter. split; [auto|]. apply reached_in, W in X as [_ X]. exact X.
    + cbn [step]. rewrite bool_decide_eq_false_2 by exact Ka. replace (k <? length (stops s)) with false by (symmetry; apply Nat.ltb_ge; lia). cbn [orb negb]. destruct (result s w); [reflexivity|]. rewrite decide_False; [reflexivity|tauto].
  - cbn [step]. unfold on_timeout. destruct (waits s !! v) as [[n [] [x|]]|] eqn:E; try (destruct (result s w); reflexivity). rewrite finish_result. destruct (result s w) eqn:R; [reflexivity|]. destruct (decide (w = v)) as [->|Ne]; [|rewrite decide_False by tauto; reflexivity]. rewrite decide_True; [reflexivity|]. split; [reflexivity|]. exists n, true. exact E.
Qed.
Lemma pending_result evs s w n : inv evs s -> pending s w n <-> result s w = None /\ exists t, Call w n t ∈ evs.
Proof.
  intros I. split.
  - intros P. split; [eapply result_pending, P|]. destruct P as [t P]. exists t. eapply (i_w _ _ I), P.
  - intros [R [t C]]. destruct (i_c _ _ I _ _ _ C) as [x X]. unfold result in R. rewrite X in R. cbn in R. subst x. exists t. exact X.
Qed.
Lemma enough_pending evs s w n : inv evs s -> pending s w n -> enough s w = (n <=? length (ids s)).
Proof. intros I [t P]. unfold enough. rewrite P. reflexivity. Qed.

(** ** Histories *)
Section H.
Context (sets : nat).
Local Notation run := (run sets).
Lemma keeps evs1 evs2 w o : history (evs1 ++ evs2) -> result (run evs1) w = Some o -> result (run (evs1 ++ evs2)) w = Some o.
Proof.
  induction evs2 as [|ev evs2 IH] using rev_ind; [rewrite app_nil_r; auto|]. rewrite app_assoc. intros H R. pose proof (history_app _ _ H) as H'. rewrite run_snoc, (step_result (evs1 ++ evs2)); [|apply history_inv, H'|apply history_last, H]. rewrite (IH H' R). reflexivity.
Qed.
(** when a wait ended *)
Lemma ended_at evs w o : history evs -> result (run evs) w = Some o -> exists evs1 ev evs2, evs = evs1 ++ ev :: evs2 /\ history (evs1 ++ [ev]) /\ result (run evs1) w = None /\ news evs1 (run evs1) ev w = Some o.
Proof.
  induction evs as [|ev evs IH] using rev_ind; intros H R; [unfold result in R; cbn in R; rewrite lookup_empty in R; discriminate|]. pose proof (history_app _ _ H) as H'. rewrite run_snoc, (step_result evs) in R; [|apply history_inv, H'|apply history_last, H]. destruct (result (run evs) w) as [x|] eqn:E.
  - assert (x = o) by congruence. subst x. destruct (IH H' eq_refl) as (evs1 & ev1 & evs2 & -> & A & B & C). exists evs1, ev1, (evs2 ++ [ev]). split; [rewrite <- app_assoc; reflexivity|]. auto.
  - exists evs, ev, []. auto.
Qed.
Lemma run_stops evs : history evs -> length (stops (run evs)) = sets.
Proof. induction 1 as [|evs ev H IH WF]; [cbn; apply replicate_length|]. rewrite run_snoc. destruct (step_after evs (run evs) ev (history_inv _ _ H)) as [-> _]. exact IH. Qed.
Lemma run_after evs k : history evs -> k ∈ after (run evs) <-> Stop k ∈ evs /\ k < sets.
Proof.
  induction 1 as [|evs ev H IH WF]; [cbn; split; [intros X; inversion X|intros [X _]; inversion X]|]. rewrite run_snoc. destruct (step_after evs (run evs) ev (history_inv _ _ H)) as [_ ->].
  rewrite (run_stops _ H). destruct ev as [| | | | |j|]; try (rewrite snoc_other by discriminate; exact IH). destruct (bool_decide_reflect (j ∈ after (run evs))) as [A|A]; cbn [orb].
  - rewrite IH. split; [intros [X Y]; split; [apply elem_of_app; auto|exact Y]|]. intros [X Y]. split; [|exact Y]. apply elem_of_app in X as [X|X]; [exact X|]. apply elem_of_list_singleton in X. injection X as ->. apply IH, A.
  - destruct (j <? sets) eqn:L; cbn [negb].
    + apply Nat.ltb_lt in L. rewrite elem_of_cons, IH, elem_of_app, elem_of_list_singleton. split; [intros [->|[X Y]]; auto|intros [[X|X] Y]; [auto|injection X as ->; auto]].
    + apply Nat.ltb_ge in L. rewrite IH, elem_of_app, elem_of_list_singleton. split; [intros [X Y]; auto|intros [[X|X] Y]; [auto|injection X as ->; lia]].
Qed.
Lemma run_ids_nodup evs : history evs -> NoDup (ids (run evs)).
Proof.
  induction 1 as [|evs ev H IH WF]; [constructor|]. rewrite run_snoc, (step_ids evs _ _ (history_inv _ _ H)). destruct ev as [| | |e|e| |]; try exact IH.
  - destruct (bool_decide_reflect (e ∈ ids (run evs))) as [A|A]; [exact IH|]. apply NoDup_cons. auto.
  - apply remove_one_spec, IH.
Qed.
End H.
