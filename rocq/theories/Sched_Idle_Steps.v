(** Work conservation with dependencies: elementary steps of the event handlers. *)
From stdpp Require Import base gmap sets list.
From Verif Require Import Dependency_Model Dependency_Spec Dependency_Proofs Sched_Trace Sched_Spec Sched_Model Sched_Env
  Sched_Base Sched_Traverse Sched_Safety Sched_Load Sched_Once Sched_Strand Sched_Idle_Spec Sched_Idle_Inv.
From Verif Require Prelude.
From Coq Require Import ZArith Lia.

(** The job being placed goes to the queue. *)
Lemma invN_save jobs tg L qm g g' pd co fa ids ac af ad dest log j jb :
  let m := j_msg jb in
  invN [j] None jobs tg L qm g pd co fa ids ac af ad dest log ->
  jobs !! j = Some jb -> j_removed jb = false ->
  (forall d, g' !! d = if decide (d ∈ dependents jb ∖ ad) then Some ({[m]} ∪ default ∅ (g !! d)) else g !! d) ->
  (forall j' jb', jobs !! j' = Some jb' -> j_msg jb' = m -> j' = j) ->
  invN [] None jobs tg (L ++ [j]) (<[m := j]> qm) g' pd co fa ids ac af ad dest log.
Proof.
  intros m H Hj Hr Hg Hu. open_N H.
  assert (Hq : qm !! m = None) by (apply (N4 j jb); [left|exact Hj]).
  split; auto.
  - intros j' jb' Hy. inversion Hy.
  - intros j' jb' HL Hj' Hr'. apply elem_of_app in HL as [HL|HL].
    + rewrite lookup_insert_ne; [auto|]. intros E. pose proof (N5 j' jb' HL Hj' Hr') as E'. congruence.
    + apply elem_of_list_singleton in HL as ->. rewrite Hj in Hj'. injection Hj' as <-. apply lookup_insert.
  - intros m' j' Hq'. apply lookup_insert_Some in Hq' as [(<- & <-)|(Hne & Hq')].
    + exists jb. split; [exact Hj|]. split; [reflexivity|]. split; [apply elem_of_app; right; left|]. split; [exact Hr|].
      intros d X Hd HX. rewrite Hg in HX. destruct (decide _) as [_|Hn].
      * injection HX as <-. set_solver.
      * exfalso. destruct (N8 d) as [A|A]; [eauto| |discriminate]. apply Hn. set_solver.
    + destruct (N6 m' j' Hq') as (jb0 & A & B & C & E & G). exists jb0. repeat (split; [assumption|]).
      split; [apply elem_of_app; auto|]. split; [exact E|]. intros d X Hd HX. rewrite Hg in HX. destruct (decide _) as [Hi|Hn]; [|eauto].
      destruct (g !! d) as [X0|] eqn:E0.
      * injection HX as <-. specialize (G d X0 Hd E0). cbn. set_solver.
      * exfalso. destruct (N20 m' j' jb0 d Hq' A Hd) as [? E1]; [set_solver|congruence].
  - intros d X m' HX Hin. rewrite Hg in HX. destruct (decide _) as [Hi|Hn].
    + injection HX as <-. destruct (decide (m' = m)) as [->|Hne].
      * exists j, jb. rewrite lookup_insert. split; [reflexivity|]. split; [exact Hj|]. set_solver.
      * destruct (g !! d) as [X0|] eqn:E0; cbn in Hin; [|set_solver].
        destruct (N7 d X0 m' E0) as (j' & jb0 & A & B & C); [set_solver|]. exists j', jb0. rewrite lookup_insert_ne by congruence. auto.
    + destruct (N7 d X m' HX Hin) as (j' & jb0 & A & B & C). exists j', jb0. rewrite lookup_insert_ne by congruence. auto.
  - intros d Hd. destruct (decide (d ∈ dependents jb ∖ ad)) as [Hi|Hn]; [left; set_solver|].
    apply N8. rewrite Hg in Hd. rewrite decide_False in Hd by exact Hn. exact Hd.
  - intros m' Hm'. destruct (N9 m' Hm') as [A|[A|(j' & jb0 & A & B & C)]]; [auto| |].
    + right. left. destruct A as [x A]. rewrite lookup_insert_ne; [eauto|]. congruence.
    + right. left. apply elem_of_list_singleton in A as ->. rewrite Hj in B. injection B as <-. rewrite <- C. rewrite lookup_insert. eauto.
  - intros m' j' jb' d Hq' Hj' Hd Hn. rewrite Hg. destruct (decide _) as [Hi|Hn']; [eauto|].
    apply lookup_insert_Some in Hq' as [(<- & <-)|(Hne & Hq')]; [|eauto].
    exfalso. apply Hn'. rewrite Hj in Hj'. injection Hj' as <-. set_solver.
Qed.

(** A task is submitted and its Job object made. *)
Lemma invN_submit jobs tg L qm g pd co fa ids ac af ad dest log j jb md :
  let m := j_msg jb in
  invN [] None jobs tg L qm g pd co fa ids ac af ad dest log ->
  phase_of log m = Unknown -> jobs !! j = None -> (forall j' jb', jobs !! j' = Some jb' -> j_msg jb' <> m) -> qm !! m = None -> (forall j', j' ∈ L -> is_Some (jobs !! j')) ->
  static (log ++ [ObsSubmit m md]) jb ->
  ordinary_dep (t_after md) -> ordinary_dep (t_follow md) -> (forall e, e ∈ t_targets md -> ObsRegister e ∈ log) ->
  invN [j] None (<[j := jb]> jobs) tg L qm g pd co fa ({[m]} ∪ ids) ac af ad dest (log ++ [ObsSubmit m md]).
Proof.
  intros m H Hu Hj Hno Hq HLj Hst Ho1 Ho2 Ht. set (o := ObsSubmit m md). open_N H.
  assert (Hm : phase_of (log ++ [o]) m = Waiting) by (apply phase_submit; exact Hu).
  assert (Hp : forall m', m' <> m -> phase_of (log ++ [o]) m' = phase_of log m').
  { intros m' Hne. apply phase_other. simpl. congruence. }
  assert (Hna : not_again log o) by (intros e E; discriminate).
  assert (Hno' : forall e b m', ObsReply m' (FromEngine e b) ∈ log ++ [o] -> ObsReply m' (FromEngine e b) ∈ log).
  { intros e b m' Hi. apply elem_of_app in Hi as [Hi|Hi]; [exact Hi|]. apply elem_of_list_singleton in Hi. discriminate. }
  assert (Hk : forall j' b, jobs !! j' = Some b -> <[j := jb]> jobs !! j' = Some b).
  { intros j' b Hb. rewrite lookup_insert_ne; [exact Hb|]. congruence. }
  split; auto.
  - intros j' jb' Hj'. apply lookup_insert_Some in Hj' as [(<- & <-)|(Hne & Hj')]; [exact Hst|]. apply static_snoc. eauto.
  - intros m' md' Hi. apply elem_of_app in Hi as [Hi|Hi].
    + destruct (N2 m' md' Hi) as (A & B & C). split; [exact A|]. split; [exact B|]. intros e He. apply elem_of_app. auto.
    + apply elem_of_list_singleton in Hi. injection Hi as -> ->. split; [exact Ho1|]. split; [exact Ho2|]. intros e He. apply elem_of_app. auto.
  - intros x [md' Hi]. apply elem_of_app in Hi as [Hi|Hi].
    + apply elem_of_union. right. apply N3. exists md'. exact Hi.
    + apply elem_of_list_singleton in Hi. injection Hi as -> ->. set_solver.
  - intros j' jb' Hy Hj'. apply elem_of_list_singleton in Hy as ->. rewrite lookup_insert in Hj'. injection Hj' as <-. exact Hq.
  - intros j' jb' HL Hj' Hr. apply lookup_insert_Some in Hj' as [(<- & <-)|(Hne & Hj')]; [|eauto].
    exfalso. destruct (HLj j HL). congruence.
  - intros m' j' Hq'. destruct (N6 m' j' Hq') as (jb0 & A & B & C). exists jb0. auto.
  - intros d X m' HX Hi. destruct (N7 d X m' HX Hi) as (j' & jb0 & A & B & C). exists j', jb0. auto.
  - intros m' Hm'. destruct (decide (m' = m)) as [->|Hne].
    + right. right. exists j, jb. split; [left|]. rewrite lookup_insert. auto.
    + rewrite Hp in Hm' by exact Hne. destruct (N9 m' Hm') as [A|[A|(j' & jb0 & A & B & C)]]; [|auto|inversion A].
      left. apply dead_snoc; assumption.
  - intros e c Hc x Hx. apply (N11 e c Hc). apply told_on_elem in Hx. apply told_on_elem. auto.
  - intros m' e b Hi. apply elem_of_app. left. eauto.
  - intros e. rewrite registered_snoc. apply N13.
  - rewrite told_ok_snoc. set_solver.
  - rewrite told_bad_snoc. set_solver.
  - intros m' Hi. destruct (N16 m' Hi) as (e & A & B). exists e. split; [exact A|]. apply elem_of_app. auto.
  - intros m' e j' jb' Hon Hj' Hm'. destruct (decide (m' = m)) as [->|Hne]; [congruence|]. rewrite Hp in Hon by exact Hne.
    apply lookup_insert_Some in Hj' as [(<- & <-)|(Hnj & Hj')]; [exfalso; apply Hne; symmetry; exact Hm'|]. eauto.
  - intros m' j' jb' d Hq' Hj' Hd Hn. apply lookup_insert_Some in Hj' as [(<- & <-)|(Hnj & Hj')]; [|eauto].
    exfalso. destruct (N6 m' j Hq') as (jb0 & A & _). congruence.
Qed.

(** An engine gives a task back. *)
Lemma invN_giveback jobs tg L qm g pd co fa ids ac af ad dest log j jb e l k :
  let m := j_msg jb in
  invN [] None jobs tg L qm g pd co fa ids ac af ad dest log ->
  phase_of log m = OnEngine e -> jobs !! j = Some jb -> (forall j' jb', jobs !! j' = Some jb' -> j_msg jb' = m -> j' = j) ->
  qm !! m = None -> (j ∈ L -> False) -> pd !! e = Some l ->
  invN [j] None (alter (add_blacklist e) j jobs) tg L qm g (<[e := al_remove m l]> pd) co fa ids ac af ad dest (log ++ [ObsResult m e k]).
Proof.
  intros m H Hon Hj Hu Hq HjL Hl. set (o := ObsResult m e k). open_N H.
  assert (Hm : phase_of (log ++ [o]) m = Waiting) by (apply phase_result; exact Hon).
  assert (Hp : forall m', m' <> m -> phase_of (log ++ [o]) m' = phase_of log m').
  { intros m' Hne. apply phase_other. simpl. congruence. }
  assert (Hna : not_again log o) by (intros e' E; discriminate).
  assert (Hno' : forall e' b m', ObsReply m' (FromEngine e' b) ∈ log ++ [o] -> ObsReply m' (FromEngine e' b) ∈ log).
  { intros e' b m' Hi. apply elem_of_app in Hi as [Hi|Hi]; [exact Hi|]. apply elem_of_list_singleton in Hi. discriminate. }
  assert (Hback : forall j' jb', alter (add_blacklist e) j jobs !! j' = Some jb' ->
     (j' = j /\ jb' = add_blacklist e jb) \/ (j' <> j /\ jobs !! j' = Some jb')).
  { intros j' jb'. rewrite lookup_alter_Some. intros [(-> & b & B & ->)|(Hne & B)]; [left; split; congruence|auto]. }
  assert (Hfwd : forall j' jb', jobs !! j' = Some jb' -> exists jb2, alter (add_blacklist e) j jobs !! j' = Some jb2 /\
     dependents jb2 = dependents jb' /\ j_msg jb2 = j_msg jb' /\ j_removed jb2 = j_removed jb').
  { intros j' jb' B. destruct (decide (j' = j)) as [->|Hne].
    - rewrite lookup_alter, B. eexists. split; [reflexivity|]. auto.
    - rewrite lookup_alter_ne by congruence. eauto. }
  split; auto.
  - intros j' jb' Hj'. apply Hback in Hj' as [(-> & ->)|(Hne & Hj')]; [|apply static_snoc; eauto].
    destruct (N1 j jb Hj) as (md & A & B & C & D & E & F & G & I). exists md. cbn. split; [apply elem_of_app; auto|].
    do 5 (split; [assumption|]). split.
    + intros e' He'. destruct (G e' He'); [auto|right; set_solver].
    + intros e' He'. apply elem_of_union in He' as [He'|He'].
      * apply elem_of_singleton in He' as ->. exists k. apply elem_of_app. right. left.
      * destruct (I e' He') as [k' Hk']. exists k'. apply elem_of_app. auto.
  - intros m' md' Hi. apply elem_of_app in Hi as [Hi|Hi]; [|apply elem_of_list_singleton in Hi; discriminate].
    destruct (N2 m' md' Hi) as (A & B & C). split; [exact A|]. split; [exact B|]. intros e' He'. apply elem_of_app. auto.
  - intros x [md' Hi]. apply elem_of_app in Hi as [Hi|Hi]; [apply N3; exists md'; exact Hi|apply elem_of_list_singleton in Hi; discriminate].
  - intros j' jb' Hy Hj'. apply elem_of_list_singleton in Hy as ->. apply Hback in Hj' as [(_ & ->)|(Hne & _)]; [exact Hq|congruence].
  - intros j' jb' HL Hj' Hr. apply Hback in Hj' as [(-> & ->)|(Hne & Hj')]; [destruct (HjL HL)|eauto].
  - intros m' j' Hq'. destruct (N6 m' j' Hq') as (jb0 & A & B & C & D & E). destruct (Hfwd j' jb0 A) as (jb2 & A1 & A2 & A3 & A4).
    exists jb2. rewrite A2, A3, A4. auto.
  - intros d X m' HX Hi. destruct (N7 d X m' HX Hi) as (j' & jb0 & A & B & C). destruct (Hfwd j' jb0 B) as (jb2 & A1 & A2 & _).
    exists j', jb2. rewrite A2. auto.
  - intros m' Hm'. destruct (decide (m' = m)) as [->|Hne].
    + right. right. exists j, (add_blacklist e jb). split; [left|]. rewrite lookup_alter, Hj. split; reflexivity.
    + rewrite Hp in Hm' by exact Hne. destruct (N9 m' Hm') as [A|[A|(j' & jb0 & A & B & C)]]; [|auto|inversion A].
      left. apply dead_snoc; assumption.
  - intros e' He'. apply N10. destruct He' as [He'|(l' & Hl' & Hnn)]; [auto|]. right.
    apply lookup_insert_Some in Hl' as [(<- & <-)|(Hne & Hl')]; [|eauto]. exists l. split; [exact Hl|]. intros ->. contradiction.
  - intros e' c Hc x Hx. apply (N11 e' c Hc). apply told_on_elem in Hx. apply told_on_elem. auto.
  - intros m' e' b Hi. apply elem_of_app. left. eauto.
  - intros e'. rewrite registered_snoc. apply N13.
  - rewrite told_ok_snoc. set_solver.
  - rewrite told_bad_snoc. set_solver.
  - intros m' Hi. destruct (N16 m' Hi) as (e' & A & B). exists e'. split; [exact A|]. apply elem_of_app. auto.
  - intros m' e' j' jb' Hon' Hj' Hm'. destruct (decide (m' = m)) as [->|Hne]; [congruence|]. rewrite Hp in Hon' by exact Hne.
    apply Hback in Hj' as [(-> & ->)|(Hnj & Hj')]; [exfalso; apply Hne; symmetry; exact Hm'|]. eauto.
  - intros m' j' jb' d Hq' Hj' Hd Hn. apply Hback in Hj' as [(-> & ->)|(Hnj & Hj')]; [|eauto]. eapply (N20 m' j jb); eauto.
Qed.

(** A task is finished: the engine's answer goes to the client. *)
Lemma invN_final jobs tg L qm g pd co fa ids ac af ad dest log m e l k (b : bool) c f :
  invN [] None jobs tg L qm g pd co fa ids ac af ad dest log ->
  phase_of log m = OnEngine e -> (forall m', phase_of log m' <> Broken) -> pd !! e = Some l ->
  ObsRegister e ∈ log -> co !! e = Some c -> fa !! e = Some f ->
  invN [] (Some m) jobs tg L qm g (<[e := al_remove m l]> pd)
    (if b then <[e := {[m]} ∪ c]> co else co) (if b then fa else <[e := {[m]} ∪ f]> fa) ids
    (if b then {[m]} ∪ ac else ac) (if b then af else {[m]} ∪ af) ({[m]} ∪ ad) (<[m := e]> dest)
    ((log ++ [ObsResult m e k]) ++ [ObsReply m (FromEngine e b)]).
Proof.
  intros H Hon Hok Hl Hreg Hc Hf. set (o := ObsResult m e k). set (o2 := ObsReply m (FromEngine e b)). set (log' := (log ++ [o]) ++ [o2]). open_N H.
  assert (Hm : phase_of log' m = Replied) by (apply phase_reply, phase_result; exact Hon).
  assert (Hp : forall m', m' <> m -> phase_of log' m' = phase_of log m').
  { intros m' Hne. unfold log'. rewrite !phase_other by (simpl; congruence). reflexivity. }
  assert (Hin : forall x, x ∈ log -> x ∈ log') by (intros x Hx; unfold log'; rewrite !elem_of_app; auto).
  assert (Hinv : forall x, x ∈ log' -> x ∈ log \/ x = o \/ x = o2).
  { intros x. unfold log'. rewrite !elem_of_app, !elem_of_list_singleton. tauto. }
  assert (Hnorep : forall r, ObsReply m r ∉ log).
  { intros r Hr. apply (reply_replied log m r (Hok m)) in Hr. congruence. }
  split.
  - intros j' jb' Hj'. apply static_snoc, static_snoc. eauto.
  - intros m' md' Hi. apply Hinv in Hi as [Hi|[Hi|Hi]]; [|discriminate|discriminate].
    destruct (N2 m' md' Hi) as (A & B & C). split; [exact A|]. split; [exact B|]. auto.
  - intros x [md' Hi]. apply Hinv in Hi as [Hi|[Hi|Hi]]; [|discriminate|discriminate]. apply N3. exists md'. exact Hi.
  - auto.
  - auto.
  - auto.
  - auto.
  - intros d Hd. destruct (N8 d Hd) as [A|A]; [|discriminate]. destruct (decide (d = m)) as [->|]; [auto|left; set_solver].
  - intros m' Hm'. destruct (decide (m' = m)) as [->|Hne]; [congruence|]. rewrite Hp in Hm' by exact Hne.
    destruct (N9 m' Hm') as [A|[A|A]]; [|auto|auto]. left. unfold log'. apply dead_snoc; [intros ? E; discriminate|].
    apply dead_snoc; [intros ? E; discriminate|exact A].
  - intros e' He'. assert (He2 : is_Some (co !! e') /\ is_Some (fa !! e')).
    { apply N10. destruct He' as [He'|(l' & Hl' & Hnn)]; [auto|]. right.
      apply lookup_insert_Some in Hl' as [(<- & <-)|(Hne & Hl')]; [|eauto]. exists l. split; [exact Hl|]. intros ->. contradiction. }
    destruct He2 as [A B]. destruct b; (split; [|]); try assumption;
      (destruct (decide (e' = e)) as [->|Hne]; [rewrite lookup_insert; eauto|rewrite lookup_insert_ne by congruence; assumption]).
  - assert (Hon' : forall e' x, x ∈ told_on e' true log' -> x ∈ told_on e' true log \/ (b = true /\ e' = e /\ x = m)).
    { intros e' x Hx. apply told_on_elem, Hinv in Hx as [Hx|[Hx|Hx]]; [left; apply told_on_elem; exact Hx|discriminate|].
      injection Hx as -> -> <-. auto. }
    intros e' c' Hc' x Hx. apply Hon' in Hx as [Hx|(Hb & -> & ->)].
    + destruct b; [|apply (N11 e' c' Hc' x Hx)]. apply lookup_insert_Some in Hc' as [(<- & <-)|(Hne & Hc')]; [|apply (N11 e' c' Hc' x Hx)].
      apply elem_of_union. right. apply (N11 e c Hc x Hx).
    + rewrite Hb in Hc'. rewrite lookup_insert in Hc'. injection Hc' as <-. set_solver.
  - intros m' e' b' Hi. apply Hinv in Hi as [Hi|[Hi|Hi]]; [apply Hin; eauto|discriminate|]. injection Hi as -> -> _. apply Hin. exact Hreg.
  - intros e'. unfold log'. rewrite !registered_snoc. apply N13.
  - unfold log'. rewrite !told_ok_snoc. unfold o2. destruct b; simpl; set_solver.
  - unfold log'. rewrite !told_bad_snoc. unfold o2. destruct b; simpl; set_solver.
  - intros m' Hi. destruct (decide (m' = m)) as [->|Hne].
    + assert (b = true) as Hb.
      { destruct b; [reflexivity|]. destruct (N16 m Hi) as (e' & _ & B). destruct (Hnorep _ B). }
      exists e. rewrite lookup_insert. split; [reflexivity|]. unfold log'. apply elem_of_app. right. apply elem_of_list_singleton. unfold o2. rewrite Hb. reflexivity.
    + assert (m' ∈ ac) as Hi' by (destruct b; set_solver). destruct (N16 m' Hi') as (e' & A & B). exists e'.
      rewrite lookup_insert_ne by congruence. auto.
  - destruct b; set_solver.
  - intros m' e' j' jb' Hon' Hj' Hm'. destruct (decide (m' = m)) as [->|Hne]; [congruence|]. rewrite Hp in Hon' by exact Hne.
    specialize (N18 m' e' j' jb' Hon' Hj' Hm'). set_solver.
  - intros e' c' Hc'. destruct b; [|specialize (N19 e' c' Hc'); set_solver].
    apply lookup_insert_Some in Hc' as [(<- & <-)|(Hne & Hc')]; [specialize (N19 e c Hc)|specialize (N19 e' c' Hc')]; set_solver.
  - intros m' j' jb' d Hq' Hj' Hd Hn. eapply N20; eauto. set_solver.
  - intros d E. injection E as <-. set_solver.
Qed.

(** An engine is announced. *)
Lemma invN_register jobs tg L qm g pd co fa ids ac af ad dest log e :
  invN [] None jobs tg L qm g pd co fa ids ac af ad dest log -> ObsRegister e ∉ log ->
  invN [] None jobs (e :: tg) L qm g (<[e := []]> pd) (<[e := ∅]> co) (<[e := ∅]> fa) ids ac af ad dest (log ++ [ObsRegister e]).
Proof.
  intros H Hfresh. set (o := ObsRegister e). open_N H.
  assert (Hp : forall m, phase_of (log ++ [o]) m = phase_of log m) by (intros m; apply phase_other; discriminate).
  assert (Hna : not_again log o) by (intros e' E; injection E as <-; exact Hfresh).
  assert (Hno' : forall e' b m', ObsReply m' (FromEngine e' b) ∈ log ++ [o] -> ObsReply m' (FromEngine e' b) ∈ log).
  { intros e' b m' Hi. apply elem_of_app in Hi as [Hi|Hi]; [exact Hi|]. apply elem_of_list_singleton in Hi. discriminate. }
  split; auto.
  - intros j' jb' Hj'. apply static_snoc. eauto.
  - intros m' md' Hi. apply elem_of_app in Hi as [Hi|Hi]; [|apply elem_of_list_singleton in Hi; discriminate].
    destruct (N2 m' md' Hi) as (A & B & C). split; [exact A|]. split; [exact B|]. intros e' He'. apply elem_of_app. auto.
  - intros x [md' Hi]. apply elem_of_app in Hi as [Hi|Hi]; [apply N3; exists md'; exact Hi|apply elem_of_list_singleton in Hi; discriminate].
  - intros m' Hm'. rewrite Hp in Hm'. destruct (N9 m' Hm') as [A|[A|A]]; [|auto|auto]. left. apply dead_snoc; assumption.
  - intros e' He'. destruct (decide (e' = e)) as [->|Hne]; [rewrite !lookup_insert; eauto|].
    rewrite !lookup_insert_ne by congruence. apply N10. destruct He' as [He'|(l' & Hl' & Hnn)].
    + apply elem_of_cons in He' as [?|?]; [contradiction|auto].
    + rewrite lookup_insert_ne in Hl' by congruence. eauto.
  - intros e' c Hc x Hx. apply told_on_elem, Hno' in Hx. apply lookup_insert_Some in Hc as [(<- & <-)|(Hne & Hc)].
    + exfalso. apply Hfresh. eauto.
    + apply (N11 e' c Hc). apply told_on_elem. exact Hx.
  - intros m' e' b Hi. apply elem_of_app. left. eauto.
  - intros e'. rewrite registered_snoc. simpl. destruct (decide (e' = e)) as [->|]; [left|]. intros Hr. right. auto.
  - rewrite told_ok_snoc. set_solver.
  - rewrite told_bad_snoc. set_solver.
  - intros m' Hi. destruct (N16 m' Hi) as (e' & A & B). exists e'. split; [exact A|]. apply elem_of_app. auto.
  - intros m' e' j' jb' Hon' Hj' Hm'. rewrite Hp in Hon'. eauto.
  - intros e' c Hc. apply lookup_insert_Some in Hc as [(<- & <-)|(Hne & Hc)]; [set_solver|eauto].
Qed.

(** An engine goes away. *)
Lemma invN_unregister jobs tg tg' L qm g pd co fa ids ac af ad dest log e :
  invN [] None jobs tg L qm g pd co fa ids ac af ad dest log ->
  (forall e', e' ∈ tg' -> e' ∈ tg) -> (forall e', e' ∈ tg -> e' <> e -> e' ∈ tg') ->
  invN [] None jobs tg' L qm g pd co fa ids ac af ad dest (log ++ [ObsUnregister e]).
Proof.
  intros H Htg1 Htg2. set (o := ObsUnregister e). open_N H.
  assert (Hp : forall m, phase_of (log ++ [o]) m = phase_of log m) by (intros m; apply phase_other; discriminate).
  assert (Hna : not_again log o) by (intros e' E; discriminate).
  assert (Hno' : forall e' b m', ObsReply m' (FromEngine e' b) ∈ log ++ [o] -> ObsReply m' (FromEngine e' b) ∈ log).
  { intros e' b m' Hi. apply elem_of_app in Hi as [Hi|Hi]; [exact Hi|]. apply elem_of_list_singleton in Hi. discriminate. }
  split; auto.
  - intros j' jb' Hj'. apply static_snoc. eauto.
  - intros m' md' Hi. apply elem_of_app in Hi as [Hi|Hi]; [|apply elem_of_list_singleton in Hi; discriminate].
    destruct (N2 m' md' Hi) as (A & B & C). split; [exact A|]. split; [exact B|]. intros e' He'. apply elem_of_app. auto.
  - intros x [md' Hi]. apply elem_of_app in Hi as [Hi|Hi]; [apply N3; exists md'; exact Hi|apply elem_of_list_singleton in Hi; discriminate].
  - intros m' Hm'. rewrite Hp in Hm'. destruct (N9 m' Hm') as [A|[A|A]]; [|auto|auto]. left. apply dead_snoc; assumption.
  - intros e' He'. apply N10. destruct He' as [He'|He']; auto.
  - intros e' c Hc x Hx. apply told_on_elem, Hno' in Hx. apply (N11 e' c Hc). apply told_on_elem. exact Hx.
  - intros m' e' b Hi. apply elem_of_app. left. eauto.
  - intros e'. rewrite registered_snoc. simpl. destruct (decide (e' = e)) as [->|]; [discriminate|]. intros Hr. auto.
  - rewrite told_ok_snoc. set_solver.
  - rewrite told_bad_snoc. set_solver.
  - intros m' Hi. destruct (N16 m' Hi) as (e' & A & B). exists e'. split; [exact A|]. apply elem_of_app. auto.
  - intros m' e' j' jb' Hon' Hj' Hm'. rewrite Hp in Hon'. eauto.
Qed.
(** The records of an engine that is gone are dropped. *)
Lemma invN_forget jobs tg L qm g pd co fa co' fa' ids ac af ad dest log e :
  invN [] None jobs tg L qm g pd co fa ids ac af ad dest log ->
  e ∉ tg -> pd !! e = Some [] -> (co' = co \/ co' = delete e co) -> (fa' = fa \/ fa' = delete e fa) ->
  invN [] None jobs tg L qm g pd co' fa' ids ac af ad dest log.
Proof.
  intros H Htg Hpd Hco Hfa. open_N H.
  assert (Hc : forall e' c, co' !! e' = Some c -> co !! e' = Some c).
  { intros e' c. destruct Hco as [-> | ->]; [auto|]. rewrite lookup_delete_Some. tauto. }
  split; eauto.
  intros e' He'. assert (Hne : e' <> e).
  { intros ->. destruct He' as [He'|(l & Hl & Hnn)]; [contradiction|congruence]. }
  destruct (N10 e' He') as [A B]. split; [destruct Hco as [-> | ->]|destruct Hfa as [-> | ->]]; rewrite ?lookup_delete_ne by congruence; assumption.
Qed.
