(** Proofs for C59-C61, continued: exit codes, stopping, histories. *)
From stdpp Require Import base gmap list strings pretty.
From Coq Require Import ZArith Lia.
From Verif Require Import Clu_Spec Clu_Model Clu_Proofs.
Notation Struct := (Struct_ any).

Lemma first_code_acc : forall l z, first_code l (Some z) = match List.find bad_code l with Some c => c | None => Some z end.
Proof.
  induction l as [|[y|] l IH]; intros z; cbn; [reflexivity| |apply IH]. destruct (y =? 0)%Z; cbn; [apply IH | reflexivity].
Qed.
Lemma first_code_spec : forall l, first_code l None = set_code l.
Proof.
  induction l as [|[y|] l IH]; [reflexivity| |].
  - unfold set_code. cbn. destruct (y =? 0)%Z; cbn; [apply first_code_acc | reflexivity].
  - cbn. rewrite IH. reflexivity.
Qed.

Section cluster.
Context (W : world) (saving : bool).
Notation update := (update_cluster_file saving).

(** ** What is recorded of the ends of engines *)
Record EndOK (s : st) : Prop := {
  n_code : forall o e i c, sets s !! o = Some e -> (i, c) ∈ ended e -> exists p, owner s !! p = Some (Some (o, i)) /\ lst s !! p = Some After /\ c = exit_code W p;
  n_once : forall o e, sets s !! o = Some e -> NoDup (ended e).*1;
  n_apart : forall o e i, sets s !! o = Some e -> i ∈ (members e).*1 -> i ∉ (ended e).*1;
  n_all : forall p o i, owner s !! p = Some (Some (o, i)) -> lst s !! p = Some After -> exists e, sets s !! o = Some e /\ (i, exit_code W p) ∈ ended e;
  n_known : forall p, is_Some (owner s !! p) -> is_Some (lst s !! p) }.
Lemma EndOK_same : forall s s', lst s' = lst s -> owner s' = owner s -> sets s' = sets s -> EndOK s -> EndOK s'.
Proof. intros s s' E1 E2 E3 []. constructor; rewrite ?E1, ?E2, ?E3; assumption. Qed.
Lemma owner_update : forall s, owner (update s) = owner s. Proof. intros s. unfold update_cluster_file. destruct saving, (is_running s); reflexivity. Qed.
Lemma EndOK_update : forall s, EndOK s -> EndOK (update s).
Proof. intros s. apply EndOK_same; [apply lst_update | apply owner_update | apply sets_update]. Qed.
Definition Fresh (s : st) : Prop := lst s !! next s = None /\ owner s !! next s = None.
Lemma EndOK_spawn : forall x s, Fresh s -> EndOK s -> EndOK (spawn x s).
Proof.
  intros x s [F1 F2] []. constructor; cbn; try assumption.
  - intros o e i c E1 E2. destruct (n_code0 o e i c E1 E2) as (p & P1 & P2 & P3). exists p. rewrite !lookup_insert_ne by (intros <-; congruence). repeat split; assumption.
  - intros p o i Q1 Q2. destruct (decide (next s = p)) as [<-|N]; [rewrite lookup_insert in Q2; discriminate|]. rewrite lookup_insert_ne in Q1 by exact N. rewrite lookup_insert_ne in Q2 by exact N. exact (n_all0 p o i Q1 Q2).
  - intros p Q. destruct (decide (next s = p)) as [<-|N]; [rewrite lookup_insert; eexists; reflexivity|]. rewrite lookup_insert_ne in Q by exact N. rewrite lookup_insert_ne by exact N. exact (n_known0 p Q).
Qed.
Lemma EndOK_change : forall o e e' s, sets s !! o = Some e -> ended e' = ended e -> (forall i, i ∈ (members e').*1 -> i ∉ (ended e).*1) -> EndOK s -> EndOK (put_sets (<[o := e']> (sets s)) s).
Proof.
  intros o e e' s He En M []. constructor; cbn.
  - intros o1 e1 i c E1 E2. destruct (decide (o = o1)) as [<-|N]; [rewrite lookup_insert in E1; injection E1 as <-; rewrite En in E2; exact (n_code0 _ _ i c He E2) | rewrite lookup_insert_ne in E1 by exact N; exact (n_code0 _ _ i c E1 E2)].
  - intros o1 e1 E1. destruct (decide (o = o1)) as [<-|N]; [rewrite lookup_insert in E1; injection E1 as <-; rewrite En; exact (n_once0 _ _ He) | rewrite lookup_insert_ne in E1 by exact N; exact (n_once0 _ _ E1)].
  - intros o1 e1 i E1 E2. destruct (decide (o = o1)) as [<-|N]; [rewrite lookup_insert in E1; injection E1 as <-; rewrite En; exact (M i E2) | rewrite lookup_insert_ne in E1 by exact N; exact (n_apart0 _ _ i E1 E2)].
  - intros p o1 i Q1 Q2. destruct (n_all0 p o1 i Q1 Q2) as (e1 & E1 & E2). destruct (decide (o = o1)) as [<-|N].
    + rewrite lookup_insert. exists e'. split; [reflexivity|]. rewrite En. congruence.
    + rewrite lookup_insert_ne by exact N. exists e1. split; assumption.
  - exact n_known0.
Qed.
Lemma EndOK_launch : forall k o e i s, (forall p, next s <= p -> lst s !! p = None /\ owner s !! p = None) -> sets s !! o = Some e -> ended e = [] -> EndOK s ->
  EndOK (launch o k i s) /\ exists e', sets (launch o k i s) !! o = Some e' /\ ended e' = [].
Proof.
  induction k as [|k IH]; intros o e i s F He En H; [split; [exact H | exists e; split; assumption]|]. cbn [launch]. cbn [sets spawn]. rewrite He.
  eapply IH; [|cbn; apply lookup_insert | exact En|].
  - intros p Hp. cbn in *. rewrite !lookup_insert_ne by lia. apply F. lia.
  - apply (EndOK_change o e _ (spawn (Some (o, ident i)) s)); [exact He | reflexivity | intros j _; rewrite En; apply not_elem_of_nil|]. apply EndOK_spawn; [exact (F _ (Nat.le_refl _)) | exact H].
Qed.
Lemma EndOK_start_engines : forall sid n fail s, Struct s -> EndOK s -> EndOK (fst (start_engines saving sid n fail s)).
Proof.
  intros sid n fail s S H. unfold start_engines. set (s1 := St _ _ _ _ _ _ _ _ _ _ _ _ _).
  assert (NS : forall o e, sets s !! o = Some e -> nset s <> o) by (intros o e Q <-; pose proof (t_sets _ _ S _ _ Q); lia).
  assert (H1 : EndOK s1).
  { destruct H. constructor; cbn.
    - intros o e i c E1 E2. destruct (decide (nset s = o)) as [<-|N]; [rewrite lookup_insert in E1; injection E1 as <-; apply elem_of_nil in E2; destruct E2 | rewrite lookup_insert_ne in E1 by exact N; exact (n_code0 _ _ i c E1 E2)].
    - intros o e E1. destruct (decide (nset s = o)) as [<-|N]; [rewrite lookup_insert in E1; injection E1 as <-; apply NoDup_nil_2 | rewrite lookup_insert_ne in E1 by exact N; exact (n_once0 _ _ E1)].
    - intros o e i E1 E2. destruct (decide (nset s = o)) as [<-|N]; [rewrite lookup_insert in E1; injection E1 as <-; apply not_elem_of_nil | rewrite lookup_insert_ne in E1 by exact N; exact (n_apart0 _ _ i E1 E2)].
    - intros p o i Q1 Q2. destruct (n_all0 p o i Q1 Q2) as (e & E1 & E2). exists e. rewrite lookup_insert_ne by (exact (NS _ _ E1)). split; assumption.
    - exact n_known0. }
  assert (F : forall p, next s1 <= p -> lst s1 !! p = None /\ owner s1 !! p = None) by (intros p Hp; destruct (t_fresh _ _ S p Hp) as (_ & X & Y & _); split; assumption).
  assert (E1 : sets s1 !! nset s = Some (ESet sid n Before [] [] false)) by (cbn; apply lookup_insert).
  destruct fail as [[k b]|]; cbn [fst].
  - destruct (EndOK_launch (min k n) (nset s) _ 0 s1 F E1 eq_refl H1) as [L (e' & E' & En')]. destruct b; [|exact L]. unfold change_set. rewrite E'. apply (EndOK_change (nset s) e'); [exact E' | reflexivity | intros j _; rewrite En'; apply not_elem_of_nil | exact L].
  - destruct (EndOK_launch n (nset s) _ 0 s1 F E1 eq_refl H1) as [L (e' & E' & En')]. apply EndOK_update. unfold change_set. rewrite E'. apply (EndOK_change (nset s) e'); [exact E' | reflexivity | intros j _; rewrite En'; apply not_elem_of_nil | exact L].
Qed.
Lemma EndOK_after : forall p s, (forall x, owner s !! p <> Some (Some x)) -> EndOK s -> EndOK (put_lst (<[p := After]> (lst s)) s).
Proof.
  intros p s O []. constructor; cbn; try assumption.
  - intros o e i c E1 E2. destruct (n_code0 o e i c E1 E2) as (q & P1 & P2 & P3). exists q. rewrite lookup_insert_ne by (intros <-; exact (O _ P1)). repeat split; assumption.
  - intros q o i Q1 Q2. rewrite lookup_insert_ne in Q2 by (intros <-; exact (O _ Q1)). exact (n_all0 q o i Q1 Q2).
  - intros q Q. destruct (decide (p = q)) as [<-|N]; [rewrite lookup_insert; eexists; reflexivity | rewrite lookup_insert_ne by exact N; exact (n_known0 q Q)].
Qed.
Lemma EndOK_notify : forall p s, Struct s -> is_Some (lst s !! p) -> EndOK s -> EndOK (notify_stop W saving p s).
Proof.
  intros p s S L H. unfold notify_stop. case_bool_decide as A; [exact H|]. cbn [owner put_lst]. destruct (owner s !! p) as [[[o i]|]|] eqn:O.
  - destruct (t_lst _ _ S p L) as [R|R]; [|contradiction]. destruct (t_owner _ _ S _ _ _ O R) as (e & He & Hm). unfold engine_stopped. cbn [sets put_lst]. rewrite He.
    rewrite (get_key_In _ _ _ (t_keys _ _ S _ _ He) Hm).
    assert (G : forall x, EndOK (put_sets (<[o := ESet (e_sid e) (e_n e) x (drop_key i (members e)) (ended e ++ [(i, exit_code W p)]) (e_callback e)]> (sets s)) (put_lst (<[p := After]> (lst s)) s))).
    { intros x. destruct (drop_key_NoDup i (members e) (t_keys _ _ S _ _ He)) as [K1 K2]. destruct H. constructor; cbn.
      - assert (Z : forall o1 e1 j c, sets s !! o1 = Some e1 -> (j, c) ∈ ended e1 -> exists q, owner s !! q = Some (Some (o1, j)) /\ <[p:=After]> (lst s) !! q = Some After /\ c = exit_code W q).
        { intros o1 e1 j c E1 E2. destruct (n_code0 o1 e1 j c E1 E2) as (q & P1 & P2 & P3). exists q. rewrite lookup_insert_ne by (intros <-; congruence). repeat split; assumption. }
        intros o1 e1 j c E1 E2. destruct (decide (o = o1)) as [<-|N]; [|rewrite lookup_insert_ne in E1 by exact N; exact (Z _ _ _ _ E1 E2)].
        rewrite lookup_insert in E1. injection E1 as <-. cbn in E2. apply elem_of_app in E2. destruct E2 as [E2|E2]; [exact (Z _ _ _ _ He E2)|].
        apply elem_of_list_singleton in E2. injection E2 as -> ->. exists p. rewrite lookup_insert. repeat split. exact O.
      - intros o1 e1 E1. destruct (decide (o = o1)) as [<-|N]; [|rewrite lookup_insert_ne in E1 by exact N; exact (n_once0 _ _ E1)]. rewrite lookup_insert in E1. injection E1 as <-. cbn. rewrite fmap_app.
        apply NoDup_snoc; [exact (n_once0 _ _ He)|]. apply (n_apart0 o e); [exact He|]. apply elem_of_list_fmap. exists (i, Some p). split; [reflexivity | exact Hm].
      - intros o1 e1 j E1 E2. destruct (decide (o = o1)) as [<-|N]; [|rewrite lookup_insert_ne in E1 by exact N; exact (n_apart0 _ _ j E1 E2)]. rewrite lookup_insert in E1. injection E1 as <-. cbn in *.
        rewrite fmap_app. intros X. apply elem_of_app in X. destruct X as [X|X].
        + apply (n_apart0 o e j He); [|exact X]. apply elem_of_list_fmap in E2. destruct E2 as (y & -> & Y). apply elem_of_list_fmap. exists y. split; [reflexivity | eapply drop_key_sub, Y].
        + apply elem_of_list_singleton in X. subst. exact (K2 E2).
      - intros q o1 j Q1 Q2. destruct (decide (p = q)) as [<-|Nq].
        + rewrite O in Q1. injection Q1 as <- <-. rewrite lookup_insert. eexists. split; [reflexivity|]. cbn. apply elem_of_app. right. apply elem_of_list_singleton. reflexivity.
        + rewrite lookup_insert_ne in Q2 by exact Nq. destruct (n_all0 q o1 j Q1 Q2) as (e1 & E1 & E2). destruct (decide (o = o1)) as [<-|N].
          * rewrite lookup_insert. eexists. split; [reflexivity|]. cbn. apply elem_of_app. left. congruence.
          * rewrite lookup_insert_ne by exact N. exists e1. split; assumption.
      - intros q Q. destruct (decide (p = q)) as [<-|N]; [rewrite lookup_insert; eexists; reflexivity | rewrite lookup_insert_ne by exact N; exact (n_known0 q Q)]. }
    destruct (drop_key i (members e)) as [|m ms].
    + destruct (decide (e_state e = After)); [apply G|]. destruct (e_callback e); [|apply G]. apply EndOK_update. eapply EndOK_same; [| | |apply (G After)]; reflexivity.
    + apply G.
  - apply EndOK_update. eapply EndOK_same; [| | |apply (EndOK_after p s); [intros x; rewrite O; discriminate | exact H]]; reflexivity.
  - apply EndOK_after; [intros x; rewrite O; discriminate | exact H].
Qed.
Lemma EndOK_reload : forall s, Struct s -> FileOK s -> EndOK (reload saving s).
Proof.
  intros s H F. destruct (file s) as [d|] eqn:E.
  - destruct (reload_restored saving s d H F E) as (s1 & Er & R). rewrite Er. assert (X : EndOK s1).
    { constructor.
      - intros o e i c E1 E2. destruct (r_full _ _ _ _ R o e E1) as (_ & N & _). rewrite N in E2. apply elem_of_nil in E2. destruct E2.
      - intros o e E1. destruct (r_full _ _ _ _ R o e E1) as (_ & N & _). rewrite N. apply NoDup_nil_2.
      - intros o e i E1 _. destruct (r_full _ _ _ _ R o e E1) as (_ & N & _). rewrite N. apply not_elem_of_nil.
      - intros p o i _ L. pose proof (r_lst _ _ _ _ R p _ L). discriminate.
      - exact (r_known _ _ _ _ R). }
    destruct (decide _); [exact X | apply EndOK_update, X].
  - unfold reload. rewrite E. constructor; cbn; intros; try (rewrite lookup_empty in *; discriminate). match goal with H : is_Some _ |- _ => rewrite lookup_empty in H; destruct H; discriminate end.
Qed.
Lemma EndOK_step : forall s x, Struct s -> EndOK s -> x <> Reload -> EndOK (fst (step W saving s x)).
Proof.
  intros s x S H NR. destruct x as [ok|sid n fail| |sid| | | |p|p| |i|]; cbn [step].
  - unfold start_controller. destruct (ctl s); [exact H|]. destruct ok; cbn [fst].
    + apply EndOK_update. eapply EndOK_same; [| | |apply (EndOK_spawn None s); [|exact H]]; try reflexivity. destruct (t_fresh _ _ S _ (Nat.le_refl _)) as (_ & X & Y & _). split; assumption.
    + eapply EndOK_same; [| | |exact H]; reflexivity.
  - apply EndOK_start_engines; assumption.
  - unfold stop_controller. destruct (ctl s) as [[p|]|]; cbn [fst]; [|apply EndOK_update; eapply EndOK_same; [| | |exact H]; reflexivity ..].
    destruct (stop_process W p s) as [s1 b] eqn:E. destruct (stop_process_spec _ _ _ _ _ S E) as (_ & M & _). destruct b; [apply EndOK_update|]; (eapply EndOK_same; [| | |exact H]; apply M).
  - destruct (stop_set W sid s) as [s1 r] eqn:E. destruct (stop_set_spec _ _ _ _ _ S E) as (_ & M & _). eapply EndOK_same; [| | |exact H]; apply M.
  - destruct (stop_sets W _ s) as [s1 r] eqn:E. destruct (stop_sets_spec _ _ _ _ _ S E) as (_ & M & _). eapply EndOK_same; [| | |exact H]; apply M.
  - assert (H1 : EndOK (fst (stop_controller W saving s))).
    { unfold stop_controller. destruct (ctl s) as [[p|]|]; cbn [fst]; [|apply EndOK_update; eapply EndOK_same; [| | |exact H]; reflexivity ..].
      destruct (stop_process W p s) as [s1 b] eqn:E. destruct (stop_process_spec _ _ _ _ _ S E) as (_ & M & _). destruct b; [apply EndOK_update|]; (eapply EndOK_same; [| | |exact H]; apply M). }
    pose proof (Struct_stop_controller W saving s S) as S1. destruct (stop_controller W saving s) as [s1 r1]. cbn [fst] in *. destruct (stop_sets W _ s1) as [s2 r2] eqn:E. destruct (stop_sets_spec _ _ _ _ _ S1 E) as (_ & M & _). cbn [fst]. eapply EndOK_same; [| | |exact H1]; apply M.
  - destruct (ctl s) as [[p|]|] eqn:C; [|exact H|exact H]. case_bool_decide; [exact H|]. apply EndOK_notify; [exact S | apply (t_ctl _ _ S p C) | exact H].
  - eapply EndOK_same; [| | |exact H]; reflexivity.
  - case_bool_decide; [exact H|]. pose proof (Same_thread p s) as M. eapply EndOK_same; [| | |exact H]; apply M.
  - destruct (pending s) as [|p r] eqn:E; [exact H|]. rewrite notify_pending. cbn [fst]. assert (Hp : p ∈ pending s) by (rewrite E; left). eapply EndOK_same; [| | |apply (EndOK_notify p s S); [apply (t_known _ _ S); left; exact Hp | exact H]]; reflexivity.
  - destruct (tasks s !! i) as [[sid o]|]; [|exact H]. cbn [fst]. unfold finish_set. destruct (get_key sid _); [apply EndOK_update|]; (eapply EndOK_same; [| | |exact H]; reflexivity).
  - contradiction.
Qed.
Lemma EndOK_init : EndOK init.
Proof. constructor; cbn; intros; try (rewrite lookup_empty in *; discriminate). match goal with H : is_Some _ |- _ => rewrite lookup_empty in H; destruct H; discriminate end. Qed.

(** ** Notices *)
Lemma notices_update : forall s, notices (update s) = notices s. Proof. intros s. unfold update_cluster_file. destruct saving, (is_running s); reflexivity. Qed.
Definition set_notice (s s' : st) (sid : string) (c : option Z) : Prop :=
  exists o e e', sets s !! o = Some e /\ e_state e <> After /\ e_sid e = sid /\ e_callback e = true /\ sets s' !! o = Some e' /\ e_state e' = After /\ e_sid e' = sid /\ members e' = [] /\ c = set_code (map snd (ended e')).
Lemma notices_notify : forall p s, Struct s -> p ∉ alive s -> is_Some (lst s !! p) ->
  notices (notify_stop W saving p s) = notices s \/
  (exists c, notices (notify_stop W saving p s) = notices s ++ [(None, c)] /\ owner s !! p = Some None /\ lst s !! p = Some Running /\ c = exit_code W p) \/
  (exists sid c, notices (notify_stop W saving p s) = notices s ++ [(Some sid, c)] /\ set_notice s (notify_stop W saving p s) sid c).
Proof.
  intros p s S D L. unfold notify_stop. case_bool_decide as A; [left; reflexivity|]. cbn [owner put_lst]. destruct (t_lst _ _ S p L) as [R|R]; [|contradiction]. destruct (owner s !! p) as [[[o i]|]|] eqn:O.
  - destruct (t_owner _ _ S _ _ _ O R) as (e & He & Hm). unfold engine_stopped. cbn [sets put_lst]. rewrite He. rewrite (get_key_In _ _ _ (t_keys _ _ S _ _ He) Hm). destruct (drop_key i (members e)) as [|m ms]; [|left; reflexivity].
    destruct (decide (e_state e = After)) as [Af|Af]; [left; reflexivity|]. destruct (e_callback e) eqn:Cb; [|left; reflexivity]. right. right. rewrite notices_update. cbn. eexists _, _. split; [reflexivity|].
    exists o, e. eexists. rewrite sets_update. cbn. rewrite lookup_insert. repeat split; try assumption. cbn. apply first_code_spec.
  - right. left. rewrite notices_update. cbn. eexists. repeat split. assumption.
  - left. reflexivity.
Qed.
Lemma notices_step : forall s x, Struct s -> notices (fst (step W saving s x)) = notices s \/
  (exists p c, notices (fst (step W saving s x)) = notices s ++ [(None, c)] /\ owner s !! p = Some None /\ lst s !! p = Some Running /\ p ∉ alive s /\ lst (fst (step W saving s x)) !! p = Some After /\ c = exit_code W p) \/
  (exists sid c, notices (fst (step W saving s x)) = notices s ++ [(Some sid, c)] /\ x = Callback /\ set_notice s (fst (step W saving s x)) sid c).
Proof.
  intros s x S.
  assert (Lau : forall k o i s, notices (launch o k i s) = notices s).
  { induction k as [|k IH]; intros o i t; [reflexivity|]. cbn [launch]. rewrite IH. cbn. destruct (sets t !! o); reflexivity. }
  assert (Cha : forall o f t, notices (change_set o f t) = notices t) by (intros; unfold change_set; destruct (sets t !! o); reflexivity).
  assert (SC : notices (fst (stop_controller W saving s)) = notices s).
  { unfold stop_controller. destruct (ctl s) as [[p|]|]; cbn [fst]; [|rewrite notices_update; reflexivity ..].
    destruct (stop_process W p s) as [s1 b] eqn:E. destruct (stop_process_spec _ _ _ _ _ S E) as (_ & M & _). destruct b; [cbn [fst]; rewrite notices_update|]; apply M. }
  destruct x as [ok|sid n fail| |sid| | | |p|p| |i|]; cbn [step].
  - left. unfold start_controller. destruct (ctl s); [reflexivity|]. destruct ok; cbn [fst]; [rewrite notices_update|]; reflexivity.
  - left. unfold start_engines. destruct fail as [[k []]|]; cbn [fst]; rewrite ?notices_update, ?Cha, Lau; reflexivity.
  - left. exact SC.
  - left. destruct (stop_set W sid s) as [s1 r] eqn:E. destruct (stop_set_spec _ _ _ _ _ S E) as (_ & M & _). apply M.
  - left. destruct (stop_sets W _ s) as [s1 r] eqn:E. destruct (stop_sets_spec _ _ _ _ _ S E) as (_ & M & _). apply M.
  - left. pose proof (Struct_stop_controller W saving s S) as S1. destruct (stop_controller W saving s) as [s1 r1]. cbn [fst] in *. destruct (stop_sets W _ s1) as [s2 r2] eqn:E. destruct (stop_sets_spec _ _ _ _ _ S1 E) as (_ & M & _). cbn [fst]. rewrite (g_notices _ _ M). exact SC.
  - destruct (ctl s) as [[p|]|] eqn:C; [|left; reflexivity..]. case_bool_decide as A; [left; reflexivity|]. cbn [fst]. destruct (t_ctl _ _ S p C) as [O L].
    destruct (notices_notify p s S A L) as [E|[(c & E & E1 & E2 & E3)|(sid & c & E & o & e & e' & X)]]; [left; exact E| |].
    + right. left. exists p, c. rewrite lst_notify, lookup_insert. repeat split; assumption.
    + exfalso. revert E. unfold notify_stop. case_bool_decide as A'; [intros E; apply (f_equal length) in E; rewrite app_length in E; cbn in E; lia|]. cbn [owner put_lst]. rewrite O, notices_update. cbn. intros E. apply app_inv_head in E. discriminate.
  - left. reflexivity.
  - left. case_bool_decide; [reflexivity|]. apply (Same_thread p s).
  - destruct (pending s) as [|p r] eqn:E; [left; reflexivity|]. rewrite notify_pending. cbn [fst]. assert (Hp : p ∈ pending s) by (rewrite E; left).
    destruct (notices_notify p s S (t_pending _ _ S p Hp) (t_known _ _ S p (or_introl Hp))) as [Q|[(c & Q & E1 & E2 & E3)|(sid & c & Q & X)]]; [left; exact Q| |].
    + right. left. exists p, c. cbn. rewrite lst_notify, lookup_insert. split; [exact Q|]. repeat split; try assumption. exact (t_pending _ _ S p Hp).
    + right. right. exists sid, c. repeat split; [exact Q|]. exact X.
  - left. destruct (tasks s !! i) as [[sid o]|]; [|reflexivity]. cbn [fst]. unfold finish_set. destruct (get_key sid _); [rewrite notices_update|]; reflexivity.
  - left. cbn [fst]. unfold reload. destruct (file s) as [d|]; [|reflexivity]. unfold restore.
    assert (Z : forall l t, notices (fold_left (fun s x => restore_set (fst x) (snd x) s) l t) = notices t).
    { induction l as [|[k ss] l IH]; intros t; [reflexivity|]. cbn [fold_left]. rewrite IH. unfold restore_set. destruct (List.filter _ _); reflexivity. }
    assert (Y : forall c t, notices (restore_controller c t) = notices t) by (intros [[p|]|] t; unfold restore_controller; try reflexivity; case_bool_decide; reflexivity).
    destruct (decide _); [|rewrite notices_update]; rewrite Z, Y; reflexivity.
Qed.
(** an engine set that has ended stays as it is *)
Lemma after_notify : forall p o e s, Struct s -> p ∉ alive s -> is_Some (lst s !! p) -> sets s !! o = Some e -> e_state e = After -> sets (notify_stop W saving p s) !! o = Some e.
Proof.
  intros p o e s S D L He A. unfold notify_stop. case_bool_decide as Af; [exact He|]. cbn [owner put_lst]. destruct (t_lst _ _ S p L) as [R|R]; [|contradiction]. destruct (owner s !! p) as [[[o1 i]|]|] eqn:O.
  - destruct (t_owner _ _ S _ _ _ O R) as (e1 & He1 & Hm). assert (N : o1 <> o) by (intros ->; rewrite He in He1; injection He1 as <-; rewrite (t_after _ _ S _ _ He A) in Hm; apply elem_of_nil in Hm; exact Hm).
    unfold engine_stopped. cbn [sets put_lst]. rewrite He1. destruct (get_key i (members e1)); [|exact He]. destruct (drop_key i (members e1)); [|cbn; rewrite lookup_insert_ne by exact N; exact He].
    destruct (decide (e_state e1 = After)); [cbn; rewrite lookup_insert_ne by exact N; exact He|]. destruct (e_callback e1); rewrite ?sets_update; cbn; rewrite lookup_insert_ne by exact N; exact He.
  - rewrite sets_update. exact He.
  - exact He.
Qed.
Lemma launch_others : forall k o i s o', o' <> o -> sets (launch o k i s) !! o' = sets s !! o'.
Proof. induction k as [|k IH]; intros o i s o' N; [reflexivity|]. cbn [launch]. rewrite IH by exact N. cbn. destruct (sets s !! o); [cbn; apply lookup_insert_ne; congruence | reflexivity]. Qed.
Lemma sets_stop_controller : forall s, Struct s -> sets (fst (stop_controller W saving s)) = sets s.
Proof.
  intros s S. unfold stop_controller. destruct (ctl s) as [[p|]|]; cbn [fst]; [|rewrite sets_update; reflexivity ..].
  destruct (stop_process W p s) as [s1 b] eqn:E. destruct (stop_process_spec _ _ _ _ _ S E) as (_ & M & _). destruct b; [cbn [fst]; rewrite sets_update|]; apply M.
Qed.
(** what a step does to the engine sets *)
Lemma sets_step : forall s x, Struct s -> (sets (fst (step W saving s x)) = sets s) \/ (exists sid n fail, x = StartEngines sid n fail) \/ (x = Callback \/ x = PollController) \/ x = Reload.
Proof.
  intros s x S. destruct x as [ok|sid n fail| |sid| | | |p|p| |i|]; cbn [step].
  - left. unfold start_controller. destruct (ctl s); [reflexivity|]. destruct ok; cbn [fst]; [rewrite sets_update|]; reflexivity.
  - right. left. exists sid, n, fail. reflexivity.
  - left. apply sets_stop_controller, S.
  - left. destruct (stop_set W sid s) as [s1 r] eqn:E. destruct (stop_set_spec _ _ _ _ _ S E) as (_ & M & _). apply M.
  - left. destruct (stop_sets W _ s) as [s1 r] eqn:E. destruct (stop_sets_spec _ _ _ _ _ S E) as (_ & M & _). apply M.
  - left. pose proof (Struct_stop_controller W saving s S) as S1. pose proof (sets_stop_controller s S) as X. destruct (stop_controller W saving s) as [s1 r1]. cbn [fst] in *. destruct (stop_sets W _ s1) as [s2 r2] eqn:E. destruct (stop_sets_spec _ _ _ _ _ S1 E) as (_ & M & _). cbn [fst]. rewrite (g_sets _ _ M). exact X.
  - right. right. left. right. reflexivity.
  - left. reflexivity.
  - left. case_bool_decide; [reflexivity|]. apply (Same_thread p s).
  - right. right. left. left. reflexivity.
  - left. destruct (tasks s !! i) as [[sid o]|]; [|reflexivity]. cbn [fst]. unfold finish_set. destruct (get_key sid _); [rewrite sets_update|]; reflexivity.
  - right. right. right. reflexivity.
Qed.
Lemma after_step : forall s x o e, Struct s -> x <> Reload -> sets s !! o = Some e -> e_state e = After -> sets (fst (step W saving s x)) !! o = Some e.
Proof.
  intros s x o e S NR He A. destruct (sets_step s x S) as [E|[(sid & n & fail & ->)|[[->| ->]| ->]]]; [rewrite E; exact He | | | |contradiction].
  - assert (N : o <> nset s) by (intros ->; pose proof (t_sets _ _ S _ _ He); lia). cbn [step]. unfold start_engines.
    assert (Cha : forall f t, sets (change_set (nset s) f t) !! o = sets t !! o) by (intros f t; unfold change_set; destruct (sets t !! nset s); [cbn; apply lookup_insert_ne; congruence | reflexivity]).
    destruct fail as [[k []]|]; cbn [fst]; rewrite ?sets_update, ?Cha, launch_others by exact N; cbn; rewrite lookup_insert_ne by congruence; exact He.
  - cbn [step fst]. destruct (pending s) as [|p r] eqn:E; [exact He|]. rewrite notify_pending. assert (Hp : p ∈ pending s) by (rewrite E; left). cbn. apply after_notify; try assumption; [exact (t_pending _ _ S p Hp) | apply (t_known _ _ S); left; exact Hp].
  - cbn [step fst]. destruct (ctl s) as [[p|]|] eqn:C; [|exact He|exact He]. case_bool_decide as D; [exact He|]. apply after_notify; try assumption. apply (t_ctl _ _ S p C).
Qed.
Lemma SetsOK_step : forall s x, Struct s -> SetsOK s -> x <> Reload -> starts_well x = true -> fresh_id s x -> SetsOK (fst (step W saving s x)).
Proof.
  intros s x S H NR SW FR. destruct (sets_step s x S) as [E|[(sid & n & fail & ->)|[[->| ->]| ->]]]; [apply (SetsOK_same s); assumption | | | |contradiction].
  - destruct fail; [discriminate|]. apply SetsOK_start_engines; assumption.
  - cbn [step fst]. destruct (pending s) as [|p r]; [exact H|]. rewrite notify_pending. apply (SetsOK_same (notify_stop W saving p s)); [reflexivity | apply SetsOK_notify, H].
  - cbn [step fst]. destruct (ctl s) as [[p|]|]; [|exact H|exact H]. case_bool_decide; [exact H | apply SetsOK_notify, H].
Qed.

(** ** One notice per set *)
Definition b2n (b : bool) : nat := if b then 1 else 0.
Definition count (f : eset -> bool) (m : gmap nat eset) : nat := length (List.filter (fun x => f (snd x)) (map_to_list m)).
Lemma count_perm : forall f (l l' : list (nat * eset)), l ≡ₚ l' -> length (List.filter f l) = length (List.filter f l').
Proof. intros f l l' P. induction P as [|x l l' P IH|x y l|l1 l2 l3 P1 IH1 P2 IH2]; cbn; [reflexivity| | |congruence]; [destruct (f x); cbn; congruence | destruct (f x), (f y); reflexivity]. Qed.
Lemma count_new : forall f m o e, m !! o = None -> count f (<[o := e]> m) = count f m + b2n (f e).
Proof. intros f m o e N. unfold count. rewrite (count_perm _ _ _ (map_to_list_insert m o e N)). cbn. destruct (f e); cbn; lia. Qed.
Lemma count_change : forall f m o e e', m !! o = Some e -> count f (<[o := e']> m) + b2n (f e) = count f m + b2n (f e').
Proof.
  intros f m o e e' E. rewrite <- insert_delete_insert. rewrite count_new by apply lookup_delete.
  assert (X : count f m = count f (delete o m) + b2n (f e)). { unfold count. rewrite <- (count_perm _ _ _ (map_to_list_delete m o e E)). cbn. destruct (f e); cbn; lia. } lia.
Qed.
Definition unfinished (sid : string) (e : eset) : bool := String.eqb (e_sid e) sid && negb (bool_decide (e_state e = After)).
Lemma notices_of_snoc : forall sid l n, notices_of sid (l ++ [n]) = notices_of sid l + match fst n with Some k => b2n (String.eqb k sid) | None => 0 end.
Proof. intros sid l [[k|] c]; unfold notices_of; rewrite List.filter_app, app_length; cbn; [destruct (String.eqb k sid); cbn; lia | lia]. Qed.
Lemma unfinished_same : forall sid e e', e_sid e' = e_sid e -> e_state e' = e_state e -> unfinished sid e' = unfinished sid e.
Proof. intros sid e e' E1 E2. unfold unfinished. rewrite E1, E2. reflexivity. Qed.
Lemma count_notify : forall sid p s, notices_of sid (notices (notify_stop W saving p s)) + count (unfinished sid) (sets (notify_stop W saving p s)) <= notices_of sid (notices s) + count (unfinished sid) (sets s) /\
  (SetsOK s -> notices_of sid (notices (notify_stop W saving p s)) + count (unfinished sid) (sets (notify_stop W saving p s)) = notices_of sid (notices s) + count (unfinished sid) (sets s)).
Proof.
  intros sid p s. unfold notify_stop. case_bool_decide; [split; [lia | reflexivity]|]. cbn [owner put_lst]. destruct (owner s !! p) as [[[o i]|]|].
  - unfold engine_stopped. cbn [sets put_lst]. destruct (sets s !! o) as [e|] eqn:E; [|split; [reflexivity | reflexivity]]. destruct (get_key i (members e)); [|split; reflexivity].
    assert (K : forall x ms en, x = e_state e -> count (unfinished sid) (<[o := ESet (e_sid e) (e_n e) x ms en (e_callback e)]> (sets s)) = count (unfinished sid) (sets s)).
    { intros x ms en ->. pose proof (count_change (unfinished sid) _ o e (ESet (e_sid e) (e_n e) (e_state e) ms en (e_callback e)) E) as X. change (unfinished sid (ESet (e_sid e) (e_n e) (e_state e) ms en (e_callback e))) with (unfinished sid e) in X. lia. }
    destruct (drop_key i (members e)) as [|m ms]; [|cbn [sets put_sets notices put_lst]; rewrite K by reflexivity; split; [lia | reflexivity]].
    destruct (decide (e_state e = After)) as [A|A]; [cbn [sets put_sets notices put_lst]; rewrite K by reflexivity; split; [lia | reflexivity]|].
    pose proof (count_change (unfinished sid) _ o e (ESet (e_sid e) (e_n e) After [] (ended e ++ [(i, exit_code W p)]) (e_callback e)) E) as X.
    assert (U : unfinished sid e = String.eqb (e_sid e) sid) by (unfold unfinished; rewrite bool_decide_eq_false_2 by exact A; apply andb_true_r).
    assert (U' : unfinished sid (ESet (e_sid e) (e_n e) After [] (ended e ++ [(i, exit_code W p)]) (e_callback e)) = false) by (unfold unfinished; cbn; rewrite bool_decide_eq_true_2 by reflexivity; apply andb_false_r).
    rewrite U, U' in X. cbn [b2n] in X. destruct (e_callback e) eqn:C.
    + rewrite notices_update, sets_update. cbn [sets put_notices put_sets notices put_lst]. rewrite notices_of_snoc. cbn [fst]. split; [lia | intros _; lia].
    + cbn [sets put_notices put_sets notices put_lst]. split; [lia|]. intros SO. destruct (SO o e E) as [Y _]. congruence.
  - rewrite notices_update, sets_update. cbn [sets put_notices notices put_lst]. rewrite notices_of_snoc. cbn [fst]. split; [lia | intros; lia].
  - split; [cbn [sets notices put_lst]; lia | reflexivity].
Qed.
Lemma launch_states : forall k o e i s, sets s !! o = Some e -> exists e', sets (launch o k i s) !! o = Some e' /\ e_sid e' = e_sid e /\ e_state e' = e_state e.
Proof.
  induction k as [|k IH]; intros o e i s E; [exists e; repeat split; exact E|]. cbn [launch]. cbn [sets spawn]. rewrite E. set (s1 := put_sets _ _).
  assert (E1 : sets s1 !! o = Some (ESet (e_sid e) (e_n e) (e_state e) (members e ++ [(ident i, Some (next s))]) (ended e) (e_callback e))) by apply lookup_insert.
  destruct (IH o _ (S i) s1 E1) as (e' & X1 & X2 & X3). exists e'. split; [exact X1|]. split; [exact X2 | exact X3].
Qed.
Lemma launch_count : forall f, (forall e e', e_sid e' = e_sid e -> e_state e' = e_state e -> f e' = f e) -> forall k o e i s, sets s !! o = Some e -> count f (sets (launch o k i s)) = count f (sets s).
Proof.
  intros f Hf. induction k as [|k IH]; intros o e i s E; [reflexivity|]. cbn [launch]. cbn [sets spawn]. rewrite E. erewrite IH; [|cbn; apply lookup_insert]. cbn [sets put_sets].
  match goal with |- count f (<[o := ?e']> _) = _ => pose proof (count_change f (sets s) o e e' E) as X; assert (Y : f e' = f e) by (apply Hf; reflexivity) end. rewrite Y in X. cbn [sets spawn]. lia.
Qed.
Lemma count_start : forall sid k n fail s, Struct s -> count (unfinished sid) (sets (fst (start_engines saving k n fail s))) = count (unfinished sid) (sets s) + b2n (String.eqb k sid).
Proof.
  intros sid k n fail s S. unfold start_engines. set (s1 := St _ _ _ _ _ _ _ _ _ _ _ _ _).
  assert (NS : sets s !! nset s = None) by (destruct (sets s !! nset s) eqn:E; [pose proof (t_sets _ _ S _ _ E); lia | reflexivity]).
  assert (E1 : sets s1 !! nset s = Some (ESet k n Before [] [] false)) by (cbn; apply lookup_insert).
  assert (C1 : count (unfinished sid) (sets s1) = count (unfinished sid) (sets s) + b2n (String.eqb k sid)).
  { cbn [sets s1]. rewrite count_new by exact NS. f_equal. unfold unfinished. cbn. rewrite bool_decide_eq_false_2 by discriminate. rewrite andb_true_r. reflexivity. }
  assert (L : forall j, count (unfinished sid) (sets (launch (nset s) j 0 s1)) = count (unfinished sid) (sets s1)) by (intros j; apply (launch_count _ (unfinished_same sid) j (nset s) _ 0 s1 E1)).
  assert (Cha : forall f t e, sets t !! nset s = Some e -> unfinished sid (f e) = unfinished sid e -> count (unfinished sid) (sets (change_set (nset s) f t)) = count (unfinished sid) (sets t)).
  { intros f t e E U. unfold change_set. rewrite E. cbn [sets put_sets]. pose proof (count_change (unfinished sid) _ _ e (f e) E) as X. rewrite U in X. lia. }
  rewrite <- C1. destruct fail as [[j b]|]; cbn [fst].
  - destruct (launch_states (min j n) (nset s) _ 0 s1 E1) as (e' & X1 & X2 & X3). destruct b; [|apply L]. rewrite (Cha _ _ _ X1); [apply L|]. apply unfinished_same; reflexivity.
  - destruct (launch_states n (nset s) _ 0 s1 E1) as (e' & X1 & X2 & X3). rewrite sets_update. rewrite (Cha _ _ _ X1); [apply L|]. unfold unfinished. cbn. rewrite X3. cbn. rewrite !bool_decide_eq_false_2 by discriminate. reflexivity.
Qed.
Lemma count_step : forall sid s x, Struct s -> x <> Reload ->
  notices_of sid (notices (fst (step W saving s x))) + count (unfinished sid) (sets (fst (step W saving s x))) <= notices_of sid (notices s) + count (unfinished sid) (sets s) + starts_of sid [x] /\
  (SetsOK s -> notices_of sid (notices (fst (step W saving s x))) + count (unfinished sid) (sets (fst (step W saving s x))) = notices_of sid (notices s) + count (unfinished sid) (sets s) + starts_of sid [x]).
Proof.
  intros sid s x S NR. destruct (sets_step s x S) as [E|[(k & n & fail & ->)|[[->| ->]| ->]]]; [| | | |contradiction].
  - rewrite E. assert (X : starts_of sid [x] = 0).
    { destruct x as [ok|k n fail| |k| | | |p|p| |i|]; try reflexivity. cbn [step] in E. pose proof (count_start k k n fail s S) as X. rewrite E in X. rewrite String.eqb_refl in X. cbn in X. lia. }
    rewrite X. destruct (notices_step s x S) as [Q|[(p & c & Q & _)|(k & c & Q & Q1 & o & e & e' & Z1 & Z2 & Z3 & _ & Z4 & Z5 & _)]]; [rewrite Q; split; [lia | intros _; lia] | rewrite Q, notices_of_snoc; cbn; split; [lia | intros _; lia]|].
    rewrite E in Z4. congruence.
  - cbn [step]. rewrite count_start by exact S. destruct (notices_step s (StartEngines k n fail) S) as [Q|[(p & c & Q & _)|(j & c & Q & Q1 & _)]]; [| |discriminate]; cbn [step] in Q; rewrite Q; [|rewrite notices_of_snoc]; unfold starts_of; cbn; destruct (String.eqb k sid); cbn; split; intros; lia.
  - change (starts_of sid [Callback]) with 0. cbn [step fst]. destruct (pending s) as [|p r]; [split; intros; lia|]. rewrite notify_pending. cbn [sets notices put_pending]. destruct (count_notify sid p s) as [X Y]. split; [lia | intros SO; rewrite (Y SO); lia].
  - change (starts_of sid [PollController]) with 0. cbn [step fst]. destruct (ctl s) as [[p|]|]; [|split; intros; lia..]. case_bool_decide; [split; intros; lia|]. destruct (count_notify sid p s) as [X Y]. split; [lia | intros SO; rewrite (Y SO); lia].
Qed.

(** ** Stopping everything *)
Lemma update_same : forall t, alive (update t) = alive t /\ ctl (update t) = ctl t /\ engines (update t) = engines t /\ tasks (update t) = tasks t.
Proof. intros t. unfold update_cluster_file. destruct saving; [|repeat split]. destruct (is_running t); repeat split. Qed.
Lemma stop_controller_spec : forall s s1 r, Struct s -> stop_controller W saving s = (s1, r) ->
  (r = Returned /\ ctl s1 = None /\ (saving = true -> synced s1) /\ forall p, ctl s = Some (Some p) -> p ∉ alive s1) \/
  (r = Raised "TimeoutError" /\ exists p, ctl s = Some (Some p) /\ p ∈ alive s1 /\ immortal W p = true).
Proof.
  intros s s1 r S E. unfold stop_controller in E.
  assert (U : forall t, ctl (update (put_ctl None t)) = None) by (intros t; apply (update_same (put_ctl None t))).
  assert (A : forall t, alive (update t) = alive t) by (intros t; apply (update_same t)).
  destruct (ctl s) as [[p|]|] eqn:C.
  - destruct (stop_process W p s) as [s2 b] eqn:E2. destruct (stop_process_spec _ _ _ _ _ S E2) as (_ & M & O & F). destruct b; injection E as <- <-.
    + left. split; [reflexivity|]. split; [apply U|]. split; [apply synced_update|]. intros q Q. injection Q as <-. rewrite A. exact (O eq_refl).
    + right. split; [reflexivity|]. exists p. split; [reflexivity|]. exact (F eq_refl).
  - injection E as <- <-. left. split; [reflexivity|]. split; [apply U|]. split; [apply synced_update | discriminate].
  - injection E as <- <-. left. split; [reflexivity|]. split; [apply U|]. split; [apply synced_update | discriminate].
Qed.
Lemma Forall_get : forall (l : list (string * nat)) sid, sid ∈ map fst l -> is_Some (get_key sid l).
Proof. intros l sid H. destruct (get_key sid l) eqn:E; [eexists; reflexivity|]. destruct (get_key_None _ _ E). exact H. Qed.
Record Over (s : st) : Prop := {
  v_ctl : ctl s = None; v_alive : alive s = ∅; v_tasks : forall sid, sid ∈ (engines s).*1 -> sid ∈ (tasks s).*1; v_file : saving = true -> engines s = [] -> file s = None }.
Lemma synced_empty : forall s, synced s -> ctl s = None -> engines s = [] -> file s = None.
Proof. intros s Y C E. unfold synced, is_running in Y. rewrite C, E in Y. exact Y. Qed.
Lemma stop_cluster_spec : forall s s1 r, Struct s -> step W saving s StopCluster = (s1, r) ->
  (forall e, r <> Raised e) /\ Over s1 \/ exists e p, r = Raised e /\ p ∈ alive s1 /\ immortal W p = true.
Proof.
  intros s s1 r S E. cbn [step] in E. destruct (stop_controller W saving s) as [s2 r2] eqn:E2. pose proof (Struct_stop_controller W saving s S) as S2. rewrite E2 in S2. cbn [fst] in S2.
  destruct (stop_sets W (map fst (engines s2)) s2) as [s3 r3] eqn:E3. injection E as <- <-. destruct (stop_sets_spec _ _ _ _ _ S2 E3) as (S3 & M & T & C & F).
  destruct (stop_controller_spec _ _ _ S E2) as [(-> & C2 & Y2 & D2)|(-> & p & P1 & P2 & P3)].
  - destruct r3 as [| |e].
    3: { right. destruct (F e eq_refl (fun k => Forall_get (engines s2) k)) as (p & P1 & P2). exists e, p. split; [reflexivity|]. split; assumption. }
    all: left; split; [discriminate|].
    all: assert (TT : forall sid o, (sid, o) ∈ engines s3 -> (sid, o) ∈ tasks s3) by (intros sid o Ho; rewrite (g_engines _ _ M) in Ho; apply C; [discriminate | apply elem_of_list_fmap; exists (sid, o); split; [reflexivity | exact Ho] | apply get_key_In; [exact (t_ids _ _ S2) | exact Ho]]).
    all: constructor; [rewrite (g_ctl _ _ M); exact C2 | | |].
    all: try (apply set_eq; intros p; split; [|intros X; apply elem_of_empty in X; destruct X]; intros Hp; exfalso; destruct (t_alive _ _ S3 p Hp I) as [L [X|(sid & o & i & X1 & X2)]];
      [rewrite (g_ctl _ _ M) in X; congruence|]; destruct (t_owner _ _ S3 _ _ _ X1 L) as (e & He & Hm); destruct (t_tasks _ _ S3 _ _ (TT _ _ X2)) as (_ & _ & T3); exact (T3 e i p He Hm Hp)).
    all: try (intros sid Hs; apply elem_of_list_fmap in Hs; destruct Hs as ([k o] & -> & Hs); apply elem_of_list_fmap; exists (k, o); split; [reflexivity | apply TT, Hs]).
    all: intros V En; rewrite (g_file _ _ M); apply synced_empty; [exact (Y2 V) | exact C2 | rewrite <- (g_engines _ _ M); exact En].
  - right. assert (X : s3 = fst (stop_sets W (map fst (engines s2)) s2)) by (rewrite E3; reflexivity). exists "TimeoutError"%string, p. cbn. split; [reflexivity|]. split; [|exact P3]. rewrite X. apply immortal_sets; assumption.
Qed.
Lemma notify_same : forall p s, alive (notify_stop W saving p s) = alive s /\ ctl (notify_stop W saving p s) = ctl s /\ engines (notify_stop W saving p s) = engines s /\ tasks (notify_stop W saving p s) = tasks s /\
  (file (notify_stop W saving p s) = file s \/ (saving = true -> synced (notify_stop W saving p s))).
Proof.
  intros p s. assert (U : forall t, alive (update t) = alive t /\ ctl (update t) = ctl t /\ engines (update t) = engines t /\ tasks (update t) = tasks t) by exact update_same.
  assert (K : forall t, alive t = alive s /\ ctl t = ctl s /\ engines t = engines s /\ tasks t = tasks s -> alive (update t) = alive s /\ ctl (update t) = ctl s /\ engines (update t) = engines s /\ tasks (update t) = tasks s /\ (file (update t) = file s \/ (saving = true -> synced (update t)))).
  { intros t (A & B & C & D). destruct (U t) as (A' & B' & C' & D'). rewrite A', B', C', D'. repeat split; try assumption. right. apply synced_update. }
  unfold notify_stop. case_bool_decide; [repeat split; left; reflexivity|]. cbn [owner put_lst]. destruct (owner s !! p) as [[[o i]|]|]; [|apply K; repeat split | repeat split; left; reflexivity].
  unfold engine_stopped. cbn [sets put_lst]. destruct (sets s !! o) as [e|]; [|repeat split; left; reflexivity]. destruct (get_key i (members e)); [|repeat split; left; reflexivity].
  destruct (drop_key i (members e)); [|repeat split; left; reflexivity]. destruct (decide (e_state e = After)); [repeat split; left; reflexivity|]. destruct (e_callback e); [apply K; repeat split | repeat split; left; reflexivity].
Qed.
Lemma delete_others : forall (l : list (string * nat)) i k o sid, l !! i = Some (k, o) -> sid <> k -> sid ∈ l.*1 -> sid ∈ (delete i l).*1.
Proof.
  intros l i k o sid E N H. apply elem_of_list_fmap in H. destruct H as ([k' o'] & X & H). cbn in X. subst k'. apply elem_of_list_lookup in H. destruct H as (j & H).
  assert (j <> i) by (intros ->; congruence). apply elem_of_list_fmap. exists (sid, o'). split; [reflexivity|]. rewrite delete_take_drop. apply elem_of_app. destruct (decide (j < i)) as [L|L].
  - left. apply elem_of_list_lookup. exists j. rewrite lookup_take by exact L. exact H.
  - right. apply elem_of_list_lookup. exists (j - S i). rewrite lookup_drop. replace (S i + (j - S i)) with j by lia. exact H.
Qed.
Lemma Over_step : forall s x, Struct s -> Over s -> happens x = true -> Over (fst (step W saving s x)).
Proof.
  intros s x S O Hx. destruct x as [ok|sid n fail| |sid| | | |p|p| |i|]; try discriminate; cbn [step fst].
  - destruct O. constructor; cbn; try assumption. rewrite v_alive0. apply set_eq. intros q. rewrite elem_of_difference. split; [intros [X _]; exact X | intros X; apply elem_of_empty in X; destruct X].
  - case_bool_decide; [exact O|]. pose proof (Same_thread p s) as M. destruct O. constructor; [rewrite (m_ctl _ _ M) | | rewrite (m_engines _ _ M), (m_tasks _ _ M) | rewrite (m_engines _ _ M), (m_file _ _ M)]; try assumption.
    unfold thread_ends. case_bool_decide; exact v_alive0.
  - destruct (pending s) as [|p r]; [exact O|]. rewrite notify_pending. destruct (notify_same p s) as (A & B & C & D & F). destruct O. constructor; cbn; [rewrite B | rewrite A | rewrite C, D |]; try assumption.
    rewrite C. intros V En. destruct F as [F|F]; [rewrite F; exact (v_file0 V En) | apply synced_empty; [exact (F V) | congruence | congruence]].
  - destruct (tasks s !! i) as [[sid o]|] eqn:E; [|exact O]. cbn [fst]. unfold finish_set. cbn [engines put_tasks]. destruct (get_key sid (engines s)) eqn:G.
    + destruct (drop_key_NoDup sid (engines s) (t_ids _ _ S)) as [K1 K2]. assert (U : forall t, alive (update t) = alive t /\ ctl (update t) = ctl t /\ engines (update t) = engines t /\ tasks (update t) = tasks t) by exact update_same.
      match goal with |- Over (update ?t) => destruct (U t) as (A & B & C & D) end. destruct O. constructor; [rewrite B | rewrite A | rewrite C, D | rewrite C]; cbn; try assumption.
      * intros k Hk. apply (delete_others _ _ sid o); [exact E | intros ->; exact (K2 Hk)|]. apply v_tasks0. apply elem_of_list_fmap in Hk. destruct Hk as (y & -> & Y). apply elem_of_list_fmap. exists y. split; [reflexivity | eapply drop_key_sub, Y].
      * intros V En. apply synced_empty; [apply synced_update, V | rewrite B; exact v_ctl0 | rewrite C; exact En].
    + destruct O. constructor; cbn; try assumption. intros k Hk. apply (delete_others _ _ sid o); [exact E | intros ->; exact (get_key_None _ _ G Hk) | exact (v_tasks0 k Hk)].
Qed.
(** ** Stopping some *)
Lemma stop_process_others : forall p q s, q <> p -> q ∈ alive s -> q ∈ alive (fst (stop_process W p s)).
Proof.
  intros p q s N H. unfold stop_process. case_bool_decide; [|exact H]. destruct (bool_decide (p ∈ alive s) && immortal W p); [exact H|]. cbn [fst]. unfold thread_ends.
  destruct (bool_decide (p ∈ threads _)); cbn; apply elem_of_difference; (split; [exact H | intros Y; apply elem_of_singleton in Y; contradiction]).
Qed.
Lemma stop_processes_others : forall l q s, q ∉ l -> q ∈ alive s -> q ∈ alive (fst (stop_processes W l s)).
Proof.
  induction l as [|p l IH]; intros q s N H; [exact H|]. apply not_elem_of_cons in N. destruct N as [N1 N2]. cbn. pose proof (stop_process_others p q s N1 H) as X. destruct (stop_process W p s) as [s1 b1]. pose proof (IH q s1 N2 X) as Y. destruct (stop_processes W l s1). exact Y.
Qed.
Lemma stop_set_others : forall sid o e q s, get_key sid (engines s) = Some o -> sets s !! o = Some e -> q ∉ pids e -> q ∈ alive s -> q ∈ alive (fst (stop_set W sid s)).
Proof.
  intros sid o e q s G E N H. unfold stop_set. rewrite G, E. pose proof (stop_processes_others (pids e) q s N H) as X. destruct (stop_processes W (pids e) s) as [s1 []]; exact X.
Qed.

(** ** Histories *)
Lemma run_snoc : forall h x, run W saving (h ++ [x]) = fst (step W saving (run W saving h) x).
Proof. intros h x. unfold run. rewrite fold_left_app. reflexivity. Qed.
Notation orderly := (orderly W saving).
Notation manageable := (manageable saving).
Lemma orderly_snoc : forall h x, orderly (h ++ [x]) -> orderly h /\ fresh_id (run W saving h) x.
Proof.
  intros h x H. split.
  - intros h1 sid n fail h2 ->. apply (H h1 sid n fail (h2 ++ [x])). rewrite <- app_assoc. reflexivity.
  - destruct x; cbn; try exact I. apply (H h sid n fail []). reflexivity.
Qed.
Lemma Struct_run : forall h, orderly h -> Reload ∉ h -> Struct (run W saving h) /\ EndOK (run W saving h).
Proof.
  intros h. induction h as [|x h IH] using rev_ind; intros O N; [split; [apply Struct_init | apply EndOK_init]|]. apply orderly_snoc in O. destruct O as [O F]. apply not_elem_of_app in N. destruct N as [N1 N2].
  destruct (IH O N1) as [S E]. rewrite run_snoc. assert (x <> Reload) by (intros ->; apply N2; left). split; [apply Struct_step | apply EndOK_step]; assumption.
Qed.
Lemma Good_run : forall h, saving = true -> orderly h -> forallb starts_well h = true -> Good (run W saving h) /\ EndOK (run W saving h).
Proof.
  intros h V. induction h as [|x h IH] using rev_ind; intros O SW; [split; [apply Good_init | apply EndOK_init]|]. apply orderly_snoc in O. destruct O as [O F]. rewrite forallb_app in SW. apply andb_true_iff in SW. destruct SW as [SW1 SW2]. cbn in SW2. rewrite andb_true_r in SW2.
  destruct (IH O SW1) as [G E]. rewrite run_snoc. split; [apply Good_step; assumption|]. assert (D : x = Reload \/ x <> Reload) by (destruct x; try (right; discriminate); left; reflexivity). destruct D as [->|N]; [apply EndOK_reload; [apply G | apply (f_ok _ (g_filed _ G))] | apply EndOK_step; [apply G | exact E | exact N]].
Qed.
Lemma SetsOK_run : forall h, orderly h -> Reload ∉ h -> forallb starts_well h = true -> SetsOK (run W saving h).
Proof.
  intros h. induction h as [|x h IH] using rev_ind; intros O N SW; [intros o e X; cbn in X; rewrite lookup_empty in X; discriminate|]. pose proof (proj1 (orderly_snoc h x O)) as O1. destruct (orderly_snoc h x O) as [_ F]. apply not_elem_of_app in N. destruct N as [N1 N2].
  rewrite forallb_app in SW. apply andb_true_iff in SW. destruct SW as [SW1 SW2]. cbn in SW2. rewrite andb_true_r in SW2. rewrite run_snoc. assert (x <> Reload) by (intros ->; apply N2; left). apply SetsOK_step; try assumption; [apply Struct_run; assumption | apply IH; assumption].
Qed.
Lemma all_run : forall h, orderly h -> manageable h -> Struct (run W saving h) /\ EndOK (run W saving h).
Proof. intros h O [N|[V SW]]; [apply Struct_run; assumption|]. destruct (Good_run h V O SW) as [G E]. split; [apply G | exact E]. Qed.
Lemma starts_of_snoc : forall sid h x, starts_of sid (h ++ [x]) = starts_of sid h + starts_of sid [x].
Proof. intros. unfold starts_of. rewrite List.filter_app, app_length. reflexivity. Qed.
Lemma count_run : forall sid h, orderly h -> Reload ∉ h ->
  notices_of sid (notices (run W saving h)) + count (unfinished sid) (sets (run W saving h)) <= starts_of sid h /\
  (forallb starts_well h = true -> notices_of sid (notices (run W saving h)) + count (unfinished sid) (sets (run W saving h)) = starts_of sid h).
Proof.
  intros sid h. induction h as [|x h IH] using rev_ind; intros O N; [split; [apply Nat.le_refl | reflexivity]|]. pose proof (proj1 (orderly_snoc h x O)) as O1. apply not_elem_of_app in N. destruct N as [N1 N2].
  assert (NR : x <> Reload) by (intros ->; apply N2; left). destruct (IH O1 N1) as [I1 I2]. rewrite run_snoc, starts_of_snoc. destruct (count_step sid (run W saving h) x) as [C1 C2]; [apply Struct_run; assumption | exact NR|]. split; [lia|].
  intros SW. rewrite forallb_app in SW. apply andb_true_iff in SW. destruct SW as [SW1 _]. rewrite C2, (I2 SW1); [reflexivity|]. apply SetsOK_run; assumption.
Qed.
Lemma orderly_app : forall h h', orderly (h ++ h') -> orderly h.
Proof. intros h h' H h1 sid n fail h2 ->. apply (H h1 sid n fail (h2 ++ h')). rewrite <- app_assoc. reflexivity. Qed.
Lemma after_run : forall h' h o e, orderly (h ++ h') -> Reload ∉ h' -> manageable h -> manageable (h ++ h') -> sets (run W saving h) !! o = Some e -> e_state e = After -> sets (run W saving (h ++ h')) !! o = Some e.
Proof.
  induction h' as [|x h' IH] using rev_ind; intros h o e O N M M' E A; [rewrite app_nil_r; exact E|]. rewrite app_assoc in *. apply not_elem_of_app in N. destruct N as [N1 N2]. rewrite run_snoc.
  assert (M1 : manageable (h ++ h')).
  { destruct M' as [X|[V SW]]; [left; intros Y; apply X, elem_of_app; left; exact Y|]. right. split; [exact V|]. rewrite forallb_app in SW. apply andb_true_iff in SW. apply SW. }
  apply after_step; [apply (all_run (h ++ h')); [apply (orderly_app _ [x]), O | exact M1] | intros ->; apply N2; left | apply IH; try assumption; apply (orderly_app _ [x]), O | exact A].
Qed.
(** nothing more to find out *)
Lemma quiet_running : forall s p, Struct s -> pending s = [] -> (forall q, q ∈ threads s -> q ∈ alive s) -> lst s !! p = Some Running -> p ∈ alive s.
Proof. intros s p S P T R. destruct (t_threads _ _ S p R) as [X|X]; [exact (T p X)|]. rewrite P in X. apply elem_of_nil in X. destruct X. Qed.
Definition NonEmpty (s : st) : Prop := forall o e, sets s !! o = Some e -> e_n e <> 0.
Lemma NonEmpty_notify : forall p s, NonEmpty s -> NonEmpty (notify_stop W saving p s).
Proof.
  intros p s H. unfold notify_stop. case_bool_decide; [exact H|]. cbn [owner put_lst]. destruct (owner s !! p) as [[[o i]|]|]; [|intros o e X; rewrite sets_update in X; exact (H o e X) | exact H].
  unfold engine_stopped. cbn [sets put_lst]. destruct (sets s !! o) as [e|] eqn:E; [|exact H]. destruct (get_key i (members e)); [|exact H].
  assert (K : forall x ms en o' e', <[o := ESet (e_sid e) (e_n e) x ms en (e_callback e)]> (sets s) !! o' = Some e' -> e_n e' <> 0).
  { intros x ms en o' e' X. destruct (decide (o = o')) as [<-|N]; [rewrite lookup_insert in X; injection X as <-; exact (H o e E) | rewrite lookup_insert_ne in X by exact N; exact (H o' e' X)]. }
  destruct (drop_key i (members e)); [|intros o' e' X; exact (K _ _ _ _ _ X)]. destruct (decide (e_state e = After)); [intros o' e' X; exact (K _ _ _ _ _ X)|].
  destruct (e_callback e); intros o' e' X; [rewrite sets_update in X|]; exact (K _ _ _ _ _ X).
Qed.
Lemma NonEmpty_launch : forall k o i s, NonEmpty s -> NonEmpty (launch o k i s).
Proof.
  induction k as [|k IH]; intros o i s H; [exact H|]. cbn [launch]. apply IH. cbn [sets spawn]. destruct (sets s !! o) as [e|] eqn:E; [|exact H]. intros o' e' X. cbn in X.
  destruct (decide (o = o')) as [<-|N]; [rewrite lookup_insert in X; injection X as <-; exact (H o e E) | rewrite lookup_insert_ne in X by exact N; exact (H o' e' X)].
Qed.
Lemma NonEmpty_change : forall o f s, (forall e, e_n (f e) = e_n e) -> NonEmpty s -> NonEmpty (change_set o f s).
Proof.
  intros o f s Hf H. unfold change_set. destruct (sets s !! o) as [e|] eqn:E; [|exact H]. intros o' e' X. cbn in X.
  destruct (decide (o = o')) as [<-|N]; [rewrite lookup_insert in X; injection X as <-; rewrite Hf; exact (H o e E) | rewrite lookup_insert_ne in X by exact N; exact (H o' e' X)].
Qed.
Lemma NonEmpty_step : forall s x, Struct s -> NonEmpty s -> some_engines x = true -> x <> Reload -> NonEmpty (fst (step W saving s x)).
Proof.
  intros s x S H SE NR. destruct (sets_step s x S) as [E|[(k & n & fail & ->)|[[->| ->]| ->]]]; [intros o e; rewrite E; apply H | | | |contradiction].
  - cbn [step]. unfold start_engines. set (s1 := St _ _ _ _ _ _ _ _ _ _ _ _ _). assert (H1 : NonEmpty s1).
    { intros o e X. cbn in X. destruct (decide (nset s = o)) as [<-|N]; [rewrite lookup_insert in X; injection X as <-; destruct n; [discriminate | discriminate] | rewrite lookup_insert_ne in X by exact N; exact (H o e X)]. }
    destruct fail as [[j b]|]; cbn [fst].
    + destruct b; [apply NonEmpty_change; [reflexivity|]|]; apply NonEmpty_launch, H1.
    + intros o e X. rewrite sets_update in X. revert o e X. apply NonEmpty_change; [reflexivity | apply NonEmpty_launch, H1].
  - cbn [step fst]. destruct (pending s) as [|p r]; [exact H|]. rewrite notify_pending. exact (NonEmpty_notify p s H).
  - cbn [step fst]. destruct (ctl s) as [[p|]|]; [|exact H|exact H]. case_bool_decide; [exact H | apply NonEmpty_notify, H].
Qed.
Lemma NonEmpty_reload : forall s, Struct s -> FileOK s -> NonEmpty (reload saving s).
Proof.
  intros s H F. destruct (file s) as [d|] eqn:E.
  - destruct (reload_restored saving s d H F E) as (s1 & Er & R). rewrite Er. assert (X : NonEmpty s1) by (intros o e He; apply (r_full _ _ _ _ R o e He)). destruct (decide _); [exact X|]. intros o e Q. rewrite sets_update in Q. exact (X o e Q).
  - unfold reload. rewrite E. intros o e X. cbn in X. rewrite lookup_empty in X. discriminate.
Qed.
Lemma NonEmpty_run : forall h, orderly h -> manageable h -> forallb some_engines h = true -> NonEmpty (run W saving h).
Proof.
  intros h. induction h as [|x h IH] using rev_ind; intros O M SE; [intros o e X; cbn in X; rewrite lookup_empty in X; discriminate|]. rewrite forallb_app in SE. apply andb_true_iff in SE. destruct SE as [SE1 SE2]. cbn in SE2. rewrite andb_true_r in SE2.
  destruct (orderly_snoc h x O) as [O1 F].
  assert (M1 : manageable h) by (destruct M as [X|[V SW]]; [left; intros Y; apply X, elem_of_app; left; exact Y | right; split; [exact V|]; rewrite forallb_app in SW; apply andb_true_iff in SW; apply SW]).
  assert (D : x = Reload \/ x <> Reload) by (destruct x; try (right; discriminate); left; reflexivity). rewrite run_snoc. destruct D as [->|N].
  - destruct M as [X|[V SW]]; [destruct X; apply elem_of_app; right; left|]. rewrite forallb_app in SW. apply andb_true_iff in SW. destruct SW as [SW _]. destruct (Good_run h V O1 SW) as [G _]. apply NonEmpty_reload; [apply G | apply (f_ok _ (g_filed _ G))].
  - apply NonEmpty_step; [apply (all_run h O1 M1) | apply IH; assumption | exact SE2 | exact N].
Qed.
Lemma count_zero : forall f m, (forall o e, m !! o = Some e -> f e = false) -> count f m = 0.
Proof.
  intros f m H. unfold count. assert (K : forall x, x ∈ map_to_list m -> f (snd x) = false) by (intros [o e] X; apply elem_of_map_to_list in X; exact (H o e X)).
  induction (map_to_list m) as [|x l IH]; [reflexivity|]. cbn. rewrite K by left. apply IH. intros y Y. apply K. right. exact Y.
Qed.
End cluster.
