(** Proofs for C58. *)
From stdpp Require Import base gmap list strings.
From Coq Require Import ZArith Lia.
From Verif Require Import Ctl_Spec Ctl_Model.

Lemma feed_address : forall w, address w = option_map fst (feed_identities w).
Proof.
  induction w as [|f w IH]; [reflexivity|]. cbn [address feed_identities]. destruct (String.eqb f DELIM); [reflexivity|].
  rewrite IH. destruct (feed_identities w) as [[i b]|]; reflexivity.
Qed.

Section nanny.
Variable engine_id : Z.
Variable names : string -> option Z.
Notation step := (step engine_id names).
Notation run := (run engine_id names).

(** The actions of one step *)
Definition notice (l : list action) : Prop := l = [] \/ l = [Unregister engine_id].
Definition handled (e : event) : list action :=
  match e with
  | FromClients w (Some m) fails =>
      match address w with
      | Some (a :: l) =>
          if String.eqb (mtype m) SIGNAL then
            let '(acts, c) := signal_request names (mcontent m) fails in acts ++ [Reply (a :: l) (reply_type (mtype m)) (mid m) c]
          else [ToEngine w]
      | _ => []
      end
  | FromEngine w => [ToClients w]
  | _ => []
  end.
Definition is_message (e : event) : bool := match e with FromClients _ _ _ | FromEngine _ => true | _ => false end.
Lemma step_message : forall s e, stopped s = false -> is_message e = true -> step s e = emit (handled e) s.
Proof.
  intros s e S M. unfold step. rewrite S. destruct e as [w m fails|w| | |]; try discriminate; [|reflexivity].
  unfold dispatch_control, handled. pose proof (feed_address w) as A. destruct (feed_identities w) as [[i b]|]; cbn [option_map fst] in A; rewrite A.
  - destruct m as [m|]; [|destruct s; unfold emit; cbn; rewrite app_nil_r; reflexivity].
    destruct i as [|a l]; [destruct s; unfold emit; cbn; rewrite app_nil_r; reflexivity|].
    change SIGNAL with "signal_request"%string. destruct (String.eqb (mtype m) "signal_request"); [|reflexivity].
    destruct (signal_request names (mcontent m) fails) as [acts c]. reflexivity.
  - destruct s; destruct m; unfold emit; cbn; rewrite app_nil_r; reflexivity.
Qed.
Lemma finish_out : forall s, exists l, notice l /\ out (finish engine_id s) = out s ++ l.
Proof.
  intros s. unfold finish. destruct (finish_called s); [exists []; split; [left; reflexivity | rewrite app_nil_r; reflexivity]|].
  exists [Unregister engine_id]. split; [right; reflexivity | reflexivity].
Qed.
Lemma step_other : forall s e, is_message e = false -> exists l, notice l /\ out (step s e) = out s ++ l.
Proof.
  intros s e M. assert (N : exists l, notice l /\ out s = out s ++ l) by (exists []; split; [left; reflexivity | rewrite app_nil_r; reflexivity]).
  unfold step. destruct (stopped s); [exact N|]. destruct e; try discriminate.
  - unfold pipe_handler. destruct (pipe_watched s); [|exact N]. apply (finish_out (Nanny _ _ _ _ _ _)).
  - unfold parent_exited. destruct (waiting s); exact N.
  - unfold turn. destruct (callbacks s) as [|[|] r]; [exact N | apply (finish_out (Nanny _ _ _ _ _ _)) | exact N].
Qed.
Lemma handled_other : forall e, is_message e = false -> handled e = [].
Proof. intros [| | | |] H; try discriminate; reflexivity. Qed.
Lemma step_out : forall s e, stopped s = false -> exists l, notice l /\ out (step s e) = out s ++ handled e ++ l.
Proof.
  intros s e S. destruct (is_message e) eqn:M.
  - exists []. split; [left; reflexivity|]. rewrite (step_message _ _ S M), app_nil_r. reflexivity.
  - rewrite (handled_other _ M). apply step_other. exact M.
Qed.
Lemma step_stopped : forall s e, stopped s = true -> step s e = s.
Proof. intros s e S. unfold step. rewrite S. reflexivity. Qed.
Lemma fold_stopped : forall evs s, stopped s = true -> fold_left step evs s = s.
Proof. induction evs as [|e evs IH]; intros s S; [reflexivity|]. cbn [fold_left]. rewrite step_stopped by exact S. apply IH. exact S. Qed.
Lemma run_snoc : forall evs e, run (evs ++ [e]) = step (run evs) e.
Proof. intros. unfold Ctl_Model.run. rewrite fold_left_app. reflexivity. Qed.
Lemma run_app : forall evs evs', run (evs ++ evs') = fold_left step evs' (run evs).
Proof. intros. unfold Ctl_Model.run. apply fold_left_app. Qed.
Lemma unstopped : forall s e, stopped (step s e) = false -> stopped s = false.
Proof. intros s e H. destruct (stopped s) eqn:S; [|reflexivity]. rewrite step_stopped in H by exact S. congruence. Qed.

(** Anything told of the actions which is silent about the notice to the Hub *)
Lemma trace {A} (f : action -> list A) (g : event -> list A) :
  (forall i, f (Unregister i) = []) -> (forall e, flat_map f (handled e) = g e) ->
  forall evs, stopped (run evs) = false -> flat_map f (out (run evs)) = flat_map g evs.
Proof.
  intros Hu Hg evs. induction evs as [|e evs IH] using rev_ind; intros S; [reflexivity|].
  rewrite run_snoc in *. pose proof (unstopped _ _ S) as S'. destruct (step_out _ e S') as (l & N & ->).
  rewrite !flat_map_app, (IH S'), Hg. cbn [flat_map]. rewrite app_nil_r. f_equal.
  destruct N as [-> | ->]; cbn [flat_map]; rewrite ?Hu, ?app_nil_r; reflexivity.
Qed.

(** ** The notice *)
Definition told (s : nanny) : list Z := flat_map told_hub (out s).
Record Inv (seen : bool) (s : nanny) : Prop := {
  i_told : told s = if finish_called s then [engine_id] else [];
  i_fresh : seen = false -> finish_called s = false /\ callbacks s = [] /\ stopped s = false /\ pipe_watched s = true /\ waiting s = true;
  i_stopped : stopped s = true -> finish_called s = true;
  i_called : stopped s = false -> finish_called s = true -> exists a b, callbacks s = a ++ CStop :: b /\ (forall c, c ∈ a -> c = CFinish);
  i_pending : seen = true -> finish_called s = false -> callbacks s = [CFinish] /\ waiting s = false;
  i_pipe : pipe_watched s = false -> finish_called s = true;
  i_short : length (List.filter (fun c => match c with CFinish => true | _ => false end) (callbacks s)) <= (if waiting s then 0 else 1) }.
Lemma handled_told : forall e, flat_map told_hub (handled e) = [].
Proof.
  intros [w [m|] fails|w| | |]; try reflexivity. cbn [handled]. destruct (address w) as [[|a l]|]; try reflexivity.
  destruct (String.eqb (mtype m) SIGNAL); [|reflexivity]. unfold signal_request. destruct (mcontent m) as [sig| | |]; try reflexivity.
  destruct (match sig with SNum z => Some z | SName s => names s end); [|reflexivity]. destruct fails; reflexivity.
Qed.
Lemma filter_len : forall (f : callback -> bool) a b, length (List.filter f (a ++ b)) = length (List.filter f a) + length (List.filter f b).
Proof. intros. rewrite List.filter_app, app_length. reflexivity. Qed.
Lemma Inv_step : forall seen s e, Inv seen s -> Inv (seen || ends e) (step s e).
Proof.
  intros seen s e [It If Is Ic Ip Iq Ih]. destruct (stopped s) eqn:S.
  { rewrite step_stopped by exact S. destruct seen; [constructor; rewrite ?S; assumption|].
    destruct (If eq_refl) as (_ & _ & S' & _). congruence. }
  destruct (is_message e) eqn:M.
  { rewrite (step_message _ _ S M). assert (ends e = false) as -> by (destruct e; try discriminate; reflexivity). rewrite orb_false_r.
    destruct s; unfold emit; cbn in *. subst. constructor; cbn; try assumption.
    unfold told in *. cbn in *. rewrite flat_map_app, handled_told, app_nil_r. exact It. }
  unfold step. rewrite S. destruct s as [fc pw wt cbs st o]. cbn in *. subst st. destruct e as [| | | |]; try discriminate; cbn [ends].
  - (* pipe *) rewrite orb_true_r. unfold pipe_handler. cbn. destruct pw.
    + unfold finish. cbn. destruct fc; cbn.
      * constructor; cbn; auto; try discriminate.
      * constructor; cbn; auto; try discriminate.
        -- unfold told in *. cbn in *. rewrite flat_map_app, It. reflexivity.
        -- intros _ _. exists cbs, []. split; [reflexivity|]. destruct seen.
           ++ destruct (Ip eq_refl eq_refl) as [-> _]. intros c Hc. apply elem_of_list_singleton in Hc. exact Hc.
           ++ destruct (If eq_refl) as (_ & -> & _). intros c Hc. apply elem_of_nil in Hc. destruct Hc.
        -- rewrite filter_len. cbn. rewrite Nat.add_0_r. exact Ih.
    + constructor; cbn; auto; try discriminate. intros _ F. rewrite (Iq eq_refl) in F. discriminate.
  - (* process *) rewrite orb_true_r. unfold parent_exited. cbn. destruct wt.
    + constructor; cbn; auto; try discriminate.
      * intros _ F. destruct (Ic eq_refl F) as (a & b & -> & A). exists a, (b ++ [CFinish]). rewrite <- app_assoc. split; [reflexivity | exact A].
      * intros _ F. destruct seen; [destruct (Ip eq_refl F); discriminate|]. destruct (If eq_refl) as (_ & -> & _). split; reflexivity.
      * rewrite filter_len. cbn. lia.
    + constructor; cbn; auto; try discriminate. intros _ F. destruct seen; [destruct (Ip eq_refl F); split; [assumption|reflexivity]|].
      destruct (If eq_refl) as (_ & _ & _ & _ & X). discriminate.
  - (* turn *) rewrite orb_false_r. unfold turn. cbn. destruct cbs as [|[|] r].
    + constructor; cbn; auto.
    + unfold finish. cbn. destruct fc; cbn.
      * constructor; cbn; auto; try discriminate.
        -- intros ->. destruct (If eq_refl). discriminate.
        -- intros _ _. destruct (Ic eq_refl eq_refl) as (a & b & E & A). destruct a as [|c a]; [discriminate|]. cbn in E. injection E as Ec Er. subst r.
           exists a, b. split; [reflexivity|]. intros c' Hc. apply A. apply elem_of_list_further. exact Hc.
        -- cbn in Ih. destruct wt; lia.
      * constructor; cbn; auto; try discriminate.
        -- unfold told in *. cbn in *. rewrite flat_map_app, It. reflexivity.
        -- intros ->. destruct (If eq_refl) as (_ & E & _). discriminate.
        -- intros _ _. destruct seen; [|destruct (If eq_refl) as (_ & E & _); discriminate]. destruct (Ip eq_refl eq_refl) as [E _].
           injection E as ->. exists [], []. split; [reflexivity|]. intros c Hc. apply elem_of_nil in Hc. destruct Hc.
        -- rewrite filter_len. cbn in *. destruct wt; lia.
    + constructor; cbn; auto; try discriminate.
      * intros ->. destruct (If eq_refl) as (_ & E & _). discriminate.
      * intros _. destruct seen; [|destruct (If eq_refl) as (_ & E & _); discriminate]. destruct fc; [reflexivity|].
        destruct (Ip eq_refl eq_refl) as [E _]. discriminate.
      * intros -> ->. destruct (Ip eq_refl eq_refl) as [E _]. discriminate.
Qed.
Lemma Inv_fold : forall evs seen s, Inv seen s -> Inv (seen || existsb ends evs) (fold_left step evs s).
Proof.
  induction evs as [|e evs IH]; intros seen s I; cbn [fold_left existsb]; [rewrite orb_false_r; exact I|].
  rewrite orb_assoc. apply IH. apply Inv_step. exact I.
Qed.
Lemma Inv_start : Inv false start.
Proof. constructor; cbn; auto; try discriminate. Qed.
Lemma Inv_run : forall evs, Inv (existsb ends evs) (run evs).
Proof. intros evs. exact (Inv_fold evs false start Inv_start). Qed.

(** How many turns it takes to stop *)
Definition todo (s : nanny) : nat :=
  if stopped s then 0 else if finish_called s then match callbacks s with CFinish :: _ => 2 | _ => 1 end else 2.
Lemma todo_step : forall s e, Inv true s -> todo (step s e) <= todo s - (match e with Turn => 1 | _ => 0 end).
Proof.
  intros s e I. destruct (stopped s) eqn:S.
  { rewrite step_stopped by exact S. unfold todo. rewrite S. lia. }
  destruct (is_message e) eqn:M.
  { rewrite (step_message _ _ S M). destruct s; unfold emit, todo; cbn. destruct e; try discriminate; rewrite Nat.sub_0_r; reflexivity. }
  destruct I as [It If Is Ic Ip Iq Ih]. unfold step. rewrite S. destruct s as [fc pw wt cbs st o]. cbn in *. subst st.
  destruct e; try discriminate.
  - unfold pipe_handler. cbn. destruct pw; [|cbn; lia]. unfold finish. cbn. destruct fc; cbn.
    + rewrite Nat.sub_0_r. reflexivity.
    + destruct (Ip eq_refl eq_refl) as [-> _]. unfold todo. cbn. lia.
  - unfold parent_exited. cbn. destruct wt; [|cbn; lia]. unfold todo. cbn. destruct fc; [|lia].
    destruct (Ic eq_refl eq_refl) as (a & b & -> & _). destruct a as [|c a]; cbn; [lia|destruct c; lia].
  - unfold turn. cbn. destruct fc.
    + destruct (Ic eq_refl eq_refl) as (a & b & -> & A). destruct a as [|c a]; cbn.
      * unfold todo. cbn. lia.
      * assert (c = CFinish) as -> by (apply A, elem_of_list_here). unfold finish, todo. cbn.
        rewrite <- app_comm_cons in Ih. cbn [List.filter length] in Ih. rewrite filter_len in Ih. cbn [List.filter length] in Ih.
        destruct a as [|c' a]; cbn; [lia|]. assert (c' = CFinish) as -> by (apply A, elem_of_list_further, elem_of_list_here).
        cbn [List.filter length] in Ih. destruct wt; lia.
    + destruct (Ip eq_refl eq_refl) as [-> _]. unfold finish, todo. cbn. lia.
Qed.
Lemma todo_fold : forall evs s, Inv true s -> todo (fold_left step evs s) <= todo s - turns evs.
Proof.
  induction evs as [|e evs IH]; intros s I; [unfold turns; cbn; lia|]. cbn [fold_left].
  etransitivity; [apply IH; exact (Inv_step true s e I)|]. pose proof (todo_step s e I).
  destruct e; unfold turns in *; cbn [List.filter length] in *; lia.
Qed.
Lemma todo_0 : forall s, Inv true s -> todo s = 0 -> stopped s = true.
Proof.
  intros s I H. unfold todo in H. destruct (stopped s); [reflexivity|]. destruct (finish_called s); [|discriminate].
  destruct (callbacks s) as [|[|] r]; discriminate.
Qed.
Lemma todo_2 : forall s, todo s <= 2.
Proof. intros s. unfold todo. repeat case_match; lia. Qed.
End nanny.
