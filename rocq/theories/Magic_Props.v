(** The magics: %px and its relatives (C73), and %autopx (C74). *)
From stdpp Require Import base list gmap.
From Verif Require Import Magic_Model Magic_Spec Magic_Proofs Magic_Auto.
From Coq Require Import Lia.

(** The magics as they are when a view has been activated: any settings, no result yet, no %autopx *)
Definition new (first : nat -> magics) : Prop := forall k, m_last (first k) = None /\ m_auto (first k) = false.

(** * C73 *)
(** In any session - any cells, any views, any failures, refusals and interrupts -: every event has its reason in what happened before: results are new; what is stored, waited for, shown or
    returned has been submitted with that view; %pxresult takes the last submission of its view, and is an error only if there was none; a signal goes to the engines of the submission that
    was interrupted ([Magic_Spec.justified]). *)
Theorem C73_log : forall first n l l1 e l2,
  new first -> log (session first n l) = l1 ++ e :: l2 -> justified l1 e.
Proof. intros first n l l1 e l2 H. exact (i_log _ _ (inv_session first n H l) l1 e l2). Qed.
Print Assumptions C73_log.
Theorem C73_submissions : forall first n l, new first -> NoDup (submissions (log (session first n l))).
Proof.
  intros first n l H. pose proof (i_log _ _ (inv_session first n H l)) as J. revert J. generalize (log (session first n l)). clear. intros t. induction t as [|e t IH] using rev_ind; intros J; [constructor|].
  rewrite submissions_app. assert (N : NoDup (submissions t)). { apply IH. intros l1 x l2 ->. apply (J l1 x (l2 ++ [e])). rewrite <- app_assoc. reflexivity. }
  pose proof (J t e [] eq_refl) as X. destruct e; cbn [submissions omap list_omap]; rewrite ?app_nil_r; try exact N. apply NoDup_app. split; [exact N|]. split; [|apply NoDup_singleton].
  intros x A B. apply elem_of_list_singleton in B as ->. exact (X A).
Qed.
Print Assumptions C73_submissions.

(** The targets and other settings of a view are those given last with %pxconfig: %%px --targets does not last, however it ends. *)
Theorem C73_settings : forall first n l k,
  new first ->
  let s := session first n l in
  m_targets (the first s k) = setting (fun _ t => t) k (m_targets (first k)) (log s) /\
  m_block (the first s k) = setting (fun o _ => o_block o) k (m_block (first k)) (log s) /\
  m_stream (the first s k) = setting (fun o _ => o_stream o) k (m_stream (first k)) (log s) /\
  m_signal (the first s k) = setting (fun o _ => match o_signal o with Some g => Some (Some g) | None => None end) k (m_signal (first k)) (log s).
Proof. intros first n l k H s. destruct (inv_session first n H l) as [_ _ _ A B C D _]. exact (conj (A k) (conj (B k) (conj (C k) (D k)))). Qed.
Print Assumptions C73_settings.
(** What %pxconfig sets: all that is given, or nothing, when the targets cannot be evaluated. *)
Theorem C73_config : forall first n s k o s' raised,
  perform first n (PxConfig k o) s = (s', raised) ->
  (forall k', k' <> k -> the first s' k' = the first s k') /\
  match o_targets o with
  | Some a => match eval_target (engines s) a with
              | Some t => raised = false /\ log s' = log s ++ [Config k o (Some t)] /\ m_targets (the first s' k) = t
              | None => raised = true /\ s' = s
              end
  | None => raised = false /\ log s' = log s ++ [Config k o None] /\ m_targets (the first s' k) = m_targets (the first s k)
  end /\
  (raised = false -> m_block (the first s' k) = default (m_block (the first s k)) (o_block o) /\ m_stream (the first s' k) = default (m_stream (the first s k)) (o_stream o) /\
                     m_signal (the first s' k) = match o_signal o with Some g => Some g | None => m_signal (the first s k) end /\ m_last (the first s' k) = m_last (the first s k)).
Proof.
  intros first n s k o s' raised. cbn [perform]. unfold pxconfig.
  assert (Hp : forall m e k', k' <> k -> the first (say e (put k m s)) k' = the first s k').
  { intros m e k' Hk. change (the first (say e (put k m s)) k') with (the first (put k m s) k'). rewrite the_put, decide_False by congruence. reflexivity. }
  assert (He : forall m e, the first (say e (put k m s)) k = m) by (intros m e; exact (the_put_eq first s k m)).
  destruct (o_targets o) as [a|]; [destruct (eval_target (engines s) a) as [t|]|]; intros [= <- <-]; rewrite ?He; repeat split; auto; try discriminate.
Qed.
Print Assumptions C73_config.
(** "a:b" are positions in the list of engines there are. *)
Theorem C73_slice : forall all a b i, match eval_target all (TSlice a b) with
  | Some (Ids l) => l !! i = if decide (a + i < b) then all !! (a + i) else None
  | _ => False end.
Proof.
  intros all a b i. cbn [eval_target]. destruct (decide (a + i < b)) as [H|H].
  - rewrite lookup_take by lia. apply lookup_drop.
  - apply lookup_take_ge. lia.
Qed.
Print Assumptions C73_slice.

(** %px and %%px send their code once, to the engines given or configured. Nothing is sent if the targets cannot be evaluated or the view refuses; and the settings are as before. *)
Theorem C73_not_sent : forall first n s k o c f w,
  given o s = None \/ f = Refused ->
  let (s', raised) := perform first n (CellPx k o c f w) s in
  raised = true /\ log s' = log s /\ shell s' = shell s /\ next s' = next s /\ forall k', the first s' k' = the first s k'.
Proof.
  intros first n s k o c f w H. rewrite perform_cell. destruct (given o s) as [g|]; [|repeat split]. destruct H as [H| ->]; [discriminate|]. destruct g as [t|]; [|repeat split]. repeat split.
  intros k'. rewrite the_put. destruct (decide (k = k')) as [<-|_]; reflexivity.
Qed.
Print Assumptions C73_not_sent.
(** Without --local: the code is sent; the result is stored if asked for; if it blocks, the result is waited for and shown (unless it was streamed) also when it failed - and an interrupt sends
    the signal, given or configured, to the same engines -; if not, the AsyncResult is returned at once. The settings of all views are as before; the result is the view's last. *)
Theorem C73_cell : forall first n s k o c w' w g,
  o_local o = false -> given o s = Some g ->
  let (s', raised) := perform first n (CellPx k o c (Submitted w') w) s in
  let m := the first s k in
  let ts := default (m_targets m) g in
  let show := if default (m_stream m) (o_stream o) then [] else [Shown k (next s)] in
  log s' = log s ++ [Submit k (next s) (Whole c) ts] ++ match o_save o with Some v => [Stored k v (next s)] | None => [] end ++
    (if default (m_block m) (o_block o)
     then match w' with Interrupted => match (match o_signal o with Some g => Some g | None => m_signal m end) with Some g => [Signal k g ts] | None => [] end | _ => [Waited k (next s)] end ++ show
     else [Returned k (next s)]) /\
  raised = (default (m_block m) (o_block o) && match w' with Finished => false | Failed => true | Interrupted => match (match o_signal o with Some g => Some g | None => m_signal m end) with Some _ => false | None => true end end) /\
  the first s' k = with_last (next s) m /\ (forall k', k' <> k -> the first s' k' = the first s k') /\ shell s' = shell s.
Proof.
  intros first n s k o c w' w g Hl Hg. rewrite perform_cell, Hg. cbv zeta. rewrite Hl. set (m := the first s k). set (ts := default (m_targets m) g). set (sg := match o_signal o with Some x => Some x | None => m_signal m end).
  assert (Hthe : forall l e, the first (extend l (submit first k (Whole c) ts s)) k = with_last (next s) m /\ (forall k', k' <> k -> the first (extend l (submit first k (Whole c) ts s)) k' = the first s k') /\
                 the first (say e (extend l (submit first k (Whole c) ts s))) k = with_last (next s) m /\ (forall k', k' <> k -> the first (say e (extend l (submit first k (Whole c) ts s))) k' = the first s k')).
  { intros l e. change (the first (say e (extend l ?x))) with (the first x). change (the first (extend l ?x)) with (the first x).
    assert (A : the first (submit first k (Whole c) ts s) k = with_last (next s) m) by (rewrite the_submit, decide_True by reflexivity; reflexivity).
    assert (B : forall k', k' <> k -> the first (submit first k (Whole c) ts s) k' = the first s k') by (intros k' Hk; rewrite the_submit, decide_False by congruence; reflexivity). auto. }
  destruct (default (m_block m) (o_block o)) eqn:Eb.
  - unfold raises. rewrite andb_true_l. set (r := match w' with Finished => false | Failed => true | Interrupted => match sg with Some _ => false | None => true end end).
    assert (El : forall x, log (extend (stored k (next s) (o_save o) ++ waiting k (next s) true (default (m_stream m) (o_stream o)) sg ts w') (submit first k (Whole c) ts s)) = x -> x = log s ++ [Submit k (next s) (Whole c) ts] ++ stored k (next s) (o_save o) ++ waiting k (next s) true (default (m_stream m) (o_stream o)) sg ts w').
    { intros x <-. cbn [log extend submit say]. rewrite <- app_assoc. reflexivity. }
    destruct r; (split; [rewrite (El _ eq_refl); reflexivity|]; split; [reflexivity|]; split; [apply Hthe, Error|]; split; [apply Hthe, Error|]; reflexivity).
  - unfold raises. rewrite andb_false_l. split; [|split; [reflexivity|]; split; [apply Hthe|]; split; [apply Hthe|]; reflexivity].
    cbn [log extend submit say waiting]. rewrite app_nil_r, <- !app_assoc. reflexivity.
Qed.
Print Assumptions C73_cell.
(** %px is %%px without options. *)
Theorem C73_line : forall first n s k l f,
  let (s', raised) := perform first n (Px k l f) s in
  let m := the first s k in
  match f with
  | Refused => raised = true /\ s' = s
  | Submitted w =>
      log s' = log s ++ [Submit k (next s) (Line l) (m_targets m)] ++
        (if m_block m
         then match w with Interrupted => match m_signal m with Some g => [Signal k g (m_targets m)] | None => [] end | _ => [Waited k (next s)] end ++ (if m_stream m then [] else [Shown k (next s)])
         else [Returned k (next s)]) /\
      raised = (m_block m && match w with Finished => false | Failed => true | Interrupted => match m_signal m with Some _ => false | None => true end end) /\
      the first s' k = with_last (next s) m /\ (forall k', k' <> k -> the first s' k' = the first s k') /\ shell s' = shell s
  end.
Proof.
  intros first n s k l f. cbn [perform]. rewrite execute_is. destruct f as [|w]; [split; reflexivity|]. cbv zeta. cbn [default stored app]. set (m := the first s k).
  assert (A : the first (submit first k (Line l) (m_targets m) s) k = with_last (next s) m) by (rewrite the_submit, decide_True by reflexivity; reflexivity).
  assert (B : forall k', k' <> k -> the first (submit first k (Line l) (m_targets m) s) k' = the first s k') by (intros k' Hk; rewrite the_submit, decide_False by congruence; reflexivity).
  unfold raises, waiting. destruct (m_block m); (split; [cbn [log extend submit say]; rewrite ?app_nil_r, <- ?app_assoc; reflexivity|]); (split; [reflexivity|]; split; [exact A|]; split; [exact B|]; reflexivity).
Qed.
Print Assumptions C73_line.
(** With --local the code is sent first, then the cell is run in the shell, as if it had been entered there; and if it blocks, the result is waited for after that. *)
Theorem C73_local : forall first n s k o c w' w g,
  o_local o = true -> given o s = Some g ->
  let m := the first s k in
  let ts := default (m_targets m) g in
  exists s1, log s1 = log s ++ [Submit k (next s) (Whole c) ts] ++ match o_save o with Some v => [Stored k v (next s)] | None => [] end /\
    the first s1 k = with_last (next s) m /\ (forall k', k' <> k -> the first s1 k' = the first s k') /\ shell s1 = shell s /\
  let (s', raised) := perform first n (CellPx k o c (Submitted w') w) s in
  log s' = log (run_cell first n c s1) ++
    (if default (m_block m) (o_block o) then match w with Finished => [Waited k (next s); Shown k (next s)] | Failed => [Waited k (next s)] | Interrupted => [] end else [Returned k (next s)]) /\
  raised = (default (m_block m) (o_block o) && match w with Finished => false | _ => true end).
Proof.
  intros first n s k o c w' w g Hl Hg. cbv zeta. rewrite perform_cell, Hg. cbv zeta. rewrite Hl. set (m := the first s k). set (ts := default (m_targets m) g). cbn [default].
  exists (extend (stored k (next s) (o_save o)) (submit first k (Whole c) ts s)). split; [cbn [log extend submit say]; rewrite <- app_assoc; reflexivity|].
  split; [exact (eq_trans (the_submit first k (Whole c) ts s k) ltac:(rewrite decide_True by reflexivity; reflexivity))|]. split; [intros k' Hk; etransitivity; [exact (the_submit first k (Whole c) ts s k')|]; rewrite decide_False by congruence; reflexivity|]. split; [reflexivity|].
  unfold raises, waiting. cbn [andb]. rewrite app_nil_r. set (s2 := run_cell first n c _).
  destruct (default (m_block m) (o_block o)); [destruct w|]; (split; [|reflexivity]); cbn [log say]; rewrite <- ?app_assoc, ?app_nil_r; reflexivity.
Qed.
Print Assumptions C73_local.
(** %pxresult *)
Theorem C73_result : forall first n l k save w,
  new first ->
  let s := session first n l in
  let (s', raised) := perform first n (PxResult k save w) s in
  match latest k (log s) with
  | None => raised = true /\ log s' = log s ++ [Usage k]
  | Some id => raised = (match save, w with None, Failed | None, Interrupted => true | _, _ => false end) /\
      log s' = log s ++ Recalled k id :: match save with Some v => [Stored k v id] | None => match w with Finished => [Waited k id; Shown k id] | Failed => [Waited k id] | Interrupted => [] end end
  end /\ forall k', the first s' k' = the first s k'.
Proof.
  intros first n l k save w H s. cbn [perform]. unfold pxresult. pose proof (i_last _ _ (inv_session first n H l) k) as Hl. change (session first n l) with s in Hl. rewrite Hl. destruct (latest k (log s)) as [id|]; [|repeat split].
  destruct save as [v|]; [|destruct w]; (split; [split; [reflexivity|cbn [log say]; rewrite <- ?app_assoc; reflexivity]|intros k'; reflexivity]).
Qed.
Print Assumptions C73_result.

(** * C74 *)
(** The text of a cell begins with %autopx (not with %autopx_suffix, k > 0) *)
Definition begins_with_autopx (c : cell) : Prop := exists nm v rest f, c = Cell nm true v (Cons (AutoPx 0) rest) f.
Lemma begins_says c : begins_with_autopx c -> says_autopx c = true.
Proof. intros (nm & v & rest & f & ->). reflexivity. Qed.
Lemma begins_not c : ~ begins_with_autopx c -> says_autopx c = false.
Proof.
  intros H. destruct (says_autopx c) eqn:E; [destruct H|reflexivity]. destruct c as [nm lead v body f]. cbn [says_autopx] in E. destruct body as [|x rest]; [discriminate|]. destruct x; try discriminate.
  apply andb_true_iff in E as [-> E]. apply Nat.eqb_eq in E as ->. exists nm, v, rest, f. reflexivity.
Qed.
(** Only the magics of view k are used to switch %autopx, or a cell that begins with %autopx while it is on. *)
Definition proper (first : nat -> magics) (n k : nat) (l : list act) : Prop :=
  forall i c, l !! i = Some (Run c) -> only_cell k c \/ (m_auto (the first (session first n (take i l)) k) = true /\ begins_with_autopx c).
Lemma proper_truthful first n k l : new first -> proper first n k l -> truthful first k (session first n l).
Proof.
  intros Hf. induction l as [|a l IH] using rev_ind; intros P; [|].
  { assert (E : m_auto (the first (session first n []) k) = false) by (unfold the, session; cbn [fold_left sets]; rewrite lookup_empty; apply Hf). unfold truthful. rewrite E. reflexivity. }
  assert (P' : proper first n k l).
  { intros i c X. destruct (P i c) as [Y|Y]; [apply lookup_app_l_Some, X|left; exact Y|right]. rewrite take_app_le in Y by (apply lookup_lt_Some in X; lia). exact Y. }
  specialize (IH P'). unfold session. rewrite fold_left_app. cbn [fold_left]. fold (session first n l). destruct a as [e|c]; cbn [step]; [exact IH|].
  destruct (P (length l) c) as [Y|[Y1 Y2]]; [apply list_lookup_middle; reflexivity|apply (proj1 (proj2 (truthful_all first n k))); assumption|].
  rewrite take_app in Y1. rewrite (run_on first n k c _ IH Y1). destruct c as [nm lead [|] body f]; [apply truthful_hook, IH|exact IH].
Qed.
(** The mode is what was said last ("%autopx enabled", "%autopx disabled"); always. *)
Theorem C74_said : forall first n l k, new first -> m_auto (the first (session first n l) k) = said k false (log (session first n l)).
Proof. intros first n l k H. exact (i_auto _ _ (inv_session first n H l) k). Qed.
Print Assumptions C74_said.
(** On: a cell goes as a whole to the engines of the view, once, and no part of it runs in the shell; an exception is shown; and the mode stays on. *)
Theorem C74_on : forall first n k l nm lead body f,
  new first -> proper first n k l ->
  let s := session first n l in
  let c := Cell nm lead true body f in
  m_auto (the first s k) = true -> ~ begins_with_autopx c ->
  let s' := run_cell first n c s in
  let m := the first s k in
  log s' = log s ++ match f with
    | Refused => [Error]
    | Submitted w => [Submit k (next s) (Whole c) (m_targets m)] ++
        (if m_block m
         then match w with
              | Finished => [Waited k (next s)] ++ (if m_stream m then [] else [Shown k (next s)])
              | Failed => [Waited k (next s)] ++ (if m_stream m then [] else [Shown k (next s)]) ++ [Error]
              | Interrupted => match m_signal m with Some g => [Signal k g (m_targets m)] ++ (if m_stream m then [] else [Shown k (next s)])
                                                   | None => (if m_stream m then [] else [Shown k (next s)]) ++ [Error] end
              end
         else [])
    end /\ m_auto (the first s' k) = true /\ shell s' = shell s.
Proof.
  intros first n k l nm lead body f Hf P s c E Hb. assert (Hs := begins_not c Hb). cbv zeta. pose proof (proper_truthful first n k l Hf P) as T. fold s in T. rewrite (run_on first n k c s T E). unfold c at 1 4 7. cbv iota.
  unfold pxrun_nodes. fold c. change (match c with Cell _ _ _ _ f0 => ?x end) with (match c with Cell _ _ _ _ _ => x end). unfold c at 1 3 5. cbv iota. fold c. rewrite Hs, execute_is.
  destruct f as [|w]; [cbn [log say shell]; auto|]. cbv zeta. cbn [default stored app]. set (m := the first s k) in *.
  assert (A : the first (submit first k (Whole c) (m_targets m) s) k = with_last (next s) m) by (rewrite the_submit, decide_True by reflexivity; reflexivity).
  assert (B : m_auto (the first (submit first k (Whole c) (m_targets m) s) k) = true) by (rewrite A; exact E).
  unfold raises, waiting. destruct (m_block m); [destruct w, (m_signal m)|]; cbn [andb]; (split; [|split; [exact B|reflexivity]]); cbn [log say extend submit]; rewrite <- ?app_assoc, ?app_nil_r; reflexivity.
Qed.
Print Assumptions C74_on.
(** A cell that begins with %autopx switches it off, and nothing else happens. *)
Theorem C74_switch_off : forall first n k l nm lead body f,
  new first -> proper first n k l ->
  let s := session first n l in
  let c := Cell nm lead true body f in
  m_auto (the first s k) = true -> begins_with_autopx c ->
  let s' := run_cell first n c s in
  log s' = log s ++ [Mode k false] /\ m_auto (the first s' k) = false /\ shell s' = Native.
Proof.
  intros first n k l nm lead body f Hf P s c E Hb. assert (Hs := begins_says c Hb). cbv zeta. pose proof (proper_truthful first n k l Hf P) as T. fold s in T. rewrite (run_on first n k c s T E).
  assert (X : pxrun_nodes first k c s = disable first k s) by (unfold c, pxrun_nodes; fold c; rewrite Hs; reflexivity). change (match c with Cell _ _ v _ _ => if v then pxrun_nodes first k c s else say Error s end) with (pxrun_nodes first k c s).
  rewrite X. destruct (truthful_disable first k s T) as [T' E']. unfold truthful in T'. rewrite E' in T'. split; [|split; assumption]. unfold disable. rewrite E. reflexivity.
Qed.
Print Assumptions C74_switch_off.
(** Off: code runs in the shell and is not sent anywhere. *)
Theorem C74_off : forall first n k l nm lead body f t,
  new first -> proper first n k l ->
  let s := session first n l in
  m_auto (the first s k) = false -> just_code body = Some t ->
  log (run_cell first n (Cell nm lead true body f) s) = log s ++ map Local t.
Proof.
  intros first n k l nm lead body f t Hf P s E Hj. pose proof (proper_truthful first n k l Hf P) as T. fold s in T. rewrite (run_off first n k _ s T E). rewrite (run_code first n body t s Hj). reflexivity.
Qed.
Print Assumptions C74_off.
(** %autopx switches it on. *)
Theorem C74_switch_on : forall first n k l nm lead f,
  new first -> proper first n k l ->
  let s := session first n l in
  m_auto (the first s k) = false ->
  let s' := run_cell first n (Cell nm lead true (Cons (AutoPx k) Nil) f) s in
  log s' = log s ++ [Mode k true] /\ m_auto (the first s' k) = true.
Proof.
  intros first n k l nm lead f Hf P s E. cbv zeta. pose proof (proper_truthful first n k l Hf P) as T. fold s in T. rewrite (run_off first n k _ s T E).
  change (perform_all first n (Cons (AutoPx k) Nil) s) with (autopx first k s). unfold autopx. rewrite E. split; [reflexivity|]. exact (f_equal m_auto (the_put_eq first s k _)).
Qed.
Print Assumptions C74_switch_on.
(** A cell that cannot be compiled changes nothing. *)
Theorem C74_invalid : forall first n s nm lead body f, run_cell first n (Cell nm lead false body f) s = say Error s.
Proof. intros first n s nm lead body f. cbn [run_cell]. destruct (arrives _ _ _ _); reflexivity. Qed.
Print Assumptions C74_invalid.

(** * Concrete sessions *)
Definition first0 (k : nat) : magics := Magics All true false (Some 2) None false Native.
Lemma first0_new : new first0.
Proof. intros k. split; reflexivity. Qed.
Definition no : opts := Opts None None None None None false.
Fixpoint commands (l : list cmd) : cmds := match l with [] => Nil | x :: l => Cons x (commands l) end.
Definition cell_of (nm : nat) (l : list cmd) : cell := Cell nm true true (commands l) (Submitted Finished).
Definition px1 := CellPx 0 (Opts (Some (TSlice 1 3)) None None None (Some 9) false) (cell_of 5 [Code 50 true]) (Submitted Interrupted) Finished.
(** engines 10..13; the second cell is sent to engines 11 and 12 and interrupted; the view still has all targets; the third configures it; the fourth is sent to one engine and the result recalled later *)
Definition acts1 : list act :=
  [Run (cell_of 0 [PxResult 0 None Finished]); Engines [10; 11; 12; 13]; Run (cell_of 1 [px1; Code 7 true]); Run (cell_of 2 [PxConfig 0 (Opts (Some (TExpr (Some (One 13)))) (Some false) None None None false)]);
   Run (cell_of 3 [Px 0 3 (Submitted Failed); PxResult 0 None Failed; Code 8 true]); Run (cell_of 4 [Px 0 4 Refused]);
   Run (cell_of 5 [CellPx 0 (Opts None (Some true) None None None true) (cell_of 6 [Code 60 true; Px 1 61 (Submitted Finished)]) (Submitted Finished) Finished; PxResult 0 (Some 1) Finished])].
Example C73_example : log (session first0 2 acts1) =
  [Usage 0; Error;
   Submit 0 0 (Whole (cell_of 5 [Code 50 true])) (Ids [11; 12]); Stored 0 9 0; Signal 0 2 (Ids [11; 12]); Shown 0 0; Local 7;
   Config 0 (Opts (Some (TExpr (Some (One 13)))) (Some false) None None None false) (Some (One 13));
   Submit 0 1 (Line 3) (One 13); Returned 0 1; Recalled 0 1; Waited 0 1; Error; Error;
   Submit 0 2 (Whole (cell_of 6 [Code 60 true; Px 1 61 (Submitted Finished)])) (One 13); Local 60; Submit 1 3 (Line 61) All; Waited 1 3; Shown 1 3; Waited 0 2; Shown 0 2; Recalled 0 2; Stored 0 1 2].
Proof. vm_compute. reflexivity. Qed.
Example C73_given : given (Opts (Some (TSlice 1 3)) None None None (Some 9) false) (session first0 2 (take 2 acts1)) = Some (Some (Ids [11; 12])).
Proof. reflexivity. Qed.
Example C73_latest : latest 0 (log (session first0 2 acts1)) = Some 2.
Proof. vm_compute. reflexivity. Qed.

(** %autopx on, a cell for the engines, one that cannot be compiled, one that is refused, and off *)
Definition acts2 : list act :=
  [Run (cell_of 0 [Code 1 true; AutoPx 0; Code 2 true]); Run (cell_of 1 [Code 3 true; Code 4 true]); Run (Cell 2 true false Nil Refused); Run (Cell 3 true true (commands [Code 5 true]) Refused)].
Lemma only_proper first n k l : (forall c, Run c ∈ l -> only_cell k c) -> proper first n k l.
Proof. intros H i c X. left. apply H. eapply elem_of_list_lookup_2, X. Qed.
Example C74_example : proper first0 1 0 acts2 /\ m_auto (the first0 (session first0 1 acts2) 0) = true /\
  log (session first0 1 (acts2 ++ [Run (cell_of 4 [AutoPx 0; Code 6 true]); Run (cell_of 5 [Code 7 true])])) =
  [Local 1; Mode 0 true; Local 2; Submit 0 0 (Whole (cell_of 1 [Code 3 true; Code 4 true])) All; Waited 0 0; Shown 0 0; Error; Error; Mode 0 false; Local 7].
Proof.
  split; [|vm_compute; auto]. apply only_proper. intros c X. unfold acts2 in X. rewrite !elem_of_cons in X.
  destruct X as [X|[X|[X|[X|X]]]]; [injection X as ->; cbn; tauto..|inversion X].
Qed.

(** The %autopx of a view with a suffix cannot be switched off by its own magic: the cell is sent to the engines like any other (magics.py 564). *)
Theorem C74_suffix_refuted : exists l, proper first0 2 1 l /\ m_auto (the first0 (session first0 2 l) 1) = true /\
  let c := cell_of 1 [AutoPx 1] in
  log (session first0 2 (l ++ [Run c])) = log (session first0 2 l) ++ [Submit 1 0 (Whole c) All; Waited 1 0; Shown 1 0] /\ m_auto (the first0 (session first0 2 (l ++ [Run c])) 1) = true.
Proof.
  exists [Run (cell_of 0 [AutoPx 1])]. split; [apply only_proper; intros c X; apply elem_of_list_singleton in X; injection X as ->; cbn; tauto|]. vm_compute. auto.
Qed.
Print Assumptions C74_suffix_refuted.
(** With the magics of two views the mode can get stuck: both are said to be off, but every cell of the rest of the session goes to the engines, and nothing runs in the shell any more. *)
Theorem C74_two_views_refuted : exists l, (forall k, said k false (log (session first0 2 l)) = false) /\
  forall l' x, Local x ∉ log (session first0 2 (l ++ l')).
Proof.
  exists [Run (cell_of 0 [AutoPx 0; AutoPx 1; AutoPx 0; AutoPx 1])]. split.
  - intros k. destruct k as [|[|k]]; reflexivity.
  - set (l := [Run _]). assert (G : forall l', stuck first0 0 (session first0 2 (l ++ l')) /\ forall x, Local x ∉ log (session first0 2 (l ++ l'))).
    { induction l' as [|a l' IH] using rev_ind.
      - split; [split; reflexivity|]. intros x X. vm_compute in X. repeat (apply elem_of_cons in X as [X|X]; [discriminate|]). inversion X.
      - rewrite app_assoc. unfold session. rewrite fold_left_app. cbn [fold_left]. fold (session first0 2 (l ++ l')). destruct IH as [A B]. destruct a as [e|c]; cbn [step]; [split; [exact A|exact B]|].
        destruct (stuck_cell first0 2 0 c _ A) as [C D]. split; [exact C|]. intros x X. exact (B x (D x X)). }
    intros l' x. apply G.
Qed.
Print Assumptions C74_two_views_refuted.
(** Ctrl-C while %%px --local waits sends no signal: the engines go on (magics.py 495-498). *)
Theorem C73_local_interrupt_refuted : exists s o c, m_signal (the first0 s 0) = Some 2 /\ default (m_block (the first0 s 0)) (o_block o) = true /\
  forall k g ts, Signal k g ts ∉ log (perform first0 1 (CellPx 0 o c (Submitted Finished) Interrupted) s).1.
Proof.
  exists (session first0 1 []), (Opts None None None None None true), (cell_of 0 [Code 1 true]). split; [reflexivity|]. split; [reflexivity|].
  intros k g ts X. vm_compute in X. repeat (apply elem_of_cons in X as [X|X]; [discriminate|]). inversion X.
Qed.
Print Assumptions C73_local_interrupt_refuted.
