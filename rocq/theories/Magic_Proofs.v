(** The log justifies itself, and the settings are those configured. *)
From stdpp Require Import base list gmap.
From Verif Require Import Magic_Model Magic_Spec.
From Coq Require Import Lia.

Scheme cmd_mut := Induction for cmd Sort Prop with cell_mut := Induction for cell Sort Prop with cmds_mut := Induction for cmds Sort Prop.
Combined Scheme all_mut from cmd_mut, cell_mut, cmds_mut.

Lemma latest_app k l1 l2 : latest k (l1 ++ l2) = match latest k l2 with Some id => Some id | None => latest k l1 end.
Proof. induction l1 as [|e l1 IH]; cbn [app latest]; [destruct (latest k l2); reflexivity|]. rewrite IH. destruct (latest k l2); reflexivity. Qed.
Lemma submissions_app l1 l2 : submissions (l1 ++ l2) = submissions l1 ++ submissions l2.
Proof. apply omap_app. Qed.
Lemma setting_app {A} (given : opts -> option target -> option A) k l1 : forall d l2, setting given k d (l1 ++ l2) = setting given k (setting given k d l1) l2.
Proof. induction l1 as [|e l1 IH]; intros d l2; [reflexivity|]. destruct e; cbn [app setting]; apply IH. Qed.

Lemma said_app k l1 : forall d l2, said k d (l1 ++ l2) = said k (said k d l1) l2.
Proof. induction l1 as [|e l1 IH]; intros d l2; [reflexivity|]. destruct e; cbn [app said]; apply IH. Qed.

Section Proofs.
Context (first : nat -> magics) (n : nat) (Hfirst : forall k, m_last (first k) = None /\ m_auto (first k) = false).
Notation the := (the first).

Lemma the_put s k m k' : the (put k m s) k' = if decide (k = k') then m else the s k'.
Proof. unfold the, put. cbn [sets]. destruct (decide (k = k')) as [->|H]; [rewrite lookup_insert; reflexivity|rewrite lookup_insert_ne by exact H; reflexivity]. Qed.
Lemma the_put_eq s k m : the (put k m s) k = m.
Proof. rewrite the_put, decide_True by reflexivity. reflexivity. Qed.

Definition configured_targets k l := setting (fun _ t => t) k (m_targets (first k)) l.
Definition configured_block k l := setting (fun o _ => o_block o) k (m_block (first k)) l.
Definition configured_stream k l := setting (fun o _ => o_stream o) k (m_stream (first k)) l.
Definition configured_signal k l := setting (fun o _ => match o_signal o with Some g => Some (Some g) | None => None end) k (m_signal (first k)) l.
Record inv (s : st) : Prop := Inv {
  i_next : forall id, id ∈ submissions (log s) -> id < next s;
  i_last : forall k, m_last (the s k) = latest k (log s);
  i_log : forall l1 e l2, log s = l1 ++ e :: l2 -> justified l1 e;
  i_targets : forall k, m_targets (the s k) = configured_targets k (log s);
  i_block : forall k, m_block (the s k) = configured_block k (log s);
  i_stream : forall k, m_stream (the s k) = configured_stream k (log s);
  i_signal : forall k, m_signal (the s k) = configured_signal k (log s);
  i_auto : forall k, m_auto (the s k) = said k false (log s) }.

Definition quiet_event (e : event) : Prop := match e with Submit _ _ _ _ | Config _ _ _ | Mode _ _ => False | _ => True end.
Lemma log_snoc (l : list event) e : (forall l1 x l2, l = l1 ++ x :: l2 -> justified l1 x) -> justified l e -> forall l1 x l2, l ++ [e] = l1 ++ x :: l2 -> justified l1 x.
Proof.
  intros H J l1 x l2 E. destruct l2 as [|y l2] using rev_ind.
  - apply app_inj_tail in E as [-> ->]. exact J.
  - clear IHl2. replace (l1 ++ x :: l2 ++ [y]) with ((l1 ++ x :: l2) ++ [y]) in E by (rewrite <- app_assoc; reflexivity). apply app_inj_tail in E as [E _]. exact (H _ _ _ E).
Qed.
Lemma quiet_latest e k : quiet_event e -> latest k [e] = None.
Proof. destruct e; cbn; auto; intros []. Qed.
Lemma quiet_subs e : quiet_event e -> submissions [e] = [].
Proof. destruct e; cbn; auto; intros []. Qed.
Lemma quiet_setting {A} (given : opts -> option target -> option A) k d e : quiet_event e -> setting given k d [e] = d.
Proof. destruct e; cbn; auto; intros []. Qed.
Lemma quiet_said k d e : quiet_event e -> said k d [e] = d.
Proof. destruct e; cbn; auto; intros []. Qed.
Lemma inv_say s e : inv s -> quiet_event e -> justified (log s) e -> inv (say e s).
Proof.
  intros [A B C D E F G H] Q J. split; cbn [log say next sets].
  - intros id. rewrite submissions_app, (quiet_subs _ Q), app_nil_r. apply A.
  - intros k. change (the (say e s) k) with (the s k). rewrite latest_app, (quiet_latest _ _ Q). apply B.
  - apply log_snoc; assumption.
  - intros k. change (the (say e s) k) with (the s k). unfold configured_targets. rewrite setting_app, quiet_setting by exact Q. apply D.
  - intros k. change (the (say e s) k) with (the s k). unfold configured_block. rewrite setting_app, quiet_setting by exact Q. apply E.
  - intros k. change (the (say e s) k) with (the s k). unfold configured_stream. rewrite setting_app, quiet_setting by exact Q. apply F.
  - intros k. change (the (say e s) k) with (the s k). unfold configured_signal. rewrite setting_app, quiet_setting by exact Q. apply G.
  - intros k. change (the (say e s) k) with (the s k). rewrite said_app, quiet_said by exact Q. apply H.
Qed.
Lemma inv_hang s h : inv s -> inv (hang h s).
Proof. intros [A B C D E F G H]. split; assumption. Qed.
(** what belongs to %autopx does not matter *)
Definition settings (m : magics) := (m_targets m, m_block m, m_stream m, m_signal m, m_last m, m_auto m).
Lemma inv_put s k m : inv s -> settings m = settings (the s k) -> inv (put k m s).
Proof.
  intros [A B C D E F G H] X. unfold settings in X. injection X as H1 H2 H3 H4 H5 H6.
  split; try assumption; intros k'; rewrite the_put; (destruct (decide (k = k')) as [<-|_]; [|auto]); first [rewrite H1; apply D|rewrite H2; apply E|rewrite H3; apply F|rewrite H4; apply G|rewrite H5; apply B|rewrite H6; apply H].
Qed.

Definition submit (k : nat) (c : code) (ts : target) (s : st) : st :=
  say (Submit k (next s) c ts) (St (engines s) (<[k := with_last (next s) (the s k)]> (sets s)) (shell s) (S (next s)) (log s)).
Lemma the_submit k c ts s k' : the (submit k c ts s) k' = if decide (k = k') then with_last (next s) (the s k) else the s k'.
Proof. exact (the_put s k (with_last (next s) (the s k)) k'). Qed.
Lemma inv_submit s k c ts : inv s -> inv (submit k c ts s).
Proof.
  intros [A B C D E F G H].
  assert (Hs : forall A (g : opts -> option target -> option A) k' d, setting g k' d (log s ++ [Submit k (next s) c ts]) = setting g k' d (log s)) by (intros; rewrite setting_app; reflexivity).
  split.
  - cbn [log next submit say]. intros id. rewrite submissions_app. intros X. apply elem_of_app in X as [X|X]; [apply A in X; lia|]. apply elem_of_list_singleton in X. lia.
  - intros k'. rewrite the_submit. cbn [log submit say]. rewrite latest_app. cbn [latest]. destruct (decide (k = k')) as [<-|Hk].
    + rewrite Nat.eqb_refl. reflexivity.
    + rewrite (proj2 (Nat.eqb_neq k k') Hk). apply B.
  - cbn [log submit say]. apply log_snoc; [exact C|]. cbn [justified]. intros X. apply A in X. lia.
  - intros k'. rewrite the_submit. cbn [log submit say]. unfold configured_targets. rewrite Hs. destruct (decide (k = k')) as [<-|Hk]; apply D.
  - intros k'. rewrite the_submit. cbn [log submit say]. unfold configured_block. rewrite Hs. destruct (decide (k = k')) as [<-|Hk]; apply E.
  - intros k'. rewrite the_submit. cbn [log submit say]. unfold configured_stream. rewrite Hs. destruct (decide (k = k')) as [<-|Hk]; apply F.
  - intros k'. rewrite the_submit. cbn [log submit say]. unfold configured_signal. rewrite Hs. destruct (decide (k = k')) as [<-|Hk]; apply G.
  - intros k'. rewrite the_submit. cbn [log submit say]. rewrite said_app. destruct (decide (k = k')) as [<-|Hk]; apply H.
Qed.

(** the events of a submission *)
Definition stored (k id : nat) (save : option nat) : list event := match save with Some v => [Stored k v id] | None => [] end.
Definition waiting (k id : nat) (block stream : bool) (signal : option nat) (ts : target) (w : wait) : list event :=
  if block then match w with Interrupted => match signal with Some g => [Signal k g ts] | None => [] end | _ => [Waited k id] end ++ (if stream then [] else [Shown k id]) else [].
Definition raises (block : bool) (signal : option nat) (w : wait) : bool :=
  block && match w with Finished => false | Failed => true | Interrupted => match signal with Some _ => false | None => true end end.
Definition extend (l : list event) (s : st) : st := St (engines s) (sets s) (shell s) (next s) (log s ++ l).
Lemma extend_say l e s : say e (extend l s) = extend (l ++ [e]) s.
Proof. unfold say, extend. cbn [engines sets shell next log]. rewrite <- app_assoc. reflexivity. Qed.
Lemma extend_nil s : extend [] s = s.
Proof. destruct s as [a b c d e]. unfold extend. cbn [engines sets shell next log]. rewrite app_nil_r. reflexivity. Qed.
Lemma say_extend e s : say e s = extend [e] s.
Proof. reflexivity. Qed.
Lemma execute_is k c block stream signal save f s : parallel_execute first k c block stream signal save f s =
  match f with
  | Refused => (s, true, None)
  | Submitted w =>
      let m := the s k in
      let b := default (m_block m) block in
      let sg := match signal with Some g => Some g | None => m_signal m end in
      (extend (stored k (next s) save ++ waiting k (next s) b (default (m_stream m) stream) sg (m_targets m) w) (submit k c (m_targets m) s),
       raises b sg w, if b then None else Some (next s))
  end.
Proof.
  destruct f as [|w]; [reflexivity|]. unfold parallel_execute. cbv zeta. fold (submit k c (m_targets (the s k)) s).
  assert (E : (match save with Some v => say (Stored k v (next s)) (submit k c (m_targets (the s k)) s) | None => submit k c (m_targets (the s k)) s end) =
              extend (stored k (next s) save) (submit k c (m_targets (the s k)) s)) by (destruct save; [reflexivity|symmetry; apply extend_nil]).
  rewrite E. clear E. unfold waiting, raises. destruct (default (m_block (the s k)) block); [|rewrite app_nil_r; reflexivity].
  destruct (default (m_stream (the s k)) stream), w, (match signal with Some g => Some g | None => m_signal (the s k) end); rewrite ?extend_say, ?app_nil_r, <- ?app_assoc; reflexivity.
Qed.
Lemma inv_extend s l : inv s -> (forall l1 e l2, l = l1 ++ e :: l2 -> quiet_event e /\ justified (log s ++ l1) e) -> inv (extend l s).
Proof.
  intros I. induction l as [|e l IH] using rev_ind; intros H; [rewrite extend_nil; exact I|].
  rewrite <- extend_say. destruct (H l e []) as [Q J]; [reflexivity|]. apply inv_say; [|exact Q|exact J]. apply IH. intros l1 x l2 ->. apply (H l1 x (l2 ++ [e])). rewrite <- app_assoc. reflexivity.
Qed.
Lemma inv_executed s k c ts b sr sg save w : inv s -> inv (extend (stored k (next s) save ++ waiting k (next s) b sr sg ts w) (submit k c ts s)).
Proof.
  intros I. apply inv_extend; [apply inv_submit, I|].
  assert (Hin : forall l1, exists c' ts', Submit k (next s) c' ts' ∈ log (submit k c ts s) ++ l1).
  { intros l1. exists c, ts. apply elem_of_app. left. cbn [log submit say]. apply elem_of_app. right. left. }
  intros l1 e l2 E. assert (X : e ∈ stored k (next s) save ++ waiting k (next s) b sr sg ts w) by (rewrite E; apply elem_of_app; right; left).
  unfold waiting in X. rewrite !elem_of_app in X. destruct X as [X|X].
  - destruct save as [v|]; [|inversion X]. apply elem_of_list_singleton in X as ->. split; [exact Logic.I|]. apply Hin.
  - destruct b; [|inversion X]. apply elem_of_app in X as [X|X].
    + destruct w; [apply elem_of_list_singleton in X as ->; split; [exact Logic.I|apply Hin]..|]. unfold waiting in E. destruct sg as [g|]; [|inversion X].
      apply elem_of_list_singleton in X as ->. split; [exact Logic.I|]. cbn [justified]. exists (log s), (next s), c. cbn [log submit say].
      destruct save as [v|]; cbn [stored app] in E.
      * right. exists v. destruct l1 as [|x [|y l1]]; cbn [app] in E; [discriminate|injection E as <- _; rewrite <- app_assoc; reflexivity|]. exfalso. injection E as _ _ E.
        destruct sr; destruct l1 as [|? []]; discriminate.
      * left. destruct l1 as [|y l1]; cbn [app] in E; [rewrite app_nil_r; reflexivity|]. exfalso. injection E as _ E.
        destruct sr; destruct l1 as [|? []]; discriminate.
    + destruct sr; [inversion X|]. apply elem_of_list_singleton in X as ->. split; [exact Logic.I|apply Hin].
Qed.

Lemma inv_config s k o : inv s -> inv (pxconfig first k o s).1.
Proof.
  intros I. unfold pxconfig. destruct I as [A B C D E F G H].
  set (res := fun t (m' : magics) => say (Config k o t) (put k (Magics (m_targets m') (default (m_block (the s k)) (o_block o)) (default (m_stream (the s k)) (o_stream o))
                (match o_signal o with Some g => Some g | None => m_signal (the s k) end) (m_last (the s k)) (m_auto (the s k)) (m_saved (the s k))) s)).
  assert (K : forall t m', m_targets m' = default (m_targets (the s k)) t -> inv (res t m')).
  { intros t m' Ht. unfold res. split; cbn [log say put next].
    - intros id. rewrite submissions_app, app_nil_r. apply A.
    - intros k'. rewrite latest_app. cbn [latest]. change (the (say ?e ?s) k') with (the s k'). rewrite the_put. destruct (decide (k = k')) as [<-|Hk]; apply B.
    - apply log_snoc; [exact C|exact Logic.I].
    - intros k'. change (the (say ?e ?s) k') with (the s k'). rewrite the_put. unfold configured_targets. rewrite setting_app. cbn [setting]. fold (configured_targets k' (log s)).
      destruct (decide (k = k')) as [<-|Hk]; [rewrite Nat.eqb_refl; cbn [m_targets]; rewrite Ht, D; reflexivity|rewrite (proj2 (Nat.eqb_neq k k') Hk); apply D].
    - intros k'. change (the (say ?e ?s) k') with (the s k'). rewrite the_put. unfold configured_block. rewrite setting_app. cbn [setting]. fold (configured_block k' (log s)).
      destruct (decide (k = k')) as [<-|Hk]; [rewrite Nat.eqb_refl; cbn [m_block]; rewrite E; reflexivity|rewrite (proj2 (Nat.eqb_neq k k') Hk); apply E].
    - intros k'. change (the (say ?e ?s) k') with (the s k'). rewrite the_put. unfold configured_stream. rewrite setting_app. cbn [setting]. fold (configured_stream k' (log s)).
      destruct (decide (k = k')) as [<-|Hk]; [rewrite Nat.eqb_refl; cbn [m_stream]; rewrite F; reflexivity|rewrite (proj2 (Nat.eqb_neq k k') Hk); apply F].
    - intros k'. change (the (say ?e ?s) k') with (the s k'). rewrite the_put. unfold configured_signal. rewrite setting_app. cbn [setting]. fold (configured_signal k' (log s)).
      destruct (decide (k = k')) as [<-|Hk]; [rewrite Nat.eqb_refl; cbn [m_signal]; destruct (o_signal o); [reflexivity|apply G]|rewrite (proj2 (Nat.eqb_neq k k') Hk); apply G].
    - intros k'. change (the (say ?e ?s) k') with (the s k'). rewrite the_put, said_app. destruct (decide (k = k')) as [<-|Hk]; apply H. }
  destruct (o_targets o) as [a|]; [destruct (eval_target (engines s) a) as [t|]|]; cbn [fst].
  - apply (K (Some t) (with_targets t (the s k))). reflexivity.
  - split; assumption.
  - apply (K None (the s k)). reflexivity.
Qed.
Lemma inv_result s k save w : inv s -> inv (pxresult first k save w s).1.
Proof.
  intros I. unfold pxresult. rewrite (i_last _ I k). destruct (latest k (log s)) as [id|] eqn:El; cbn [fst].
  - assert (Hin : exists c ts, Submit k id c ts ∈ log s).
    { clear - El. induction (log s) as [|e l IH]; [discriminate|]. cbn [latest] in El. destruct (latest k l) as [i|].
      - injection El as ->. destruct (IH eq_refl) as (c & ts & X). exists c, ts. right. exact X.
      - destruct e as [|k' id' c ts| | | | | | | | | |]; try discriminate. destruct (k' =? k) eqn:Ek; [|discriminate]. apply Nat.eqb_eq in Ek as ->. injection El as ->. exists c, ts. left. }
    assert (I1 : inv (say (Recalled k id) s)) by (apply inv_say; [exact I|exact Logic.I|exact El]).
    assert (Hin1 : forall l, exists c ts, Submit k id c ts ∈ log s ++ l) by (intros l; destruct Hin as (c & ts & X); exists c, ts; apply elem_of_app; auto).
    destruct save as [v|]; [|destruct w]; cbn [fst]; repeat (apply inv_say; [|exact Logic.I|cbn [justified log say]; rewrite <- ?app_assoc; apply Hin1]); exact I1.
  - apply inv_say; [exact I|exact Logic.I|exact El].
Qed.
Lemma inv_switch s k b h h' m : inv s -> m = Magics (m_targets (the s k)) (m_block (the s k)) (m_stream (the s k)) (m_signal (the s k)) (m_last (the s k)) b h' -> inv (say (Mode k b) (hang h (put k m s))).
Proof.
  intros [A B C D E F G H] ->. set (m := Magics _ _ _ _ _ _ _). set (s' := say _ _).
  assert (Ht : forall k', the s' k' = if decide (k = k') then m else the s k') by (intros k'; exact (the_put s k m k')).
  assert (Hs : forall A (g : opts -> option target -> option A) k' d, setting g k' d (log s ++ [Mode k b]) = setting g k' d (log s)) by (intros; rewrite setting_app; reflexivity).
  split; unfold s'; cbn [log say hang put next]; fold s'.
  - intros id. rewrite submissions_app, app_nil_r. apply A.
  - intros k'. rewrite Ht, latest_app. cbn [latest]. destruct (decide (k = k')) as [<-|Hk]; apply B.
  - apply log_snoc; [exact C|exact Logic.I].
  - intros k'. rewrite Ht. unfold configured_targets. rewrite Hs. destruct (decide (k = k')) as [<-|Hk]; apply D.
  - intros k'. rewrite Ht. unfold configured_block. rewrite Hs. destruct (decide (k = k')) as [<-|Hk]; apply E.
  - intros k'. rewrite Ht. unfold configured_stream. rewrite Hs. destruct (decide (k = k')) as [<-|Hk]; apply F.
  - intros k'. rewrite Ht. unfold configured_signal. rewrite Hs. destruct (decide (k = k')) as [<-|Hk]; apply G.
  - intros k'. rewrite Ht, said_app. cbn [said]. destruct (decide (k = k')) as [<-|Hk]; [rewrite Nat.eqb_refl; reflexivity|rewrite (proj2 (Nat.eqb_neq k k') Hk); apply H].
Qed.
Lemma inv_enable s k : inv s -> inv (enable first k s).
Proof. intros I. unfold enable. eapply inv_switch; [exact I|reflexivity]. Qed.
Lemma inv_disable s k : inv s -> inv (disable first k s).
Proof. intros I. unfold disable. destruct (m_auto _); [|exact I]. eapply inv_switch; [exact I|reflexivity]. Qed.
Lemma inv_error s : inv s -> inv (say Error s).
Proof. intros I. apply inv_say; [exact I|exact Logic.I|exact Logic.I]. Qed.

(** %%px as a whole *)
Definition given (o : opts) (s : st) : option (option target) :=
  match o_targets o with None => Some None | Some a => match eval_target (engines s) a with Some t => Some (Some t) | None => None end end.
Lemma perform_cell k o c f w s : perform first n (CellPx k o c f w) s =
  match given o s with
  | None => (s, true)
  | Some g =>
      match f with
      | Refused => (match g with Some _ => put k (the s k) s | None => s end, true)
      | Submitted w' =>
          let m := the s k in let ts := default (m_targets m) g in let id := next s in
          let b := default (m_block m) (if o_local o then Some false else o_block o) in
          let sg := match o_signal o with Some x => Some x | None => m_signal m end in
          let s1 := extend (stored k id (o_save o) ++ waiting k id b (default (m_stream m) (o_stream o)) sg ts w') (submit k (Whole c) ts s) in
          if raises b sg w' then (s1, true)
          else
            let s2 := if o_local o then run_cell first n c s1 else s1 in
            if b then (s2, false)
            else if default (m_block m) (o_block o) then
              if o_local o then match w with
                                | Finished => (say (Shown k id) (say (Waited k id) s2), false)
                                | Failed => (say (Waited k id) s2, true)
                                | Interrupted => (s2, true)
                                end else (s2, false)
            else (say (Returned k id) s2, false)
      end
  end.
Proof.
  cbn [perform]. fold (given o s). destruct (given o s) as [[t|]|]; [| |reflexivity]; cbv zeta; rewrite execute_is; cbv zeta; (destruct f as [|w']; cbn [default]).
  - rewrite !the_put_eq. f_equal. unfold put. cbn [engines sets shell next log]. rewrite insert_insert. destruct (the s k); reflexivity.
  - rewrite !the_put_eq. cbn [with_targets m_targets m_block m_stream m_signal next put].
    set (b := default (m_block (the s k)) (if o_local o then Some false else o_block o)). set (sg := match o_signal o with Some x => Some x | None => m_signal (the s k) end).
    set (l := stored k (next s) (o_save o) ++ waiting k (next s) b (default (m_stream (the s k)) (o_stream o)) sg t w').
    assert (E : put k (with_targets (m_targets (the s k)) (the (extend l (submit k (Whole c) t (put k (with_targets t (the s k)) s))) k)) (extend l (submit k (Whole c) t (put k (with_targets t (the s k)) s))) =
                extend l (submit k (Whole c) t s)).
    { change (the (extend l ?x) k) with (the x k). rewrite the_submit, decide_True by reflexivity. unfold extend, submit, say. rewrite !the_put_eq. unfold put. cbn [engines sets shell next log].
      rewrite !insert_insert. destruct (the s k); reflexivity. }
    rewrite E. destruct (raises b sg w'); [reflexivity|].
    assert (Eb : m_block (the (extend l (submit k (Whole c) t (put k (with_targets t (the s k)) s))) k) = m_block (the s k)).
    { change (the (extend l ?x) k) with (the x k). rewrite the_submit, decide_True, the_put_eq by reflexivity. reflexivity. }
    rewrite Eb. destruct b; reflexivity.
  - reflexivity.
  - set (b := default (m_block (the s k)) (if o_local o then Some false else o_block o)). set (sg := match o_signal o with Some x => Some x | None => m_signal (the s k) end).
    set (l := stored k (next s) (o_save o) ++ waiting k (next s) b (default (m_stream (the s k)) (o_stream o)) sg (m_targets (the s k)) w').
    destruct (raises b sg w'); [reflexivity|].
    assert (Eb : m_block (the (extend l (submit k (Whole c) (m_targets (the s k)) s)) k) = m_block (the s k)).
    { change (the (extend l ?x) k) with (the x k). rewrite the_submit, decide_True by reflexivity. reflexivity. }
    rewrite Eb. destruct b; reflexivity.
Qed.

(** Everything keeps the invariant, and the log only grows. *)
Definition good (s s' : st) : Prop := (inv s -> inv s') /\ exists u, log s' = log s ++ u.
Lemma good_refl s : good s s.
Proof. split; [auto|]. exists []. symmetry. apply app_nil_r. Qed.
Lemma good_trans s1 s2 s3 : good s1 s2 -> good s2 s3 -> good s1 s3.
Proof. intros [A [u B]] [C [v D]]. split; [auto|]. exists (u ++ v). rewrite D, B, app_assoc. reflexivity. Qed.
Lemma good_say s e : (inv s -> justified (log s) e) -> quiet_event e -> good s (say e s).
Proof. intros J Q. split; [intros I; apply inv_say; auto|]. exists [e]. reflexivity. Qed.
Lemma good_executed s k c ts b sr sg save w : good s (extend (stored k (next s) save ++ waiting k (next s) b sr sg ts w) (submit k c ts s)).
Proof. split; [apply inv_executed|]. cbn [extend submit say log]. eexists. rewrite <- app_assoc. reflexivity. Qed.
Lemma good_hook k c s : good s (pxrun_nodes first k c s).
Proof.
  destruct c as [nm lead valid body f]. unfold pxrun_nodes. destruct (says_autopx _).
  - split; [apply inv_disable|]. unfold disable. destruct (m_auto _); [eexists; reflexivity|exists []; symmetry; apply app_nil_r].
  - rewrite execute_is. destruct f as [|w]; [apply good_say; [intros _|]; exact I|]. cbv zeta. destruct (raises _ _ _); [|apply good_executed].
    eapply good_trans; [apply good_executed|]. apply good_say; [intros _|]; exact I.
Qed.
Lemma good_all : (forall x s, good s (perform first n x s).1) /\ (forall c s, good s (run_cell first n c s)) /\ (forall l s, good s (perform_all first n l s)).
Proof.
  apply all_mut.
  - intros c ok s. apply good_say; [intros _|]; exact I.
  - intros k l f s. cbn [perform]. rewrite execute_is. destruct f as [|w]; [apply good_refl|]. cbv zeta. cbn [fst]. destruct (default _ _); [apply good_executed|].
    eapply good_trans; [apply good_executed|]. apply good_say; [|exact I]. intros _. exists (Line l), (m_targets (the s k)). cbn [log extend submit say]. rewrite !elem_of_app, elem_of_list_singleton. auto.
  - intros k o c IH f w s. rewrite perform_cell. destruct (given o s) as [g|]; [|apply good_refl]. destruct f as [|w'].
    { destruct g as [t|]; cbn [fst]; [|apply good_refl]. split; [intros I; apply inv_put; [exact I|reflexivity]|]. exists []. symmetry. apply app_nil_r. }
    cbv zeta. set (m := the s k). set (ts := default (m_targets m) g). set (b := default (m_block m) (if o_local o then Some false else o_block o)). set (sg := match o_signal o with Some x => Some x | None => m_signal m end).
    set (s1 := extend _ _). assert (G1 : good s s1) by apply good_executed. destruct (raises b sg w'); [exact G1|].
    set (s2 := if o_local o then run_cell first n c s1 else s1). assert (G2 : good s1 s2) by (unfold s2; destruct (o_local o); [apply IH|apply good_refl]).
    assert (Hin : forall u, exists c' ts', Submit k (next s) c' ts' ∈ log s2 ++ u).
    { intros u. destruct G2 as [_ [v ->]]. exists (Whole c), ts. unfold s1. cbn [log extend submit say]. rewrite !elem_of_app, elem_of_list_singleton. auto. }
    assert (Hin0 : exists c' ts', Submit k (next s) c' ts' ∈ log s2) by (rewrite <- (app_nil_r (log s2)); apply Hin).
    pose proof (good_trans _ _ _ G1 G2) as G.
    destruct b; [exact G|]. destruct (default (m_block m) (o_block o)).
    + destruct (o_local o); [|exact G]. destruct w; cbn [fst]; [| |exact G].
      * eapply good_trans; [exact G|]. eapply good_trans; apply good_say; try exact I; intros _; [exact Hin0|apply Hin].
      * eapply good_trans; [exact G|]. apply good_say; try exact I. intros _. exact Hin0.
    + eapply good_trans; [exact G|]. apply good_say; [|exact I]. intros _. exact Hin0.
  - intros k o s. cbn [perform]. split; [apply inv_config|]. unfold pxconfig. destruct (o_targets o) as [a|]; [destruct (eval_target _ a)|]; try (eexists; reflexivity). exists []. symmetry. apply app_nil_r.
  - intros k save w s. cbn [perform]. split; [apply inv_result|]. unfold pxresult. destruct (m_last _) as [id|]; [|eexists; reflexivity].
    destruct save as [v|]; [|destruct w]; cbn [fst log say]; rewrite <- ?app_assoc; eexists; reflexivity.
  - intros k s. cbn [perform fst]. unfold autopx. destruct (m_auto (the s k)) eqn:E.
    + split; [apply inv_disable|]. unfold disable. rewrite E. eexists. reflexivity.
    + split; [apply inv_enable|]. eexists. reflexivity.
  - intros nm lead valid body IH f s. cbn [run_cell]. destruct (arrives _ _ _ _); [|apply good_say; [intros _|]; exact I]. destruct valid; [|apply good_say; [intros _|]; exact I].
    destruct (shell s); [apply IH|apply good_hook].
  - intros s. apply good_refl.
  - intros x IHx l IHl s. change (perform_all first n (Cons x l) s) with (match perform first n x s with (s, raised) => if raised then say Error s else perform_all first n l s end). specialize (IHx s). destruct (perform first n x s) as [s1 r]. cbn [fst] in IHx. eapply good_trans; [exact IHx|]. destruct r; [apply good_say; [intros _|]; exact I|apply IHl].
Qed.
Lemma inv_start : inv (St [] ∅ Native 0 []).
Proof. split; try reflexivity; cbn [log sets next submissions omap list_omap]; [intros id X; inversion X|intros k; apply Hfirst|intros l1 e l2 E; destruct l1; discriminate|intros k; apply Hfirst]. Qed.
Lemma inv_session l : inv (session first n l).
Proof.
  induction l as [|a l IH] using rev_ind; [apply inv_start|]. unfold session. rewrite fold_left_app. cbn [fold_left]. fold (session first n l). destruct a as [e|c]; cbn [step].
  - destruct IH as [A B C D E F G H]. split; assumption.
  - apply (proj1 (proj1 (proj2 good_all) c _)), IH.
Qed.
End Proofs.
