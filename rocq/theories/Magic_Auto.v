(** %autopx: the mode is what it is said to be. *)
From stdpp Require Import base list gmap.
From Verif Require Import Magic_Model Magic_Spec Magic_Proofs.
From Coq Require Import Lia.

Section Auto.
Context (first : nat -> magics) (n : nat).
Notation the := (the first).

(** nothing about %autopx changes *)
Definition still (s s' : st) : Prop := shell s' = shell s /\ forall k, m_auto (the s' k) = m_auto (the s k) /\ m_saved (the s' k) = m_saved (the s k).
Lemma still_refl s : still s s.
Proof. split; auto. Qed.
Lemma still_trans s1 s2 s3 : still s1 s2 -> still s2 s3 -> still s1 s3.
Proof. intros [A B] [C D]. split; [congruence|]. intros k. destruct (B k), (D k). split; congruence. Qed.
Lemma still_say s e : still s (say e s).
Proof. split; [reflexivity|]. intros k. auto. Qed.
Lemma still_extend s l : still s (extend l s).
Proof. split; [reflexivity|]. intros k. auto. Qed.
Lemma still_put s k m : m_auto m = m_auto (the s k) -> m_saved m = m_saved (the s k) -> still s (put k m s).
Proof. intros A B. split; [reflexivity|]. intros k'. rewrite the_put. destruct (decide (k = k')) as [<-|_]; auto. Qed.
Lemma still_submit s k c ts : still s (submit first k c ts s).
Proof. split; [reflexivity|]. intros k'. rewrite the_submit. destruct (decide (k = k')) as [<-|_]; auto. Qed.
Lemma still_executed s k c ts l : still s (extend l (submit first k c ts s)).
Proof. eapply still_trans; [apply still_submit|apply still_extend]. Qed.
Lemma still_config s k o : still s (pxconfig first k o s).1.
Proof. unfold pxconfig. destruct (o_targets o) as [a|]; [destruct (eval_target _ a)|]; cbn [fst]; try apply still_refl; (eapply still_trans; [apply still_put|apply still_say]; reflexivity). Qed.
Lemma still_result s k save w : still s (pxresult first k save w s).1.
Proof. unfold pxresult. destruct (m_last _); [|apply still_say]. destruct save as [v|]; [|destruct w]; cbn [fst]; repeat first [apply still_refl|eapply still_trans; [|apply still_say]]. Qed.

(** view k is the one that uses it *)
Definition truthful (k : nat) (s : st) : Prop :=
  if m_auto (the s k) then shell s = Hook k /\ m_saved (the s k) = Native else shell s = Native.
Lemma truthful_still k s s' : still s s' -> truthful k s -> truthful k s'.
Proof. intros [A B] T. unfold truthful in *. destruct (B k) as [-> ->]. rewrite A. exact T. Qed.
Lemma truthful_enable k s : m_auto (the s k) = false -> truthful k s -> truthful k (enable first k s).
Proof.
  intros E T. unfold truthful in T. rewrite E in T. unfold truthful, enable. change (the (say ?e (hang ?h ?s)) k) with (the s k). rewrite the_put_eq. cbn [m_auto m_saved shell say hang]. auto.
Qed.
Lemma truthful_disable k s : truthful k s -> truthful k (disable first k s) /\ m_auto (the (disable first k s) k) = false.
Proof.
  intros T. unfold disable. destruct (m_auto (the s k)) eqn:E; [|auto]. unfold truthful in *. rewrite E in T. change (the (say ?e (hang ?h ?s)) k) with (the s k). rewrite the_put_eq. cbn [m_auto shell say hang]. tauto.
Qed.
Lemma truthful_hook k c s : truthful k s -> truthful k (pxrun_nodes first k c s).
Proof.
  intros T. destruct c as [nm lead valid body f]. unfold pxrun_nodes. destruct (says_autopx _); [apply truthful_disable, T|].
  rewrite execute_is. destruct f as [|w]; [eapply truthful_still; [apply still_say|exact T]|]. cbv zeta.
  destruct (raises _ _ _); (eapply truthful_still; [|exact T]); [eapply still_trans; [apply still_executed|apply still_say]|apply still_executed].
Qed.
Lemma truthful_all k : (forall x s, only k x -> truthful k s -> truthful k (perform first n x s).1) /\ (forall c s, only_cell k c -> truthful k s -> truthful k (run_cell first n c s)) /\
  (forall l s, only_all k l -> truthful k s -> truthful k (perform_all first n l s)).
Proof.
  apply all_mut.
  - intros c ok s _ T. exact T.
  - intros k' l f s _ T. cbn [perform]. rewrite execute_is. destruct f as [|w]; [exact T|]. cbv zeta. cbn [fst]. destruct (default _ _); (eapply truthful_still; [|exact T]); [apply still_executed|]. eapply still_trans; [apply still_executed|apply still_say].
  - intros k' o c IH f w s H T. rewrite perform_cell. destruct (given o s) as [g|]; [|exact T]. destruct f as [|w'].
    { destruct g as [t|]; cbn [fst]; [|exact T]. eapply truthful_still; [apply still_put; reflexivity|exact T]. }
    cbv zeta. set (m := the s k'). set (ts := default (m_targets m) g). set (b := default (m_block m) (if o_local o then Some false else o_block o)). set (sg := match o_signal o with Some x => Some x | None => m_signal m end).
    set (s1 := extend _ _). assert (T1 : truthful k s1) by (eapply truthful_still; [apply still_executed|exact T]). destruct (raises b sg w'); [exact T1|].
    set (s2 := if o_local o then run_cell first n c s1 else s1). assert (T2 : truthful k s2) by (unfold s2; destruct (o_local o); [apply IH; [exact H|exact T1]|exact T1]).
    destruct b; [exact T2|]. destruct (default (m_block m) (o_block o)); [destruct (o_local o); [destruct w|]|]; exact T2.
  - intros k' o s _ T. cbn [perform]. eapply truthful_still; [apply still_config|exact T].
  - intros k' save w s _ T. cbn [perform]. eapply truthful_still; [apply still_result|exact T].
  - intros k' s H T. cbn [only] in H. subst k'. cbn [perform fst]. unfold autopx. destruct (m_auto (the s k)) eqn:E; [apply truthful_disable, T|apply truthful_enable; assumption].
  - intros nm lead valid body IH f s H T. cbn [run_cell]. destruct (arrives _ _ _ _); [|exact T]. destruct valid; [|exact T]. destruct (shell s) as [|k'] eqn:E; [apply IH; [exact H|exact T]|].
    unfold truthful in T. destruct (m_auto (the s k)) eqn:Ea; [|congruence]. destruct T as [Et Es]. assert (k' = k) as -> by congruence. apply truthful_hook. unfold truthful. rewrite Ea. auto.
  - intros s _ T. exact T.
  - intros x IHx l IHl s [H1 H2] T. change (perform_all first n (Cons x l) s) with (match perform first n x s with (s, raised) => if raised then say Error s else perform_all first n l s end).
    specialize (IHx s H1 T). destruct (perform first n x s) as [s1 r]. cbn [fst] in IHx. destruct r; [exact IHx|apply IHl; assumption].
Qed.
(** it can be switched off, too *)
Lemma run_on k c s : truthful k s -> m_auto (the s k) = true -> run_cell first n c s = match c with Cell _ _ valid _ _ => if valid then pxrun_nodes first k c s else say Error s end.
Proof.
  intros T E. unfold truthful in T. rewrite E in T. destruct T as [A B]. destruct c as [nm lead valid body f]. cbn [run_cell]. rewrite A. cbn [arrives]. rewrite B.
  assert (Ha : arrives first n Native s = true) by (destruct n; reflexivity). rewrite Ha. reflexivity.
Qed.
Lemma run_off k c s : truthful k s -> m_auto (the s k) = false -> run_cell first n c s = match c with Cell _ _ valid body _ => if valid then perform_all first n body s else say Error s end.
Proof. intros T E. unfold truthful in T. rewrite E in T. destruct c as [nm lead valid body f]. cbn [run_cell]. rewrite T. reflexivity. Qed.
Lemma run_code l : forall t s, just_code l = Some t -> perform_all first n l s = extend (map Local t) s.
Proof.
  induction l as [|x l IH]; intros t s.
  - intros [= <-]. symmetry. apply extend_nil.
  - cbn [just_code]. destruct x as [c [|]| | | | |]; try discriminate. destruct (just_code l) as [u|]; [|discriminate]. intros [= <-].
    change (perform_all first n (Cons (Code c true) l) s) with (perform_all first n l (say (Local c) s)). rewrite (IH u) by reflexivity. unfold extend, say. cbn [engines sets shell next log map]. rewrite <- app_assoc. reflexivity.
Qed.

(** the shell is stuck with a set of magics that is switched off *)
Definition stuck (k : nat) (s : st) : Prop := shell s = Hook k /\ m_auto (the s k) = false.
Lemma stuck_cell k c s : stuck k s -> stuck k (run_cell first n c s) /\ forall x, Local x ∈ log (run_cell first n c s) -> Local x ∈ log s.
Proof.
  intros [A B]. destruct c as [nm lead valid body f]. cbn [run_cell]. rewrite A.
  assert (He : stuck k (say Error s) /\ forall x, Local x ∈ log (say Error s) -> Local x ∈ log s).
  { split; [split; assumption|]. intros x X. cbn [log say] in X. apply elem_of_app in X as [X|X]; [exact X|]. apply elem_of_list_singleton in X. discriminate. }
  destruct (arrives _ _ _ _); [|exact He]. destruct valid; [|exact He]. unfold pxrun_nodes. destruct (says_autopx _); [unfold disable; rewrite B; split; [split; assumption|auto]|].
  rewrite execute_is. destruct f as [|w]; [exact He|]. cbv zeta. set (ts := m_targets (the s k)). set (b := default _ _). set (sg := m_signal (the s k)). set (s1 := extend _ _).
  assert (S1 : stuck k s1).
  { destruct (still_executed s k (Whole (Cell nm lead true body (Submitted w))) ts (stored k (next s) None ++ waiting k (next s) b (default (m_stream (the s k)) None) sg ts w)) as [X Y].
    split; [unfold s1; rewrite X; exact A|]. destruct (Y k) as [Y1 _]. unfold s1. rewrite Y1. exact B. }
  assert (L1 : forall x, Local x ∈ log s1 -> Local x ∈ log s).
  { intros x X. unfold s1 in X. cbn [log extend submit say stored app] in X. rewrite !elem_of_app in X. destruct X as [[X|X]|X]; [exact X|apply elem_of_list_singleton in X; discriminate|]. exfalso.
    unfold waiting in X. destruct b; [|inversion X]. apply elem_of_app in X as [X|X].
    - destruct w; [apply elem_of_list_singleton in X; discriminate..|]. destruct sg; [apply elem_of_list_singleton in X; discriminate|inversion X].
    - destruct (default _ _); [inversion X|]. apply elem_of_list_singleton in X. discriminate. }
  destruct (raises _ _ _); [|auto]. split; [exact S1|]. intros x X. cbn [log say] in X. apply elem_of_app in X as [X|X]; [auto|]. apply elem_of_list_singleton in X. discriminate.
Qed.
End Auto.
