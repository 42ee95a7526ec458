(** C57: what a client captures of the output of its tasks. *)
From Coq Require Import List String Ascii Bool Arith Lia.
From Verif Require Import Out_Spec Out_Model Out_Proofs.
Import ListNotations.

(** What shows of a text is determined, and is what the substitution leaves. *)
Theorem C57_carriage_returns : forall s v, text_shows s v <-> v = cr_sub s.
Proof.
  intros s v. split; [|intros ->; apply cr_sub_shows]. intros H. apply (text_unique s); [exact H | apply cr_sub_shows].
Qed.
Print Assumptions C57_carriage_returns.

(** The metadata of an AsyncResult hold, at any time, just the outputs of its own request that came before the client
    cleaned up: all text, in order, up to carriage returns; all displayed objects, in order; the last error, input and result;
    the last value of each datum. *)
Theorem C57_captured : forall h m, orderly h -> In (Send m) h ->
  exists x, shown (run h) m = Some x /\
    captures (pieces false (seen h m)) (stdout x) /\ captures (pieces true (seen h m)) (stderr x) /\
    outputs x = displays (seen h m) /\
    error x = last_of an_error (seen h m) /\ execute_input x = last_of an_input (seen h m) /\ execute_result x = last_of a_result (seen h m) /\
    forall k, dget k (data x) = datum k (seen h m).
Proof.
  intros h m Ho Hs. assert (S : sent h m = true).
  { apply existsb_exists. exists (Send m). split; [exact Hs | apply String.eqb_refl]. }
  destruct (i_sent _ _ _ (Inv_run h Ho) m S) as (i & x & A1 & A2 & (H1 & H2 & H3 & H4 & H5 & H6 & H7) & _).
  exists x. unfold shown. rewrite A1. repeat split; try assumption; first [apply H1 | apply H2].
Qed.
Print Assumptions C57_captured.

(** The output future is resolved by the idle message or by a reply that means that nothing will come. *)
Theorem C57_done : forall h m, orderly h -> In (Send m) h -> forgotten h m = false -> look m (output_futures (run h)) = Some (over h m).
Proof.
  intros h m Ho Hs F. assert (S : sent h m = true).
  { apply existsb_exists. exists (Send m). split; [exact Hs | apply String.eqb_refl]. }
  destruct (i_sent _ _ _ (Inv_run h Ho) m S) as (i & x & _ & _ & _ & A). rewrite F in A. apply A.
Qed.
Print Assumptions C57_done.

(** If the engine sends nothing after that, then nothing is missing. *)
Lemma forgotten_over : forall h m, forgotten h m = true -> over h m = true.
Proof.
  induction h as [|e h IH]; intros m H; [discriminate|]. unfold over in *. cbn [existsb].
  destruct e; cbn [forgotten] in H; try (rewrite (IH _ H); apply orb_true_r).
  apply orb_true_iff in H. destruct H as [H|H]; [|rewrite (IH _ H); apply orb_true_r].
  apply andb_true_iff in H. destruct H as [H _]. apply andb_true_iff in H. destruct H as [_ H]. unfold over in H. rewrite H. apply orb_true_r.
Qed.
Theorem C57_complete : forall h m,
  (forall later earlier, h = later ++ earlier -> over earlier m = true -> published later m = []) ->
  seen h m = published h m.
Proof.
  induction h as [|e h IH]; intros m H; [reflexivity|]. cbn [seen]. unfold published in *. cbn [rev].
  rewrite flat_map_app. cbn [flat_map]. rewrite app_nil_r.
  assert (IH' : seen h m = flat_map (output_of m) (rev h)).
  { apply IH. intros later earlier E O. specialize (H (e :: later) earlier). cbn [app rev] in H. rewrite flat_map_app in H.
    apply app_eq_nil in H; [apply H | rewrite E; reflexivity | exact O]. }
  rewrite IH'. destruct (forgotten h m) eqn:F; [|reflexivity].
  specialize (H [e] h eq_refl (forgotten_over _ _ F)). cbn [rev app flat_map] in H. rewrite app_nil_r in H. rewrite H, app_nil_r. reflexivity.
Qed.
Print Assumptions C57_complete.

(** ** Cases *)
Definition s2t := list_ascii_of_string.
Definition cr (a b : string) : text := s2t a ++ CR :: s2t b.
Definition session : history :=
  [Forget "m"; Reply "m" Ok; Pub true "m" Idle; Pub true "m" (Display "d2"); Pub true "m" (Stream false (cr "2%" "3%")); Pub false "m" (Stream false (s2t "other"));
   Pub true "n" (Stream false (s2t "theirs")); Pub true "m" (Display "d1"); Pub true "m" (Stream false (s2t "1%")); Pub true "m" Busy; Send "n"; Send "m"]%string.
Example C57_session_orderly : orderly session.
Proof. repeat split. Qed.
Example C57_session : exists x, shown (run session) "m" = Some x /\ stdout x = s2t "3%" /\ outputs x = ["d1"; "d2"]%string /\ seen session "m" = published session "m".
Proof. eexists. repeat split. Qed.

(** ** What does not hold *)
(** What is stored depends on how the text is cut: a carriage return at the end of a piece is not applied to the next one. *)
Theorem C57_cut_refuted : ~ (forall h1 h2 m x1 x2, orderly h1 -> orderly h2 ->
  List.concat (pieces false (published h1 m)) = List.concat (pieces false (published h2 m)) ->
  shown (run h1) m = Some x1 -> shown (run h2) m = Some x2 -> stdout x1 = stdout x2).
Proof.
  intros H.
  set (h1 := [Pub true "m" (Stream false (s2t "b")); Pub true "m" (Stream false (cr "a" "")); Send "m"]%string).
  set (h2 := [Pub true "m" (Stream false (cr "" "b")); Pub true "m" (Stream false (s2t "a")); Send "m"]%string).
  assert (C : Some (cr "a" "b") = Some (s2t "b")); [|discriminate].
  destruct (shown (run h1) "m"%string) as [x1|] eqn:E1; [|discriminate]. destruct (shown (run h2) "m"%string) as [x2|] eqn:E2; [|discriminate].
  specialize (H h1 h2 "m"%string x1 x2).
  change (option_map stdout (shown (run h1) "m"%string) = option_map stdout (shown (run h2) "m"%string)).
  rewrite E1, E2. cbn [option_map]. f_equal. apply H; try reflexivity; repeat split; assumption.
Qed.
Print Assumptions C57_cut_refuted.
(** What comes after a reply that names no engine (the engine was found dead, say) does not get into the AsyncResult. *)
Theorem C57_after_failure_refuted : ~ (forall h m x, orderly h -> shown (run h) m = Some x -> outputs x = displays (published h m)).
Proof.
  intros H.
  set (h := [Pub true "m" (Display "d"); Forget "m"; Reply "m" (Failed false); Send "m"]%string).
  destruct (shown (run h) "m"%string) as [x|] eqn:E; [|discriminate].
  assert (O : orderly h) by (repeat split). specialize (H h "m"%string x O E).
  assert (X : option_map outputs (shown (run h) "m"%string) = Some []) by reflexivity. rewrite E in X. cbn [option_map] in X. rewrite H in X. discriminate.
Qed.
Print Assumptions C57_after_failure_refuted.
