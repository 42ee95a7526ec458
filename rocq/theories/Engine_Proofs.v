(** Proofs about the engine model. *)
From stdpp Require Import base gmap list strings.
From Coq Require Import String.
From Verif Require Import Engine_Model Engine_Spec.
Open Scope string_scope.
Open Scope list_scope.

Section proofs.
Context {V : Type} (C : code V).
Notation ns := (gmap string (cell V)).

Lemma canned_ind' (P : canned V -> Prop) :
  (forall v, P (CnVal v)) -> (forall x, P (CnRef x)) ->
  (forall l, Forall P l -> P (CnSeq l)) ->
  (forall f df a k, P f -> P df -> P (CnDep f df a k)) ->
  (forall f nm mp, P f -> Forall (fun xc => P (snd xc)) mp -> P (CnReq f nm mp)) ->
  forall c, P c.
Proof.
  intros H1 H2 H3 H4 H5. fix IH 1. intros [v | x | l | f df a k | f nm mp].
  - apply H1.
  - apply H2.
  - apply H3. induction l; constructor; [apply IH | assumption].
  - apply H4; apply IH.
  - apply H5; [apply IH |]. induction mp as [| [x c] mp IHm]; constructor; [apply IH | assumption].
Qed.

(** What the log of an unpacking may contain, and how it determines the outcome. *)
Definition logged {A} (o : list (out V)) (r : res A) : Prop :=
  (forall x, x ∈ o -> (exists c, x = OCheck c) \/ (exists m c, x = OImport m c)) /\
  (forall x e, x ∈ o -> unsatisfied C x e -> r = Rse e).

Lemma logged_nil {A} (r : res A) : logged [] r.
Proof. split; intros x; [| intros e]; intros H; inversion H. Qed.
Lemma logged_app {A B} o1 (r1 : res A) o2 (r2 : res B) v :
  logged o1 r1 -> r1 = Ret v -> logged o2 r2 -> logged (o1 ++ o2) r2.
Proof.
  intros [H1 H1'] -> [H2 H2']. split.
  - intros x [Hx | Hx]%elem_of_app; [apply H1, Hx | apply H2, Hx].
  - intros x e [Hx | Hx]%elem_of_app Hu; [| eapply H2'; eassumption].
    pose proof (H1' x e Hx Hu). discriminate.
Qed.
Lemma logged_rse {A B} o e : logged o (@Rse A e) -> logged o (@Rse B e).
Proof.
  intros [H1 H2]. split; [exact H1 |]. intros x e' Hx Hu. pose proof (H2 x e' Hx Hu) as E.
  injection E as ->. reflexivity.
Qed.
Lemma logged_ret {A B} o (v : A) (w : B) : logged o (Ret v) -> logged o (Ret w).
Proof.
  intros [H1 H2]. split; [exact H1 |]. intros x e' Hx Hu. pose proof (H2 x e' Hx Hu). discriminate.
Qed.

Lemma imports_logged nm n o r n' : require_imports C nm n = (o, r, n') -> logged o r.
Proof.
  revert n o r n'. induction nm as [| m nm IH]; intros n o r n' E; cbn [require_imports] in E.
  - injection E as <- <- <-. apply logged_nil.
  - destruct (import C m n) as [[[] | e] n1] eqn:Ei.
    + destruct (require_imports C nm n1) as [[o2 x2] n2] eqn:E2. injection E as <- <- <-.
      apply (logged_app [OImport m (Ret tt)] (Ret tt) o2 x2 tt); [| reflexivity | eapply IH; exact E2].
      split.
      * intros x Hx%elem_of_list_singleton. subst x. right. eauto.
      * intros x e Hx%elem_of_list_singleton Hu. subst x. inversion Hu.
    + injection E as <- <- <-. split.
      * intros x Hx%elem_of_list_singleton. subst x. right. eauto.
      * intros x e' Hx%elem_of_list_singleton Hu. subst x. unfold is_import_error, unmet.
        inversion Hu as [| | m0 e0 Hn | m0 e0 Hn1 Hn2]; subst.
        -- destruct Hn as [-> | ->]; reflexivity.
        -- rewrite !bool_decide_eq_false_2 by assumption. reflexivity.
Qed.

Lemma uncan_logged c : forall n o r n', uncan C c n = (o, r, n') -> logged o r.
Proof.
  induction c as [v | x | l IH | f df a k IHf IHd | f nm mp IHf IHm] using canned_ind';
    intros n o r n' E; cbn [uncan] in E.
  - injection E as <- <- <-. apply logged_nil.
  - destruct (evalref C x n) as [r1 n1]. injection E as <- <- <-. apply logged_nil.
  - match type of E with (let '(_, _) := ?g l n in _) = _ => set (go := g) in E end.
    assert (Hgo : forall n o r n', go l n = (o, r, n') -> logged o r).
    { clear E n o r n'. induction IH as [| c l Hc Hl IHl]; intros n o r n' E.
      - cbn in E. injection E as <- <- <-. apply logged_nil.
      - cbn [go] in E. fold go in E.
        change (match uncan C c n with
                | (o, Rse e, n1) => (o, Rse e, n1)
                | (o, Ret v, n1) => match go l n1 with
                    | (o2, Rse e, n2) => (o ++ o2, Rse e, n2)
                    | (o2, Ret vs, n2) => (o ++ o2, Ret (v :: vs), n2) end end = (o, r, n')) in E.
        destruct (uncan C c n) as [[o1 [v | e]] n1] eqn:E1.
        + destruct (go l n1) as [[o2 [vs | e]] n2] eqn:E2; injection E as <- <- <-.
          * eapply logged_app; [eapply Hc, E1 | reflexivity |]. eapply logged_ret, IHl, E2.
          * eapply logged_app; [eapply Hc, E1 | reflexivity |]. eapply IHl, E2.
        + injection E as <- <- <-. eapply logged_rse, Hc, E1. }
    destruct (go l n) as [[o1 r1] n1] eqn:E1. pose proof (Hgo _ _ _ _ E1) as H1.
    destruct r1; injection E as <- <- <-; [eapply logged_ret | eapply logged_rse]; exact H1.
  - destruct (uncan C f n) as [[o1 [vf | e]] n1] eqn:E1; pose proof (IHf _ _ _ _ E1) as H1.
    2: { injection E as <- <- <-. exact H1. }
    destruct (uncan C df n1) as [[o2 [vdf | e]] n2] eqn:E2; pose proof (IHd _ _ _ _ E2) as H2.
    2: { injection E as <- <- <-. eapply logged_app; [exact H1 | reflexivity | exact H2]. }
    destruct (call C vdf a k n2) as [[w | e] n3] eqn:E3.
    + assert (H3 : logged [OCheck (Ret w)]
                     (if is_false C w then Rse (unmet "") else Ret vf)).
      { split.
        - intros x Hx%elem_of_list_singleton. subst x. left. eauto.
        - intros x e Hx%elem_of_list_singleton Hu. subst x. inversion Hu as [? Hf | | |]. subst.
          rewrite Hf. reflexivity. }
      assert (HH : logged (o1 ++ o2 ++ [OCheck (Ret w)])
                     (if is_false C w then Rse (unmet "") else Ret vf)).
      { eapply logged_app; [exact H1 | reflexivity |].
        eapply logged_app; [exact H2 | reflexivity |]. exact H3. }
      destruct (is_false C w); injection E as <- <- <-; exact HH.
    + injection E as <- <- <-.
      eapply logged_app; [exact H1 | reflexivity |].
      eapply logged_app; [exact H2 | reflexivity |]. split.
      * intros x Hx%elem_of_list_singleton. subst x. left. eauto.
      * intros x e' Hx%elem_of_list_singleton Hu. subst x. inversion Hu. subst. reflexivity.
  - destruct (uncan C f n) as [[o1 [vf | e]] n1] eqn:E1; pose proof (IHf _ _ _ _ E1) as H1.
    2: { injection E as <- <- <-. exact H1. }
    destruct (require_imports C nm n1) as [[o2 [[] | e]] n2] eqn:E2; pose proof (imports_logged _ _ _ _ _ E2) as H2.
    2: { injection E as <- <- <-. eapply logged_app; [exact H1 | reflexivity |]. eapply logged_rse, H2. }
    match type of E with (let '(_, _) := ?g mp n2 in _) = _ => set (go := g) in E end.
    assert (Hgo : forall n o r n', go mp n = (o, r, n') -> logged o r).
    { clear E E1 E2 H1 H2 n n1 n2 o o1 o2 r n'.
      induction IHm as [| [x c] mp Hc Hl IHl]; intros n o r n' E.
      - cbn in E. injection E as <- <- <-. apply logged_nil.
      - change (match uncan C c n with
                | (o, Rse e, n1) => (o, Rse e, n1)
                | (o, Ret v, n1) =>
                    let '(o', r, n') := go mp (<[x := CV v]> n1) in (o ++ o', r, n') end = (o, r, n')) in E.
        cbn [snd] in Hc.
        destruct (uncan C c n) as [[o1 [v | e]] n1] eqn:E1.
        + destruct (go mp (<[x:=CV v]> n1)) as [[o2 r2] n2] eqn:E2; injection E as <- <- <-.
          eapply logged_app; [eapply Hc, E1 | reflexivity |]. eapply IHl, E2.
        + injection E as <- <- <-. eapply logged_rse, Hc, E1. }
    destruct (go mp n2) as [[o3 r3] n3] eqn:E3. pose proof (Hgo _ _ _ _ E3) as H3.
    destruct r3 as [u | e]; injection E as <- <- <-.
    + eapply logged_app; [exact H1 | reflexivity |]. eapply logged_app; [exact H2 | reflexivity |].
      eapply logged_ret, H3.
    + eapply logged_app; [exact H1 | reflexivity |]. eapply logged_app; [exact H2 | reflexivity |].
      eapply logged_rse, H3.
Qed.

Lemma uncan_list_logged l : forall n o r n', uncan_list C l n = (o, r, n') -> logged o r.
Proof.
  induction l as [| c l IH]; intros n o r n' E; cbn [uncan_list] in E.
  - injection E as <- <- <-. apply logged_nil.
  - destruct (uncan C c n) as [[o1 [v | e]] n1] eqn:E1; pose proof (uncan_logged _ _ _ _ _ E1) as H1.
    + destruct (uncan_list C l n1) as [[o2 [vs | e]] n2] eqn:E2; injection E as <- <- <-;
        pose proof (IH _ _ _ _ E2) as H2.
      * eapply logged_app; [exact H1 | reflexivity |]. eapply logged_ret, H2.
      * eapply logged_app; [exact H1 | reflexivity |]. exact H2.
    + injection E as <- <- <-. eapply logged_rse, H1.
Qed.

Lemma unpack_logged f a k n o r n' : unpack C f a k n = (o, r, n') -> logged o r.
Proof.
  unfold unpack. intros E.
  destruct (uncan C f n) as [[o1 [v | e]] n1] eqn:E1; pose proof (uncan_logged _ _ _ _ _ E1) as H1.
  2: { injection E as <- <- <-. eapply logged_rse, H1. }
  destruct (uncan_list C a n1) as [[o2 [va | e]] n2] eqn:E2; pose proof (uncan_list_logged _ _ _ _ _ E2) as H2.
  2: { injection E as <- <- <-. eapply logged_app; [exact H1 | reflexivity |]. eapply logged_rse, H2. }
  destruct (uncan_list C (map snd k) n2) as [[o3 [vk | e]] n3] eqn:E3; pose proof (uncan_list_logged _ _ _ _ _ E3) as H3;
    injection E as <- <- <-; (eapply logged_app; [exact H1 | reflexivity |]);
    (eapply logged_app; [exact H2 | reflexivity |]); [eapply logged_ret, H3 | eapply logged_rse, H3].
Qed.

(** ** do_apply *)
Lemma append_inj_l p a b : (p ++ a)%string = (p ++ b)%string -> a = b.
Proof. induction p as [| c p IH]; intros H; [exact H | injection H as H; apply IH, H]. Qed.

Lemma names_differ id : NoDup (temp_names id).
Proof.
  unfold temp_names. generalize (("_" ++ replace_dash id ++ "_")%string). intros p.
  repeat constructor; rewrite ?elem_of_cons, ?elem_of_nil; intros H;
    repeat match goal with H : _ \/ _ |- _ => destruct H | H : False |- _ => destruct H end;
    match goal with H : _ = _ |- _ => apply append_inj_l in H; discriminate end.
Qed.
Lemma temp_names_eq id : temp_names id = [fname id; argname id; kwargname id; resultname id].
Proof. reflexivity. Qed.

(** The namespace in which the function is called. *)
Definition call_env (id : string) (f : V) (a : list V) (k : list (string * V)) (n : ns) : ns :=
  <[resultname id := CNone]> (<[kwargname id := CKw k]>
     (<[argname id := CArgs a]> (<[fname id := CV f]> n))).

Lemma call_env_names id f a k n :
  call_env id f a k n !! fname id = Some (CV f) /\
  call_env id f a k n !! argname id = Some (CArgs a) /\
  call_env id f a k n !! kwargname id = Some (CKw k).
Proof.
  pose proof (names_differ id) as H. rewrite temp_names_eq in H.
  rewrite !NoDup_cons, !not_elem_of_cons in H. destruct_and?.
  unfold call_env. repeat split; rewrite ?lookup_insert_ne by congruence; apply lookup_insert.
Qed.
Lemma call_env_other id f a k n x : x ∉ temp_names id -> call_env id f a k n !! x = n !! x.
Proof.
  rewrite temp_names_eq, !not_elem_of_cons. intros. destruct_and?.
  unfold call_env. rewrite !lookup_insert_ne by congruence. reflexivity.
Qed.
Lemma pop_other id (n : ns) x : x ∉ temp_names id -> pop_names id n !! x = n !! x.
Proof.
  rewrite temp_names_eq, !not_elem_of_cons. intros. destruct_and?.
  unfold pop_names. rewrite !lookup_delete_ne by congruence. reflexivity.
Qed.
Lemma pop_temp id (n : ns) x : x ∈ temp_names id -> pop_names id n !! x = None.
Proof.
  rewrite temp_names_eq, !elem_of_cons, elem_of_nil. unfold pop_names.
  assert (D : forall y (m : ns), m !! x = None -> delete y m !! x = None).
  { intros y m H. destruct (decide (y = x)) as [-> | Hn]; [apply lookup_delete |].
    rewrite lookup_delete_ne by exact Hn. exact H. }
  intros [-> | [-> | [-> | [-> | []]]]]; repeat (apply lookup_delete || apply D).
Qed.
Lemma pop_result id v (n : ns) : pop_names id (<[resultname id := v]> n) = pop_names id n.
Proof.
  apply map_eq. intros x. destruct (decide (x ∈ temp_names id)) as [H | H].
  - rewrite !pop_temp by exact H. reflexivity.
  - rewrite !pop_other by exact H. apply lookup_insert_ne. intros <-. apply H. rewrite temp_names_eq.
    do 3 apply elem_of_list_further. apply elem_of_list_here.
Qed.

(** The outcome of a handled apply request. *)
Definition finished (q : request V) (r : res V) : out V :=
  match r with
  | Ret v => OReply (q_id q) "apply_reply" "ok" None (Some v) true false
  | Rse e => OReply (q_id q) "apply_reply" "error" (Some (x_name e, evalue e)) None
               (negb (bool_decide (x_name e = "UnmetDependency"))) true
  end.

Lemma apply_cases q n :
  (exists o1 e n1, unpack C (q_f q) (q_args q) (q_kw q) n = (o1, Rse e, n1) /\
     apply_request C q n = (o1 ++ [finished q (Rse e)], n1)) \/
  (exists o1 f a k n1 r n2,
     unpack C (q_f q) (q_args q) (q_kw q) n = (o1, Ret (f, a, k), n1) /\
     call C f a k (call_env (q_id q) f a k n1) = (r, n2) /\
     let r' := match r with
               | Rse e => Rse e
               | Ret v => match picklable C v with None => Ret v | Some e => Rse e end
               end in
     apply_request C q n =
       (o1 ++ [OCall f a k (call_env (q_id q) f a k n1); finished q r'], pop_names (q_id q) n2)).
Proof.
  unfold apply_request, do_apply.
  destruct (unpack C (q_f q) (q_args q) (q_kw q) n) as [[o1 [[[f a] k] | e]] n1].
  2: { left. exists o1, e, n1. split; reflexivity. }
  right. exists o1, f, a, k, n1.
  destruct (call C f a k (call_env (q_id q) f a k n1)) as [r n2] eqn:Ec. exists r, n2.
  split; [reflexivity |]. split; [reflexivity |]. cbn zeta.
  fold (call_env (q_id q) f a k n1). unfold exec_apply.
  destruct (call_env_names (q_id q) f a k n1) as (-> & -> & ->). rewrite Ec.
  destruct r as [v | e].
  - rewrite lookup_insert, pop_result. destruct (picklable C v); rewrite <- app_assoc; reflexivity.
  - rewrite <- app_assoc. reflexivity.
Qed.

Lemma logged_no {A} o (r : res A) :
  logged o r -> replies o = [] /\ calls o = [].
Proof.
  intros [H _]. induction o as [| x o IH]; [split; reflexivity |].
  destruct IH as [I1 I2]; [intros y Hy; apply H; right; exact Hy |].
  unfold replies, calls in *. cbn [List.filter].
  destruct (H x) as [[c ->] | (m & c & ->)]; [left | |]; split; assumption.
Qed.

Lemma filter_app {A} (p : A -> bool) l1 l2 : List.filter p (l1 ++ l2) = List.filter p l1 ++ List.filter p l2.
Proof. apply List.filter_app. Qed.

Lemma finished_reply q r : is_reply (finished q r) = true /\ is_call (finished q r) = false.
Proof. destruct r; split; reflexivity. Qed.

Lemma apply_one_reply q n o n' : apply_request C q n = (o, n') ->
  exists r, replies o = [finished q r].
Proof.
  intros E.
  destruct (apply_cases q n) as [(o1 & e & n1 & E1 & E2) | (o1 & f & a & k & n1 & r & n2 & E1 & Ec & E2)];
    cbn zeta in E2; rewrite E in E2; apply (f_equal fst) in E2; cbn [fst] in E2;
    destruct (logged_no _ _ (unpack_logged _ _ _ _ _ _ _ E1)) as [Hr _].
  - exists (Rse e). rewrite E2. unfold replies in *. rewrite filter_app, Hr. reflexivity.
  - match type of E2 with context [finished q ?r] => exists r; revert E2; generalize r end. intros r0 ->.
    unfold replies in *. rewrite filter_app, Hr. cbn [List.filter app is_reply].
    rewrite (proj1 (finished_reply q r0)). reflexivity.
Qed.

(** ** should_handle *)
Lemma should_handle_spec base (m : shell_msg V) k :
  should_handle base m k =
  if decide (shell_id m ∈ k_aborted k)
  then ([abort_reply m], false, Kernel (k_ns k) (k_aborted k ∖ {[shell_id m]}))
  else ([], true, k).
Proof.
  unfold should_handle, super_should_handle. destruct base; cbn;
    destruct (decide (shell_id m ∈ k_aborted k)) as [H | H]; cbn;
    try reflexivity. rewrite decide_False by exact H. reflexivity.
Qed.

Lemma step_aborted base (m : msg V) k :
  k_aborted (snd (step C base m k)) =
  match m with
  | Shell s => k_aborted k ∖ {[shell_id s]}
  | Abort _ ANone => k_aborted k
  | Abort _ (AStr s) => {[s]} ∪ k_aborted k
  | Abort _ (AList l) => list_to_set l ∪ k_aborted k
  | Clear _ => k_aborted k
  end.
Proof.
  destruct m as [s | i [| s | [| x l]] | i]; cbn [step abort_request clear_request snd k_aborted]; try reflexivity.
  - unfold dispatch_shell. rewrite should_handle_spec.
    destruct (decide (shell_id s ∈ k_aborted k)) as [H | H]; [reflexivity |].
    destruct (match s with Apply q => _ | Execute id c => _ end) as [o2 n2].
    cbn [snd k_aborted]. apply set_eq. intros x. rewrite elem_of_difference, elem_of_singleton.
    split; [| tauto]. intros Hx. split; [exact Hx |]. intros ->. contradiction.
  - apply set_eq. intros x. rewrite elem_of_union, elem_of_list_to_set, elem_of_nil. tauto.
Qed.

Lemma run_app base h1 h2 k : run C base (h1 ++ h2) k =
  let '(o1, k1) := run C base h1 k in let '(o2, k2) := run C base h2 k1 in (o1 ++ o2, k2).
Proof.
  revert k. induction h1 as [| m h1 IH]; intros k; cbn [run app].
  - destruct (run C base h2 k); reflexivity.
  - destruct (step C base m k) as [o k1]. rewrite IH. destruct (run C base h1 k1) as [o1 k2].
    destruct (run C base h2 k2); reflexivity.
Qed.
Lemma run_length base h k : List.length (fst (run C base h k)) = List.length h.
Proof.
  revert k. induction h as [| m h IH]; intros k; cbn [run]; [reflexivity |].
  destruct (step C base m k) as [o k1]. specialize (IH k1). destruct (run C base h k1) as [os k2].
  cbn in *. f_equal. exact IH.
Qed.

Lemma armed_nil id : ~ armed (V:=V) id [].
Proof. intros (h1 & c & a & h2 & H & _). destruct h1; discriminate. Qed.

Lemma armed_snoc (id : string) (h : list (msg V)) m :
  armed id (h ++ [m]) <->
  match m with
  | Shell s => shell_id s <> id /\ armed id h
  | Abort _ a => names a id \/ armed id h
  | Clear _ => armed id h
  end.
Proof.
  split.
  - intros (h1 & c & a & h2 & E & Hn & Hs).
    destruct (decide (h2 = [])) as [-> | Hne].
    + apply app_inj_tail in E. destruct E as [-> ->]. left. exact Hn.
    + destruct (exists_last Hne) as (h3 & x & ->).
      change (h1 ++ Abort c a :: h3 ++ [x]) with (h1 ++ (Abort c a :: h3) ++ [x]) in E.
      rewrite app_assoc in E.
      apply app_inj_tail in E. destruct E as [-> ->].
      assert (A : armed id (h1 ++ Abort c a :: h3)).
      { exists h1, c, a, h3. split; [reflexivity |]. split; [exact Hn |].
        intros m Hm. apply Hs. apply elem_of_app. left. exact Hm. }
      destruct x; [split; [| exact A] | right; exact A | exact A].
      apply Hs. apply elem_of_app. right. apply elem_of_list_here.
  - assert (Hext : armed id h -> (forall s, m = Shell s -> shell_id s <> id) -> armed id (h ++ [m])).
    { intros (h1 & c & a & h2 & -> & Hn & Hs) Hm. exists h1, c, a, (h2 ++ [m]).
      split; [rewrite <- app_assoc; reflexivity |]. split; [exact Hn |].
      intros s [H | H]%elem_of_app; [apply Hs, H |]. apply elem_of_list_singleton in H.
      apply Hm. symmetry. exact H. }
    destruct m as [s | c a | c].
    + intros [Hne A]. apply Hext; [exact A |]. intros s' [= <-]. exact Hne.
    + intros [Hn | A]; [| apply Hext; [exact A | discriminate]].
      exists h, c, a, []. split; [reflexivity |]. split; [exact Hn |]. intros s Hs. inversion Hs.
    + intros A. apply Hext; [exact A | discriminate].
Qed.

Lemma run_armed base (h : list (msg V)) n id :
  id ∈ k_aborted (snd (run C base h (init n))) <-> armed id h.
Proof.
  induction h as [| m h IH] using rev_ind.
  - cbn. split; [intros H; exfalso; revert H; apply not_elem_of_empty | intros H; exfalso; apply (armed_nil id H)].
  - rewrite run_app, armed_snoc. destruct (run C base h (init n)) as [o1 k1]. cbn [snd] in IH.
    cbn [run]. pose proof (step_aborted base m k1) as Hs.
    destruct (step C base m k1) as [o2 k2]. cbn [snd] in Hs |- *. rewrite Hs.
    destruct m as [s | c [| x | l] | c]; cbn [names].
    + rewrite elem_of_difference, elem_of_singleton, IH. split; intros [? ?]; split; auto.
    + rewrite IH. tauto.
    + rewrite elem_of_union, elem_of_singleton, IH. split; (intros [? | ?]; [left; congruence | right; assumption]).
    + rewrite elem_of_union, elem_of_list_to_set, IH. tauto.
    + exact IH.
Qed.

Lemma armed_unique id (h : list (msg V)) : id ∉ request_ids h -> armed id h <-> aborted_in id h.
Proof.
  intros Hn. split.
  - intros (h1 & c & a & h2 & -> & Ha & _). exists c, a. split; [| exact Ha].
    apply elem_of_app. right. left.
  - intros (c & a & Hin & Ha). apply elem_of_list_split in Hin. destruct Hin as (h1 & h2 & ->).
    exists h1, c, a, h2. split; [reflexivity |]. split; [exact Ha |].
    intros m Hm <-. apply Hn.
    assert (forall (l : list (msg V)), Shell m ∈ l -> shell_id m ∈ request_ids l) as R.
    { induction l as [| x l IHl]; intros H; [inversion H |]. apply elem_of_cons in H. destruct H as [<- | H].
      - left.
      - destruct x; cbn; [right |..]; apply IHl, H. }
    apply R, elem_of_app. right. right. exact Hm.
Qed.

End proofs.
