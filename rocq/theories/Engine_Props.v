(** Property theorems C35 (aborts), C47 (apply on an engine) and C48 (@depend and @require). *)
From stdpp Require Import base gmap list strings.
From Coq Require Import String.
From Verif Require Import Engine_Model Engine_Spec Engine_Proofs.
Open Scope string_scope.
Open Scope list_scope.

(** ** C35.  [base]: whether the installed ipykernel looks at the aborted set itself.
    A request which has been aborted is not executed: nothing of it runs, the namespace stays as it
    is, and it gets one reply, 'aborted', of the type its request calls for. *)
Theorem C35_aborted_not_run : forall V (C : code V) base n h m os k o k',
  run C base h (init n) = (os, k) -> step C base (Shell m) k = (o, k') ->
  armed (shell_id m) h ->
  k_ns k' = k_ns k /\
  o = [OReply (shell_id m) (match m with Apply _ => "apply_reply" | Execute _ _ => "execute_reply" end)
         "aborted" None None true false].
Proof.
  intros V C base n h m os k o k' Hr Hs Ha.
  apply (run_armed C base h n) in Ha. rewrite Hr in Ha. cbn [snd] in Ha.
  cbn [step] in Hs. unfold dispatch_shell in Hs. rewrite should_handle_spec in Hs.
  rewrite decide_True in Hs by exact Ha. injection Hs as <- <-. split; [reflexivity |].
  destruct m; reflexivity.
Qed.
Print Assumptions C35_aborted_not_run.

(** Every other request is treated exactly as if nothing had ever been aborted: same effects, same
    reply, same namespace; and it is not answered 'aborted'. *)
Theorem C35_others_unaffected : forall V (C : code V) base n h m os k o k',
  run C base h (init n) = (os, k) -> step C base (Shell m) k = (o, k') ->
  ~ armed (shell_id m) h ->
  (exists k0, step C base (Shell m) (init (k_ns k)) = (o, k0) /\ k_ns k0 = k_ns k') /\
  (forall x, x ∈ replies o -> exists st er rs dm ei,
     x = OReply (shell_id m) (match m with Apply _ => "apply_reply" | Execute _ _ => "execute_reply" end)
           st er rs dm ei /\ (st = "ok" \/ st = "error")).
Proof.
  intros V C base n h m os k o k' Hr Hs Ha.
  rewrite <- (run_armed C base h n) in Ha. rewrite Hr in Ha. cbn [snd] in Ha.
  cbn [step] in Hs |- *. unfold dispatch_shell in Hs |- *. rewrite should_handle_spec in Hs |- *.
  rewrite decide_False in Hs by exact Ha.
  rewrite (decide_False (P := shell_id m ∈ k_aborted (init (k_ns k)))) by apply not_elem_of_empty.
  cbn [init k_ns]. split.
  - destruct (match m with Apply q => _ | Execute id c => _ end) as [o2 n2] eqn:E.
    injection Hs as <- <-. eexists. split; reflexivity.
  - destruct m as [q | id c].
    + destruct (apply_request C q (k_ns k)) as [o2 n2] eqn:E. injection Hs as <- <-.
      destruct (apply_one_reply C q _ _ _ E) as [r Hrep]. cbn [app]. rewrite Hrep. intros x Hx.
      apply elem_of_list_singleton in Hx. subst x. destruct r; do 5 eexists; (split; [reflexivity |]); auto.
    + destruct (execute_request C id c (k_ns k)) as [o2 n2] eqn:E. injection Hs as <- <-.
      unfold execute_request in E. cbn [app]. intros x Hx.
      destruct (cell_run C c (k_ns k)) as [[u | e] n3]; injection E as <- <-;
        cbn in Hx; apply elem_of_list_singleton in Hx; subst x; do 5 eexists; (split; [reflexivity |]); auto.
Qed.
Print Assumptions C35_others_unaffected.

(** Each request gets exactly one reply, under its own id, at the moment it is handled. *)
Theorem C35_one_reply : forall V (C : code V) base n h m os k o k',
  run C base h (init n) = (os, k) -> step C base (Shell m) k = (o, k') ->
  exists st er rs dm ei, replies o =
    [OReply (shell_id m) (match m with Apply _ => "apply_reply" | Execute _ _ => "execute_reply" end)
       st er rs dm ei].
Proof.
  intros V C base n h m os k o k' Hr Hs.
  destruct (decide (shell_id m ∈ k_aborted k)) as [Hi | Hi].
  - assert (armed (shell_id m) h) as Ha.
    { apply (run_armed C base h n). rewrite Hr. exact Hi. }
    destruct (C35_aborted_not_run _ _ _ _ _ _ _ _ _ _ Hr Hs Ha) as [_ ->]. do 5 eexists. reflexivity.
  - cbn [step] in Hs. unfold dispatch_shell in Hs. rewrite should_handle_spec in Hs.
    rewrite decide_False in Hs by exact Hi. destruct m as [q | id c].
    + destruct (apply_request C q (k_ns k)) as [o2 n2] eqn:E. injection Hs as <- <-.
      destruct (apply_one_reply C q _ _ _ E) as [r Hrep]. cbn [app]. rewrite Hrep.
      destruct r; do 5 eexists; reflexivity.
    + destruct (execute_request C id c (k_ns k)) as [o2 n2] eqn:E. injection Hs as <- <-.
      unfold execute_request in E.
      destruct (cell_run C c (k_ns k)) as [[u | e] n3]; injection E as <- <-; do 5 eexists; reflexivity.
Qed.
Print Assumptions C35_one_reply.

(** Hence, when request ids are not reused, a request is refused exactly if it was named by an abort
    request which arrived before it. *)
Theorem C35_unique_ids : forall V (C : code V) base n h m os k o k',
  run C base h (init n) = (os, k) -> step C base (Shell m) k = (o, k') ->
  shell_id m ∉ request_ids h ->
  (aborted_in (shell_id m) h <-> exists x, x ∈ o /\ exists i t, x = OReply i t "aborted" None None true false).
Proof.
  intros V C base n h m os k o k' Hr Hs Hu. rewrite <- (armed_unique _ _ Hu). split.
  - intros Ha. destruct (C35_aborted_not_run _ _ _ _ _ _ _ _ _ _ Hr Hs Ha) as [_ ->].
    eexists. split; [left | eauto].
  - intros (x & Hx & i & t & ->). apply (run_armed C base h n). rewrite Hr. cbn [snd].
    destruct (decide (shell_id m ∈ k_aborted k)) as [Hi | Hi]; [exact Hi |]. exfalso.
    assert (~ armed (shell_id m) h) as Ha.
    { rewrite <- (run_armed C base h n). rewrite Hr. exact Hi. }
    destruct (C35_others_unaffected _ _ _ _ _ _ _ _ _ _ Hr Hs Ha) as [_ H].
    destruct (H (OReply i t "aborted" None None true false)) as (st & er & rs & dm & ei & E & D).
    { unfold replies. apply elem_of_list_In. apply List.filter_In. split; [apply elem_of_list_In, Hx | reflexivity]. }
    injection E as _ _ <- _ _ _ _. destruct D; discriminate.
Qed.
Print Assumptions C35_unique_ids.

(** ** C47: apply.  The function is called at most once, with the unpacked function and arguments, in
    the namespace left by the unpacking plus the four temporary names of the task; afterwards the
    temporary names are gone and every other name is as the call left it - also when the call raises.
    If the function is not called, the namespace is what the unpacking left. *)
Theorem C47_call : forall V (C : code V) q n o n',
  apply_request C q n = (o, n') ->
  exists o1 r1 n1, unpack C (q_f q) (q_args q) (q_kw q) n = (o1, r1, n1) /\
  match r1 with
  | Rse _ => calls o = [] /\ n' = n1
  | Ret (f, a, k) => exists env, calls o = [OCall f a k env] /\
      (forall x, x ∉ temp_names (q_id q) -> env !! x = n1 !! x) /\
      (forall x, x ∈ temp_names (q_id q) -> n' !! x = None) /\
      (forall x, x ∉ temp_names (q_id q) -> n' !! x = snd (call C f a k env) !! x)
  end.
Proof.
  intros V C q n o n' E.
  destruct (apply_cases C q n) as [(o1 & e & n1 & E1 & E2) | (o1 & f & a & k & n1 & r & n2 & E1 & Ec & E2)].
  - exists o1, (Rse e), n1. split; [exact E1 |]. rewrite E in E2. injection E2 as Eo En.
    split; [| exact En]. rewrite Eo. destruct (logged_no _ _ _ (unpack_logged _ _ _ _ _ _ _ _ E1)) as [_ Hc].
    unfold calls in *. rewrite List.filter_app, Hc. reflexivity.
  - exists o1, (Ret (f, a, k)), n1. split; [exact E1 |]. cbn zeta in E2. rewrite E in E2.
    pose proof (f_equal fst E2) as Eo. pose proof (f_equal snd E2) as En. cbn [fst snd] in Eo, En.
    exists (call_env (q_id q) f a k n1). split; [| split; [| split]].
    + revert Eo. match goal with |- context [finished q ?r] => generalize r end. intros r0 ->.
      destruct (logged_no _ _ _ (unpack_logged _ _ _ _ _ _ _ _ E1)) as [_ Hc].
      unfold calls in *. rewrite List.filter_app, Hc. cbn [app List.filter is_call].
      rewrite (proj2 (finished_reply q r0)). reflexivity.
    + intros x Hx. apply call_env_other, Hx.
    + intros x Hx. rewrite En. apply pop_temp, Hx.
    + intros x Hx. rewrite En, Ec. apply pop_other, Hx.
Qed.
Print Assumptions C47_call.

(** A function which leaves the namespace alone leaves no trace. *)
Theorem C47_no_trace : forall V (C : code V) q n o n' vf va vk,
  apply_request C q n = (o, n') ->
  q_f q = CnVal vf -> q_args q = map CnVal va -> q_kw q = map (fun xv => (fst xv, CnVal (snd xv))) vk ->
  (forall env, snd (call C vf va vk env) = env) ->
  (forall x, x ∈ temp_names (q_id q) -> n !! x = None) ->
  n' = n.
Proof.
  intros V C q n o n' vf va vk E Hf Ha Hk Hp Ht.
  destruct (C47_call _ _ _ _ _ _ E) as (o1 & r1 & n1 & Hu & H).
  assert (L : forall l m, uncan_list C (map CnVal l) m = ([], Ret l, m)).
  { induction l as [| v l IH]; intros m; [reflexivity |]. cbn. rewrite IH. reflexivity. }
  unfold unpack in Hu. rewrite Hf, Ha, Hk in Hu. cbn [uncan] in Hu. rewrite L in Hu.
  rewrite !map_map in Hu. cbn in Hu.
  change (map (λ x : string * V, CnVal x.2) vk) with (map (fun x => CnVal ((fun y => snd y) x)) vk) in Hu.
  rewrite <- (map_map snd CnVal), L in Hu. injection Hu as <- <- <-.
  assert (Z : zip (map fst vk) (map snd vk) = vk).
  { clear. induction vk as [| [x v] vk IH]; [reflexivity |]. cbn. f_equal. exact IH. }
  change (map (λ x : string * V, x.1) vk) with (map fst vk) in H. rewrite Z in H.
  destruct H as (env & _ & He & H1 & H2). apply map_eq. intros x.
  destruct (decide (x ∈ temp_names (q_id q))) as [Hx | Hx].
  - rewrite H1, Ht by exact Hx. reflexivity.
  - rewrite H2, Hp, He by exact Hx. reflexivity.
Qed.
Print Assumptions C47_no_trace.

(** The single reply tells what happened: 'ok' with the value the function returned, or 'error' with
    the exception of the unpacking, of the function (whatever it is, also SystemExit) or of the
    serialization of its result. *)
Theorem C47_reply : forall V (C : code V) q n o n' o1 r1 n1,
  apply_request C q n = (o, n') ->
  unpack C (q_f q) (q_args q) (q_kw q) n = (o1, r1, n1) ->
  let error e := [OReply (q_id q) "apply_reply" "error"
                    (Some (x_name e, if x_str_fails e then "Failed to cast exception to string" else x_text e))
                    None (negb (bool_decide (x_name e = "UnmetDependency"))) true] in
  match r1 with
  | Rse e => replies o = error e
  | Ret (f, a, k) => forall env, OCall f a k env ∈ o ->
      match fst (call C f a k env) with
      | Rse e => replies o = error e
      | Ret v => match picklable C v with
                 | Some e => replies o = error e
                 | None => replies o = [OReply (q_id q) "apply_reply" "ok" None (Some v) true false]
                 end
      end
  end.
Proof.
  intros V C q n o n' o1 r1 n1 E Hu error.
  destruct (apply_cases C q n) as [(o1' & e & n1' & E1 & E2) | (o1' & f & a & k & n1' & r & n2 & E1 & Ec & E2)].
  - rewrite Hu in E1. injection E1 as -> -> ->. rewrite E in E2. apply (f_equal fst) in E2. cbn [fst] in E2.
    rewrite E2. destruct (logged_no _ _ _ (unpack_logged _ _ _ _ _ _ _ _ Hu)) as [Hr _].
    unfold replies in *. rewrite List.filter_app, Hr. reflexivity.
  - rewrite Hu in E1. injection E1 as -> -> ->. cbn zeta in E2. rewrite E in E2.
    apply (f_equal fst) in E2. cbn [fst] in E2. intros env Henv.
    pose proof (unpack_logged _ _ _ _ _ _ _ _ Hu) as HL.
    assert (env = call_env (q_id q) f a k n1') as ->.
    { rewrite E2 in Henv. apply elem_of_app in Henv. destruct Henv as [Hi | Hi].
      - destruct HL as [HL _]. destruct (HL _ Hi) as [[c Hc] | (m & c & Hc)]; discriminate.
      - apply elem_of_cons in Hi. destruct Hi as [Hi | Hi]; [injection Hi as ->; reflexivity |].
        apply elem_of_list_singleton in Hi. exfalso.
        revert Hi. match goal with |- context [finished q ?r] => destruct r end; discriminate. }
    rewrite Ec. cbn [fst]. destruct (logged_no _ _ _ HL) as [Hr _].
    assert (HR : forall r0, o = o1' ++ [OCall f a k (call_env (q_id q) f a k n1'); finished q r0] ->
                 replies o = [finished q r0]).
    { intros r0 ->. unfold replies in *. rewrite List.filter_app, Hr. cbn [app List.filter is_reply].
      rewrite (proj1 (finished_reply q r0)). reflexivity. }
    destruct r as [v | e]; [destruct (picklable C v) as [e |] |]; apply (HR _ E2).
Qed.
Print Assumptions C47_reply.

(** References are looked up on the engine when the task is unpacked: if evaluating a name just reads
    the namespace, the function receives the values which the names have there; if one of them is not
    bound the function is not called and the reply is a NameError. *)
Theorem C47_references : forall V (C : code V) q n o n' vf args,
  (forall x m, evalref C x m = (match m !! x with Some (CV v) => Ret v
                                | _ => Rse (Exc "NameError" x false) end, m)) ->
  apply_request C q n = (o, n') ->
  q_f q = CnVal vf -> q_kw q = [] ->
  q_args q = map (fun a => match a with inl v => CnVal v | inr x => CnRef x end) args ->
  (forall vs, Forall2 (fun a v => match a with inl w => v = w | inr x => n !! x = Some (CV v) end) args vs ->
     exists env, calls o = [OCall vf vs [] env]) /\
  (forall x, inr x ∈ args -> (forall v, n !! x <> Some (CV v)) ->
     calls o = [] /\ exists y, replies o = [OReply (q_id q) "apply_reply" "error" (Some ("NameError", y)) None true true]).
Proof.
  intros V C q n o n' vf args Hev E Hf Hk Ha.
  destruct (C47_call _ _ _ _ _ _ E) as (o1 & r1 & n1 & Hu & Hc).
  pose proof (C47_reply _ _ _ _ _ _ _ _ _ E Hu) as Hr. cbn zeta in Hr.
  unfold unpack in Hu. rewrite Hf, Hk, Ha in Hu. cbn [uncan map] in Hu.
  set (g := fun a : V + string => match a with inl v => CnVal v | inr x => CnRef x end) in *.
  assert (L : (forall vs, Forall2 (fun a v => match a with inl w => v = w | inr x => n !! x = Some (CV v) end) args vs ->
                uncan_list C (map g args) n = ([], Ret vs, n)) /\
              (forall x, inr x ∈ args -> (forall v, n !! x <> Some (CV v)) ->
                exists y, uncan_list C (map g args) n = ([], Rse (Exc "NameError" y false), n))).
  { clear - Hev. induction args as [| a args [IH1 IH2]]; split.
    - intros vs Hv. inversion Hv. reflexivity.
    - intros x Hx. inversion Hx.
    - intros vs Hv. inversion Hv as [| ? v ? vs' Hav Hvs]; subst. cbn [map uncan_list].
      destruct a as [w | y]; cbn [g uncan].
      + subst w. rewrite (IH1 _ Hvs). reflexivity.
      + rewrite Hev, Hav. rewrite (IH1 _ Hvs). reflexivity.
    - intros x Hx Hn. cbn [map uncan_list]. apply elem_of_cons in Hx.
      destruct a as [w | z]; cbn [g uncan].
      + destruct Hx as [Hx | Hx]; [discriminate |]. destruct (IH2 x Hx Hn) as [y ->]. exists y. reflexivity.
      + rewrite Hev. destruct (n !! z) as [[v | ? | ? |] |] eqn:Ez; try (eexists; reflexivity).
        destruct Hx as [Hx | Hx]; [injection Hx as ->; exfalso; apply (Hn v); assumption |].
        destruct (IH2 x Hx Hn) as [y ->]. exists y. reflexivity. }
  destruct L as [L1 L2]. split.
  - intros vs Hv. rewrite (L1 _ Hv) in Hu. cbn in Hu. injection Hu as <- <- <-.
    destruct Hc as (env & Hc & _). exists env. exact Hc.
  - intros x Hx Hn. destruct (L2 x Hx Hn) as [y Ey]. rewrite Ey in Hu. injection Hu as <- <- <-.
    destruct Hc as [Hc _]. split; [exact Hc |]. exists y. exact Hr.
Qed.
Print Assumptions C47_references.

(** ** C48: dependencies.  If any dependency of the task turns out not to hold (a @depend function
    returned False or raised, or a @require'd module cannot be imported), the function is not called,
    and the reply is the corresponding error. *)
Theorem C48_unsatisfied : forall V (C : code V) q n o n' x e,
  apply_request C q n = (o, n') -> x ∈ o -> unsatisfied C x e ->
  calls o = [] /\
  exists text, replies o = [OReply (q_id q) "apply_reply" "error" (Some (x_name e, text)) None
                              (negb (bool_decide (x_name e = "UnmetDependency"))) true].
Proof.
  intros V C q n o n' x e E Hx Hu.
  destruct (apply_cases C q n) as [(o1 & e1 & n1 & E1 & E2) | (o1 & f & a & k & n1 & r & n2 & E1 & Ec & E2)];
    pose proof (unpack_logged _ _ _ _ _ _ _ _ E1) as HL.
  - rewrite E in E2. apply (f_equal fst) in E2. cbn [fst] in E2.
    destruct (logged_no _ _ _ HL) as [Hr Hc].
    assert (Hi : x ∈ o1).
    { rewrite E2 in Hx. apply elem_of_app in Hx. destruct Hx as [Hx | Hx]; [exact Hx |].
      apply elem_of_list_singleton in Hx. subst x. inversion Hu. }
    pose proof (proj2 HL x e Hi Hu) as Ee. injection Ee as ->. rewrite E2. unfold calls, replies in *.
    rewrite !List.filter_app, Hr, Hc. split; [reflexivity |]. eexists. reflexivity.
  - exfalso. cbn zeta in E2. rewrite E in E2. apply (f_equal fst) in E2. cbn [fst] in E2.
    rewrite E2 in Hx. apply elem_of_app in Hx. destruct Hx as [Hx | Hx].
    + pose proof (proj2 HL x e Hx Hu). discriminate.
    + apply elem_of_cons in Hx. destruct Hx as [-> | Hx]; [inversion Hu |].
      apply elem_of_list_singleton in Hx. subst x.
      revert Hu. match goal with |- context [finished q ?r] => destruct r end; intros Hu; inversion Hu.
Qed.
Print Assumptions C48_unsatisfied.

(** The scheduler is told "dependencies not met" exactly when the error is UnmetDependency. *)
Theorem C48_flag : forall V (C : code V) q n o n' i t st er rs dm ei,
  apply_request C q n = (o, n') -> OReply i t st er rs dm ei ∈ o ->
  (dm = false <-> exists text, er = Some ("UnmetDependency", text)).
Proof.
  intros V C q n o n' i t st er rs dm ei E Hx.
  assert (Hin : OReply i t st er rs dm ei ∈ replies o).
  { apply elem_of_list_In, List.filter_In. split; [apply elem_of_list_In, Hx | reflexivity]. }
  destruct (apply_one_reply C q n o n' E) as [r Hr]. rewrite Hr in Hin.
  apply elem_of_list_singleton in Hin. destruct r as [v | e]; injection Hin as -> -> -> -> -> -> ->.
  - split; [discriminate | intros [? ?]; discriminate].
  - rewrite negb_false_iff, bool_decide_eq_true. split.
    + intros ->. eexists. reflexivity.
    + intros [text H]. injection H as H _. exact H.
Qed.
Print Assumptions C48_flag.

(** @depend(df, dargs, dkwargs): the check is made, once, before anything else, on this engine; its
    outcome decides: only the value False and exceptions stop the task. *)
Theorem C48_depend : forall V (C : code V) q n o n' f df dargs dkw va,
  apply_request C q n = (o, n') ->
  q_f q = CnDep (CnVal f) (CnVal df) dargs dkw -> q_args q = map CnVal va -> q_kw q = [] ->
  let check := fst (call C df dargs dkw n) in
  exists rest, o = OCheck check :: rest /\ (forall c, OCheck c ∉ rest) /\
    ((exists env, OCall f va [] env ∈ rest) <-> exists v, check = Ret v /\ is_false C v = false) /\
    ((exists text, check = Rse (unmet text)) \/ (exists v, check = Ret v /\ is_false C v = true) ->
     exists text, replies rest = [OReply (q_id q) "apply_reply" "error" (Some ("UnmetDependency", text)) None false true]).
Proof.
  intros V C q n o n' f df dargs dkw va E Hf Ha Hk check.
  assert (L : forall l m, uncan_list C (map CnVal l) m = ([], Ret l, m)).
  { induction l as [| v l IH]; intros m; [reflexivity |]. cbn. rewrite IH. reflexivity. }
  destruct (apply_cases C q n) as [(o1 & e1 & n1 & E1 & E2) | (o1 & f0 & a & k & n1 & r & n2 & E1 & Ec & E2)];
    unfold unpack in E1; rewrite Hf, Ha, Hk in E1; cbn [uncan] in E1; subst check;
    destruct (call C df dargs dkw n) as [[w | e] m1] eqn:Ecall; cbn [fst].
  - destruct (is_false C w) eqn:Ew.
    2: { rewrite L in E1. discriminate. }
    injection E1 as <- <- <-. rewrite E in E2. apply (f_equal fst) in E2. cbn [fst app] in E2.
    eexists. split; [exact E2 |]. split; [| split].
    + intros c Hc. apply elem_of_list_singleton in Hc. discriminate.
    + split.
      * intros [env Hc]. apply elem_of_list_singleton in Hc. discriminate.
      * intros (v & [= <-] & Hv). congruence.
    + intros _. eexists. reflexivity.
  - injection E1 as <- <- <-. rewrite E in E2. apply (f_equal fst) in E2. cbn [fst app] in E2.
    eexists. split; [exact E2 |]. split; [| split].
    + intros c Hc. apply elem_of_list_singleton in Hc. discriminate.
    + split.
      * intros [env Hc]. apply elem_of_list_singleton in Hc. discriminate.
      * intros (v & [=] & Hv).
    + intros [[text [= ->]] | (v & [=] & _)]. eexists. reflexivity.
  - destruct (is_false C w) eqn:Ew; [discriminate |]. rewrite L in E1.
    change (uncan_list C (map snd []) m1) with (@nil (out V), Ret (@nil V), m1) in E1.
    injection E1 as <- <- <- <- <-.
    cbn zeta in E2. rewrite E in E2. apply (f_equal fst) in E2. cbn [fst app] in E2.
    eexists. split; [exact E2 |]. split; [| split].
    + intros c Hc. apply elem_of_cons in Hc. destruct Hc as [Hc | Hc]; [discriminate |].
      apply elem_of_list_singleton in Hc. revert Hc.
      match goal with |- context [finished q ?r] => destruct r end; discriminate.
    + split; [intros _; eauto |]. intros _. eexists. left.
    + intros [[text [=]] | (v & [= <-] & Hv)]. congruence.
  - discriminate.
Qed.
Print Assumptions C48_depend.

(** @require: the function is called only after every module was imported on this engine, and then
    every required object is bound to its name. *)
Theorem C48_require : forall V (C : code V) q n o n' f nm mp va a k env,
  apply_request C q n = (o, n') ->
  q_f q = CnReq (CnVal f) nm (map (fun xv => (fst xv, CnVal (snd xv))) mp) ->
  q_args q = map CnVal va -> q_kw q = [] ->
  NoDup (map fst mp) ->
  OCall f a k env ∈ o ->
  (forall m, m ∈ nm -> OImport m (Ret tt) ∈ o) /\
  (forall x v, (x, v) ∈ mp -> x ∉ temp_names (q_id q) -> env !! x = Some (CV v)) /\
  a = va /\ k = [].
Proof.
  intros V C q n o n' f nm mp va a k env E Hf Ha Hk Hnd Hin.
  assert (L : forall l m, uncan_list C (map CnVal l) m = ([], Ret l, m)).
  { induction l as [| v l IH]; intros m; [reflexivity |]. cbn. rewrite IH. reflexivity. }
  assert (HI : forall nm n o r n', require_imports C nm n = (o, r, n') ->
    match r with Ret _ => forall m, m ∈ nm -> OImport m (Ret tt) ∈ o | Rse _ => True end).
  { clear. induction nm as [| m nm IH]; intros n o r n' E; cbn [require_imports] in E.
    - injection E as <- <- <-. intros m Hm. inversion Hm.
    - destruct (import C m n) as [[[] | e] n1].
      + destruct (require_imports C nm n1) as [[o2 x2] n2] eqn:E2. injection E as <- <- <-.
        specialize (IH _ _ _ _ E2). destruct x2; [| exact I]. intros m' Hm'.
        apply elem_of_cons in Hm'. destruct Hm' as [-> | Hm']; [left | right; apply IH, Hm'].
      + injection E as <- <- <-. exact I. }
  destruct (apply_cases C q n) as [(o1 & e1 & n1 & E1 & E2) | (o1 & f0 & a0 & k0 & n1 & r & n2 & E1 & Ec & E2)].
  { exfalso. pose proof (unpack_logged _ _ _ _ _ _ _ _ E1) as HL. rewrite E in E2. apply (f_equal fst) in E2.
    cbn [fst] in E2. rewrite E2 in Hin. apply elem_of_app in Hin. destruct Hin as [Hi | Hi].
    - destruct (proj1 HL _ Hi) as [[c Hc] | (m & c & Hc)]; discriminate.
    - apply elem_of_list_singleton in Hi. discriminate. }
  pose proof (unpack_logged _ _ _ _ _ _ _ _ E1) as HL.
  cbn zeta in E2. rewrite E in E2. apply (f_equal fst) in E2. cbn [fst] in E2.
  assert (a = a0 /\ k = k0 /\ env = call_env (q_id q) f0 a0 k0 n1) as (-> & -> & ->).
  { rewrite E2 in Hin. apply elem_of_app in Hin. destruct Hin as [Hi | Hi].
    - destruct (proj1 HL _ Hi) as [[c Hc] | (m & c & Hc)]; discriminate.
    - apply elem_of_cons in Hi. destruct Hi as [Hi | Hi]; [injection Hi as -> -> -> ->; auto |].
      apply elem_of_list_singleton in Hi. exfalso. revert Hi.
      match goal with |- context [finished q ?r] => destruct r end; discriminate. }
  unfold unpack in E1. rewrite Hf, Ha, Hk in E1. cbn [uncan] in E1.
  destruct (require_imports C nm n) as [[oi ri] ni] eqn:Ei. pose proof (HI _ _ _ _ _ Ei) as Him.
  destruct ri as [u | e]; [| discriminate].
  match type of E1 with context [(let '(_, _) := ?g _ ni in _)] => set (go := g) in E1 end.
  assert (G : forall l m, go (map (fun xv => (fst xv, CnVal (snd xv))) l) m =
      ([], Ret tt, fold_left (fun m xv => <[fst xv := CV (snd xv)]> m) l m)).
  { induction l as [| [x v] l IH]; intros m; [reflexivity |].
    specialize (IH (<[x := CV v]> m)). unfold go in *. cbn [map fst snd uncan app fold_left] in *.
    rewrite IH. reflexivity. }
  rewrite G in E1. rewrite L in E1. cbn [map uncan_list] in E1.
  injection E1 as <- <- <- <- <-.
  split; [| split; [| split; reflexivity]].
  - intros m Hm. rewrite E2. apply elem_of_app. left. cbn [app]. rewrite !app_nil_r. apply Him, Hm.
  - intros x v Hxv Hx. rewrite call_env_other by exact Hx.
    clear - Hxv Hnd. revert ni. induction mp as [| [y w] mp IH]; intros ni; [inversion Hxv |].
    cbn [fold_left fst snd]. cbn [map fst] in Hnd. apply NoDup_cons in Hnd. destruct Hnd as [Hy Hnd].
    apply elem_of_cons in Hxv. destruct Hxv as [[= -> ->] | Hxv]; [| apply IH; assumption].
    clear IH. assert (K : forall (l : list (string * V)) (m : gmap string (cell V)), y ∉ map fst l ->
       fold_left (fun m xv => <[fst xv := CV (snd xv)]> m) l m !! y = m !! y).
    { induction l as [| [z u] l IH]; intros m Hn; [reflexivity |]. cbn [fold_left fst snd].
      cbn [map fst] in Hn. apply not_elem_of_cons in Hn. destruct Hn as [Hn1 Hn2].
      rewrite IH by exact Hn2. apply lookup_insert_ne. congruence. }
    rewrite K by exact Hy. apply lookup_insert.
Qed.
Print Assumptions C48_require.

(** ** Examples.  Values are numbers; 0 is False; calling [f] on [args] returns f plus the number of
    arguments, raises if f = 13, and binds "seen" in the namespace; importing "numpy" fails. *)
Definition demo : code nat := Code
  (fun f a k n => (if bool_decide (f = 13) then Rse (Exc "SystemExit" "bye" false)
                   else if bool_decide (f = 7) then Ret 0 else Ret (f + List.length a),
                   if bool_decide (f = 1) then n else <["seen" := CV f]> n))
  (fun x n => (match n !! x with Some (CV v) => Ret v | _ => Rse (Exc "NameError" x false) end, n))
  (fun m n => (if bool_decide (m = "numpy") then Rse (Exc "ModuleNotFoundError" m false) else Ret tt, n))
  (fun c n => (Ret tt, n))
  (fun l => List.length l)
  (fun v => bool_decide (v = 0))
  (fun v => None)
  ∅.
Definition r1 : request nat := Req "a-1" (CnVal 20) [CnVal 1; CnRef "x"] [].
Definition r2 : request nat := Req "a-2" (CnDep (CnVal 20) (CnVal 7) [] []) [] [].
Definition r3 : request nat := Req "a-3" (CnReq (CnVal 20) ["os"] [("helper", CnVal 5)]) [] [].
Definition r4 : request nat := Req "a-4" (CnReq (CnVal 20) ["os"; "numpy"] []) [] [].
Definition r5 : request nat := Req "a-5" (CnVal 13) [] [].

Definition shown (os : list (list (out nat))) := map (fun o => (replies o, List.length (calls o))) os.

Example C35_example :
  shown (fst (run demo true
    [Abort "c1" (AList ["a-2"; "a-9"]); Shell (Apply r1); Shell (Apply r2); Shell (Apply r3);
     Shell (Apply r4); Shell (Apply r5); Shell (Apply r2)] (init {["x" := CV 4]}))) =
  [([OReply "c1" "abort_reply" "ok" None None true false], 0);
   ([OReply "a-1" "apply_reply" "ok" None (Some 22) true false], 1);
   ([OReply "a-2" "apply_reply" "aborted" None None true false], 0);
   ([OReply "a-3" "apply_reply" "ok" None (Some 20) true false], 1);
   ([OReply "a-4" "apply_reply" "error" (Some ("UnmetDependency", "numpy")) None false true], 0);
   ([OReply "a-5" "apply_reply" "error" (Some ("SystemExit", "bye")) None true true], 1);
   ([OReply "a-2" "apply_reply" "error" (Some ("UnmetDependency", "")) None false true], 0)].
Proof. vm_compute. reflexivity. Qed.

Example C35_example_armed : armed (V := nat) "a-2" [Abort "c1" (AList ["a-2"; "a-9"]); Shell (Apply r1)].
Proof.
  exists [], "c1", (AList ["a-2"; "a-9"]), [Shell (Apply r1)]. split; [reflexivity |].
  split; [left |]. intros m Hm. apply elem_of_list_singleton in Hm. injection Hm as ->. discriminate.
Qed.

Example C47_example : snd (apply_request demo (Req "a-1" (CnVal 1) [CnVal 1] []) {["x" := CV 4]}) = {["x" := CV 4]}.
Proof.
  eapply (C47_no_trace nat demo (Req "a-1" (CnVal 1) [CnVal 1] []) {["x" := CV 4]} _ _ 1 [1] []);
    [apply surjective_pairing | reflexivity | reflexivity | reflexivity | reflexivity |].
  intros x Hx. repeat (apply elem_of_cons in Hx; destruct Hx as [-> | Hx]; [reflexivity |]). inversion Hx.
Qed.
Example C47_example_names : temp_names "a-1" = ["_a_1_f"; "_a_1_args"; "_a_1_kwargs"; "_a_1_result"].
Proof. reflexivity. Qed.

(** An abort is remembered after the task has run: a task which is sent again under the same id (as
    the scheduler does for a retry) is refused though the abort came before and concerned the
    earlier execution. *)
Theorem C35_stale_abort_refuted : ~ (forall V (C : code V) base n h m os k o k',
  run C base h (init n) = (os, k) -> step C base (Shell m) k = (o, k') ->
  (forall h1 c a h2, h = h1 ++ Abort c a :: h2 -> Shell m ∈ h1 /\ Shell m ∉ h2) ->
  calls o <> []).
Proof.
  intros H.
  set (h := [Shell (Apply r1); Abort "c1" (AList ["a-1"])]).
  specialize (H nat demo true {["x" := CV 4]} h (Apply r1) _ _ _ _ (surjective_pairing _) (surjective_pairing _)).
  apply H; [| vm_compute; reflexivity].
  intros h1 c a h2 E. destruct h1 as [| x1 [| x2 h1]]; [discriminate | | ].
  - injection E as <- <- <- <-. split; [left | intros Hx; inversion Hx].
  - exfalso. injection E as _ _ E. destruct h1; discriminate.
Qed.
Print Assumptions C35_stale_abort_refuted.

(** An abort request without 'msg_ids' gets no reply at all. *)
Theorem C35_no_ids_no_reply : forall V (k : kernel V) id, replies (fst (abort_request id ANone k)) = [].
Proof. reflexivity. Qed.
Print Assumptions C35_no_ids_no_reply.
