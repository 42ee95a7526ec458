(** C67: each engine executes the requests of a view in order: push, pull and what is between them.  C68: scatter, gather and BroadcastView.map. *)
From stdpp Require Import base gmap strings list.
From Verif Require Import Ns_Spec Ns_Model Ns_Proofs Ns_Proofs2 Ns_Proofs3 Ns_Proofs4 Ns_Proofs5.
From Verif Require Map_Model Prelude Map_Spec Map_Proofs.
From Coq Require Import Lia.

Lemma after_cons b f c m l ns : after b f c ns (m :: l) = after b f c (fst (exec b f c (m_req m) ns)) l.
Proof. reflexivity. Qed.
Lemma serially_after b f c l : forall ns, fst (serially (exec b f c) ns l) = after b f c ns l.
Proof. induction l as [|m l IH]; intros ns; [reflexivity|]. rewrite after_cons. cbn [serially]. destruct (exec b f c (m_req m) ns) as [ns1 r]. cbn [fst]. rewrite <- (IH ns1). destruct (serially _ ns1 l). reflexivity. Qed.
Lemma serially_replies b f c l : forall ns i r, (i, r) ∈ snd (serially (exec b f c) ns l) <-> exists m l1 l2, l = l1 ++ m :: l2 /\ m_id m = i /\ r = snd (exec b f c (m_req m) (after b f c ns l1)).
Proof.
  induction l as [|m l IH]; intros ns i r; cbn [serially].
  - cbn [snd]. split; [intros X; inversion X|]. intros (m & l1 & l2 & X & _). destruct l1; discriminate.
  - destruct (exec b f c (m_req m) ns) as [ns1 r1] eqn:E. specialize (IH ns1 i r). destruct (serially _ ns1 l) as [ns2 rs]. cbn [snd] in *. rewrite elem_of_cons, IH. split.
    + intros [X|(m' & l1 & l2 & -> & I & ->)].
      * assert (X1 : i = m_id m) by congruence. assert (X2 : r = r1) by congruence. subst. exists m, [], l. change (after b f c ns []) with ns. rewrite E. auto.
      * exists m', (m :: l1), l2. rewrite after_cons, E. auto.
    + intros (m' & [|x l1] & l2 & X & I & ->); cbn [app] in X.
      * left. assert (m' = m) by congruence. subst m'. change (after b f c ns []) with ns. rewrite E. cbn. congruence.
      * right. assert (x = m) by congruence. assert (l = l1 ++ m' :: l2) by congruence. subst x l. exists m', l1, l2. rewrite after_cons, E. auto.
Qed.
Lemma nth_sent_run b f c h i m : sent (run b f c h) !! i = Some m <-> nth_sent h i = Some m.
Proof.
  rewrite sent_run. unfold nth_sent. split; [intros (e & ch & r & -> & ->); reflexivity|]. destruct (sends h !! i) as [[e ch r| |]|]; try discriminate. intros [= <-]. eauto.
Qed.
Lemma nth_sent_list b f c h : sent (run b f c h) = omap (nth_sent h) (seq 0 (length (sends h))).
Proof.
  apply list_eq. intros i. assert (A : forall k, k < length (sends h) -> exists m, nth_sent h k = Some m).
  { intros k K. destruct (lookup_lt_is_Some_2 _ _ K) as [ev E]. unfold nth_sent. rewrite E. assert (X : ev ∈ sends h) by (apply elem_of_list_lookup; eauto). apply elem_of_list_filter in X as [X _]. destruct ev; cbn in X; try contradiction; eauto. }
  assert (B : forall n s, s + n <= length (sends h) -> forall j, omap (nth_sent h) (seq s n) !! j = if decide (j < n) then nth_sent h (s + j) else None).
  { induction n as [|n IH]; intros s L j; [cbn; rewrite decide_False by lia; reflexivity|]. cbn [seq omap list_omap]. destruct (A s) as [m E]; [lia|]. cbn. rewrite E. destruct j as [|j]; cbn [lookup list_lookup].
    - rewrite decide_True by lia. rewrite Nat.add_0_r. congruence.
    - change (omap (nth_sent h) (seq (S s) n) !! j = if decide (S j < S n) then nth_sent h (s + S j) else None). rewrite IH by lia. replace (S s + j) with (s + S j) by lia. destruct (decide (j < n)), (decide (S j < S n)); try lia; reflexivity. }
  rewrite B by lia. cbn [Nat.add]. destruct (decide (i < length (sends h))) as [L|L].
  - destruct (A i L) as [m E]. rewrite E. apply nth_sent_run, E.
  - destruct (sent (run b f c h) !! i) as [m|] eqn:E; [|reflexivity]. exfalso. apply sent_run in E as (e & ch & r & E & _). apply lookup_lt_Some in E. lia.
Qed.

(** For every history and every engine there is an order of messages sent to it, in which those of each channel are the first ones sent on it and in the order
    in which they were sent, such that the engine's namespace, and the reply to each message, are those of executing them one after the other. *)
Theorem C67_serial : forall builtins fn code h e, let s := run builtins fn code h in let all := omap (nth_sent h) (seq 0 (length (sends h))) in
  exists order, (forall m, m ∈ order -> m_engine m = e) /\ NoDup order /\
    (forall c, exists later, channel e c all = channel e c order ++ later) /\
    fst (serially (exec builtins fn code) ∅ order) = spaces s e /\
    (forall i r, (i, r) ∈ snd (serially (exec builtins fn code) ∅ order) <-> (replies s !! i = Some r /\ exists m, nth_sent h i = Some m /\ m_engine m = e)).
Proof.
  intros b f c h e s all. pose proof (inv_run b f c h) as V. fold s in V. exists (for_engine e (ran s)). split; [|split; [|split; [|split]]].
  - intros m H. apply elem_of_list_filter in H. apply H.
  - apply NoDup_filter, (ran_nodup b f c), V.
  - intros ch. exists (on e ch (queued s)). unfold all. rewrite <- (nth_sent_list b f c). unfold channel. change (on e ch (sent s) = on e ch (for_engine e (ran s)) ++ on e ch (queued s)). rewrite (on_for b f c). apply (v_order _ _ _ _ V).
  - rewrite serially_after. symmetry. apply (v_spaces _ _ _ _ V).
  - intros i r. rewrite serially_replies, (v_replies _ _ _ _ V). split.
    + intros (m & l1 & l2 & E & I & ->). assert (X : m ∈ for_engine e (ran s)) by (rewrite E; apply elem_of_app; right; left). apply elem_of_list_filter in X as [Em X]. split.
      * exists m, l1, l2. rewrite Em. auto.
      * exists m. split; [|exact Em]. apply (nth_sent_run b f c). fold s. assert (Y : m ∈ sent s) by (apply (v_sent _ _ _ _ V), elem_of_app; auto). apply elem_of_list_lookup in Y as [k Y]. pose proof (v_ids _ _ _ _ V _ _ Y). congruence.
    + intros [(m & l1 & l2 & I & E & ->) (m' & M' & Em')]. assert (X : m ∈ for_engine (m_engine m) (ran s)) by (rewrite E; apply elem_of_app; right; left). apply elem_of_list_filter in X as [_ X].
      assert (Y : m ∈ sent s) by (apply (v_sent _ _ _ _ V), elem_of_app; auto). apply elem_of_list_lookup in Y as [k Y]. pose proof (v_ids _ _ _ _ V _ _ Y). assert (k = i) by congruence. subst k.
      apply (nth_sent_run b f c) in M'. fold s in M'. assert (m' = m) by congruence. subst m'. exists m, l1, l2. rewrite <- Em'. auto.
Qed.
Print Assumptions C67_serial.

(** push sets exactly the names it is given, whatever else is in the namespace; no temporary name is left. *)
Theorem C67_push : forall builtins fn code ns kvs, NoDup kvs.*1 -> (forall k v, (k, v) ∈ kvs -> identifier k = true /\ ~ is_tmp k) ->
  exec builtins fn code (Push kvs) ns = (list_to_map kvs ∪ ns, RVal VNone).
Proof.
  intros b f c ns kvs N H. assert (I : forall k v, (k, v) ∈ kvs -> identifier k = true) by (intros k v X; apply (H k v X)).
  rewrite (surjective_pairing (exec b f c (Push kvs) ns)). change (snd (exec b f c (Push kvs) ns)) with (snd (do_push ns kvs)). rewrite push_reply by exact I. f_equal.
  apply map_eq. intros x. change (fst (exec b f c (Push kvs) ns)) with (fst (do_push ns kvs)). rewrite lookup_union. destruct ((list_to_map kvs : namespace) !! x) as [v|] eqn:E.
  - apply elem_of_list_to_map_2 in E. rewrite (push_value ns kvs x v); auto; [destruct (ns !! x); reflexivity|]. apply (H x v E).
  - rewrite push_other; [destruct (ns !! x); reflexivity|]. intros v X. apply not_elem_of_list_to_map in E. apply E, elem_of_list_fmap. exists (x, v). auto.
Qed.
Print Assumptions C67_push.
Lemma push_all_error tmp a k v b : forall ns, (forall k v, (k, v) ∈ a -> identifier k = true) -> identifier k = false ->
  push_all tmp ns (a ++ (k, v) :: b) = (<[tmp := v]> (fst (push_all tmp ns a)), RErr SyntaxError).
Proof.
  induction a as [|[k' v'] a IH]; intros ns H K; cbn [app push_all]; [rewrite K; reflexivity|]. rewrite (H k' v') by left. apply IH; [|exact K]. intros x y X. apply (H x y). right. exact X.
Qed.
(** If one of the names is not a name, those before it are set nevertheless, and those after it are not. *)
Theorem C67_push_error : forall builtins fn code ns a k v b, NoDup a.*1 -> (forall k v, (k, v) ∈ a -> identifier k = true /\ ~ is_tmp k) -> identifier k = false ->
  exec builtins fn code (Push (a ++ (k, v) :: b)) ns = (list_to_map a ∪ ns, RErr SyntaxError).
Proof.
  intros bu f c ns a k v b N H K. pose proof (C67_push bu f c ns a N H) as P. cbn [exec] in *. unfold do_push in *. rewrite push_all_error; [|intros x y X; apply (H x y X)|exact K].
  destruct (push_all (fresh_tmp ns) ns a) as [ns' r]. injection P as P _. cbn [fst]. rewrite delete_insert_delete, P. reflexivity.
Qed.
Print Assumptions C67_push_error.

(** pull gives the value that the name has (in the namespace, or else in the builtins) and changes nothing; of several names, all the values in order. *)
Theorem C67_pull : forall builtins fn code ns x, identifier x = true ->
  exec builtins fn code (Pull x) ns = (ns, match ns !! x with Some v => RVal v | None => match builtins !! x with Some v => RVal v | None => RErr NameError end end).
Proof. intros b f c ns x I. cbn [exec]. unfold eval. rewrite I. destruct (ns !! x); [reflexivity|]. destruct (b !! x); reflexivity. Qed.
Print Assumptions C67_pull.
Theorem C67_pull_all : forall builtins fn code ns xs vs, Forall2 (fun x v => identifier x = true /\ ns !! x = Some v) xs vs -> exec builtins fn code (PullAll xs) ns = (ns, RVal (VSeq KList vs)).
Proof.
  intros b f c ns xs vs F. cbn [exec]. assert (E : eval_all b ns xs = inl vs); [|rewrite E; reflexivity]. induction F as [|x v xs vs [I X] F IH]; [reflexivity|]. cbn [eval_all]. unfold eval. rewrite I, X, IH. reflexivity.
Qed.
Print Assumptions C67_pull_all.

(** So a pull gets what an earlier push on the same channel sent, if nothing between them, and nothing on other channels, touches the name. *)
Theorem C67_push_pull : forall builtins fn code h A B C e c kvs x v r,
  sends h = A ++ Send e c (Push kvs) :: B ++ Send e c (Pull x) :: C ->
  NoDup kvs.*1 -> (forall k v, (k, v) ∈ kvs -> identifier k = true) -> ~ is_tmp x -> (x, v) ∈ kvs ->
  (forall c' r, Send e c' r ∈ B -> leaves (exec builtins fn code) r x) ->
  (forall c' r, Send e c' r ∈ A ++ C -> c' <> c -> leaves (exec builtins fn code) r x) ->
  replies (run builtins fn code h) !! (S (length A + length B)) = Some r -> r = RVal v.
Proof.
  intros b f ca h A B C e c kvs x v r H N I T X HB HAC R. pose proof (inv_run b f ca h) as V.
  assert (S1 : sent (run b f ca h) !! S (length A + length B) = Some (Msg e c (S (length A + length B)) (Pull x))).
  { apply sent_run. exists e, c, (Pull x). split; [|reflexivity]. rewrite H, lookup_app_r by lia. replace (S (length A + length B) - length A) with (S (length B)) by lia. cbn [lookup list_lookup]. change ((B ++ Send e c (Pull x) :: C) !! length B = Some (Send e c (Pull x))). apply list_lookup_middle. reflexivity. }
  assert (S2 : sent (run b f ca h) !! length A = Some (Msg e c (length A) (Push kvs))).
  { apply sent_run. exists e, c, (Push kvs). split; [|reflexivity]. rewrite H. apply list_lookup_middle. reflexivity. }
  destruct (reply_seen _ _ _ _ _ _ _ V S1 R) as (ns & Sn & ->). assert (E : ns !! x = Some v).
  { eapply (holds_at _ _ _ _ (length A) (S (length A + length B))); [exact V|exact S2|exact S1|lia|reflexivity|reflexivity| | |exact Sn]; cbn [m_req m_engine m_chan].
    - intros ns'. apply push_value; auto.
    - intros k m M Em K1 K2 W. apply sent_run in M as (e' & c' & r' & M & ->). cbn [m_req m_engine m_chan] in *. subst e'. rewrite H in M.
      apply lookup_app_Some in M as [M|[Z1 M]].
      { pose proof (lookup_lt_Some _ _ _ M). apply (HAC c' r'); [apply elem_of_app; left; apply elem_of_list_lookup; eauto|]. destruct W as [W|W]; [lia|exact W]. }
      destruct (k - length A) as [|k'] eqn:Ek; [lia|]. change ((B ++ Send e c (Pull x) :: C) !! k' = Some (Send e c' r')) in M.
      apply lookup_app_Some in M as [M|[Z2 M]]; [apply (HB c' r'), elem_of_list_lookup; eauto|].
      destruct (k' - length B) as [|k''] eqn:Ek'; [lia|]. change (C !! k'' = Some (Send e c' r')) in M.
      apply (HAC c' r'); [apply elem_of_app; right; apply elem_of_list_lookup; eauto|]. destruct W as [W|W]; [lia|exact W]. }
  cbn [m_req exec snd]. unfold eval. rewrite (I x v X), E. reflexivity.
Qed.
Print Assumptions C67_push_pull.

(** A name that push uses for itself is lost, without an error, *)
Theorem C67_tmp_refuted : exists k v, identifier k = true /\ exec ∅ (fun _ _ => inr 0) (fun _ ns => (ns, RVal VNone)) (Push [(k, v)]) ∅ = (∅, RVal VNone).
Proof. exists "_IP_PUSH_TMP_"%string, (VAtom 1). split; [reflexivity|]. apply injective_projections; [|reflexivity]. cbn [fst]. apply map_eq. intros x. rewrite (lookup_empty (M := gmap string)).
  change (exec _ _ _ _ _) with (do_push ∅ [("_IP_PUSH_TMP_"%string, VAtom 1)]). unfold do_push. change (fresh_tmp ∅) with "_IP_PUSH_TMP_"%string. cbn [push_all].
  change (identifier "_IP_PUSH_TMP_") with true. cbn [fst]. destruct (decide (x = "_IP_PUSH_TMP_"%string)) as [->|N]; [apply lookup_delete|].
  rewrite lookup_delete_ne, !lookup_insert_ne by congruence. reflexivity.
Qed.
Print Assumptions C67_tmp_refuted.
(** and between channels nothing is ordered: a pull through a load-balanced or broadcast view may be executed before a push through a direct view that was sent before. *)
Theorem C67_channels_refuted : exists h e, sends h = [Send e 0 (Push [("x"%string, VAtom 1)]); Send e 1 (Pull "x")] /\ queued (run ∅ (fun _ _ => inr 0) (fun _ ns => (ns, RVal VNone)) h) = [] /\
  replies (run ∅ (fun _ _ => inr 0) (fun _ ns => (ns, RVal VNone)) h) !! 1 = Some (RErr NameError).
Proof. exists [Send 4 0 (Push [("x"%string, VAtom 1)]); Send 4 1 (Pull "x"); Run 4 1; Run 4 0], 4. vm_compute. repeat split. Qed.
Print Assumptions C67_channels_refuted.

(** * C68 *)
(** scatter sends one partition to each target *)
Theorem C68_scatter : forall d flatten key k l c targets, targets <> [] ->
  exists ev, scatter d flatten key (VSeq k l) c targets = Some ev /\ length ev = length targets /\
  forall j e, targets !! j = Some e -> exists p, Map_Model.getPartition d l (Z.of_nat j) (Z.of_nat (length targets)) (Z.of_nat (length l)) = Prelude.Ok p /\
    ev !! j = Some (Send e c (Push [(key, match p with [x] => if flatten then x else VSeq k p | _ => VSeq k p end)])).
Proof.
  intros d fl key k l c ts Q. destruct (scatter_eq d fl key k l c ts) as (parts & P1 & P2 & P3 & P4); [destruct ts; [contradiction|cbn; lia]|]. eexists. split; [exact P4|]. split; [apply pushes_length; rewrite map_length; exact P2|].
  intros j e J. destruct (lookup_lt_is_Some_2 parts j) as [p P]; [rewrite P2; apply lookup_lt_Some in J; exact J|]. exists p. split; [eapply parts_at; eauto|]. apply pushes_at. eexists e, _. split; [exact J|]. split; [|reflexivity].
  apply list_lookup_fmap_Some. exists p. split; [exact P|]. destruct p as [|x [|]]; reflexivity.
Qed.
Print Assumptions C68_scatter.

(** scatter of a list or tuple, then gather on the same view: the list of the same items in the same order, for both distributions, any number of engines and items. *)
Theorem C68_scatter_gather : forall builtins fn code h d key k l c targets A B C ev out, (k = KList \/ k = KTuple) -> targets <> [] -> NoDup targets -> identifier key = true -> ~ is_tmp key ->
  scatter d false key (VSeq k l) c targets = Some ev -> sends h = A ++ ev ++ B ++ gather key c targets ++ C ->
  (forall e c' r, Send e c' r ∈ B -> e ∈ targets -> leaves (exec builtins fn code) r key) ->
  (forall e c' r, Send e c' r ∈ A ++ C -> e ∈ targets -> c' <> c -> leaves (exec builtins fn code) r key) ->
  gathered d (run builtins fn code h) (seq (length (A ++ ev ++ B)) (length targets)) = Some out -> out = inl (VSeq KList l).
Proof. intros. eapply scatter_gather_ok; eauto. Qed.
Print Assumptions C68_scatter_gather.
(** With flatten, as many items as engines, and items that are not lists or tuples themselves, as well (each engine has its item). *)
Theorem C68_flatten : forall builtins fn code h d key k l c targets A B C ev out x, length l = length targets -> targets <> [] -> NoDup targets -> identifier key = true -> ~ is_tmp key ->
  head l = Some x -> (forall its, x <> VSeq KList its /\ x <> VSeq KTuple its) ->
  scatter d true key (VSeq k l) c targets = Some ev -> sends h = A ++ ev ++ B ++ gather key c targets ++ C ->
  (forall e c' r, Send e c' r ∈ B -> e ∈ targets -> leaves (exec builtins fn code) r key) ->
  (forall e c' r, Send e c' r ∈ A ++ C -> e ∈ targets -> c' <> c -> leaves (exec builtins fn code) r key) ->
  gathered d (run builtins fn code h) (seq (length (A ++ ev ++ B)) (length targets)) = Some out -> out = inl (VSeq KList l).
Proof. intros b f ca h d key k l c ts A B C ev out x L Q N I T Hx Px Ev H HB HAC G. eapply flatten_ok; eauto. destruct x as [| |[| |] its]; cbn; auto; destruct (Px its); congruence. Qed.
Print Assumptions C68_flatten.
(** The result is there as soon as the engines have executed the pulls. *)
Theorem C68_ready : forall builtins fn code h d n len, n + len <= length (sends h) ->
  (forall i m, n <= i < n + len -> nth_sent h i = Some m -> m ∉ queued (run builtins fn code h)) -> is_Some (gathered d (run builtins fn code h) (seq n len)).
Proof. intros b f c h d n len L H. apply gathered_done; [|exact L]. intros i m I M. apply (H i m I). apply (nth_sent_run b f c), M. Qed.
Print Assumptions C68_ready.

(** BroadcastView.map of sequences of equal length: the builtin map's list, or an exception that the function raises for some row. *)
Theorem C68_map : forall builtins fn code h key f c targets seqs ls rows n A C ev out, targets <> [] -> NoDup targets -> all_chars (fun x => letter x || digit x) key = true ->
  seqs <> [] -> mapM items_of seqs = Some ls -> Forall (fun l => length l = n) ls -> Map_Spec.zip_rows ls rows ->
  broadcast_map key f c targets seqs = Some ev -> sends h = A ++ ev ++ C ->
  (forall e c' r x, Send e c' r ∈ A ++ C -> e ∈ targets -> c' <> c -> x ∈ map_names key (length seqs) -> leaves (exec builtins fn code) r x) ->
  gathered Map_Model.DistBlock (run builtins fn code h) (seq (length A + length seqs * length targets) (length targets)) = Some out ->
  (exists vs, Forall2 (fun row v => fn f row = inl v) rows vs /\ out = inl (VSeq KList vs)) \/ (exists row x, row ∈ rows /\ fn f row = inr x /\ out = inr (UserError x)).
Proof.
  intros b fn ca h key f c ts seqs ls rows n A C ev out Q N Hk Hn Hls Hlen Hr Hev Hh HAC G.
  assert (Hs : Forall is_seq seqs). { apply mapM_Some in Hls. clear - Hls. induction Hls as [|v l seqs ls H _ IH]; constructor; [exists l; exact H|exact IH]. }
  unfold broadcast_map in Hev. destruct seqs as [|v0 seqs0] eqn:Es; [contradiction|]. rewrite <- Es in *. destruct (scatter_seqs key 0 c ts seqs) as [a|] eqn:Ea; [|discriminate]. injection Hev as <-.
  assert (R : rows = Map_Model.py_zip ls).
  { apply Map_Proofs.nth_error_ext. intros i. rewrite Map_Proofs.py_zip_nth; [|intros ->; apply mapM_Some in Hls; inversion Hls; subst; congruence]. specialize (Hr i).
    destruct (nth_error rows i) as [row|]; [symmetry; apply Hr; reflexivity|]. destruct (Prelude.sequence _) as [row|] eqn:E; [|reflexivity]. apply Hr. reflexivity. }
  rewrite R. eapply (map_result b fn ca h key f c ts seqs A C a); try eassumption. unfold base. rewrite app_length, (a_length b fn ca h key f c ts seqs A C a) by eassumption. exact G.
Qed.
Print Assumptions C68_map.
(** Nothing of it stays in the namespaces, also when the function raises. *)
Theorem C68_map_clean : forall builtins fn code h key f c targets seqs ls A C ev j e x, targets <> [] -> NoDup targets -> all_chars (fun x => letter x || digit x) key = true ->
  mapM items_of seqs = Some ls -> broadcast_map key f c targets seqs = Some ev -> sends h = A ++ ev ++ C ->
  (forall e c' r x, Send e c' r ∈ A ++ C -> e ∈ targets -> c' <> c -> x ∈ map_names key (length seqs) -> leaves (exec builtins fn code) r x) ->
  (forall c' r, Send e c' r ∈ C -> leaves (exec builtins fn code) r x) ->
  targets !! j = Some e -> is_Some (replies (run builtins fn code h) !! (length A + length seqs * length targets + j)) -> x ∈ map_names key (length seqs) ->
  spaces (run builtins fn code h) e !! x = None.
Proof.
  intros b fn ca h key f c ts seqs ls A C ev j e x Q N Hk Hls Hev Hh HAC HC J R X.
  assert (Hs : Forall is_seq seqs). { apply mapM_Some in Hls. clear - Hls. induction Hls as [|v l seqs ls H _ IH]; constructor; [exists l; exact H|exact IH]. }
  unfold broadcast_map in Hev. destruct seqs as [|v0 seqs0] eqn:Es; [discriminate|]. rewrite <- Es in *. destruct (scatter_seqs key 0 c ts seqs) as [a|] eqn:Ea; [|discriminate]. injection Hev as <-.
  eapply (task_clean b fn ca h key f c ts seqs A C a); try eassumption.
  - unfold base. rewrite app_length, (a_length b fn ca h key f c ts seqs A C a) by eassumption. exact R.
  - intros e' c' r I ->. apply (HC c' r I).
Qed.
Print Assumptions C68_map_clean.

(** ** What does not come back as it was *)
Definition none_fn : nat -> list val -> val + nat := fun _ _ => inr 0.
Definition no_code : nat -> namespace -> namespace * reply := fun _ ns => (ns, RVal VNone).
Definition all_of (ev : list event) (targets : list nat) (rounds : nat) : list event := ev ++ concat (replicate rounds (map (fun e => Run e 0) targets)).
(** gather of a scattered range or string: the list of the partitions. *)
Theorem C68_range_refuted : exists l targets ev s, scatter Map_Model.DistBlock false "x" (VSeq KOther l) 0 targets = Some ev /\ s = run ∅ none_fn no_code (all_of (ev ++ gather "x" 0 targets) targets 2) /\
  gathered Map_Model.DistBlock s (seq (length ev) (length targets)) = Some (inl (VSeq KList [VSeq KOther [VAtom 0; VAtom 1]; VSeq KOther [VAtom 2]])) /\ l = [VAtom 0; VAtom 1; VAtom 2].
Proof. exists [VAtom 0; VAtom 1; VAtom 2], [0; 1]. eexists _, _. split; [vm_compute; reflexivity|]. split; [reflexivity|]. split; [vm_compute; reflexivity|reflexivity]. Qed.
Print Assumptions C68_range_refuted.
(** flatten when some partitions have one item and others more: gather fails. *)
Theorem C68_flatten_refuted : exists l targets ev s, scatter Map_Model.DistBlock true "x" (VSeq KList l) 0 targets = Some ev /\ s = run ∅ none_fn no_code (all_of (ev ++ gather "x" 0 targets) targets 2) /\
  gathered Map_Model.DistBlock s (seq (length ev) (length targets)) = Some (inr TypeErr) /\ l = [VAtom 0; VAtom 1; VAtom 2].
Proof. exists [VAtom 0; VAtom 1; VAtom 2], [0; 1]. eexists _, _. split; [vm_compute; reflexivity|]. split; [reflexivity|]. split; [vm_compute; reflexivity|reflexivity]. Qed.
Print Assumptions C68_flatten_refuted.
(** flatten of items that are lists: gather concatenates them. *)
Theorem C68_flatten_lists_refuted : exists l targets ev s, scatter Map_Model.DistBlock true "x" (VSeq KList l) 0 targets = Some ev /\ s = run ∅ none_fn no_code (all_of (ev ++ gather "x" 0 targets) targets 2) /\
  gathered Map_Model.DistBlock s (seq (length ev) (length targets)) = Some (inl (VSeq KList [VAtom 0; VAtom 1; VAtom 2; VAtom 3])) /\ l = [VSeq KList [VAtom 0; VAtom 1]; VSeq KList [VAtom 2; VAtom 3]].
Proof. exists [VSeq KList [VAtom 0; VAtom 1]; VSeq KList [VAtom 2; VAtom 3]], [0; 1]. eexists _, _. split; [vm_compute; reflexivity|]. split; [reflexivity|]. split; [vm_compute; reflexivity|reflexivity]. Qed.
Print Assumptions C68_flatten_lists_refuted.
(** map on sequences of different lengths puts items together that do not belong together (the builtin map would give rows [0; 10] and [1; 11]), without an error. *)
Definition pair_fn : nat -> list val -> val + nat := fun _ row => inl (VSeq KTuple row).
Theorem C68_map_lengths_refuted : exists a b targets ev s, broadcast_map "k" 0 0 targets [VSeq KList a; VSeq KList b] = Some ev /\ s = run ∅ pair_fn no_code (all_of ev targets 3) /\
  gathered Map_Model.DistBlock s (seq 4 2) = Some (inl (VSeq KList [VSeq KTuple [VAtom 0; VAtom 10]; VSeq KTuple [VAtom 2; VAtom 11]])) /\ a = [VAtom 0; VAtom 1; VAtom 2; VAtom 3] /\ b = [VAtom 10; VAtom 11] /\ targets = [0; 1].
Proof. exists [VAtom 0; VAtom 1; VAtom 2; VAtom 3], [VAtom 10; VAtom 11], [0; 1]. eexists _, _. split; [vm_compute; reflexivity|]. split; [reflexivity|]. split; [vm_compute; reflexivity|repeat split]. Qed.
Print Assumptions C68_map_lengths_refuted.
(** map without sequences fails on the client. *)
Theorem C68_map_nothing_refuted : forall key f c targets, broadcast_map key f c targets [] = None.
Proof. reflexivity. Qed.
Print Assumptions C68_map_nothing_refuted.

(** ** Cases *)
Definition sample_push : list event := [Send 0 0 (Code 0); Send 0 0 (Push [("a"%string, VAtom 1); ("b"%string, VAtom 2)]); Send 0 1 (Pull "c"); Run 0 1; Send 0 0 (Push [("a"%string, VAtom 7)]); Run 0 0; Run 0 0; Send 0 0 (Pull "b"); Run 0 0; Run 0 0].
Example C67_push_pull_example : replies (run ∅ none_fn no_code sample_push) !! 4 = Some (RVal (VAtom 2)) /\
  sends sample_push = [Send 0 0 (Code 0)] ++ Send 0 0 (Push [("a"%string, VAtom 1); ("b"%string, VAtom 2)]) :: [Send 0 1 (Pull "c"); Send 0 0 (Push [("a"%string, VAtom 7)])] ++ Send 0 0 (Pull "b") :: [] /\
  (forall c' r, Send 0 c' r ∈ [Send 0 1 (Pull "c"); Send 0 0 (Push [("a"%string, VAtom 7)])] -> leaves (exec ∅ none_fn no_code) r "b") /\
  (forall c' r, Send 0 c' r ∈ [Send 0 0 (Code 0)] ++ [] -> c' <> 0 -> leaves (exec ∅ none_fn no_code) r "b") /\ identifier "b" = true /\ ~ is_tmp "b".
Proof.
  split; [vm_compute; reflexivity|]. split; [reflexivity|]. split; [|split; [|split; [reflexivity|]]].
  - intros c' r H. apply elem_of_cons in H as [H|H]; [injection H as -> ->; intros ns; reflexivity|]. apply elem_of_list_singleton in H. injection H as -> ->. apply push1_leaves. discriminate.
  - intros c' r H N. apply elem_of_list_singleton in H. congruence.
  - intros [k H]. discriminate.
Qed.
Example C67_push_error_example : exec ∅ none_fn no_code (Push [("a"%string, VAtom 1); ("1a"%string, VAtom 2); ("b"%string, VAtom 3)]) ∅ = (list_to_map [("a"%string, VAtom 1)] ∪ ∅, RErr SyntaxError).
Proof.
  apply (C67_push_error _ _ _ ∅ [("a"%string, VAtom 1)] "1a" (VAtom 2) [("b"%string, VAtom 3)]); [apply NoDup_singleton| |reflexivity].
  intros k v H. apply elem_of_list_singleton in H. injection H as -> ->. split; [reflexivity|]. intros [j J]. discriminate.
Qed.
Example C68_example : let l := [VAtom 0; VAtom 1; VAtom 2; VAtom 3; VAtom 4] in exists ev, scatter Map_Model.DistRR false "x" (VSeq KTuple l) 0 [3; 1] = Some ev /\
  gathered Map_Model.DistRR (run ∅ none_fn no_code (all_of (ev ++ gather "x" 0 [3; 1]) [3; 1] 2)) (seq 2 2) = Some (inl (VSeq KList l)) /\ identifier "x" = true /\ ~ is_tmp "x" /\ NoDup [3; 1].
Proof. eexists. split; [vm_compute; reflexivity|]. split; [vm_compute; reflexivity|]. split; [reflexivity|]. split; [intros [j J]; discriminate|]. apply NoDup_cons. split; [|apply NoDup_singleton]. intros X. apply elem_of_list_singleton in X. discriminate. Qed.
Definition sum_fn : nat -> list val -> val + nat := fun _ row => match row with [VAtom a; VAtom b] => if decide (a = 9) then inr 5 else inl (VAtom (a + b)) | _ => inr 0 end.
Example C68_map_example : let a := [VAtom 0; VAtom 1; VAtom 2] in let b := [VAtom 10; VAtom 11; VAtom 12] in exists ev, broadcast_map "0f" 0 0 [3; 1] [VSeq KTuple a; VSeq KOther b] = Some ev /\
  gathered Map_Model.DistBlock (run ∅ sum_fn no_code (all_of ev [3; 1] 3)) (seq 4 2) = Some (inl (VSeq KList [VAtom 10; VAtom 12; VAtom 14])) /\
  spaces (run ∅ sum_fn no_code (all_of ev [3; 1] 3)) 1 !! "_seq_0f_0"%string = None /\ spaces (run ∅ sum_fn no_code (all_of ev [3; 1] 1)) 1 !! "_seq_0f_0"%string <> None /\
  map_names "0f" 2 = ["_seq_0f_0"; "_seq_0f_1"]%string.
Proof. eexists. split; [vm_compute; reflexivity|]. split; [vm_compute; reflexivity|]. split; [vm_compute; reflexivity|]. split; [vm_compute; discriminate|reflexivity]. Qed.
Example C68_map_error_example : let a := [VAtom 0; VAtom 9; VAtom 2] in let b := [VAtom 10; VAtom 11; VAtom 12] in exists ev, broadcast_map "0f" 0 0 [3; 1] [VSeq KTuple a; VSeq KOther b] = Some ev /\
  gathered Map_Model.DistBlock (run ∅ sum_fn no_code (all_of ev [3; 1] 3)) (seq 4 2) = Some (inr (UserError 5)) /\
  spaces (run ∅ sum_fn no_code (all_of ev [3; 1] 3)) 3 !! "_seq_0f_0"%string = None.
Proof. eexists. split; [vm_compute; reflexivity|]. split; [vm_compute; reflexivity|vm_compute; reflexivity]. Qed.
