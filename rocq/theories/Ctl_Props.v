(** Property theorems C58: control requests and the nanny. *)
From stdpp Require Import base gmap list strings.
From Coq Require Import ZArith Lia Ascii.
From Verif Require Import Ctl_Spec Ctl_Model Ctl_Proofs.
From Verif Require Targets_Spec Targets_Model Engine_Model.

(** ** The nanny: everything that is not a signal request is passed on, unchanged and in order, both ways.
    (It runs until the end of the engine has been noticed: see C58_exit.) *)
Theorem C58_relay : forall id names evs, stopped (run id names evs) = false ->
  flat_map to_engine (out (run id names evs)) = flat_map for_engine evs /\
  flat_map to_clients (out (run id names evs)) = flat_map for_clients evs.
Proof.
  intros id names evs S. split; apply trace; try exact S; try reflexivity.
  - intros [w [m|] fails|w| | |]; try reflexivity. unfold for_engine. cbn [handled readable]. destruct (address w) as [[|a l]|]; try reflexivity.
    destruct (String.eqb (mtype m) SIGNAL); [|reflexivity]. unfold signal_request. destruct (mcontent m) as [sig| | |]; try reflexivity.
    destruct (match sig with SNum z => Some z | SName s => names s end); [|reflexivity]. destruct fails; reflexivity.
  - intros [w [m|] fails|w| | |]; try reflexivity. unfold for_clients. cbn [handled]. destruct (address w) as [[|a l]|]; try reflexivity.
    destruct (String.eqb (mtype m) SIGNAL); [|reflexivity]. unfold signal_request. destruct (mcontent m) as [sig| | |]; try reflexivity.
    destruct (match sig with SNum z => Some z | SName s => names s end); [|reflexivity]. destruct fails; reflexivity.
Qed.
Print Assumptions C58_relay.

(** Each signal request is answered once, to where it came from, in order; the process gets just the signals asked for,
    once each, in order; and the answer says whether it got it. *)
Definition carried (x : list string * string * option Z) : list Z := match x with (_, _, Some z) => [z] | _ => [] end.
Definition its_answer (x : list string * string * option Z) : list string * string * bool :=
  match x with (a, p, z) => (a, p, match z with Some _ => true | None => false end) end.
Theorem C58_signal_requests : forall id names evs, stopped (run id names evs) = false ->
  flat_map signals (out (run id names evs)) = flat_map carried (flat_map (asked names) evs) /\
  flat_map replies (out (run id names evs)) = map its_answer (flat_map (asked names) evs).
Proof.
  intros id names evs S. split.
  - rewrite (trace id names signals (fun e => flat_map carried (asked names e))); [| reflexivity | | exact S].
    + clear S. induction evs as [|e evs IH]; [reflexivity|]. cbn [flat_map]. rewrite flat_map_app, IH. reflexivity.
    + intros [w [m|] fails|w| | |]; try reflexivity. unfold asked. cbn [handled readable]. destruct (address w) as [[|a l]|]; try reflexivity.
      destruct (String.eqb (mtype m) SIGNAL); [|reflexivity]. unfold signal_request. destruct (mcontent m) as [[z|s]| | |]; cbn [meant]; try (destruct fails; reflexivity).
      destruct (names s); destruct fails; reflexivity.
  - rewrite (trace id names replies (fun e => map its_answer (asked names e))); [| reflexivity | | exact S].
    + clear S. induction evs as [|e evs IH]; [reflexivity|]. cbn [flat_map]. rewrite map_app, IH. reflexivity.
    + intros [w [m|] fails|w| | |]; try reflexivity. unfold asked. cbn [handled readable]. destruct (address w) as [[|a l]|]; try reflexivity.
      destruct (String.eqb (mtype m) SIGNAL); [|reflexivity]. unfold signal_request. destruct (mcontent m) as [[z|s]| | |]; cbn [meant]; try (destruct fails; reflexivity).
      destruct (names s); destruct fails; reflexivity.
Qed.
Print Assumptions C58_signal_requests.

(** The end of the engine is told to the Hub once, with the right id, however it is noticed: at most once ever; never if
    neither sign was seen; by the time the nanny stops; and that is two turns of the loop after the sign at the latest. *)
Theorem C58_exit : forall id names evs,
  (flat_map told_hub (out (run id names evs)) = [] \/ flat_map told_hub (out (run id names evs)) = [id]) /\
  ((forall e, e ∈ evs -> ends e = false) -> flat_map told_hub (out (run id names evs)) = [] /\ stopped (run id names evs) = false) /\
  (stopped (run id names evs) = true -> flat_map told_hub (out (run id names evs)) = [id] /\
     forall more, out (run id names (evs ++ more)) = out (run id names evs)) /\
  (forall more, (exists e, e ∈ evs /\ ends e = true) -> 2 <= turns more -> stopped (run id names (evs ++ more)) = true).
Proof.
  intros id names evs. pose proof (Inv_run id names evs) as I. split; [|split; [|split]].
  - pose proof (i_told _ _ _ I) as T. unfold told in T. rewrite T. destruct (finish_called _); auto.
  - intros N. assert (E : existsb ends evs = false).
    { destruct (existsb ends evs) eqn:E; [|reflexivity]. apply existsb_exists in E. destruct E as (e & He & X). apply elem_of_list_In in He. rewrite (N e He) in X. discriminate. }
    rewrite E in I. destruct (i_fresh _ _ _ I eq_refl) as (F & _ & S & _). pose proof (i_told _ _ _ I) as T. rewrite F in T. split; assumption.
  - intros S. pose proof (i_told _ _ _ I) as T. rewrite (i_stopped _ _ _ I S) in T. split; [exact T|]. intros more. rewrite run_app, fold_stopped by exact S. reflexivity.
  - intros more (e & He & X) H. assert (E : existsb ends evs = true) by (apply existsb_exists; exists e; split; [apply elem_of_list_In, He | exact X]).
    rewrite E in I. rewrite run_app. apply (todo_0 id). { pose proof (Inv_fold id names more _ _ I) as J. cbn [orb] in J. exact J. }
    pose proof (todo_fold id names more _ I). pose proof (todo_2 (run id names evs)). lia.
Qed.
Print Assumptions C58_exit.

(** ** The client *)
Definition sent {U} (l : list (act U)) : list (request U) := flat_map (fun a => match a with ASend r => [r] | _ => [] end) l.
(** one request for each of [us], with fresh ids *)
Definition one_each {U} (us : list U) (type : string) (c : content) (l : list (request U)) : Prop :=
  map r_to l = us /\ (forall r, r ∈ l -> mtype (r_msg r) = type /\ mcontent (r_msg r) = c) /\ NoDup (map (fun r => mid (r_msg r)) l).
(** how a blocking call ends: normally if all answers are good, otherwise with the first that is bad; it waits for a missing one *)
Inductive outcome_of (answer : string -> option status) : list string -> ending -> Prop :=
| AllGood : outcome_of answer [] Done
| Good : forall i l x, answer i = Some Ok -> outcome_of answer l x -> outcome_of answer (i :: l) x
| Bad : forall i l e, answer i = Some (Error e) -> outcome_of answer (i :: l) (Raises (ERemote e))
| Missing : forall i l, answer i = None -> outcome_of answer (i :: l) Hangs.

Lemma sent_sends : forall U (rs : list (request U)) l, sent l = [] -> sent (map ASend rs ++ l) = rs.
Proof. intros U rs l H. unfold sent in *. rewrite flat_map_app, H, app_nil_r. induction rs as [|r rs IH]; [reflexivity|]. cbn. rewrite IH. reflexivity. Qed.
Lemma requests_one : forall U fresh (us : list U) type c, Inj (=) (=) fresh -> one_each us type c (requests fresh us type c).
Proof.
  intros U fresh us type c J. unfold requests, one_each. split; [|split].
  - change (map r_to (imap (fun i u => Req u (Msg type (fresh i) c)) us)) with (r_to <$> imap (fun i u => Req u (Msg type (fresh i) c)) us).
    rewrite fmap_imap. clear. cbn. rewrite <- (imap_const id us) at 2 || idtac. induction us as [|u us IH]; [reflexivity|]. cbn in *. f_equal. exact IH.
  - intros r H. apply elem_of_lookup_imap in H. destruct H as (i & u & -> & _). split; reflexivity.
  - change (map ?f ?l) with (f <$> l). rewrite fmap_imap. cbn. apply NoDup_alt. intros i j x Hi Hj. rewrite list_lookup_imap in Hi, Hj.
    destruct (us !! i); [|discriminate]. destruct (us !! j); [|discriminate]. cbn in Hi, Hj. apply J. congruence.
Qed.
Lemma wait_each_spec : forall U answer (rs : list (request U)) a x, wait_each answer rs = (a, x) -> sent a = [] /\ outcome_of answer (map (fun r => mid (r_msg r)) rs) x.
Proof.
  intros U answer rs. induction rs as [|r rs IH]; intros a x H; cbn [wait_each map] in *.
  - injection H as <- <-. split; [reflexivity | constructor].
  - destruct (answer (mid (r_msg r))) as [[|e]|] eqn:E.
    + destruct (wait_each answer rs) as [a' x'] eqn:W. injection H as <- <-. destruct (IH _ _ eq_refl) as [S O]. split; [exact S | constructor; assumption].
    + injection H as <- <-. split; [reflexivity | constructor; exact E].
    + injection H as <- <-. split; [reflexivity | constructor; exact E].
Qed.
Lemma control_spec : forall U fresh answer reg t type c block us ids, Inj (=) (=) fresh ->
  Targets_Model.build_targets (U := U) reg t = Targets_Spec.Chosen us ids ->
  let '(a, x) := send_control_request fresh answer reg t type c block in
  one_each us type c (sent a) /\
  (if block then outcome_of answer (map (fun r => mid (r_msg r)) (sent a)) x else x = Futures (map (fun r => mid (r_msg r)) (sent a))).
Proof.
  intros U fresh answer reg t type c block us ids J B. unfold send_control_request. rewrite B. destruct block.
  - destruct (wait_each answer (requests fresh us type c)) as [a x] eqn:W. destruct (wait_each_spec _ _ _ _ _ W) as [S O].
    rewrite (sent_sends _ _ _ S). split; [apply requests_one; exact J | exact O].
  - rewrite <- (app_nil_r (map ASend _)), sent_sends by reflexivity. split; [apply requests_one; exact J | reflexivity].
Qed.
(** Nothing is sent if the targets cannot be found *)
Definition raises_target_error {U} (o : Targets_Spec.outcome U) (x : ending) : Prop :=
  match o with
  | Targets_Spec.NoEnginesRegistered => x = Raises ENoEngines | Targets_Spec.TypeError => x = Raises EType
  | Targets_Spec.IndexError => x = Raises EIndex | Targets_Spec.KeyError => x = Raises EKey | Targets_Spec.ValueError => x = Raises EValue
  | Targets_Spec.Chosen _ _ => False
  end.
Definition control_call {U} (answer : string -> option status) (chosen : Targets_Spec.outcome U) (type : string) (c : content) (block : bool) (r : list (act U) * ending) : Prop :=
  match chosen with
  | Targets_Spec.Chosen us _ =>
      one_each us type c (sent (fst r)) /\
      (if block then outcome_of answer (map (fun q => mid (r_msg q)) (sent (fst r))) (snd r) else snd r = Futures (map (fun q => mid (r_msg q)) (sent (fst r))))
  | o => sent (fst r) = [] /\ raises_target_error o (snd r)
  end.
Lemma control_call_ok : forall U fresh answer reg t type c block, Inj (=) (=) fresh ->
  control_call (U := U) answer (Targets_Model.build_targets reg t) type c block (send_control_request fresh answer reg t type c block).
Proof.
  intros U fresh answer reg t type c block J. pose proof (control_spec U fresh answer reg t type c block) as X.
  destruct (Targets_Model.build_targets reg t) as [us ids| | | | |] eqn:B; unfold control_call;
    try (unfold send_control_request; rewrite B; split; reflexivity).
  specialize (X us ids J eq_refl). destruct (send_control_request fresh answer reg t type c block) as [a x]. exact X.
Qed.
(** [b]: the client's own default *)
Definition blocks (b : bool) (block : option bool) : bool := match block with Some x => x | None => b end.
Theorem C58_calls : forall U fresh answer (reg : Targets_Model.registry (U := U)) b t block, Inj (=) (=) fresh ->
  (forall sig, control_call answer (Targets_Model.build_targets reg t) "signal_request" (CSig sig) (blocks b block) (send_signal fresh answer reg b sig t block)) /\
  control_call answer (Targets_Model.build_targets reg t) "clear_request" (COther "") (blocks b block) (clear fresh answer reg b t block) /\
  (forall outstanding js, Forall valid (asked_jobs outstanding js) ->
     control_call answer (Targets_Model.build_targets reg t) "abort_request" (CIds (flat_map job_ids (asked_jobs outstanding js))) (blocks b block)
       (abort fresh answer reg b outstanding js t block)) /\
  (forall outstanding js, ~ Forall valid (asked_jobs outstanding js) -> abort fresh answer reg b outstanding js t block = ([], Raises EType)).
Proof.
  intros U fresh answer reg b t block J. split; [|split; [|split]].
  - intros sig. apply control_call_ok, J.
  - apply control_call_ok, J.
  - intros o js V. unfold abort. fold (asked_jobs o js). destruct (existsb _ (asked_jobs o js)) eqn:E; [|apply control_call_ok, J].
    apply existsb_exists in E. destruct E as (j & Hj & X). rewrite Forall_forall in V. apply elem_of_list_In in Hj. specialize (V j Hj). destruct j; try discriminate. destruct V. reflexivity.
  - intros o js V. unfold abort. fold (asked_jobs o js). destruct (existsb _ (asked_jobs o js)) eqn:E; [reflexivity|]. destruct V.
    apply Forall_forall. intros j Hj. unfold valid. intros ->. apply elem_of_list_In in Hj.
    assert (existsb (fun j => match j with JOther => true | _ => false end) (asked_jobs o js) = true) by (apply existsb_exists; exists JOther; split; [exact Hj | reflexivity]). congruence.
Qed.
Print Assumptions C58_calls.

(** An engine which gets such an abort request refuses exactly the named jobs from now on (C35 says what that means), if any is named. *)
Theorem C58_abort_named : forall V (k : Engine_Model.kernel V) id l, l <> [] ->
  let '(o, k') := Engine_Model.abort_request id (Engine_Model.AList l) k in
  Engine_Model.OAbortQueues ∉ o /\ (forall m, m ∈ Engine_Model.k_aborted k' <-> m ∈ l \/ m ∈ Engine_Model.k_aborted k).
Proof.
  intros V k id [|m l] H; [congruence|]. cbn [Engine_Model.abort_request]. split.
  - intros X. apply elem_of_list_singleton in X. discriminate.
  - intros n. cbn [Engine_Model.k_aborted]. rewrite elem_of_union, elem_of_list_to_set. reflexivity.
Qed.
Print Assumptions C58_abort_named.

(** ** Sending a signal, from end to end: client, router, nannies, processes. *)
Section end_to_end.
Context {U : Type} `{EqDecision U}.
Variable eid : U -> Z.
Variable names : string -> option Z.
Variable client : string.                              (* the identity of the client *)
Variable enc : message -> list string.                 (* how messages are put into frames *)
Variable fails : U -> string -> option string.         (* for each request: the refusal of the system there *)
Variable evs : U -> list event.                        (* what happens at each engine's nanny *)
Definition is_signal (e : event) : bool := match asked names e with [] => false | _ => true end.
Definition arrival (r : request U) : event := FromClients (client :: DELIM :: enc (r_msg r)) (Some (r_msg r)) (fails (r_to r) (mid (r_msg r))).
Definition routed (u : U) (l : list (request U)) : list (request U) := List.filter (fun r => bool_decide (r_to r = u)) l.
Definition got (u : U) : list Z := flat_map signals (out (run (eid u) names (evs u))).
(** the first reply to a request *)
Definition answered (l : list action) (i : string) : option status :=
  head (flat_map (fun x => match x with Reply a _ p s => if String.eqb p i then [s] else [] | _ => [] end) l).
Definition times (u : U) (us : list U) : nat := length (List.filter (fun x => bool_decide (x = u)) us).

Lemma flat_map_filter : forall {A B} (f : A -> list B) (p : A -> bool) l, (forall x, p x = false -> f x = []) -> flat_map f l = flat_map f (List.filter p l).
Proof.
  intros A B f p l H. induction l as [|x l IH]; [reflexivity|]. cbn [flat_map List.filter]. destruct (p x) eqn:E; cbn [flat_map]; rewrite IH; [reflexivity|].
  rewrite (H x E). reflexivity.
Qed.
Lemma address_client : forall m, client <> DELIM -> address (client :: DELIM :: enc m) = Some [client].
Proof.
  intros m H. cbn [address]. destruct (String.eqb_spec client DELIM); [congruence|]. rewrite String.eqb_refl. reflexivity.
Qed.
Definition result (r : request U) : option Z := match fails (r_to r) (mid (r_msg r)) with None => meant names (mcontent (r_msg r)) | Some _ => None end.
Lemma asked_arrival : forall r, client <> DELIM -> mtype (r_msg r) = SIGNAL -> asked names (arrival r) = [([client], mid (r_msg r), result r)].
Proof.
  intros r H T. unfold asked, arrival. unfold readable. rewrite (address_client _ H), T, String.eqb_refl. reflexivity.
Qed.
Lemma asked_signals : forall e, flat_map carried (asked names e) = [] \/ is_signal e = true.
Proof. intros e. unfold is_signal. destruct (asked names e); [left; reflexivity | right; reflexivity]. Qed.

Lemma got_spec : forall u rs, client <> DELIM -> (forall r, r ∈ rs -> mtype (r_msg r) = SIGNAL) ->
  stopped (run (eid u) names (evs u)) = false -> List.filter is_signal (evs u) = map arrival (routed u rs) ->
  got u = flat_map (fun r => match result r with Some z => [z] | None => [] end) (routed u rs).
Proof.
  intros u rs D T S F. unfold got. destruct (C58_signal_requests (eid u) names (evs u) S) as [-> _].
  rewrite (flat_map_filter (asked names) is_signal) by (intros e X; unfold is_signal in X; destruct (asked names e); [reflexivity|discriminate]).
  rewrite F. clear F S. unfold routed. induction rs as [|r rs IH]; [reflexivity|]. cbn [List.filter].
  destruct (bool_decide (r_to r = u)); [|apply IH; intros; apply T; right; assumption].
  cbn [map flat_map]. rewrite asked_arrival by (try apply T; try left; try exact D). cbn [flat_map app carried].
  rewrite IH by (intros; apply T; right; assumption). destruct (result r); reflexivity.
Qed.
Definition good (s : status) : bool := match s with Ok => true | _ => false end.
Lemma flat_find : forall i l,
  option_map good (head (flat_map (fun x => match x with Reply a _ p s => if String.eqb p i then [s] else [] | _ => [] end) l)) =
  head (flat_map (fun x => match x with (_, p, b) => if String.eqb p i then [b] else [] end) (flat_map replies l)).
Proof.
  intros i l. induction l as [|x l IH]; [reflexivity|]. cbn [flat_map]. rewrite flat_map_app. destruct x as [| |a t p s| |]; try exact IH.
  cbn [replies flat_map app]. destruct (String.eqb p i); [|exact IH]. destruct s; reflexivity.
Qed.
Lemma answered_spec : forall r rs, client <> DELIM -> (forall r, r ∈ rs -> mtype (r_msg r) = SIGNAL) -> NoDup (map (fun r => mid (r_msg r)) rs) ->
  stopped (run (eid (r_to r)) names (evs (r_to r))) = false -> List.filter is_signal (evs (r_to r)) = map arrival (routed (r_to r) rs) -> r ∈ rs ->
  option_map good (answered (out (run (eid (r_to r)) names (evs (r_to r)))) (mid (r_msg r))) = Some (match result r with Some _ => true | None => false end).
Proof.
  intros r rs D T ND S F Hr. unfold answered. rewrite flat_find. destruct (C58_signal_requests _ names _ S) as [_ ->].
  rewrite (flat_map_filter (asked names) is_signal) by (intros e X; unfold is_signal in X; destruct (asked names e); [reflexivity|discriminate]).
  rewrite F. clear F S. set (u := r_to r). assert (Hu : r_to r = u) by reflexivity. clearbody u. unfold routed.
  induction rs as [|q rs IH]; [apply elem_of_nil in Hr; destruct Hr|]. cbn [map] in ND. apply NoDup_cons in ND. destruct ND as [N1 N2].
  cbn [List.filter]. apply elem_of_cons in Hr. destruct Hr as [<- | Hr].
  - rewrite bool_decide_eq_true_2 by exact Hu. cbn [map flat_map]. rewrite asked_arrival by (try apply T; try left; try exact D).
    cbn [app map its_answer flat_map]. rewrite String.eqb_refl. reflexivity.
  - destruct (bool_decide (r_to q = u)); [|apply IH; [intros; apply T; right; assumption | exact N2 | exact Hr]].
    cbn [map flat_map]. rewrite asked_arrival by (try apply T; try left; try exact D).
    cbn [app map its_answer flat_map]. destruct (String.eqb_spec (mid (r_msg q)) (mid (r_msg r))) as [E|_].
    + destruct N1. rewrite E. apply elem_of_list_fmap. exists r. split; [reflexivity | exact Hr].
    + apply IH; [intros; apply T; right; assumption | exact N2 | exact Hr].
Qed.
Lemma times_routed : forall u rs, times u (map r_to rs) = length (routed u rs).
Proof.
  intros u rs. unfold times, routed. induction rs as [|r rs IH]; [reflexivity|]. cbn [map List.filter]. destruct (bool_decide (r_to r = u)); cbn [length]; congruence.
Qed.
Lemma short : forall {A B} (f : A -> list B) l, (forall x, length (f x) <= 1) -> length (flat_map f l) <= length l.
Proof. intros A B f l H. induction l as [|x l IH]; [cbn; lia|]. cbn [flat_map length]. rewrite app_length. specialize (H x). lia. Qed.
Lemma outcome_good : forall answer l x, outcome_of answer l x -> (forall i, i ∈ l -> exists s, answer i = Some s) ->
  (x = Done /\ forall i, i ∈ l -> answer i = Some Ok) \/ (exists e i, x = Raises (ERemote e) /\ i ∈ l /\ answer i = Some (Error e)).
Proof.
  induction 1 as [|i l x E O IH|i l e E|i l E]; intros A.
  - left. split; [reflexivity|]. intros i Hi. apply elem_of_nil in Hi. destruct Hi.
  - destruct IH as [[-> G]|(e & j & -> & Hj & Ej)].
    + intros j Hj. apply A. right. exact Hj.
    + left. split; [reflexivity|]. intros j Hj. apply elem_of_cons in Hj. destruct Hj as [->|Hj]; auto.
    + right. exists e, j. split; [reflexivity|]. split; [right; exact Hj | exact Ej].
  - right. exists e, i. split; [reflexivity|]. split; [left | exact E].
  - destruct (A i) as [s Es]; [left|]. congruence.
Qed.

(** A blocking send_signal ends; only the engines meant get a signal, and only this one, each at most as often as it is named; the call returns
    normally just if each got it, and raises if one could not be reached. *)
Theorem C58_send_signal : forall fresh reg b sig t us ids answer l x, Inj (=) (=) fresh -> client <> DELIM ->
  Targets_Model.build_targets (U := U) reg t = Targets_Spec.Chosen us ids ->
  send_signal fresh answer reg b sig t (Some true) = (l, x) ->
  (forall u, stopped (run (eid u) names (evs u)) = false /\ List.filter is_signal (evs u) = map arrival (routed u (sent l))) ->
  (forall r, r ∈ sent l -> answer (mid (r_msg r)) = answered (out (run (eid (r_to r)) names (evs (r_to r)))) (mid (r_msg r))) ->
  (forall u z, z ∈ got u -> meant names (CSig sig) = Some z) /\
  (forall u, length (got u) <= times u us) /\
  ((x = Done /\ forall u, length (got u) = times u us) \/
   (exists e, x = Raises (ERemote e)) /\ exists u, u ∈ us /\ length (got u) < times u us).
Proof.
  intros fresh reg b sig t us ids answer l x J D B C E A.
  pose proof (control_spec U fresh answer reg t "signal_request" (CSig sig) true us ids J B) as X.
  unfold send_signal, the_block in C. rewrite C in X. destruct X as [(O1 & O2 & O3) O].
  assert (T : forall r, r ∈ sent l -> mtype (r_msg r) = SIGNAL) by (intros r Hr; apply (O2 r Hr)).
  assert (G : forall u, got u = flat_map (fun r => match result r with Some z => [z] | None => [] end) (routed u (sent l))).
  { intros u. destruct (E u) as [E1 E2]. apply got_spec; assumption. }
  assert (TR : forall u, times u us = length (routed u (sent l))) by (intros u; rewrite <- O1; apply times_routed).
  assert (S1 : forall r : request U, length (match result r with Some z => [z] | None => [] end) <= 1) by (intros r; destruct (result r); cbn; lia).
  assert (IN : forall u r, r ∈ routed u (sent l) -> r ∈ sent l /\ r_to r = u).
  { intros u r Hr. unfold routed in Hr. apply elem_of_list_In, List.filter_In in Hr. destruct Hr as [Hr Y]. apply bool_decide_eq_true in Y. split; [apply elem_of_list_In, Hr | exact Y]. }
  split; [|split].
  - intros u z Hz. rewrite G in Hz. apply elem_of_list_In, in_flat_map in Hz. destruct Hz as (r & Hr & Hz). apply elem_of_list_In in Hr. destruct (IN _ _ Hr) as [Hs _].
    destruct (O2 r Hs) as [_ Y]. unfold result in Hz. rewrite Y in Hz. destruct (fails _ _); [destruct Hz|]. destruct (meant names (CSig sig)); [|destruct Hz].
    destruct Hz as [->|[]]. reflexivity.
  - intros u. rewrite G, TR. apply short. exact S1.
  - assert (AN : forall r, r ∈ sent l -> option_map good (answer (mid (r_msg r))) = Some (match result r with Some _ => true | None => false end)).
    { intros r Hr. rewrite (A r Hr). destruct (E (r_to r)) as [E1 E2]. apply (answered_spec r (sent l)); assumption. }
    destruct (outcome_good _ _ _ O) as [[-> Y]|(e & i & -> & Hi & Y)].
    + intros i Hi. apply elem_of_list_fmap in Hi. destruct Hi as (r & -> & Hr). specialize (AN r Hr). destruct (answer _); [eexists; reflexivity | discriminate].
    + left. split; [reflexivity|]. intros u. rewrite G, TR.
      assert (Z : forall r, r ∈ routed u (sent l) -> exists z, result r = Some z).
      { intros r Hr. destruct (IN _ _ Hr) as [Hs _]. specialize (AN r Hs). rewrite (Y (mid (r_msg r))) in AN by (apply elem_of_list_fmap; exists r; split; [reflexivity | exact Hs]).
        cbn in AN. destruct (result r); [eexists; reflexivity | discriminate]. }
      induction (routed u (sent l)) as [|r rs IH]; [reflexivity|]. cbn [flat_map length]. rewrite app_length, IH by (intros q Hq; apply Z; right; exact Hq).
      destruct (Z r) as [z ->]; [left|]. reflexivity.
    + right. split; [exists e; reflexivity|]. apply elem_of_list_fmap in Hi. destruct Hi as (r & -> & Hr). exists (r_to r). split.
      { rewrite <- O1. apply elem_of_list_fmap. exists r. split; [reflexivity | exact Hr]. }
      rewrite G, TR. specialize (AN r Hr). rewrite Y in AN. cbn in AN. assert (R : result r = None) by (destruct (result r); [discriminate | reflexivity]).
      assert (Hin : In r (routed (r_to r) (sent l))) by (apply List.filter_In; split; [apply elem_of_list_In, Hr | apply bool_decide_eq_true; reflexivity]).
      apply in_split in Hin. destruct Hin as (l1 & l2 & ->). rewrite flat_map_app, !app_length. cbn [flat_map length]. rewrite R. cbn [app].
      pose proof (short _ l1 S1). pose proof (short _ l2 S1). lia.
Qed.
End end_to_end.
Print Assumptions C58_send_signal.

(** ** Shutdown *)
Definition replied {U} (l : list (request U)) : list (act U) := map (fun r => AReplied (mid (r_msg r))) l.
Definition all_good {U} (answer : string -> option status) (l : list (request U)) : Prop := forall r, r ∈ l -> answer (mid (r_msg r)) = Some Ok.
Definition all_there {U} (answer : string -> option status) (l : list (request U)) : Prop := forall r, r ∈ l -> answer (mid (r_msg r)) <> None.
Lemma wait_all_there : forall U answer (rs : list (request U)) err, all_there answer rs ->
  exists err', wait_all answer rs err = (replied rs, Some err') /\ (err' = None <-> err = None /\ all_good answer rs).
Proof.
  intros U answer rs. induction rs as [|r rs IH]; intros err T.
  - exists err. split; [reflexivity|]. split; [intros ->; split; [reflexivity | intros r Hr; apply elem_of_nil in Hr; destruct Hr] | intros [H _]; exact H].
  - cbn [wait_all replied map]. assert (Ta : answer (mid (r_msg r)) <> None) by (apply T; left).
    destruct (answer (mid (r_msg r))) as [st|] eqn:E; [|congruence].
    destruct (IH (match st with Ok => err | Error e => Some e end)) as (err' & W & Q); [intros q Hq; apply T; right; exact Hq|].
    rewrite W. exists err'. split; [reflexivity|]. rewrite Q. split.
    + intros [H G]. destruct st; [|discriminate]. split; [exact H|]. intros q Hq. apply elem_of_cons in Hq. destruct Hq as [->|Hq]; [exact E | apply G, Hq].
    + intros [H G]. assert (X := G r (elem_of_list_here _ _)). rewrite E in X. injection X as ->. split; [exact H|]. intros q Hq. apply G. right. exact Hq.
Qed.
(** With hub=True: every engine is asked, whatever the targets; the Hub is asked after all engines have answered; the client is closed, and the call
    returns normally, just if all have agreed.  It works without engines. *)
Definition chosen_or_none {U} (o : Targets_Spec.outcome U) (us : list U) : Prop :=
  (exists ids, o = Targets_Spec.Chosen us ids) \/ (o = Targets_Spec.NoEnginesRegistered /\ us = []).
Theorem C58_shutdown_hub : forall U fresh answer hub (reg : Targets_Model.registry (U := U)) b t block us, Inj (=) (=) fresh ->
  chosen_or_none (Targets_Model.build_targets reg (Targets_Spec.TStr "all")) us ->
  let '(l, x) := shutdown fresh answer (Some hub) reg b t false true block in
  one_each us "shutdown_request" (CRestart false) (sent l) /\
  (all_there answer (sent l) ->
     ((x = Done /\ l = map ASend (sent l) ++ replied (sent l) ++ [AHub; AClose]) \/
      ((exists e, x = Raises (ERemote e)) /\ l = map ASend (sent l) ++ replied (sent l) ++ [AHub])) /\
     (x = Done <-> all_good answer (sent l) /\ hub = Ok)) /\
  (~ all_there answer (sent l) -> x = Hangs /\ AHub ∉ l /\ AClose ∉ l).
Proof.
  intros U fresh answer hub reg b t block us J H. unfold shutdown.
  assert (X : (match Targets_Model.build_targets reg (Targets_Spec.TStr "all") with
         | Targets_Spec.Chosen us _ => inl us
         | Targets_Spec.NoEnginesRegistered => inl []
         | e => inr (target_error e)
         end) = inl us) by (destruct H as [[ids ->]|[-> ->]]; reflexivity).
  rewrite X. clear X H. set (rs := requests fresh us "shutdown_request" (CRestart false)). pose proof (requests_one U fresh us "shutdown_request" (CRestart false) J) as O. fold rs in O. clearbody rs.
  rewrite orb_true_r. assert (NS : forall l err, sent (fst (wait_all answer l err)) = [] /\ (forall a, a ∈ fst (wait_all answer l err) -> exists i, a = AReplied (U := U) i)).
  { induction l as [|r l IH]; intros err; cbn [wait_all]; [split; [reflexivity | intros a Ha; apply elem_of_nil in Ha; destruct Ha]|].
    destruct (answer (mid (r_msg r))) as [st|]; [|split; [reflexivity | intros a Ha; apply elem_of_nil in Ha; destruct Ha]].
    specialize (IH (match st with Ok => err | Error e => Some e end)). destruct (wait_all answer l _) as [a' x']. destruct IH as [I1 I2]. split; [exact I1|].
    intros a Ha. apply elem_of_cons in Ha. destruct Ha as [->|Ha]; [eexists; reflexivity | apply I2, Ha]. }
  specialize (NS rs None). destruct (wait_all answer rs None) as [a err] eqn:W. cbn [fst] in NS. destruct NS as [NS NA].
  assert (SR : forall tl, sent tl = [] -> sent (map ASend rs ++ a ++ tl) = rs).
  { intros tl Ht. apply sent_sends. unfold sent in *. rewrite flat_map_app, NS, Ht. reflexivity. }
  assert (NH : ~ all_there answer rs -> err = None).
  { intros N. destruct err as [err|]; [|reflexivity]. destruct N. clear -W. revert a err W. generalize (@None string). induction rs as [|r rs IH]; intros e0 a err W q Hq; [apply elem_of_nil in Hq; destruct Hq|].
    cbn [wait_all] in W. destruct (answer (mid (r_msg r))) as [st|] eqn:E; [|discriminate].
    destruct (wait_all answer rs _) as [a' x'] eqn:W'. injection W as _ ->. apply elem_of_cons in Hq. destruct Hq as [->|Hq]; [congruence | exact (IH _ _ _ W' q Hq)]. }
  assert (TH : all_there answer rs -> a = replied rs /\ exists err', err = Some err' /\ (err' = None <-> all_good answer rs)).
  { intros T. destruct (wait_all_there _ _ rs None T) as (err' & W' & Q). rewrite W' in W. injection W as <- <-. split; [reflexivity|]. exists err'. split; [reflexivity|].
    rewrite Q. tauto. }
  destruct err as [error|].
  2: { rewrite <- (app_nil_r a), (SR [] eq_refl), app_nil_r. split; [exact O|]. split.
       - intros T. destruct (TH T) as (_ & e & Y & _). discriminate.
       - intros _. split; [reflexivity|]. split; intros X; apply elem_of_app in X; destruct X as [X|X]; try (apply elem_of_list_fmap in X; destruct X as (r & Y & _); discriminate);
           destruct (NA _ X); discriminate. }
  assert (AT : ~ all_there answer rs -> False) by (intros N; specialize (NH N); discriminate).
  destruct (match hub with Ok => error | Error e => Some e end) as [e|] eqn:EE.
  - rewrite (SR [AHub] eq_refl). split; [exact O|]. split; [|intros N; destruct (AT N)].
    intros T. destruct (TH T) as (-> & err' & Y & Q). injection Y as ->. split.
    + right. split; [exists e; reflexivity | reflexivity].
    + split; [discriminate|]. intros [G ->]. apply Q in G. congruence.
  - rewrite (SR [AHub; AClose] eq_refl). split; [exact O|]. split; [|intros N; destruct (AT N)].
    intros T. destruct (TH T) as (-> & err' & Y & Q). injection Y as ->. split; [left; split; reflexivity|].
    split; [|reflexivity]. intros _. destruct hub; [|discriminate]. split; [apply Q, EE | reflexivity].
Qed.
Print Assumptions C58_shutdown_hub.
(** Without: just the targets are asked; neither the Hub nor the client is touched. *)
Theorem C58_shutdown_engines : forall U fresh answer hub (reg : Targets_Model.registry (U := U)) b t block us, Inj (=) (=) fresh ->
  chosen_or_none (Targets_Model.build_targets reg t) us ->
  let '(l, x) := shutdown fresh answer hub reg b t false false block in
  one_each us "shutdown_request" (CRestart false) (sent l) /\ AHub ∉ l /\ AClose ∉ l /\
  (blocks b block = false -> x = Done) /\
  (blocks b block = true -> all_there answer (sent l) ->
     (x = Done \/ exists e, x = Raises (ERemote e)) /\ (x = Done <-> all_good answer (sent l))).
Proof.
  intros U fresh answer hub reg b t block us J H. unfold shutdown.
  assert (X : (match Targets_Model.build_targets reg t with
         | Targets_Spec.Chosen us _ => inl us
         | Targets_Spec.NoEnginesRegistered => inl []
         | e => inr (target_error e)
         end) = inl us) by (destruct H as [[ids ->]|[-> ->]]; reflexivity).
  rewrite X. clear X H. set (rs := requests fresh us "shutdown_request" (CRestart false)). pose proof (requests_one U fresh us "shutdown_request" (CRestart false) J) as O. fold rs in O. clearbody rs.
  rewrite orb_false_r. fold (blocks b block). change (the_block b block) with (blocks b block).
  assert (NS : forall l err, sent (fst (wait_all answer l err)) = [] /\ (forall a, a ∈ fst (wait_all answer l err) -> exists i, a = AReplied (U := U) i)).
  { induction l as [|r l IH]; intros err; cbn [wait_all]; [split; [reflexivity | intros a Ha; apply elem_of_nil in Ha; destruct Ha]|].
    destruct (answer (mid (r_msg r))) as [st|]; [|split; [reflexivity | intros a Ha; apply elem_of_nil in Ha; destruct Ha]].
    specialize (IH (match st with Ok => err | Error e => Some e end)). destruct (wait_all answer l _) as [a' x']. destruct IH as [I1 I2]. split; [exact I1|].
    intros a Ha. apply elem_of_cons in Ha. destruct Ha as [->|Ha]; [eexists; reflexivity | apply I2, Ha]. }
  assert (NI : forall a y, (forall z, z ∈ a -> exists i, z = AReplied (U := U) i) -> y ∈ map ASend rs ++ a -> y <> AHub /\ y <> AClose).
  { intros a y NA Hy. apply elem_of_app in Hy. destruct Hy as [Hy|Hy]; [apply elem_of_list_fmap in Hy; destruct Hy as (r & -> & _) | destruct (NA _ Hy) as [i ->]]; split; discriminate. }
  destruct (blocks b block).
  - specialize (NS rs None). destruct (wait_all answer rs None) as [a err] eqn:W. cbn [fst] in NS. destruct NS as [NS NA].
    destruct err as [error|]; rewrite (sent_sends _ rs a NS); (split; [exact O|]); (split; [intros X; apply (NI a _ NA) in X; tauto|]); (split; [intros X; apply (NI a _ NA) in X; tauto|]); (split; [discriminate|]); intros _ T;
      destruct (wait_all_there _ _ rs None T) as (err' & W' & Q); rewrite W' in W; [|discriminate].
    injection W as <- ->. destruct error as [e|]; split.
    + right. exists e. reflexivity.
    + split; [discriminate|]. intros G. destruct Q as [_ Q]. discriminate Q. split; [reflexivity | exact G].
    + left. reflexivity.
    + split; [|reflexivity]. intros _. apply Q. reflexivity.
  - rewrite (sent_sends _ rs [] eq_refl). split; [exact O|]. assert (NA : forall z : act U, z ∈ @nil (act U) -> exists i, z = AReplied i) by (intros z Hz; apply elem_of_nil in Hz; destruct Hz).
    split; [intros X; apply (NI _ _ NA) in X; tauto|]. split; [intros X; apply (NI _ _ NA) in X; tauto|]. split; [reflexivity | discriminate].
Qed.
Print Assumptions C58_shutdown_engines.
(** Restarting is refused before anything is done. *)
Theorem C58_restart : forall U fresh answer hub_answer (reg : Targets_Model.registry (U := U)) b t hub block,
  shutdown fresh answer hub_answer reg b t true hub block = ([], Raises ENotImplemented).
Proof. reflexivity. Qed.
Print Assumptions C58_restart.

(** ** Cases *)
Definition sigs (s : string) : option Z := if String.eqb s "SIGINT" then Some 2%Z else None.
Definition msg1 : message := Msg "signal_request" "m1" (CSig (SName "SIGINT")).
Definition msg2 : message := Msg "abort_request" "m2" (CIds ["a"]).
Definition day : list event :=
  [FromClients ["c"; DELIM; "sig"; "h"]%string (Some msg1) None; FromClients ["c"; DELIM; "sig"; "h2"]%string (Some msg2) None; FromClients ["c"]%string None None;
   FromEngine ["c"; DELIM; "r"]%string; FromClients ["d"; DELIM; "s"]%string (Some (Msg "signal_request" "m3" (CSig (SName "SIGFOO")))) None; ProcessEnds; PipeEvent].
Example C58_day : out (run 7 sigs (day ++ [Turn; FromEngine ["c"; DELIM; "last"]%string; Turn; Turn; FromEngine ["c"]%string])) =
  [Signal 2; Reply ["c"]%string "_request" "m1" Ok; ToEngine ["c"; DELIM; "sig"; "h2"]%string; ToClients ["c"; DELIM; "r"]%string;
   Reply ["d"]%string "_request" "m3" (Error "AttributeError"); Unregister 7; ToClients ["c"; DELIM; "last"]%string].
Proof. reflexivity. Qed.
Example C58_day_runs : stopped (run 7 sigs day) = false.
Proof. reflexivity. Qed.

(** Three engines; a signal to the last two, of which one is refused. *)
Definition reg3 : Targets_Model.registry (U := string) :=
  Targets_Model.run [Targets_Spec.Register 0 "u0"; Targets_Spec.Register 1 "u1"; Targets_Spec.Register 2 "u2"]%string.
Definition ids (n : nat) : string := String.string_of_list_ascii (repeat "x"%char n).
#[local] Instance ids_inj : Inj (=) (=) ids.
Proof.
  intros a b H. assert (String.list_ascii_of_string (ids a) = String.list_ascii_of_string (ids b)) as X by (rewrite H; reflexivity).
  unfold ids in X. rewrite !String.list_ascii_of_string_of_list_ascii in X. apply (f_equal length) in X. rewrite !repeat_length in X. exact X.
Qed.
Definition two : Targets_Spec.target := Targets_Spec.TList [1; 2]%Z.
Example C58_two : Targets_Model.build_targets reg3 two = Targets_Spec.Chosen ["u1"; "u2"]%string [1; 2]%Z.
Proof. vm_compute. reflexivity. Qed.
Definition refuse (u i : string) : option string := if String.eqb u "u2" then Some "NoSuchProcess"%string else None.
Definition encode (m : message) : list string := ["sig"; mid m]%string.
Definition reqs : list (request string) := [Req "u1" (Msg "signal_request" (ids 0) (CSig (SNum 15))); Req "u2" (Msg "signal_request" (ids 1) (CSig (SNum 15)))]%string.
Definition at_engine (u : string) : list event := FromEngine ["c"; DELIM; "busy"]%string :: map (arrival "c" encode refuse) (routed u reqs).
Definition reply_to (i : string) : option status := if String.eqb i (ids 0) then Some Ok else Some (Error "NoSuchProcess").
Example C58_two_call : send_signal ids reply_to reg3 false (SNum 15) two (Some true) =
  (map ASend reqs ++ [AReplied (ids 0); AReplied (ids 1)], Raises (ERemote "NoSuchProcess")).
Proof. vm_compute. reflexivity. Qed.
Lemma three : forall u : string, u = "u1"%string \/ u = "u2"%string \/ routed u reqs = [].
Proof.
  intros u. destruct (decide (u = "u1"%string)); [left; assumption|]. destruct (decide (u = "u2"%string)); [right; left; assumption|]. right. right.
  unfold routed, reqs. cbn [List.filter r_to]. rewrite !bool_decide_eq_false_2 by congruence. reflexivity.
Qed.
Example C58_two_hypotheses :
  let l := fst (send_signal ids reply_to reg3 false (SNum 15) two (Some true)) in
  (forall u, stopped (run 0 sigs (at_engine u)) = false /\ List.filter (is_signal sigs) (at_engine u) = map (arrival "c" encode refuse) (routed u (sent l))) /\
  (forall r, r ∈ sent l -> reply_to (mid (r_msg r)) = answered (out (run 0 sigs (at_engine (r_to r)))) (mid (r_msg r))) /\
  got (fun _ => 0%Z) sigs at_engine "u0" = [] /\ got (fun _ => 0%Z) sigs at_engine "u1" = [15%Z] /\ got (fun _ => 0%Z) sigs at_engine "u2" = [].
Proof.
  cbv zeta. rewrite C58_two_call. cbn [fst]. rewrite sent_sends by reflexivity. split; [|split].
  - intros u. destruct (three u) as [->|[->|E]]; [split; vm_compute; reflexivity | split; vm_compute; reflexivity|].
    unfold at_engine. rewrite E. split; reflexivity.
  - intros r Hr. unfold reqs in Hr. apply elem_of_cons in Hr. destruct Hr as [->|Hr]; [vm_compute; reflexivity|]. apply elem_of_list_singleton in Hr. subst r. vm_compute. reflexivity.
  - repeat split; vm_compute; reflexivity.
Qed.
Example C58_shutdown_example :
  shutdown ids (fun _ => Some Ok) (Some Ok) reg3 false two false true None =
  (map ASend [Req "u0" (Msg "shutdown_request" (ids 0) (CRestart false)); Req "u1" (Msg "shutdown_request" (ids 1) (CRestart false)); Req "u2" (Msg "shutdown_request" (ids 2) (CRestart false))]%string ++
   [AReplied (ids 0); AReplied (ids 1); AReplied (ids 2); AHub; AClose], Done) /\
  shutdown ids (fun i => if String.eqb i (ids 0) then Some (Error "boom") else Some Ok) (Some Ok) reg3 false two false false (Some true) =
  (map ASend [Req "u1" (Msg "shutdown_request" (ids 0) (CRestart false)); Req "u2" (Msg "shutdown_request" (ids 1) (CRestart false))]%string ++
   [AReplied (ids 0); AReplied (ids 1)], Raises (ERemote "boom")).
Proof. split; vm_compute; reflexivity. Qed.

(** ** What does not hold *)
(** The answer to a signal request is a 'signal_reply': line 156 keeps the wrong part of the name. *)
Theorem C58_reply_type_refuted : ~ (forall id names evs a t p s, Reply a t p s ∈ out (run id names evs) -> t = "signal_reply"%string).
Proof.
  intros H. specialize (H 0%Z sigs day ["c"]%string "_request"%string "m1"%string Ok). discriminate H.
  change (out (run 0 sigs day)) with [Signal 2; Reply ["c"]%string "_request" "m1" Ok; ToEngine ["c"; DELIM; "sig"; "h2"]%string; ToClients ["c"; DELIM; "r"]%string;
   Reply ["d"]%string "_request" "m3" (Error "AttributeError"); Unregister 0].
  right. left.
Qed.
Print Assumptions C58_reply_type_refuted.
(** abort touches only the jobs it names: with no jobs to name (nothing outstanding, or an empty list) the engines throw away
    everything they have queued, for whichever client. *)
Theorem C58_abort_nothing_refuted : ~ (forall U fresh answer (reg : Targets_Model.registry (U := U)) b outstanding js t block r V (k : Engine_Model.kernel V) l,
  r ∈ sent (fst (abort fresh answer reg b outstanding js t block)) -> mcontent (r_msg r) = CIds l ->
  Engine_Model.OAbortQueues ∉ fst (Engine_Model.abort_request (mid (r_msg r)) (Engine_Model.AList l) k)).
Proof.
  intros H. specialize (H string ids reply_to reg3 false [] JNone two (Some false) (Req "u1" (Msg "abort_request" (ids 0) (CIds [])))%string nat
    (Engine_Model.init ∅) []).
  apply H; [|reflexivity|].
  - assert (X : sent (fst (abort ids reply_to reg3 false [] JNone two (Some false))) =
      [Req "u1" (Msg "abort_request" (ids 0) (CIds [])); Req "u2" (Msg "abort_request" (ids 1) (CIds []))]%string) by (vm_compute; reflexivity).
    rewrite X. left.
  - cbn [Engine_Model.abort_request fst]. left.
Qed.
Print Assumptions C58_abort_nothing_refuted.
(** After a call with hub=True which raises, the client is still connected to a Hub: the Hub has been told to stop all the same. *)
Theorem C58_hub_spared_refuted : ~ (forall U fresh answer hub (reg : Targets_Model.registry (U := U)) b t block e l,
  shutdown fresh answer hub reg b t false true block = (l, Raises e) -> AHub ∉ l).
Proof.
  intros H. specialize (H string ids (fun i => if String.eqb i (ids 0) then Some (Error "boom") else Some Ok) (Some Ok) reg3 false two None (ERemote "boom")).
  destruct (shutdown ids (fun i => if String.eqb i (ids 0) then Some (Error "boom") else Some Ok) (Some Ok) reg3 false two false true None) as [l x] eqn:E.
  vm_compute in E. injection E as <- <-. eapply H; [reflexivity|]. do 6 right. left.
Qed.
Print Assumptions C58_hub_spared_refuted.
