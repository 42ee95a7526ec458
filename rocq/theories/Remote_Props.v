(** C81: commands sent to another machine arrive as they were given, and their answers come back. *)
From Coq Require Import NArith String Ascii List Bool Lia.
From Verif Require Import Batch_Spec Batch_Model Batch_Proofs Remote_Spec Remote_Model Remote_Proofs.
Import ListNotations.
Open Scope N_scope.

(** What is sent is read back as what was given, whatever characters it contains, and consists of characters that no shell and no string literal touches. *)
Theorem C81_encoding v : data_ok v -> exists t, encode v = Some t /\ decode t = Some v /\ Forall harmless t.
Proof.
  intros H. exists (b64encode (dumps v)). split; [now apply encode_some|]. split; [now apply decode_encode|].
  apply b64_harmless, ascii_bytes, dumps_ascii, H.
Qed.
Print Assumptions C81_encoding.

Definition words (c : command) : list (list N) := match c with One s => [s] | Many l => l end.
Definition words_ok (c : command) : Prop := words c <> [] /\ Forall text_ok (words c).
Definition changes_ok (cs : changes) : Prop :=
  NoDup (map fst cs) /\ Forall (fun kv => text_ok (fst kv) /\ match snd kv with Some v => text_ok v | None => True end) cs.

Lemma key_ok s : forallb (fun c => c <? 128) (lit s) = true -> text_ok (lit s).
Proof.
  intros Hs. unfold text_ok. rewrite Forall_forall. rewrite forallb_forall in Hs. intros c Hc. specialize (Hs c Hc). apply N.ltb_lt in Hs. split; lia.
Qed.
Lemma distinct3 a b c : eqs a b = false -> eqs a c = false -> eqs b c = false -> NoDup [a; b; c].
Proof.
  intros H1 H2 H3. assert (R : forall x, eqs x x = true) by (intros x; now apply eqs_true).
  repeat constructor; cbn [In]; intuition; subst; rewrite R in *; discriminate.
Qed.
Lemma distinct2 a b : eqs a b = false -> NoDup [a; b].
Proof.
  intros H1. assert (R : forall x, eqs x x = true) by (intros x; now apply eqs_true).
  repeat constructor; cbn [In]; intuition; subst; rewrite R in *; discriminate.
Qed.
Lemma jcmd_ok c : Forall text_ok (words c) -> data_ok (jcmd c).
Proof.
  destruct c as [s|l]; cbn [words jcmd]; intros H; constructor.
  - now inversion_clear H.
  - rewrite Forall_map. eapply Forall_impl; [|exact H]. intros x Hx. now constructor.
Qed.
Lemma jopt_ok o : match o with Some v => text_ok v | None => True end -> data_ok (jopt o).
Proof. destruct o; cbn [jopt]; now constructor. Qed.
Lemma jenv_ok e : match e with Some cs => changes_ok cs | None => True end -> data_ok (jenv e).
Proof.
  destruct e as [cs|]; cbn [jenv]; [|constructor]. intros [H1 H2]. constructor.
  - rewrite Forall_map. eapply Forall_impl; [|exact H2]. intros [k v] [Hk Hv]. split; [exact Hk|]. now apply jopt_ok.
  - rewrite map_map. cbn [fst]. exact H1.
Qed.

(** Starting a process: the command line, the environment and the output file are those that were given; the pid that is returned is the pid of the process. *)
Theorem C81_start w cmd e out :
  words_ok cmd -> match e with Some cs => changes_ok cs | None => True end -> match out with Some f => text_ok f | None => True end ->
  whole_lines (before w) -> ~ within (lit "remote_pid=") (after w) ->
  exists m q, cmd_start w cmd e out = Ok (m, next_pid w) /\
    started m = started (machine_of w) ++ [q] /\ pid q = next_pid w /\ In (next_pid w) (running m) /\
    argv q = words cmd /\
    changed (env (machine_of w)) (match e with Some cs => cs | None => [] end) (environ q) /\
    output q = match out with Some ((_ :: _) as f) => Some f | _ => None end /\
    env m = env (machine_of w) /\ signals m = signals (machine_of w) /\ (forall p, p <> next_pid w -> In p (running m) <-> In p (running (machine_of w))).
Proof.
  intros [Wn Wt] He Ho Hb Ha. unfold cmd_start.
  assert (D : data_ok (JObj [(lit "cmd", jcmd cmd); (lit "env", jenv e); (lit "output_file", jopt out)])).
  { constructor; [|apply distinct3; vm_compute; reflexivity].
    repeat (apply Forall_cons; [split; [apply key_ok; vm_compute; reflexivity|]|]); cbn [snd]; auto using jcmd_ok, jenv_ok, jopt_ok. }
  destruct (cmd_send_ok w "cmd_start" _ D) as [-> R].
  assert (U : exists e', match jenv e with JNull => Some (env (machine_of w)) | JObj d => update_env (env (machine_of w)) d | JStr [] | JArr [] | JBool false | JNum 0 => Some (env (machine_of w)) | _ => None end = Some e' /\
                changed (env (machine_of w)) (match e with Some cs => cs | None => [] end) e').
  { destruct e as [cs|]; cbn [jenv].
    - apply update_env_ok, He.
    - exists (env (machine_of w)). split; [reflexivity|]. intros k. split; [intros v []|split; [intros v []|reflexivity]]. }
  destruct U as (e' & U & C).
  assert (P : prepare_cmd_start (jcmd cmd) (jenv e) (env (machine_of w)) = Some (words cmd, e')).
  { unfold prepare_cmd_start. rewrite U. destruct cmd as [s|l]; cbn [jcmd words]; [reflexivity|]. now rewrite texts_ok. }
  assert (Rc : exists m q, receive (next_pid w) (machine_of w) "cmd_start" (b64encode (dumps (JObj [(lit "receive_parameters", JObj (if debugging w then [(lit "debugging", JBool true); (lit "log", JStr (lit "~/ipp_shellcmd.log"))] else [])); (lit "command_parameters", JObj [(lit "cmd", jcmd cmd); (lit "env", jenv e); (lit "output_file", jopt out)])]))) =
     Ok (m, lit "__remote_pid=" ++ decimal (next_pid w) ++ lit "__" ++ [nl]) /\
     q = Process (next_pid w) (words cmd) e' (match out with Some ((_ :: _) as f) => Some f | _ => None end) /\
     env m = env (machine_of w) /\ running m = next_pid w :: running (machine_of w) /\ started m = started (machine_of w) ++ [q] /\ signals m = signals (machine_of w)).
  { assert (S : receive (next_pid w) (machine_of w) "cmd_start" (b64encode (dumps (JObj [(lit "receive_parameters", JObj (if debugging w then [(lit "debugging", JBool true); (lit "log", JStr (lit "~/ipp_shellcmd.log"))] else [])); (lit "command_parameters", JObj [(lit "cmd", jcmd cmd); (lit "env", jenv e); (lit "output_file", jopt out)])]))) =
       recv_start (next_pid w) (machine_of w) (jcmd cmd) (jenv e) (jopt out)).
    { unfold receive. rewrite R. destruct (debugging w); reflexivity. }
    rewrite S. unfold recv_start. rewrite P.
    destruct (words cmd) as [|x xs]; [congruence|].
    destruct out as [[|c f]|]; cbn [jopt]; eexists _, _; (split; [reflexivity|]); repeat split. }
  destruct Rc as (m & q & -> & -> & E1 & E2 & E3 & E4).
  exists m. eexists. rewrite get_pid_ok by assumption. split; [reflexivity|]. split; [exact E3|]. cbn [pid argv environ output].
  rewrite E2. repeat split; auto; try (now left).
  all: try (intros [H0|H0]; [congruence|exact H0]); try (intros H0; now right).
  all: destruct (C k) as (? & ? & ?); auto.
Qed.
Print Assumptions C81_start.

Lemma not_nl s : existsb (N.eqb nl) s = false -> ~ In nl s.
Proof. intros H HI. assert (E : existsb (N.eqb nl) s = true) by (apply existsb_exists; exists nl; split; [exact HI|reflexivity]). congruence. Qed.
Lemma within_no p s : contains p s = false -> ~ within p s.
Proof. intros H W. apply contains_spec in W. congruence. Qed.
Lemma answer_only p a x t : ~ In nl p -> whole_lines a -> ~ within p a -> ~ within p x -> ~ within p t -> contains p (a ++ (x ++ [nl]) ++ t) = false.
Proof.
  intros Hp Ha H1 H2 H3. destruct (contains p (a ++ (x ++ [nl]) ++ t)) eqn:E; [exfalso|reflexivity]. apply contains_spec in E.
  rewrite <- app_assoc in E. cbn [app] in E. destruct Ha as [->|(r & ->)].
  - cbn [app] in E. destruct (within_split p x t Hp E); auto.
  - rewrite <- app_assoc in E. cbn [app] in E. destruct (within_split p r _ Hp E) as [(u & v & ->)|E'].
    + apply H1. exists u, (v ++ [nl]). now rewrite <- !app_assoc.
    + destruct (within_split p x t Hp E'); auto.
Qed.
Lemma answer_in p a t : contains p (a ++ (p ++ [nl]) ++ t) = true.
Proof. apply contains_spec. exists a, ([nl] ++ t). now rewrite <- !app_assoc. Qed.

Lemma one_kw k v : forallb (fun c => c <? 128) (lit k) = true -> data_ok v -> data_ok (JObj [(lit k, v)]).
Proof.
  intros Hk Hv. constructor.
  - constructor; [|constructor]. split; [now apply key_ok|exact Hv].
  - cbn [map fst]. constructor; [intros []|constructor].
Qed.
Lemma has_in p l : has p l = true <-> In p l.
Proof. unfold has. rewrite existsb_exists. split; [intros (x & H & E); apply N.eqb_eq in E; now subst|intros H; exists p; split; [exact H|apply N.eqb_refl]]. Qed.
Lemma has_file_in f l : has_file f l = true <-> In f l.
Proof. unfold has_file. rewrite existsb_exists. split; [intros (x & H & E); apply eqs_true in E; now subst|intros H; exists f; split; [exact H|now apply eqs_true]]. Qed.

(** Whether a process is running *)
Theorem C81_running w p :
  whole_lines (before w) -> ~ within (lit "__running=1__") (before w) -> ~ within (lit "__running=1__") (after w) ->
  exists b, cmd_running w p = Ok (machine_of w, b) /\ (b = true <-> In p (running (machine_of w))).
Proof.
  intros Hb H1 H2. unfold cmd_running. destruct (cmd_send_ok w "cmd_running" [(lit "pid", JNum p)]) as [-> R]; [apply one_kw; [reflexivity|constructor]|].
  match goal with |- context [receive ?a ?b ?c ?d] => assert (S : receive a b c d = recv_running b p) end.
  { unfold receive. rewrite R. destruct (debugging w); reflexivity. }
  rewrite S. unfold recv_running. pose proof (has_in p (running (machine_of w))) as HI. destruct (has p (running (machine_of w))) eqn:E.
  - rewrite answer_in. exists true. split; [reflexivity|tauto].
  - rewrite answer_only; auto; [|apply not_nl; reflexivity|apply within_no; reflexivity].
    rewrite answer_in. exists false. split; [reflexivity|exact HI].
Qed.
Print Assumptions C81_running.

(** Whether a file exists *)
Theorem C81_exists w f :
  text_ok f -> whole_lines (before w) -> ~ within (lit "__exists=1__") (before w) -> ~ within (lit "__exists=1__") (after w) ->
  exists b, cmd_exists w f = Ok (machine_of w, b) /\ (b = true <-> In f (files (machine_of w))).
Proof.
  intros Hf Hb H1 H2. unfold cmd_exists. destruct (cmd_send_ok w "cmd_exists" [(lit "path", JStr f)]) as [-> R]; [apply one_kw; [reflexivity|now constructor]|].
  match goal with |- context [receive ?a ?b ?c ?d] => assert (S : receive a b c d = recv_exists b f) end.
  { unfold receive. rewrite R. destruct (debugging w); reflexivity. }
  rewrite S. unfold recv_exists. pose proof (has_file_in f (files (machine_of w))) as HI. destruct (has_file f (files (machine_of w))) eqn:E.
  - rewrite answer_in. exists true. split; [reflexivity|tauto].
  - rewrite answer_only; auto; [|apply not_nl; reflexivity|apply within_no; reflexivity].
    rewrite answer_in. exists false. split; [reflexivity|exact HI].
Qed.
Print Assumptions C81_exists.

(** A signal is sent to the process, once, or the caller learns that there is no such process. *)
Theorem C81_kill w p g : g <> 0 ->
  (In p (running (machine_of w)) -> exists m, cmd_kill w p (Some g) = Ok m /\ signals m = signals (machine_of w) ++ [(p, g)] /\
     env m = env (machine_of w) /\ files m = files (machine_of w) /\ started m = started (machine_of w)) /\
  (~ In p (running (machine_of w)) -> cmd_kill w p (Some g) = Failed).
Proof.
  intros Hg. unfold cmd_kill. destruct g as [|g]; [congruence|]. cbn [app].
  destruct (cmd_send_ok w "cmd_kill" [(lit "pid", JNum p); (lit "sig", JNum (Npos g))]) as [-> R].
  { constructor; [|apply distinct2; vm_compute; reflexivity].
    repeat (apply Forall_cons; [split; [apply key_ok; vm_compute; reflexivity|constructor]|]). constructor. }
  match goal with |- context [receive ?a ?b ?c ?d] => assert (S : receive a b c d = recv_kill b p (JNum (Npos g))) end.
  { unfold receive. rewrite R. destruct (debugging w); reflexivity. }
  rewrite S. unfold recv_kill. rewrite <- has_in. destruct (has p (running (machine_of w))); split; try congruence.
  intros _. eexists. split; [reflexivity|]. repeat split.
Qed.
Print Assumptions C81_kill.

(** A file is removed, or the caller learns that there is none. *)
Theorem C81_remove w f : text_ok f ->
  (In f (files (machine_of w)) -> exists m, cmd_remove w f = Ok m /\ (forall g, In g (files m) <-> In g (files (machine_of w)) /\ g <> f) /\
     running m = running (machine_of w) /\ started m = started (machine_of w) /\ signals m = signals (machine_of w) /\ env m = env (machine_of w)) /\
  (~ In f (files (machine_of w)) -> cmd_remove w f = Failed).
Proof.
  intros Hf. unfold cmd_remove. destruct (cmd_send_ok w "cmd_remove" [(lit "path", JStr f)]) as [-> R]; [apply one_kw; [reflexivity|now constructor]|].
  match goal with |- context [receive ?a ?b ?c ?d] => assert (S : receive a b c d = recv_remove b f) end.
  { unfold receive. rewrite R. destruct (debugging w); reflexivity. }
  rewrite S. unfold recv_remove. rewrite <- has_file_in. destruct (has_file f (files (machine_of w))); split; try congruence.
  intros _. eexists. split; [reflexivity|]. cbn [files running started signals env]. split; [|repeat split].
  intros g. rewrite filter_In. destruct (eqs f g) eqn:E.
  - apply eqs_true in E. subst g. cbn [negb]. split; [intros [_ H]; discriminate|intros [_ H]; congruence].
  - cbn [negb]. split; [intros [H _]|intros [H _]; auto]. split; [exact H|]. intros ->. rewrite (proj2 (eqs_true f f) eq_refl) in E. discriminate.
Qed.
Print Assumptions C81_remove.

(* ------------------------------------------------------------ findings *)
(** Without a signal (the default) or with signal 0, nothing can be killed: the receiver calls os.kill with None. *)
Theorem C81_default_signal_refuted w p sig : sig = None \/ sig = Some 0 -> cmd_kill w p sig = Failed.
Proof.
  intros Hs. unfold cmd_kill. replace ([(lit "pid", JNum p)] ++ match sig with Some 0 | None => [] | Some g => [(lit "sig", JNum g)] end) with [(lit "pid", JNum p)]
    by (destruct Hs as [->| ->]; reflexivity).
  destruct (cmd_send_ok w "cmd_kill" [(lit "pid", JNum p)]) as [-> R]; [apply one_kw; [reflexivity|constructor]|].
  match goal with |- context [receive ?a ?b ?c ?d] => assert (S : receive a b c d = Failed) end.
  { unfold receive. rewrite R. destruct (debugging w); reflexivity. }
  now rewrite S.
Qed.
Print Assumptions C81_default_signal_refuted.

(* ------------------------------------------------------------ examples *)
Definition example_link : link :=
  Link (Machine (fun k => if eqs k (lit "HOME") then Some (lit "/home/x") else None) [7; 9] [lit "a.log"] [] []) 4321 (lit "Welcome to __host=a1__!" ++ [nl]) [] true.
Definition example_cmd : command := Many [lit "python3"; lit "-c"; [34; 92; 39; 36; 10; 228; 128512; 0; 55295]; []].
Definition example_env : changes := [(lit "HOME", None); (lit "X=""$y", Some [233; 10]); (lit "EMPTY", Some [])].
Example C81_ex : exists m, cmd_start example_link example_cmd (Some example_env) (Some (lit "out.txt")) = Ok (m, 4321) /\
  map argv (started m) = [words example_cmd] /\ map (fun q => environ q (lit "HOME")) (started m) = [None] /\
  map (fun q => environ q (lit "X=""$y")) (started m) = [Some [233; 10]] /\ map output (started m) = [Some (lit "out.txt")].
Proof. eexists. split; [vm_compute; reflexivity|]. vm_compute. repeat split. Qed.
Example C81_ex_hypotheses : words_ok example_cmd /\ changes_ok example_env /\ whole_lines (before example_link) /\ ~ within (lit "remote_pid=") (after example_link).
Proof.
  assert (K : forall s, forallb (fun c => (c <? 55296) || ((57343 <? c) && (c <? 1114112))) s = true -> text_ok s).
  { intros s Hs. unfold text_ok. rewrite Forall_forall. rewrite forallb_forall in Hs. intros c Hc. specialize (Hs c Hc).
    apply orb_true_iff in Hs. rewrite andb_true_iff, !N.ltb_lt in Hs. split; lia. }
  split; [split; [discriminate|]|split; [split|split]].
  - cbn [words example_cmd]. repeat (apply Forall_cons; [apply K; vm_compute; reflexivity|]). constructor.
  - apply distinct3; vm_compute; reflexivity.
  - unfold example_env. repeat (apply Forall_cons; [split; [apply K; vm_compute; reflexivity|cbn [snd]; try exact I; apply K; vm_compute; reflexivity]|]). constructor.
  - right. eexists. reflexivity.
  - apply within_no. reflexivity.
Qed.
Example C81_ex_json : encode (JObj [(lit "pid", JNum 12); (lit "x", JArr [JNull; JBool false; JStr [228; 128512]])]) =
  Some (lit "eyJwaWQiOiAxMiwgIngiOiBbbnVsbCwgZmFsc2UsICJcdTAwZTRcdWQ4M2RcdWRlMDAiXX0=").
Proof. vm_compute. reflexivity. Qed.

(** If something else is written just before the answer, in the same line, the pid may not be found: the process runs, and the caller gets an exception. *)
Theorem C81_unfinished_line_refuted : exists w cmd, words_ok cmd /\ after w = [] /\ ~ within (lit "remote_pid") (before w) /\
  cmd_start w cmd None None = Failed /\
  exists m out, cmd_send w "cmd_start" [(lit "cmd", jcmd cmd); (lit "env", JNull); (lit "output_file", JNull)] = Ok (m, out) /\ started m <> [].
Proof.
  exists (Link (Machine (fun _ => None) [] [] [] []) 5 (lit "__host=a1") [] false), (One (lit "a")). split.
  - split; [discriminate|]. constructor; [|constructor]. apply key_ok. reflexivity.
  - split; [reflexivity|]. split; [apply within_no; reflexivity|]. split; [vm_compute; reflexivity|].
    eexists _, _. split; [vm_compute; reflexivity|]. cbn [started]. discriminate.
Qed.
Print Assumptions C81_unfinished_line_refuted.

(** A text with lone surrogates (Python has them for undecodable bytes of file names) need not arrive: two of them may become one character. *)
Theorem C81_surrogates_refuted : exists s t, encode (JStr s) = Some t /\ decode t <> Some (JStr s).
Proof. exists [55357; 56832]. eexists. split; [vm_compute; reflexivity|]. vm_compute. discriminate. Qed.
Print Assumptions C81_surrogates_refuted.
