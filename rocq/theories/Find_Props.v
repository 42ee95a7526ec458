(** C90: whoever is asked for a cluster reads its connection file. *)
From Coq Require Import String Ascii List NArith Bool PeanoNat Lia.
Import ListNotations.
From Verif Require Import Find_Spec Find_Model.

Lemma assigned_last {A} (f : str -> A) ids : forall id0,
  fold_left (assign f) ids (id0, f id0) = (last ids id0, f (last ids id0)).
Proof.
  induction ids as [|a ids IH]; intro id0; [reflexivity|]. cbn [fold_left].
  assert (E : assign f (id0, f id0) a = (a, f a)).
  { unfold assign. cbn [fst]. destruct (list_eq_dec ascii_dec id0 a) as [->|]; reflexivity. }
  rewrite E, IH. assert (L : last (a :: ids) id0 = last ids a).
  { revert a id0 E. induction ids as [|b ids IH']; intros a id0 E; [reflexivity|].
    change (last (a :: b :: ids) id0) with (last (b :: ids) id0).
    destruct ids as [|c ids]; [reflexivity|].
    change (last (b :: c :: ids) id0) with (last (c :: ids) id0).
    change (last (b :: c :: ids) a) with (last (c :: ids) a).
    clear. revert c. induction ids as [|d ids IH]; intro c; [reflexivity|].
    change (last (c :: d :: ids) id0) with (last (d :: ids) id0).
    change (last (c :: d :: ids) a) with (last (d :: ids) a). apply IH. }
  rewrite L. reflexivity.
Qed.

(** Controllers, engines, clients and launchers mean the same file, whatever
    cluster ids were given before the last one. *)
Theorem C90_agree pd ids k :
  controller_path pd ids k = launcher_path pd (last ids []) k /\
  engine_path pd [] ids = launcher_path pd (last ids []) ForEngine /\
  client_path pd (last ids []) = launcher_path pd (last ids []) ForClient.
Proof.
  split; [|split].
  - assert (E : controller_names ids = (last ids [], controller_observer (last ids [])))
      by exact (assigned_last controller_observer ids []).
    unfold controller_path, launcher_path. rewrite E. cbn [snd]. unfold controller_observer. rewrite <- app_assoc.
    destruct k; destruct (last ids []); cbn [fst snd]; rewrite <- ?app_assoc; reflexivity.
  - assert (E : assigned engine_observer (lit "ipcontroller-engine.json") ids = (last ids [], engine_observer (last ids [])))
      by exact (assigned_last engine_observer ids []).
    unfold engine_path, launcher_path. rewrite E. cbn [snd]. unfold engine_observer. rewrite <- app_assoc.
    destruct (last ids []); rewrite <- ?app_assoc; reflexivity.
  - unfold client_path, launcher_path. rewrite <- app_assoc.
    destruct (last ids []); rewrite <- ?app_assoc; reflexivity.
Qed.
Print Assumptions C90_agree.

(** The files of two clusters are different files, and so are the two of one. *)
Lemma split_slash (a b a' b' : str) : plain b -> plain b' ->
  a ++ "/"%char :: b = a' ++ "/"%char :: b' -> a = a' /\ b = b'.
Proof.
  intros P P'. revert a'. induction a as [|x a IH]; intros [|x' a'] E; cbn in E.
  - injection E as ->. auto.
  - exfalso. injection E as E1 E2. apply P. rewrite E2. apply in_elt.
  - exfalso. injection E as E1 E2. apply P'. rewrite <- E2. apply in_elt.
  - injection E as -> E. destruct (IH a' E) as [-> ->]. auto.
Qed.
Lemma same_tail {A} (x y s t : list A) : length s = length t -> x ++ s = y ++ t -> x = y /\ s = t.
Proof.
  intros L E. assert (N : length x = length y).
  { apply (f_equal (@length A)) in E. rewrite !app_length in E. lia. }
  revert y N E. induction x as [|a x IH]; intros [|b y] N E; try discriminate; [auto|].
  injection N as N. injection E as -> E. destruct (IH y N E) as [-> ->]. auto.
Qed.
Definition mid (id : str) : str := match id with [] => [] | _ => "-"%char :: id end.
Definition suffix (k : kind) : str := match k with ForClient => lit "-client.json" | ForEngine => lit "-engine.json" end.
Lemma path_form pd id k :
  launcher_path pd id k = (pd ++ lit "/security") ++ "/"%char :: (lit "ipcontroller" ++ mid id) ++ suffix k.
Proof.
  unfold launcher_path. destruct k; destruct id; unfold mid, suffix; rewrite <- !app_assoc; reflexivity.
Qed.
Lemma plain_name id k : plain id -> plain ((lit "ipcontroller" ++ mid id) ++ suffix k).
Proof.
  intros P H. apply in_app_or in H as [H|H].
  - apply in_app_or in H as [H|H].
    + cbn in H. repeat (destruct H as [H|H]; [discriminate|]). exact H.
    + destruct id as [|c id]; [exact H|]. destruct H as [H|H]; [discriminate|exact (P H)].
  - destruct k; cbn in H; repeat (destruct H as [H|H]; [discriminate|]); exact H.
Qed.
Theorem C90_distinct pd id k pd' id' k' : plain id -> plain id' ->
  launcher_path pd id k = launcher_path pd' id' k' -> pd = pd' /\ id = id' /\ k = k'.
Proof.
  intros P P' E. rewrite !path_form in E.
  destruct (split_slash _ _ _ _ (plain_name id k P) (plain_name id' k' P') E) as [E1 E2].
  apply app_inv_tail in E1.
  assert (L : length (suffix k) = length (suffix k')) by (destruct k, k'; reflexivity).
  destruct (same_tail _ _ _ _ L E2) as [E3 E4]. apply app_inv_head in E3.
  split; [exact E1|]. split.
  - destruct id, id'; cbn in E3; congruence.
  - destruct k, k'; try reflexivity; discriminate E4.
Qed.
Print Assumptions C90_distinct.

(** With a slash in a cluster id they may be the same. *)
Theorem C90_slash_refuted : ~ (forall pd id pd' id', launcher_path pd id ForClient = launcher_path pd' id' ForClient -> id = id').
Proof.
  intro H. specialize (H (lit "/p") (lit "x/security/ipcontroller-y") (lit "/p/security/ipcontroller-x") (lit "y") eq_refl).
  discriminate H.
Qed.

(** Files are written by controllers, each where it is to. *)
Definition honest (fs : files) : Prop := forall t p i, fs t p = Some (Whole i) ->
  p = controller_path (of_profile i) [of_cluster i] (whom i) /\ plain (of_cluster i) /\ since i <= t.

Lemma honest_path fs t pd id k i : honest fs -> plain id -> fs t (launcher_path pd id k) = Some (Whole i) ->
  of_profile i = pd /\ of_cluster i = id /\ whom i = k /\ since i <= t.
Proof.
  intros H P E. destruct (H _ _ _ E) as (A & B & C).
  destruct (C90_agree (of_profile i) [of_cluster i] (whom i)) as (D & _). rewrite D in A. cbn [last] in A.
  destruct (C90_distinct _ _ _ _ _ _ P B A) as (X & Y & Z). auto.
Qed.
Lemma read_reads fs t p t' i : read fs t p = Reads t' i -> t' = t /\ fs t p = Some (Whole i).
Proof. unfold read. destruct (fs t p) as [[|j]|]; try discriminate. intro E. injection E as <- <-. auto. Qed.
Lemma there_b fs t p : is_there fs t p = true <-> there fs t p.
Proof. unfold is_there, there. destruct (fs t p); split; congruence. Qed.

Lemma client_loop_spec fs p t0 timeout fuel : forall w, timeout - w < fuel ->
  let t := client_loop fs p t0 timeout w fuel in
  t <= t0 + timeout /\ t0 + Nat.min timeout w <= t /\ (is_there fs t p = true \/ t = t0 + timeout) /\
  (forall t1, kept fs -> there fs t1 p -> t0 + w <= t1 -> t <= t1 + 10).
Proof.
  induction fuel as [|f IH]; intros w Hf; [lia|]. cbn [client_loop].
  destruct (w <? timeout) eqn:W.
  - apply Nat.ltb_lt in W. destruct (is_there fs (t0 + Nat.min timeout (w + 10)) p) eqn:X.
    + cbv zeta. split; [lia|]. split; [lia|]. split; [left; exact X|]. intros t1 K T1 Hw. lia.
    + cbv zeta. destruct (IH (w + 10)) as (A & B & C & D); [lia|]. split; [exact A|]. split; [lia|].
      split; [exact C|]. intros t1 K T1 Hw.
      destruct (Compare_dec.le_lt_dec (t0 + (w + 10)) t1) as [L|L]; [apply D; auto|].
      destruct (Compare_dec.le_lt_dec t1 (t0 + timeout)) as [L'|L']; [|lia].
      exfalso. assert (Q : is_there fs (t0 + Nat.min timeout (w + 10)) p = true); [|congruence].
      apply there_b. apply (K t1); [|exact T1]. lia.
  - apply Nat.ltb_ge in W. cbv zeta. split; [lia|]. split; [lia|]. split; [right; reflexivity|].
    intros t1 K T1 Hw. lia.
Qed.

Definition client_time (fs : files) (p : str) (t0 timeout : nat) : nat :=
  if is_there fs t0 p then t0 else client_loop fs p t0 timeout 0 (S timeout).
Lemma client_time_spec fs p t0 timeout :
  t0 <= client_time fs p t0 timeout <= t0 + timeout /\
  (there fs (client_time fs p t0 timeout) p \/ client_time fs p t0 timeout = t0 + timeout).
Proof.
  unfold client_time. destruct (is_there fs t0 p) eqn:X.
  - split; [lia|]. left. apply there_b. exact X.
  - destruct (client_loop_spec fs p t0 timeout (S timeout) 0) as (A & B & C & _); [lia|]. cbv zeta in *.
    split; [lia|]. destruct C as [C|C]; [left; apply there_b; exact C|right; exact C].
Qed.

(** A client that finds its cluster through a profile reads what a controller
    of that profile and that cluster id wrote for clients, before the timeout. *)
Theorem C90_client_right fs pd id t0 timeout t i : honest fs -> plain id ->
  client_reads fs (client_path pd id) t0 timeout = Reads t i ->
  of_profile i = pd /\ of_cluster i = id /\ whom i = ForClient /\ since i <= t /\ t0 <= t <= t0 + timeout.
Proof.
  intros H P E. pose proof (client_time_spec fs (client_path pd id) t0 timeout) as [B _].
  change (client_reads fs (client_path pd id) t0 timeout) with
    (read fs (client_time fs (client_path pd id) t0 timeout) (client_path pd id)) in E.
  apply read_reads in E as [-> E].
  destruct (C90_agree pd [id] ForClient) as (_ & _ & A). cbn [last] in A.
  rewrite A in E at 2. destruct (honest_path _ _ _ _ _ _ H P E) as (X & Y & Z & W). auto.
Qed.
Print Assumptions C90_client_right.

(** It does not find it iff the file is not there when the time is up, *)
Theorem C90_client_waits fs p t0 timeout : kept fs ->
  ((exists t, client_reads fs p t0 timeout = NotFound t) <-> ~ there fs (t0 + timeout) p).
Proof.
  intro K. pose proof (client_time_spec fs p t0 timeout) as [B C].
  change (client_reads fs p t0 timeout) with (read fs (client_time fs p t0 timeout) p).
  unfold read. split.
  - intros [t E] T. destruct C as [C|C].
    + unfold there in C. destruct (fs (client_time fs p t0 timeout) p) as [[|]|]; try discriminate. congruence.
    + rewrite C in E. unfold there in T. destruct (fs (t0 + timeout) p) as [[|]|]; try discriminate. congruence.
  - intro N. exists (client_time fs p t0 timeout). destruct (fs (client_time fs p t0 timeout) p) eqn:E; [|reflexivity].
    exfalso. apply N. apply (K (client_time fs p t0 timeout)); [lia|]. unfold there. congruence.
Qed.
Print Assumptions C90_client_waits.
(** and it waits at most a second too long. *)
Theorem C90_client_soon fs p t0 timeout t i t1 : kept fs -> t0 <= t1 -> there fs t1 p ->
  client_reads fs p t0 timeout = Reads t i -> t <= t1 + 10.
Proof.
  intros K L T E. change (client_reads fs p t0 timeout) with (read fs (client_time fs p t0 timeout) p) in E.
  apply read_reads in E as [-> _]. unfold client_time. destruct (is_there fs t0 p) eqn:X; [lia|].
  destruct (client_loop_spec fs p t0 timeout (S timeout) 0) as (_ & _ & _ & D); [lia|].
  apply D; auto. lia.
Qed.
Print Assumptions C90_client_soon.

(** Engines. *)
Lemma engine_loop_spec fs p left : forall t, let e := engine_loop fs p t left in
  t <= e <= t + left /\ (there fs e p \/ e = t + left) /\
  (forall t1, kept fs -> there fs t1 p -> t <= t1 -> e <= t1).
Proof.
  induction left as [|l IH]; intro t; cbn [engine_loop]; cbv zeta.
  - split; [lia|]. split; [right; lia|]. auto.
  - destruct (is_there fs t p) eqn:X.
    + split; [lia|]. split; [left; apply there_b; exact X|]. auto.
    + destruct (IH (S t)) as (A & B & C). cbv zeta in *. split; [lia|]. split; [destruct B; [auto|right; lia]|].
      intros t1 K T L. destruct (Nat.eq_dec t1 t) as [->|n]; [apply there_b in T; congruence|]. apply C; auto. lia.
Qed.
Theorem C90_engine_right fs pd ids t0 wait t i : honest fs -> plain (last ids []) ->
  engine_reads fs None (engine_path pd [] ids) t0 wait = Reads t i ->
  of_profile i = pd /\ of_cluster i = last ids [] /\ whom i = ForEngine /\ since i <= t /\ t0 <= t <= t0 + wait.
Proof.
  intros H P E. unfold engine_reads in E. apply read_reads in E as [-> E].
  destruct (engine_loop_spec fs (engine_path pd [] ids) wait t0) as (B & _). cbv zeta in B.
  destruct (C90_agree pd ids ForEngine) as (_ & A & _).
  rewrite A in E at 2. destruct (honest_path _ _ _ _ _ _ H P E) as (X & Y & Z & W). auto.
Qed.
Print Assumptions C90_engine_right.
Theorem C90_engine_waits fs p t0 wait : kept fs ->
  ((exists t, engine_reads fs None p t0 wait = NotFound t) <-> ~ there fs (t0 + wait) p) /\
  (forall t i t1, engine_reads fs None p t0 wait = Reads t i -> t0 <= t1 -> there fs t1 p -> t <= t1).
Proof.
  intro K. destruct (engine_loop_spec fs p wait t0) as (B & C & D). cbv zeta in *.
  unfold engine_reads, read. split; [split|].
  - intros [t E] T. destruct C as [C|C].
    + unfold there in C. destruct (fs (engine_loop fs p t0 wait) p) as [[|]|]; try discriminate. congruence.
    + rewrite C in E. unfold there in T. destruct (fs (t0 + wait) p) as [[|]|]; try discriminate. congruence.
  - intro N. eexists. destruct (fs (engine_loop fs p t0 wait) p) eqn:E; [|reflexivity].
    exfalso. apply N. apply (K (engine_loop fs p t0 wait)); [lia|]. unfold there. congruence.
  - intros t i t1 E L T. destruct (fs (engine_loop fs p t0 wait) p) as [[|]|]; try discriminate.
    injection E as <- <-. auto.
Qed.
Print Assumptions C90_engine_waits.
(** What they are told in the environment, or in their configuration, comes
    first. *)
Theorem C90_engine_told fs i p t0 wait pd u ids :
  engine_reads fs (Some i) p t0 wait = Reads t0 i /\ (u <> [] -> engine_path pd u ids = u).
Proof. split; [reflexivity|]. destruct u; [congruence|reflexivity]. Qed.
Print Assumptions C90_engine_told.

(** Launchers: the infos they give to clients and engines are those of their
    cluster; *)
Lemma read_twice_reads fs t p t' t'' i : read_twice fs t p = (t', Reads t'' i) ->
  exists u, t <= u /\ fs u p = Some (Whole i) /\ t <= t' <= t + 5.
Proof.
  unfold read_twice. destruct (read fs t p) as [u j| |u] eqn:E; intro H.
  - injection H as <- <- <-. apply read_reads in E as [-> E]. exists t. split; [lia|]. split; [exact E|lia].
  - injection H as <- H. apply read_reads in H as [_ H]. exists (t + 5). split; [lia|]. split; [exact H|lia].
  - discriminate.
Qed.
Theorem C90_launcher_right fs pd id t ci ei : honest fs -> plain id ->
  load_both fs (launcher_path pd id ForClient) (launcher_path pd id ForEngine) t = Got ci ei ->
  of_profile ci = pd /\ of_cluster ci = id /\ whom ci = ForClient /\
  of_profile ei = pd /\ of_cluster ei = id /\ whom ei = ForEngine.
Proof.
  intros H P E. unfold load_both in E.
  destruct (read_twice fs t (launcher_path pd id ForClient)) as [t' [u j| |u]] eqn:R; try discriminate.
  destruct (read_twice fs t' (launcher_path pd id ForEngine)) as [t'' [u' j'| |u']] eqn:R'; try discriminate.
  injection E as -> ->. apply read_twice_reads in R as (v & _ & R & _). apply read_twice_reads in R' as (v' & _ & R' & _).
  destruct (honest_path _ _ _ _ _ _ H P R) as (A & B & C & _).
  destruct (honest_path _ _ _ _ _ _ H P R') as (A' & B' & C' & _). auto 8.
Qed.
Print Assumptions C90_launcher_right.
(** they get them if each file is whole half a second after both are there; *)
Theorem C90_launcher_gets fs pc pe t : there fs t pc -> there fs t pe -> kept fs ->
  (forall t' p i, t <= t' -> (p = pc \/ p = pe) -> fs t' p = Some (Whole i) -> forall t'', t' <= t'' -> fs t'' p = Some (Whole i)) ->
  (exists ci, fs (t + 5) pc = Some (Whole ci)) -> (exists ei, fs (t + 5) pe = Some (Whole ei)) ->
  exists ci ei, load_both fs pc pe t = Got ci ei.
Proof.
  intros A B K W [ci C] [ei E]. unfold load_both.
  assert (R1 : exists t' u i, read_twice fs t pc = (t', Reads u i) /\ t <= t').
  { unfold read_twice, read. unfold there in A. destruct (fs t pc) as [[|i]|] eqn:X; [|do 3 eexists; split; [reflexivity|lia]|congruence].
    rewrite C. do 3 eexists. split; [reflexivity|lia]. }
  destruct R1 as (t' & u & i & -> & L).
  assert (R2 : exists t'' u' i', read_twice fs t' pe = (t'', Reads u' i')).
  { unfold read_twice, read. destruct (fs t' pe) as [[|j]|] eqn:X.
    - rewrite (W (t + 5) pe ei) by (auto; lia). do 3 eexists. reflexivity.
    - do 3 eexists. reflexivity.
    - exfalso. exact (K t t' pe L B X). }
  destruct R2 as (t'' & u' & i' & ->). eauto.
Qed.
Print Assumptions C90_launcher_gets.
(** and they wait until both are there, unless the time is up or the controller
    has stopped. *)
Theorem C90_launcher_waits fs stopped pc pe deadline fuel : forall t,
  match launcher_loop fs stopped pc pe deadline t fuel with
  | Arrived t' => t <= t' <= t + fuel /\ there fs t' pc /\ there fs t' pe
  | TimedOut => exists d t', deadline = Some d /\ d < t' /\ t <= t' <= t + fuel /\ ~ (there fs t' pc /\ there fs t' pe)
  | Stopped => exists t', t < t' <= t + fuel /\ stopped t' = true
  | StillWaiting => ~ (there fs (t + fuel) pc /\ there fs (t + fuel) pe)
  end.
Proof.
  induction fuel as [|f IH]; intro t; cbn [launcher_loop].
  - destruct (is_there fs t pc && is_there fs t pe) eqn:X.
    + apply andb_true_iff in X as [X Y]. split; [lia|]. split; apply there_b; assumption.
    + rewrite Nat.add_0_r. intros [A B]. apply there_b in A, B. rewrite A, B in X. discriminate.
  - destruct (is_there fs t pc && is_there fs t pe) eqn:X.
    + apply andb_true_iff in X as [X Y]. split; [lia|]. split; apply there_b; assumption.
    + assert (N : ~ (there fs t pc /\ there fs t pe)).
      { intros [A B]. apply there_b in A, B. rewrite A, B in X. discriminate. }
      destruct (match deadline with Some d => d <? t | None => false end) eqn:D.
      * destruct deadline as [d|]; [|discriminate]. apply Nat.ltb_lt in D. exists d, t. split; [reflexivity|].
        split; [exact D|]. split; [lia|exact N].
      * destruct (stopped (S t)) eqn:S1; [exists (S t); split; [lia|exact S1]|].
        specialize (IH (S t)). destruct (launcher_loop fs stopped pc pe deadline (S t) f) as [t'| | |].
        -- destruct IH as (A & B). split; [lia|exact B].
        -- destruct IH as (d & t' & A & B & C & E). exists d, t'. repeat split; auto; lia.
        -- destruct IH as (t' & A & B). exists t'. split; [lia|exact B].
        -- rewrite Nat.add_succ_r. exact IH.
Qed.
Print Assumptions C90_launcher_waits.

(** What a Client connects to: the information or the file it is given, if any,
    and otherwise the file of the cluster id in the profile directory that it is
    given, if any, and otherwise in that of the profile of that name; never in
    any other directory. *)
Theorem C90_source is_dir home ci uf pdir name id :
  (forall i, ci = ADict i -> client_source is_dir home ci uf pdir name id = Known i) /\
  (forall p, ci = APath p -> client_source is_dir home ci uf pdir name id = File p) /\
  (ci = AUrl -> client_source is_dir home ci uf pdir name id = Refused) /\
  (ci = Nothing ->
     let d := match pdir with Some d => d | None =>
                home ++ lit "/profile_" ++ match name with Some n => n | None => lit "default" end end in
     client_source is_dir home ci uf pdir name id = if is_dir d then Waits (client_path d id) else NoController).
Proof.
  split; [intros i ->; reflexivity|]. split; [intros p ->; reflexivity|]. split; [intros ->; reflexivity|].
  intros ->. unfold client_source, find_profile. destruct pdir as [d|].
  - destruct (is_dir d); reflexivity.
  - cbv zeta. destruct (is_dir _); reflexivity.
Qed.
Print Assumptions C90_source.
(** A file named with `url_file=` is not used. *)
Theorem C90_url_file_refuted : ~ (forall is_dir home pdir name id u,
  client_source is_dir home Nothing (Some u) pdir name id = File u).
Proof. intro H. specialize (H (fun _ => false) [] None None [] []). discriminate H. Qed.

(** ** Cases *)
Definition P1 := lit "/home/u/.ipython/profile_default".
Definition fs1 (t : nat) (p : str) : option content :=
  if list_eq_dec ascii_dec p (launcher_path P1 [] ForClient) then
    if t <? 12 then None else if t <? 13 then Some Partial else Some (Whole (Info P1 [] 3 ForClient))
  else if list_eq_dec ascii_dec p (launcher_path P1 (lit "b") ForClient) then
    if t <? 40 then None else Some (Whole (Info P1 (lit "b") 30 ForClient))
  else None.
Example C90_ex_honest : honest fs1 /\ kept fs1.
Proof.
  split.
  - intros t p i. unfold fs1. destruct (list_eq_dec _ _ _) as [->|_].
    + destruct (t <? 12); [discriminate|]. destruct (t <? 13) eqn:E; [discriminate|]. apply Nat.ltb_ge in E.
      intro H. injection H as <-. split; [reflexivity|]. split; [intros []|]. cbn [since]. lia.
    + destruct (list_eq_dec _ _ _) as [->|_]; [|discriminate].
      destruct (t <? 40) eqn:E; [discriminate|]. apply Nat.ltb_ge in E.
      intro H. injection H as <-. split; [reflexivity|]. split; [intros [H|[]]; discriminate|]. cbn [since]. lia.
  - intros t t' p L. unfold there, fs1. destruct (list_eq_dec _ _ _) as [->|_].
    + destruct (t <? 12) eqn:E; [congruence|]. apply Nat.ltb_ge in E. intros _.
      assert (E' : t' <? 12 = false) by (apply Nat.ltb_ge; lia). rewrite E'. destruct (t' <? 13); discriminate.
    + destruct (list_eq_dec _ _ _) as [->|_]; [|congruence].
      destruct (t <? 40) eqn:E; [congruence|]. apply Nat.ltb_ge in E. intros _.
      assert (E' : t' <? 40 = false) by (apply Nat.ltb_ge; lia). rewrite E'. discriminate.
Qed.
Example C90_ex_reads :
  client_reads fs1 (client_path P1 []) 0 100 = Reads 20 (Info P1 [] 3 ForClient) /\
  client_reads fs1 (client_path P1 (lit "b")) 0 35 = NotFound 35 /\
  client_reads fs1 (client_path P1 (lit "b")) 11 35 = Reads 41 (Info P1 (lit "b") 30 ForClient).
Proof. split; [|split]; vm_compute; reflexivity. Qed.

(** What is read may be of a controller that is gone: after a crash its file is
    there until the next controller of that cluster id writes its own. *)
Theorem C90_latest_refuted : ~ (forall fs p t0 timeout t i, honest fs -> kept fs ->
  client_reads fs p t0 timeout = Reads t i -> forall t' i', t0 <= t' -> fs t' p = Some (Whole i') -> since i' <= t0 -> since i' = since i).
Proof.
  intro H.
  set (fs := fun (t : nat) (p : str) =>
     if list_eq_dec ascii_dec p (launcher_path P1 [] ForClient) then
       Some (Whole (Info P1 [] (if t <? 60 then 0 else 50) ForClient)) else None).
  assert (HH : honest fs).
  { intros t p i. unfold fs. destruct (list_eq_dec _ _ _) as [->|_]; [|discriminate].
    intro E. injection E as <-. split; [destruct (t <? 60); reflexivity|]. split; [intros []|].
    cbn [since]. destruct (t <? 60) eqn:E; [lia|apply Nat.ltb_ge in E; lia]. }
  assert (KK : kept fs).
  { intros t t' p L. unfold there, fs. destruct (list_eq_dec _ _ _); congruence. }
  specialize (H fs (client_path P1 []) 51 100 51 (Info P1 [] 0 ForClient) HH KK).
  assert (X : client_reads fs (client_path P1 []) 51 100 = Reads 51 (Info P1 [] 0 ForClient)) by (vm_compute; reflexivity).
  assert (L : 51 <= 60) by lia.
  specialize (H X 60 (Info P1 [] 50 ForClient) L).
  assert (Y : fs 60 (client_path P1 []) = Some (Whole (Info P1 [] 50 ForClient))) by (vm_compute; reflexivity).
  assert (Z : 50 <= 51) by lia. specialize (H Y Z). cbn in H. lia.
Qed.
(** A client that comes while the file is being written fails (the launcher
    tries again). *)
Theorem C90_partial_refuted : ~ (forall fs p t0 timeout, kept fs -> there fs (t0 + timeout) p ->
  exists t i, client_reads fs p t0 timeout = Reads t i).
Proof.
  intro H. specialize (H fs1 (launcher_path P1 [] ForClient) 12 100 (proj2 C90_ex_honest)).
  destruct H as (t & i & H); [vm_compute; discriminate|]. vm_compute in H. discriminate H.
Qed.
