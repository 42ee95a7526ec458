(** C82: engines on several hosts over ssh. *)
From Coq Require Import NArith ZArith String Ascii List Bool Lia.
From Verif Require Import Batch_Spec Batch_Model Batch_Proofs Hosts_Spec Hosts_Model Hosts_Proofs.
Import ListNotations.

(** As many engines are started as were asked for, or as there are slots; the launcher knows how many. *)
(** [declared]: a number of engines, or that in the settings of the host, or one *)
Definition declared (e : entry) : Z := match e with Count n => n | Config (Some n) _ => n | Config None _ => 1 end.
Theorem C82_number engines args n :
  Z.of_nat (length (fst (start engines args n))) = Z.max 0 (Z.min n (total (map (fun x => declared (snd x)) engines))) /\
  snd (start engines args n) = Z.of_nat (length (fst (start engines args n))).
Proof.
  change (fun x : text * entry => declared (snd x)) with (fun x : text * entry => slots_of (snd x)).
  unfold start. rewrite start_hosts_ok. cbn [fst snd]. split; [|lia]. rewrite length_flat_map.
  rewrite (map_ext (fun x => length (engines_of x)) g_count) by (intros g; unfold engines_of; now rewrite map_length, seq_length).
  rewrite plan_counts, filled_total. f_equal. lia.
Qed.
Print Assumptions C82_number.

(** The hosts are filled one after the other, and the engines of a host are numbered. *)
Theorem C82_allocation engines args n : exists groups,
  fst (start engines args n) = concat groups /\ length groups = length engines /\
  forall i h e k, nth_error engines i = Some (h, e) -> nth_error (filled n (map (fun x => slots_of (snd x)) engines)) i = Some k ->
  exists es, nth_error groups i = Some es /\ length es = k /\
    forall j en, nth_error es j = Some en ->
      (exists ds, numeral ds (N.of_nat j) /\ identifier en = h ++ lit "/" ++ ds) /\
      sends_files en = match j with O => true | _ => false end /\
      forall u host p, address h u host p ->
        location en = match u with Some ((_ :: _) as u) => u ++ lit "@" ++ host | _ => host end.
Proof.
  set (gs := plan engines args n). exists (map engines_of gs).
  assert (S : fst (start engines args n) = concat (map engines_of gs)).
  { unfold start. rewrite start_hosts_ok. cbn [fst]. rewrite <- flat_map_concat_map. unfold gs. now rewrite Z.sub_0_r. }
  split; [exact S|].
  assert (H : map (fun g => (g_host g, g_entry g)) gs = engines) by apply plan_hosts.
  assert (C : map g_count gs = filled n (map (fun x => slots_of (snd x)) engines)) by apply plan_counts.
  split; [rewrite map_length, <- H, map_length; reflexivity|].
  intros i h e k Hi Hk. rewrite <- C in Hk. rewrite <- H in Hi. rewrite nth_error_map in Hi, Hk.
  destruct (nth_error gs i) as [g|] eqn:G; [|discriminate]. cbn [option_map] in Hi, Hk. injection Hi as <- <-. injection Hk as <-.
  exists (engines_of g). rewrite nth_error_map, G. split; [reflexivity|].
  split; [unfold engines_of; now rewrite map_length, seq_length|].
  intros j en Hj. unfold engines_of in Hj. rewrite nth_error_map in Hj.
  destruct (nth_error (seq 0 (g_count g)) j) as [j'|] eqn:J; [|discriminate].
  assert (j' = j).
  { assert (L : (j < g_count g)%nat). { pose proof (nth_error_Some (seq 0 (g_count g)) j) as X. rewrite J, seq_length in X. apply X. discriminate. }
    apply (nth_error_nth _ _ O) in J. rewrite seq_nth in J by exact L. lia. }
  subst j'. cbn [option_map] in Hj. injection Hj as <-. cbn [identifier sends_files location]. split; [|split].
  - exists (decimal (N.of_nat j)). split; [apply decimal_numeral|reflexivity].
  - now destruct j.
  - intros u host p A. unfold place_of. rewrite (parse_ok _ _ _ _ A). reflexivity.
Qed.
Print Assumptions C82_allocation.

(** No two engines have the same identifier. *)
Theorem C82_identifiers engines args n : NoDup (map fst engines) -> NoDup (map identifier (fst (start engines args n))).
Proof.
  intros H. unfold start. rewrite start_hosts_ok. cbn [fst]. apply nodup_names.
  rewrite <- (plan_hosts engines args (n - 0)), map_map in H. exact H.
Qed.
Print Assumptions C82_identifiers.

(** The port of a host is the one that its address names. *)
Theorem C82_port_read h u host p : address h u host p -> port_of h = p.
Proof. intros A. unfold port_of. now rewrite (parse_ok _ _ _ _ A). Qed.
Print Assumptions C82_port_read.

(** The arguments of ssh: those of the host's configuration with its port; or those of the engine set with the port of the FIRST host that has one, up to this one, if they have none. *)
Definition asks_for_port (args : list text) : Prop := In (lit "-p") args.
Definition takes_part (k : nat) (e : entry) : bool := match e with Config _ (Some _) => false | _ => negb (Nat.eqb k 0) end.
Fixpoint first_port (hosts : list (text * entry * nat)) (last : text) : option text :=
  match hosts with
  | [] => port_of last
  | (h, e, k) :: r => match (if takes_part k e then port_of h else None) with Some p => Some p | None => first_port r last end
  end.
Lemma filter_first gs h0 :
  first_some (map (fun g => port_of (g_host g)) (filter shares gs) ++ [port_of h0]) = first_port (map (fun g => (g_host g, g_entry g, g_count g)) gs) h0.
Proof.
  induction gs as [|g gs IH]; cbn [map filter app first_port first_some]; [now destruct (port_of h0)|].
  assert (S : shares g = takes_part (g_count g) (g_entry g)) by (unfold shares, takes_part, own_args; destruct (g_entry g) as [?|? []]; reflexivity).
  rewrite <- S. destruct (shares g); [|exact IH]. cbn [map app first_some]. destruct (port_of (g_host g)); [reflexivity|exact IH].
Qed.
Theorem C82_arguments engines args n : exists groups,
  fst (start engines args n) = concat groups /\
  forall i h e es en, nth_error engines i = Some (h, e) -> nth_error groups i = Some es -> In en es ->
    match e with
    | Config _ (Some own) =>
        (asks_for_port own -> ssh_arguments en = own) /\
        (~ asks_for_port own -> ssh_arguments en = own ++ match port_of h with Some p => [lit "-p"; p] | None => [] end)
    | _ =>
        (asks_for_port args -> ssh_arguments en = args) /\
        (~ asks_for_port args -> ssh_arguments en = args ++
           match first_port (map (fun x => (fst (fst x), snd (fst x), snd x)) (firstn i (combine engines (filled n (map (fun x => slots_of (snd x)) engines))))) h with
           | Some p => [lit "-p"; p] | None => [] end)
    end.
Proof.
  set (gs := plan engines args n). exists (map engines_of gs).
  assert (S : fst (start engines args n) = concat (map engines_of gs)).
  { unfold start. rewrite start_hosts_ok. cbn [fst]. rewrite <- flat_map_concat_map. unfold gs. now rewrite Z.sub_0_r. }
  split; [exact S|].
  assert (H : map (fun g => (g_host g, g_entry g)) gs = engines) by apply plan_hosts.
  assert (C : map g_count gs = filled n (map (fun x => slots_of (snd x)) engines)) by apply plan_counts.
  intros i h e es en Hi He Hen. rewrite nth_error_map in He. destruct (nth_error gs i) as [g|] eqn:G; [|discriminate]. cbn [option_map] in He. injection He as <-.
  rewrite <- H in Hi. rewrite nth_error_map, G in Hi. cbn [option_map] in Hi. injection Hi as <- <-.
  unfold engines_of in Hen. apply in_map_iff in Hen. destruct Hen as (j & <- & _). cbn [ssh_arguments].
  destruct (nth_error_split gs i G) as (bef & aft & E & L).
  pose proof (plan_args engines args n bef g aft E) as A.
  assert (M : forall a, mem dash_p a = true <-> asks_for_port a) by (intros a; apply mem_in).
  assert (F : firstn i (combine engines (filled n (map (fun x => slots_of (snd x)) engines))) = map (fun g => ((g_host g, g_entry g), g_count g)) bef).
  { rewrite <- C, <- H, E. rewrite !map_app. subst i. clear. induction bef as [|b bef IH]; [reflexivity|]. cbn [map app combine length firstn]. f_equal. exact IH. }
  rewrite F, map_map. cbn [fst snd]. rewrite <- filter_first.
  assert (NS : own_args (g_entry g) = None -> (asks_for_port args -> g_args g = args) /\
     (~ asks_for_port args -> g_args g = args ++ match first_some (map (fun g => port_of (g_host g)) (filter shares bef) ++ [port_of (g_host g)]) with Some p => [lit "-p"; p] | None => [] end)).
  { intros O. rewrite O in A. rewrite map_app in A. cbn [map] in A. rewrite fold_port in A. rewrite A. split; intros X.
    - apply M in X. now rewrite X.
    - destruct (mem dash_p args) eqn:Q; [exfalso; apply X, M, Q|]. destruct (first_some _); [reflexivity|now rewrite app_nil_r]. }
  destruct (g_entry g) as [c|c [own|]]; try (apply NS; reflexivity).
  cbn [own_args] in A. rewrite A. split; intros X.
  - apply M in X. unfold add_port. destruct (port_of (g_host g)); [now rewrite X|reflexivity].
  - unfold add_port. destruct (port_of (g_host g)); [|now rewrite app_nil_r]. destruct (mem dash_p own) eqn:Q; [exfalso; apply X, M, Q|reflexivity].
Qed.
Print Assumptions C82_arguments.

(** If no host has a port, every engine without its own arguments gets exactly the configured ones. *)
Theorem C82_no_ports engines args n en :
  (forall h e, In (h, e) engines -> ~ In 58%N h) -> (forall h c own, ~ In (h, Config c (Some own)) engines) ->
  In en (fst (start engines args n)) -> ssh_arguments en = args.
Proof.
  intros H1 H2 Hen. unfold start in Hen. rewrite start_hosts_ok in Hen. cbn [fst] in Hen. apply in_flat_map in Hen. destruct Hen as (g & Hg & He).
  unfold engines_of in He. apply in_map_iff in He. destruct He as (j & <- & _). cbn [ssh_arguments].
  pose proof (plan_hosts engines args (n - 0)) as P. apply in_split in Hg. destruct Hg as (bef & aft & E).
  pose proof (plan_args engines args (n - 0) bef g aft E) as A.
  assert (NP : forall x, In x (bef ++ g :: aft) -> port_of (g_host x) = None /\ own_args (g_entry x) = None).
  { intros x Hx. assert (I : In (g_host x, g_entry x) engines) by (rewrite <- P, E; apply in_map_iff; exists x; auto). split.
    - unfold port_of, parse_host. specialize (H1 _ _ I).
      destruct (split_at 64 (g_host x)) as [[u h]|] eqn:S.
      + assert (N : ~ In 58%N h).
        { intros HI. apply H1. clear - S HI. revert u S. induction (g_host x) as [|d r IH]; intros u S; [discriminate|]. cbn [split_at] in S.
          destruct (N.eqb d 64); [injection S as _ ->; now right|]. destruct (split_at 64 r) as [[a b]|]; [|discriminate]. injection S as _ ->. right. eapply IH. reflexivity. }
        now rewrite split_none.
      + now rewrite split_none.
    - destruct (g_entry x) as [c|c [own|]]; try reflexivity. exfalso. apply (H2 _ _ _ I). }
  destruct (NP g) as [Pg Og]; [apply in_or_app; right; now left|]. rewrite Og, map_app, fold_port in A. cbn [map] in A. rewrite Pg in A.
  rewrite A. destruct (mem dash_p args); [reflexivity|].
  replace (first_some (map (fun g => port_of (g_host g)) (filter shares bef) ++ [None])) with (@None text); [reflexivity|].
  symmetry. assert (B : forall x, In x bef -> port_of (g_host x) = None) by (intros x Hx; apply NP, in_or_app; now left).
  clear - B. induction bef as [|b bef IH]; [reflexivity|]. cbn [filter]. destruct (shares b); cbn [map app first_some]; [rewrite (B b) by now left|]; apply IH; intros x Hx; apply B; now right.
Qed.
Print Assumptions C82_no_ports.

(** The connection files go to the same place relative to the home directory, or to the same absolute place, or into the configured directory. *)
Theorem C82_files configured home profile_dir rest :
  let local_path := profile_dir ++ rest in
  (configured <> [] -> remote_file configured home profile_dir local_path = configured ++ rest) /\
  (configured = [] -> forall tail, profile_dir = home ++ lit "/" ++ tail -> ends_with_slash home = false -> remote_file configured home profile_dir local_path = tail ++ rest) /\
  (configured = [] -> ~ prefix home profile_dir -> remote_file configured home profile_dir local_path = local_path).
Proof.
  cbv zeta. unfold remote_file. rewrite skipn_app, Nat.sub_diag, skipn_all. cbn [app skipn]. split; [|split].
  - intros H. unfold remote_profile_dir. destruct configured; [congruence|reflexivity].
  - intros -> tail -> Hs. unfold remote_profile_dir, strip_home. rewrite Hs. change (lit "/") with [47%N].
    replace (home ++ [47%N] ++ tail) with ((home ++ [47%N]) ++ tail) by now rewrite <- app_assoc.
    assert (SW : forall a b, starts_with a (a ++ b) = true) by (intros a b; induction a as [|c a IH]; [reflexivity|]; cbn [app starts_with]; now rewrite N.eqb_refl, IH).
    rewrite SW, skipn_app, Nat.sub_diag, skipn_all. reflexivity.
  - intros -> Hn. unfold remote_profile_dir, strip_home.
    assert (SW : forall a b, starts_with a b = true -> prefix a b).
    { intros a. induction a as [|c a IH]; intros b Hb; [now exists b|]. destruct b as [|d b]; [discriminate|]. cbn [starts_with] in Hb. apply andb_true_iff in Hb.
      destruct Hb as [E Hb]. apply N.eqb_eq in E. subst d. destruct (IH b Hb) as [r ->]. now exists r. }
    destruct (starts_with _ profile_dir) eqn:E; [|reflexivity]. exfalso. apply Hn. apply SW in E. destruct E as [r E]. destruct (ends_with_slash home); [now exists r|].
    exists (47%N :: r). rewrite E, <- app_assoc. reflexivity.
Qed.
Print Assumptions C82_files.

(* ------------------------------------------------------------ examples *)
Definition example_engines : list (text * entry) :=
  [(lit "me@alpha:2222", Count 2); (lit "beta", Config None (Some [lit "-v"])); (lit "gamma:99", Config (Some 5%Z) None)].
Example C82_ex : start example_engines [lit "-q"] 5 =
  ([Engine (lit "me@alpha:2222/0") (lit "me@alpha") [lit "-q"; lit "-p"; lit "2222"] true;
    Engine (lit "me@alpha:2222/1") (lit "me@alpha") [lit "-q"; lit "-p"; lit "2222"] false;
    Engine (lit "beta/0") (lit "beta") [lit "-v"] true;
    Engine (lit "gamma:99/0") (lit "gamma") [lit "-q"; lit "-p"; lit "2222"] true;
    Engine (lit "gamma:99/1") (lit "gamma") [lit "-q"; lit "-p"; lit "2222"] false], 5%Z).
Proof. vm_compute. reflexivity. Qed.
Example C82_ex_address : address (lit "me@alpha:2222") (Some (lit "me")) (lit "alpha") (Some (lit "2222")).
Proof.
  apply (with_user_port (lit "me") (lit "alpha") (lit "2222")); intros H; vm_compute in H; repeat destruct H as [H|H]; try discriminate; exact H.
Qed.

(** The port of one host is used for the hosts after it: a host without a port is contacted on another host's port, and a host's own port is ignored. *)
Theorem C82_ports_refuted : exists engines n e1 e2, NoDup (map fst engines) /\
  In e1 (fst (start engines [] n)) /\ identifier e1 = lit "b/0" /\ ssh_arguments e1 = [lit "-p"; lit "1"] /\
  In e2 (fst (start engines [] n)) /\ identifier e2 = lit "c:2/0" /\ ssh_arguments e2 = [lit "-p"; lit "1"].
Proof.
  exists [(lit "a:1", Count 1); (lit "b", Count 1); (lit "c:2", Count 1)], 3%Z,
    (Engine (lit "b/0") (lit "b") [lit "-p"; lit "1"] true), (Engine (lit "c:2/0") (lit "c") [lit "-p"; lit "1"] true).
  split; [|vm_compute; tauto].
  repeat constructor; cbn [map fst In]; intros H; repeat destruct H as [H|H]; try discriminate; exact H.
Qed.
Print Assumptions C82_ports_refuted.
