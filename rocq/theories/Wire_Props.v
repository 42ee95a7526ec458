(** C69: the controller's ports.  C70: what is connected with what. *)
From stdpp Require Import base list strings.
From Verif Require Import Wire_Spec Wire_Model Wire_Proofs Wire_Tree Wire_Ports.
From Coq Require Import Lia.
Local Open Scope nat_scope.

Lemma fresh_good e c p t o : NoDup ((e ++ c ++ p) ++ t) -> (forall x, x ∈ o -> x ∉ e ++ c ++ p) -> good (fresh e c p t o).
Proof. intros N O. split; assumption. Qed.
Lemma spent_fresh e c p t o : spent (fresh e c p t o) = t.
Proof. reflexivity. Qed.
Lemma need_is D : (7 + 2 ^ D) + 6 + (length (broadcast_ids D) + 1) = total_need D.
Proof. rewrite ids_length. reflexivity. Qed.

(** No two sockets of a controller get the same port, nor one chosen before by this process *)
Theorem C69_distinct D e c p t o i p' : NoDup ((e ++ c ++ p) ++ t) -> (forall x, x ∈ o -> x ∉ e ++ c ++ p) -> init_hub D None (fresh e c p t o) = Some (i, p') ->
  NoDup (ports_of i) /\ (forall x, x ∈ ports_of i -> x ∉ t).
Proof.
  intros N O H. apply (init_ok _ _ _ _ (fresh_good _ _ _ _ _ N O)) in H as (G & S & _). apply good_spent in G. rewrite S, spent_fresh in G. apply NoDup_app in G as (A & B & _). auto.
Qed.
Print Assumptions C69_distinct.

(** They are exactly as many as needed, and come from the pools in order: first the side's own, then the common one, random ones only when that is used up *)
Theorem C69_sources D e c p t o i p' : NoDup ((e ++ c ++ p) ++ t) -> (forall x, x ∈ o -> x ∉ e ++ c ++ p) -> init_hub D None (fresh e c p t o) = Some (i, p') ->
  let common := (engine_need D - length e) + (client_need - length c) + internal_need D in
  exists R, ports_of i ≡ₚ take (engine_need D) e ++ take client_need c ++ take common p ++ R /\ (forall x, x ∈ R -> x ∈ o) /\ length R = common - length p.
Proof.
  intros N O H common. pose proof (init_randoms _ _ _ _ H) as Rn. destruct (init_used _ _ _ _ H) as [R U]. apply (init_ok _ _ _ _ (fresh_good _ _ _ _ _ N O)) in H as (G & S & _ & _ & Lb & Li).
  destruct U as [U1 U2 U3 U4 U5 U6 U7 U8 U9 _]. cbn [fresh e_ports c_ports ports e_idx c_idx p_idx taken offers randoms] in *. specialize (U4 ltac:(lia)). specialize (U5 ltac:(lia)). specialize (U6 ltac:(lia)).
  assert (LR : length R = common - length p).
  { unfold future in Rn. cbn in Rn. rewrite U8 in Rn. rewrite !Nat.sub_0_r in Rn. subst common. unfold engine_need, client_need, internal_need. rewrite ids_length in Rn. lia. }
  assert (P : ports_of i ≡ₚ take (engine_need D) e ++ take client_need c ++ take (p_idx p') p ++ R).
  { rewrite spent_fresh in S. unfold spent in S. rewrite U1, U2, U3, U4, U5, U7 in S. apply (Permutation_app_inv_r t). rewrite <- S.
    assert (E1 : take (Nat.min (7 + 2 ^ D) (length e)) e = take (engine_need D) e) by (unfold engine_need; destruct (Nat.min_spec (7 + 2 ^ D) (length e)) as [[? ->]|[? ->]]; [reflexivity|rewrite !take_ge by lia; reflexivity]).
    assert (E2 : take (Nat.min 6 (length c)) c = take client_need c) by (unfold client_need; destruct (Nat.min_spec 6 (length c)) as [[? ->]|[? ->]]; [reflexivity|rewrite !take_ge by lia; reflexivity]).
    cbn [Nat.add] in E1, S. cbn [Nat.add]. rewrite E1, E2. rewrite <- !app_assoc. reflexivity. }
  exists R. split; [|split; [exact U9|exact LR]]. assert (Et : take (p_idx p') p = take common p); [|rewrite P, Et; reflexivity].
  apply Permutation_length in P. rewrite !app_length, !take_length in P. unfold ports_of, engine_ports_of, client_ports_of, inner_ports_of in P. cbn [length] in P. rewrite !app_length in P. cbn [length] in P. rewrite map_length, Lb in P.
  assert (Lm : length (internal i) = 2 ^ (D + 1) - 2) by (rewrite <- (map_length fst), Li; apply ids_length). rewrite Lm, LR in P. unfold engine_need, client_need, internal_need in *. subst common.
  destruct (decide (length p <= p_idx p')) as [L|L]; [rewrite !take_ge; [reflexivity|lia|lia]|]. f_equal. lia.
Qed.
Print Assumptions C69_sources.
Theorem C69_count D e c p t o i p' : init_hub D None (fresh e c p t o) = Some (i, p') -> NoDup ((e ++ c ++ p) ++ t) -> (forall x, x ∈ o -> x ∉ e ++ c ++ p) -> length (ports_of i) = 12 + 3 * 2 ^ D /\ total_need D = 12 + 3 * 2 ^ D.
Proof.
  intros H N O. apply (init_ok _ _ _ _ (fresh_good _ _ _ _ _ N O)) in H as (_ & _ & _ & _ & Lb & Li). assert (Lm : length (internal i) = 2 ^ (D + 1) - 2) by (rewrite <- (map_length fst), Li; apply ids_length).
  unfold total_need, engine_need, client_need, internal_need, ports_of, engine_ports_of, client_ports_of, inner_ports_of. cbn [length]. rewrite !app_length. cbn [length]. rewrite map_length, Lb, Lm. replace (D + 1) with (S D) by lia. rewrite Nat.pow_succ_r'. pose proof (Nat.pow_nonzero 2 D). lia.
Qed.
Print Assumptions C69_count.
(** a pool large enough for its side is all that is used there, in the order of the dict *)
Theorem C69_own_pool D e c p t o i p' : init_hub D None (fresh e c p t o) = Some (i, p') ->
  (engine_need D <= length e -> ei_reg (eng i) :: engine_ports_of (eng i) = take (engine_need D) e) /\ (client_need <= length c -> client_ports_of (cli i) = take client_need c).
Proof. intros H. split; intros L; [exact (engine_exact D (fresh e c p t o) i p' L eq_refl H)|exact (client_exact D (fresh e c p t o) i p' L eq_refl H)]. Qed.
Print Assumptions C69_own_pool.
(** it does not fail (or wait for ever) if the system offers ports enough *)
Theorem C69_served D e c p t o : NoDup o -> (forall x, x ∈ o -> x ∉ t) -> (engine_need D - length e) + (client_need - length c) + internal_need D <= length p + length o ->
  exists i p', init_hub D None (fresh e c p t o) = Some (i, p').
Proof.
  intros N O L. apply init_some. split; [split; assumption|]. unfold demand. cbn. rewrite ids_length, !Nat.sub_0_r. unfold engine_need, client_need, internal_need in L. cbn in L. lia.
Qed.
Print Assumptions C69_served.
(** with the connection files of an earlier controller *)
Theorem C69_reuse D ec e c p t o i p' : NoDup ((e ++ c ++ p) ++ t) -> (forall x, x ∈ o -> x ∉ e ++ c ++ p) -> init_hub D (Some ec) (fresh e c p t o) = Some (i, p') ->
  let old := ei_reg (fst ec) :: engine_ports_of (fst ec) ++ client_ports_of (snd ec) in
  NoDup old -> (forall x, x ∈ old -> x ∉ p /\ x ∉ o) -> NoDup (ports_of i) /\ eng i = fst ec /\ cli i = snd ec.
Proof.
  intros N O H old No Do. pose proof (fresh_good _ _ _ _ _ N O) as G0.
  assert (K : forall x, x ∈ inner_ports_of i -> x ∈ p \/ x ∈ o).
  { revert H. unfold init_hub. intros H. destruct (draw Common (length (broadcast_ids D)) (fresh e c p t o)) as [[l p1]|] eqn:E1; [|discriminate H]. destruct (next_port Common p1) as [[m p2]|] eqn:E2; [|discriminate H]. injection H as <- <-.
    pose proof (draw_ok _ _ _ _ _ G0 E1) as (G1 & S1 & _ & L1). pose proof (next_ok _ _ _ _ G1 E2) as (G2 & S2 & _).
    apply draw_used in E1 as [R1 U1]. apply next_used in E2 as [R2 U2]. pose proof (used_trans _ _ _ _ _ _ _ _ _ U1 U2) as U. clear U1 U2. destruct U as [V1 V2 V3 V4 V5 V6 V7 _ V9 _]. cbn [fresh e_ports c_ports ports e_idx c_idx p_idx taken offers randoms ea ca] in *. specialize (V4 ltac:(lia)). specialize (V5 ltac:(lia)).
    rewrite Nat.mul_0_r in V4, V5. cbn in V4, V5.
    intros x X. assert (X' : x ∈ m :: l).
    { unfold inner_ports_of in X. cbn [internal mon] in X. apply elem_of_app in X as [X|X]; [right|apply elem_of_list_singleton in X as ->; left]. change (map snd (zip (broadcast_ids D) l)) with ((zip (broadcast_ids D) l).*2) in X. rewrite snd_zip in X by lia. exact X. }
    rewrite S1 in S2. rewrite spent_fresh in S2. unfold spent in S2. rewrite V1, V2, V3, V4, V5, V7, !take_0 in S2. cbn [app] in S2. rewrite app_comm_cons, app_assoc in S2. apply Permutation_app_inv_r in S2. rewrite <- S2 in X'. apply elem_of_app in X' as [Y|Y]; [left; apply elem_of_take in Y as (n & Y & _); apply elem_of_list_lookup_2 in Y; exact Y|right; auto]. }
  apply (inner_ok _ _ _ _ _ G0) in H as (G & S & _ & E1 & E2 & _). split; [|auto]. apply good_spent in G. rewrite S in G. apply NoDup_app in G as (Ni & _ & _).
  unfold ports_of. rewrite E1, E2. rewrite app_assoc. change (NoDup (old ++ inner_ports_of i)). apply NoDup_app. split; [exact No|]. split; [|exact Ni]. intros x X Y. destruct (Do x X) as [A B]. destruct (K x Y); contradiction.
Qed.
Print Assumptions C69_reuse.
Example C69_example : exists i p', init_hub 1 None (fresh [100; 101; 102; 103; 104; 105; 106; 107; 108; 109] [200; 201] [300; 301; 302; 303] [401] [401; 402; 402; 403; 404]) = Some (i, p')
  /\ ports_of i = [100; 101; 102; 103; 104; 105; 106; 107; 108; 200; 201; 300; 301; 302; 303; 402; 403; 404].
Proof. vm_compute. do 2 eexists. split; reflexivity. Qed.
Example C69_example_hypotheses : NoDup (([100; 101; 102; 103; 104; 105; 106; 107; 108; 109] ++ [200; 201] ++ [300; 301; 302; 303]) ++ [401])
  /\ (forall x, x ∈ [401; 402; 402; 403; 404] -> x ∉ [100; 101; 102; 103; 104; 105; 106; 107; 108; 109] ++ [200; 201] ++ [300; 301; 302; 303]).
Proof. split; [apply (bool_decide_unpack _); vm_compute; exact I|]. apply List.Forall_forall || (intros x X; apply elem_of_list_In in X; cbn in X; intros Y; apply elem_of_list_In in Y; cbn in Y; intuition (subst; discriminate)). Qed.
(** The help of [ports] says 14 are enough ("at least 14 (16 by default)"): with 14, and no tree, a port is still chosen at random; with 16 and the default tree two are *)
Theorem C69_documented_numbers_refuted : (exists i p', init_hub 0 None (fresh [] [] (seq 101 14) [] [500]) = Some (i, p') /\ randoms p' = 1)
  /\ (exists i p', init_hub 1 None (fresh [] [] (seq 101 16) [] [500; 501]) = Some (i, p') /\ randoms p' = 2)
  /\ (exists i p', init_hub 0 None (fresh [] [] (seq 101 15) [] [500]) = Some (i, p') /\ randoms p' = 0)
  /\ (exists i p', init_hub 1 None (fresh [] [] (seq 101 18) [] [500]) = Some (i, p') /\ randoms p' = 0).
Proof. vm_compute. repeat split; do 2 eexists; split; reflexivity. Qed.
(** With a pool of ports and reuse_files, the inner sockets are given the first ports of the pool again, which the files already have *)
Theorem C69_reuse_pool_refuted : exists i p' j q', init_hub 1 None (fresh [] [] (seq 101 20) [] []) = Some (i, p')
  /\ init_hub 1 (Some (eng i, cli i)) (fresh [] [] (seq 101 20) [] []) = Some (j, q') /\ ~ NoDup (ports_of j).
Proof.
  vm_compute. do 4 eexists. split; [reflexivity|]. split; [reflexivity|]. intros N. apply NoDup_cons in N as [N _]. apply N. apply elem_of_list_In. vm_compute. tauto.
Qed.
(** The deprecated setting mux = (a, b) puts a into both pools *)
Theorem C69_deprecated_refuted : exists i p', init_hub 1 None (scheduler_ports (101, 102) (fresh [] [] [] [] (seq 500 30))) = Some (i, p') /\ ~ NoDup (ports_of i).
Proof.
  vm_compute. do 2 eexists. split; [reflexivity|]. intros N. apply NoDup_cons in N as [N _]. apply N. apply elem_of_list_In. vm_compute. tauto.
Qed.
(** A random port can be one of a pool that is drawn later *)
Theorem C69_random_refuted : exists i p', init_hub 0 None (fresh [] (seq 101 6) [] [] (seq 101 30)) = Some (i, p') /\ ~ NoDup (ports_of i).
Proof.
  vm_compute. do 2 eexists. split; [reflexivity|]. intros N. apply NoDup_cons in N as [N _]. apply N. apply elem_of_list_In. vm_compute. tauto.
Qed.
(** ranges include both ends; ports from 1 up, but 65536, which is no port, is accepted *)
Theorem C69_range a b : a <= b -> forall x, x ∈ port_range [(a, Some b)] <-> a <= x <= b.
Proof. intros L x. unfold port_range. cbn [map concat]. rewrite app_nil_r, elem_of_list_In, in_seq. lia. Qed.
Theorem C69_valid l : valid_ports l = true <-> (forall x, x ∈ l -> 1 <= x <= 2 ^ 16).
Proof.
  unfold valid_ports. rewrite forallb_forall. split; intros H x X.
  - apply elem_of_list_In in X. specialize (H x X). apply andb_true_iff in H as [A B]. apply Nat.leb_le in A, B. lia.
  - apply elem_of_list_In in X. specialize (H x X). apply andb_true_iff. split; apply Nat.leb_le; lia.
Qed.
Theorem C69_last_port_refuted : valid_ports [2 ^ 16] = true.
Proof. unfold valid_ports. cbn [forallb]. rewrite !Nat.leb_refl. rewrite (proj2 (Nat.leb_le 1 (2 ^ 16))); [reflexivity|]. pose proof (Nat.pow_nonzero 2 16). lia. Qed.
Print Assumptions C69_valid.

(** ** C70 *)
Section Wired.
(** a controller just configured *)
Context (D : nat) (transport engine_ip client_ip internal_ip monitor_ip : string) (e c p t o : list nat) (i : info) (p' : pools).
Hypothesis pools_distinct : NoDup ((e ++ c ++ p) ++ t).
Hypothesis offers_apart : forall x, x ∈ o -> x ∉ e ++ c ++ p.
Hypothesis configured : init_hub D None (fresh e c p t o) = Some (i, p').
Local Notation scheds := (schedulers D transport engine_ip client_ip internal_ip i).
Local Notation binds := (binds transport engine_ip client_ip monitor_ip i).
Lemma w_ok : length (ei_bcast (eng i)) = 2 ^ D /\ map fst (internal i) = broadcast_ids D /\ ci_reg (cli i) = ei_reg (eng i) /\ NoDup (ports_of i).
Proof.
  pose proof (C69_distinct _ _ _ _ _ _ _ _ pools_distinct offers_apart configured) as [N _]. destruct (init_ok _ _ _ _ (fresh_good _ _ _ _ _ pools_distinct offers_apart) configured) as (_ & _ & _ & R & A & B). auto.
Qed.
Lemma w_internal : NoDup (map snd (internal i)).
Proof. destruct w_ok as (_ & _ & _ & N). unfold ports_of, inner_ports_of in N. apply NoDup_cons in N as [_ N]. apply NoDup_app in N as (_ & _ & N). apply NoDup_app in N as (_ & _ & N). apply NoDup_app in N as (N & _ & _). exact N. Qed.

(** the broadcast schedulers all start: the places of the tree down to depth D, each once *)
Theorem C70_tree : exists l, scheds = Some l /\ length l = 2 ^ (D + 1) - 1 /\ NoDup (map place l) /\ (forall q, q ∈ map place l <-> exists r, q = false :: r /\ length r <= D).
Proof.
  destruct w_ok as (A & B & _ & _). rewrite (schedulers_ok D transport engine_ip client_ip internal_ip i A B). eexists. split; [reflexivity|]. rewrite map_length, below_length, map_map. split; [reflexivity|]. cbn [place sched]. split.
  - apply NoDup_map_on; [|apply below_NoDup]. intros x y _ _ E. injection E as E. exact E.
  - intros q. rewrite elem_of_list_In, in_map_iff. split.
    + intros (r & <- & R). exists r. split; [reflexivity|]. apply elem_of_list_In, below_spec in R as (s & -> & L). exact L.
    + intros (r & -> & L). exists r. split; [reflexivity|]. apply elem_of_list_In, below_spec. eauto.
Qed.

(** every port is bound; two sockets bound to one port are one socket of one process *)
Theorem C70_no_clash l : scheds = Some l -> NoDup (binds l) /\ (forall x y, x ∈ binds l -> y ∈ binds l -> u_port (snd x) = u_port (snd y) -> fst x = fst y)
  /\ (forall n, n ∈ ports_of i <-> n ∈ map (fun b => u_port (snd b)) (binds l)).
Proof.
  destruct w_ok as (A & B & R & N). rewrite (schedulers_ok D transport engine_ip client_ip internal_ip i A B). intros [= <-]. pose proof (rest_ports D transport engine_ip client_ip internal_ip monitor_ip i A B) as P.
  unfold Wire_Model.binds. set (rest := other_binds _ _ _ _ _ ++ _) in *. unfold ports_of in N. change (ei_reg (eng i) :: ?x) with ([ei_reg (eng i)] ++ x) in N. apply NoDup_app in N as (_ & N2 & N). rewrite <- P in N. assert (N3 : ei_reg (eng i) ∉ map (fun b : device * side * url => u_port (snd b)) rest) by (rewrite P; apply N2; left).
  assert (Nr : NoDup rest).
  { clear - N. induction rest as [|a l IH]; [constructor|]. cbn [map] in N. apply NoDup_cons in N as [X N]. apply NoDup_cons. split; [|auto]. intros Y. apply X. apply elem_of_list_In, in_map_iff. exists a. split; [reflexivity|apply elem_of_list_In, Y]. }
  assert (G : forall x, x ∈ map (fun u => (Hub, Registration, u)) (registrations transport engine_ip client_ip i) -> fst x = (Hub, Registration) /\ u_port (snd x) = ei_reg (eng i)).
  { intros x X. apply elem_of_list_In, in_map_iff in X as (u & <- & U). split; [reflexivity|]. unfold registrations in U. destruct U as [<-|U]; [cbn; exact R|]. destruct (bool_decide _); [destruct U|destruct U as [<-|[]]; reflexivity]. }
  assert (K : forall x, x ∈ rest -> u_port (snd x) <> ei_reg (eng i)).
  { intros x X E. apply N3. rewrite <- E. apply elem_of_list_In, (in_map (fun b : device * side * url => u_port (snd b))), elem_of_list_In, X. }
  split; [|split].
  - apply NoDup_app. split; [|split; [|exact Nr]].
    + unfold registrations. destruct (bool_decide_reflect (client_ip = engine_ip)) as [E|E]; cbn [map]; [apply NoDup_singleton|]. apply NoDup_cons. split; [|apply NoDup_singleton]. rewrite elem_of_list_singleton. intros H. injection H as H _. apply E. unfold interface in H. clear - H.
      assert (forall a s u : string, (a ++ s = a ++ u)%string -> s = u) as J by (induction a as [|x a IH]; intros s u; [auto|]; intros [= Z]; auto). apply J in H. apply (J "://"%string). exact H.
    + intros x X Y. apply G in X as [_ X]. apply (K x Y X).
  - intros x y X Y E. apply elem_of_app in X as [X|X]; apply elem_of_app in Y as [Y|Y].
    + apply G in X as [X _], Y as [Y _]. congruence.
    + apply G in X as [_ X]. exfalso. apply (K y Y). congruence.
    + apply G in Y as [_ Y]. exfalso. apply (K x X). congruence.
    + f_equal. apply (map_key_inj (fun b : device * side * url => u_port (snd b)) rest x y N X Y E).
  - intros n. unfold ports_of. rewrite elem_of_cons, <- P, map_app, elem_of_app. split.
    + intros [->|H]; [left|right; exact H]. unfold registrations. cbn [map]. rewrite <- R. left.
    + intros [H|H]; [left|right; exact H]. apply elem_of_list_In, in_map_iff in H as (x & <- & X). apply elem_of_list_In, G in X as [_ X]. exact X.
Qed.

(** clients and engines, from the connection files alone, reach the right process at the right side, and no other *)
Lemma reached l x : scheds = Some l -> x ∈ binds l -> forall dev side, (dev, side, snd x) ∈ binds l <-> (dev, side) = fst x.
Proof.
  intros S X dev side. destruct (C70_no_clash l S) as (_ & H & _). split.
  - intros Y. apply (H _ _ Y X). reflexivity.
  - intros E. destruct x as [[a b] u]. cbn in *. injection E as -> ->. exact X.
Qed.
Lemma in_other l x : x ∈ other_binds transport engine_ip client_ip monitor_ip i -> x ∈ binds l.
Proof. intros H. unfold Wire_Model.binds. apply elem_of_app. right. apply elem_of_app. left. exact H. Qed.
Hypothesis not_ipc : transport <> "ipc"%string.
Lemma the_sep_is : the_sep transport = ":"%string.
Proof. unfold the_sep. destruct (String.eqb_spec transport "ipc"); [contradiction|reflexivity]. Qed.
Theorem C70_channels l ch : scheds = Some l ->
  (forall dev side, (dev, side, client_connects transport client_ip i ch) ∈ binds l <-> dev = device_of ch /\ side = ToClients)
  /\ (forall dev side, (dev, side, engine_connects transport engine_ip i ch) ∈ binds l <-> dev = device_of ch /\ side = ToEngines).
Proof.
  intros S. split; intros dev side.
  - assert (X : (device_of ch, ToClients, client_connects transport client_ip i ch) ∈ binds l).
    { apply in_other, elem_of_list_In. unfold other_binds, client_connects, client_url, engine_url. rewrite the_sep_is. destruct ch; cbn [device_of In]; tauto. }
    rewrite (reached l _ S X dev side). cbn [fst]. split; [intros [= -> ->]; auto|intros [-> ->]; reflexivity].
  - assert (X : (device_of ch, ToEngines, engine_connects transport engine_ip i ch) ∈ binds l).
    { apply in_other, elem_of_list_In. unfold other_binds, engine_connects, client_url, engine_url. rewrite the_sep_is. destruct ch; cbn [device_of In]; tauto. }
    rewrite (reached l _ S X dev side). cbn [fst]. split; [intros [= -> ->]; auto|intros [-> ->]; reflexivity].
Qed.
Theorem C70_registration l : scheds = Some l ->
  (forall dev side, (dev, side, client_registration transport client_ip i) ∈ binds l <-> dev = Hub /\ side = Registration)
  /\ (forall dev side, (dev, side, engine_registration transport engine_ip i) ∈ binds l <-> dev = Hub /\ side = Registration).
Proof.
  intros S. destruct w_ok as (_ & _ & R & _). split; intros dev side.
  - assert (X : (Hub, Registration, client_registration transport client_ip i) ∈ binds l).
    { unfold Wire_Model.binds, registrations, client_registration, client_url. rewrite the_sep_is. cbn [map app]. left. }
    rewrite (reached l _ S X dev side). cbn [fst]. split; [intros [= -> ->]; auto|intros [-> ->]; reflexivity].
  - assert (X : (Hub, Registration, engine_registration transport engine_ip i) ∈ binds l).
    { unfold Wire_Model.binds, registrations, engine_registration, client_url, engine_url. rewrite the_sep_is, R. destruct (bool_decide_reflect (client_ip = engine_ip)) as [->|_]; cbn [map app]; [left|right; left]. }
    rewrite (reached l _ S X dev side). cbn [fst]. split; [intros [= -> ->]; auto|intros [-> ->]; reflexivity].
Qed.
(** a broadcast message for an engine, sent by the client to its broadcast address, comes to the root of the tree, and after D hops to the one scheduler that listens where that engine has connected *)
Theorem C70_route l id : scheds = Some l -> exists root s u,
  (forall dev side, (dev, side, client_broadcast transport client_ip i) ∈ binds l <-> dev = Broadcast (place root) /\ side = ToClients) /\ root ∈ l /\ depth root = 0
  /\ route D l D root id = Some s /\ leaf s = true /\ s ∈ l /\ place s = format_bits (id mod 2 ^ D) (D + 1)
  /\ engine_broadcast transport engine_ip i id = Some u /\ outward s = [u] /\ (forall dev side, (dev, side, u) ∈ binds l <-> dev = Broadcast (place s) /\ side = ToEngines).
Proof.
  intros S. pose proof S as S'. destruct w_ok as (A & B & _ & _). rewrite (schedulers_ok D transport engine_ip client_ip internal_ip i A B) in S'. injection S' as <-.
  set (sch := sched D transport engine_ip client_ip internal_ip i) in *. set (l := map sch (below D [])) in *.
  assert (M : id mod 2 ^ D < 2 ^ D) by (apply Nat.mod_upper_bound, Nat.pow_nonzero; lia). pose proof (format_length (id mod 2 ^ D) D) as Lf.
  assert (Z0 : sch [] ∈ l) by (apply all_spec; exists []; split; [reflexivity|cbn; lia]).
  assert (Z1 : sch (format_bits (id mod 2 ^ D) D) ∈ l) by (apply all_spec; eexists; split; [reflexivity|lia]).
  assert (In : forall s x, s ∈ l -> x ∈ sched_binds s -> x ∈ binds l).
  { intros s x X Y. unfold Wire_Model.binds. apply elem_of_app. right. apply elem_of_app. right. apply elem_of_list_In, in_concat. exists (sched_binds s). split; [apply in_map, elem_of_list_In, X|apply elem_of_list_In, Y]. }
  exists (sch []), (sch (format_bits (id mod 2 ^ D) D)), (engine_url transport engine_ip (bport i (id mod 2 ^ D))).
  split.
  { intros dev side. assert (X : (Broadcast (place (sch [])), ToClients, client_broadcast transport client_ip i) ∈ binds l).
    { apply (In (sch []) _ Z0). unfold sched_binds, sch, sched. cbn [depth place inward]. apply elem_of_app. left. apply elem_of_list_In. left. unfold client_broadcast, client_url. rewrite the_sep_is. reflexivity. }
    rewrite (reached l _ S X dev side). cbn [fst]. split; [intros [= -> ->]; auto|intros [-> ->]; reflexivity]. }
  split; [exact Z0|]. split; [reflexivity|]. split.
  { apply (route_ok D transport engine_ip client_ip internal_ip i A B w_internal id D [] (format_bits (id mod 2 ^ D) D)); [reflexivity|exact Lf|reflexivity]. }
  split; [cbn; rewrite Lf; apply Nat.eqb_refl|]. split; [exact Z1|]. split; [cbn [place sch sched]; symmetry; apply format_cons, M|].
  assert (O : outward (sch (format_bits (id mod 2 ^ D) D)) = [engine_url transport engine_ip (bport i (id mod 2 ^ D))]) by (cbn [outward sch sched]; rewrite Lf, Nat.eqb_refl, int2_format by exact M; reflexivity).
  split; [unfold engine_broadcast; rewrite A, (bport_ok D i A) by exact M; unfold engine_url; rewrite the_sep_is; reflexivity|]. split; [exact O|].
  intros dev side. assert (X : (Broadcast (place (sch (format_bits (id mod 2 ^ D) D))), ToEngines, engine_url transport engine_ip (bport i (id mod 2 ^ D))) ∈ binds l).
  { apply (In _ _ Z1). unfold sched_binds. rewrite O. change (leaf (sch (format_bits (id mod 2 ^ D) D))) with (length (format_bits (id mod 2 ^ D) D) =? D). rewrite Lf, Nat.eqb_refl. apply elem_of_app. right. left. }
  rewrite (reached l _ S X dev side). cbn [fst]. split; [intros [= -> ->]; auto|intros [-> ->]; reflexivity].
Qed.
End Wired.
Print Assumptions C70_tree.
Print Assumptions C70_no_clash.
Print Assumptions C70_channels.
Print Assumptions C70_registration.
Print Assumptions C70_route.

(** the inner connections: each scheduler but the root is connected to its parent, at the side named by its last bit, and to no other *)
Theorem C70_inner D transport engine_ip client_ip internal_ip monitor_ip e c p t o i p' l : NoDup ((e ++ c ++ p) ++ t) -> (forall x, x ∈ o -> x ∉ e ++ c ++ p) -> init_hub D None (fresh e c p t o) = Some (i, p') ->
  schedulers D transport engine_ip client_ip internal_ip i = Some l -> forall s, s ∈ l -> depth s <> 0 ->
  exists q b, place s = q ++ [b] /\ connected l (inward s) = [s] /\ (forall dev side, (dev, side, inward s) ∈ binds transport engine_ip client_ip monitor_ip i l <-> dev = Broadcast q /\ side = ToChild b).
Proof.
  intros N O H S s Is Ds. pose proof S as S'. destruct (w_ok D e c p t o i p' N O H) as (A & B & _ & _). pose proof (w_internal D e c p t o i p' N O H) as W. rewrite (schedulers_ok D transport engine_ip client_ip internal_ip i A B) in S'. injection S' as <-.
  apply all_spec in Is as (r & -> & L). change (depth (sched _ _ _ _ _ _ r)) with (length r) in Ds. destruct r as [|b r _] using rev_ind; [cbn in Ds; lia|]. rewrite app_length in L. cbn [length] in L.
  assert (E : inward (sched D transport engine_ip client_ip internal_ip i (r ++ [b])) = Url (interface transport internal_ip) (the_sep transport) (iport i (false :: r ++ [b]))) by (cbn [inward sched]; replace (length (r ++ [b]) =? 0) with false by (symmetry; apply Nat.eqb_neq; rewrite app_length; cbn; lia); reflexivity).
  exists (false :: r), b. split; [reflexivity|]. split; [rewrite E; apply connected_ok; auto; rewrite app_length; cbn; lia|].
  intros dev side. assert (X : (Broadcast (false :: r), ToChild b, inward (sched D transport engine_ip client_ip internal_ip i (r ++ [b]))) ∈ binds transport engine_ip client_ip monitor_ip i (map (sched D transport engine_ip client_ip internal_ip i) (below D []))).
  { unfold binds. apply elem_of_app. right. apply elem_of_app. right. apply elem_of_list_In, in_concat. exists (sched_binds (sched D transport engine_ip client_ip internal_ip i r)). split.
    - apply in_map, elem_of_list_In, all_spec. exists r. split; [reflexivity|lia].
    - rewrite E. unfold sched_binds. cbn [leaf outward sched place depth]. replace (length r =? D) with false by (symmetry; apply Nat.eqb_neq; lia). apply in_or_app. right. cbn [zip_with]. destruct b; cbn [In]; tauto. }
  rewrite (reached D transport engine_ip client_ip internal_ip monitor_ip e c p t o i p' N O H _ _ S X dev side). cbn [fst]. split; [intros [= -> ->]; auto|intros [-> ->]; reflexivity].
Qed.
Print Assumptions C70_inner.
(** with ipc the controller binds names made with '-', and clients and engines, which write ':', find nobody *)
Theorem C70_ipc_refuted : exists i p' l, init_hub 0 None (fresh [] [] (seq 1 15) [] []) = Some (i, p') /\ schedulers 0 "ipc" "e" "e" "e" i = Some l
  /\ forall ch dev side, (dev, side, client_connects "ipc" "e" i ch) ∉ binds "ipc" "e" "e" "e" i l.
Proof.
  do 3 eexists. split; [vm_compute; reflexivity|]. split; [vm_compute; reflexivity|]. intros ch dev side H. apply elem_of_list_In in H. unfold binds, registrations, other_binds in H. destruct ch; vm_compute in H; intuition discriminate.
Qed.
Example C70_example : exists i p' l, init_hub 2 None (fresh [] [] (seq 1 24) [] []) = Some (i, p') /\ schedulers 2 "tcp" "10.0.0.1" "10.0.0.2" "127.0.0.1" i = Some l /\ length l = 7
  /\ (match l with root :: _ => match route 2 l 2 root 6 with Some s => place s = [false; true; false] /\ map u_port (outward s) = [10] | None => False end | [] => False end)
  /\ engine_broadcast "tcp" "10.0.0.1" i 6 = Some (Url "tcp://10.0.0.1" ":" 10).
Proof. do 3 eexists. split; [vm_compute; reflexivity|]. split; [vm_compute; reflexivity|]. vm_compute. repeat split; reflexivity. Qed.
