(** C85, C86: the addresses clients and engines connect to, and how. *)
From Coq Require Import NArith String Ascii List Bool PeanoNat Lia.
From Verif Require Import Addr_Spec Addr_Model Addr_Proofs.
Import ListNotations.

(* ------------------------------------------------------------------ C85 *)
(** split_url: the parts of a url, and nothing else *)
Theorem C85_split u p a q : split_url u = Some (p, a, q) <-> u = url_of p a q /\ parts p a q.
Proof. apply split_url_spec. Qed.
Print Assumptions C85_split.

(** The address used for an interface and a location is the one the specification chooses, and there always is exactly one *)
Theorem C85_address m ip loc r : (forall l, loc = Some l -> named l) -> (chooses m ip loc r <-> r = disambiguate_ip m ip loc).
Proof. apply chooses_spec. Qed.
Print Assumptions C85_address.

(** disambiguate_url changes the address only; what is not transport://address:port is left alone; doing it twice is doing it once *)
Theorem C85_url m loc :
  (forall p a q, parts p a q -> disambiguate_url m (url_of p a q) loc = url_of p (disambiguate_ip m a loc) q) /\
  (forall u, (forall p a q, u = url_of p a q -> ~ parts p a q) -> disambiguate_url m u loc = u) /\
  (forall u, disambiguate_url m (disambiguate_url m u loc) loc = disambiguate_url m u loc).
Proof. split; [intros; apply dis_url_parts; auto|]. split; [intros; apply dis_url_other; auto | intros; apply dis_url_idem]. Qed.
Print Assumptions C85_url.

(** The channels of a client, and of an engine *)
Definition client_channels : list text := map txt ["registration"; "mux"; "task"; "broadcast"; "notification"; "control"; "iopub"]%string.

(** A client on any machine of the network, given the file of a controller on machine c that listens to all: every one of its connections is to
    transport://address:port, with the transport and the port of the file, and an address that (used directly) arrives at c *)
Theorem C85_client M c m f env sshserver sshkey password proto ip l :
  network M -> open_to_all M c ip -> interface f = proto ++ txt "://" ++ ip -> ~ occurs (txt "://") proto -> ~ occurs (txt "://") ip ->
  location f = Some l -> named l -> l <> [] -> means M m l c ->
  exists cs w a, client (M m) f env sshserver sshkey password = Some (cs, w) /\ arrives M m a c /\
    map target cs = map (fun ch => url_of proto a (port f ch)) client_channels.
Proof.
  intros N O I P1 P2 L Nm Ne Me. unfold client.
  assert (A : address (M m) f (location f) = Some (proto, disambiguate_ip (M m) ip (Some l))).
  { apply address_spec. exists ip. rewrite L. auto. }
  rewrite A. destruct (choose_ssh (M m) f (disambiguate_ip (M m) ip (Some l)) sshserver) as (s, w).
  eexists _, _, _. split; [reflexivity|]. split; [apply (arrives_open M c m l ip); assumption|]. reflexivity.
Qed.
Print Assumptions C85_client.

(** An engine likewise; the location given to an engine on the command line is used instead of the file's *)
Theorem C85_engine M c m f cli own sshserver sshkey id proto ip l :
  network M -> open_to_all M c ip -> interface f = proto ++ txt "://" ++ ip -> ~ occurs (txt "://") proto -> ~ occurs (txt "://") ip ->
  cli = Some l \/ (cli = None /\ location f = Some l) -> named l -> l <> [] -> means M m l c -> leaves f <> [] ->
  (forall ch, ~ In colon (port f ch)) -> (forall p, In p (leaves f) -> ~ In colon p) ->
  exists cs a leaf, engine (M m) f cli own sshserver sshkey None id = Some cs /\ arrives M m a c /\
    nth_error (leaves f) (id mod length (leaves f)) = Some leaf /\
    map target cs = map (url_of proto a) (map (port f) (map txt ["registration"; "mux"; "task"]%string) ++ [leaf] ++ map (port f) (map txt ["control"; "iopub"; "hb_ping"; "hb_pong"]%string)).
Proof.
  intros N O I P1 P2 L Nm Ne Me Le Hp Hl. unfold engine.
  assert (L' : engine_location f cli = Some l) by (destruct L as [->|(-> & L)]; auto). rewrite L'. clear L. rename L' into L.
  assert (A : address (M m) f (Some l) = Some (proto, disambiguate_ip (M m) ip (Some l))).
  { apply address_spec. exists ip. auto. }
  rewrite A. destruct (nth_error (leaves f) (id mod length (leaves f))) as [leaf|] eqn:E.
  2: { exfalso. apply nth_error_None in E. assert (length (leaves f) <> 0) by (destruct (leaves f); cbn; congruence). pose proof (Nat.mod_upper_bound id _ H). lia. }
  assert (F : forall q, ~ In colon q -> disambiguate_url (M m) (url_of proto (disambiguate_ip (M m) ip (Some l)) q) (Some l) = url_of proto (disambiguate_ip (M m) ip (Some l)) q).
  { intros q Q. apply dis_url_fixed; auto. apply dis_idem. }
  pose proof (nth_error_In _ _ E) as In1.
  eexists _, _, leaf. split; [reflexivity|]. split; [apply (arrives_open M c m l ip); assumption|]. split; [auto|].
  cbn [map target app].
  change (proto ++ txt "://" ++ disambiguate_ip (M m) ip (Some l) ++ txt ":" ++ leaf) with (url_of proto (disambiguate_ip (M m) ip (Some l)) leaf).
  repeat match goal with |- context [disambiguate_url (M m) (proto ++ txt "://" ++ disambiguate_ip (M m) ip (Some l) ++ txt ":" ++ port f ?k) (Some l)] =>
    change (proto ++ txt "://" ++ disambiguate_ip (M m) ip (Some l) ++ txt ":" ++ port f k) with (url_of proto (disambiguate_ip (M m) ip (Some l)) (port f k)) end.
  rewrite !F; auto.
Qed.
Print Assumptions C85_engine.

(* ------------------------------------------------------------------ C86 *)
(** the controller is this client's own machine: it connects to the loopback address, and the file's location is an address of this machine *)
Definition here (m : machine) (addr : text) (f : conn_file) : Prop := addr = loopback m /\ exists l a, location f = Some l /\ denotes m l a /\ In a (local m).

Lemma here_dec m addr f : here m addr f \/ ~ here m addr f.
Proof.
  unfold here. destruct (eqt_spec addr (loopback m)) as [e|e]; [|right; tauto].
  destruct (location f) as [l|]; [|right; intros (_ & l & a & H & _); discriminate].
  destruct (mem_spec (ip_for_host m l) (local m)) as [i|i].
  - left. split; auto. exists l, (ip_for_host m l). split; auto. split; auto. apply ip_for_denotes; auto.
  - right. intros (_ & l' & a & e' & D & I). injection e' as <-. apply ip_for_denotes in D. congruence.
Qed.
Lemma choose_here m f addr s : here m addr f -> choose_ssh m f addr s = (s, false).
Proof.
  intros (-> & l & a & e & D & I). unfold choose_ssh. rewrite e, eqt_refl. apply ip_for_denotes in D. subst a.
  destruct (mem_spec (ip_for_host m l) (local m)); [|contradiction]. auto.
Qed.
Lemma choose_away m f addr s : ~ here m addr f -> fst (choose_ssh m f addr s) = if truthy s then s else ssh f.
Proof.
  intros H. unfold choose_ssh. destruct (location f) as [l|] eqn:L; auto. destruct (eqt_spec addr (loopback m)) as [e|e]; auto.
  destruct (mem_spec (ip_for_host m l) (local m)) as [i|i].
  - exfalso. apply H. split; auto. exists l, (ip_for_host m l). split; auto. split; auto. apply ip_for_denotes; auto.
  - cbn [negb andb fst]. destruct (truthy s); auto.
Qed.

(** All connections of a client go the same way *)
Theorem C86_same_way m f env sshserver sshkey password cs w : client m f env sshserver sshkey password = Some (cs, w) ->
  length cs = 7 /\ exists v, forall x, In x cs -> via x = v.
Proof.
  intros H. destruct (client_some _ _ _ _ _ _ _ H) as (p & a & A). split.
  - destruct (client_eq _ _ _ _ _ _ _ _ _ _ H A) as (_ & E). cbv zeta in E. rewrite E. reflexivity.
  - eexists. intros x I. apply (client_each _ _ _ _ _ _ _ _ _ _ _ H A I).
Qed.
Print Assumptions C86_same_way.

(** The way: through the ssh server given to the client if one is given; else, without an ssh key or password: directly if the controller is on this machine, and
    through the ssh server of the file, if it has one, otherwise. *)
Theorem C86_way m f env sshserver sshkey password cs w p a : client m f env sshserver sshkey password = Some (cs, w) -> address m f (location f) = Some (p, a) ->
  (forall s, sshserver = Some s -> s <> [] -> forall x, In x cs -> via x = Some s) /\
  (truthy sshserver = false -> truthy sshkey = false -> truthy password = false ->
     (here m a f -> forall x, In x cs -> via x = None) /\
     (~ here m a f -> forall x, In x cs -> via x = match ssh f with Some [] => None | s => s end)) /\
  (sshserver = None -> truthy sshkey = true \/ truthy password = true ->
     (here m a f -> forall x, In x cs -> via x = Some a) /\
     (~ here m a f -> ssh f <> Some [] -> forall x, In x cs -> via x = match ssh f with Some s => Some s | None => Some a end)).
Proof.
  intros H A.
  assert (V : forall x, In x cs -> via x = use_ssh a (fst (choose_ssh m f a sshserver)) sshkey password).
  { intros x I. apply (client_each _ _ _ _ _ _ _ _ _ _ _ H A I). }
  clear H. split; [|split].
  - intros s -> Ne x I. rewrite (V x I). assert (T : truthy (Some s) = true) by (destruct s; [congruence | auto]).
    destruct (here_dec m a f) as [h|h]; [rewrite (choose_here _ _ _ _ h) | rewrite (choose_away _ _ _ _ h), T]; cbn [fst]; unfold use_ssh; rewrite T; auto.
  - intros T1 T2 T3. split; intros h x I; rewrite (V x I).
    + rewrite (choose_here _ _ _ _ h). cbn [fst]. unfold use_ssh. rewrite T1, T2, T3. auto.
    + rewrite (choose_away _ _ _ _ h), T1. unfold use_ssh. rewrite T2, T3. destruct (ssh f) as [[|]|]; auto.
  - intros -> T. assert (T' : truthy sshkey || truthy password = true) by (apply orb_true_iff; auto). split; [intros h x I | intros h E x I]; rewrite (V x I).
    + rewrite (choose_here _ _ _ _ h). cbn [fst]. unfold use_ssh. cbn [truthy]. rewrite orb_false_l, T'. auto.
    + rewrite (choose_away _ _ _ _ h). cbn [truthy]. unfold use_ssh. rewrite <- orb_assoc, T', orb_true_r. auto.
Qed.
Print Assumptions C86_way.

(** A client that ends up connecting directly to its own machine although the controller is elsewhere says so *)
Theorem C86_warned M c m f env sshserver sshkey password cs w p l :
  network M -> m <> c -> client (M m) f env sshserver sshkey password = Some (cs, w) -> address (M m) f (location f) = Some (p, loopback (M m)) ->
  location f = Some l -> means M m l c -> (forall x, In x cs -> via x = None) -> w = true.
Proof.
  intros N D H A L Me V.
  destruct Me as [(e & _)|(Ne & a & R & P)]; [congruence|].
  assert (I : mem (ip_for_host (M m) l) (local (M m)) = false).
  { unfold ip_for_host. rewrite R. destruct (mem_spec a (local (M m))) as [i|i]; auto. exfalso. apply D. eapply (net_unique M N); eauto. }
  assert (Q : eqt l (hostname (M m)) = false) by (destruct (eqt_spec l (hostname (M m))); congruence).
  destruct (client_eq _ _ _ _ _ _ _ _ _ _ H A) as (-> & E). cbv zeta in E.
  assert (I0 : In (hd (Connection [] None None) cs) cs) by (rewrite E; left; reflexivity). destruct (client_each _ _ _ _ _ _ _ _ _ _ _ H A I0) as (V0 & _).
  rewrite (V _ I0) in V0. clear E. unfold choose_ssh in *. rewrite L, eqt_refl, I, Q in *. cbn [negb andb fst snd] in *. unfold use_ssh in V0.
  destruct (truthy (if negb (truthy sshserver) then ssh f else sshserver)) eqn:T; [|reflexivity]. cbn [orb] in V0.
  destruct (if negb (truthy sshserver) then ssh f else sshserver); discriminate V0.
Qed.
Print Assumptions C86_warned.

(** and it only warns in that case *)
Theorem C86_no_needless_warning m f env sshserver sshkey password cs w p a : client m f env sshserver sshkey password = Some (cs, w) ->
  address m f (location f) = Some (p, a) -> here m a f \/ a <> loopback m \/ location f = Some (hostname m) \/ truthy sshserver = true -> w = false.
Proof.
  intros H A C. destruct (client_eq _ _ _ _ _ _ _ _ _ _ H A) as (W & _). destruct (choose_ssh m f a sshserver) as (s, w') eqn:E. cbn [snd] in W. subst w'.
  destruct C as [C|[C|[C|C]]].
  - rewrite choose_here in E; auto. congruence.
  - unfold choose_ssh in E. destruct (location f); [|congruence]. destruct (eqt_spec a (loopback m)); [contradiction|]. congruence.
  - unfold choose_ssh in E. rewrite C, eqt_refl in E. destruct (eqt a (loopback m)); [|congruence]. injection E as _ <-. cbn [negb]. rewrite andb_false_r. auto.
  - unfold choose_ssh in E. rewrite C in E. destruct (location f) as [l|]; [|congruence]. destruct (eqt a (loopback m)); [|congruence].
    rewrite andb_false_r in E. rewrite C in E. cbn [negb] in E. rewrite andb_false_r in E. cbn [andb] in E. congruence.
Qed.
Print Assumptions C86_no_needless_warning.

(** Without ssh every connection of a client is encrypted for the controller's key, if the file or else the environment has one *)
Theorem C86_keys m f env sshserver sshkey password cs w x : client m f env sshserver sshkey password = Some (cs, w) -> In x cs -> via x = None ->
  key x = match serverkey f with Some (_ :: _) as k => k | _ => match env with Some [] => None | k => k end end.
Proof.
  intros H I V. destruct (client_some _ _ _ _ _ _ _ H) as (p & a & A). destruct (client_each _ _ _ _ _ _ _ _ _ _ _ H A I) as (_ & E). rewrite (E V).
  assert (K : client_key f env = match serverkey f with Some (_ :: _) as k => k | _ => match env with Some [] => None | k => k end end).
  { unfold client_key, nonempty. destruct (serverkey f) as [[|]|], env as [[|]|]; reflexivity. }
  exact K.
Qed.
Print Assumptions C86_keys.

(** Engines: the server given to the engine, else that of the file; with a key and no server at all, the controller's own address *)
Theorem C86_engine m f cli own sshserver sshkey id cs p a : engine m f cli own sshserver sshkey None id = Some cs -> address m f (engine_location f cli) = Some (p, a) ->
  (sshserver <> [] -> forall x, In x cs -> via x = Some sshserver) /\
  (sshserver = [] -> ssh f <> None -> ssh f <> Some [] -> forall x, In x cs -> via x = ssh f) /\
  (sshserver = [] -> truthy (ssh f) = false -> sshkey = [] -> forall x, In x cs -> via x = None) /\
  (sshserver = [] -> truthy (ssh f) = false -> sshkey <> [] -> ~ In colon a -> ~ In colon (port f (txt "registration")) -> ~ (exists r, port f (txt "registration") = txt "//" ++ r) ->
     forall x, In x cs -> via x = Some a) /\
  (forall x, In x cs -> key x = match serverkey f with Some (_ :: _) as k => k | _ => match own with Some [] => None | k => k end end).
Proof.
  unfold engine. intros H A. rewrite A in H. destruct (nth_error _ _) as [leaf|]; [|discriminate]. injection H as <-.
  assert (V : forall (v : option text) (t1 t2 t3 t4 t5 t6 t7 t8 : text) k x,
     In x [Connection t1 v k; Connection t2 v k; Connection t3 v k; Connection t4 v k; Connection t5 v k; Connection t6 v k; Connection t7 v k; Connection t8 v k] -> via x = v /\ key x = k).
  { intros v t1 t2 t3 t4 t5 t6 t7 t8 k x I. cbn [In] in I. repeat destruct I as [<-|I]; try (split; reflexivity). contradiction. }
  assert (K : engine_key f own = match serverkey f with Some (_ :: _) as k => k | _ => match own with Some [] => None | k => k end end).
  { unfold engine_key, nonempty. destruct (serverkey f) as [[|]|], own as [[|]|]; reflexivity. }
  split; [|split; [|split; [|split]]].
  - intros Ne x I. apply V in I as (-> & _). unfold engine_ssh. assert (T : truthy (Some sshserver) = true) by (destruct sshserver; [congruence | auto]).
    rewrite !T. cbn [negb]. rewrite orb_true_r, andb_false_r. auto.
  - intros -> N1 N2 x I. apply V in I as (-> & _). unfold engine_ssh. change (truthy (Some [])) with false. cbn match.
    assert (T : truthy (ssh f) = true) by (destruct (ssh f) as [[|]|]; congruence || auto). rewrite T. cbn [negb]. rewrite orb_true_r, andb_false_r. auto.
  - intros -> T -> x I. apply V in I as (-> & _). unfold engine_ssh. change (truthy (Some [])) with false. cbn match. rewrite T. auto.
  - intros -> T Ne Ha Hq Hs x I. apply V in I as (-> & _). unfold engine_ssh. change (truthy (Some [])) with false. cbn match. rewrite T.
    assert (T' : truthy (Some sshkey) = true) by (destruct sshkey; [congruence | auto]). rewrite T'. cbn [negb orb andb]. f_equal.
    apply address_spec in A as (ip & _ & Hp & _ & _).
    match goal with |- context [match cut (txt "://") ?u with _ => _ end] => change u with (p ++ txt "://" ++ a ++ txt ":" ++ port f (txt "registration")) end.
    rewrite cut_first_url; auto.
    assert (O : ~ occurs (txt "://") (a ++ txt ":" ++ port f (txt "registration"))) by (rewrite url_in_port; auto).
    unfold before at 2. apply cut_none in O. rewrite O. unfold before. rewrite cut_first_colon; auto.
  - intros x I. apply V in I as (_ & ->). auto.
Qed.
Print Assumptions C86_engine.

(* ------------------------------------------------------------------ examples *)
(** Two machines: node (10.0.0.1) and desk (10.0.0.2), which know each other by name; and others that have no part in this *)
Definition names (l : text) : option text :=
  if eqt l (txt "node") then Some (txt "10.0.0.1") else if eqt l (txt "desk") then Some (txt "10.0.0.2")
  else if mem l [txt "10.0.0.1"; txt "10.0.0.2"; txt "127.0.0.1"] then Some l else None.
Definition two_machines (n : nat) : machine :=
  match n with
  | 0 => Machine (txt "node") (txt "127.0.0.1") [txt "10.0.0.1"] [txt "127.0.0.1"; txt "10.0.0.1"] names
  | 1 => Machine (txt "desk") (txt "127.0.0.1") [txt "10.0.0.2"] [txt "127.0.0.1"; txt "10.0.0.2"] names
  | _ => Machine (txt "other") (txt "127.0.0.1") [] [txt "127.0.0.1"] names
  end.
Example two_machines_network : network two_machines.
Proof.
  constructor.
  - intros [|[|m]]; left; reflexivity.
  - intros [|[|m]] a I; cbn [public local two_machines] in *; [right; auto | right; auto | contradiction].
  - intros m c a I J. destruct c as [|[|c]]; cbn [public two_machines] in I; try contradiction; destruct I as [<-|I]; try contradiction;
      destruct m as [|[|m]]; cbn [local two_machines] in J; repeat destruct J as [J|J]; try discriminate J; try contradiction; auto.
  - intros [|[|m]]; reflexivity.
  - intros m c a I. assert (E : resolve (two_machines m) a = names a) by (destruct m as [|[|m]]; reflexivity). rewrite E.
    destruct c as [|[|c]]; cbn [public two_machines] in I; try contradiction; destruct I as [<-|I]; try contradiction; reflexivity.
Qed.
Definition ports_of (k : text) : text := if eqt k (txt "registration") then txt "55001" else txt "55002".
Definition open_file (s : option text) : conn_file := File (txt "tcp://*") (Some (txt "node")) s ports_of [txt "55003"; txt "55004"] (Some (txt "KEY")).
Definition local_file (s : option text) : conn_file := File (txt "tcp://127.0.0.1") (Some (txt "node")) s ports_of [txt "55003"; txt "55004"] (Some (txt "KEY")).
Example node_means m : m = 0 \/ m = 1 -> means two_machines m (txt "node") 0.
Proof. intros [->| ->]; [left; auto | right]. split; [discriminate|]. exists (txt "10.0.0.1"). split; [reflexivity | left; reflexivity]. Qed.
Example node_open : open_to_all two_machines 0 (txt "*").
Proof. left. right. reflexivity. Qed.
Example C85_ex_client : option_map (fun r => hd_error (map target (fst r))) (client (two_machines 1) (open_file (Some [])) None None None None) = Some (Some (txt "tcp://10.0.0.1:55001")).
Proof. reflexivity. Qed.
Example C85_ex_here : option_map (fun r => hd_error (map target (fst r))) (client (two_machines 0) (open_file (Some [])) None None None None) = Some (Some (txt "tcp://127.0.0.1:55001")).
Proof. reflexivity. Qed.
Example C85_ex_engine : option_map (fun r => nth_error (map target r) 3) (engine (two_machines 1) (open_file (Some [])) None None [] [] None 5) = Some (Some (txt "tcp://10.0.0.1:55004")).
Proof. reflexivity. Qed.
Example C85_ex_ipc : split_url (txt "ipc:///tmp/x-1") = None /\ split_url (txt "tcp://h:1") = Some (txt "tcp", txt "h", txt "1").
Proof. split; reflexivity. Qed.
Example C86_ex_via : option_map (fun r => map via (fst r)) (client (two_machines 1) (local_file (Some (txt "me@node"))) None None None None) = Some (repeat (Some (txt "me@node")) 7).
Proof. reflexivity. Qed.
Example C86_ex_here : option_map (fun r => map via (fst r)) (client (two_machines 0) (local_file (Some (txt "me@node"))) None None None None) = Some (repeat None 7).
Proof. reflexivity. Qed.
Example C86_ex_warned : option_map snd (client (two_machines 1) (local_file (Some [])) None None None None) = Some true.
Proof. reflexivity. Qed.
Example C86_ex_keys : option_map (fun r => map key (fst r)) (client (two_machines 0) (open_file (Some [])) None None None None) = Some (repeat (Some (txt "KEY")) 7).
Proof. reflexivity. Qed.
Example C86_ex_engine : option_map (map via) (engine (two_machines 1) (open_file (Some [])) None None [] (txt "id_rsa") None 0) = Some (repeat (Some (txt "10.0.0.1")) 8).
Proof. reflexivity. Qed.

(* ------------------------------------------------------------------ refuted *)
(** is_ip is false of every ip address (the arguments of re.match are swapped): a location given as an ip address is looked up as a name *)
Theorem C85_is_ip_refuted : ~ (forall a b c d : N, (48 <= a <= 57)%N -> (48 <= b <= 57)%N -> (48 <= c <= 57)%N -> (48 <= d <= 57)%N ->
  is_ip ([a] ++ txt "." ++ [b] ++ txt "." ++ [c] ++ txt "." ++ [d]) = true).
Proof. intros H. specialize (H 49 49 49 49)%N. cbn in H. discriminate H; lia. Qed.
Print Assumptions C85_is_ip_refuted.

(** A location that does not mean the controller to the client: two machines with one name.  The client connects to itself. *)
Theorem C85_same_name_refuted : ~ (forall M c m f p ip l, network M -> open_to_all M c ip -> interface f = p ++ txt "://" ++ ip -> location f = Some l -> l = hostname (M c) ->
  forall cs w, client (M m) f None None None None = Some (cs, w) -> exists a, arrives M m a c /\ map target cs = map (fun ch => url_of p a (port f ch)) client_channels).
Proof.
  intros H. set (M := fun n => match n with 1 => Machine (txt "node") (txt "127.0.0.1") [txt "10.0.0.2"] [txt "127.0.0.1"; txt "10.0.0.2"] names | n => two_machines n end).
  assert (N : network M).
  { constructor.
    - intros [|[|m]]; left; reflexivity.
    - intros [|[|m]] a I; cbn [public local two_machines M] in *; [right; auto | right; auto | contradiction].
    - intros m c a I J. destruct c as [|[|c]]; cbn [public two_machines M] in I; try contradiction; destruct I as [<-|I]; try contradiction;
        destruct m as [|[|m]]; cbn [local two_machines M] in J; repeat destruct J as [J|J]; try discriminate J; try contradiction; auto.
    - intros [|[|m]]; reflexivity.
    - intros m c a I. assert (E : resolve (M m) a = names a) by (destruct m as [|[|m]]; reflexivity). rewrite E.
      destruct c as [|[|c]]; cbn [public two_machines M] in I; try contradiction; destruct I as [<-|I]; try contradiction; reflexivity. }
  destruct (H M 0 1 (open_file (Some [])) (txt "tcp") (txt "*") (txt "node") N (or_introl (or_intror eq_refl)) eq_refl eq_refl eq_refl _ _ eq_refl) as (a & (b & D & R) & E).
  assert (Ea : a = txt "127.0.0.1").
  { assert (E0 : url_of (txt "tcp") (txt "127.0.0.1") (txt "55001") = url_of (txt "tcp") a (txt "55001")) by (apply (f_equal (@hd text [])) in E; exact E).
    unfold url_of in E0. apply app_inv_head in E0. apply app_inv_head in E0. apply app_inv_tail in E0. auto. }
  subst a. destruct D as [D|(D & _)]; [|discriminate D]. injection D as <-. destruct R as [(_ & e)|(_ & I)]; [discriminate e|].
  cbn [public M two_machines In] in I. destruct I as [I|[]]. discriminate I.
Qed.
Print Assumptions C85_same_name_refuted.

(** An ssh key alone: the client should tunnel through the controller's machine; with the file every controller without an ssh server writes (an empty text) it uses an empty server name *)
Theorem C86_key_only_refuted : ~ (forall m f k cs w p a, k <> [] -> client m f None None (Some k) None = Some (cs, w) -> address m f (location f) = Some (p, a) ->
  truthy (ssh f) = false -> forall x, In x cs -> via x = Some a).
Proof.
  intros H. specialize (H (two_machines 1) (open_file (Some [])) (txt "id_rsa") _ _ _ _ ltac:(discriminate) eq_refl eq_refl eq_refl _ (or_introl eq_refl)). discriminate H.
Qed.
Print Assumptions C86_key_only_refuted.

(** Through ssh, only the first of the client's connections is encrypted for the controller's key: the others cannot be accepted *)
Theorem C86_keys_ssh_refuted : ~ (forall m f env sshserver sshkey password cs w x, client m f env sshserver sshkey password = Some (cs, w) -> In x cs -> key x = client_key f env).
Proof.
  intros H. specialize (H (two_machines 1) (local_file (Some (txt "me@node"))) None None None None _ _ _ eq_refl (or_intror (or_introl eq_refl))). discriminate H.
Qed.
Print Assumptions C86_keys_ssh_refuted.

(** An engine that uses ssh connects to its own nanny through the ssh server too: there, not at the engine *)
Theorem C86_nanny_refuted : ~ (forall m f cli own sshserver sshkey u k id cs x, engine m f cli own sshserver sshkey (Some (u, k)) id = Some cs ->
  nth_error cs 4 = Some x -> target x = u -> via x = None).
Proof.
  intros H. specialize (H (two_machines 1) (open_file (Some [])) None None (txt "me@node") [] (txt "tcp://127.0.0.1:7") (txt "OWN") 0 _ _ eq_refl eq_refl eq_refl). discriminate H.
Qed.
Print Assumptions C86_nanny_refuted.

(** and the nanny itself does not use it *)
Theorem C86_nanny_itself_refuted : ~ (forall m f cli own sshserver sshkey u k id cs ns, engine m f cli own sshserver sshkey (Some (u, k)) id = Some cs ->
  nanny_connections m f cli own = Some ns -> map via ns = map via (firstn 2 cs)).
Proof.
  intros H. specialize (H (two_machines 1) (open_file (Some [])) None None (txt "me@node") [] (txt "tcp://127.0.0.1:7") (txt "OWN") 0 _ _ eq_refl eq_refl). discriminate H.
Qed.
Print Assumptions C86_nanny_itself_refuted.
