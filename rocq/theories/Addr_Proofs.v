(** Proofs for C85 and C86. *)
From Coq Require Import NArith String Ascii List Bool PeanoNat Lia.
From Verif Require Import Addr_Spec Addr_Model.
Import ListNotations.

Lemma eqt_spec a b : reflect (a = b) (eqt a b).
Proof. unfold eqt. destruct (list_eq_dec N.eq_dec a b); constructor; auto. Qed.
Lemma eqt_refl a : eqt a a = true.
Proof. destruct (eqt_spec a a); auto. Qed.
Lemma mem_spec a l : reflect (In a l) (mem a l).
Proof.
  unfold mem. destruct (existsb (eqt a) l) eqn:E; constructor.
  - apply existsb_exists in E as (x & I & e). destruct (eqt_spec a x); congruence.
  - intros I. assert (existsb (eqt a) l = true) by (apply existsb_exists; exists a; split; auto using eqt_refl). congruence.
Qed.

Lemma starts_spec p : forall s, starts p s = true <-> exists r, s = p ++ r.
Proof.
  induction p as [|c p IH]; intros s; cbn [starts app].
  - split; [intros _; exists s; auto | auto].
  - destruct s as [|d s].
    + split; [discriminate | intros (r & e); discriminate].
    + rewrite andb_true_iff, N.eqb_eq, IH. split.
      * intros (-> & r & ->). exists r; auto.
      * intros (r & e). injection e as -> ->. split; [auto | exists r; auto].
Qed.
Lemma skipn_app_exact {A} (p r : list A) : skipn (length p) (p ++ r) = r.
Proof. induction p; auto. Qed.

Lemma starts_skip p s : starts p s = true -> s = p ++ skipn (length p) s.
Proof. intros E. apply starts_spec in E as (r & ->). rewrite skipn_app_exact. auto. Qed.
Lemma cut_sound sep : forall s a b, cut sep s = Some (a, b) -> s = a ++ sep ++ b.
Proof.
  intros s. induction s as [|c s IH]; intros a b H; cbn [cut] in H.
  - destruct (starts sep []) eqn:E; [|discriminate]. injection H as <- <-. apply starts_skip in E. exact E.
  - destruct (starts sep (c :: s)) eqn:E.
    + injection H as <- <-. apply starts_skip in E. exact E.
    + destruct (cut sep s) as [(a', b')|]; [|discriminate]. injection H as <- <-. cbn [app]. f_equal. apply IH; auto.
Qed.
Lemma cut_least sep : forall s a b x y, cut sep s = Some (a, b) -> s = x ++ sep ++ y -> length a <= length x.
Proof.
  intros s. induction s as [|c s IH]; intros a b x y H e; cbn [cut] in H.
  - destruct (starts sep []); [|discriminate]. injection H as <- <-. cbn. lia.
  - destruct (starts sep (c :: s)) eqn:E; [injection H as <- <-; cbn; lia|].
    destruct (cut sep s) as [(a', b')|]; [|discriminate]. injection H as <- <-. destruct x as [|d x].
    + cbn [app] in e. assert (starts sep (c :: s) = true) by (apply starts_spec; exists y; auto). congruence.
    + cbn [app] in e. injection e as _ e. specialize (IH _ _ _ _ eq_refl e). cbn. lia.
Qed.
Lemma cut_free sep s a b : sep <> [] -> cut sep s = Some (a, b) -> ~ occurs sep a.
Proof.
  intros N H (x & y & ->). pose proof (cut_sound _ _ _ _ H) as S. rewrite <- !app_assoc in S.
  pose proof (cut_least _ _ _ _ _ _ H S) as L. rewrite !app_length in L. destruct sep; [congruence | cbn in L; lia].
Qed.
Lemma cut_none sep : forall s, cut sep s = None <-> ~ occurs sep s.
Proof.
  intros s. induction s as [|c s IH]; cbn [cut].
  - destruct (starts sep []) eqn:E.
    + split; [discriminate|]. intros H. exfalso. apply H. apply starts_spec in E as (r & e). exists [], r. auto.
    + split; auto. intros _ (a & b & e). destruct a; [|discriminate]. assert (starts sep [] = true) by (apply starts_spec; exists b; auto). congruence.
  - destruct (starts sep (c :: s)) eqn:E.
    + split; [discriminate|]. intros H. exfalso. apply H. apply starts_spec in E as (r & e). exists [], r. auto.
    + destruct (cut sep s) as [(a', b')|] eqn:F.
      * split; [discriminate|]. intros H. exfalso. apply H. apply cut_sound in F. exists (c :: a'), b'. rewrite F. auto.
      * split; auto. intros _ (a & b & e). destruct a as [|d a].
        -- cbn [app] in e. assert (starts sep (c :: s) = true) by (apply starts_spec; exists b; auto). congruence.
        -- cbn [app] in e. injection e as -> e. apply (proj1 IH eq_refl). exists a, b. auto.
Qed.

(** the separators do not overlap with themselves *)
Lemma cut_first_url : forall a b, ~ occurs (txt "://") a -> cut (txt "://") (a ++ txt "://" ++ b) = Some (a, b).
Proof.
  intros a b. induction a as [|c a IH]; intros H.
  - reflexivity.
  - cbn [app cut]. destruct (starts (txt "://") (c :: a ++ txt "://" ++ b)) eqn:E.
    + exfalso. apply starts_spec in E as (r & E). destruct a as [|d a]; [discriminate E|]. destruct a as [|e a]; [discriminate E|].
      injection E as -> -> -> _. apply H. exists [], a. reflexivity.
    + rewrite IH; auto. intros (x & y & e). apply H. exists (c :: x), y. rewrite e. auto.
Qed.
Lemma occurs_colon s : occurs (txt ":") s <-> In colon s.
Proof.
  split.
  - intros (a & b & ->). apply in_or_app; right. left. auto.
  - intros I. apply in_split in I as (a & b & ->). exists a, b. auto.
Qed.
Lemma cut_first_colon : forall a b, ~ In colon a -> cut (txt ":") (a ++ txt ":" ++ b) = Some (a, b).
Proof.
  intros a b. induction a as [|c a IH]; intros H.
  - cbn. auto.
  - cbn [app cut]. assert (S : starts (txt ":") (c :: a ++ txt ":" ++ b) = false).
    { change (N.eqb 58 c && true = false). rewrite andb_true_r. apply N.eqb_neq. intros <-. apply H. left; auto. }
    rewrite S, IH; auto. intros I. apply H. right; auto.
Qed.
Lemma url_in_port a q : ~ In colon a -> ~ In colon q -> (occurs (txt "://") (a ++ txt ":" ++ q) <-> exists r, q = txt "//" ++ r).
Proof.
  intros Ha Hq. split.
  - intros (x & y & e). revert x e. induction a as [|c a IH]; intros x e.
    + cbn [app] in e. destruct x as [|d x].
      * cbn in e. injection e as e. exists y. auto.
      * exfalso. cbn in e. injection e as _ e. apply Hq. rewrite e. apply in_or_app. right. left. auto.
    + destruct x as [|d x].
      * exfalso. cbn in e. injection e as e _. apply Ha. left. auto.
      * cbn [app] in e. injection e as _ e. eapply IH; [|apply e]. intros I. apply Ha. right; auto.
  - intros (r & ->). exists a, r. auto.
Qed.

Lemma split_url_spec u p a q : split_url u = Some (p, a, q) <-> u = url_of p a q /\ parts p a q.
Proof.
  unfold split_url, two, url_of, parts. split.
  - destruct (cut (txt "://") u) as [(p', r)|] eqn:E1; [|discriminate]. destruct (cut (txt "://") r) eqn:E2; [discriminate|].
    destruct (cut (txt ":") r) as [(a', q')|] eqn:E3; [|discriminate]. destruct (cut (txt ":") q') eqn:E4; [discriminate|].
    intros H. injection H as <- <- <-. pose proof (cut_sound _ _ _ _ E1) as S1. pose proof (cut_sound _ _ _ _ E3) as S3. subst u r.
    apply cut_none in E2. apply cut_none in E4. rewrite occurs_colon in E4.
    assert (Ha : ~ In colon a'). { rewrite <- occurs_colon. eapply cut_free; [|apply E3]. discriminate. }
    assert (Hp : ~ occurs (txt "://") p'). { eapply cut_free; [|apply E1]. discriminate. }
    split; [auto|]. split; [auto|]. split; [auto|]. split; [auto|]. intros X. apply E2. apply url_in_port; auto.
  - intros (-> & Hp & Ha & Hq & Hs). rewrite cut_first_url; auto.
    assert (E2 : cut (txt "://") (a ++ txt ":" ++ q) = None). { apply cut_none. rewrite url_in_port; auto. }
    rewrite E2, cut_first_colon; auto.
    assert (E4 : cut (txt ":") q = None). { apply cut_none. rewrite occurs_colon; auto. }
    rewrite E4. auto.
Qed.

(** the address *)
Lemma is_ip_name c l : N.eqb c 46 = false -> N.eqb c 40 = false -> is_ip (c :: l) = false.
Proof. intros A B. unfold is_ip. change (txt "(\d+\.){3}\d+") with (40%N :: tl (txt "(\d+\.){3}\d+")). cbn [matches]. rewrite A, B. auto. Qed.
Lemma wild_spec ip : mem ip [txt "0.0.0.0"; txt "*"] = true <-> ip = txt "0.0.0.0" \/ ip = txt "*".
Proof.
  destruct (mem_spec ip [txt "0.0.0.0"; txt "*"]) as [I|I].
  - split; auto. intros _. destruct I as [e|[e|[]]]; auto.
  - split; [discriminate|]. intros [e|e]; exfalso; apply I; [left | right; left]; auto.
Qed.
Lemma dis_explicit m ip loc : mem ip [txt "0.0.0.0"; txt "*"] = false -> disambiguate_ip m ip loc = ip.
Proof. intros E. unfold disambiguate_ip. rewrite E. auto. Qed.
Lemma dis_idem m ip loc : disambiguate_ip m (disambiguate_ip m ip loc) loc = disambiguate_ip m ip loc.
Proof.
  destruct (mem (disambiguate_ip m ip loc) [txt "0.0.0.0"; txt "*"]) eqn:E; [|apply dis_explicit; auto].
  destruct (mem ip [txt "0.0.0.0"; txt "*"]) eqn:F.
  - revert E. unfold disambiguate_ip. rewrite F. intros E. rewrite E. auto.
  - rewrite (dis_explicit m ip loc F). apply dis_explicit; auto.
Qed.

Lemma reaches M c m l ip : network M -> is_ip l = false -> l <> [] -> means M m l c -> mem ip [txt "0.0.0.0"; txt "*"] = true ->
  arrives M m (disambiguate_ip (M m) ip (Some l)) c.
Proof.
  intros N I L Me W. unfold disambiguate_ip. rewrite W. destruct l as [|x l]; [congruence|]. rewrite I. cbn [negb andb].
  assert (Loop : arrives M m (loopback (M m)) m).
  { exists (loopback (M m)). split; [left; apply (net_loop_means M N) | left; split; [apply (net_loopback M N) | auto]]. }
  destruct (eqt_spec (x :: l) (hostname (M m))) as [e|e].
  - destruct Me as [(-> & _)|(ne & _)]; [auto | congruence].
  - destruct Me as [(-> & e')|(_ & a & R & P)]; [congruence|]. unfold ip_for_host. rewrite R.
    destruct (mem_spec a (public (M m))) as [Q|Q].
    + rewrite (net_unique M N c m a Q) ; auto. apply (net_public M N); auto.
    + exists a. split; [left; eapply (net_means M N); eauto|]. right. split; auto. intros J. apply Q. rewrite (net_unique M N m c a P J). auto.
Qed.

Lemma wild_b ip : mem ip [txt "0.0.0.0"; txt "*"] = true <-> wild ip.
Proof. apply wild_spec. Qed.
Lemma wild_nb ip : mem ip [txt "0.0.0.0"; txt "*"] = false <-> ~ wild ip.
Proof. rewrite <- wild_b. destruct (mem ip _); split; congruence. Qed.
Lemma named_ip l : named l -> l <> [] -> is_ip l = false.
Proof. intros H N. destruct l as [|c r]; [congruence|]. destruct (H c r eq_refl). apply is_ip_name; apply N.eqb_neq; auto. Qed.
Lemma ip_for_denotes m l a : denotes m l a <-> a = ip_for_host m l.
Proof. unfold denotes, ip_for_host. destruct (resolve m l); split; [intros [e|(e & _)] | | intros [e|(_ & ->)] |]; try congruence; intros ->; auto. Qed.

Lemma chooses_spec m ip loc r : (forall l, loc = Some l -> named l) -> chooses m ip loc r <-> r = disambiguate_ip m ip loc.
Proof.
  intros Nm. split.
  - intros H. destruct H as [ip loc W | ip loc W E | ip W E | ip l a W E1 E2 D P | ip l a W E1 E2 D P]; unfold disambiguate_ip.
    + apply wild_nb in W. rewrite W. auto.
    + apply wild_b in W. rewrite W. destruct E; subst; auto.
    + apply wild_b in W. rewrite W. rewrite (named_ip _ (Nm _ eq_refl) E). cbn [negb andb]. rewrite eqt_refl. destruct (hostname m); [congruence | auto].
    + apply wild_b in W. rewrite W. rewrite (named_ip _ (Nm _ eq_refl) E1). cbn [negb andb]. destruct (eqt_spec l (hostname m)); [congruence|].
      apply ip_for_denotes in D. rewrite <- D. destruct (mem_spec a (public m)); [|contradiction]. destruct l; [congruence | auto].
    + apply wild_b in W. rewrite W. rewrite (named_ip _ (Nm _ eq_refl) E1). cbn [negb andb]. destruct (eqt_spec l (hostname m)); [congruence|].
      apply ip_for_denotes in D. rewrite <- D. destruct (mem_spec a (public m)); [contradiction|]. destruct l; [congruence | auto].
  - intros ->. unfold disambiguate_ip. destruct (mem ip [txt "0.0.0.0"; txt "*"]) eqn:W.
    + apply wild_b in W. destruct loc as [[|c l]|]; [apply nowhere; auto | | apply nowhere; auto].
      assert (Ne : c :: l <> []) by discriminate. rewrite (named_ip _ (Nm _ eq_refl) Ne). cbn [negb andb].
      destruct (eqt_spec (c :: l) (hostname m)) as [e|e].
      * rewrite e. apply by_name; auto. congruence.
      * destruct (mem_spec (ip_for_host m (c :: l)) (public m)).
        -- eapply by_address; eauto. apply ip_for_denotes. auto.
        -- apply elsewhere; auto. apply ip_for_denotes. auto.
    + apply wild_nb in W. apply explicit; auto.
Qed.

Lemma arrives_open M c m l ip : network M -> named l -> l <> [] -> means M m l c -> open_to_all M c ip ->
  arrives M m (disambiguate_ip (M m) ip (Some l)) c.
Proof.
  intros N Nm L Me [W|(W & P)].
  - apply reaches; auto; [apply named_ip; auto | apply wild_b; auto].
  - rewrite dis_explicit; [|apply wild_nb; auto]. exists ip. split; [left; eapply (net_means M N); eauto|].
    destruct (in_dec (list_eq_dec N.eq_dec) ip (local (M m))) as [I|I].
    + left. split; auto. symmetry. eapply (net_unique M N); eauto.
    + right. auto.
Qed.

(** urls *)
Lemma url_inj p a q p' r' q' : ~ occurs (txt "://") p -> ~ In colon q -> url_of p a q = url_of p' r' q' -> parts p' r' q' -> p = p' /\ a = r' /\ q = q'.
Proof.
  intros Hp Hq E (P1 & P2 & P3 & P4). unfold url_of in E.
  pose proof (cut_first_url p (a ++ txt ":" ++ q) Hp) as C1. rewrite E, cut_first_url in C1; auto. injection C1 as e1 e2.
  split; auto. assert (e3 : r' ++ txt ":" ++ q' = a ++ txt ":" ++ q) by (etransitivity; [apply e2 | reflexivity] || (symmetry; etransitivity; [apply e2 | reflexivity])).
  assert (Ha : ~ In colon a).
  { intros I. apply (f_equal (fun l => count_occ N.eq_dec l colon)) in e3. rewrite !count_occ_app in e3.
    apply (count_occ_In N.eq_dec) in I. apply (count_occ_not_In N.eq_dec) in P2, P3, Hq. cbn in e3. lia. }
  clear e2. pose proof (cut_first_colon a q Ha) as C. rewrite <- e3, cut_first_colon in C; auto. injection C as -> ->. auto.
Qed.
Lemma dis_url_parts m p a q loc : parts p a q -> disambiguate_url m (url_of p a q) loc = url_of p (disambiguate_ip m a loc) q.
Proof. intros P. unfold disambiguate_url. rewrite (proj2 (split_url_spec _ _ _ _) (conj eq_refl P)). auto. Qed.
Lemma dis_url_other m u loc : (forall p a q, u = url_of p a q -> ~ parts p a q) -> disambiguate_url m u loc = u.
Proof.
  intros H. unfold disambiguate_url. destruct (split_url u) as [((p, a), q)|] eqn:E; auto.
  apply split_url_spec in E as (e & P). exfalso. eapply H; eauto.
Qed.
Lemma dis_url_fixed m p r q loc : disambiguate_ip m r loc = r -> ~ occurs (txt "://") p -> ~ In colon q -> disambiguate_url m (url_of p r q) loc = url_of p r q.
Proof.
  intros F Hp Hq. unfold disambiguate_url. destruct (split_url (url_of p r q)) as [((p', r'), q')|] eqn:E; auto.
  apply split_url_spec in E as (e & P). destruct (url_inj _ _ _ _ _ _ Hp Hq e P) as (-> & -> & ->). rewrite F. auto.
Qed.
Lemma dis_url_idem m u loc : disambiguate_url m (disambiguate_url m u loc) loc = disambiguate_url m u loc.
Proof.
  destruct (split_url u) as [((p, a), q)|] eqn:E.
  - apply split_url_spec in E as (-> & P). rewrite dis_url_parts; auto. destruct P as (P1 & P2 & P3 & P4).
    apply dis_url_fixed; auto. apply dis_idem.
  - assert (disambiguate_url m u loc = u) by (unfold disambiguate_url; rewrite E; auto). congruence.
Qed.

Lemma address_spec m f loc p a : address m f loc = Some (p, a) <->
  exists ip, interface f = p ++ txt "://" ++ ip /\ ~ occurs (txt "://") p /\ ~ occurs (txt "://") ip /\ a = disambiguate_ip m ip loc.
Proof.
  unfold address, two. split.
  - destruct (cut (txt "://") (interface f)) as [(x, y)|] eqn:E; [|discriminate]. destruct (cut (txt "://") y) eqn:F; [discriminate|].
    intros H. injection H as -> <-. exists y. split; [apply cut_sound; auto|]. split; [eapply cut_free; [|apply E]; discriminate|]. split; auto. apply cut_none; auto.
  - intros (ip & -> & P & Q & ->). rewrite cut_first_url; auto. apply cut_none in Q. rewrite Q. auto.
Qed.

Lemma client_eq m f env sshserver sshkey password cs w p a : client m f env sshserver sshkey password = Some (cs, w) -> address m f (location f) = Some (p, a) ->
  w = snd (choose_ssh m f a sshserver) /\
  let v := use_ssh a (fst (choose_ssh m f a sshserver)) sshkey password in
  cs = Connection (p ++ txt "://" ++ a ++ txt ":" ++ port f (txt "registration")) v (client_key f env)
         :: map (fun c => Connection (p ++ txt "://" ++ a ++ txt ":" ++ port f c) v (match v with Some _ => None | None => client_key f env end)) others.
Proof.
  intros H A. unfold client in H. rewrite A in H. destruct (choose_ssh m f a sshserver) as (s, w').
  assert (X : forall (x y : list connection * bool), Some x = Some y -> x = y) by congruence. apply X in H.
  pose proof (f_equal fst H) as H1. pose proof (f_equal snd H) as H2. cbn [fst snd] in *. rewrite <- H1, <- H2. split; reflexivity.
Qed.
Lemma client_each m f env sshserver sshkey password cs w p a x : client m f env sshserver sshkey password = Some (cs, w) -> address m f (location f) = Some (p, a) -> In x cs ->
  via x = use_ssh a (fst (choose_ssh m f a sshserver)) sshkey password /\ (via x = None -> key x = client_key f env).
Proof.
  intros H A I. destruct (client_eq _ _ _ _ _ _ _ _ _ _ H A) as (_ & E). cbv zeta in E. rewrite E in I. clear E. destruct I as [<-|I].
  - split; auto.
  - apply in_map_iff in I as (k & <- & _). cbn [via key]. split; auto. intros ->. auto.
Qed.
Lemma client_some m f env sshserver sshkey password r : client m f env sshserver sshkey password = Some r -> exists p a, address m f (location f) = Some (p, a).
Proof. unfold client. destruct (address m f (location f)) as [(p, a)|]; [eauto | discriminate]. Qed.
