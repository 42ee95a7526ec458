From Coq Require Import List ZArith String Bool Lia Permutation Sorting.Sorted.
From Verif Require Import Prelude PyValue DictDB_Spec DictDB_Model.
Import ListNotations.
Local Open Scope string_scope.

(** * Dicts *)
Section Dicts.
Context {A : Type}.
Implicit Types (d : dict A) (k : string).
Lemma dget_in k v d : dget k d = Some v -> In (k, v) d.
Proof. induction d as [|[k' v'] d IH]; simpl; [discriminate|]. destruct (String.eqb_spec k k') as [->|]; intros H; [injection H as ->; auto|auto]. Qed.
Lemma dget_keys k d : In k (dkeys d) <-> dget k d <> None.
Proof.
  induction d as [|[k' v'] d IH]; simpl; [intuition congruence|]. destruct (String.eqb_spec k k') as [->|Hne]; [intuition congruence|].
  rewrite <- IH. intuition congruence.
Qed.
Lemma dget_none k d : dget k d = None <-> ~ In k (dkeys d).
Proof. rewrite dget_keys. destruct (dget k d); intuition congruence. Qed.
Lemma in_dget k v d : NoDup (dkeys d) -> In (k, v) d -> dget k d = Some v.
Proof.
  induction d as [|[k' v'] d IH]; simpl; [tauto|]. intros Hnd. inversion Hnd; subst. intros [H|H].
  - injection H as -> ->. rewrite String.eqb_refl. reflexivity.
  - destruct (String.eqb_spec k k') as [->|]; [|auto]. exfalso. apply H1. apply (in_map fst) in H. exact H.
Qed.
Lemma dget_dset k k' v d : dget k (dset k' v d) = if String.eqb k k' then Some v else dget k d.
Proof.
  induction d as [|[k0 v0] d IH]; simpl.
  - destruct (String.eqb k k'); reflexivity.
  - destruct (String.eqb_spec k' k0) as [->|Hne]; simpl.
    + destruct (String.eqb k k0); reflexivity.
    + rewrite IH. destruct (String.eqb_spec k k0) as [->|]; [|reflexivity].
      destruct (String.eqb_spec k0 k') as [E|]; [congruence|reflexivity].
Qed.
Lemma dkeys_dset k v d : NoDup (dkeys d) -> NoDup (dkeys (dset k v d)) /\ forall x, In x (dkeys (dset k v d)) <-> x = k \/ In x (dkeys d).
Proof.
  induction d as [|[k0 v0] d IH]; simpl; intros Hnd.
  - split; [constructor; [simpl; tauto|constructor]|]. intuition congruence.
  - inversion Hnd as [|a b Hn Hd]; subst. destruct (String.eqb_spec k k0) as [->|Hne]; simpl.
    + split; [exact Hnd|]. intuition congruence.
    + destruct (IH Hd) as [I1 I2]. split; [constructor; [|exact I1]|].
      * rewrite I2. intros [->|]; tauto.
      * intros x. rewrite I2. intuition congruence.
Qed.
Lemma dget_ddel k k' d : NoDup (dkeys d) -> dget k (ddel k' d) = if String.eqb k k' then None else dget k d.
Proof.
  induction d as [|[k0 v0] d IH]; simpl; intros Hnd; [destruct (String.eqb k k'); reflexivity|].
  inversion Hnd as [|a b Hn Hd]; subst. destruct (String.eqb_spec k' k0) as [->|Hne]; simpl.
  - destruct (String.eqb_spec k k0) as [->|]; [apply dget_none; exact Hn|reflexivity].
  - rewrite IH by exact Hd. destruct (String.eqb_spec k k0) as [->|]; [|reflexivity].
    destruct (String.eqb_spec k0 k') as [E|]; [congruence|reflexivity].
Qed.
Lemma in_ddel x k d : In x (ddel k d) -> In x d.
Proof. induction d as [|[k0 v0] d IH]; simpl; [tauto|]. destruct (String.eqb k k0); simpl; tauto. Qed.
Lemma nodup_ddel k d : NoDup (dkeys d) -> NoDup (dkeys (ddel k d)).
Proof.
  induction d as [|[k0 v0] d IH]; simpl; intros Hnd; [exact Hnd|]. inversion Hnd as [|a b Hn Hd]; subst.
  destruct (String.eqb k k0); [exact Hd|]. simpl. constructor; [|auto].
  intros Hin. apply Hn. unfold dkeys in *. apply in_map_iff in Hin as (x & <- & Hx). apply in_map. eapply in_ddel; exact Hx.
Qed.
Lemma dget_app k d d' : dget k (d ++ d')%list = match dget k d with Some v => Some v | None => dget k d' end.
Proof. induction d as [|[k0 v0] d IH]; simpl; [reflexivity|]. destruct (String.eqb k k0); [reflexivity|exact IH]. Qed.
Lemma dget_dupdate new k : NoDup (dkeys new) -> forall d, dget k (dupdate d new) = match dget k new with Some v => Some v | None => dget k d end.
Proof.
  unfold dupdate. induction new as [|[k0 v0] new IH]; simpl; intros Hnd d; [reflexivity|].
  inversion Hnd as [|a b Hn Hd]; subst. rewrite IH by exact Hd. rewrite dget_dset.
  destruct (String.eqb_spec k k0) as [->|]; [|reflexivity]. destruct (dget k0 new) eqn:E; [|reflexivity].
  exfalso. apply Hn, dget_keys. congruence.
Qed.
Lemma nodup_dupdate new : forall d, NoDup (dkeys d) -> NoDup (dkeys (dupdate d new)).
Proof. unfold dupdate. induction new as [|[k0 v0] new IH]; simpl; intros d Hd; [exact Hd|]. apply IH. apply dkeys_dset, Hd. Qed.
End Dicts.

Lemma existsb_eqb k l : existsb (String.eqb k) l = true <-> In k l.
Proof.
  rewrite existsb_exists. split; [intros (x & Hx & E); apply String.eqb_eq in E; subst; exact Hx|].
  intros H. exists k. split; [exact H|apply String.eqb_refl].
Qed.

(** * Queries *)
Section Query.
Context (glob : string -> string -> bool).

Lemma py_lt_iff a b r : py_lt a b = Ok r -> (r = true <-> before a b).
Proof.
  destruct a, b; simpl; intros H; try discriminate; injection H as <-; try apply Z.ltb_lt.
  destruct (String.compare s s0); intuition congruence.
Qed.
Lemma py_eq_sym_lt a b r : py_lt a b = Ok r -> py_eq a b = py_eq b a.
Proof. destruct a, b; simpl; intros H; try discriminate; first [apply Z.eqb_sym|apply String.eqb_sym]. Qed.
Lemma py_in_iff a b r : py_in a b = Ok r -> (r = true <-> inside a b).
Proof.
  intros H. unfold inside. destruct b; try (rewrite H; split; congruence). simpl in H. injection H as <-. apply existsb_exists.
Qed.
Lemma eqb_none a : (match a with VNone => true | _ => false end) = true <-> a = VNone.
Proof. destruct a; intuition congruence. Qed.

Lemma filters_sound o f a b r : o <> OGt -> o <> OAll -> filters glob o = Some f -> f a b = Ok r -> (r = true <-> says glob o a b).
Proof.
  intros H1 H2 Hf Hr. destruct o; simpl in Hf; try contradiction; try discriminate; injection Hf as <-; simpl in *.
  - eapply py_lt_iff; eauto.
  - injection Hr as <-. reflexivity.
  - injection Hr as <-. unfold equal. destruct (py_eq a b); simpl; intuition congruence.
  - unfold py_le in Hr. destruct (py_lt a b) as [x|] eqn:E; simpl in Hr; [|discriminate]. injection Hr as <-.
    rewrite orb_true_iff, (py_lt_iff _ _ _ E). reflexivity.
  - unfold py_le in Hr. destruct (py_lt b a) as [x|] eqn:E; simpl in Hr; [|discriminate]. injection Hr as <-.
    rewrite orb_true_iff, (py_lt_iff _ _ _ E). unfold equal. rewrite (py_eq_sym_lt _ _ _ E). reflexivity.
  - eapply py_in_iff; eauto.
  - destruct (py_in a b) as [x|] eqn:E; simpl in Hr; [|discriminate]. injection Hr as <-.
    rewrite <- (py_in_iff _ _ _ E). destruct x; simpl; intuition congruence.
  - destruct b as [| | | | | |l|]; simpl in Hr; try discriminate. destruct l as [|d l]; simpl in Hr; [discriminate|].
    destruct a; simpl in Hr; try discriminate. destruct d; simpl in Hr; try discriminate.
    destruct (Z.eqb_spec z0 0); simpl in Hr; [discriminate|]. destruct l as [|v l]; simpl in Hr; [discriminate|].
    injection Hr as <-. split.
    + destruct v; simpl; try discriminate. intros E. apply Z.eqb_eq in E. exists z, z0, z1, l. auto.
    + intros (x & d & r & rest & E1 & E2 & E3). injection E1 as <-. injection E2 as -> -> _. simpl. apply Z.eqb_eq. exact E3.
  - injection Hr as <-. destruct (truthy b); simpl; destruct a; simpl; intuition congruence.
  - destruct a as [|z|x|t|t|y|l|l]; try discriminate.
    + injection Hr as <-. split; [discriminate|]. intros (x & p & E & _). discriminate.
    + destruct b; try discriminate. injection Hr as <-. split.
      * intros E. exists x, s. auto.
      * intros (x' & p & E1 & E2 & E3). injection E1 as <-. injection E2 as <-. exact E3.
Qed.

Lemma composite_sound l : (forall o b, In (o, b) l -> o <> OGt /\ o <> OAll) ->
  forall ts v r, composite_tests glob l = Ok ts -> composite_call ts v = Ok r ->
  (r = true <-> forall o b, In (o, b) l -> says glob o v (aware b)).
Proof.
  induction l as [|[o b] l IH]; simpl; intros Hok ts v r Hts Hr.
  - injection Hts as <-. simpl in Hr. injection Hr as <-. split; [intros _ ? ? []|reflexivity].
  - destruct (filters glob o) as [f|] eqn:Ef; [|discriminate]. destruct (composite_tests glob l) as [ts'|] eqn:E; simpl in Hts; [|discriminate].
    injection Hts as <-. simpl in Hr. destruct (f v (add_tz b)) as [x|] eqn:Ex; simpl in Hr; [|discriminate].
    destruct (Hok o b (or_introl eq_refl)) as [G1 G2]. pose proof (filters_sound o f v (add_tz b) x G1 G2 Ef Ex) as Hx.
    change (add_tz b) with (aware b) in Hx.
    destruct x.
    + rewrite (IH (fun o b H => Hok o b (or_intror H)) ts' v r eq_refl Hr). split.
      * intros H o' b' [E'|E']; [injection E' as <- <-; apply Hx; reflexivity|auto].
      * intros H o' b' Hin. apply H. auto.
    + injection Hr as <-. split; [discriminate|]. intros H. assert (says glob o v (aware b)) by (apply H; auto).
      apply Hx in H0. exact H0.
Qed.

Lemma match_one_sound q last : (forall k l o b, In (k, COps l) q -> In (o, b) l -> o <> OGt /\ o <> OAll) ->
  (forall k v, In (k, CVal v) q -> v = last) ->
  forall tests rec r, make_tests glob last q = Ok tests -> match_one rec tests = Ok r -> (r = true <-> matches glob q rec).
Proof.
  induction q as [|[k c] q IH]; intros Hok Hv tests rec r Ht Hr.
  - injection Ht as <-. injection Hr as <-. split; [intros _ ? ? []|reflexivity].
  - assert (Hok' : forall k l o b, In (k, COps l) q -> In (o, b) l -> o <> OGt /\ o <> OAll) by (intros k0 l o b H; apply (Hok k0 l o b (or_intror H))).
    assert (Hv' : forall k v, In (k, CVal v) q -> v = last) by (intros k0 v H; apply (Hv k0 v (or_intror H))).
    assert (Hcons : matches glob ((k, c) :: q) rec <->
              match c with CVal v => equal (aware (field rec k)) (aware v)
              | COps l => forall o b, In (o, b) l -> says glob o (field rec k) (aware b) end /\ matches glob q rec).
    { split.
      - intros H. split; [apply (H k c); left; reflexivity|]. intros k0 c0 Hin. apply (H k0 c0). right. exact Hin.
      - intros [H G] k0 c0 [E|Hin]; [injection E as <- <-; exact H|apply G; exact Hin]. }
    rewrite Hcons. simpl in Ht. destruct c as [v|l].
    + destruct (make_tests glob last q) as [rest|] eqn:E; simpl in Ht; [|discriminate]. injection Ht as <-. simpl in Hr.
      assert (v = last) as -> by (apply (Hv k); left; reflexivity).
      fold (field rec k) in Hr. unfold equal. change (aware (field rec k)) with (add_tz (field rec k)). change (aware last) with (add_tz last).
      destruct (py_eq _ _).
      * rewrite (IH Hok' Hv' rest rec r eq_refl Hr). intuition.
      * injection Hr as <-. intuition congruence.
    + destruct (composite_tests glob l) as [ts|] eqn:El; simpl in Ht; [|discriminate].
      destruct (make_tests glob last q) as [rest|] eqn:E; simpl in Ht; [|discriminate]. injection Ht as <-. simpl in Hr.
      fold (field rec k) in Hr. destruct (composite_call ts (field rec k)) as [x|] eqn:Ex; simpl in Hr; [|discriminate].
      pose proof (composite_sound l (fun o b H => Hok k l o b (or_introl eq_refl) H) ts (field rec k) x El Ex) as Hx.
      rewrite <- Hx. destruct x.
      * rewrite (IH Hok' Hv' rest rec r eq_refl Hr). intuition.
      * injection Hr as <-. intuition congruence.
Qed.

Lemma supported_last q k v : supported q -> In (k, CVal v) q -> v = last_value q.
Proof.
  intros [_ H] Hin. destruct (H k v Hin) as (q' & k' & ->). unfold last_value. rewrite rev_app_distr. reflexivity.
Qed.

Lemma match_recs_sound q tests l out : supported q -> make_tests glob (last_value q) q = Ok tests ->
  match_recs tests l = Ok out -> selects (matches glob q) (map snd l) out.
Proof.
  intros Hs Ht. revert out. induction l as [|[m rec] l IH]; simpl; intros out H.
  - injection H as <-. constructor.
  - destruct (match_one rec tests) as [b|] eqn:Eb; simpl in H; [|discriminate].
    destruct (match_recs tests l) as [r|] eqn:Er; simpl in H; [|discriminate]. injection H as <-.
    pose proof (match_one_sound q (last_value q) (proj1 Hs) (fun k v => supported_last q k v Hs) tests rec b Ht Eb) as Hb.
    destruct b.
    + apply s_keep; [apply Hb; reflexivity|auto].
    + apply s_skip; [|auto]. intros Hm. apply Hb in Hm. discriminate.
Qed.

Lemma find_sound d q out : supported q -> find_records glob d q [] = Ok out -> selects (matches glob q) (map snd (recs d)) out.
Proof.
  intros Hs. unfold find_records, match_. destruct (make_tests _ _ _) as [tests|] eqn:Et; simpl; [|discriminate].
  destruct (match_recs _ _) as [ms|] eqn:Em; simpl; [|discriminate]. intros H. injection H as <-. eapply match_recs_sound; eauto.
Qed.

Lemma extract_keys_spec rec keys : forall acc r, extract_keys rec keys acc = Ok r ->
  forall k, dget k r = if existsb (String.eqb k) keys then dget k rec else dget k acc.
Proof.
  induction keys as [|k0 keys IH]; simpl; intros acc r H k; [injection H as <-; reflexivity|].
  destruct (dget k0 rec) as [v|] eqn:E; [|discriminate]. rewrite (IH _ _ H k), dget_dset.
  destruct (String.eqb_spec k k0) as [->|]; simpl; [|reflexivity]. rewrite E. destruct (existsb _ keys); reflexivity.
Qed.
Lemma extract_subdict_spec rec keys r : extract_subdict rec keys = Ok r -> part_of keys rec r.
Proof.
  unfold extract_subdict, part_of. destruct (dget "msg_id" rec) as [m|] eqn:E; [|discriminate]. intros H k.
  rewrite (extract_keys_spec _ _ _ _ H k). simpl. destruct (String.eqb_spec k "msg_id") as [->|]; simpl; [|reflexivity].
  rewrite E. destruct (existsb _ keys); reflexivity.
Qed.
Lemma traverse_Forall2 {A B} (f : A -> res B) (P : A -> B -> Prop) l out :
  (forall a b, f a = Ok b -> P a b) -> traverse f l = Ok out -> Forall2 P l out.
Proof.
  intros Hf. revert out. induction l as [|a l IH]; simpl; intros out H; [injection H as <-; constructor|].
  destruct (f a) as [b|] eqn:E; simpl in H; [|discriminate]. destruct (traverse f l) as [bs|] eqn:E2; simpl in H; [|discriminate].
  injection H as <-. constructor; auto.
Qed.
Lemma find_keys d q keys out : keys <> [] -> find_records glob d q keys = Ok out ->
  exists full, find_records glob d q [] = Ok full /\ Forall2 (part_of keys) full out.
Proof.
  intros Hk. unfold find_records. destruct (match_ glob d q) as [ms|] eqn:Em; simpl; [|discriminate].
  destruct keys as [|k keys]; [contradiction|]. intros H. exists ms. split; [reflexivity|].
  eapply traverse_Forall2; [|exact H]. intros a b. apply extract_subdict_spec.
Qed.

Lemma find_total d q : (forall k l o b, In (k, COps l) q -> In (o, b) l -> total_op o b) ->
  exists out, find_records glob d q [] = Ok out.
Proof.
  intros Hq. unfold find_records, match_. generalize (last_value q) as v. intros v.
  assert (Hc : forall l, (forall o b, In (o, b) l -> total_op o b) -> exists ts, composite_tests glob l = Ok ts /\ forall x, exists r, composite_call ts x = Ok r).
  { induction l as [|[o b] l IH]; intros Hl; [exists []; split; [reflexivity|intros x; exists true; reflexivity]|].
    destruct IH as (ts & E & Ht); [intros o' b' Hin; apply Hl; right; exact Hin|].
    specialize (Hl o b (or_introl eq_refl)).
    destruct o; simpl in Hl; try contradiction; simpl; rewrite E; simpl; eexists; (split; [reflexivity|]); intros x; simpl.
    - destruct (py_eq _ _); eauto.
    - destruct (negb _); eauto.
    - destruct Hl as [l0 ->]. simpl. destruct (existsb _ _); eauto.
    - destruct Hl as [l0 ->]. simpl. destruct (negb _); eauto.
    - destruct (_ || _); eauto. }
  assert (Ht : exists tests, make_tests glob v q = Ok tests /\ forall k t, In (k, t) tests -> forall x, exists r, t x = Ok r).
  { clear d. induction q as [|[k c] q IH]; [exists []; split; [reflexivity|intros k t []]|].
    destruct IH as (ts & E & Ht); [intros k' l o b Hin; apply (Hq k'); right; exact Hin|].
    simpl. rewrite E. destruct c as [w|l].
    - eexists; split; [reflexivity|]. intros k' t [H|H] x; [injection H as <- <-; eauto|eapply Ht; exact H].
    - destruct (Hc l) as (cs & E' & Hcs); [intros o b; apply (Hq k l o b); left; reflexivity|]. rewrite E'. simpl.
      eexists; split; [reflexivity|]. intros k' t [H|H] x; [injection H as <- <-; apply Hcs|eapply Ht; exact H]. }
  destruct Ht as (tests & E & Ht). rewrite E. simpl.
  assert (Hm : forall rec, exists b, match_one rec tests = Ok b).
  { intros rec. clear E. induction tests as [|[k t] tests IH]; [exists true; reflexivity|]. simpl.
    destruct (Ht k t (or_introl eq_refl) (match dget k rec with Some v => v | None => VNone end)) as [r ->]. simpl.
    destruct r; [|eauto]. apply IH. intros k' t' H. apply (Ht k' t'). right. exact H. }
  assert (Hr : exists ms, match_recs tests (recs d) = Ok ms).
  { induction (recs d) as [|[m rec] l IH]; [exists []; reflexivity|]. simpl. destruct (Hm rec) as [b ->]. destruct IH as [ms ->]. simpl. eauto. }
  destruct Hr as [ms ->]. eexists. reflexivity.
Qed.
End Query.
