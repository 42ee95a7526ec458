(** Proofs about serialization: canning is inverted by uncanning, extraction by restoration. *)
From Coq Require Import List Arith String Bool Permutation Lia.
From Verif Require Import Prelude Serialize_Spec Serialize_Model.
Import ListNotations.

(** Induction over objects. *)
Section Ind.
Context (P : obj -> Prop).
Context (Hatom : forall n ok, P (Atom n ok)) (Hdata : forall k b, P (Data k b))
  (Hseq : forall k l, Forall P l -> P (Seq k l))
  (Hdict : forall l, Forall (fun kv : string * obj => P (snd kv)) l -> P (Dict l))
  (Hfun : forall c d kd cl, Forall P d -> Forall (fun kv : string * obj => P (snd kv)) kd -> Forall P cl -> P (Fun c d kd cl))
  (Hpart : forall f a k, P f -> Forall P a -> Forall (fun kv : string * obj => P (snd kv)) k -> P (Part f a k))
  (Hcdata : forall k bs, P (CData k bs))
  (Hcfun : forall c d kd cl, Forall P d -> Forall (fun kv : string * obj => P (snd kv)) kd -> Forall P cl -> P (CFun c d kd cl))
  (Hcpart : forall f a k bs ac kc, P f -> Forall P a -> Forall (fun kv : string * obj => P (snd kv)) k -> P (CPart f a k bs ac kc)).
Fixpoint obj_ind' (o : obj) : P o :=
  let many := fix many (l : list obj) : Forall P l :=
    match l with [] => Forall_nil _ | x :: r => Forall_cons _ (obj_ind' x) (many r) end in
  let manyk := fix manyk (l : list (string * obj)) : Forall (fun kv => P (snd kv)) l :=
    match l with [] => Forall_nil _ | x :: r => Forall_cons _ (obj_ind' (snd x)) (manyk r) end in
  match o with
  | Atom n ok => Hatom n ok
  | Data k b => Hdata k b
  | Seq k l => Hseq k l (many l)
  | Dict l => Hdict l (manyk l)
  | Fun c d kd cl => Hfun c d kd cl (many d) (manyk kd) (many cl)
  | Part f a k => Hpart f a k (obj_ind' f) (many a) (manyk k)
  | CData k bs => Hcdata k bs
  | CFun c d kd cl => Hcfun c d kd cl (many d) (manyk kd) (many cl)
  | CPart f a k bs ac kc => Hcpart f a k bs ac kc (obj_ind' f) (many a) (manyk k)
  end.
End Ind.

(* ---------------------------------------------------------------- lists *)
Lemma traverse_ok {A B} (f : A -> res B) l l' : Forall2 (fun x y => f x = Ok y) l l' -> traverse f l = Ok l'.
Proof. induction 1 as [|x y l l' Hx _ IH]; simpl; [reflexivity|]. rewrite Hx; simpl; rewrite IH; reflexivity. Qed.
Lemma traverse_inv {A B} (f : A -> res B) l l' : traverse f l = Ok l' -> Forall2 (fun x y => f x = Ok y) l l'.
Proof.
  revert l'; induction l as [|x l IH]; simpl; intros l' H.
  - injection H as <-; constructor.
  - destruct (f x) eqn:E; simpl in H; [|discriminate]. destruct (traverse f l) eqn:E2; simpl in H; [|discriminate].
    injection H as <-; constructor; auto.
Qed.
Lemma traverse_ext {A B} (f g : A -> res B) l : Forall (fun x => f x = g x) l -> traverse f l = traverse g l.
Proof. induction 1 as [|x l Hx _ IH]; simpl; [reflexivity|]. rewrite Hx, IH; reflexivity. Qed.
Lemma traverse_map_id {A B} (f : A -> res B) (h : B -> A) l : Forall (fun x => f (h x) = Ok x) l -> traverse f (map h l) = Ok l.
Proof. induction 1 as [|x l Hx _ IH]; simpl; [reflexivity|]. rewrite Hx; simpl; rewrite IH; reflexivity. Qed.

(* ---------------------------------------------------------------- sorting by key *)
Lemma leb_trans a b c : String.leb a b = true -> String.leb b c = true -> String.leb a c = true.
Proof.
  unfold String.leb. revert b c. induction a as [|x a IH]; intros [|y b] [|z c]; simpl; try congruence; auto.
  - intros H1 H2. unfold Ascii.compare in *.
    destruct (N.compare_spec (Ascii.N_of_ascii x) (Ascii.N_of_ascii y)) as [E1|E1|E1]; try discriminate;
    destruct (N.compare_spec (Ascii.N_of_ascii y) (Ascii.N_of_ascii z)) as [E2|E2|E2]; try discriminate;
    destruct (N.compare_spec (Ascii.N_of_ascii x) (Ascii.N_of_ascii z)) as [E3|E3|E3]; try reflexivity; try lia.
    eapply IH; eauto.
Qed.
Definition kle {A} (x y : string * A) : Prop := String.leb (fst x) (fst y) = true.
Inductive ksorted {A} : list (string * A) -> Prop :=
| ks_nil : ksorted []
| ks_cons x l : Forall (kle x) l -> ksorted l -> ksorted (x :: l).
Lemma insert_perm {A} (x : string * A) l : Permutation (x :: l) (insert_key x l).
Proof.
  induction l as [|y l IH]; simpl; [reflexivity|]. destruct (String.leb (fst x) (fst y)); [reflexivity|].
  rewrite perm_swap. constructor. exact IH.
Qed.
Lemma sort_perm {A} (l : list (string * A)) : Permutation l (sort_keys l).
Proof. induction l as [|x l IH]; simpl; [reflexivity|]. etransitivity; [|apply insert_perm]. constructor; exact IH. Qed.
Lemma insert_sorted {A} (x : string * A) l : ksorted l -> ksorted (insert_key x l).
Proof.
  induction 1 as [|y l Hy Hl IH]; simpl.
  - repeat constructor.
  - destruct (String.leb (fst x) (fst y)) eqn:E.
    + constructor; [|constructor; assumption]. constructor; [exact E|].
      eapply Forall_impl; [|exact Hy]. intros z Hz. eapply leb_trans; eauto.
    + constructor; [|exact IH]. apply (Permutation_Forall (insert_perm x l)). constructor; [|exact Hy].
      unfold kle. destruct (String.leb_total (fst x) (fst y)); congruence.
Qed.
Lemma sort_sorted {A} (l : list (string * A)) : ksorted (sort_keys l).
Proof. induction l; simpl; [constructor|apply insert_sorted; assumption]. Qed.
Lemma sort_sorted_id {A} (l : list (string * A)) : ksorted l -> sort_keys l = l.
Proof.
  induction 1 as [|x l Hx _ IH]; simpl; [reflexivity|]. rewrite IH. destruct l as [|y l]; simpl; [reflexivity|].
  apply Forall_inv in Hx. unfold kle in Hx. rewrite Hx. reflexivity.
Qed.
Lemma ksorted_keys {A B} (l : list (string * A)) (m : list (string * B)) : map fst l = map fst m -> ksorted l -> ksorted m.
Proof.
  intros E H. revert m E. induction H as [|x l Hx Hl IH]; intros [|y m] E; try discriminate; [constructor|].
  simpl in E. injection E as E1 E2. constructor; [|apply IH; exact E2].
  rewrite Forall_forall in Hx |- *. intros z Hz. unfold kle in *. rewrite <- E1.
  assert (In (fst z) (map fst l)) as Hin by (rewrite E2; apply in_map; exact Hz).
  apply in_map_iff in Hin as (w & Ew & Hw). rewrite <- Ew. apply Hx. exact Hw.
Qed.
Lemma combine_fst {A B} (ks : list A) (vs : list B) : length ks = length vs -> map fst (combine ks vs) = ks.
Proof. revert vs; induction ks as [|k ks IH]; intros [|v vs] H; simpl; try discriminate; [reflexivity|]. f_equal; apply IH; injection H as H; exact H. Qed.
Lemma combine_snd {A B} (ks : list A) (vs : list B) : length ks = length vs -> map snd (combine ks vs) = vs.
Proof. revert vs; induction ks as [|k ks IH]; intros [|v vs] H; simpl; try discriminate; [reflexivity|]. f_equal; apply IH; injection H as H; exact H. Qed.
Lemma combine_split {A B} (l : list (A * B)) : combine (map fst l) (map snd l) = l.
Proof. induction l as [|[a b] l IH]; simpl; [|rewrite IH]; reflexivity. Qed.
Lemma sort_combine {A B} (l : list (string * A)) (vs : list B) : length vs = length l ->
  sort_keys (combine (map fst (sort_keys l)) vs) = combine (map fst (sort_keys l)) vs.
Proof.
  intros H. apply sort_sorted_id. eapply ksorted_keys; [|apply (sort_sorted l)].
  rewrite combine_fst; [reflexivity|]. rewrite map_length, <- (Permutation_length (sort_perm l)). congruence.
Qed.

(* ---------------------------------------------------------------- uncan ∘ can *)
Lemma not_canned_bufs o : is_canned o = false -> bufs_of o = [].
Proof. destruct o; simpl; congruence. Qed.
Lemma get_set_bufs o b bs : get (set_bufs b o) bs = get o bs.
Proof. destruct o; reflexivity. Qed.
Definition strip (o : obj) : obj := if is_canned o then set_bufs [] o else o.
Lemma get_strip o bs : get (strip o) bs = get o bs.
Proof. unfold strip; destruct (is_canned o); [apply get_set_bufs|reflexivity]. Qed.
Lemma bufs_strip o : bufs_of (strip o) = [].
Proof. destruct o; reflexivity. Qed.
Lemma count_strip o : (if is_canned o then length (bufs_of o) else 0) = length (bufs_of o).
Proof. destruct (is_canned o) eqn:E; [reflexivity|]. rewrite (not_canned_bufs _ E); reflexivity. Qed.

Lemma get_args_ok reconstitute (cs os : list obj) rest :
  Forall2 (fun c o => uncan c = Ok o) cs os ->
  (reconstitute = false -> flat_map bufs_of cs = []) ->
  get_args get reconstitute (map strip cs) (map (fun c => length (bufs_of c)) cs) (flat_map bufs_of cs ++ rest) = Ok os.
Proof.
  induction 1 as [|c o cs os Hc _ IH]; intros Hr; [reflexivity|].
  cbn [map flat_map get_args].
  assert (Hr' : reconstitute = false -> flat_map bufs_of cs = []).
  { intros E; specialize (Hr E); simpl in Hr; apply app_eq_nil in Hr; tauto. }
  specialize (IH Hr'). unfold uncan in Hc.
  destruct (bufs_of c) as [|b bs] eqn:Eb; cbn [length].
  - rewrite bufs_strip, get_strip, Hc; cbn [bind app]. rewrite IH; reflexivity.
  - destruct reconstitute; [|specialize (Hr eq_refl); simpl in Hr; rewrite Eb in Hr; discriminate].
    rewrite get_strip.
    assert (E1 : firstn (S (length bs)) (((b :: bs) ++ flat_map bufs_of cs) ++ rest) = b :: bs).
    { rewrite <- app_assoc. change (S (length bs)) with (length (b :: bs)). rewrite firstn_app, firstn_all, Nat.sub_diag; simpl; rewrite app_nil_r; reflexivity. }
    assert (E2 : skipn (S (length bs)) (((b :: bs) ++ flat_map bufs_of cs) ++ rest) = flat_map bufs_of cs ++ rest).
    { rewrite <- app_assoc. change (S (length bs)) with (length (b :: bs)). rewrite skipn_app, skipn_all, Nat.sub_diag; reflexivity. }
    rewrite E1, E2, Hc; cbn [bind]. rewrite IH; reflexivity.
Qed.

Lemma kwbufs_in (l : list (string * obj)) k c rest : NoDup (map fst l) -> In (k, c) l ->
  kwbufs k (map (fun kv => (fst kv, length (bufs_of (snd kv)))) l) (flat_map (fun kv => bufs_of (snd kv)) l ++ rest) = Some (bufs_of c).
Proof.
  induction l as [|[k' c'] l IH]; simpl; intros Hn Hin; [destruct Hin|destruct Hin as [E|Hin]].
  - injection E as -> ->. rewrite String.eqb_refl. rewrite <- app_assoc, firstn_app, firstn_all, Nat.sub_diag; simpl; rewrite app_nil_r; reflexivity.
  - inversion Hn as [|? ? H1 H2]; subst. destruct (String.eqb_spec k k') as [->|].
    + exfalso; apply H1. change k' with (fst (k', c)). apply in_map; exact Hin.
    + rewrite <- app_assoc, skipn_app, skipn_all, Nat.sub_diag; simpl. apply IH; assumption.
Qed.
Lemma kwbufs_notin (kc : list (string * nat)) k bs : ~ In k (map fst kc) -> kwbufs k kc bs = None.
Proof.
  revert bs; induction kc as [|[k' n] kc IH]; simpl; intros bs H; [reflexivity|].
  destruct (String.eqb_spec k k') as [->|]; [exfalso; auto|]. apply IH; auto.
Qed.

Lemma sum_app l m : sum (l ++ m) = sum l + sum m.
Proof. induction l; simpl; lia. Qed.
Lemma flat_len {A} (f : A -> list (option buffer)) l : length (flat_map f l) = sum (map (fun x => length (f x)) l).
Proof. induction l; simpl; [reflexivity|]. rewrite app_length; lia. Qed.

Lemma NoDup_filter {A} (f : A * obj -> bool) l : NoDup (map fst l) -> NoDup (map fst (filter f l)).
Proof.
  induction l as [|x l IH]; simpl; intros H; [constructor|]. inversion H as [|? ? H1 H2]; subst.
  destruct (f x); simpl; [|auto]. constructor; [|auto]. intros Hin. apply H1.
  apply in_map_iff in Hin as (y & E & Hy). rewrite <- E. apply in_map. apply filter_In in Hy; tauto.
Qed.

Lemma consolidate_ok f args kws f' args' kws' :
  uncan f = Ok f' -> Forall2 (fun c o => uncan c = Ok o) args args' ->
  NoDup (map fst kws) -> Forall2 (fun c o => fst c = fst o /\ uncan (snd c) = Ok (snd o)) kws kws' ->
  uncan (consolidate f args kws) = Ok (Part f' args' kws').
Proof.
  intros Hf Ha Hn Hk. unfold uncan, consolidate.
  set (ck := filter (fun kv => is_canned (snd kv)) (sort_keys kws)).
  assert (Eac : map (fun a => if is_canned a then length (bufs_of a) else 0) args = map (fun c => length (bufs_of c)) args)
    by (apply map_ext; apply count_strip).
  rewrite Eac. clear Eac.
  set (bufs := flat_map bufs_of args ++ flat_map (fun kv => bufs_of (snd kv)) ck).
  cbn [bufs_of get].
  assert (Elen : length bufs = sum (map (fun c => length (bufs_of c)) args) + sum (map snd (map (fun kv => (fst kv, length (bufs_of (snd kv)))) ck))).
  { unfold bufs. rewrite app_length, !flat_len, map_map. reflexivity. }
  rewrite <- Elen, Nat.eqb_refl, andb_false_r.
  set (rc := negb (length bufs =? 0)).
  assert (Hrc : rc = false -> bufs = []).
  { unfold rc. intros E. apply negb_false_iff, Nat.eqb_eq in E. destruct bufs; [reflexivity|discriminate]. }
  change (map (fun a => if is_canned a then set_bufs [] a else a) args) with (map strip args).
  unfold bufs at 1. rewrite (get_args_ok rc args args').
  2: exact Ha.
  2: intros E; specialize (Hrc E); unfold bufs in Hrc; apply app_eq_nil in Hrc; tauto.
  cbn [bind].
  assert (Hck : NoDup (map fst ck)).
  { apply NoDup_filter. eapply Permutation_NoDup; [apply Permutation_map, sort_perm|exact Hn]. }
  assert (Hins : forall k c, In (k, c) kws -> is_canned c = true -> In (k, c) ck).
  { intros k c Hin Hc. apply filter_In. split; [|exact Hc]. eapply Permutation_in; [apply sort_perm|exact Hin]. }
  assert (Hnot : forall k c, In (k, c) kws -> is_canned c = false -> ~ In k (map fst ck)).
  { intros k c Hin Hc Hk'. apply in_map_iff in Hk' as ([k2 c2] & E & Hi). simpl in E; subst k2.
    apply filter_In in Hi as [Hi Hc2]. simpl in Hc2. eapply Permutation_in in Hi; [|symmetry; apply sort_perm].
    assert (c = c2); [|congruence].
    clear - Hn Hin Hi. induction kws as [|[a b] l IH]; [destruct Hin|]. simpl in Hn. inversion Hn as [|? ? H1 H2]; subst.
    destruct Hin as [E|Hin], Hi as [E'|Hi].
    - congruence.
    - injection E as -> ->. exfalso; apply H1. change k with (fst (k, c2)). apply in_map; exact Hi.
    - injection E' as -> ->. exfalso; apply H1. change k with (fst (k, c)). apply in_map; exact Hin.
    - auto. }
  rewrite (traverse_ok _ _ kws').
  - cbn [bind]. fold (uncan f). rewrite Hf. reflexivity.
  - assert (Esk : skipn (sum (map (fun c => length (bufs_of c)) args)) bufs = flat_map (fun kv => bufs_of (snd kv)) ck).
    { unfold bufs. rewrite <- flat_len, skipn_app, skipn_all, Nat.sub_diag. reflexivity. }
    rewrite Esk.
    assert (Hall : forall k c, In (k, c) kws -> forall o, uncan c = Ok o ->
      get (strip c) (if rc then match kwbufs k (map (fun kv => (fst kv, length (bufs_of (snd kv)))) ck) (flat_map (fun kv => bufs_of (snd kv)) ck) with
                                | Some b => b | None => bufs_of (strip c) end else bufs_of (strip c)) = Ok o).
    { intros k c Hin o Ho. rewrite get_strip, bufs_strip. unfold uncan in Ho.
      destruct (is_canned c) eqn:Ec.
      - destruct rc.
        + pose proof (kwbufs_in ck k c [] Hck (Hins _ _ Hin Ec)) as E. rewrite app_nil_r in E. rewrite E. exact Ho.
        + specialize (Hrc eq_refl). assert (E : bufs_of c = []); [|rewrite E in Ho; exact Ho].
          unfold bufs in Hrc. apply app_eq_nil in Hrc as [_ Hrc].
          specialize (Hins _ _ Hin Ec). clear - Hrc Hins. induction ck as [|x l IH]; [destruct Hins|].
          simpl in Hrc. apply app_eq_nil in Hrc as [H1 H2]. destruct Hins as [->|Hi]; [exact H1|auto].
      - rewrite kwbufs_notin.
        + rewrite (not_canned_bufs _ Ec) in Ho. destruct rc; exact Ho.
        + rewrite map_map. simpl. apply (Hnot _ _ Hin Ec). }
    clearbody rc. clearbody bufs. clearbody ck. clear - Hall Hk. revert Hall.
    induction Hk as [|[k c] [k' o] l l' [E Hc] _ IH]; intros Hall; simpl; [constructor|].
    simpl in E, Hc; subst k'. constructor.
    + cbn [fst snd]. pose proof (Hall k c (or_introl eq_refl) o Hc) as E. unfold strip in E. rewrite E. reflexivity.
    + apply IH. intros; eapply Hall; eauto. right; assumption.
Qed.

Lemma plain_get o : plain o -> forall bs, get o bs = Ok o.
Proof.
  induction o using obj_ind'; intros Hp bs'; inversion Hp; subst; try reflexivity.
  simpl. rewrite (traverse_ok _ _ l); [reflexivity|].
  match goal with H2 : Forall (fun kv => plain (snd kv)) l |- _ => rename H2 into Hq end.
  clear - H Hq. induction H as [|[k x] l Hx _ IH]; [constructor|]. inversion Hq; subst. constructor; [|auto].
  simpl in *. rewrite Hx; auto.
Qed.

Lemma F2map {A B} (R : B -> A -> Prop) (h : A -> B) l : Forall (fun x => R (h x) x) l -> Forall2 R (map h l) l.
Proof. induction 1; simpl; constructor; auto. Qed.

Lemma uncan_can o : plain o -> uncan (can o) = Ok o.
Proof.
  induction o using obj_ind'; intros Hp; inversion Hp; subst.
  - reflexivity.
  - reflexivity.
  - reflexivity.
  - apply (plain_get (Dict l) Hp).
  - unfold uncan. cbn [can get].
    assert (Hl : forall l, Forall (fun o => plain o -> uncan (can o) = Ok o) l -> Forall plain l -> traverse (fun x => get x (bufs_of x)) (map can l) = Ok l).
    { intros l Hi Hq. apply traverse_map_id. rewrite Forall_forall in *. intros x Hx. apply Hi; auto. }
    rewrite (Hl d), (Hl cl); auto. cbn [bind].
    rewrite (traverse_ok _ _ kd); [reflexivity|]. apply F2map.
    rewrite Forall_forall in *. intros [k x] Hx. cbn [fst snd].
    match goal with H : forall x, In x kd -> plain _ -> _ |- _ => specialize (H _ Hx) end.
    simpl in *. fold (uncan (can x)).
    match goal with H : plain x -> _ |- _ => rewrite H end; [reflexivity|].
    match goal with H : forall y, In y kd -> plain _ |- _ => apply (H _ Hx) end.
  - cbn [can]. apply consolidate_ok.
    + auto.
    + apply F2map. rewrite Forall_forall in *. intros x Hx. auto.
    + rewrite map_map. simpl. assumption.
    + apply F2map. rewrite Forall_forall in *. intros [k0 x] Hx. simpl. split; [reflexivity|].
      match goal with H : forall x, In x k -> plain _ -> _ |- _ => apply (H _ Hx) end.
      match goal with H : forall y, In y k -> plain _ |- _ => apply (H _ Hx) end.
Qed.

(* ---------------------------------------------------------------- only the contents of the buffers matter *)
Definition norm1 (b : option buffer) : option buffer := match b with Some (B _ x) => Some (B false x) | None => None end.
Definition norm := map norm1.
Lemma kwbufs_norm k kc bs : kwbufs k kc (norm bs) = option_map norm (kwbufs k kc bs).
Proof.
  revert bs; induction kc as [|[k' n] kc IH]; simpl; intros bs; [reflexivity|].
  destruct (String.eqb k k'); simpl; unfold norm; rewrite ?firstn_map, ?skipn_map; [reflexivity|]. apply IH.
Qed.
Lemma get_norm o : forall bs, get o (norm bs) = get o bs.
Proof.
  induction o using obj_ind'; intros bs'; try reflexivity.
  - destruct bs' as [|[[m b]|] r]; reflexivity.
  - cbn [get]. replace (length (norm bs')) with (length bs') by (unfold norm; rewrite map_length; reflexivity).
    set (rc := negb (length bs' =? 0)). destruct (rc && _); [reflexivity|].
    assert (Ea : forall ac bs', get_args get rc a ac (norm bs') = get_args get rc a ac bs').
    { clearbody rc. clear - H. induction H as [|x a Hx _ IH]; intros ac bs'; cbn [get_args]; [reflexivity|].
      destruct ac as [|[|n] ac]; rewrite ?IH; try reflexivity.
      unfold norm. rewrite firstn_map, skipn_map. change (map norm1) with norm. rewrite IH.
      destruct rc; [|reflexivity]. rewrite Hx. reflexivity. }
    rewrite Ea. clear Ea.
    assert (Ek : traverse (fun kv => bind (get (snd kv) (if rc then match kwbufs (fst kv) kc (skipn (sum ac) (norm bs')) with Some b => b | None => bufs_of (snd kv) end else bufs_of (snd kv))) (fun y => Ok (fst kv, y))) k
      = traverse (fun kv => bind (get (snd kv) (if rc then match kwbufs (fst kv) kc (skipn (sum ac) bs') with Some b => b | None => bufs_of (snd kv) end else bufs_of (snd kv))) (fun y => Ok (fst kv, y))) k).
    { apply traverse_ext. eapply Forall_impl; [|exact H0]. intros [k0 x] Hx. simpl in *.
      destruct rc; [|reflexivity]. unfold norm at 1. rewrite skipn_map. change (map norm1) with norm. rewrite kwbufs_norm.
      destruct (kwbufs k0 kc (skipn (sum ac) bs')) as [b|]; simpl; [rewrite Hx|]; reflexivity. }
    rewrite Ek. reflexivity.
Qed.

(* ---------------------------------------------------------------- extraction and restoration *)
Definition full (bs : list (option buffer)) : Prop := Forall (fun b => b <> None) bs.
Lemma extract_restore_list th bs bs' out extra : full bs -> extract_list th bs = (bs', out) ->
  exists bs'', restore_list bs' (map Raw out ++ extra) = Ok (bs'', extra) /\ norm bs'' = norm bs.
Proof.
  revert bs' out. induction bs as [|[[m b]|] bs IH]; intros bs' out Hf E; simpl in E.
  - injection E as <- <-. exists []. split; reflexivity.
  - inversion Hf; subst. destruct (extract_list th bs) as [r' o'] eqn:E'. destruct (IH _ _ H2 eq_refl) as (bs'' & H & Hn).
    destruct (Nat.ltb th (length b)); injection E as <- <-; simpl; rewrite H; simpl.
    + exists (Some (B true b) :: bs''). split; [reflexivity|]. simpl. rewrite Hn; reflexivity.
    + exists (Some (B false b) :: bs''). split; [reflexivity|]. simpl. rewrite Hn; reflexivity.
  - inversion Hf; congruence.
Qed.
Lemma bufs_can_full o : plain o -> full (bufs_of (can o)).
Proof.
  induction o using obj_ind'; intros Hp; inversion Hp; subst; simpl; try constructor; try discriminate; try constructor.
  apply Forall_app. split; apply Forall_flat_map.
  - rewrite Forall_map. rewrite Forall_forall in H. rewrite Forall_forall. intros x Hx. apply H; auto. rewrite Forall_forall in *. auto.
  - rewrite Forall_forall. intros [k0 x] Hx. apply filter_In in Hx as [Hx _]. eapply Permutation_in in Hx; [|symmetry; apply sort_perm].
    apply in_map_iff in Hx as ([k1 y] & E & Hy). simpl in E. injection E as -> <-. simpl.
    rewrite Forall_forall in H0. refine (H0 _ Hy _). rewrite Forall_forall in *. match goal with H : forall y, In y k -> plain _ |- _ => apply (H _ Hy) end.
Qed.
Lemma uncan_set_bufs o bs : is_canned o = true -> norm bs = norm (bufs_of o) -> uncan (set_bufs bs o) = uncan o.
Proof.
  unfold uncan. intros Hc E. rewrite get_set_bufs. destruct o; try discriminate; cbn [bufs_of set_bufs] in *.
  - rewrite <- (get_norm _ bs), E, get_norm. reflexivity.
  - reflexivity.
  - rewrite <- (get_norm _ bs), E, get_norm. reflexivity.
Qed.
Lemma set_bufs_twice a b o : set_bufs a (set_bufs b o) = set_bufs a o.
Proof. destruct o; reflexivity. Qed.
Lemma is_canned_set b o : is_canned (set_bufs b o) = is_canned o.
Proof. destruct o; reflexivity. Qed.

(** What comes back after extraction, restoration and uncanning. *)
Definition comes_back (th : nat) (c o : obj) : Prop :=
  forall c' out extra, extract th c = (c', out) ->
  exists c'', restore c' (map Raw out ++ extra) = Ok (c'', extra) /\ uncan c'' = Ok o.
Lemma full_norm_bufs o : is_canned o = true -> forall bs bs', norm bs = norm (bufs_of o) -> bufs_of (set_bufs bs' o) = bs' \/ (bufs_of o = [] /\ bs = []).
Proof. destruct o; simpl; try discriminate; auto. intros _ [|] bs' E; [auto|discriminate]. Qed.
Lemma extract_comes_back th c o : full (bufs_of c) -> uncan c = Ok o -> comes_back th c o.
Proof.
  intros Hf Hu c' out extra E. unfold extract, restore in *.
  destruct (is_canned c) eqn:Ec.
  - destruct (extract_list th (bufs_of c)) as [bs o'] eqn:E'. injection E as <- <-.
    rewrite is_canned_set, Ec.
    destruct (extract_restore_list _ _ _ _ extra Hf E') as (bs'' & H & Hn).
    assert (D : bufs_of (set_bufs bs c) = bs \/ (bufs_of c = [])) by (destruct c; simpl in *; auto).
    destruct D as [D|D].
    + rewrite D, H. simpl. exists (set_bufs bs'' (set_bufs bs c)). split; [reflexivity|].
      rewrite set_bufs_twice, uncan_set_bufs; auto.
    + rewrite D in E'. simpl in E'. injection E' as <- <-. simpl in H. injection H as <-.
      assert (B0 : bufs_of (set_bufs [] c) = []) by (destruct c; reflexivity). rewrite B0. simpl.
      exists (set_bufs [] (set_bufs [] c)). split; [reflexivity|]. rewrite set_bufs_twice, uncan_set_bufs; auto.
  - injection E as <- <-. rewrite Ec. simpl. exists c; auto.
Qed.
Lemma can_comes_back th o : plain o -> comes_back th (can o) o.
Proof. intros H. apply extract_comes_back; [apply bufs_can_full|apply uncan_can]; exact H. Qed.

Lemma each_comes_back th cs os cs' out extra : Forall2 (comes_back th) cs os -> extract_each th cs = (cs', out) ->
  exists cs'', restore_each cs' (map Raw out ++ extra) = Ok (cs'', extra) /\ traverse uncan cs'' = Ok os.
Proof.
  intros H. revert cs' out. induction H as [|c o cs os Hc _ IH]; intros cs' out E; simpl in E.
  - injection E as <- <-. exists []. split; reflexivity.
  - destruct (extract th c) as [c' o1] eqn:E1. destruct (extract_each th cs) as [r' o2] eqn:E2. injection E as <- <-.
    destruct (IH _ _ eq_refl) as (r'' & Hr & Hu).
    destruct (Hc _ _ (map Raw o2 ++ extra) E1) as (c'' & Hc' & Hu').
    exists (c'' :: r''). split.
    + simpl. rewrite map_app, <- app_assoc, Hc'. simpl. rewrite Hr. reflexivity.
    + simpl. rewrite Hu'. simpl. rewrite Hu. reflexivity.
Qed.
Lemma extract_each_length th cs cs' out : extract_each th cs = (cs', out) -> length cs' = length cs.
Proof.
  revert cs' out; induction cs as [|c cs IH]; simpl; intros cs' out E; [injection E as <- <-; reflexivity|].
  destruct (extract th c), (extract_each th cs). injection E as <- <-. simpl. f_equal. eapply IH; reflexivity.
Qed.

(* ---------------------------------------------------------------- sets *)
Lemma extract_each_eq th cs : extract_each th cs = (map (fun c => fst (extract th c)) cs, flat_map (fun c => snd (extract th c)) cs).
Proof. induction cs as [|c cs IH]; simpl; [reflexivity|]. rewrite IH. destruct (extract th c); reflexivity. Qed.
Lemma Permutation_short {A} (l m : list A) : length l <= 1 -> Permutation l m -> l = m.
Proof.
  intros H P. pose proof (Permutation_length P). destruct l as [|a [|]], m as [|b [|]]; simpl in *; try lia; [reflexivity|].
  apply Permutation_length_1 in P. congruence.
Qed.
Definition plain_back th := fun o => plain o -> comes_back th (can o) o.
Lemma set_few th l cs p out extra : Forall plain l -> Permutation (map can l) cs -> extract_each th cs = (map (fun c => fst (extract th c)) cs, out) ->
  length out <= 1 -> Permutation (map (fun c => fst (extract th c)) cs) p ->
  exists cs'' l', restore_each p (map Raw out ++ extra) = Ok (cs'', extra) /\ traverse uncan cs'' = Ok l' /\ Permutation l l'.
Proof.
  intros Hp P1 E Hs P2. rewrite extract_each_eq in E. injection E as E.
  symmetry in P2. apply Permutation_map_inv in P2 as (cs2 & -> & P2).
  assert (P3 : Permutation cs2 (map can l)) by (symmetry; etransitivity; eassumption).
  apply Permutation_map_inv in P3 as (l2 & -> & P3).
  assert (Eo : out = flat_map (fun c => snd (extract th c)) (map can l2)).
  { apply Permutation_short; [exact Hs|]. rewrite <- E. apply Permutation_flat_map. exact P2. }
  destruct (each_comes_back th (map can l2) l2 (map (fun c => fst (extract th c)) (map can l2)) out extra) as (cs'' & H1 & H2).
  - apply F2map. assert (Forall plain l2) by (eapply Permutation_Forall; eassumption).
    eapply Forall_impl; [|eassumption]. intros o Ho. apply can_comes_back; exact Ho.
  - rewrite extract_each_eq. rewrite Eo. reflexivity.
  - exists cs'', l2. auto.
Qed.

Definition small th (l : list (list nat)) := filter (fun b => negb (Nat.ltb th (length b))) l.
Definition large th (l : list (list nat)) := filter (fun b => Nat.ltb th (length b)) l.
Lemma small_large th l : Permutation l (small th l ++ large th l).
Proof.
  induction l as [|b l IH]; simpl; [reflexivity|]. destruct (Nat.ltb th (length b)); simpl.
  - apply Permutation_cons_app. exact IH.
  - constructor; exact IH.
Qed.
Lemma extract_data th k b : exists m, extract th (can (Data k b)) =
  if Nat.ltb th (length b) then (CData k [None], [b]) else (CData k [Some (B m b)], []).
Proof. exists false. unfold extract; simpl. destruct (Nat.ltb th (length b)); reflexivity. Qed.
Lemma data_restore th k bs outs extra : length outs = length (large th bs) ->
  exists cs'' l', restore_each (map (fun b => fst (extract th (can (Data k b)))) bs) (map Raw outs ++ extra) = Ok (cs'', extra) /\
    traverse uncan cs'' = Ok (map (Data k) l') /\ Permutation l' (small th bs ++ outs).
Proof.
  revert outs. induction bs as [|b bs IH]; intros outs Hl; cbn [map].
  - destruct outs; [|discriminate]. exists [], []. repeat split; reflexivity.
  - destruct (extract_data th k b) as (m & E). simpl in Hl. unfold small. cbn [filter]. fold (small th bs).
    destruct (Nat.ltb th (length b)) eqn:Eb; cbn [negb].
    + destruct outs as [|o outs]; [discriminate|]. injection Hl as Hl. destruct (IH _ Hl) as (cs'' & l' & H1 & H2 & H3).
      rewrite E. cbn [fst]. exists (CData k [Some (B true o)] :: cs''), (o :: l'). repeat split.
      * cbn [restore_each restore is_canned bufs_of restore_list map app bind set_bufs]. rewrite H1. reflexivity.
      * cbn [traverse]. rewrite H2. reflexivity.
      * rewrite H3. apply Permutation_middle.
    + destruct (IH _ Hl) as (cs'' & l' & H1 & H2 & H3). rewrite E. cbn [fst].
      exists (CData k [Some (B m b)] :: cs''), (b :: l'). repeat split.
      * cbn [restore_each restore is_canned bufs_of restore_list map app bind set_bufs]. rewrite H1. reflexivity.
      * cbn [traverse]. rewrite H2. reflexivity.
      * simpl. constructor. exact H3.
Qed.
Lemma large_out th k bs : flat_map (fun c => snd (extract th c)) (map can (map (Data k) bs)) = large th bs.
Proof.
  induction bs as [|b bs IH]; [reflexivity|]. cbn [map flat_map]. destruct (extract_data th k b) as (m & E). rewrite E.
  cbn [large filter]. fold (large th bs). destruct (Nat.ltb th (length b)); cbn [snd app]; rewrite IH; reflexivity.
Qed.
Lemma set_data th k l cs p out extra : Forall (fun x => exists b, x = Data k b) l -> Permutation (map can l) cs ->
  extract_each th cs = (map (fun c => fst (extract th c)) cs, out) -> Permutation (map (fun c => fst (extract th c)) cs) p ->
  exists cs'' l', restore_each p (map Raw out ++ extra) = Ok (cs'', extra) /\ traverse uncan cs'' = Ok l' /\ Permutation l l'.
Proof.
  intros Hd P1 E P2. rewrite extract_each_eq in E. injection E as E.
  assert (Hb : exists bs, l = map (Data k) bs).
  { clear - Hd. induction Hd as [|x l [b ->] _ [bs ->]]; [exists []|exists (b :: bs)]; reflexivity. }
  destruct Hb as (bs & ->).
  symmetry in P2. apply Permutation_map_inv in P2 as (cs2 & -> & P2).
  assert (P3 : Permutation cs2 (map can (map (Data k) bs))) by (symmetry; etransitivity; eassumption).
  rewrite map_map in P3. apply Permutation_map_inv in P3 as (bs2 & -> & P3).
  assert (Po : Permutation (large th bs2) out).
  { rewrite <- (large_out th k bs2), map_map, <- E. apply Permutation_flat_map. symmetry. exact P2. }
  rewrite map_map.
  destruct (data_restore th k bs2 out extra) as (cs'' & l' & H1 & H2 & H3).
  { symmetry. apply Permutation_length. exact Po. }
  exists cs'', (map (Data k) l'). repeat split; [exact H1|exact H2|]. apply Permutation_map.
  rewrite H3, P3, (small_large th bs2) at 1. apply Permutation_app_head. exact Po.
Qed.

(* ---------------------------------------------------------------- serialize / deserialize *)
Lemma restore_plain o raws : plain o -> restore o raws = Ok (o, raws).
Proof. destruct 1; reflexivity. Qed.
Lemma restore_each_plain l raws : Forall plain l -> restore_each l raws = Ok (l, raws).
Proof. induction 1 as [|x l Hx _ IH]; simpl; [reflexivity|]. rewrite restore_plain; auto. simpl. rewrite IH. reflexivity. Qed.
Lemma uncan_plain o : plain o -> uncan o = Ok o.
Proof. intros H. apply plain_get. exact H. Qed.
Lemma traverse_uncan_plain l : Forall plain l -> traverse uncan l = Ok l.
Proof. intros H. rewrite <- (map_id l) at 1. apply traverse_map_id. eapply Forall_impl; [|exact H]. intros; apply uncan_plain; assumption. Qed.

Lemma plain_seq k l : plain (Seq k l) -> Forall plain l.
Proof. inversion 1; assumption. Qed.
Lemma plain_dict l : plain (Dict l) -> Forall (fun kv => plain (snd kv)) l.
Proof. inversion 1; assumption. Qed.

Section RoundTrip.
Context (so uo : list obj -> list obj) (Hso : forall l, Permutation l (so l)) (Huo : forall l, Permutation l (uo l)).

Lemma same_refl o : same o o.
Proof. destruct o; simpl; try reflexivity; [destruct k; try reflexivity|]; eauto. Qed.

Lemma deserialize_unsplit o extra : plain o -> exists o', deserialize_object uo (Pickled o :: extra) = Ok (o', extra) /\ same o o'.
Proof.
  intros Hp. assert (Hd : bind (restore o extra) (fun '(c, bufs) => bind (uncan c) (fun o' => Ok (o', bufs))) = Ok (o, extra)).
  { rewrite restore_plain by exact Hp. simpl. rewrite uncan_plain by exact Hp. reflexivity. }
  destruct o; cbn [deserialize_object]; try (eexists; split; [exact Hd|apply same_refl]).
  - pose proof (plain_seq _ _ Hp) as Hq0. destruct (length l <? MAX_ITEMS).
    + assert (Hq : Forall plain (unpickled_elements uo k l)).
      { destruct k; simpl; auto. eapply Permutation_Forall; [apply Huo|assumption]. }
      rewrite restore_each_plain by exact Hq. simpl. rewrite traverse_uncan_plain by exact Hq. simpl.
      eexists; split; [reflexivity|]. destruct k; simpl; eauto.
    + eexists; split; [exact Hd|apply same_refl].
  - pose proof (plain_dict _ Hp) as Hq0. destruct (length l <? MAX_ITEMS).
    + assert (Hq : Forall plain (map snd (sort_keys l))).
      { rewrite Forall_map. eapply Permutation_Forall; [apply sort_perm|]. assumption. }
      rewrite restore_each_plain by exact Hq. simpl. rewrite traverse_uncan_plain by exact Hq. simpl.
      eexists; split; [reflexivity|]. rewrite combine_split. simpl. eexists; split; [reflexivity|apply sort_perm].
    + eexists; split; [exact Hd|apply same_refl].
Qed.

Lemma dumps_inv o (p : frame) (fs : list frame) out : bind (dumps o) (fun p => Ok (p :: map Raw out)) = Ok fs -> fs = Pickled o :: map Raw out.
Proof. unfold dumps. destruct (picklable o); simpl; congruence. Qed.

Theorem roundtrip o bt it fs extra : plain o -> it <= MAX_ITEMS -> serialize_object so o bt it = Ok fs -> unmixed o fs ->
  exists o', deserialize_object uo (fs ++ extra) = Ok (o', extra) /\ same o o'.
Proof.
  intros Hp Hit Hs Hu.
  assert (Hone : forall fs', (let '(cobj, buffers) := extract bt (can o) in bind (dumps cobj) (fun p => Ok (p :: map Raw buffers))) = Ok fs' ->
     match can o with Seq _ _ | Dict _ => False | _ => True end ->
     exists o', deserialize_object uo (fs' ++ extra) = Ok (o', extra) /\ same o o').
  { intros fs' E Hc. destruct (extract bt (can o)) as [c out] eqn:Ex. apply dumps_inv in E; [|exact (Pickled o)]. subst fs'.
    destruct (can_comes_back bt o Hp _ _ extra Ex) as (c'' & Hr & Hunc).
    exists o. split; [|apply same_refl].
    assert (Hk : match c with Seq _ _ | Dict _ => False | _ => True end).
    { clear - Ex Hc. unfold extract in Ex. destruct (can o); simpl in *; try (injection Ex as <- <-; exact Hc);
      destruct (extract_list bt _); injection Ex as <- <-; exact I. }
    simpl. destruct c; try contradiction; rewrite Hr; simpl; rewrite Hunc; reflexivity. }
  unfold serialize_object in Hs.
  destruct o; try (apply Hone; [exact Hs|exact I]).
  - pose proof (plain_seq _ _ Hp) as Hq0. destruct (length l <? it) eqn:El.
    + destruct (extract_each bt (elements so k (map can l))) as [l' out] eqn:Ex. apply dumps_inv in Hs; [|exact (Pickled (Seq k l))]. subst fs.
      pose proof (extract_each_length _ _ _ _ Ex) as Hlen.
      assert (Hll : length l' = length l).
      { rewrite Hlen. destruct k; simpl; rewrite ?map_length; try reflexivity. rewrite <- (Permutation_length (Hso _)), map_length. reflexivity. }
      cbn [app deserialize_object]. rewrite Hll. apply Nat.ltb_lt in El.
      replace (length l <? MAX_ITEMS) with true by (symmetry; apply Nat.ltb_lt; lia).
      assert (Hback : Forall2 (comes_back bt) (map can l) l).
      { apply F2map. eapply Forall_impl; [|eassumption]. intros; apply can_comes_back; assumption. }
      destruct k; simpl in Ex |- *.
      * destruct (each_comes_back _ _ _ _ _ extra Hback Ex) as (cs'' & H1' & H2'). rewrite H1'. simpl. rewrite H2'. simpl. eexists; split; reflexivity.
      * destruct (each_comes_back _ _ _ _ _ extra Hback Ex) as (cs'' & H1' & H2'). rewrite H1'. simpl. rewrite H2'. simpl. eexists; split; reflexivity.
      * assert (exists cs'' l2, restore_each (uo l') (map Raw out ++ extra) = Ok (cs'', extra) /\ traverse uncan cs'' = Ok l2 /\ Permutation l l2) as (cs'' & l2 & H1' & H2' & H3').
        { pose proof Ex as Ex2. rewrite extract_each_eq in Ex2. injection Ex2 as <- _.
          destruct (Hu l eq_refl) as [Hs|(k & Hk)].
          - eapply set_few; [eassumption|apply Hso|exact Ex| |apply Huo]. simpl in Hs. rewrite map_length in Hs. lia.
          - eapply set_data; [eassumption|apply Hso|exact Ex|apply Huo]. }
        rewrite H1'. simpl. rewrite H2'. simpl. eexists; split; [reflexivity|]. exists l2; auto.
    + cbn in Hs. apply (dumps_inv _ (Pickled (Seq k l)) _ []) in Hs. subst fs. apply (deserialize_unsplit (Seq k l)). exact Hp.
  - pose proof (plain_dict _ Hp) as Hq0. destruct (length l <? it) eqn:El.
    + destruct (extract_each bt (map (fun kv => can (snd kv)) (sort_keys l))) as [l' out] eqn:Ex. apply dumps_inv in Hs; [|exact (Pickled (Dict l))]. subst fs.
      pose proof (extract_each_length _ _ _ _ Ex) as Hlen. rewrite map_length in Hlen.
      assert (Hsl : length (sort_keys l) = length l) by (symmetry; apply Permutation_length, sort_perm).
      cbn [app deserialize_object]. rewrite combine_length, map_length, Hlen, Nat.min_id, Hsl.
      apply Nat.ltb_lt in El.
      replace (length l <? MAX_ITEMS) with true by (symmetry; apply Nat.ltb_lt; lia).
      rewrite sort_combine by congruence.
      rewrite combine_fst, combine_snd by (rewrite map_length; congruence).
      assert (Hback : Forall2 (comes_back bt) (map (fun kv => can (snd kv)) (sort_keys l)) (map snd (sort_keys l))).
      { rewrite <- (map_map snd can). apply F2map. rewrite Forall_map. eapply Permutation_Forall; [apply sort_perm|].
        eapply Forall_impl; [|eassumption]. simpl. intros; apply can_comes_back; assumption. }
      destruct (each_comes_back _ _ _ _ _ extra Hback Ex) as (cs'' & H1' & H2'). rewrite H1'. simpl. rewrite H2'. simpl.
      rewrite combine_split. eexists; split; [reflexivity|]. simpl. eexists; split; [reflexivity|apply sort_perm].
    + cbn in Hs. apply (dumps_inv _ (Pickled (Dict l)) _ []) in Hs. subst fs. apply (deserialize_unsplit (Dict l)). exact Hp.
Qed.
End RoundTrip.

(* ---------------------------------------------------------------- what is sent raw *)
Lemma extract_list_large th bs bs' out : extract_list th bs = (bs', out) ->
  Forall (fun b => th < length b) out /\ Forall (fun b => forall m x, b = Some (B m x) -> length x <= th /\ m = false) bs'.
Proof.
  revert bs' out; induction bs as [|[[m b]|] bs IH]; simpl; intros bs' out E.
  - injection E as <- <-; auto.
  - destruct (extract_list th bs) as [r o]. destruct (IH _ _ eq_refl) as [H1 H2].
    destruct (Nat.ltb_spec th (length b)); injection E as <- <-; split; try constructor; auto; intros ? ? E; try discriminate.
    injection E as <- <-. auto.
  - destruct (extract_list th bs) as [r o]. destruct (IH _ _ eq_refl) as [H1 H2]. injection E as <- <-. split; auto.
    constructor; auto. discriminate.
Qed.
Lemma extract_large th o o' out : extract th o = (o', out) -> Forall (fun b => th < length b) out.
Proof.
  unfold extract. destruct (is_canned o); [|intros E; injection E as <- <-; constructor].
  destruct (extract_list th (bufs_of o)) eqn:E'. intros E; injection E as <- <-. eapply extract_list_large; eassumption.
Qed.
Lemma extract_each_large th cs cs' out : extract_each th cs = (cs', out) -> Forall (fun b => th < length b) out.
Proof.
  revert cs' out; induction cs as [|c cs IH]; simpl; intros cs' out E; [injection E as <- <-; constructor|].
  destruct (extract th c) eqn:E1, (extract_each th cs) eqn:E2. injection E as <- <-. apply Forall_app. split.
  - eapply extract_large; eassumption.
  - eapply IH; reflexivity.
Qed.
Lemma serialize_raw so o bt it fs : serialize_object so o bt it = Ok fs ->
  exists c out, fs = Pickled c :: map Raw out /\ Forall (fun b => bt < length b) out.
Proof.
  intros H.
  assert (Hone : forall fs', (let '(cobj, buffers) := extract bt (can o) in bind (dumps cobj) (fun p => Ok (p :: map Raw buffers))) = Ok fs' ->
     exists c out, fs' = Pickled c :: map Raw out /\ Forall (fun b => bt < length b) out).
  { intros fs' E. destruct (extract bt (can o)) as [c out] eqn:Ex. apply dumps_inv in E; [|exact (Pickled o)].
    exists c, out. split; [exact E|]. eapply extract_large; eassumption. }
  unfold serialize_object in H. destruct o; try (apply Hone; exact H).
  - destruct (length l <? it); [|apply Hone; exact H].
    destruct (extract_each bt (elements so k (map can l))) as [l' out] eqn:Ex. apply dumps_inv in H; [|exact (Raw [])].
    exists (Seq k l'), out. split; [exact H|]. eapply extract_each_large; eassumption.
  - destruct (length l <? it); [|apply Hone; exact H].
    destruct (extract_each bt _) as [l' out] eqn:Ex. apply dumps_inv in H; [|exact (Raw [])].
    eexists _, out. split; [exact H|]. eapply extract_each_large; eassumption.
Qed.

(* ---------------------------------------------------------------- what can be sent *)
Lemma extract_picklable th o : (match o with Atom _ ok => ok = true | Data _ _ => True | _ => False end) ->
  picklable (fst (extract th (can o))) = true.
Proof.
  destruct o; try contradiction.
  - intros ->; reflexivity.
  - intros _. destruct (extract_data th k b) as (m & E). unfold extract. simpl.
    destruct (Nat.ltb th (length b)); reflexivity.
Qed.
Lemma serialize_seq_ok so k l bt it : (forall l, Permutation l (so l)) -> length l < it ->
  Forall (fun o => match o with Atom _ ok => ok = true | Data _ _ => True | _ => False end) l ->
  exists fs, serialize_object so (Seq k l) bt it = Ok fs.
Proof.
  intros Hso Hl Hf. unfold serialize_object. replace (length l <? it) with true by (symmetry; apply Nat.ltb_lt; lia).
  rewrite extract_each_eq. unfold dumps.
  assert (E : picklable (Seq k (map (fun c => fst (extract bt c)) (elements so k (map can l)))) = true).
  { cbn [picklable]. apply forallb_forall. intros x Hx. apply in_map_iff in Hx as (c & <- & Hc).
    assert (Hc' : In c (map can l)).
    { destruct k; try exact Hc. eapply Permutation_in; [symmetry; apply Hso|exact Hc]. }
    apply in_map_iff in Hc' as (o & <- & Ho). apply extract_picklable. rewrite Forall_forall in Hf. apply Hf. exact Ho. }
  rewrite E. eexists; reflexivity.
Qed.

(* ---------------------------------------------------------------- apply messages *)
Section Apply.
Context (so uo : list obj -> list obj) (Hso : forall l, Permutation l (so l)) (Huo : forall l, Permutation l (uo l)).
Definition arg_ok (bt it : nat) (a : arg) : Prop :=
  plain (arg_obj a) /\ forall fs, serialize_arg so bt it a = Ok fs -> unmixed (arg_obj a) fs.

Lemma arg_roundtrip bt it a fs extra : it <= MAX_ITEMS -> arg_ok bt it a -> serialize_arg so bt it a = Ok fs ->
  exists o', deserialize_object uo (fs ++ extra) = Ok (o', extra) /\ same (arg_obj a) o'.
Proof.
  intros Hit [Hp Hu] Hs. pose proof (Hu _ Hs) as Hm. destruct a; simpl in *; (eapply roundtrip; [exact Hso|exact Huo|exact Hp| |exact Hs|exact Hm]); auto.
Qed.
Lemma args_roundtrip {A} (p : A -> arg) bt it (l : list A) fss extra : it <= MAX_ITEMS -> Forall (fun x => arg_ok bt it (p x)) l ->
  traverse (fun x => serialize_arg so bt it (p x)) l = Ok fss ->
  exists os, deserialize_n uo (length l) (concat fss ++ extra) = Ok (os, extra) /\ Forall2 (fun x o => same (arg_obj (p x)) o) l os.
Proof.
  intros Hit Hok. revert fss. induction Hok as [|x l Hx _ IH]; intros fss E.
  - injection E as <-. exists []. split; [reflexivity|constructor].
  - cbn [traverse] in E. destruct (serialize_arg so bt it (p x)) as [f|] eqn:E1; cbn [bind] in E; [|discriminate].
    destruct (traverse _ l) as [fs'|] eqn:E2; cbn [bind] in E; [|discriminate]. injection E as <-.
    destruct (IH _ eq_refl) as (os & H1 & H2).
    destruct (arg_roundtrip bt it (p x) f (concat fs' ++ extra) Hit Hx E1) as (o' & H3 & H4).
    exists (o' :: os). split; [|constructor; assumption].
    cbn [length deserialize_n concat]. rewrite <- app_assoc, H3. cbn [bind]. rewrite H1. reflexivity.
Qed.

Lemma frames_app l m : frames_of (l ++ m) = frames_of l ++ frames_of m.
Proof. induction l as [|[f|i] l IH]; simpl; congruence. Qed.
Lemma frames_Fr l : frames_of (map Fr l) = l.
Proof. induction l; simpl; congruence. Qed.

Theorem apply_roundtrip f args kwargs bt it msg :
  it <= MAX_ITEMS -> arg_ok MAX_BYTES MAX_ITEMS f -> Forall (arg_ok bt it) args -> Forall (fun kv => arg_ok bt it (snd kv)) kwargs ->
  pack_apply_message so f args kwargs bt it = Ok msg ->
  exists f' args' kwargs', unpack_apply_message uo msg = Ok (f', args', kwargs') /\
    same (arg_obj f) f' /\ Forall2 (fun a o => same (arg_obj a) o) args args' /\
    exists s, Permutation kwargs s /\ Forall2 (fun a o => fst a = fst o /\ same (arg_obj (snd a)) (snd o)) s kwargs'.
Proof.
  intros Hit Hf Ha Hk E. unfold pack_apply_message in E.
  destruct (traverse (serialize_arg so bt it) args) as [abufs|] eqn:Ea; cbn [bind] in E; [|discriminate].
  destruct (traverse _ (sort_keys kwargs)) as [kbufs|] eqn:Ek; cbn [bind] in E; [|discriminate].
  destruct (serialize_arg so MAX_BYTES MAX_ITEMS f) as [m|] eqn:Em; cbn [bind] in E; [|discriminate].
  injection E as E. subst msg.
  set (i := Info _ _ _). unfold unpack_apply_message. change (Nfo i :: map Fr (concat abufs) ++ map Fr (concat kbufs)) with ([Nfo i] ++ map Fr (concat abufs) ++ map Fr (concat kbufs)).
  assert (Hm : exists c r, m = c :: r).
  { destruct f; simpl in Em; apply serialize_raw in Em as (c & out & -> & _); eauto. }
  destruct Hm as (c & r & Hm).
  replace (length _ <? 2) with false.
  2: { symmetry. apply Nat.ltb_ge. rewrite !app_length, Hm. simpl. lia. }
  assert (Efr : frames_of (map Fr m ++ [Nfo i] ++ map Fr (concat abufs) ++ map Fr (concat kbufs)) = m ++ [Raw []] ++ concat abufs ++ concat kbufs).
  { rewrite !frames_app, !frames_Fr. reflexivity. }
  rewrite Efr.
  destruct (arg_roundtrip _ _ f m ([Raw []] ++ concat abufs ++ concat kbufs) (le_n _) Hf Em) as (f' & H1 & H2).
  rewrite H1. cbn [bind].
  assert (Esk : skipn (length (map Fr m ++ [Nfo i] ++ map Fr (concat abufs) ++ map Fr (concat kbufs)) - length ([Raw []] ++ concat abufs ++ concat kbufs))
     (map Fr m ++ [Nfo i] ++ map Fr (concat abufs) ++ map Fr (concat kbufs)) = [Nfo i] ++ map Fr (concat abufs) ++ map Fr (concat kbufs)).
  { rewrite !app_length, !map_length. cbn [length].
    replace (_ - _) with (length (map Fr m)) by (rewrite map_length; lia).
    rewrite skipn_app, skipn_all, Nat.sub_diag. reflexivity. }
  rewrite Esk. cbn [app]. rewrite frames_app, !frames_Fr.
  assert (Efn : firstn (narg_bufs i) (concat abufs ++ concat kbufs) = concat abufs).
  { unfold i; cbn [narg_bufs]. rewrite firstn_app, firstn_all, Nat.sub_diag. simpl. apply app_nil_r. }
  assert (Esn : skipn (narg_bufs i) (concat abufs ++ concat kbufs) = concat kbufs).
  { unfold i; cbn [narg_bufs]. rewrite skipn_app, skipn_all, Nat.sub_diag. reflexivity. }
  rewrite Efn, Esn.
  destruct (args_roundtrip (fun x => x) bt it args abufs [] Hit Ha Ea) as (args' & H3 & H4). rewrite app_nil_r in H3.
  change (nargs i) with (length args). rewrite H3. cbn [bind length Nat.eqb negb].
  assert (Hk' : Forall (fun kv => arg_ok bt it (snd kv)) (sort_keys kwargs)) by (eapply Permutation_Forall; [apply sort_perm|exact Hk]).
  destruct (args_roundtrip snd bt it (sort_keys kwargs) kbufs [] Hit Hk' Ek) as (kw' & H5 & H6). rewrite app_nil_r in H5.
  change (kw_keys i) with (map fst (sort_keys kwargs)). rewrite map_length, H5. cbn [bind length Nat.eqb negb].
  exists f', args', (combine (map fst (sort_keys kwargs)) kw'). repeat split; auto.
  exists (sort_keys kwargs). split; [apply sort_perm|].
  clear - H6. induction H6 as [|x o l l' Hx _ IH]; simpl; constructor; auto.
Qed.
End Apply.
