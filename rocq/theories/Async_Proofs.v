(** Proofs about futures, AsyncResult and AsyncMapResult. *)
From Coq Require Import List Arith String Bool Permutation Lia.
From Verif Require Import Async_Spec Async_Model.
From Verif Require Prelude Map_Spec Map_Model Map_Proofs.
Import ListNotations.

(* ------------------------------------------------------------------ multi_future *)
Lemma mem_iff x l : mem x l = true <-> In x l.
Proof. unfold mem. rewrite existsb_exists. split; [intros (y & H & E); apply Nat.eqb_eq in E; subst; auto|intros H; exists x; split; [auto|apply Nat.eqb_refl]]. Qed.
Lemma without_iff x y l : In y (without x l) <-> In y l /\ y <> x.
Proof.
  unfold without. rewrite filter_In, negb_true_iff, Nat.eqb_neq. split; intros [H1 H2]; split; auto.
Qed.

Section MF.
Context {V : Type} (result_of : nat -> V) (children : list nat).
Record inv (es : list event) (s : mf (V := V)) : Prop := {
  i_un : forall c, In c (unfinished s) <-> In c children /\ ~ (In c (listening s) /\ In c (done s));
  i_cover : forall c, In c children -> In c (listening s) \/ In c (todo s);
  i_todo : todo s = skipn (looks es) children;
  i_list : forall c, In c (listening s) -> In c children;
  i_done : forall c, In c (done s) <-> arrived es c;
  i_res : match resolved s with Some l => l = map result_of children /\ unfinished s = [] | None => unfinished s <> [] end }.

Lemma callback_ok (s : mf (V := V)) c :
  (forall x, In x (unfinished s) <-> In x children /\ (x = c \/ ~ (In x (listening s) /\ In x (done s)))) ->
  In c children -> In c (listening s) -> In c (done s) ->
  match resolved s with Some l => l = map result_of children /\ unfinished s = [] | None => unfinished s <> [] end ->
  let s' := callback result_of children s c in
  (forall x, In x (unfinished s') <-> In x children /\ ~ (In x (listening s') /\ In x (done s'))) /\
  match resolved s' with Some l => l = map result_of children /\ unfinished s' = [] | None => unfinished s' <> [] end.
Proof.
  intros Hun Hc Hl Hd Hr. cbn. split.
  - intros x. rewrite without_iff, Hun. split.
    + intros ((H1 & [H2|H2]) & H3); [contradiction|]. auto.
    + intros (H1 & H2). split; [auto|]. intros ->. tauto.
  - destruct (resolved s) as [l|].
    + destruct Hr as (-> & E). rewrite E. cbn. auto.
    + destruct (without c (unfinished s)) eqn:E; cbn; [auto|discriminate].
Qed.

Lemma looks_app es e : looks (es ++ [e]) = looks es + match e with Look => 1 | _ => 0 end.
Proof. unfold looks. rewrite filter_app, app_length. destruct e; reflexivity. Qed.
Lemma arrived_app es e c : arrived (es ++ [e]) c <-> arrived es c \/ e = Arrive c.
Proof. unfold arrived. rewrite in_app_iff. simpl. intuition. Qed.

Lemma inv_start : inv [] (mf_start children).
Proof.
  unfold mf_start. constructor; cbn.
  - intros c. rewrite nodup_In. tauto.
  - auto.
  - reflexivity.
  - tauto.
  - intros c. unfold arrived. reflexivity.
  - destruct children as [|c r]; cbn [map]; [auto|]. intros E. assert (In c (nodup Nat.eq_dec (c :: r))) by (rewrite nodup_In; left; reflexivity).
    rewrite E in H. exact H.
Qed.

Lemma once_app es c : once (es ++ [Arrive c]) -> ~ arrived es c.
Proof.
  unfold once. rewrite flat_map_app. cbn. intros H. apply NoDup_remove_2 in H. rewrite app_nil_r in H. intros Ha. apply H.
  apply in_flat_map. exists (Arrive c). split; [exact Ha|left; reflexivity].
Qed.

Lemma skipn_S {A} (l : list A) : forall n c r, skipn n l = c :: r -> skipn (n + 1) l = r /\ In c l.
Proof.
  induction l as [|x l IH]; intros [|n] c r; cbn; try discriminate.
  - intros [= -> ->]. destruct r; auto.
  - intros H. destruct (IH _ _ _ H) as (E & Hi). auto.
Qed.
Lemma skipn_S_nil {A} (l : list A) : forall n, skipn n l = [] -> skipn (n + 1) l = [].
Proof. induction l as [|x l IH]; intros [|n]; cbn; try discriminate; auto. Qed.

Lemma inv_step es s e : inv es s -> once (es ++ [e]) -> inv (es ++ [e]) (mf_step result_of children s e).
Proof.
  intros [H1 H2 H3 H5 H7 H8] Ho. destruct e as [|c].
  - assert (H7' : forall c, In c (done s) <-> arrived (es ++ [Look]) c).
    { intros x. rewrite H7, arrived_app. split; [auto|intros [|]; [auto|discriminate]]. }
    cbn [mf_step]. destruct (todo s) as [|c r] eqn:Et.
    + symmetry in H3. constructor; rewrite ?looks_app; try assumption; rewrite ?Et; auto.
      symmetry. apply skipn_S_nil, H3.
    + symmetry in H3. destruct (skipn_S _ _ _ _ H3) as (E & Hc).
      destruct (mem c (listening s)) eqn:Em.
      * apply mem_iff in Em. constructor; cbn; rewrite ?looks_app; auto.
        intros x Hx. destruct (H2 x Hx) as [|[->|]]; auto.
      * assert (Nc : ~ In c (listening s)) by (rewrite <- mem_iff, Em; discriminate).
        pose (s1 := MF r (listening s ++ [c]) (done s) (unfinished s) (resolved s)).
        cbn zeta. fold s1. assert (Hcov : forall x, In x children -> In x (listening s1) \/ In x (todo s1)).
        { intros x Hx. cbn. rewrite in_app_iff. cbn. destruct (H2 x Hx) as [|[->|]]; auto. }
        assert (Hlis : forall x, In x (listening s1) -> In x children).
        { intros x. cbn. rewrite in_app_iff. cbn. intros [|[<-|[]]]; auto. }
        destruct (mem c (done s1)) eqn:Ed.
        -- apply mem_iff in Ed. destruct (callback_ok s1 c) as (Hu & Hr); auto.
           { intros x. cbn [s1 unfinished listening done]. rewrite H1, in_app_iff. cbn. split.
             - intros (Hx & Hn). split; [auto|]. destruct (Nat.eq_dec x c); [auto|]. right. intros ([|[->|[]]] & ?); tauto.
             - intros (Hx & [->|Hn]); split; auto; tauto. }
           { cbn. rewrite in_app_iff. right. left. reflexivity. }
           constructor; cbn [callback todo listening done]; rewrite ?looks_app; auto.
        -- assert (Nd : ~ In c (done s)) by (change (mem c (done s) = false) in Ed; rewrite <- mem_iff, Ed; discriminate).
           constructor; cbn [s1 todo listening done unfinished resolved]; rewrite ?looks_app; auto.
           intros x. rewrite H1, in_app_iff. cbn. split; intros (Hx & Hn); split; auto; [|tauto].
           intros ([|[->|[]]] & ?); tauto.
  - assert (Na : ~ In c (done s)) by (rewrite H7; apply (once_app _ _ Ho)).
    cbn [mf_step]. pose (s1 := MF (todo s) (listening s) (done s ++ [c]) (unfinished s) (resolved s)). cbn zeta. fold s1.
    assert (Hd : forall x, In x (done s1) <-> arrived (es ++ [Arrive c]) x).
    { intros x. cbn. rewrite in_app_iff, H7, arrived_app. cbn. split; [intros [|[->|[]]]; auto|intros [|[= ->]]; auto]. }
    assert (Lk : looks (es ++ [Arrive c]) = looks es) by (rewrite looks_app; lia).
    destruct (mem c (listening s1)) eqn:Em.
    + apply mem_iff in Em. destruct (callback_ok s1 c) as (Hu & Hr); auto.
      { intros x. cbn [s1 unfinished listening done]. rewrite H1, in_app_iff. cbn. split.
        - intros (Hx & Hn). split; [auto|]. destruct (Nat.eq_dec x c); [auto|]. right. intros (? & [|[->|[]]]); tauto.
        - intros (Hx & [->|Hn]); split; auto; tauto. }
      { cbn. rewrite in_app_iff. right. left. reflexivity. }
      constructor; cbn [callback todo listening done]; rewrite ?Lk; auto.
    + assert (Nl : ~ In c (listening s)) by (change (mem c (listening s) = false) in Em; rewrite <- mem_iff, Em; discriminate).
      constructor; cbn [s1 todo listening unfinished resolved]; rewrite ?Lk; auto.
      intros x. rewrite H1. cbn [s1 done]. rewrite in_app_iff. cbn. split; intros (Hx & Hn); split; auto; [|tauto].
      intros (? & [|[->|[]]]); tauto.
Qed.

Lemma once_prefix es e : once (es ++ [e]) -> once es.
Proof.
  unfold once. rewrite flat_map_app. generalize (flat_map (fun e => match e with Arrive c => [c] | Look => [] end) es) as l.
  generalize (flat_map (fun e => match e with Arrive c => [c] | Look => [] end) [e]) as l2. intros l2 l. induction l as [|x l IH]; cbn; [constructor|].
  intros H. inversion H as [|? ? Hn Hd]. subst. constructor; [intros Hi; apply Hn; apply in_or_app; auto|auto].
Qed.
Lemma inv_run es : once es -> inv es (mf_run result_of children es).
Proof.
  unfold mf_run. induction es as [|e es IH] using rev_ind; intros Ho; [apply inv_start|].
  rewrite fold_left_app. cbn. apply inv_step; [|exact Ho]. apply IH, (once_prefix _ _ Ho).
Qed.

Lemma mf_spec es : once es -> looks es >= List.length children ->
  (resolved (mf_run result_of children es) = Some (map result_of children) <-> forall c, In c children -> arrived es c) /\
  (resolved (mf_run result_of children es) = None <-> exists c, In c children /\ ~ arrived es c).
Proof.
  intros Ho Hl. destruct (inv_run es Ho) as [H1 H2 H3 H5 H7 H8]. rewrite skipn_all2 in H3 by lia. rewrite H3 in H2.
  assert (Hun : forall c, In c (unfinished (mf_run result_of children es)) <-> In c children /\ ~ arrived es c).
  { intros c. rewrite H1, H7. split; intros (Hc & Hn); split; auto; destruct (H2 c Hc) as [|[]]; tauto. }
  destruct (resolved _) as [l|].
  - destruct H8 as (-> & E). rewrite E in Hun. split.
    + split; [|auto]. intros _ c Hc. destruct (in_dec Nat.eq_dec c (done (mf_run result_of children es))) as [Hd|Hd]; [apply H7, Hd|].
      destruct (proj2 (Hun c)). split; [auto|]. rewrite <- H7. exact Hd.
    + split; [discriminate|]. intros (c & Hc). destruct (proj2 (Hun c) Hc).
  - destruct (unfinished (mf_run result_of children es)) as [|c r]; [contradiction|]. destruct (proj1 (Hun c) (or_introl eq_refl)) as (Hc & Hn). split.
    + split; [discriminate|]. intros H. destruct Hn. auto.
    + split; [|auto]. intros _. exists c. auto.
Qed.

Lemma mf_sound es l : once es -> resolved (mf_run result_of children es) = Some l ->
  l = map result_of children /\ forall c, In c children -> arrived es c.
Proof.
  intros Ho E. destruct (inv_run es Ho) as [H1 _ _ _ H7 H8]. rewrite E in H8. destruct H8 as (-> & Eu). split; [reflexivity|].
  intros c Hc. destruct (in_dec Nat.eq_dec c (done (mf_run result_of children es))) as [Hd|Hd]; [apply H7, Hd|].
  assert (In c (unfinished (mf_run result_of children es))) by (rewrite H1; tauto). rewrite Eu in H. destruct H.
Qed.
End MF.

(* ------------------------------------------------------------------ errors *)
Section Errors.
Context {V : Type}.
Implicit Types rs : list (outcome V).
Lemma elist_failures rs : plain_names rs -> exists es, failures rs es /\ elist_of rs = Some es.
Proof.
  induction rs as [|r rs IH]; intros Hp; [exists []; split; [constructor|reflexivity]|].
  destruct IH as (es & Hf & E); [intros en a H; apply (Hp en a); right; exact H|].
  destruct r as [v|en a|n]; cbn.
  - exists es. split; [constructor|]; assumption.
  - exists ((en, a) :: es). split; [constructor; exact Hf|].
    destruct (String.eqb_spec en "CompositeError") as [->|_]; [destruct (Hp _ _ (or_introl eq_refl) eq_refl)|]. rewrite E. reflexivity.
  - exists es. split; [constructor|]; assumption.
Qed.
Lemma failures_fun rs es : failures rs es -> forall es', failures rs es' -> es = es'.
Proof. induction 1; intros es' H'; inversion H'; subst; auto. f_equal. auto. Qed.
Lemma failures_nil rs : failures rs [] <-> forall en a, ~ In (Remote en a) rs.
Proof.
  induction rs as [|r rs IH]; split.
  - intros _ en a [].
  - constructor.
  - intros H. inversion H; subst; intros en a [E|Hi]; try discriminate; (apply (proj1 IH) with (1 := Hi) || idtac); eapply IH; eassumption.
  - intros H. destruct r; [constructor|destruct (H _ _ (or_introl eq_refl))|constructor]; apply IH; intros en a Hi; apply (H en a); right; exact Hi.
Qed.
Lemma collect_spec rs es : plain_names rs -> failures rs es ->
  collect_exceptions rs = match es with [] => Ret rs | _ => Raise (CompositeError es) end.
Proof.
  intros Hp Hf. destruct (elist_failures rs Hp) as (es' & Hf' & E). rewrite (failures_fun _ _ Hf' _ Hf) in E.
  unfold collect_exceptions. rewrite E. destruct es; reflexivity.
Qed.

(** iteration *)
Lemma iter_children_ok rs : (forall en a, ~ In (Remote en a) rs) -> iter_children (V:=V) false rs = (rs, None).
Proof.
  induction rs as [|r rs IH]; intros H; [reflexivity|]. cbn. rewrite IH by (intros en a Hi; apply (H en a); right; exact Hi).
  destruct r; [reflexivity|destruct (H _ _ (or_introl eq_refl))|reflexivity].
Qed.
Lemma iter_children_ret rs : iter_children (V:=V) true rs = (rs, None).
Proof. induction rs as [|r rs IH]; [reflexivity|]. cbn. rewrite IH. reflexivity. Qed.
Lemma iter_children_err before en a after : (forall e b, ~ In (Remote e b) before) -> en <> "CompositeError"%string ->
  iter_children (V:=V) false (before ++ Remote en a :: after) = (before, Some (CompositeError [(en, a)])).
Proof.
  intros H Hn. induction before as [|r rs IH]; cbn.
  - unfold collect_exceptions. cbn. destruct (String.eqb_spec en "CompositeError"); [contradiction|]. reflexivity.
  - rewrite IH by (intros e b Hi; apply (H e b); right; exact Hi).
    destruct r; [reflexivity|destruct (H _ _ (or_introl eq_refl))|reflexivity].
Qed.

(** get_dict *)
Lemma build_dict_ok all : forall ids rs (d : list (nat * outcome V)), List.length ids = List.length rs -> NoDup (map fst d ++ ids) ->
  build_dict all ids rs d = Ret (d ++ combine ids rs).
Proof.
  induction ids as [|i ids IH]; intros [|r rs] d L N; try discriminate; cbn; [rewrite app_nil_r; reflexivity|].
  destruct (existsb (fun e => i =? fst e) d) eqn:E.
  - apply existsb_exists in E as (e & Hi & E). apply Nat.eqb_eq in E. exfalso. apply NoDup_remove_2 in N. apply N. apply in_or_app. left.
    subst. apply in_map. exact Hi.
  - rewrite IH.
    + rewrite <- app_assoc. reflexivity.
    + cbn in L. lia.
    + rewrite map_app, <- app_assoc. exact N.
Qed.
Lemma build_dict_dup all : forall ids rs (d : list (nat * outcome V)), List.length ids = List.length rs -> ~ NoDup (map fst d ++ ids) -> NoDup (map fst d) ->
  exists i, build_dict all ids rs d = Raise (ValueError (count_occ Nat.eq_dec all i) i) /\ exists a b, ids = a ++ i :: b /\ In i (map fst d ++ a).
Proof.
  induction ids as [|i ids IH]; intros [|r rs] d L N Nd; try discriminate; [rewrite app_nil_r in N; contradiction|]. cbn.
  destruct (existsb (fun e => i =? fst e) d) eqn:E.
  - apply existsb_exists in E as (e & Hi & E). apply Nat.eqb_eq in E. exists i. split; [reflexivity|].
    exists [], ids. split; [reflexivity|]. rewrite app_nil_r. subst. apply in_map. exact Hi.
  - assert (Hi : ~ In i (map fst d)).
    { intros Hi. apply in_map_iff in Hi as (e & <- & He). assert (existsb (fun e' => fst e =? fst e') d = true); [|congruence].
      apply existsb_exists. exists e. split; [exact He|apply Nat.eqb_refl]. }
    destruct (IH rs (d ++ [(i, r)])) as (j & E2 & a & b & -> & Hj).
    + cbn in L. lia.
    + rewrite map_app, <- app_assoc. exact N.
    + rewrite map_app. cbn. apply (Permutation_NoDup (Permutation_cons_append _ _)). constructor; assumption.
    + exists j. split; [exact E2|]. exists (i :: a), b. split; [reflexivity|]. rewrite map_app, <- app_assoc in Hj. exact Hj.
Qed.
Lemma in_combine_nth {A B} : forall (l : list A) (l' : list B) i x y, nth_error l i = Some x -> nth_error l' i = Some y -> In (x, y) (combine l l').
Proof.
  induction l as [|a l IH]; intros [|b l'] [|i] x y; cbn; try discriminate; [intros [= ->] [= ->]; auto|]. intros H1 H2. right. eapply IH; eassumption.
Qed.
End Errors.

(* ------------------------------------------------------------------ progress *)
Lemma total_exists size p (dec : forall m, {p m} + {~ p m}) ms : exists n, total size p ms n.
Proof. induction ms as [|m ms (n & IH)]; [exists 0; constructor|]. destruct (dec m); eexists; [apply total_yes|apply total_no]; eassumption. Qed.
Lemma count_total sizes outstanding ms n : total (chunk_size sizes) (fun m => In m outstanding) ms n ->
  count_chunks sizes (filter (fun m => mem m outstanding) ms) = n.
Proof.
  induction 1 as [|m ms n Hm _ IH|m ms n Hm _ IH]; [reflexivity| |]; cbn [filter].
  - apply mem_iff in Hm. rewrite Hm. cbn [count_chunks fold_right]. unfold count_chunks in IH. rewrite IH. reflexivity.
  - destruct (mem m outstanding) eqn:E; [apply mem_iff in E; contradiction|]. exact IH.
Qed.
Lemma total_split size p ms n n' : total size p ms n -> total size (fun m => ~ p m) ms n' -> total size (fun _ => True) ms (n + n').
Proof.
  intros H. revert n'. induction H as [|m ms n Hm _ IH|m ms n Hm _ IH]; intros n' H'; inversion H'; subst; try contradiction.
  - constructor.
  - replace (size m + n + n') with (size m + (n + n')) by lia. constructor; auto.
  - replace (n + (size m + n0)) with (size m + (n + n0)) by lia. constructor; auto.
Qed.
Lemma total_len sizes ms n : total (chunk_size sizes) (fun _ => True) ms n -> len sizes ms = n.
Proof. induction 1 as [|m ms n _ _ IH|m ms n Hm _ _]; [reflexivity| |destruct (Hm I)]. unfold len, count_chunks in *. cbn [fold_right]. rewrite IH. reflexivity. Qed.

(* ------------------------------------------------------------------ AsyncMapResult *)
Section MapResult.
Context {I : Type}.
Implicit Types rs : list (outcome (list I)).
Lemma chain_vals ret (chunks : list (list I)) : chain ret (map Val chunks) = (map Val (List.concat chunks), None).
Proof. induction chunks as [|c r IH]; [reflexivity|]. cbn. rewrite IH. cbn. rewrite map_app. reflexivity. Qed.
Lemma chain_ret rs : chain true rs = (flat rs, None).
Proof. induction rs as [|[v|en a|n] r IH]; [reflexivity| | |]; cbn; rewrite IH; reflexivity. Qed.
Lemma flat_laid rs items : laid_out rs items -> flat rs = items.
Proof. unfold flat. induction 1 as [|l rs items _ IH|en a rs items _ IH|n rs items _ IH]; cbn [flat_map]; rewrite ?IH; reflexivity. Qed.
Lemma chain_err (before : list (list I)) en a after : en <> "CompositeError"%string ->
  chain false (map Val before ++ Remote en a :: after) = (map Val (List.concat before), Some (CompositeError [(en, a)])).
Proof.
  intros Hn. induction before as [|c r IH]; cbn.
  - unfold collect_exceptions. cbn. destruct (String.eqb_spec en "CompositeError"); [contradiction|]. reflexivity.
  - rewrite IH. cbn. rewrite map_app. reflexivity.
Qed.
Lemma vals_not_failed (chunks : list (list I)) : existsb failed (map Val chunks) = false.
Proof. induction chunks as [|c r IH]; [reflexivity|]. exact IH. Qed.
Lemma parts_vals (chunks : list (list I)) : parts_of (map Val chunks) = chunks.
Proof. induction chunks as [|c r IH]; [reflexivity|]. cbn. f_equal. exact IH. Qed.
Lemma collect_vals {V} ret (vs : list V) : _collect_exceptions ret (map Val vs) = Ret (map Val vs).
Proof.
  unfold _collect_exceptions. destruct ret; [reflexivity|]. unfold collect_exceptions. replace (elist_of (map Val vs)) with (Some (@nil (string * nat))); [reflexivity|].
  induction vs as [|v vs IH]; [reflexivity|]. exact IH.
Qed.
Lemma join_vals d (chunks : list (list I)) l : Map_Model.joinPartitions d chunks = Prelude.Ok l -> join d (map Val chunks) = Ret (Items (map Val l)).
Proof.
  intros E. destruct chunks as [|c r]; [destruct d; discriminate|]. unfold join. cbn [map].
  change (Val c :: map Val r) with (map Val (c :: r)). rewrite vals_not_failed, parts_vals, E. reflexivity.
Qed.
Lemma map_get_vals d ret arg (chunks : list (list I)) l : Map_Model.joinPartitions d chunks = Prelude.Ok l ->
  map_get d ret arg (Some (map Val chunks)) = Ret (Items (map Val l)).
Proof.
  intros E. unfold map_get, map_resolve. rewrite collect_vals. unfold map_reconstruct. rewrite vals_not_failed, andb_false_r, (join_vals _ _ _ E). reflexivity.
Qed.
Lemma map_get_ret d arg rs : existsb failed rs = true -> map_get d true arg (Some rs) = Ret (Items (flat rs)).
Proof. intros E. unfold map_get, map_resolve, map_reconstruct. cbn. rewrite E. reflexivity. Qed.

(** the visits of the unordered iteration *)
Section Visits.
Context (arrives now : nat -> nat) (order : list nat -> list nat) (Ho : forall l, Permutation (order l) l).
Lemma earliest_le pending : forall c, In c pending -> earliest arrives pending <= arrives c.
Proof.
  assert (G : forall l t, fold_left (fun t c => Nat.min t (arrives c)) l t <= t /\ forall c, In c l -> fold_left (fun t c => Nat.min t (arrives c)) l t <= arrives c).
  { induction l as [|x l IH]; intros t; cbn; [split; [lia|intros c []]|]. destruct (IH (Nat.min t (arrives x))) as (H1 & H2). split; [lia|].
    intros c [<-|H]; [lia|auto]. }
  destruct pending as [|x l]; cbn; [intros c []|]. destruct (G l (arrives x)) as (H1 & H2). intros c [<-|H]; auto.
Qed.
Lemma earliest_in pending : pending <> [] -> exists c, In c pending /\ arrives c = earliest arrives pending.
Proof.
  assert (G : forall l t, fold_left (fun t c => Nat.min t (arrives c)) l t = t \/ exists c, In c l /\ arrives c = fold_left (fun t c => Nat.min t (arrives c)) l t).
  { induction l as [|x l IH]; intros t; cbn; [auto|]. destruct (IH (Nat.min t (arrives x))) as [E|(c & H1 & H2)].
    - destruct (Nat.min_spec t (arrives x)) as [[_ M]|[_ M]]; rewrite M in *; [auto|]. right. exists x. auto.
    - right. exists c. auto. }
  destruct pending as [|x l]; [contradiction|]. intros _. cbn. destruct (G l (arrives x)) as [E|(c & H1 & H2)]; [exists x|exists c]; auto.
Qed.
Lemma filter_split {A} (f : A -> bool) l : Permutation (filter f l ++ filter (fun x => negb (f x)) l) l.
Proof.
  induction l as [|x l IH]; [reflexivity|]. cbn. destruct (f x); cbn; [constructor; exact IH|].
  etransitivity; [symmetry; apply Permutation_middle|]. constructor. exact IH.
Qed.
Lemma filter_length_le {A} (f : A -> bool) l : List.length (filter f l) <= List.length l.
Proof. induction l as [|x l IH]; cbn; [lia|]. destruct (f x); cbn; lia. Qed.
Lemma filter_shrinks {A} (f : A -> bool) l x : In x l -> f x = false -> List.length (filter f l) < List.length l.
Proof.
  induction l as [|y l IH]; cbn; [intros []|]. intros [->|H] E.
  - rewrite E. pose proof (filter_length_le f l). lia.
  - specialize (IH H E). destruct (f y); cbn; lia.
Qed.
Lemma visits_perm : forall rounds k pending, List.length pending <= rounds -> Permutation (visits arrives now order rounds k pending) pending.
Proof.
  induction rounds as [|rounds IH]; intros k pending L; destruct pending as [|c r]; cbn [visits List.length] in *; try reflexivity; [lia|].
  remember (c :: r) as p eqn:Ep. set (t := Nat.max (now k) (earliest arrives p)).
  rewrite (Ho _). rewrite IH; [apply (filter_split (fun c => arrives c <=? t))|].
  destruct (earliest_in p) as (x & Hx & Ex); [subst; discriminate|].
  assert (List.length (filter (fun c => negb (arrives c <=? t)) p) < List.length p); [|subst p; cbn in *; lia].
  apply filter_shrinks with x; [exact Hx|]. apply negb_false_iff, Nat.leb_le. subst t. lia.
Qed.
(** Results are visited in the order of arrival if the consumer is always there first. *)
Lemma visits_sorted : (forall k, now k = 0) -> forall rounds k pending l1 b l2 a l3,
  visits arrives now order rounds k pending = l1 ++ b :: l2 ++ a :: l3 -> arrives b <= arrives a.
Proof.
  intros Hnow. induction rounds as [|rounds IH]; intros k pending l1 b l2 a l3; destruct pending as [|c r]; cbn [visits]; try (destruct l1; discriminate).
  remember (c :: r) as p eqn:Ep. rewrite Hnow, Nat.max_0_l. set (t := earliest arrives p).
  set (dn := filter (fun c => arrives c <=? t) p). set (rest := filter (fun c => negb (arrives c <=? t)) p).
  set (vs := visits arrives now order rounds (S k) rest). intros E.
  assert (Hd : forall x, In x (order dn) -> arrives x = t).
  { intros x Hx. apply (Permutation_in _ (Ho dn)) in Hx. apply filter_In in Hx as (H1 & H2). apply Nat.leb_le in H2.
    pose proof (earliest_le p x H1). subst t. lia. }
  assert (Hv : forall x, In x vs -> t <= arrives x).
  { assert (G : forall rounds k q x, In x (visits arrives now order rounds k q) -> In x q).
    { clear - Ho. induction rounds as [|rounds IH]; intros k [|c r] x; cbn [visits]; try (intros []).
      rewrite in_app_iff. intros [H|H]; [apply (Permutation_in _ (Ho _)) in H|apply IH in H]; apply filter_In in H; tauto. }
    intros x Hx. apply G in Hx. apply filter_In in Hx as (_ & H). apply negb_true_iff, Nat.leb_gt in H. lia. }
  assert (Hb : In b (order dn ++ vs)) by (rewrite E; apply in_or_app; right; left; reflexivity).
  assert (Ha : In a (order dn ++ vs)) by (rewrite E; apply in_or_app; right; right; apply in_or_app; right; left; reflexivity).
  apply in_app_or in Hb, Ha.
  assert (Hge : forall x, In x (order dn ++ vs) -> t <= arrives x).
  { intros x Hx. apply in_app_or in Hx as [Hx|Hx]; [rewrite (Hd _ Hx); lia|auto]. }
  destruct (le_lt_dec (List.length (order dn)) (List.length l1)) as [Hlen|Hlen].
  - (* b, and so a, come from the later visits *)
    assert (exists l1', vs = l1' ++ b :: l2 ++ a :: l3).
    { clear - E Hlen. revert l1 E Hlen. induction (order dn) as [|x xs IHx]; intros l1 E Hlen; [exists l1; exact E|].
      destruct l1 as [|y l1]; [cbn in Hlen; lia|]. injection E as _ E. apply (IHx l1 E). cbn in Hlen. lia. }
    destruct H as (l1' & E'). eapply IH, E'.
  - assert (In b (order dn)).
    { clear - E Hlen. revert l1 E Hlen. induction (order dn) as [|x xs IHx]; intros l1 E Hlen; [cbn in Hlen; lia|].
      destruct l1 as [|y l1]; injection E as E1 E; [left; exact E1|right; apply (IHx l1 E); cbn in Hlen; lia]. }
    rewrite (Hd _ H). destruct Ha as [Ha|Ha]; [rewrite (Hd _ Ha)|pose proof (Hv _ Ha)]; lia.
Qed.
End Visits.

(** round robin: joining is a permutation of the chunks if none is longer than the first *)
Lemma flat_map_app_perm {A B} (f g : A -> list B) l : Permutation (flat_map (fun x => f x ++ g x) l) (flat_map f l ++ flat_map g l).
Proof.
  induction l as [|x l IH]; [reflexivity|]. cbn. rewrite IH. rewrite <- !app_assoc. apply Permutation_app_head.
  rewrite !app_assoc. apply Permutation_app_tail, Permutation_app_comm.
Qed.
Lemma flat_map_nth {A} (part : list A) n : List.length part <= n ->
  flat_map (fun i => match nth_error part i with Some x => [x] | None => [] end) (seq 0 n) = part.
Proof.
  revert n. induction part as [|x part IH]; intros n L.
  - clear L. generalize 0. induction n as [|n IHn]; intros s; [reflexivity|]. cbn [seq flat_map]. rewrite IHn. destruct s; reflexivity.
  - destruct n as [|n]; [cbn in L; lia|]. cbn [seq flat_map nth_error app]. f_equal.
    rewrite <- seq_shift, flat_map_concat_map, map_map. cbn [nth_error]. rewrite <- flat_map_concat_map. apply IH. cbn in L. lia.
Qed.
Lemma rounds_perm {A} (parts : list (list A)) n : (forall p, In p parts -> List.length p <= n) ->
  Permutation (flat_map (fun i => flat_map (fun part => match nth_error part i with Some x => [x] | None => [] end) parts) (seq 0 n)) (List.concat parts).
Proof.
  induction parts as [|p parts IH]; intros H; cbn.
  - induction (seq 0 n); [reflexivity|assumption].
  - rewrite flat_map_app_perm, flat_map_nth by (apply H; left; reflexivity). apply Permutation_app_head, IH. intros q Hq. apply H. right. exact Hq.
Qed.
Lemma join_perm d (chunks : list (list I)) p0 r l : chunks = p0 :: r -> (d = Map_Model.DistRR -> forall p, In p chunks -> List.length p <= List.length p0) ->
  Map_Model.joinPartitions d chunks = Prelude.Ok l -> Permutation l (List.concat chunks).
Proof.
  intros -> H. destruct d; cbn; intros [= <-]; [reflexivity|]. apply (rounds_perm (p0 :: r)). apply H. reflexivity.
Qed.
End MapResult.
