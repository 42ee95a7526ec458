(** Proofs about Sqlite_Model: the expression that is rendered parses to the conjunction of its tests. *)
From Coq Require Import List ZArith String Bool Lia.
From Verif Require Import Prelude PyValue DictDB_Spec Sqlite_Spec Sqlite_Model.
Import ListNotations.
Local Open Scope string_scope.

Section proofs.
Context (glob : string -> string -> bool) (iso : time -> string).
Notation expr := (expr glob). Notation conj := (conj glob). Notation prim := (prim glob).

(** ** Parsing *)
Lemma expr_S n r ts args : expr (S n) r ts args =
  match conj n r ts args with
  | Some (v, TOr :: ts, args) => match expr n r ts args with Some (w, ts, args) => Some (tor v w, ts, args) | None => None end
  | s => s
  end.
Proof. reflexivity. Qed.
Lemma conj_S n r ts args : conj (S n) r ts args =
  match prim n r ts args with
  | Some (v, TAnd :: ts, args) => match conj n r ts args with Some (w, ts, args) => Some (tand v w, ts, args) | None => None end
  | s => s
  end.
Proof. reflexivity. Qed.
Lemma prim_open n r ts args : prim (S n) r (TOpen :: ts) args =
  match expr n r ts args with Some (v, TClose :: ts, args) => Some (v, ts, args) | _ => None end.
Proof. reflexivity. Qed.
Definition meaning := (string -> option string) -> option bool.
Record piece := Piece { toks : list token; pargs : list (option string); val : meaning }.
Definition prim_ok (p : piece) : Prop := toks p <> [] /\
  forall n r rest ar, 2 * List.length (toks p) <= n -> prim n r (toks p ++ rest) (pargs p ++ ar) = Some (val p r, rest, ar).
Definition starts (t : token) (l : list token) : Prop := match l with x :: _ => x = t | [] => False end.

Definition all_of (ps : list piece) (r : string -> option string) : option bool :=
  match ps with [] => Some true | p :: ps => fold_left (fun v p => tand v (val p r)) ps (val p r) end.
Fixpoint conj_val (p : piece) (ps : list piece) (r : string -> option string) : option bool :=
  match ps with [] => val p r | q :: ps => tand (val p r) (conj_val q ps r) end.
Fixpoint disj_val (p : piece) (ps : list piece) (r : string -> option string) : option bool :=
  match ps with [] => val p r | q :: ps => tor (val p r) (disj_val q ps r) end.

Lemma join_cons sep x y l : join_with sep (x :: y :: l) = (x ++ sep :: join_with sep (y :: l))%list.
Proof. reflexivity. Qed.

Lemma conj_ok : forall ps p n r rest ar, prim_ok p -> (forall q, In q ps -> prim_ok q) -> ~ starts TAnd rest ->
  2 * List.length (join_with TAnd (map toks (p :: ps))) + 1 <= n ->
  conj n r (join_with TAnd (map toks (p :: ps)) ++ rest) (List.concat (map pargs (p :: ps)) ++ ar) = Some (conj_val p ps r, rest, ar).
Proof.
  induction ps as [| q ps IH]; intros p n r rest ar Hp Hps Hr Hn.
  - destruct n as [| n]; [lia |]. cbn [map join_with] in *. cbn [List.concat]. rewrite app_nil_r. rewrite conj_S.
    destruct Hp as [_ Hp]. rewrite Hp by lia. destruct rest as [| t rest]; [reflexivity |]. destruct t; try reflexivity.
    destruct (Hr eq_refl).
  - destruct n as [| n]; [lia |].
    change (map toks (p :: q :: ps)) with (toks p :: toks q :: map toks ps) in *. rewrite join_cons in *.
    change (List.concat (map pargs (p :: q :: ps))) with (pargs p ++ List.concat (map pargs (q :: ps)))%list.
    rewrite <- !app_assoc. rewrite app_length in Hn. cbn [List.length] in Hn. rewrite conj_S.
    destruct Hp as [_ Hp]. rewrite Hp by lia. cbn [app].
    change (toks q :: map toks ps) with (map toks (q :: ps)) in *.
    rewrite IH; [reflexivity | apply Hps; left; reflexivity | intros x Hx; apply Hps; right; exact Hx | exact Hr | lia].
Qed.
Lemma disj_ok : forall ps p n r rest ar, prim_ok p -> (forall q, In q ps -> prim_ok q) -> ~ starts TAnd rest -> ~ starts TOr rest ->
  2 * List.length (join_with TOr (map toks (p :: ps))) + 2 <= n ->
  expr n r (join_with TOr (map toks (p :: ps)) ++ rest) (List.concat (map pargs (p :: ps)) ++ ar) = Some (disj_val p ps r, rest, ar).
Proof.
  induction ps as [| q ps IH]; intros p n r rest ar Hp Hps Hr1 Hr2 Hn.
  - destruct n as [| n]; [lia |]. rewrite expr_S.
    pose proof (conj_ok [] p n r rest ar Hp Hps Hr1) as C. cbn [map join_with List.concat] in *. rewrite app_nil_r in *.
    rewrite C by lia. cbn [conj_val disj_val]. destruct rest as [| t rest]; [reflexivity |]. destruct t; try reflexivity. destruct (Hr2 eq_refl).
  - destruct n as [| n]; [lia |].
    change (map toks (p :: q :: ps)) with (toks p :: toks q :: map toks ps) in *. rewrite join_cons in *.
    change (List.concat (map pargs (p :: q :: ps))) with (pargs p ++ List.concat (map pargs (q :: ps)))%list.
    rewrite <- !app_assoc. rewrite app_length in Hn. cbn [List.length] in Hn. rewrite expr_S.
    change (toks q :: map toks ps) with (map toks (q :: ps)) in *.
    assert (C : forall rest ar, ~ starts TAnd rest -> conj n r (toks p ++ rest) (pargs p ++ ar) = Some (val p r, rest, ar)).
    { intros rest' ar' H'. pose proof (conj_ok [] p n r rest' ar' Hp) as C. cbn [map join_with List.concat] in C. rewrite app_nil_r in C.
      apply C; [intros x [] | exact H' | lia]. }
    rewrite C by (cbn; discriminate).
    cbn [app conj_val].
    rewrite IH; [reflexivity | apply Hps; left; reflexivity | intros x Hx; apply Hps; right; exact Hx | exact Hr1 | exact Hr2 | lia].
Qed.
(** A conjunction is an expression. *)
Lemma expr_conj ps p n r rest ar : prim_ok p -> (forall q, In q ps -> prim_ok q) -> ~ starts TAnd rest -> ~ starts TOr rest ->
  2 * List.length (join_with TAnd (map toks (p :: ps))) + 2 <= n ->
  expr n r (join_with TAnd (map toks (p :: ps)) ++ rest) (List.concat (map pargs (p :: ps)) ++ ar) = Some (conj_val p ps r, rest, ar).
Proof.
  intros Hp Hps Hr1 Hr2 Hn. destruct n as [| n]; [lia |]. rewrite expr_S.
  rewrite conj_ok by (assumption || lia). destruct rest as [| t rest]; [reflexivity |]. destruct t; try reflexivity. destruct (Hr2 eq_refl).
Qed.

Lemma tand_true a b : tand a b = Some true <-> a = Some true /\ b = Some true.
Proof. destruct a as [[] |], b as [[] |]; cbn; intuition congruence. Qed.
Lemma tor_true a b : tor a b = Some true <-> a = Some true \/ b = Some true.
Proof. destruct a as [[] |], b as [[] |]; cbn; intuition congruence. Qed.
Lemma conj_val_true r : forall ps p, conj_val p ps r = Some true <-> forall q, In q (p :: ps) -> val q r = Some true.
Proof.
  induction ps as [| q ps IH]; intros p; cbn [conj_val].
  - split; [intros H q [<- | []]; exact H | intros H; apply H; left; reflexivity].
  - rewrite tand_true, IH. split.
    + intros [A B] x [<- | Hx]; [exact A | apply B, Hx].
    + intros H. split; [apply H; left; reflexivity | intros x Hx; apply H; right; exact Hx].
Qed.
Lemma disj_val_true r : forall ps p, disj_val p ps r = Some true <-> exists q, In q (p :: ps) /\ val q r = Some true.
Proof.
  induction ps as [| q ps IH]; intros p; cbn [disj_val].
  - split; [intros H; exists p; split; [left; reflexivity | exact H] | intros (q & [<- | []] & H); exact H].
  - rewrite tor_true, IH. split.
    + intros [A | (x & Hx & A)]; [exists p; split; [left; reflexivity | exact A] | exists x; split; [right; exact Hx | exact A]].
    + intros (x & [<- | Hx] & A); [left; exact A | right; exists x; auto].
Qed.

(** ** Comparing stored values *)
Lemma compare_refl x : String.compare x x = Eq.
Proof.
  pose proof (String.compare_antisym x x) as H. destruct (String.compare x x); [reflexivity | discriminate | discriminate].
Qed.
Definition iso_ordered := forall a b, (local a < local b)%Z -> String.compare (iso a) (iso b) = Lt.
Context (Hiso : iso_ordered).
Context (off : Z).

Definition cmp (a b : sval) : comparison :=
  match a, b with
  | SText x, SText y => String.compare x y
  | STime t, STime u => Z.compare (instant t) (instant u)
  | _, _ => Eq
  end.
Lemma compare_iso t u : offset t = off -> offset u = off -> String.compare (iso t) (iso u) = Z.compare (instant t) (instant u).
Proof.
  intros A B. destruct (Z.compare_spec (instant t) (instant u)) as [E | E | E].
  - assert (t = u) by (destruct t, u; cbn in *; congruence). subst. apply compare_refl.
  - apply Hiso. unfold local. lia.
  - rewrite String.compare_antisym. rewrite Hiso; [reflexivity | unfold local; lia].
Qed.
Lemma compare_adapt k a b : fits off k a -> fits off k b -> a <> SNone -> b <> SNone ->
  exists x y, adapt iso a = Some x /\ adapt iso b = Some y /\ String.compare x y = cmp a b /\
    (before (abs a) (abs b) <-> cmp a b = Lt) /\ (before (abs b) (abs a) <-> cmp a b = Gt) /\ (equal (abs a) (abs b) <-> cmp a b = Eq).
Proof.
  intros Ha Hb Na Nb. destruct a as [| x | t], b as [| y | u]; try congruence; cbn [fits] in Ha, Hb.
  - exists x, y. cbn [adapt abs cmp before]. repeat split; try reflexivity; try tauto.
    + intros H. rewrite String.compare_antisym, H. reflexivity.
    + intros H. rewrite String.compare_antisym, H. reflexivity.
    + unfold equal. cbn. intros H. apply String.eqb_eq in H. subst. apply compare_refl.
    + unfold equal. cbn. intros H. apply String.eqb_eq. apply String.compare_eq_iff, H.
  - destruct Hb. congruence.
  - destruct Ha. congruence.
  - exists (iso t), (iso u). cbn [adapt abs cmp before]. rewrite compare_iso by tauto.
    split; [reflexivity |]. split; [reflexivity |]. split; [reflexivity |]. unfold equal. cbn [py_eq].
    rewrite Z.eqb_eq. destruct (Z.compare_spec (instant t) (instant u)); repeat split; intros; try discriminate; try lia; try reflexivity.
Qed.
Lemma eqb_compare x y : String.eqb x y = match String.compare x y with Eq => true | _ => false end.
Proof.
  destruct (String.eqb_spec x y) as [-> | N].
  - rewrite compare_refl. reflexivity.
  - destruct (String.compare x y) eqn:E; [apply String.compare_eq_iff in E; contradiction | reflexivity | reflexivity].
Qed.

(** ** Rendering one test *)
Definition simple_piece (name : string) (o : sqlop) (v : sval) : piece :=
  Piece [TName name; TOp o; TQuestion] [adapt iso v] (fun r => compare_sql glob o (r name) (adapt iso v)).
Lemma simple_ok name o v : prim_ok (simple_piece name o v).
Proof.
  split; [discriminate |]. intros n r rest ar Hn. cbn in Hn. destruct n as [| n]; [lia |]. reflexivity.
Qed.
Definition null_piece (name : string) : piece :=
  Piece [TName name; TIsNull] [] (fun r => Some (match r name with None => true | Some _ => false end)).
Definition notnull_piece (name : string) : piece :=
  Piece [TName name; TIsNotNull] [] (fun r => Some (match r name with None => false | Some _ => true end)).
Lemma null_ok name : prim_ok (null_piece name).
Proof. split; [discriminate |]. intros n r rest ar Hn. cbn in Hn. destruct n as [| n]; [lia |]. reflexivity. Qed.
Lemma notnull_ok name : prim_ok (notnull_piece name).
Proof. split; [discriminate |]. intros n r rest ar Hn. cbn in Hn. destruct n as [| n]; [lia |]. reflexivity. Qed.

Definition many_piece (name : string) (o : sqlop) (j : join) (l : list sval) : piece :=
  Piece ((TOpen :: join_with (join_token j) (repeat [TName name; TOp o; TQuestion] (List.length l)) ++ [TClose])%list) (map (adapt iso) l)
    (fun r => match l with
              | [] => None
              | v :: l => match j with
                          | JOr => disj_val (simple_piece name o v) (map (simple_piece name o) l) r
                          | JAnd => conj_val (simple_piece name o v) (map (simple_piece name o) l) r
                          end
              end).
Lemma map_repeat name o l : map toks (map (simple_piece name o) l) = repeat [TName name; TOp o; TQuestion] (List.length l).
Proof. induction l as [| v l IH]; [reflexivity |]. cbn [map repeat List.length]. rewrite IH. reflexivity. Qed.
Lemma concat_pargs name o l : List.concat (map pargs (map (simple_piece name o) l)) = map (adapt iso) l.
Proof. induction l as [| v l IH]; [reflexivity |]. cbn [map List.concat]. rewrite IH. reflexivity. Qed.
Lemma many_ok name o j l : l <> [] -> prim_ok (many_piece name o j l).
Proof.
  intros Hl. split; [discriminate |]. intros n r rest ar Hn. destruct l as [| v l]; [contradiction |].
  cbn [many_piece toks pargs val] in *. destruct n as [| n]; [cbn in Hn; lia |].
  rewrite <- map_repeat in *. rewrite <- (concat_pargs name o). rewrite <- app_comm_cons, <- app_assoc. rewrite prim_open.
  cbn [List.length] in Hn. rewrite app_length in Hn. cbn [List.length] in Hn.
  change (map (simple_piece name o) (v :: l)) with (simple_piece name o v :: map (simple_piece name o) l) in *.
  assert (S : forall q, In q (map (simple_piece name o) l) -> prim_ok q)
    by (intros q Hq; apply in_map_iff in Hq; destruct Hq as (w & <- & _); apply simple_ok).
  destruct j; cbn [join_token] in *.
  - rewrite disj_ok; [reflexivity | apply simple_ok | exact S | cbn; discriminate | cbn; discriminate | lia].
  - rewrite expr_conj; [reflexivity | apply simple_ok | exact S | cbn; discriminate | cbn; discriminate | lia].
Qed.

(** What a supported test is to mean. *)
Definition test_means (name : string) (o : op) (a : sarg) (rw : row) : Prop :=
  says glob o (abs (rw name)) (abs_arg a) /\ (rw name = SNone -> a = One SNone).

Lemma simple_means name o so v rw : operators o = Some (so, None) -> o <> OGlob -> fits off name v -> fits off name (rw name) -> v <> SNone ->
  val (simple_piece name so v) (stored iso rw) = Some true <-> test_means name o (One v) rw.
Proof.
  intros Ho Hg Hv Hr Nv. unfold test_means. cbn [simple_piece val abs_arg]. unfold stored.
  destruct (rw name) as [| x | t] eqn:Er.
  - cbn [adapt compare_sql]. split; [discriminate |]. intros [_ X]. exfalso. apply Nv. specialize (X eq_refl). congruence.
  - destruct (compare_adapt name (SText x) v Hr Hv) as (y & z & E1 & E2 & C & B1 & B2 & Q); [discriminate | exact Nv |].
    rewrite E1, E2. cbn [compare_sql]. rewrite eqb_compare, C. 
    destruct o; cbn in Ho; try discriminate; injection Ho as <-; cbn [says]; try congruence;
      rewrite ?B1, ?B2, ?Q; destruct (cmp (SText x) v); cbn; intuition (try congruence; try discriminate).
  - destruct (compare_adapt name (STime t) v Hr Hv) as (y & z & E1 & E2 & C & B1 & B2 & Q); [discriminate | exact Nv |].
    rewrite E1, E2. cbn [compare_sql]. rewrite eqb_compare, C. 
    destruct o; cbn in Ho; try discriminate; injection Ho as <-; cbn [says]; try congruence;
      rewrite ?B1, ?B2, ?Q; destruct (cmp (STime t) v); cbn; intuition (try congruence; try discriminate).
Qed.

Lemma one_eq_means name v rw : fits off name v -> fits off name (rw name) -> v <> SNone ->
  val (simple_piece name Eq_ v) (stored iso rw) = Some true <-> rw name <> SNone /\ equal (abs (rw name)) (abs v).
Proof.
  intros Hv Hr Nv. rewrite (simple_means name OEq Eq_ v rw) by (assumption || reflexivity || discriminate). unfold test_means. cbn [says abs_arg].
  split; [intros [A B]; split; [intros X; apply Nv; specialize (B X); congruence | exact A] | intros [A B]; split; [exact B | congruence]].
Qed.
Lemma one_ne_means name v rw : fits off name v -> fits off name (rw name) -> v <> SNone ->
  val (simple_piece name Ne_ v) (stored iso rw) = Some true <-> rw name <> SNone /\ ~ equal (abs (rw name)) (abs v).
Proof.
  intros Hv Hr Nv. rewrite (simple_means name ONe Ne_ v rw) by (assumption || reflexivity || discriminate). unfold test_means. cbn [says abs_arg].
  split; [intros [A B]; split; [intros X; apply Nv; specialize (B X); congruence | exact A] | intros [A B]; split; [exact B | congruence]].
Qed.

Lemma existsb_none l : ~ In SNone l -> existsb (fun v => match v with SNone => true | _ => false end) l = false.
Proof.
  intros H. induction l as [| v l IH]; [reflexivity |]. cbn [existsb]. rewrite IH by (intros X; apply H; right; exact X).
  destruct v; [exfalso; apply H; left; reflexivity | reflexivity | reflexivity].
Qed.

Lemma render_test_ok name o a j : supported_op o a -> fits_arg off name a ->
  exists p j', render_test iso name o a j = Done (toks p, pargs p, j') /\ prim_ok p /\
    forall rw, fits off name (rw name) -> (val p (stored iso rw) = Some true <-> test_means name o a rw).
Proof.
  intros Hs Ha. unfold render_test. destruct a as [v | l].
  - cbn [fits_arg] in Ha. destruct (match v with SNone => true | _ => false end) eqn:Ev.
    + destruct v; try discriminate. destruct o; cbn [supported_op] in Hs; try contradiction; try congruence; cbn [operators null_operators].
      * exists (null_piece name), j. split; [reflexivity |]. split; [apply null_ok |]. intros rw _. unfold test_means. cbn.
        unfold stored, equal. destruct (rw name); cbn; intuition congruence.
      * exists (notnull_piece name), j. split; [reflexivity |]. split; [apply notnull_ok |]. intros rw _. unfold test_means. cbn.
        unfold stored, equal. destruct (rw name); cbn; intuition congruence.
    + assert (Nv : v <> SNone) by (intros ->; discriminate).
      assert (G : forall so, operators o = Some (so, None) -> o <> OGlob ->
        exists p j', match operators o with
          | Some (o0, oj) => match v, null_operators o0 with
             | SNone, Some t => Done ([TName name; t], [], match oj with Some x => Some x | None => j end)
             | _, _ => Done ([TName name; TOp o0; TQuestion], [adapt iso v], match oj with Some x => Some x | None => j end) end
          | None => Fail FKeyError end = Done (toks p, pargs p, j') /\ prim_ok p /\
          forall rw, fits off name (rw name) -> (val p (stored iso rw) = Some true <-> test_means name o (One v) rw)).
      { intros so Ho Hg. rewrite Ho. exists (simple_piece name so v), j. split; [destruct v; [contradiction | reflexivity | reflexivity] |].
        split; [apply simple_ok |]. intros rw Hr. apply simple_means; assumption. }
      destruct o; cbn [supported_op] in Hs; try contradiction;
        try (destruct (G _ eq_refl ltac:(discriminate)) as (p & j' & E & P); exists p, j'; split; [| exact P]; rewrite <- E; destruct v; reflexivity).
      destruct v as [| s | t]; try contradiction. exists (simple_piece name Glob_ (SText s)), j. split; [reflexivity |]. split; [apply simple_ok |].
      intros rw Hr. unfold test_means. cbn [simple_piece val adapt says abs_arg abs]. unfold stored.
      destruct (rw name) as [| x | t] eqn:Er; cbn [adapt compare_sql abs].
      * split; [discriminate |]. intros [(x & p & E & _) _]. discriminate.
      * split; [intros H; injection H as H; split; [eauto 6 | discriminate] | intros [(y & p & E1 & E2 & G2) _]; congruence].
      * exfalso. cbn [fits] in Hr, Ha. destruct Hr. congruence.
  - cbn [fits_arg] in Ha. destruct o; cbn [supported_op] in Hs; try contradiction; destruct Hs as [Hl Hn]; cbn [operators null_operators];
      rewrite existsb_none by exact Hn.
    + exists (many_piece name Eq_ JOr l), (Some JOr). split; [reflexivity |]. split; [apply many_ok, Hl |].
      intros rw Hr. destruct l as [| v l]; [contradiction |]. cbn [many_piece val]. rewrite disj_val_true.
      change (simple_piece name Eq_ v :: map (simple_piece name Eq_) l) with (map (simple_piece name Eq_) (v :: l)).
      unfold test_means. cbn [says abs_arg inside]. split.
      * intros (q & Hq & Hv). apply in_map_iff in Hq. destruct Hq as (w & <- & Hw).
        apply one_eq_means in Hv; [| apply Ha, Hw | exact Hr | intros ->; contradiction]. destruct Hv as [Hv1 Hv2].
        split; [exists (abs w); split; [apply in_map, Hw | exact Hv2] | intros X; contradiction].
      * intros [(x & Hx & Hq) Hnone]. apply in_map_iff in Hx. destruct Hx as (w & <- & Hw).
        exists (simple_piece name Eq_ w). split; [apply in_map, Hw |]. apply one_eq_means; [apply Ha, Hw | exact Hr | intros ->; contradiction |].
        split; [intros X; specialize (Hnone X); discriminate | exact Hq].
    + exists (many_piece name Ne_ JAnd l), (Some JAnd). split; [reflexivity |]. split; [apply many_ok, Hl |].
      intros rw Hr. destruct l as [| v l]; [contradiction |]. cbn [many_piece val]. rewrite conj_val_true.
      change (simple_piece name Ne_ v :: map (simple_piece name Ne_) l) with (map (simple_piece name Ne_) (v :: l)).
      unfold test_means. cbn [says abs_arg inside]. split.
      * intros H. assert (H' : forall w, In w (v :: l) -> rw name <> SNone /\ ~ equal (abs (rw name)) (abs w)).
        { intros w Hw. apply one_ne_means; [apply Ha, Hw | exact Hr | intros ->; contradiction | apply H, in_map, Hw]. }
        split; [| intros X; destruct (H' v (or_introl eq_refl)); contradiction].
        intros (x & Hx & Hq). apply in_map_iff in Hx. destruct Hx as (w & <- & Hw). apply (H' w Hw), Hq.
      * intros [H Hnone] q Hq. apply in_map_iff in Hq. destruct Hq as (w & <- & Hw).
        apply one_ne_means; [apply Ha, Hw | exact Hr | intros ->; contradiction |].
        split; [intros X; specialize (Hnone X); discriminate |]. intros Hq. apply H. exists (abs w). split; [apply in_map, Hw | exact Hq].
Qed.

Lemma render_tests_ok name : forall l j, (forall o a, In (o, a) l -> supported_op o a /\ fits_arg off name a) ->
  exists ps j', render_tests iso name l j = Done (map toks ps, List.concat (map pargs ps), j') /\ (forall p, In p ps -> prim_ok p) /\
    (l <> [] -> ps <> []) /\
    forall rw, fits off name (rw name) ->
      ((forall p, In p ps -> val p (stored iso rw) = Some true) <-> forall o a, In (o, a) l -> test_means name o a rw).
Proof.
  induction l as [| [o a] l IH]; intros j Hl.
  - exists [], j. split; [reflexivity |]. split; [intros p [] |]. split; [auto |]. intros rw _. split; [intros _ o a [] | intros _ p []].
  - destruct (Hl o a (or_introl eq_refl)) as [Hs Hf]. destruct (render_test_ok name o a j Hs Hf) as (p & j1 & E & P & M).
    destruct (IH j1) as (ps & j2 & E2 & P2 & _ & M2); [intros o' a' H; apply Hl; right; exact H |].
    exists (p :: ps), j2. cbn [render_tests]. rewrite E, E2. split; [reflexivity |].
    split; [intros q [<- | Hq]; [exact P | apply P2, Hq] |]. split; [discriminate |].
    intros rw Hr. split.
    + intros H o' a' [X | X]; [injection X as <- <-; apply M, H; [exact Hr | left; reflexivity] |].
      revert o' a' X. apply M2; [exact Hr |]. intros q Hq. apply H. right. exact Hq.
    + intros H q [<- | Hq]; [apply M, H; [exact Hr | left; reflexivity] |]. revert q Hq. apply M2; [exact Hr |].
      intros o' a' X. apply H. right. exact X.
Qed.

(** What a clause is to mean. *)
Definition clause_means (name : string) (c : sclause) (rw : row) : Prop :=
  match c with
  | SVal v => equal (abs (rw name)) (abs v) /\ (rw name = SNone -> v = SNone)
  | SOps l => forall o a, In (o, a) l -> test_means name o a rw
  end.
Definition fits_clause (name : string) (c : sclause) : Prop :=
  match c with SVal v => fits off name v | SOps l => forall o a, In (o, a) l -> fits_arg off name a end.
Definition clause_ok (c : sclause) : Prop := match c with SVal _ => True | SOps l => forall o a, In (o, a) l -> supported_op o a end.

Lemma render_clauses_ok : forall q j, (forall k c, In (k, c) q -> clause_ok c /\ fits_clause k c) ->
  exists ps, render_clauses iso q j = Done (map toks ps, List.concat (map pargs ps)) /\ (forall p, In p ps -> prim_ok p) /\
    ((exists k c, In (k, c) q /\ c <> SOps []) -> ps <> []) /\
    forall rw, (forall k c, In (k, c) q -> fits off k (rw k)) ->
      ((forall p, In p ps -> val p (stored iso rw) = Some true) <-> forall k c, In (k, c) q -> clause_means k c rw).
Proof.
  induction q as [| [k c] q IH]; intros j Hq.
  - exists []. split; [reflexivity |]. split; [intros p [] |]. split; [intros (k & c & [] & _) |]. intros rw _. split; [intros _ k c [] | intros _ p []].
  - destruct (Hq k c (or_introl eq_refl)) as [Hc Hf].
    assert (Hq' : forall k c, In (k, c) q -> clause_ok c /\ fits_clause k c) by (intros k' c' H; apply Hq; right; exact H).
    assert (A : exists ps j', match c with
             | SOps l => render_tests iso k l j
             | SVal SNone => Done ([[TName k; TIsNull]], [], j)
             | SVal v => Done ([[TName k; TOp Eq_; TQuestion]], [adapt iso v], j)
             end = Done (map toks ps, List.concat (map pargs ps), j') /\ (forall p, In p ps -> prim_ok p) /\
             (c <> SOps [] -> ps <> []) /\
             forall rw, fits off k (rw k) -> ((forall p, In p ps -> val p (stored iso rw) = Some true) <-> clause_means k c rw)).
    { destruct c as [v | l].
      - cbn [fits_clause] in Hf. destruct (match v with SNone => true | _ => false end) eqn:Ev.
        + destruct v; try discriminate. exists [null_piece k], j. split; [reflexivity |].
          split; [intros p [<- | []]; apply null_ok |]. split; [discriminate |]. intros rw _. cbn [clause_means]. unfold equal. split.
          * intros H. specialize (H _ (or_introl eq_refl)). cbn in H. unfold stored in H. destruct (rw k); cbn in *; intuition congruence.
          * intros [H _] p [<- | []]. cbn. unfold stored. destruct (rw k); cbn in *; congruence.
        + assert (Nv : v <> SNone) by (intros ->; discriminate).
          exists [simple_piece k Eq_ v], j. split; [destruct v; [contradiction | reflexivity | reflexivity] |].
          split; [intros p [<- | []]; apply simple_ok |]. split; [discriminate |]. intros rw Hr. cbn [clause_means].
          pose proof (one_eq_means k v rw Hf Hr Nv) as M. split.
          * intros H. specialize (H _ (or_introl eq_refl)). apply M in H. destruct H as [H1 H2]. split; [exact H2 | intros X; contradiction].
          * intros [H1 H2] p [<- | []]. apply M. split; [intros X; apply Nv, H2, X | exact H1].
      - cbn [clause_ok] in Hc. cbn [fits_clause] in Hf.
        destruct (render_tests_ok k l j) as (ps & j' & E & P & N & M); [intros o a H; split; [apply Hc, H | apply (Hf o a H)] |].
        exists ps, j'. split; [exact E |]. split; [exact P |]. split; [intros X; apply N; congruence |]. exact M. }
    destruct A as (ps & j' & E & P & N & M). destruct (IH j' Hq') as (ps2 & E2 & P2 & N2 & M2).
    exists (ps ++ ps2)%list. cbn [render_clauses]. rewrite E, E2. split; [rewrite !map_app, concat_app; reflexivity |].
    split; [intros p Hp; apply in_app_or in Hp; destruct Hp; auto |]. split.
    + intros (k' & c' & [X | X] & Hc').
      * injection X as -> ->. specialize (N Hc'). destruct ps; [contradiction | discriminate].
      * assert (ps2 <> []) by (apply N2; eauto). destruct ps, ps2; cbn; congruence.
    + intros rw Hr. assert (Hr1 : fits off k (rw k)) by (apply (Hr k c); left; reflexivity).
      assert (Hr2 : forall k c, In (k, c) q -> fits off k (rw k)) by (intros k' c' H; apply (Hr k' c'); right; exact H).
      specialize (M rw Hr1). specialize (M2 rw Hr2). split.
      * intros H k' c' [X | X]; [injection X as <- <-; apply M; intros p Hp; apply H, in_or_app; auto |].
        revert k' c' X. apply M2. intros p Hp. apply H, in_or_app. auto.
      * intros H p Hp. apply in_app_or in Hp. destruct Hp as [Hp | Hp].
        -- revert p Hp. apply M. apply H. left. reflexivity.
        -- revert p Hp. apply M2. intros k' c' X. apply H. right. exact X.
Qed.

Lemma abs_field rw k : In k columns -> field (abs_row rw) k = abs (rw k).
Proof.
  unfold field, abs_row. intros H. revert H. generalize columns as cols. intros cols H. induction cols as [| x l IH]; [destruct H |].
  cbn [map dget]. destruct (String.eqb_spec k x) as [-> | N]; [reflexivity |]. destruct H as [-> | H]; [contradiction | apply IH, H].
Qed.
Lemma aware_abs_arg a : aware (abs_arg a) = abs_arg a.
Proof. destruct a as [[] |]; reflexivity. Qed.
Lemma aware_abs v : aware (abs v) = abs v.
Proof. destruct v; reflexivity. Qed.

Lemma means_matches q rw : (forall k c, In (k, c) q -> In k columns) ->
  (forall k c, In (k, c) q -> clause_means k c rw) <-> sql_matches glob q rw.
Proof.
  intros Hk. unfold sql_matches, matches, has_values, abs_query. split.
  - intros H. split.
    + intros k c Hin. apply in_map_iff in Hin. destruct Hin as ([k' c'] & E & Hin). cbn [fst snd] in E. injection E as <- <-.
      specialize (H _ _ Hin). rewrite (abs_field rw k') by (eapply Hk, Hin). destruct c' as [v | l]; cbn [clause_means] in H.
      * rewrite !aware_abs. apply H.
      * intros o b Hb. apply in_map_iff in Hb. destruct Hb as ([o' a'] & E & Hb). cbn [fst snd] in E. injection E as <- <-.
        rewrite aware_abs_arg. apply (H _ _ Hb).
    + intros k c Hin Hn. specialize (H _ _ Hin). destruct c as [v | l]; cbn [clause_means] in H; [apply H, Hn |].
      intros o a Ha. apply (H _ _ Ha), Hn.
  - intros [H1 H2] k c Hin.
    assert (Hin' : In (k, match c with SVal v => CVal (abs v) | SOps l => COps (map (fun ob => (fst ob, abs_arg (snd ob))) l) end)
      (map (fun kc => (fst kc, match snd kc with SVal v => CVal (abs v) | SOps l => COps (map (fun ob => (fst ob, abs_arg (snd ob))) l) end)) q)).
    { apply in_map_iff. exists (k, c). split; [reflexivity | exact Hin]. }
    specialize (H1 _ _ Hin'). specialize (H2 _ _ Hin). rewrite (abs_field rw k) in H1 by (eapply Hk, Hin).
    destruct c as [v | l]; cbn [clause_means].
    + rewrite !aware_abs in H1. split; [exact H1 | exact H2].
    + intros o a Ha. unfold test_means. split.
      * specialize (H1 o (abs_arg a)). rewrite aware_abs_arg in H1. apply H1. apply in_map_iff. exists (o, a). split; [reflexivity | exact Ha].
      * intros X. apply (H2 X o a Ha).
Qed.

Lemma find_ok rows q : supported_sql q -> (forall k c, In (k, c) q -> fits_clause k c) ->
  (forall rw k, In rw rows -> fits off k (rw k)) ->
  exists out, find_records glob iso rows q = Done out /\ selects (sql_matches glob q) rows out.
Proof.
  intros (Hne & Hk & Hop) Hf Hrows.
  destruct (render_clauses_ok q None) as (ps & E & P & N & M).
  { intros k c Hin. split; [| apply Hf, Hin]. destruct c as [v | l]; [exact I |]. intros o a Ha. eapply Hop; eassumption. }
  specialize (N Hne). destruct ps as [| p ps]; [contradiction |].
  assert (EX : render_expression iso q = Done (join_with TAnd (map toks (p :: ps)), List.concat (map pargs (p :: ps)))).
  { unfold render_expression. replace (forallb _ q) with true; [rewrite E; reflexivity |]. symmetry. apply forallb_forall.
    intros [k c] Hin. cbn [fst]. apply existsb_exists. exists k. split; [eapply Hk, Hin | apply String.eqb_refl]. }
  set (ts := join_with TAnd (map toks (p :: ps))) in *. set (args := List.concat (map pargs (p :: ps))) in *.
  assert (W : forall r, where_ glob r ts args = Some (match conj_val p ps r with Some true => true | _ => false end)).
  { intros r. unfold where_. pose proof (expr_conj ps p (3 * List.length ts + 3) r [] []) as X. fold ts args in X. rewrite !app_nil_r in X.
    rewrite X; [reflexivity | apply P; left; reflexivity | intros x Hx; apply P; right; exact Hx | intros [] | intros [] | lia]. }
  unfold find_records. rewrite EX, W.
  assert (S : exists out, select glob iso rows ts args = Some out /\ selects (sql_matches glob q) rows out).
  { clear E EX. induction rows as [| rw rows IH]; [exists []; split; [reflexivity | constructor] |].
    destruct IH as (out & E & S); [intros rw' k H; apply Hrows; right; exact H |]. cbn [select]. rewrite W, E.
    assert (Q : conj_val p ps (stored iso rw) = Some true <-> sql_matches glob q rw).
    { rewrite conj_val_true, M by (intros k c Hin; apply Hrows; left; reflexivity). apply means_matches, Hk. }
    destruct (conj_val p ps (stored iso rw)) as [[] |].
    - eexists. split; [reflexivity |]. constructor; [apply Q; reflexivity | exact S].
    - eexists. split; [reflexivity |]. constructor; [intros X; apply Q in X; discriminate | exact S].
    - eexists. split; [reflexivity |]. constructor; [intros X; apply Q in X; discriminate | exact S]. }
  destruct S as (out & -> & S). exists out. split; [reflexivity | exact S].
Qed.
End proofs.
