(** C62: stream_output shows all output of the tasks as it comes.  C63: display_outputs shows all output of a result. *)
From Coq Require Import List String Ascii Bool Arith Lia Permutation.
From Verif Require Import Out_Spec Out_Model Out_Proofs Str_Spec Str_Model Str_Proofs Str_Proofs2 Str_Proofs3.
Import ListNotations.

(** ** C62 *)
(** What is on the screen for child k, of one kind *)
Definition of_child (k : nat) (p : part) (s : st) : list item := filter (is_part p) (map snd (filter (fun x => Nat.eqb (fst x) k) (screen s))).

(** Text, objects and results (in a kernel: objects and results), at any time between the publication for this child and the end of the with
    statement: first those whose callbacks ran since the child was registered; then everything that was captured before the publication,
    as captured; then those whose callbacks ran since.  [r] is what the input thread was doing at the publication: every output that arrived since
    is among those whose callbacks ran, or its callbacks are still to run ([q]). *)
Theorem C62_streamed : forall w children before others k e f p q h1 h2 h3 c,
  nth_error children k = Some (e, f) -> NoDup (map snd children) ->
  schedule (List.length children) p (h1 ++ Enter k :: h2 ++ Publish k c :: h3) q -> ~ In Leave h3 -> (w <> Kernel \/ c = POutputs \/ c = PResult) ->
  (exists l, shows_captured (ipython w) c (before f ++ arrivals f (h1 ++ h2)) l /\
     of_child k c (run w children before others (h1 ++ Enter k :: h2 ++ Publish k c :: h3)) =
       part_items (ipython w) c (handled f h2) ++ l ++ part_items (ipython w) c (handled f h3)) /\
  exists r, io p (h1 ++ Enter k :: h2) r /\ pend r f ++ arrivals f h3 = handled f h3 ++ pend q f.
Proof.
  intros w children before others k e f p q h1 h2 h3 c Hk ND S NL K. split.
  - apply (streamed_ok w children before others k e f Hk ND p q h1 h2 h3 c S NL). destruct K as [K|K]; [left; destruct w; [reflexivity | reflexivity | contradiction] | right; exact K].
  - destruct S as [I _]. replace (h1 ++ Enter k :: h2 ++ Publish k c :: h3) with ((h1 ++ Enter k :: h2) ++ Publish k c :: h3) in I by (rewrite <- app_assoc; reflexivity). apply io_app in I. destruct I as (r & I1 & I2). exists r. split; [exact I1|].
    pose proof (io_balance _ _ _ f I2) as B. exact B.
Qed.
(** ... so if no callbacks for this request ran between the two, each output has been shown exactly once when the input thread is not in the middle
    of one: the text is what was captured of the first ones and then the others, as they are. *)
Theorem C62_once : forall w children before others k e f p h1 h2 h3 (err : bool),
  nth_error children k = Some (e, f) -> NoDup (map snd children) ->
  schedule (List.length children) p (h1 ++ Enter k :: h2 ++ Publish k (if err then PErr else POut) :: h3) None -> ~ In Leave h3 -> w <> Kernel ->
  io p (h1 ++ Enter k :: h2) None -> handled f h2 = [] ->
  exists s, captures (pieces err (before f ++ arrivals f (h1 ++ h2))) s /\
    texts (of_child k (if err then PErr else POut) (run w children before others (h1 ++ Enter k :: h2 ++ Publish k (if err then PErr else POut) :: h3))) =
      s ++ List.concat (pieces err (arrivals f h3)).
Proof.
  intros w children before others k e f p h1 h2 h3 err Hk ND S NL K I0 H2. set (c := if err then PErr else POut) in *.
  destruct (C62_streamed w children before others k e f p None h1 h2 h3 c Hk ND S NL (or_introl K)) as [(l & L & E) _].
  assert (HA : handled f h3 = arrivals f h3).
  { destruct S as [I _]. replace (h1 ++ Enter k :: h2 ++ Publish k c :: h3) with ((h1 ++ Enter k :: h2) ++ Publish k c :: h3) in I by (rewrite <- app_assoc; reflexivity). apply io_app in I. destruct I as (r & I1 & I2).
    pose proof (io_balance _ _ _ f I1) as B1. pose proof (io_balance _ _ _ f I0) as B0. rewrite B0 in B1. apply app_inv_head in B1. pose proof (io_balance _ _ _ f I2) as B2. rewrite <- B1 in B2. cbn [pend app] in B2. rewrite app_nil_r in B2. symmetry. exact B2. }
  assert (T : forall os, texts (part_items (ipython w) c os) = List.concat (pieces err os)).
  { intros os. unfold texts, part_items, pieces, c. induction os as [|o os IH]; [reflexivity|]. cbn [flat_map]. rewrite filter_app, map_app, !concat_app, IH. f_equal. destruct o as [b t|x|x|x|x|x| | |]; cbn [items]; try (destruct err; reflexivity).
    - destruct b, err; reflexivity. - destruct (ipython w), err; reflexivity. }
  assert (TA : forall a b, texts (a ++ b) = texts a ++ texts b) by (intros; unfold texts; rewrite map_app, concat_app; reflexivity).
  rewrite E, !TA, !T, H2, HA. cbn [pieces flat_map List.concat app]. unfold c in L. destruct err; destruct L as (s & L1 & ->); exists s; (split; [exact L1|]); f_equal; destruct s; cbn; rewrite ?app_nil_r; reflexivity.
Qed.
(** Errors are shown when they come, those that came before are not. *)
Theorem C62_errors : forall w children before others k e f p q h1 h2, nth_error children k = Some (e, f) -> NoDup (map snd children) ->
  schedule (List.length children) p (h1 ++ Enter k :: h2) q -> ~ In Leave h2 ->
  filter is_problem (map snd (filter (fun x => Nat.eqb (fst x) k) (screen (run w children before others (h1 ++ Enter k :: h2))))) =
  flat_map (fun o => match o with Err c => [Problem c] | _ => [] end) (handled f h2).
Proof.
  intros w children before others k e f p q h1 h2 Hk ND S NL. pose proof (errors_ok w children before others k e f Hk ND p q h1 h2 S NL) as E. unfold view in E. rewrite E.
  generalize (handled f h2) as os. induction os as [|o os IH]; [reflexivity|]. cbn [flat_map]. rewrite filter_app, IH. f_equal. destruct o; try reflexivity. cbn [items]. destruct (ipython w); reflexivity.
Qed.
(** On a terminal each piece of text stands under the header of its stream and engine, which stands on a line of its own. *)
Theorem C62_terminal : forall children s, terminal children s =
  layout (sections (flat_map (fun x => match snd x with
                                       | Text err t => match nth_error children (fst x) with Some (e, _) => [(err, e, t)] | None => [] end
                                       | _ => [] end) (screen s))).
Proof. intros. apply display_layout. Qed.
(** In a notebook: a stream from which something has come since the child was registered is shown in full, all that has arrived. *)
Theorem C62_notebook : forall children before others k e f p q h1 h2 err, nth_error children k = Some (e, f) -> NoDup (map snd children) ->
  schedule (List.length children) p (h1 ++ Enter k :: h2) q -> ~ In Leave h2 ->
  existsb (is_stream err) (handled f h2) = true -> existsb (is_stream err) (pend q f) = false ->
  exists s, captures (pieces err (before f ++ arrivals f (h1 ++ Enter k :: h2))) s /\
    get_display (Some f, err) (streamed (run Kernel children before others (h1 ++ Enter k :: h2))) = Some (header (err, e) ++ s).
Proof. intros children before others k e f p q h1 h2 err Hk ND. apply (notebook_ok children before others k e f Hk ND). Qed.
(** After the with statement nothing more is shown, and the callbacks are those of before. *)
Theorem C62_leave : forall w children before others p q h1 h2, NoDup (map snd children) -> schedule (List.length children) p (h1 ++ Leave :: h2) q ->
  let s := run w children before others (h1 ++ Leave :: h2) in
  (forall g, callbacks s g = callbacks (start before others) g) /\ screen s = screen (run w children before others h1) /\ streamed s = streamed (run w children before others h1).
Proof. intros w children before others p q h1 h2 ND S. exact (leave_ok w children before others ND p q h1 h2 S). Qed.

(** ** C63 *)
(** Grouped by type or by engine: of each stream of each engine all text, in order (unless only results are wanted); in IPython all displayed objects, with
    the engine, in order; and the results. *)
Theorem C63_all : forall w g result_only l, g = "type"%string \/ g = "engine"%string -> exists acts, display_outputs w g result_only false l = Some acts /\
  (forall err e, printed (err, e) acts = if result_only then [] else
     List.concat (map (fun x => if Nat.eqb (sh_engine x) e then (if err then sh_err x else sh_out x) else []) l)) /\
  republished acts = (if ipython w && negb result_only then flat_map (fun x => map (pair (sh_engine x)) (sh_plots x)) l else []) /\
  values acts = (if ipython w then flat_map (fun x => match sh_value x with Some c => [c] | None => [] end) l else []).
Proof.
  intros w g ro l [->| ->]; eexists; (split; [reflexivity|]).
  - assert (PA : forall s a b, printed s (a ++ b) = printed s a ++ printed s b) by (intros; unfold printed; rewrite map_app, concat_app; reflexivity).
    assert (RA : forall a b, republished (a ++ b) = republished a ++ republished b) by (intros; unfold republished; rewrite flat_map_app; reflexivity).
    assert (VA : forall a b, values (a ++ b) = values a ++ values b) by (intros; unfold values; rewrite flat_map_app; reflexivity).
    set (P1 := map (fun x => Print (Some (false, sh_engine x)) false (sh_out x)) l). set (P2 := map (fun x => Print (Some (true, sh_engine x)) true (sh_err x)) l).
    set (Q := flat_map (fun x => (if is_nil (sh_plots x) then [] else [Label (sh_engine x)]) ++ map (Republish (sh_engine x)) (sh_plots x)) l).
    set (V := flat_map (fun x => match sh_value x with Some c => [Show c] | None => [] end) l).
    assert (A1 : forall err e, printed (err, e) P1 = if err then [] else List.concat (map (fun x => if Nat.eqb (sh_engine x) e then sh_out x else []) l)).
    { intros err e. unfold P1, printed. rewrite map_map. destruct err.
      - induction l as [|x l IH]; [reflexivity|]. cbn [map List.concat]. unfold same. cbn [fst snd Bool.eqb andb app]. exact IH.
      - reflexivity. }
    assert (A2 : forall err e, printed (err, e) P2 = if err then List.concat (map (fun x => if Nat.eqb (sh_engine x) e then sh_err x else []) l) else []).
    { intros err e. unfold P2, printed. rewrite map_map. destruct err; [reflexivity|]. clear. induction l as [|x l IH]; [reflexivity|]. cbn [map List.concat]. unfold same. cbn [fst snd Bool.eqb andb app]. exact IH. }
    assert (A3 : republished P1 = [] /\ republished P2 = [] /\ values P1 = [] /\ values P2 = []) by (unfold P1, P2, republished, values; clear; induction l as [|x l (I1 & I2 & I3 & I4)]; [repeat split | cbn [map flat_map app]; repeat split; assumption]).
    assert (A4 : (forall s, printed s Q = []) /\ values Q = [] /\ republished Q = flat_map (fun x => map (pair (sh_engine x)) (sh_plots x)) l).
    { assert (B : forall e ps, (forall s, printed s (map (Republish e) ps) = []) /\ values (map (Republish e) ps) = [] /\ republished (map (Republish e) ps) = map (pair e) ps).
      { intros e. induction ps as [|c ps (I1 & I2 & I3)]; [repeat split|]. unfold printed, values, republished in *. cbn [map flat_map List.concat app]. rewrite I3. repeat split; assumption. }
      unfold Q. clear -PA RA VA B. induction l as [|x l (I1 & I2 & I3)]; [repeat split|]. cbn [flat_map]. destruct (B (sh_engine x) (sh_plots x)) as (B1 & B2 & B3).
      split; [|split]; [intros s; rewrite !PA, I1, B1 | rewrite !VA, I2, B2 | rewrite !RA, I3, B3]; destruct (is_nil _); reflexivity. }
    assert (A5 : (forall s, printed s V = []) /\ republished V = [] /\ values V = flat_map (fun x => match sh_value x with Some c => [c] | None => [] end) l).
    { unfold V. clear -PA RA VA. induction l as [|x l (I1 & I2 & I3)]; [repeat split|]. cbn [flat_map]. split; [|split]; [intros s; rewrite PA, I1 | rewrite RA, I2 | rewrite VA, I3]; destruct (sh_value x); reflexivity. }
    destruct A3 as (A31 & A32 & A33 & A34). destruct A4 as (A41 & A42 & A43). destruct A5 as (A51 & A52 & A53). unfold by_type. fold P1 P2 V. fold Q.
    split; [|split].
    + intros err e. destruct ro, (ipython w); rewrite ?PA, ?A1, ?A2, ?A41, ?A51, ?app_nil_r; try reflexivity; destruct err; rewrite ?app_nil_r; reflexivity.
    + destruct ro, (ipython w); cbn [andb negb]; rewrite ?RA, ?A31, ?A32, ?A43, ?A52, ?app_nil_r; reflexivity.
    + destruct ro, (ipython w); rewrite ?VA, ?A33, ?A34, ?A42, ?A53; reflexivity.
  - assert (PA : forall s a b, printed s (a ++ b) = printed s a ++ printed s b) by (intros; unfold printed; rewrite map_app, concat_app; reflexivity).
    assert (RA : forall a b, republished (a ++ b) = republished a ++ republished b) by (intros; unfold republished; rewrite flat_map_app; reflexivity).
    assert (VA : forall a b, values (a ++ b) = values a ++ values b) by (intros; unfold values; rewrite flat_map_app; reflexivity).
    assert (B : forall e ps, (forall s, printed s (map (Republish e) ps) = []) /\ values (map (Republish e) ps) = [] /\ republished (map (Republish e) ps) = map (pair e) ps).
    { intros e. induction ps as [|c ps (I1 & I2 & I3)]; [repeat split|]. unfold printed, values, republished in *. cbn [map flat_map List.concat app]. rewrite I3. repeat split; assumption. }
    assert (X : forall x, (forall err e, printed (err, e) (display_engine w ro x) = if ro then [] else if Nat.eqb (sh_engine x) e then (if err then sh_err x else sh_out x) else []) /\
      republished (display_engine w ro x) = (if ipython w && negb ro then map (pair (sh_engine x)) (sh_plots x) else []) /\
      values (display_engine w ro x) = (if ipython w then match sh_value x with Some c => [c] | None => [] end else [])).
    { intros x. destruct (B (sh_engine x) (sh_plots x)) as (B1 & B2 & B3). unfold display_engine. split; [|split].
      - intros err e. rewrite PA. replace (printed (err, e) (if ipython w then _ else [])) with (@nil ascii).
        + rewrite app_nil_r. destruct ro; [reflexivity|]. unfold printed, same. cbn [map List.concat fst snd]. destruct err; cbn [Bool.eqb andb app]; destruct (Nat.eqb _ e); cbn [app]; rewrite ?app_nil_r; reflexivity.
        + destruct (ipython w); [|reflexivity]. rewrite !PA. match goal with |- [] = printed _ (if ?b then _ else _) ++ _ => destruct b end; destruct ro; rewrite ?B1; destruct (sh_value x); reflexivity.
      - rewrite RA. replace (republished (if ro then [] else _)) with (@nil (nat * string)) by (destruct ro; reflexivity). cbn [app]. destruct (ipython w); [|reflexivity]. cbn [andb]. rewrite !RA. replace (republished match sh_value x with Some c => [Show c] | None => [] end) with (@nil (nat * string)) by (destruct (sh_value x); reflexivity).
        rewrite app_nil_r. destruct ro; cbn [negb]; rewrite ?B3; match goal with |- republished (if ?b then _ else _) ++ _ = _ => destruct b end; reflexivity.
      - rewrite VA. replace (values (if ro then [] else _)) with (@nil string) by (destruct ro; reflexivity). cbn [app]. destruct (ipython w); [|reflexivity]. rewrite !VA. replace (values (if ro then [] else map (Republish (sh_engine x)) (sh_plots x))) with (@nil string) by (destruct ro; [|rewrite B2]; reflexivity).
        match goal with |- values (if ?b then _ else _) ++ _ = _ => destruct b end; destruct (sh_value x); reflexivity. }
    induction l as [|x l (I1 & I2 & I3)].
    + split; [intros; destruct ro; reflexivity|]. split; [destruct (ipython w && negb ro) | destruct (ipython w)]; reflexivity.
    + destruct (X x) as (X1 & X2 & X3). cbn [flat_map map List.concat]. split; [|split].
      * intros err e. rewrite PA, X1, I1. destruct ro; reflexivity.
      * rewrite RA, X2, I2. destruct (ipython w && negb ro); reflexivity.
      * rewrite VA, X3, I3. destruct (ipython w); reflexivity.
Qed.
(** The result of one request: without headers, whatever [groupby] is. *)
Theorem C63_single : forall w g result_only x, exists acts, display_outputs w g result_only true [x] = Some acts /\
  List.concat (map (fun a => match a with Print _ false t => t | _ => [] end) acts) = (if result_only then [] else sh_out x) /\
  List.concat (map (fun a => match a with Print _ true t => t | _ => [] end) acts) = (if result_only then [] else sh_err x) /\
  (forall s e t, ~ In (Print (Some s) e t) acts) /\
  republished acts = (if ipython w && negb result_only then map (pair (sh_engine x)) (sh_plots x) else []) /\
  values acts = (if ipython w then match sh_value x with Some c => [c] | None => [] end else []).
Proof.
  intros w g ro x. eexists. split; [reflexivity|]. unfold single. cbn [flat_map]. rewrite app_nil_r.
  assert (B : forall ps e, let l := map (Republish e) ps in List.concat (map (fun a => match a with Print _ false t => t | _ => [] end) l) = [] /\
     List.concat (map (fun a => match a with Print _ true t => t | _ => [] end) l) = [] /\ republished l = map (pair e) ps /\ values l = [] /\ (forall s b t, ~ In (Print (Some s) b t) l)).
  { intros ps e l. subst l. unfold republished, values. induction ps as [|c ps (I1 & I2 & I3 & I4 & I5)]; [repeat split; intros; intros []|]. cbn [map List.concat flat_map app]. rewrite I3. repeat split; try assumption. intros s b t [H|H]; [discriminate | exact (I5 _ _ _ H)]. }
  destruct (B (sh_plots x) (sh_engine x)) as (B1 & B2 & B3 & B4 & B5). unfold republished, values in *.
  destruct ro, (ipython w), (sh_value x); cbn [app andb negb]; rewrite ?map_app, ?flat_map_app, ?concat_app; cbn [map List.concat flat_map app]; rewrite ?map_app, ?flat_map_app, ?concat_app, ?B1, ?B2, ?B3, ?B4; cbn [map List.concat flat_map app]; rewrite ?app_nil_r;
  (split; [reflexivity|]); (split; [reflexivity|]); (split; [|split; reflexivity]); intros s0 b0 t0 H; cbn [In] in H; rewrite ?in_app_iff in H; cbn [In] in H; try (repeat destruct H as [H|H]; try discriminate; try contradiction; exact (B5 _ _ _ H)).
Qed.
(** Everything else is refused (unless it is the result of one request). *)
Theorem C63_bad_groupby : forall w g result_only l, ~ In g ["type"; "engine"; "order"]%string -> display_outputs w g result_only false l = None.
Proof.
  intros w g ro l H. unfold display_outputs. destruct (String.eqb_spec g "engine"); [subst; destruct H; cbn; auto|]. destruct (String.eqb_spec g "type"); [subst; destruct H; cbn; auto|].
  destruct (String.eqb_spec g "order"); [subst; destruct H; cbn; auto|]. reflexivity.
Qed.
(** What is printed, on a terminal, by the first call: under headers as in C62 *)
Definition prints (acts : list act) : list (bool * nat * text) := flat_map (fun a => match a with Print (Some s) _ t => [(s, t)] | _ => [] end) acts.
Theorem C63_terminal : forall acts, display_all (prints acts) ([], true) = layout (sections (prints acts)).
Proof. intros. apply display_layout. Qed.
(** Grouped by order: all displayed objects, if every request has the same number of them and no two were run by the same engine. *)
Lemma flat_map_swap : forall A B C (g : A -> B -> list C) l m, Permutation (flat_map (fun a => flat_map (g a) m) l) (flat_map (fun b => flat_map (fun a => g a b) l) m).
Proof.
  intros A B C g. induction l as [|a l IH]; intros m; cbn [flat_map].
  - induction m; [constructor | assumption].
  - etransitivity; [apply Permutation_app_head, IH|]. clear IH. induction m as [|b m IH]; [constructor|]. cbn [flat_map]. rewrite <- app_assoc. rewrite <- app_assoc. apply Permutation_app_head.
    etransitivity; [|apply Permutation_app_head, IH]. rewrite !app_assoc. apply Permutation_app_tail, Permutation_app_comm.
Qed.
Lemma output_dict_at : forall l x, NoDup (map sh_engine l) -> In x l -> output_dict l (sh_engine x) = sh_plots x.
Proof.
  intros l x N H. unfold output_dict. assert (G : forall l acc, ~ In (sh_engine x) (map sh_engine l) -> fold_left (fun acc y => if Nat.eqb (sh_engine y) (sh_engine x) then sh_plots y else acc) l acc = acc).
  { induction l0 as [|y l0 IH]; intros acc Hn; [reflexivity|]. cbn [fold_left]. destruct (Nat.eqb_spec (sh_engine y) (sh_engine x)) as [E|]; [destruct Hn; left; exact E|]. apply IH. intros X. apply Hn. right. exact X. }
  generalize (@nil string) as acc. revert N H. induction l as [|y l IH]; intros N H acc; [destruct H|]. cbn [map] in N. inversion_clear N. cbn [fold_left]. destruct H as [->|H]; [rewrite Nat.eqb_refl; apply G; assumption | apply IH; assumption].
Qed.
Lemma max_same : forall l n, l <> [] -> (forall x : nat, In x l -> x = n) -> list_max l = n.
Proof.
  induction l as [|x l IH]; intros n N H; [contradiction|]. cbn [list_max fold_right]. rewrite (H x (or_introl eq_refl)). destruct l as [|y l]; [cbn; lia|].
  change (fold_right Init.Nat.max 0 (y :: l)) with (list_max (y :: l)). rewrite (IH n); [lia | discriminate | intros z Hz; apply H; right; exact Hz].
Qed.
Theorem C63_order : forall w l n acts, NoDup (map sh_engine l) -> (forall x, In x l -> List.length (sh_plots x) = n) -> l <> [] ->
  display_outputs w "order" false false l = Some acts ->
  Permutation (republished acts) (if ipython w then flat_map (fun x => map (pair (sh_engine x)) (sh_plots x)) l else []).
Proof.
  intros w l n acts N Len NE E. assert (E' : Some (by_type w true false l) = Some acts) by (rewrite <- E; unfold display_outputs; cbn [String.eqb Ascii.eqb Bool.eqb]; destruct l; [contradiction|]; cbn [is_nil]; rewrite andb_false_r; reflexivity). injection E' as <-. clear E. assert (RA : forall a b, republished (a ++ b) = republished a ++ republished b) by (intros; unfold republished; rewrite flat_map_app; reflexivity).
  unfold by_type. rewrite !RA. assert (P0 : forall (s : shown -> option (bool * nat)) b t l', republished (map (fun x => Print (s x) b (t x)) l') = []) by (intros s b t; induction l' as [|x l' IH]; [reflexivity | exact IH]).
  rewrite (P0 (fun x => Some (false, sh_engine x)) false sh_out), (P0 (fun x => Some (true, sh_engine x)) true sh_err). cbn [app]. destruct (ipython w); [|reflexivity]. rewrite RA.
  replace (republished (flat_map (fun x => match sh_value x with Some c => [Show c] | None => [] end) l)) with (@nil (nat * string)) by (clear; induction l as [|x l IH]; [reflexivity|]; cbn [flat_map]; unfold republished in *; rewrite flat_map_app, <- IH; destruct (sh_value x); reflexivity).
  rewrite app_nil_r. unfold by_order. cbv zeta. assert (Mx : list_max (map (fun x => List.length (sh_plots x)) l) = n).
  { apply max_same; [destruct l; [contradiction | discriminate]|]. intros y H. apply in_map_iff in H. destruct H as (x & <- & H). exact (Len x H). }
  rewrite Mx. assert (FM : forall A B (g h : A -> list B) m, (forall a, In a m -> g a = h a) -> flat_map g m = flat_map h m).
  { intros A B g h. induction m as [|a m IH]; intros H; [reflexivity|]. cbn [flat_map]. rewrite H by (left; reflexivity). rewrite IH by (intros b Hb; apply H; right; exact Hb). reflexivity. }
  rewrite (FM _ _ _ (fun i => flat_map (fun x => match nth_error (sh_plots x) i with Some c => [Label (sh_engine x); Republish (sh_engine x) c] | None => [] end) l)).
  2: { intros i _. apply FM. intros x Hx. rewrite output_dict_at by assumption. rewrite (Len x Hx), Nat.leb_refl. reflexivity. }
  unfold republished. etransitivity; [apply Permutation_flat_map, flat_map_swap|]. clear NE Mx N. induction l as [|x l IH]; [constructor|]. cbn [flat_map]. rewrite flat_map_app.
  apply Permutation_app; [|apply IH; intros y Hy; apply Len; right; exact Hy]. rewrite <- (Len x (or_introl eq_refl)). clear. match goal with |- Permutation ?a ?b => assert (a = b) as ->; [|reflexivity] end.
  induction (sh_plots x) as [|c ps IH]; [reflexivity|]. cbn [List.length seq flat_map nth_error map app]. f_equal. rewrite <- IH. rewrite <- seq_shift. clear. induction (seq 0 (List.length ps)) as [|i l IH]; [reflexivity|]. cbn [map flat_map nth_error]. rewrite !flat_map_app, IH. reflexivity.
Qed.

(** ** Examples *)
Definition s2t := list_ascii_of_string.
Definition two : list (nat * nat) := [(0, 10); (1, 11)].                    (* engines 0 and 1, requests 10 and 11 *)
Definition had (f : nat) : list output := match f with 10 => [Stream false (s2t "a")] | 11 => [Stream false (s2t "b"); Display "plot"] | _ => [] end.
Definition story : list event :=
  [Enter 0; Publish 0 POut; Publish 0 PErr; Publish 0 POutputs; Publish 0 PResult; Arrive 10 (Stream false (s2t "c")); Enter 1; Callbacks 10 (Stream false (s2t "c"));
   Publish 1 POut; Publish 1 PErr; Publish 1 POutputs; Publish 1 PResult; Arrive 11 (Stream true (s2t "d")); Callbacks 11 (Stream true (s2t "d")); Arrive 11 (Err "ZeroDivisionError"); Callbacks 11 (Err "ZeroDivisionError")].
Ltac schedule_tac := split; [repeat first [apply io_nil | apply io_arrive | apply io_callbacks | (apply io_main; [reflexivity|])] | eexists; reflexivity].
Example story_ok : schedule 2 None story None /\ schedule 2 None (story ++ [Leave; Arrive 10 Busy]) (Some (10, Busy)).
Proof. split; schedule_tac. Qed.
Example C62_nonvacuous : terminal two (run Shell two had (fun _ => 1) story) =
  s2t "[stdout:0] " ++ [LF] ++ s2t "ac" ++ [LF] ++ s2t "[stdout:1] " ++ [LF] ++ s2t "b" ++ [LF] ++ s2t "[stderr:1] " ++ [LF] ++ s2t "d" /\
  of_child 1 POutputs (run Shell two had (fun _ => 1) story) = [Plot "plot"] /\ screen (run Shell two had (fun _ => 1) (story ++ [Leave; Arrive 10 Busy])) = screen (run Shell two had (fun _ => 1) story) /\
  get_display (Some 10, false) (streamed (run Kernel two had (fun _ => 1) story)) = Some (s2t "[stdout:0] ac").
Proof. repeat split; vm_compute; reflexivity. Qed.
Definition shown2 : list shown := [Shown 0 (s2t "x") [] ["p1"; "p2"]%string None; Shown 1 (s2t "y") (s2t "e") ["q1"; "q2"]%string (Some "v"%string)].
Example C63_nonvacuous : option_map republished (display_outputs Shell "order" false false shown2) = Some [(0, "p1"); (1, "q1"); (0, "p2"); (1, "q2")]%string /\
  option_map republished (display_outputs Shell "type" false false shown2) = Some [(0, "p1"); (0, "p2"); (1, "q1"); (1, "q2")]%string.
Proof. split; reflexivity. Qed.

(** ** What does not hold *)
(** An output that comes while the child is being set up is shown twice. *)
Theorem C62_race_refuted : exists h, schedule 1 None h None /\ arrivals 10 h = [Stream false (s2t "c")] /\ texts (of_child 0 POut (run Shell [(0, 10)] (fun _ => []) (fun _ => 0) h)) = s2t "cc".
Proof. exists [Enter 0; Arrive 10 (Stream false (s2t "c")); Callbacks 10 (Stream false (s2t "c")); Publish 0 POut]. split; [schedule_tac | split; reflexivity]. Qed.
(** In a notebook the output that engines had printed before is all shown in the same place, each replacing that of the engine before. *)
Theorem C62_notebook_overwrites_refuted : exists h, schedule 2 None h None /\ In (Publish 1 POut) h /\ pieces false (had 10) = [s2t "a"] /\
  streamed (run Kernel two had (fun _ => 0) h) = [((None, false), s2t "[stdout:1] b")].
Proof.
  exists [Enter 0; Publish 0 POut; Publish 0 PErr; Publish 0 POutputs; Publish 0 PResult; Enter 1; Publish 1 POut]. split; [schedule_tac|]. split; [repeat (try (left; reflexivity); right)|]. split; vm_compute; reflexivity.
Qed.
(** The same request twice (as in get_result([m, m])): a callback stays behind. *)
Theorem C62_same_request_refuted : exists h, schedule 2 None h None /\ In Leave h /\ callbacks (run Shell [(0, 10); (0, 10)] (fun _ => []) (fun _ => 0) h) 10 = [Some 0].
Proof.
  exists (program 2). split; [schedule_tac|]. split; [repeat (try (left; reflexivity); right) | vm_compute; reflexivity].
Qed.
(** A result of a load-balanced view has no targets: stream_output raises an exception. *)
Theorem C62_load_balanced_refuted : forall futures, stream_children None futures = None.
Proof. reflexivity. Qed.
(** With groupby='order' the objects of a request that has fewer of them than another are not shown at all; *)
Theorem C63_order_refuted : exists l, NoDup (map sh_engine l) /\ option_map republished (display_outputs Shell "order" false false l) = Some [(1, "q1"); (1, "q2")]%string /\ In (Shown 0 [] [] ["p1"]%string None) l.
Proof.
  exists [Shown 0 [] [] ["p1"]%string None; Shown 1 [] [] ["q1"; "q2"]%string None]. split; [repeat constructor; cbn; intuition lia|]. split; [reflexivity | left; reflexivity].
Qed.
(** and if one engine ran two of the requests then those of one are shown twice and of the other never. *)
Theorem C63_order_engine_refuted : exists l, (forall x, In x l -> List.length (sh_plots x) = 1) /\ option_map republished (display_outputs Shell "order" false false l) = Some [(0, "q1"); (0, "q1")]%string /\ In (Shown 0 [] [] ["p1"]%string None) l.
Proof.
  exists [Shown 0 [] [] ["p1"]%string None; Shown 0 [] [] ["q1"]%string None]. split; [intros x [<-|[<-|[]]]; reflexivity|]. split; [reflexivity | left; reflexivity].
Qed.
Print Assumptions C62_streamed.
Print Assumptions C62_once.
Print Assumptions C62_errors.
Print Assumptions C62_terminal.
Print Assumptions C62_notebook.
Print Assumptions C62_leave.
Print Assumptions C63_all.
Print Assumptions C63_order.
Print Assumptions C63_single.
Print Assumptions C63_bad_groupby.
Print Assumptions C63_terminal.
Print Assumptions C62_race_refuted.
Print Assumptions C62_notebook_overwrites_refuted.
Print Assumptions C62_same_request_refuted.
Print Assumptions C62_load_balanced_refuted.
Print Assumptions C63_order_refuted.
Print Assumptions C63_order_engine_refuted.
