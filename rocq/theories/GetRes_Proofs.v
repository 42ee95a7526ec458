From stdpp Require Import base gmap list.
From Verif Require Import Result_Model Result_Spec Result_Props GetRes_Spec GetRes_Model.

(** ** get_result *)
Lemma py_index_stands history i m : py_index history i = Some m -> stands_for history (Index i) [m].
Proof.
  unfold py_index. intros H. destruct (decide (0 <= i)%Z) as [Hi | Hi].
  - rewrite <- (Z2Nat.id i) by exact Hi. apply sf_index, H.
  - destruct (decide (0 <= Z.of_nat (length history) + i)%Z) as [Hj | Hj]; [| discriminate].
    destruct (elem_of_list_split_length _ _ _ H) as (b & a & E & Hk).
    assert (L : length history = length b + S (length a)) by (rewrite E, app_length; reflexivity).
    replace i with (- Z.of_nat (S (length a)))%Z by lia. eapply sf_index_end; [exact E | reflexivity].
Qed.
Lemma stands_py_index history i ids : stands_for history (Index i) ids -> exists m, ids = [m] /\ py_index history i = Some m.
Proof.
  intros H. inversion H as [n m Hm | n m b a Hh Hl | |]; subst; exists m; (split; [reflexivity |]); unfold py_index.
  - rewrite decide_True by lia. rewrite Nat2Z.id. exact Hm.
  - rewrite decide_False by lia. rewrite app_length. cbn [length]. rewrite decide_True by lia.
    replace (Z.to_nat _) with (length b) by lia. apply list_lookup_middle. reflexivity.
Qed.

Section get.
Context (history : list nat) (futures results : gset nat).
Notation aw := (fun m => m ∈ futures).
Notation fi := (fun m => m ∈ results).

Definition child_of (s : source) (m : nat) : child := match s with Awaited => Name m | _ => Future m end.

Lemma add_job_source s j ids fs ms : stands_for history j ids -> comes_from aw fi s j ids ->
  add_job history futures results j (fs, ms) =
  Some (match s with Remote => (fs, ms ++ ids) | _ => (fs ++ map (child_of s) ids, ms) end).
Proof.
  intros Hs Hc. destruct j as [i | m | hub l]; cbn [add_job].
  - destruct (stands_py_index _ _ _ Hs) as (m & -> & E). rewrite E. cbn in Hc. rewrite Forall_singleton in Hc.
    destruct s; repeat case_decide; try tauto; reflexivity.
  - inversion Hs; subst. cbn in Hc. rewrite Forall_singleton in Hc.
    destruct s; repeat case_decide; try tauto; reflexivity.
  - inversion Hs; subst. cbn in Hc. destruct s; [destruct Hc | |]; subst; reflexivity.
Qed.
Lemma add_jobs_source s js idss : Forall2 (stands_for history) js idss -> Forall2 (comes_from aw fi s) js idss ->
  forall fs ms, add_jobs history futures results js (fs, ms) =
  Some (match s with Remote => (fs, ms ++ concat idss) | _ => (fs ++ map (child_of s) (concat idss), ms) end).
Proof.
  induction 1 as [| j ids js idss Hj Hr IH]; intros Hc fs ms.
  - cbn. destruct s; rewrite ?app_nil_r; reflexivity.
  - inversion Hc; subst. cbn [add_jobs]. rewrite (add_job_source s j ids) by assumption.
    destruct s; rewrite IH by assumption; cbn [concat]; rewrite ?map_app, <- ?app_assoc; reflexivity.
Qed.
Lemma stands_nonempty j ids : stands_for history j ids -> ids <> [].
Proof. intros H. inversion H; subst; congruence. Qed.
Lemma all_names_names l : all_names (map Name l) = Some l.
Proof. induction l as [| x l IH]; [reflexivity |]. cbn. rewrite IH. reflexivity. Qed.
Lemma all_futures_futures l : all_futures (map Future l) = Some l.
Proof. induction l as [| x l IH]; [reflexivity |]. cbn. rewrite IH. reflexivity. Qed.
Lemma make_source single s ids : ids <> [] -> s <> Remote -> make single (map (child_of s) ids) = Local single ids.
Proof.
  intros Hn Hs. destruct ids as [| m l]; [contradiction |].
  destruct s; [| | contradiction]; unfold make.
  - change (map (child_of Awaited) (m :: l)) with (map Name (m :: l)). rewrite all_names_names. reflexivity.
  - change (map (child_of Cached) (m :: l)) with (map Future (m :: l)). rewrite all_futures_futures. reflexivity.
Qed.

Lemma kept_refl {A} (l : list A) : kept l l.
Proof. induction l; constructor; assumption. Qed.
Lemma kept_app {A} (a b c d : list A) : kept a b -> kept c d -> kept (a ++ c) (b ++ d).
Proof. induction 1; intros; cbn [app]; [assumption | constructor; auto | constructor; auto]. Qed.
Lemma kept_none {A} (l : list A) : kept [] l.
Proof. induction l; constructor; assumption. Qed.

Definition id_of (c : child) : nat := match c with Name m | Future m => m end.
Lemma add_job_any j fs ms fs' ms' : add_job history futures results j (fs, ms) = Some (fs', ms') ->
  (forall hub l, j = Handle hub l -> l <> []) ->
  exists ids nf nm, stands_for history j ids /\ fs' = fs ++ nf /\ ms' = ms ++ nm /\
    ((map id_of nf = ids /\ nm = []) \/ (nf = [] /\ nm = ids)).
Proof.
  intros H Hne.
  assert (by_id : forall m, (if decide (m ∈ futures) then Some (fs ++ [Name m], ms)
      else if decide (m ∈ results) then Some (fs ++ [Future m], ms) else Some (fs, ms ++ [m])) = Some (fs', ms') ->
      exists nf nm, fs' = fs ++ nf /\ ms' = ms ++ nm /\ ((map id_of nf = [m] /\ nm = []) \/ (nf = [] /\ nm = [m]))).
  { intros m E. repeat case_decide; injection E as <- <-.
    - exists [Name m], []. rewrite app_nil_r. auto.
    - exists [Future m], []. rewrite app_nil_r. auto.
    - exists [], [m]. rewrite app_nil_r. auto. }
  destruct j as [i | m | hub l]; cbn [add_job] in H.
  - destruct (py_index history i) as [m |] eqn:E; [| discriminate]. destruct (by_id m H) as (nf & nm & ? & ? & ?).
    exists [m], nf, nm. split; [apply py_index_stands, E | auto].
  - destruct (by_id m H) as (nf & nm & ? & ? & ?). exists [m], nf, nm. split; [constructor | auto].
  - exists l. destruct hub; injection H as <- <-.
    + exists [], l. rewrite app_nil_r. split; [constructor; eauto | auto].
    + exists (map Future l), []. rewrite app_nil_r. split; [constructor; eauto |].
      split; [reflexivity |]. split; [reflexivity |]. left. split; [| reflexivity]. rewrite map_map. apply map_id.
Qed.
Lemma add_jobs_any js : (forall hub l, In (Handle hub l) js -> l <> []) -> forall fs ms fs' ms',
  add_jobs history futures results js (fs, ms) = Some (fs', ms') ->
  exists idss nf nm, Forall2 (stands_for history) js idss /\ fs' = fs ++ nf /\ ms' = ms ++ nm /\
    kept nm (concat idss) /\ kept (map id_of nf) (concat idss) /\ (nm = [] -> map id_of nf = concat idss).
Proof.
  induction js as [| j js IH]; intros Hne fs ms fs' ms' H; cbn [add_jobs] in H.
  - injection H as <- <-. exists [], [], []. rewrite !app_nil_r. repeat split; constructor.
  - destruct (add_job history futures results j (fs, ms)) as [[fs1 ms1] |] eqn:E; [| discriminate].
    destruct (add_job_any j fs ms fs1 ms1 E) as (ids & nf & nm & Hs & -> & -> & Hc).
    { intros hub l ->. apply (Hne hub). left. reflexivity. }
    destruct (IH (fun hub l Hl => Hne hub l (or_intror Hl)) _ _ _ _ H) as (idss & nf' & nm' & Hr & -> & -> & K1 & K2 & K3).
    exists (ids :: idss), (nf ++ nf'), (nm ++ nm'). rewrite !app_assoc, map_app. cbn [concat].
    split; [constructor; assumption |]. split; [reflexivity |]. split; [reflexivity |].
    destruct Hc as [[Ha ->] | [-> ->]].
    + split; [apply (kept_app [] ids); [apply kept_none | exact K1] |].
      split; [apply kept_app; [rewrite Ha; apply kept_refl | exact K2] |]. intros X. rewrite Ha, K3 by exact X. reflexivity.
    + split; [apply kept_app; [apply kept_refl | exact K1] |].
      split; [apply (kept_app [] ids); [apply kept_none | exact K2] |]. intros X.
      apply app_eq_nil in X. destruct X as [-> _]. exfalso. apply (stands_nonempty j [] Hs). reflexivity.
Qed.
Lemma all_names_ids cs l : all_names cs = Some l -> l = map id_of cs.
Proof.
  revert l. induction cs as [| [m | m] cs IH]; intros l H; cbn in *; [congruence | | discriminate].
  destruct (all_names cs); [| discriminate]. injection H as <-. rewrite (IH l0) by reflexivity. reflexivity.
Qed.
Lemma all_futures_ids cs l : all_futures cs = Some l -> l = map id_of cs.
Proof.
  revert l. induction cs as [| [m | m] cs IH]; intros l H; cbn in *; [congruence | discriminate |].
  destruct (all_futures cs); [| discriminate]. injection H as <-. rewrite (IH l0) by reflexivity. reflexivity.
Qed.
Lemma make_ids single cs s l : make single cs = Local s l -> s = single /\ l = map id_of cs.
Proof.
  unfold make. destruct cs as [| [m | m] cs]; [discriminate | |].
  - destruct (all_names (Name m :: cs)) eqn:E; [| discriminate]. intros H. injection H as <- <-. split; [reflexivity |].
    apply all_names_ids, E.
  - destruct (all_futures (Future m :: cs)) eqn:E; [| discriminate]. intros H. injection H as <- <-. split; [reflexivity |].
    apply all_futures_ids, E.
Qed.
Lemma make_not_hub single cs s l : make single cs <> Hub s l.
Proof.
  unfold make. destruct cs as [| [m | m] cs]; [discriminate | |].
  - destruct (all_names _); discriminate.
  - destruct (all_futures _); discriminate.
Qed.
End get.

(** ** AsyncHubResult *)
Section hub.
Context {V F : Type} (deser : list F -> option (V * list F)).
Implicit Types (hub : nat -> state V F) (res : gmap nat (outcome V)).

Lemma pop_metadata_nodup l : NoDup l -> forall s, (forall m, m ∈ l -> m ∈ s) -> pop_metadata l s = true.
Proof.
  induction 1 as [| x l Hx Hl IH]; intros s Hs; [reflexivity |]. cbn [pop_metadata].
  rewrite decide_True by (apply Hs; left). apply IH. intros m Hm. apply elem_of_difference.
  split; [apply Hs; right; exact Hm |]. rewrite elem_of_singleton. intros ->. contradiction.
Qed.
Lemma pop_results_nodup l : NoDup l -> forall res, (forall m, m ∈ l -> is_Some (res !! m)) ->
  exists res', pop_results l res = Some res' /\ forall m, res' !! m = if decide (m ∈ l) then None else res !! m.
Proof.
  induction 1 as [| x l Hx Hl IH]; intros res Hs; cbn [pop_results].
  - exists res. split; [reflexivity |]. intros m. rewrite decide_False by (intros X; inversion X). reflexivity.
  - destruct (Hs x (elem_of_list_here _ _)) as [o ->].
    destruct (IH (delete x res)) as (res' & E & H).
    { intros m Hm. rewrite lookup_delete_ne by (intros ->; contradiction). apply Hs. right. exact Hm. }
    exists res'. split; [exact E |]. intros m. rewrite H. destruct (decide (m ∈ l)) as [Y | N].
    + rewrite decide_True by (right; exact Y). reflexivity.
    + destruct (decide (m = x)) as [-> | Hne].
      * rewrite decide_True by left. apply lookup_delete.
      * rewrite decide_False by (rewrite elem_of_cons; tauto). apply lookup_delete_ne. congruence.
Qed.

Lemma errors_omap (os : list (outcome V)) : errors (map Some os) = omap error_of os.
Proof. induction os as [| [v | e] os IH]; cbn; [reflexivity | exact IH | rewrite IH; reflexivity]. Qed.
Lemma values_all (os : list (outcome V)) : errors (map Some os) = [] -> map Value (values (map Some os)) = os.
Proof. induction os as [| [v | e] os IH]; cbn; [reflexivity | intros H; rewrite IH by exact H; reflexivity | discriminate]. Qed.

Lemma finish_ok (h : hub_result V) res truth : NoDup (ids h) -> (forall m, m ∈ ids h -> res !! m = Some (truth m)) ->
  exists h' res', finish h res = (Ready, h', res') /\ ids h' = ids h /\ owner h' = owner h /\
    ((exists vs, result h' = Some (Values vs) /\ map truth (ids h) = map Value vs) \/
     (exists es, es <> [] /\ result h' = Some (Errors es) /\ es = omap error_of (map truth (ids h)))) /\
    (forall m, res' !! m = if owner h then (if decide (m ∈ ids h) then None else res !! m) else res !! m).
Proof.
  intros Hnd Hr. unfold finish.
  assert (E : map (fun m => res !! m) (ids h) = map Some (map truth (ids h))).
  { rewrite map_map. apply map_ext_in. intros m Hm. apply Hr, elem_of_list_In, Hm. }
  assert (C : (exists vs, conclude (map (fun m => res !! m) (ids h)) = Values vs /\ map truth (ids h) = map Value vs) \/
     (exists es, es <> [] /\ conclude (map (fun m => res !! m) (ids h)) = Errors es /\ es = omap error_of (map truth (ids h)))).
  { rewrite E. unfold conclude. destruct (errors (map Some (map truth (ids h)))) as [| e es] eqn:Ee.
    - left. eexists. split; [reflexivity |]. symmetry. apply values_all, Ee.
    - right. exists (e :: es). split; [discriminate |]. split; [reflexivity |]. rewrite <- Ee. apply errors_omap. }
  assert (G : forall vh : final V, conclude (map (fun m => res !! m) (ids h)) = vh ->
     (exists vs, Some vh = Some (Values vs) /\ map truth (ids h) = map Value vs) \/
     (exists es, es <> [] /\ Some vh = Some (Errors es) /\ es = omap error_of (map truth (ids h)))).
  { intros vh <-. destruct C as [(vs & -> & ?) | (es & ? & -> & ?)]; [left | right]; eauto. }
  destruct (owner h) eqn:Eo.
  - rewrite pop_metadata_nodup; [| exact Hnd | intros m Hm; apply elem_of_list_to_set, Hm].
    destruct (pop_results_nodup (ids h) Hnd res) as (res' & -> & H').
    { intros m Hm. rewrite Hr by exact Hm. eauto. }
    eexists _, _. split; [reflexivity |]. cbn. split; [reflexivity |]. split; [reflexivity |]. split; [apply G; reflexivity | exact H'].
  - eexists _, _. split; [reflexivity |]. cbn. split; [reflexivity |]. split; [reflexivity |]. split; [apply G; reflexivity | reflexivity].
Qed.

Lemma truthful_tail truth hub polls l : truthful deser truth (hub :: polls) l -> truthful deser truth polls l.
Proof. intros H x m Hx. apply H. right. exact Hx. Qed.
Lemma lasting_tail hub polls l : lasting (hub :: polls) l -> lasting polls l.
Proof. intros H i j x y m Hij Hx Hy. apply (H (S i) (S j) x y m); [lia | exact Hx | exact Hy]. Qed.
Lemma lasting_head hub polls l x m : lasting (hub :: polls) l -> x ∈ polls -> m ∈ l -> hub m <> Pending -> x m <> Pending.
Proof.
  intros H Hx Hm. apply elem_of_list_lookup in Hx. destruct Hx as [j Hj]. apply (H 0 (S j) hub x m); [lia | reflexivity | exact Hj | exact Hm].
Qed.
Lemma stored_error hub m (o : outcome V) e : stored deser hub m o -> stored deser hub m (Error e) -> o = Error e.
Proof.
  unfold stored. destruct (hub m) as [| [| v | e' |] b |]; try tauto.
  - intros _ (v & X & _). discriminate.
  - intros _ [X _]. discriminate.
  - intros [-> _] [-> _]. reflexivity.
Qed.
Lemma stored_done hub m (o : outcome V) : stored deser hub m o -> hub m <> Pending.
Proof. unfold stored. intros H E. rewrite E in H. exact H. Qed.

Lemma poll_ok truth remote (h : hub_result V) polls : NoDup remote -> NoDup (ids h) -> forall res,
  (forall m, m ∈ ids h -> m ∈ remote \/ res !! m = Some (truth m)) ->
  truthful deser truth polls remote -> lasting polls remote ->
  (forall m o, m ∈ remote -> res !! m = Some o -> o = truth m /\ forall hub, hub ∈ polls -> hub m <> Pending) ->
  match poll deser polls remote h res with
  | (Ready, h', res') => exists res1, finish h res1 = (Ready, h', res') /\
      (forall m, m ∉ remote -> res1 !! m = res !! m) /\ (forall m, m ∈ remote -> res1 !! m = Some (truth m)) /\
      (forall m, m ∈ remote -> is_Some (res !! m) \/ exists hub, hub ∈ polls /\ hub m <> Pending)
  | (NotReady, h', res') => h' = h /\ (forall hub, last polls = Some hub -> exists m, m ∈ remote /\ hub m = Pending) /\
      (forall m, m ∉ remote -> res' !! m = res !! m) /\
      (forall m o, m ∈ remote -> res !! m = Some o -> res' !! m = Some o) /\
      (forall m o, m ∈ remote -> res' !! m = Some o -> o = truth m)
  | (Failure es, h', res') => h' = h /\ es <> [] /\
      (forall e, e ∈ es -> exists m, m ∈ remote /\ truth m = Error e /\ res' !! m = Some (Error e)) /\
      (forall m, m ∉ remote -> res' !! m = res !! m) /\
      (forall m o, m ∈ remote -> res !! m = Some o -> res' !! m = Some o) /\
      (forall m o, m ∈ remote -> res' !! m = Some o -> o = truth m)
  | _ => False
  end.
Proof.
  intros Hnr Hnd. induction polls as [| hub polls IH]; intros res Hids Ht Hl Hc; cbn [poll].
  - split; [reflexivity |]. split; [intros hub X; discriminate |]. split; [reflexivity |]. split; [auto |].
    intros m o Hm E. apply (Hc m o Hm E).
  - pose proof (C39_results V F deser hub res remote truth Hnr) as C.
    destruct C as (Ca & Cout & Cpend & Cdone & _).
    { intros m Hm. apply Ht; [left | exact Hm]. }
    { intros m o Hm E. destruct (Hc m o Hm E) as [-> X]. split; [reflexivity |].
      destruct (Ht hub m) as [Y | Y]; [left | exact Hm | | exact Y]. exfalso. apply (X hub); [left | exact Y]. }
    destruct (result_status deser hub res remote false) as [a res1] eqn:ER. cbn [fst snd] in *.
    assert (Keep : forall m o, m ∈ remote -> res !! m = Some o -> res1 !! m = Some o).
    { intros m o Hm E. destruct (Hc m o Hm E) as [-> X]. apply Cdone; [exact Hm | apply X; left]. }
    assert (True_ : forall m o, m ∈ remote -> res1 !! m = Some o -> o = truth m /\ hub m <> Pending).
    { intros m o Hm E. destruct (Ht hub m) as [Y | Y]; [left | exact Hm | |].
      - rewrite Cpend in E by assumption. discriminate.
      - split; [| apply (stored_done _ _ _ Y)]. rewrite Cdone in E by (try apply (stored_done _ _ _ Y); exact Hm). congruence. }
    destruct a as [pend compl vals | m | es |]; [| exact Ca | | exact Ca].
    + destruct Ca as (_ & Hp & _). destruct pend as [| p0 pend].
      * assert (A : forall m, m ∈ remote -> hub m <> Pending).
        { intros m Hm X. assert (Y : m ∈ []) by (apply Hp; auto). inversion Y. }
        destruct (finish_ok h res1 truth Hnd) as (h' & res' & E & _).
        { intros m Hm. destruct (decide (m ∈ remote)) as [Y | N]; [apply Cdone; auto |].
          rewrite Cout by exact N. destruct (Hids m Hm) as [Y | Y]; [contradiction | exact Y]. }
        rewrite E. exists res1. split; [exact E |]. split; [exact Cout |]. split; [intros m Hm; apply Cdone; auto |].
        intros m Hm. right. exists hub. split; [left | apply A, Hm].
      * assert (P0 : exists m, m ∈ remote /\ hub m = Pending).
        { exists p0. apply Hp. left. }
        specialize (IH res1). 
        assert (IH' := IH ltac:(intros m Hm; destruct (Hids m Hm) as [Y | Y]; [left; exact Y |];
           destruct (decide (m ∈ remote)) as [Z | N]; [left; exact Z | right; rewrite Cout by exact N; exact Y])
           (truthful_tail _ _ _ _ Ht) (lasting_tail _ _ _ Hl)
           ltac:(intros m o Hm E; destruct (True_ m o Hm E) as [-> X]; split; [reflexivity |];
                 intros x Hx; apply (lasting_head hub polls remote x m Hl Hx Hm X))).
        clear IH. destruct (poll deser polls remote h res1) as [[w h'] res'].
        destruct w; try exact IH'.
        -- destruct IH' as (r1 & E & A & B & D). exists r1. split; [exact E |].
           split; [intros m Hm; rewrite A, Cout by exact Hm; reflexivity |]. split; [exact B |].
           intros m Hm. destruct (D m Hm) as [[o Ho] | (x & Hx & Hx2)].
           ++ right. exists hub. split; [left |]. apply (True_ m o Hm Ho).
           ++ right. exists x. split; [right; exact Hx | exact Hx2].
        -- destruct IH' as (-> & A & B & C & D). split; [reflexivity |]. split; [| split; [| split]].
           ++ intros x Hx. destruct polls as [| y polls]; [| apply A; exact Hx]. cbn in Hx. injection Hx as <-. exact P0.
           ++ intros m Hm. rewrite B, Cout by exact Hm. reflexivity.
           ++ intros m o Hm E. apply C; [exact Hm | apply Keep; assumption].
           ++ exact D.
        -- destruct IH' as (-> & A & B & C & D & G). split; [reflexivity |]. split; [exact A |]. split; [exact B |].
           split; [intros m Hm; rewrite C, Cout by exact Hm; reflexivity |]. split; [| exact G].
           intros m o Hm E. apply D; [exact Hm | apply Keep; assumption].
    + destruct Ca as [Hne He]. split; [reflexivity |]. split; [exact Hne |]. split; [| split; [exact Cout |]].
      * intros e Hin. destruct (He e Hin) as (m & Hm & Hs). exists m. split; [exact Hm |].
        destruct (Ht hub m) as [Y | Y]; [left | exact Hm | exfalso; apply (stored_done _ _ _ Hs); exact Y |].
        assert (X : truth m = Error e) by (apply (stored_error hub m); assumption).
        split; [exact X |]. rewrite <- X. apply Cdone; [exact Hm | apply (stored_done _ _ _ Hs)].
      * split; [exact Keep |]. intros m o Hm E. apply (True_ m o Hm E).
Qed.

End hub.
