(** Proofs about Conn_Model. *)
From stdpp Require Import base gmap list sorting.
From Verif Require Import RDict_Model Client_Model Hub_Spec Conn_Spec Conn_Model.
From Verif Require Hub_Model Hub_Reg.
From Coq Require Import Lia.

(* ---------------------------------------------------------------- the rest of the client does not touch the engines *)
Definition same (s s' : client) : Prop := engines s' = engines s /\ eids s' = eids s.
Lemma same_refl s : same s s. Proof. split; reflexivity. Qed.
Lemma same_trans a b c : same a b -> same b c -> same a c.
Proof. intros [E1 E2] [E3 E4]. split; congruence. Qed.
Lemma same_fold {A} (f : client -> A -> client) l : (forall s x, same s (f s x)) -> forall s, same s (fold_left f l s).
Proof.
  intros H. induction l as [|x l IH]; intros s; [apply same_refl|]. cbn [fold_left]. eapply same_trans; [apply H|apply IH].
Qed.
Lemma same_cleanup m s : same s (cleanup m s).
Proof. unfold cleanup. destruct (_ && _); split; reflexivity. Qed.
Lemma same_rm m s : same s (rm_outstanding m s).
Proof. unfold rm_outstanding. destruct (_ !! _); [|apply same_refl]. apply same_fold. intros; split; reflexivity. Qed.
Lemma same_set_result m r s : same s (fst (set_result m r s)).
Proof.
  unfold set_result. destruct (msg_future s !! m) as [[|]|]; try apply same_refl. cbn [fst].
  eapply same_trans; [|apply same_cleanup]. eapply same_trans; [|apply same_rm]. split; reflexivity.
Qed.
Lemma same_output_done m s : same s (output_done m s).
Proof.
  unfold output_done. destruct (bool_decide _); [|apply same_refl]. destruct (_ !! _) as [[]|]; try apply same_refl.
  eapply same_trans; [|apply same_cleanup]. split; reflexivity.
Qed.
Lemma same_create m b s : same s (create_futures m b s).
Proof. unfold create_futures. destruct b; split; reflexivity. Qed.
Lemma same_register_sent m b i s : same s (register_sent m b i s).
Proof. unfold register_sent. destruct b; [|apply same_refl]. destruct i; [|split; reflexivity]. destruct (is_engine _ _); split; reflexivity. Qed.
Lemma same_reply x m us r s : same s (fst (handle_reply x m us r s)).
Proof.
  unfold handle_reply. destruct (_ && _); [apply same_refl|].
  assert (H0 : same s (fold_left (fun s u => on_del u m s) us (set_meta ({[m]} ∪ metadata (set_outst (outstanding s ∖ {[m]}) s)) (set_outst (outstanding s ∖ {[m]}) s)))).
  { eapply same_trans; [|apply same_fold; intros; split; reflexivity]. split; reflexivity. }
  set (s0 := fold_left _ _ _) in *. clearbody s0.
  assert (Hf : forall s1, same s0 s1 ->
    same s (fst (if bool_decide (m ∈ futures s) then match results s1 !! m with Some x => set_result m x s1 | None => (s1, Some KeyErr) end else (s1, None)))).
  { intros s1 H1. eapply same_trans; [exact H0|]. eapply same_trans; [exact H1|].
    destruct (bool_decide _); [|apply same_refl]. destruct (_ !! _); [apply same_set_result|apply same_refl]. }
  destruct r; cbn beta iota.
  - apply Hf. split; reflexivity.
  - exact H0.
  - apply Hf. destruct engine_info; [split; reflexivity|]. eapply same_trans; [|apply same_output_done]. split; reflexivity.
  - apply Hf. eapply same_trans; [|apply same_output_done]. split; reflexivity.
  - apply Hf. apply same_output_done.
Qed.
Lemma same_stranded u l : forall s, same s (fst (stranded u l s)).
Proof.
  induction l as [|m l IH]; intros s; [apply same_refl|]. cbn [stranded]. destruct (bool_decide _); [apply IH|].
  pose proof (same_reply false m [u] (RError (Client_Model.EngineDied u) false) s) as H. destruct (handle_reply _ _ _ _ _) as [s' [f|]]; cbn [fst] in H |- *; [exact H|].
  eapply same_trans; [exact H|apply IH].
Qed.
Lemma same_own enum e s : is_own e = true -> same s (fst (Client_Model.step enum s e)).
Proof.
  destruct e; intros He; try discriminate; cbn [Client_Model.step fst].
  - unfold send. destruct (same_trans _ _ _ (same_register_sent m true ident s) (same_create m true _)) as [E1 E2]. split; assumption.
  - unfold send. destruct (same_trans _ _ _ (same_register_sent m false None s) (same_create m false _)) as [E1 E2]. split; assumption.
  - unfold broadcast. pose proof (same_trans _ _ _ (same_register_sent (Plain n) true None s) (same_create (Plain n) true _)) as H0.
    match goal with |- context [broadcast_hook n idents coalescing ?x] => set (s0 := x) in *; clearbody s0 end.
    enough (H1 : same s0 (broadcast_hook n idents coalescing s0)) by (destruct (same_trans _ _ _ H0 H1) as [E1 E2]; split; assumption). clear H0.
    unfold broadcast_hook. destruct coalescing.
    + enough (H1 : same s0 (fold_left (fun s u => on_add u (Plain n) s) idents (set_outst ({[Plain n]} ∪ outstanding s0) s0))) by (destruct H1 as [E1 E2]; split; assumption).
      eapply same_trans; [|apply same_fold; intros; split; reflexivity]. split; reflexivity.
    + apply same_fold. intros s' u. pose proof (same_create (Derived n u) true s') as [E1 E2]. split; assumption.
  - apply same_reply.
  - unfold single_reply. destruct (bool_decide _); [apply same_set_result|apply same_refl].
  - unfold idle. destruct (bool_decide _); [apply same_output_done|apply same_refl].
  - unfold purge. destruct (decide _); split; reflexivity.
  - unfold purge_all. destruct (decide _); split; reflexivity.
Qed.

(* ---------------------------------------------------------------- the directory *)
Definition dir (d : rdict (nat + nat)) (i : nat) : option nat := match fwd d !! inl i with Some (inr u) => Some u | _ => None end.
Definition note (f : nat -> option nat) (n : notice) : nat -> option nat :=
  match n with
  | Registered i u => fun j => if decide (j = i) then Some u else f j
  | Unregistered i _ => fun j => if decide (j = i) then None else f j
  | _ => f
  end.
Definition notes (ns : list notice) (f : nat -> option nat) : nat -> option nat := fold_left note ns f.

Record dinv (d : rdict (nat + nat)) (l : list nat) : Prop := {
  d_keys : forall k v, fwd d !! k = Some v -> exists e u, k = inl e /\ v = inr u;
  d_rev : forall e, rev d !! inl e = None;
  d_in : forall e, e ∈ l <-> is_Some (fwd d !! inl e);
  d_nodup : NoDup l }.
Definition sorted_ids (l : list nat) : Prop := Sorted.StronglySorted Nat.lt l.

Lemma sorted_of l : NoDup l -> sorted_ids (merge_sort Nat.le l).
Proof.
  intros H. assert (Hs : Sorted.StronglySorted Nat.le (merge_sort Nat.le l)) by (apply StronglySorted_merge_sort; [intros ???; unfold Nat.le; lia|intros x y; unfold Nat.le; lia]).
  assert (Hn : NoDup (merge_sort Nat.le l)) by (rewrite (merge_sort_Permutation Nat.le l); exact H).
  induction Hs as [|x m Hm IH Hx]; [constructor|]. apply NoDup_cons in Hn as [Hn1 Hn2]. constructor; [apply IH, Hn2|].
  rewrite Forall_forall in Hx |- *. intros y Hy. specialize (Hx y Hy). assert (x <> y) by (intros ->; contradiction). lia.
Qed.
Lemma sorted_filter (P : nat -> Prop) `{forall x, Decision (P x)} l : sorted_ids l -> sorted_ids (filter P l).
Proof.
  induction 1 as [|x l Hl IH Hx]; [constructor|]. rewrite filter_cons. destruct (decide (P x)); [|exact IH]. constructor; [exact IH|].
  rewrite Forall_forall in Hx |- *. intros y Hy. apply elem_of_list_filter in Hy as [_ Hy]. auto.
Qed.

Lemma set_spec d l e u : dinv d l ->
  dinv (state_of (setitem d (inl e) (inr u))) (if contains d (inl e) then l else l ++ [e]) /\
  (forall i, dir (state_of (setitem d (inl e) (inr u))) i = if decide (i = e) then Some u else dir d i).
Proof.
  intros I. unfold setitem. rewrite (d_rev _ _ I). cbn [state_of]. split; [split|]; cbn [fwd rev].
  - intros k v. destruct (decide (k = inl e)) as [->|N]; [rewrite lookup_insert; intros [= <-]; eauto|]. rewrite lookup_insert_ne by congruence. apply (d_keys _ _ I).
  - intros x. rewrite lookup_insert_ne by discriminate. apply (d_rev _ _ I).
  - intros x. unfold contains. destruct (bool_decide_reflect (is_Some (fwd d !! inl e))) as [H|H].
    + rewrite (d_in _ _ I). destruct (decide (x = e)) as [->|N]; [rewrite lookup_insert; split; eauto|]. rewrite lookup_insert_ne by congruence. reflexivity.
    + rewrite elem_of_app, elem_of_list_singleton, (d_in _ _ I). destruct (decide (x = e)) as [->|N]; [rewrite lookup_insert; split; eauto|].
      rewrite lookup_insert_ne by congruence. split; [intros [?|?]; [assumption|contradiction]|auto].
  - unfold contains. destruct (bool_decide_reflect (is_Some (fwd d !! inl e))) as [H|H]; [apply (d_nodup _ _ I)|].
    apply NoDup_app. split; [apply (d_nodup _ _ I)|]. split; [|apply NoDup_singleton]. intros x Hx Hy. apply elem_of_list_singleton in Hy as ->. apply H, (d_in _ _ I), Hx.
  - intros i. unfold dir. cbn [fwd]. destruct (decide (i = e)) as [->|N]; [rewrite lookup_insert; reflexivity|]. rewrite lookup_insert_ne by congruence. reflexivity.
Qed.
Lemma dinv_perm d l l' : Permutation l l' -> dinv d l -> dinv d l'.
Proof.
  intros H I. split; [apply (d_keys _ _ I)|apply (d_rev _ _ I)| |rewrite <- H; apply (d_nodup _ _ I)].
  intros e. rewrite <- H. apply (d_in _ _ I).
Qed.
Definition cinv (s : client) : Prop := dinv (engines s) (eids s) /\ sorted_ids (eids s).
Lemma cinv_empty : cinv empty_client.
Proof.
  split; [split|]; cbn.
  - intros k v. rewrite lookup_empty. discriminate.
  - intros e. apply lookup_empty.
  - intros e. rewrite lookup_empty. split; [intros H; inversion H|intros [? H]; discriminate].
  - constructor.
  - constructor.
Qed.
Lemma dir_empty i : dir (engines empty_client) i = None.
Proof. unfold dir. cbn. rewrite lookup_empty. reflexivity. Qed.
Lemma cinv_same s s' : same s s' -> cinv s -> cinv s'.
Proof. intros [E1 E2] [I S]. split; rewrite ?E1, E2; assumption. Qed.

Lemma handle_spec enum n s : cinv s ->
  cinv (handle_notice enum n s) /\ (forall i, dir (engines (handle_notice enum n s)) i = note (dir (engines s)) n i).
Proof.
  intros [I S]. destruct n as [u i c|u|i u|i u|]; try (split; [split; assumption|reflexivity]); cbn [handle_notice note].
  - unfold register_engine. destruct (set_spec (engines s) (eids s) i u I) as [I' D']. unfold setitem in *. rewrite (d_rev _ _ I) in *. cbn [state_of] in *. cbn [fst].
    set (l := if contains _ _ then _ else _) in *. split; [|exact D']. split; cbn [engines eids set_engines].
    + eapply dinv_perm; [symmetry; apply merge_sort_Permutation|exact I'].
    + apply sorted_of, (d_nodup _ _ I').
  - unfold unregister_engine. destruct (bool_decide_reflect (i ∈ eids s)) as [H|H].
    2: { cbn [fst]. split; [split; assumption|]. intros j. destruct (decide (j = i)) as [->|]; [|reflexivity]. unfold dir. rewrite (d_in _ _ I) in H.
         destruct (fwd (engines s) !! inl i) eqn:E; [destruct H; eauto|reflexivity]. }
    assert (Hd : forall d', fwd d' = delete (inl i) (fwd (engines s)) -> (forall e, rev d' !! inl e = None) ->
        dinv d' (filter (fun x => x <> i) (eids s)) /\ forall j, dir d' j = if decide (j = i) then None else dir (engines s) j).
    { intros d' Ef Hr. split; [split|].
      - intros k v. rewrite Ef. destruct (decide (k = inl i)) as [->|N]; [rewrite lookup_delete; discriminate|]. rewrite lookup_delete_ne by congruence. apply (d_keys _ _ I).
      - exact Hr.
      - intros x. rewrite Ef, elem_of_list_filter, (d_in _ _ I). destruct (decide (x = i)) as [->|N].
        + rewrite lookup_delete. split; [intros [? _]; congruence|intros [? ?]; discriminate].
        + rewrite lookup_delete_ne by congruence. tauto.
      - apply NoDup_filter, (d_nodup _ _ I).
      - intros j. unfold dir. rewrite Ef. destruct (decide (j = i)) as [->|N]; [rewrite lookup_delete; reflexivity|]. rewrite lookup_delete_ne by congruence. reflexivity. }
    apply (d_in _ _ I) in H as [v Ev]. pose proof Ev as Ev0. apply (d_keys _ _ I) in Ev0 as (e & w & [= <-] & ->). rewrite Ev. unfold pop. rewrite Ev.
    destruct (rev (engines s) !! inr w) eqn:Er; cbn [state_of].
    + match goal with |- context [stranded w ?l ?s0] => pose proof (same_stranded w l s0) as Hs; set (s' := fst (stranded w l s0)) in *; clearbody s' end.
      destruct Hs as [E1 E2]. cbn [engines eids set_engines] in E1, E2.
      assert (Hr : forall e, rev (RDict (delete (inl i) (fwd (engines s))) (delete (inr w) (rev (engines s)))) !! inl e = None).
      { intros e. cbn [rev]. rewrite lookup_delete_ne by discriminate. apply (d_rev _ _ I). }
      destruct (Hd (RDict (delete (inl i) (fwd (engines s))) (delete (inr w) (rev (engines s)))) eq_refl Hr) as [I' D'].
      rewrite E1. split; [|exact D']. split; rewrite ?E1, E2; [exact I'|apply sorted_filter, S].
    + cbn [fst engines eids set_engines]. destruct (Hd (RDict (delete (inl i) (fwd (engines s))) (rev (engines s))) eq_refl (d_rev _ _ I)) as [I' D'].
      split; [|exact D']. split; [exact I'|apply sorted_filter, S].
Qed.

Lemma update_spec es s : cinv s -> NoDup (map fst es) ->
  cinv (update_engines es s) /\ (forall i, dir (engines (update_engines es s)) i = match Hub_Model.get i es with Some u => Some u | None => dir (engines s) i end).
Proof.
  intros [I _] Hn. unfold update_engines. set (f := fun '(d, ids) '(e, u) => _).
  assert (H : forall es d l, dinv d l -> NoDup (map fst es) -> exists d' l', fold_left f es (d, l) = (d', l') /\ dinv d' l' /\
      forall i, dir d' i = match Hub_Model.get i es with Some u => Some u | None => dir d i end).
  { clear. induction es as [|[e u] es IH]; intros d l I Hn; [exists d, l; split; [reflexivity|split; [exact I|reflexivity]]|].
    cbn [map fst] in Hn. apply NoDup_cons in Hn as [Hn1 Hn2]. cbn [fold_left]. change (f (d, l) (e, u)) with (state_of (setitem d (inl e) (inr u)), if contains d (inl e) then l else l ++ [e]).
    destruct (set_spec d l e u I) as [I' D']. destruct (IH _ _ I' Hn2) as (d' & l' & E & I2 & D2). exists d', l'. split; [exact E|]. split; [exact I2|].
    intros i. rewrite D2, D'. cbn [Hub_Model.get]. destruct (Nat.eqb_spec i e) as [->|N].
    - destruct (Hub_Model.get e es) eqn:G; [|rewrite decide_True by reflexivity; reflexivity].
      exfalso. apply Hn1. apply elem_of_list_In. apply Hub_Reg.get_in in G. apply in_map_iff. eexists; split; [|exact G]. reflexivity.
    - rewrite decide_False by exact N. reflexivity. }
  destruct (H es _ _ I Hn) as (d' & l' & -> & I' & D'). split; [|exact D']. split; cbn [engines eids set_engines].
  - eapply dinv_perm; [symmetry; apply merge_sort_Permutation|exact I'].
  - apply sorted_of, (d_nodup _ _ I').
Qed.

(* ---------------------------------------------------------------- the Hub *)
Definition reg (h : Hub_Model.hub) (i : nat) : option nat := Hub_Model.get i (Hub_Model.engines h).
Lemma set_keys {A} k (v : A) d : List.NoDup (map fst d) -> List.NoDup (map fst (Hub_Model.set k v d)).
Proof.
  intros H. destruct (in_dec Nat.eq_dec k (map fst d)) as [Hi|Hi].
  - replace (map fst (Hub_Model.set k v d)) with (map fst d); [exact H|]. clear H. revert Hi. induction d as [|[k' w] d IH]; intros Hi; [destruct Hi|].
    cbn [Hub_Model.set map fst]. destruct (Nat.eqb_spec k k') as [->|N]; [reflexivity|]. cbn [map fst]. f_equal. apply IH. destruct Hi as [E|Hi]; [cbn [fst] in E; congruence|exact Hi].
  - rewrite Hub_Reg.set_new by exact Hi. rewrite map_app. apply Hub_Reg.NoDup_snoc; assumption.
Qed.
Lemma pop_keys {A} k (d : list (nat * A)) : List.NoDup (map fst d) -> List.NoDup (map fst (Hub_Model.pop k d)).
Proof. intros H. rewrite Hub_Reg.pop_map. apply List.NoDup_filter, H. Qed.
Lemma get_pop {A} k i (d : list (nat * A)) : Hub_Model.get i (Hub_Model.pop k d) = if decide (i = k) then None else Hub_Model.get i d.
Proof.
  unfold Hub_Model.pop. induction d as [|[k' w] d IH]; [destruct (decide _); reflexivity|]. cbn [List.filter fst].
  destruct (Nat.eqb_spec k k') as [->|N]; cbn [negb Hub_Model.get].
  - rewrite IH. destruct (decide (i = k')) as [->|N]; [reflexivity|]. rewrite (proj2 (Nat.eqb_neq _ _) N). reflexivity.
  - rewrite IH. destruct (Nat.eqb_spec i k') as [->|N2]; [rewrite decide_False by congruence; reflexivity|reflexivity].
Qed.
Lemma get_set {A} k v i (d : list (nat * A)) : Hub_Model.get i (Hub_Model.set k v d) = if decide (i = k) then Some v else Hub_Model.get i d.
Proof. destruct (decide (i = k)) as [->|N]; [apply Hub_Reg.get_set_same|apply Hub_Reg.get_set_other, N]. Qed.

Definition public (ns : list notice) : list notice := filter is_public ns.
(** What the Hub tells in one step *)
Definition told (h : Hub_Model.hub) (e : Hub_Spec.event) : list notice :=
  public (drop (length (Hub_Model.notices h)) (Hub_Model.notices (Hub_Model.step h e))).

Definition keys_ok (h : Hub_Model.hub) : Prop := List.NoDup (map fst (Hub_Model.engines h)).
Definition good_step (h h' : Hub_Model.hub) : Prop :=
  keys_ok h' /\ exists new : list notice, Hub_Model.notices h' = Hub_Model.notices h ++ new /\ ((public new = [] /\ forall i, reg h' i = reg h i) \/ exists n, public new = [n] /\ is_public n = true /\ forall i, reg h' i = note (reg h) n i).
Lemma good_same h h' new : keys_ok h -> Hub_Model.engines h' = Hub_Model.engines h -> Hub_Model.notices h' = Hub_Model.notices h ++ new -> public new = [] -> good_step h h'.
Proof. intros K E N P. split; [unfold keys_ok; rewrite E; exact K|]. exists new. split; [exact N|]. left. split; [exact P|]. intros i. unfold reg. rewrite E. reflexivity. Qed.
Lemma good_unregister h i : keys_ok h -> good_step h (Hub_Model.unregister_engine h i).
Proof.
  intros K. unfold Hub_Model.unregister_engine. destruct (Hub_Model.get i (Hub_Model.engines h)) as [u|] eqn:E.
  - split; [apply pop_keys, K|]. exists [Unregistered i u]. split; [reflexivity|]. right. exists (Unregistered i u). split; [reflexivity|]. split; [reflexivity|].
    intros j. change (Hub_Model.get j (Hub_Model.pop i (Hub_Model.engines h)) = note (reg h) (Unregistered i u) j). rewrite get_pop. reflexivity.
  - destruct (find _ _) as [[u ?]|]; (eapply good_same with (new := []); [exact K|reflexivity|rewrite app_nil_r; reflexivity|reflexivity]).
Qed.
Lemma good_finish h u : keys_ok h -> good_step h (Hub_Model.finish_registration true h u).
Proof.
  intros K. unfold Hub_Model.finish_registration. destruct (Hub_Model.get u (Hub_Model.incoming h)) as [i|] eqn:E.
  - split; [apply set_keys, K|]. exists [Registered i u]. split; [reflexivity|]. right. exists (Registered i u). split; [reflexivity|]. split; [reflexivity|].
    intros j. change (Hub_Model.get j (Hub_Model.set i u (Hub_Model.engines h)) = note (reg h) (Registered i u) j). rewrite get_set. reflexivity.
  - eapply good_same with (new := []); [exact K|reflexivity|rewrite app_nil_r; reflexivity|reflexivity].
Qed.
Lemma good_refl h : keys_ok h -> good_step h h.
Proof. intros K. eapply good_same with (new := []); [exact K|reflexivity|rewrite app_nil_r; reflexivity|reflexivity]. Qed.
Lemma good_any h e : keys_ok h -> e <> Restart -> good_step h (Hub_Model.step h e).
Proof.
  intros K He. destruct (Hub_Reg.is_message e) eqn:Em.
  - destruct (Hub_Reg.same_step h e Em) as (E1 & E2 & E3 & E4 & E5 & E6 & E7). eapply good_same with (new := []); [exact K|congruence|rewrite app_nil_r; congruence|reflexivity].
  - destruct e; try discriminate; cbn [Hub_Model.step].
    + unfold Hub_Model.register_engine. destruct (Hub_Model.new_engine_id h id) as [[h1 eid] c] eqn:E.
      assert (H1 : Hub_Model.engines h1 = Hub_Model.engines h /\ Hub_Model.notices h1 = Hub_Model.notices h).
      { unfold Hub_Model.new_engine_id in E. destruct id as [r|]; [|injection E as <- _ _; split; reflexivity].
        destruct (Hub_Model.is_some _); [injection E as <- _ _; split; reflexivity|]. destruct (Hub_Model.mem _ _); injection E as <- _ _; split; reflexivity. }
      destruct H1 as [E1 E2]. destruct (Hub_Model.is_some _); [|destruct (Hub_Model.is_some _)].
      * eapply good_same with (new := [Refused u]); [exact K|exact E1|cbn; rewrite E2; reflexivity|reflexivity].
      * eapply good_same with (new := [Refused u]); [exact K|exact E1|cbn; rewrite E2; reflexivity|reflexivity].
      * eapply good_same with (new := [Granted u eid c]); [exact K|exact E1|cbn; rewrite E2; reflexivity|reflexivity].
    + unfold Hub_Model.handle_new_heart. destruct (Hub_Model.is_some _); [apply good_finish, K|apply good_refl, K].
    + unfold Hub_Model.handle_stopped_heart. destruct (Hub_Model.get u (Hub_Model.hearts h)); [|apply good_refl, K]. destruct (Hub_Model.is_some _); [apply good_unregister, K|apply good_refl, K].
    + apply good_unregister, K.
    + unfold Hub_Model.purge_stalled. destruct (Hub_Model.is_some _); [|apply good_refl, K]. eapply good_same with (new := []); [exact K|reflexivity|rewrite app_nil_r; reflexivity|reflexivity].
    + congruence.
Qed.
Lemma told_spec h e : keys_ok h -> e <> Restart ->
  keys_ok (Hub_Model.step h e) /\ ((told h e = [] /\ forall i, reg (Hub_Model.step h e) i = reg h i) \/ exists n, told h e = [n] /\ is_public n = true /\ forall i, reg (Hub_Model.step h e) i = note (reg h) n i).
Proof.
  intros K He. destruct (good_any h e K He) as (K' & new & En & H). split; [exact K'|]. unfold told. rewrite En, drop_app. exact H.
Qed.
Lemma keys_finish b h u : keys_ok h -> keys_ok (Hub_Model.finish_registration b h u).
Proof. intros K. unfold Hub_Model.finish_registration. destruct (Hub_Model.get _ _); [|exact K]. destruct b; apply set_keys, K. Qed.
Lemma keys_restart h : keys_ok (Hub_Model.restart h).
Proof.
  unfold Hub_Model.restart, Hub_Model.load_engine_state. cbn [Hub_Model.file]. destruct (Hub_Model.file h) as [[es n]|]; [|constructor].
  match goal with |- context [fold_left ?f es ?h0] => assert (K : keys_ok h0) by constructor; revert K; generalize h0 end. clear.
  induction es as [|e es IH]; intros h0 K; [exact K|]. cbn [fold_left]. apply IH, keys_finish, K.
Qed.
Lemma keys_step h e : keys_ok h -> keys_ok (Hub_Model.step h e).
Proof.
  intros K. assert (e = Restart \/ e <> Restart) as [->|He] by (destruct e; (left; reflexivity) || (right; discriminate)); [apply keys_restart|apply (told_spec h e K He)].
Qed.

(* ---------------------------------------------------------------- the world *)
Notation wevent := (Conn_Spec.event Client_Model.event).
Section world.
Context (enum : gset mid -> list mid).
Notation step := (step enum).

Definition go (es : list wevent) (w : world) : world := fold_left step es w.
Definition no_restart (es : list wevent) : Prop := AtHub Restart ∉ es.

Lemma go_app a b w : go (a ++ b) w = go b (go a w).
Proof. unfold go. apply fold_left_app. Qed.
Lemma notes_app a b f : notes (a ++ b) f = notes b (notes a f).
Proof. unfold notes. apply fold_left_app. Qed.
Lemma note_ext n f g : (forall i, f i = g i) -> forall i, note f n i = note g n i.
Proof. intros H i. destruct n; cbn [note]; try apply H; destruct (decide _); auto. Qed.
Lemma notes_ext ns : forall f g, (forall i, f i = g i) -> forall i, notes ns f i = notes ns g i.
Proof. induction ns as [|n ns IH]; intros f g H i; [apply H|]. cbn. apply IH. apply note_ext, H. Qed.

(** What is always true *)
Record winv (w : world) : Prop := {
  w_keys : keys_ok (hub w);
  w_ans : match answer w with Some es => List.NoDup (map fst es) | None => subscribed w = false /\ begun w = false end;
  w_inbox : subscribed w = false -> inbox w = [];
  w_cl : if begun w then cinv (cl w) else cl w = empty_client }.
Lemma winv_start : winv start_world.
Proof. split; cbn; [constructor|split; reflexivity|reflexivity|reflexivity]. Qed.
Lemma winv_step w e : winv w -> winv (step w e).
Proof.
  intros [K A B C]. destruct e as [e| | | | |e]; cbn [Conn_Model.step].
  - split; cbn; [apply keys_step, K|exact A|intros Hs; rewrite Hs; apply B, Hs|exact C].
  - destruct (answer w) eqn:Ea; [split; rewrite ?Ea; assumption|]. destruct A as [A1 A2]. split; cbn; [exact K|exact K|exact B|exact C].
  - destruct (answer w) eqn:Ea; [|split; rewrite ?Ea; assumption]. split; cbn; [exact K|exact A|discriminate|exact C].
  - destruct (answer w) eqn:Ea; [|split; rewrite ?Ea; assumption]. destruct (begun w) eqn:Eb; [split; rewrite ?Ea, ?Eb; assumption|]. split; cbn; [exact K|exact A|exact B|].
    rewrite C. apply update_spec; [apply cinv_empty|]. apply NoDup_ListNoDup, A.
  - destruct (begun w) eqn:Eb; [|split; rewrite ?Eb; assumption]. destruct (inbox w) as [|n r] eqn:Ei; [split; rewrite ?Ei, ?Eb; assumption|]. split; cbn; [exact K| | |].
    + destruct (answer w); [exact A|destruct A; congruence].
    + intros Hs. specialize (B Hs). discriminate.
    + apply handle_spec, C.
  - destruct (begun w && is_own e) eqn:Eb; [|split; assumption]. apply andb_true_iff in Eb as [Eb Eo]. rewrite Eb in C. split; cbn; [exact K| |exact B|].
    + destruct (answer w); [exact A|destruct A; congruence].
    + eapply cinv_same; [apply same_own, Eo|exact C].
Qed.
Lemma winv_go es : forall w, winv w -> winv (go es w).
Proof. induction es as [|e es IH]; intros w I; [exact I|]. apply IH, winv_step, I. Qed.

(** After the subscription: the notices handled so far, those that wait, the Hub then and now *)
Definition view (w : world) (es : list (nat * nat)) : nat -> option nat := if begun w then dir (engines (cl w)) else fun i => Hub_Model.get i es.
(** Between the answer and the subscription: what is missed *)
Lemma missed_go es : forall w, winv w -> no_restart es -> Subscribe ∉ es -> forall a, answer w = Some a -> subscribed w = false -> (forall i, view w a i = Hub_Model.get i a) ->
  let w' := go es w in answer w' = Some a /\ subscribed w' = false /\ (forall i, view w' a i = Hub_Model.get i a) /\
  exists ms, public (drop (length (Hub_Model.notices (hub w))) (Hub_Model.notices (hub w'))) = ms /\ (exists new : list notice, Hub_Model.notices (hub w') = Hub_Model.notices (hub w) ++ new) /\
  forall i, reg (hub w') i = notes ms (reg (hub w)) i.
Proof.
  induction es as [|e es IH]; intros w I Hr Hs a Ea Esub Hv.
  - cbn. split; [first [exact Ea|reflexivity]|]. split; [exact Esub|]. split; [exact Hv|]. exists []. rewrite drop_all. split; [reflexivity|]. split; [exists []; rewrite app_nil_r; reflexivity|reflexivity].
  - apply not_elem_of_cons in Hs as [Hs1 Hs2]. apply not_elem_of_cons in Hr as [Hr1 Hr2].
    assert (Hi : inbox w = []) by (apply (w_inbox _ I), Esub).
    assert (H : answer (step w e) = Some a /\ subscribed (step w e) = false /\ (forall i, view (step w e) a i = Hub_Model.get i a) /\
       ((hub (step w e) = hub w /\ True) \/ exists e', e = AtHub e' /\ hub (step w e) = Hub_Model.step (hub w) e')).
    { destruct e as [e'| | | | |e']; cbn [Conn_Model.step]; rewrite ?Ea.
      - split; [first [exact Ea|reflexivity]|]. split; [exact Esub|]. split; [exact Hv|]. right. eauto.
      - split; [first [exact Ea|reflexivity]|]. split; [exact Esub|]. split; [exact Hv|]. left; auto.
      - congruence.
      - destruct (begun w) eqn:Eb; (split; [first [exact Ea|reflexivity]|split; [exact Esub|]]); (split; [|left; auto]).
        + exact Hv.
        + intros i. unfold view. cbn. pose proof (w_cl _ I) as C. rewrite Eb in C. rewrite C. pose proof (w_ans _ I) as A. rewrite Ea in A. apply NoDup_ListNoDup in A.
          rewrite (proj2 (update_spec a empty_client cinv_empty A)), dir_empty. destruct (Hub_Model.get i a); reflexivity.
      - rewrite Hi. destruct (begun w); (split; [first [exact Ea|reflexivity]|]; split; [exact Esub|]; split; [exact Hv|]; left; auto).
      - destruct (begun w && is_own e') eqn:Eb; [|split; [first [exact Ea|reflexivity]|]; split; [exact Esub|]; split; [exact Hv|]; left; auto]. split; [first [exact Ea|reflexivity]|]. split; [exact Esub|]. split; [|left; auto].
        apply andb_true_iff in Eb as [Eb Eo]. intros i. rewrite <- Hv. unfold view. rewrite Eb. cbn. destruct (same_own enum e' (cl w) Eo) as [-> _]. reflexivity. }
    destruct H as (A' & S' & V' & Hh). change (go (e :: es) w) with (go es (step w e)).
    destruct (IH (step w e) (winv_step _ _ I) Hr2 Hs2 a A' S' V') as (A2 & S2 & V2 & ms & Em & (new & En) & Hn). set (w' := go es (step w e)) in *.
    split; [exact A2|]. split; [exact S2|]. split; [exact V2|]. destruct Hh as [[Hh _]|(e' & -> & Hh)].
    + rewrite Hh in *. exists ms. split; [exact Em|]. split; [exists new; exact En|exact Hn].
    + assert (He : e' <> Restart) by (intros ->; congruence). destruct (good_any (hub w) e' (w_keys _ I) He) as (K' & n1 & E1 & Hc). rewrite Hh in *.
      exists (public n1 ++ ms). rewrite En, E1. rewrite <- app_assoc, drop_app. rewrite En, drop_app in Em. split; [unfold public in *; rewrite filter_app; congruence|].
      split; [exists (n1 ++ new); reflexivity|]. intros i. rewrite Hn, notes_app. apply notes_ext. intros j. destruct Hc as [[-> H0]|(n & -> & _ & H0)]; rewrite H0; reflexivity.
Qed.

(** The notices told by the Hub in a list of events *)
Definition told_in (w : world) (es : list wevent) : list notice := public (drop (length (Hub_Model.notices (hub w))) (Hub_Model.notices (hub (go es w)))).

Lemma told_step w es e : winv w -> no_restart (es ++ [e]) ->
  (exists new : list notice, Hub_Model.notices (hub (go es w)) = Hub_Model.notices (hub w) ++ new) ->
  (exists new : list notice, Hub_Model.notices (hub (go (es ++ [e]) w)) = Hub_Model.notices (hub w) ++ new) /\
  exists l, told_in w (es ++ [e]) = told_in w es ++ l /\ length l <= 1 /\ (forall i, reg (hub (go (es ++ [e]) w)) i = notes l (reg (hub (go es w))) i) /\
  (subscribed (go es w) = true -> forall e', e = AtHub e' -> inbox (go (es ++ [e]) w) = inbox (go es w) ++ l) /\ ((forall e', e <> AtHub e') -> l = []).
Proof.
  intros I Hr (new & En). unfold told_in. rewrite go_app. set (w1 := go es w) in *. assert (I1 : winv w1) by (apply winv_go, I). clearbody w1.
  change (go [e] w1) with (step w1 e).
  assert (Hh : hub (step w1 e) = hub w1 /\ (forall e', e <> AtHub e') \/ exists e', e = AtHub e' /\ e' <> Restart).
  { destruct e as [e'| | | | |e']; [right; exists e'; split; [reflexivity|intros ->; apply Hr, elem_of_app; right; left]|left..]; (split; [|discriminate]); cbn [Conn_Model.step];
    repeat case_match; reflexivity. }
  destruct Hh as [[Hh Hne]|(e' & -> & He)].
  - rewrite Hh. split; [eauto|]. exists []. rewrite app_nil_r. repeat split; [cbn; lia|intros _ e' ->; destruct (Hne e'); reflexivity].
  - cbn [Conn_Model.step hub]. destruct (good_any (hub w1) e' (w_keys _ I1) He) as (K' & n1 & E1 & Hc). split; [exists (new ++ n1); rewrite E1, En, app_assoc; reflexivity|].
    exists (public n1). split; [rewrite E1, En; rewrite <- app_assoc, !drop_app; unfold public; rewrite filter_app; reflexivity|].
    split; [destruct Hc as [[-> _]|(n & -> & _)]; cbn; lia|]. split; [intros i; destruct Hc as [[-> H0]|(n & -> & _ & H0)]; rewrite H0; reflexivity|].
    split; [|intros H; destruct (H e'); reflexivity]. intros Hs e'' [= <-]. cbn [inbox]. rewrite Hs, E1, drop_app. reflexivity.
Qed.
Lemma told_nil w : told_in w [] = [].
Proof. unfold told_in. cbn. rewrite drop_all. reflexivity. Qed.
Lemma no_restart_app a b : no_restart (a ++ b) -> no_restart a.
Proof. intros H Ha. apply H, elem_of_app. left; exact Ha. Qed.

Lemma since_go w a : winv w -> answer w = Some a -> subscribed w = true -> inbox w = [] -> (forall i, view w a i = Hub_Model.get i a) -> forall es, no_restart es ->
  let w' := go es w in answer w' = Some a /\ subscribed w' = true /\
  (exists new : list notice, Hub_Model.notices (hub w') = Hub_Model.notices (hub w) ++ new) /\
  (forall i, reg (hub w') i = notes (told_in w es) (reg (hub w)) i) /\
  exists h, told_in w es = h ++ inbox w' /\ (forall i, view w' a i = notes h (fun j => Hub_Model.get j a) i) /\ (begun w' = false -> h = []).
Proof.
  intros I Ea Es Ei Hv es. induction es as [|e es IH] using rev_ind; intros Hr.
  - cbn. rewrite told_nil. split; [first [exact Ea|reflexivity]|]. split; [exact Es|]. split; [exists []; rewrite app_nil_r; reflexivity|]. split; [reflexivity|].
    exists []. rewrite Ei. split; [reflexivity|]. split; [exact Hv|reflexivity].
  - destruct (IH (no_restart_app _ _ Hr)) as (A1 & S1 & Hn & R1 & h & E1 & V1 & B1). destruct (told_step w es e I Hr Hn) as (Hn' & l & El & Hl & R2 & Hat & Hne).
    cbn zeta. split; [|split; [|split; [exact Hn'|split]]].
    + rewrite go_app. change (go [e] (go es w)) with (step (go es w) e). destruct e; cbn [Conn_Model.step]; rewrite ?A1; repeat case_match; cbn; try exact A1; congruence.
    + rewrite go_app. change (go [e] (go es w)) with (step (go es w) e). destruct e; cbn [Conn_Model.step]; rewrite ?A1; repeat case_match; cbn; try exact S1; try reflexivity; congruence.
    + intros i. rewrite R2, El, notes_app. apply notes_ext, R1.
    + assert (Iw : winv (go es w)) by (apply winv_go, I). rewrite go_app in *. change (go [e] (go es w)) with (step (go es w) e) in *. set (w1 := go es w) in *. clearbody w1. rewrite El, E1. destruct e as [e'| | | | |e'].
      * exists h. rewrite (Hat S1 e' eq_refl), app_assoc. split; [reflexivity|]. split; [exact V1|exact B1].
      * rewrite Hne by discriminate. rewrite app_nil_r. exists h. cbn [Conn_Model.step]. rewrite A1. split; [reflexivity|]. split; assumption.
      * rewrite Hne by discriminate. rewrite app_nil_r. exists h. cbn [Conn_Model.step]. rewrite A1. split; [reflexivity|]. split; assumption.
      * rewrite Hne by discriminate. rewrite app_nil_r. cbn [Conn_Model.step]. rewrite A1. destruct (begun w1) eqn:Eb; [exists h; rewrite Eb; split; [reflexivity|]; split; assumption|].
        specialize (B1 eq_refl). subst h. exists []. cbn [inbox]. split; [reflexivity|]. split; [|reflexivity]. intros i. unfold view. cbn [begun cl].
        pose proof (w_cl _ Iw) as C. rewrite Eb in C. rewrite C. pose proof (w_ans _ Iw) as An. rewrite A1 in An. apply NoDup_ListNoDup in An.
        rewrite (proj2 (update_spec a empty_client cinv_empty An)), dir_empty. cbn. destruct (Hub_Model.get i a); reflexivity.
      * rewrite Hne by discriminate. rewrite app_nil_r. cbn [Conn_Model.step]. destruct (begun w1) eqn:Eb; [|exists h; rewrite Eb; split; [reflexivity|]; split; assumption].
        destruct (inbox w1) as [|n r] eqn:Eib; [exists h; rewrite Eb, Eib; split; [reflexivity|]; split; [exact V1|discriminate]|].
        exists (h ++ [n]). cbn [inbox begun]. split; [rewrite <- app_assoc; reflexivity|]. split; [|discriminate]. intros i. unfold view in *. cbn [begun cl]. rewrite Eb in V1.
        pose proof (w_cl _ Iw) as C. rewrite Eb in C. rewrite (proj2 (handle_spec enum n (cl w1) C)), notes_app. change (notes [n] ?f) with (note f n). apply note_ext, V1.
      * rewrite Hne by discriminate. rewrite app_nil_r. cbn [Conn_Model.step]. exists h. destruct (begun w1 && is_own e') eqn:Eb; [|split; [reflexivity|]; split; assumption].
        apply andb_true_iff in Eb as [Eb Eo]. cbn [inbox begun]. split; [reflexivity|]. split; [|discriminate]. intros i. rewrite <- V1. unfold view. rewrite Eb. cbn [begun cl].
        destruct (same_own enum e' (cl w1) Eo) as [-> _]. reflexivity.
Qed.
Lemma told_prefix w : winv w -> forall es, no_restart es -> (exists new : list notice, Hub_Model.notices (hub (go es w)) = Hub_Model.notices (hub w) ++ new) /\
  forall h r, told_in w es = h ++ r -> exists es1 es2, es = es1 ++ es2 /\ told_in w es1 = h.
Proof.
  intros I es. induction es as [|e es IH] using rev_ind; intros Hr.
  - split; [exists []; rewrite app_nil_r; reflexivity|]. intros h r E. rewrite told_nil in E. symmetry in E. apply app_nil in E as [-> ->]. exists [], []. split; [reflexivity|apply told_nil].
  - destruct (IH (no_restart_app _ _ Hr)) as [Hn Hp]. destruct (told_step w es e I Hr Hn) as (Hn' & l & El & Hl & _). split; [exact Hn'|]. intros h r E.
    destruct r as [|x r _] using rev_ind.
    + rewrite app_nil_r in E. exists (es ++ [e]), []. split; [rewrite app_nil_r; reflexivity|exact E].
    + rewrite El, app_assoc in E. destruct l as [|y [|z l]]; [|apply app_inj_tail in E as [E _]|cbn in Hl; lia].
      * rewrite app_nil_r, <- app_assoc in E. destruct (Hp _ _ E) as (e1 & e2 & -> & E1). exists e1, (e2 ++ [e]). split; [rewrite app_assoc; reflexivity|exact E1].
      * destruct (Hp _ _ E) as (e1 & e2 & -> & E1). exists e1, (e2 ++ [e]). split; [rewrite app_assoc; reflexivity|exact E1].
Qed.
End world.
