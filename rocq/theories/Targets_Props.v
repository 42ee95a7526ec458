(** Property theorems C49: which engines are meant by targets. *)
From stdpp Require Import base gmap list sorting strings.
From Coq Require Import ZArith Ascii Lia.
From Verif Require Import Targets_Spec Targets_Model Targets_Proofs.

(** [l] lists the engines there are after the history [h], in increasing order. *)
Definition engines_after {U} (h : list (event U)) (l : list nat) : Prop :=
  StronglySorted lt l /\ forall e, e ∈ l <-> exists u, present h e u.

(** client.ids is this list. *)
Theorem C49_ids : forall U (h : list (event U)), engines_after h (ids (run h)).
Proof.
  intros U h. split; [apply run_inv |]. intros e. destruct (run_inv h) as [_ I]. rewrite I. split.
  - intros [u E]. exists u. apply run_engines, E.
  - intros [u E]. exists u. apply run_engines, E.
Qed.
Print Assumptions C49_ids.

(** Whatever is given as targets chooses the engines it should, with their uuids; otherwise the call raises
    the right exception.  NoEnginesRegistered exactly if there are none. *)
Theorem C49_targets : forall U (h : list (event U)) t l, engines_after h l ->
  (build_targets (run h) t = NoEnginesRegistered <-> l = []) /\
  match build_targets (run h) t with
  | Chosen us out => choice l t out /\ Forall2 (fun x u => exists e, x = Z.of_nat e /\ present h e u) out us
  | NoEnginesRegistered => True
  | TypeError => match t with TOther => True | TStr x => ~ says_all x | _ => False end
  | IndexError => match t with TInt z => forall out, ~ choice l t out | _ => False end
  | KeyError => match t with TList _ => forall out, ~ choice l t out | _ => False end
  | ValueError => match t with TSlice _ _ (Some 0%Z) => True | _ => False end
  end /\
  (forall out, l <> [] -> choice l t out -> exists us, build_targets (run h) t = Chosen us out).
Proof.
  intros U h t l [S I]. destruct (C49_ids U h) as [S' I'].
  assert (l = ids (run h)) by (apply sorted_unique; [exact S | exact S' | intros e; rewrite I, I'; reflexivity]). subst l.
  pose proof (run_inv h) as Hi. destruct (decide (ids (run h) = [])) as [E | N].
  - assert (X : build_targets (run h) t = NoEnginesRegistered) by (unfold build_targets; rewrite E; reflexivity).
    rewrite X. split; [tauto |]. split; [exact Logic.I |]. intros out N. contradiction.
  - pose proof (build_spec (run h) t Hi N) as B. split; [| split].
    + split; [| contradiction]. intros X. rewrite X in B. destruct B.
    + destruct (build_targets (run h) t); try exact B; [| exact Logic.I]. destruct B as [B F]. split; [exact B |].
      eapply Forall2_impl; [exact F |]. intros x u (e & -> & E). exists e. split; [reflexivity | apply run_engines, E].
    + intros out _ C. destruct (build_targets (run h) t) as [us out' | | | | |] eqn:E.
      * destruct B as [B _]. rewrite (choice_unique _ _ _ _ C B). eauto.
      * destruct B.
      * destruct t; try contradiction; destruct C as [C _]; contradiction.
      * destruct t; try contradiction. destruct (B _ C).
      * destruct t; try contradiction. destruct (B _ C).
      * destruct t as [| | | a b c | |]; try contradiction. destruct c as [[] |]; try contradiction.
        destruct C as (st & p & -> & X & _). cbn in X. congruence.
Qed.
Print Assumptions C49_targets.

(** There is one choice at most. *)
Theorem C49_choice_unique : forall l t out out', choice l t out -> choice l t out' -> out = out'.
Proof. intros l t out out'. apply choice_unique. Qed.

(** A view made from a slice, an id or a list keeps its engines: later calls go to the same ids, or raise
    when one of them has gone.  A view of 'all' uses the engines there are at the time of each call. *)
Theorem C49_views : forall U (h h' : list (event U)) t v us out,
  direct_view (run h) t = (Chosen us out, Some v) ->
  match t with
  | TStr x => x = "all"%string -> forall l, engines_after (h ++ h') l -> l <> [] -> exists us', view_call (run (h ++ h')) v = Chosen us' (map Z.of_nat l)
  | _ => (exists us', view_call (run (h ++ h')) v = Chosen us' out /\ Forall2 (fun x u => exists e, x = Z.of_nat e /\ present (h ++ h') e u) out us') \/
         ((exists x, x ∈ out /\ forall e u, present (h ++ h') e u -> x <> Z.of_nat e) /\
          (view_call (run (h ++ h')) v = KeyError \/ view_call (run (h ++ h')) v = IndexError)) \/
         (forall e u, ~ present (h ++ h') e u) /\ view_call (run (h ++ h')) v = NoEnginesRegistered
  end.
Proof.
  intros U h h' t v us out H. pose proof (C49_ids U (h ++ h')) as HA.
  assert (G : forall w, out = match w with VAll => out | VOne z => [z] | VList l => l end -> w <> VAll -> (forall x, x ∈ out -> (0 <= x)%Z) ->
    (exists us', view_call (run (h ++ h')) w = Chosen us' out /\ Forall2 (fun x u => exists e, x = Z.of_nat e /\ present (h ++ h') e u) out us') \/
    ((exists x, x ∈ out /\ forall e u, present (h ++ h') e u -> x <> Z.of_nat e) /\
     (view_call (run (h ++ h')) w = KeyError \/ view_call (run (h ++ h')) w = IndexError)) \/
    (forall e u, ~ present (h ++ h') e u) /\ view_call (run (h ++ h')) w = NoEnginesRegistered).
  { intros w Ew Hw Hpos. unfold view_call. set (tt := match w with VAll => _ | VOne z => _ | VList l => _ end).
    destruct (C49_targets U (h ++ h') tt _ HA) as (T1 & T2 & T3). set (l := ids (run (h ++ h'))) in *.
    destruct (decide (l = [])) as [E | N].
    { right. right. split; [| apply T1, E]. intros e u X. destruct HA as [_ HA]. assert (Y : e ∈ l) by (apply HA; eauto). rewrite E in Y. inversion Y. }
    destruct (decide (Forall (fun x => x ∈ map Z.of_nat l) out)) as [Y | NF].
    - left. rewrite Forall_forall in Y. assert (C : choice l tt out).
      { subst tt. destruct w as [| z | k]; [congruence | |].
        - cbn [choice]. subst out. assert (Hz : (0 <= z)%Z) by (apply Hpos; left). destruct (Z.ltb_spec z 0); [lia |].
          assert (Yz : z ∈ map Z.of_nat l) by (apply Y; left). apply elem_all in Yz. destruct Yz as (e & A & B). eauto.
        - cbn [choice]. subst out. split; [reflexivity |]. intros x Hx. apply elem_all, Y, Hx. }
      destruct (T3 out N C) as (us' & E). rewrite E in T2. destruct T2 as [_ F]. eauto.
    - right. left. apply not_Forall_Exists in NF; [| intros x; apply _]. apply Exists_exists in NF. destruct NF as (x & Hx & Hn).
      assert (Hn' : forall e u, present (h ++ h') e u -> x <> Z.of_nat e).
      { intros e u P ->. apply Hn, elem_all. exists e. split; [apply HA; eauto | reflexivity]. }
      split; [exists x; auto |].
      assert (NC : forall o, ~ choice l tt o).
      { intros o C. subst tt. destruct w as [| z | k]; [congruence | |]; cbn [choice] in C; subst out.
        - apply elem_of_list_singleton in Hx. subst x. assert (Hz : (0 <= z)%Z) by (apply Hpos; left). destruct (Z.ltb_spec z 0); [lia |].
          destruct C as (e & A & B & _). apply Hn, elem_all. eauto.
        - destruct C as [_ C]. apply Hn, elem_all, C, Hx. }
      destruct (build_targets (run (h ++ h')) tt) eqn:E; auto.
      + destruct T2 as [C _]. destruct (NC _ C).
      + exfalso. apply N, T1. reflexivity.
      + exfalso. subst tt. destruct w; try destruct T2. congruence.
      + exfalso. subst tt. destruct w; try destruct T2. }
  assert (P : forall out0 us0, build_targets (run h) t = Chosen us0 out0 -> forall x, x ∈ out0 -> (0 <= x)%Z).
  { intros out0 us0 E x Hx. destruct (C49_targets U h t _ (C49_ids U h)) as (_ & T2 & _). rewrite E in T2. destruct T2 as [_ F].
    apply elem_of_list_lookup in Hx. destruct Hx as (k & Hk). destruct (Forall2_lookup_l _ _ _ _ _ F Hk) as (u & _ & e & -> & _). lia. }
  destruct t as [| x | z | a b c | k |].
  - unfold direct_view in H. destruct (build_targets (run h) TNone) eqn:E; try discriminate. injection H as <- <- <-. apply G; [reflexivity | discriminate | eapply P; reflexivity].
  - intros ->. intros l Hl Hne. cbn in H. injection H as <- <- <-. unfold view_call.
    destruct (C49_targets U (h ++ h') (TStr "all") l Hl) as (_ & _ & T3). apply T3; [exact Hne |]. cbn [choice]. split; [| reflexivity].
    apply lower_all. reflexivity.
  - unfold direct_view in H. destruct (build_targets (run h) (TInt z)) as [us0 out0 | | | | |] eqn:E; try discriminate.
    destruct out0 as [| y ys]; [discriminate |]. injection H as <- <- <-. apply G; [| discriminate | eapply P; reflexivity].
    destruct (C49_targets U h (TInt z) _ (C49_ids U h)) as (_ & T2 & _). rewrite E in T2. destruct T2 as [C _]. cbn [choice] in C.
    destruct (z <? 0)%Z; [destruct C as (e & _ & _ & C) | destruct C as (e & _ & _ & C)]; congruence.
  - unfold direct_view in H. destruct (build_targets (run h) (TSlice a b c)) eqn:E; try discriminate. injection H as <- <- <-. apply G; [reflexivity | discriminate | eapply P; reflexivity].
  - unfold direct_view in H. destruct (build_targets (run h) (TList k)) eqn:E; try discriminate. injection H as <- <- <-. apply G; [reflexivity | discriminate | eapply P; reflexivity].
  - unfold direct_view in H. destruct (build_targets (run h) TOther) eqn:E; try discriminate. injection H as <- <- <-. apply G; [reflexivity | discriminate | eapply P; reflexivity].
Qed.
Print Assumptions C49_views.

(** ** Example *)
Definition h0 : list (event nat) := [Register 2 20; Register 0 10; Register 5 50; Unregister 2; Register 3 30; Unregister 7; Register 5 51].
Example C49_example :
  ids (run h0) = [0; 3; 5] /\
  build_targets (run h0) (TStr "All") = Chosen [10; 30; 51] [0; 3; 5]%Z /\
  build_targets (run h0) (TInt (-1)) = Chosen [51] [5]%Z /\
  build_targets (run h0) (TInt 2) = IndexError /\
  build_targets (run h0) (TSlice None None (Some (-2)%Z)) = Chosen [51; 10] [5; 0]%Z /\
  build_targets (run h0) (TSlice (Some 1%Z) (Some 100%Z) None) = Chosen [30; 51] [3; 5]%Z /\
  build_targets (run h0) (TList [5; 0; 5]%Z) = Chosen [51; 10; 51] [5; 0; 5]%Z /\
  build_targets (run h0) (TList [-1]%Z) = KeyError.
Proof. vm_compute. repeat split; reflexivity. Qed.

(** ** Refuted *)
(** A view of the engines there are now raises for all of them as soon as one has gone. *)
Theorem C49_gone_refuted : exists (h : list (event nat)) v us out, direct_view (run h) (TSlice None None None) = (Chosen us out, Some v) /\
  length out = 3 /\ view_call (run (h ++ [Unregister 3])) v = KeyError.
Proof. exists h0. vm_compute. eauto 10. Qed.
Print Assumptions C49_gone_refuted.
(** If an engine is unregistered during the call with 'all', ids and uuids may not fit together: here the
    second uuid is that of engine 3, the second id is 5. *)
Theorem C49_race_refuted : exists (h : list (event nat)) gone, build_all_racing gone (run h) = Chosen [10; 30; 51] [0; 5]%Z.
Proof. exists h0, [[]; []; []; [3]]. vm_compute. reflexivity. Qed.
Print Assumptions C49_race_refuted.
