(** Proofs about the broadcast tree: coalesced replies (schedulers in separate processes). *)
From Coq Require Import List Arith Bool Lia Permutation.
From Verif Require Import Broadcast_Spec Broadcast_Model Broadcast_Proofs.
Import ListNotations.

Inductive key := KDown (n : node) (m : nat) | KTo (u m : nat) | KFrom (u m : nat) | KUp (n : node) (m : nat).
Definition key_eq_dec (a b : key) : {a = b} + {a <> b}.
Proof. decide equality; try apply Nat.eq_dec; apply (list_eq_dec Bool.bool_dec). Defined.
Definition inb (k : key) (h : list key) : bool := if in_dec key_eq_dec k h then true else false.
Lemma inb_In k h : inb k h = true <-> In k h.
Proof. unfold inb. destruct (in_dec key_eq_dec k h); split; auto; discriminate. Qed.
Lemma inb_false k h : inb k h = false <-> ~ In k h.
Proof. unfold inb. destruct (in_dec key_eq_dec k h); split; auto; try discriminate. contradiction. Qed.

Lemma child_eqb_eq c c' : child_eqb c c' = true <-> c = c'.
Proof.
  destruct c as [u|b], c' as [u'|b']; simpl; try (split; discriminate).
  - rewrite Nat.eqb_eq. split; congruence.
  - rewrite eqb_true_iff. split; congruence.
Qed.
Lemma node_eqb_eq a b : node_eqb a b = true <-> a = b.
Proof. unfold node_eqb. destruct (list_eq_dec Bool.bool_dec a b); split; auto; discriminate. Qed.
Lemma upd_same {A} (f : node -> nat -> A) n m v : upd f n m v n m = v.
Proof. unfold upd. rewrite (proj2 (node_eqb_eq n n) eq_refl), Nat.eqb_refl. reflexivity. Qed.
Lemma upd_other {A} (f : node -> nat -> A) n m v n' m' : (n', m') <> (n, m) -> upd f n m v n' m' = f n' m'.
Proof.
  intros H. unfold upd. destruct (node_eqb n n') eqn:E; simpl; [|reflexivity]. apply node_eqb_eq in E. subst n'.
  destruct (Nat.eqb_spec m m') as [->|]; [congruence|reflexivity].
Qed.

(** Setting a key of a dict whose keys are [kids]. *)
Lemma replace_map {A} (f : child -> A) c v kids : NoDup kids -> In c kids ->
  set_key c v (map (fun k => (k, f k)) kids) = map (fun k => (k, if child_eqb c k then v else f k)) kids.
Proof.
  intros Hn Hin. unfold set_key.
  replace (existsb _ _) with true.
  - induction kids as [|k kids IH]; [destruct Hin|]. inversion Hn as [|? ? H1 H2]; subst. cbn [map replace_key]. destruct (child_eqb c k) eqn:E.
    + f_equal. apply map_ext_in. intros k' Hk'. destruct (child_eqb c k') eqn:E'; [|reflexivity].
      apply child_eqb_eq in E, E'. subst. contradiction.
    + f_equal. apply IH; [exact H2|]. destruct Hin as [->|Hi]; [|exact Hi]. rewrite (proj2 (child_eqb_eq c c) eq_refl) in E. discriminate.
  - symmetry. apply existsb_exists. exists (c, f c). split; [apply in_map_iff; exists c; auto|]. simpl. apply child_eqb_eq. reflexivity.
Qed.

Lemma tree_order_nil d : tree_order d [] = [].
Proof. induction d as [|d IH]; [reflexivity|]. transitivity (tree_order d [] ++ tree_order d []); [reflexivity|]. rewrite IH. reflexivity. Qed.
Lemma filter_split_perm {A} (f : A -> bool) l : Permutation (filter (fun t => negb (f t)) l ++ filter f l) l.
Proof.
  induction l as [|t l IH]; simpl; [reflexivity|]. destruct (f t); simpl.
  - symmetry. apply Permutation_cons_app. symmetry. exact IH.
  - constructor; exact IH.
Qed.
Lemma tree_order_perm d ts : Permutation (tree_order d ts) ts.
Proof. revert ts; induction d as [|d IH]; intros ts; simpl; [reflexivity|]. rewrite !IH. apply filter_split_perm. Qed.

Section C.
Context (D : nat) (id_of : nat -> nat) (run : nat -> nat -> list nat * bool) (bs : list broadcast) (Hw : workload id_of bs).
Notation deliver := (deliver D false id_of run).
Notation step := (step D false id_of run).
Notation exec := (exec D false id_of run).
Notation onpath := (onpath D).

Definition coal (m : nat) : Prop := exists b, In b bs /\ msg b = m /\ coalescing b = true.
Definition tsof (m : nat) : list target :=
  match find (fun b => Nat.eqb (msg b) m && coalescing b) bs with Some b => targets b | None => [] end.
Lemma NoDup_key {A} (f : A -> nat) l x y : NoDup (map f l) -> In x l -> In y l -> f x = f y -> x = y.
Proof.
  induction l as [|a l IH]; simpl; [tauto|]. intros H Hx Hy E. inversion H as [|? ? H1 H2]; subst.
  destruct Hx as [->|Hx], Hy as [->|Hy]; auto.
  - exfalso. apply H1. rewrite E. apply in_map. exact Hy.
  - exfalso. apply H1. rewrite <- E. apply in_map. exact Hx.
Qed.
Lemma tsof_eq b : In b bs -> coalescing b = true -> tsof (msg b) = targets b.
Proof.
  intros Hb Hc. unfold tsof. destruct (find _ bs) as [b'|] eqn:E.
  - apply find_some in E as [Hb' E]. apply andb_true_iff in E as [E _]. apply Nat.eqb_eq in E.
    destruct Hw as [Hn _]. rewrite (NoDup_key msg bs b' b Hn Hb' Hb E). reflexivity.
  - apply (find_none _ _ E) in Hb. rewrite Nat.eqb_refl, Hc in Hb. discriminate.
Qed.
Lemma tsof_wf m : NoDup (map fst (tsof m)) /\ Forall (fun t => snd t = id_of (fst t)) (tsof m).
Proof.
  unfold tsof. destruct (find _ bs) as [b|] eqn:E; [|split; constructor]. apply find_some in E as [Hb _].
  destruct Hw as [_ H]. rewrite Forall_forall in H. apply H. exact Hb.
Qed.

Fixpoint onpathb (n : node) (id : nat) : bool :=
  match n with [] => true | b :: n => onpathb n id && Bool.eqb (Nat.testbit id (D - 1 - length n)) b end.
Lemma onpathb_spec n id : onpathb n id = true <-> onpath n id.
Proof. induction n as [|b n IH]; simpl; [tauto|]. rewrite andb_true_iff, IH, eqb_true_iff. tauto. Qed.
Definition route (n : node) (m : nat) : list target := filter (fun t => onpathb n (snd t)) (tsof m).
Lemma filter_filter {A} (f g : A -> bool) l : filter g (filter f l) = filter (fun x => f x && g x) l.
Proof. induction l as [|x l IH]; simpl; [reflexivity|]. destruct (f x); simpl; [destruct (g x)|]; rewrite IH; reflexivity. Qed.
Lemma filter_true {A} (l : list A) : filter (fun _ => true) l = l.
Proof. induction l; simpl; congruence. Qed.
Lemma route_root m : route [] m = tsof m.
Proof. apply filter_true. Qed.
Lemma route_child n m b : route (b :: n) m = filter (fun t => Bool.eqb (Nat.testbit (snd t) (D - 1 - length n)) b) (route n m).
Proof. unfold route. rewrite filter_filter. reflexivity. Qed.
Lemma route_part n m b : length n < D -> part D n (route n m) b = route (b :: n) m.
Proof. intros H. rewrite route_child. unfold part. apply filter_ext. intros t. rewrite next_idx_eq by exact H. reflexivity. Qed.
Lemma route_uniq n n' m u : length n = length n' -> In u (map fst (route n m)) -> In u (map fst (route n' m)) -> n = n'.
Proof.
  intros Hl H H'. apply in_map_iff in H as ([u1 i] & E1 & H). apply in_map_iff in H' as ([u2 i'] & E2 & H'). simpl in *; subst.
  apply filter_In in H as [H P], H' as [H' P']. simpl in *. apply onpathb_spec in P, P'.
  destruct (tsof_wf m) as [_ Hf]. rewrite Forall_forall in Hf. apply Hf in H as E. apply Hf in H' as E'. simpl in *. subst.
  eapply onpath_fun; eassumption.
Qed.
Lemma NoDup_map_filter {A B} (f : A -> B) g l : NoDup (map f l) -> NoDup (map f (filter g l)).
Proof.
  induction l as [|x l IH]; simpl; intros H; [constructor|]. inversion H as [|? ? H1 H2]; subst. destruct (g x); simpl; [|auto].
  constructor; [|auto]. intros Hi. apply H1. apply in_map_iff in Hi as (y & E & Hy). apply filter_In in Hy as [Hy _]. rewrite <- E. apply in_map. exact Hy.
Qed.
Lemma route_nodup n m : NoDup (map fst (route n m)).
Proof. apply NoDup_map_filter. apply tsof_wf. Qed.

Definition nonempty {A} (l : list A) : bool := match l with [] => false | _ => true end.
Definition subs (n : node) (m : nat) : list bool := filter (fun b => nonempty (route (b :: n) m)) [false; true].
Definition kids (n : node) (m : nat) : list child := if is_leaf D n then map (fun t => Engine (fst t)) (route n m) else map Sub (subs n m).
Lemma kids_nodup n m : NoDup (kids n m).
Proof.
  unfold kids. destruct (is_leaf D n).
  - rewrite <- (map_map fst Engine). pose proof (route_nodup n m) as H. induction H; simpl; constructor; auto.
    intros Hi. apply in_map_iff in Hi as (y & E & Hy). congruence.
  - unfold subs. simpl. destruct (nonempty _), (nonempty _); simpl; repeat constructor; simpl; intuition discriminate.
Qed.

(** The buffers that the subtree of [n] contributes *)
Definition tbufs (n : node) (m : nat) : list nat := flat_map (fun t => fst (run (fst t) m)) (tree_order (D - length n) (route n m)).
Definition payload (n : node) (m : nat) (c : child) : list nat := match c with Engine u => fst (run u m) | Sub b => tbufs (b :: n) m end.
Lemma tbufs_inner n m : length n < D -> tbufs n m = tbufs (false :: n) m ++ tbufs (true :: n) m.
Proof.
  intros H. unfold tbufs. cbn [length]. replace (D - length n) with (S (D - 1 - length n)) by lia.
  replace (D - S (length n)) with (D - 1 - length n) by lia. cbn [tree_order]. rewrite flat_map_app, !route_child.
  f_equal; f_equal; f_equal; apply filter_ext; intros t; destruct (Nat.testbit (snd t) _); reflexivity.
Qed.
Lemma flat_payload n m : length n <= D -> flat_map (payload n m) (kids n m) = tbufs n m.
Proof.
  intros Hl. unfold kids, is_leaf. destruct (Nat.eqb_spec (length n) D) as [E|N].
  - unfold tbufs. rewrite E, Nat.sub_diag. cbn [tree_order]. rewrite flat_map_concat_map, map_map, <- flat_map_concat_map. reflexivity.
  - rewrite tbufs_inner by lia. unfold subs. cbn [filter].
    assert (Hem : forall b, nonempty (route (b :: n) m) = false -> tbufs (b :: n) m = []).
    { intros b Hb. unfold tbufs. destruct (route (b :: n) m); [|discriminate]. rewrite tree_order_nil. reflexivity. }
    destruct (nonempty (route (false :: n) m)) eqn:E0, (nonempty (route (true :: n) m)) eqn:E1; simpl; rewrite ?app_nil_r, ?(Hem _ E0), ?(Hem _ E1), ?app_nil_r; reflexivity.
Qed.

Definition ckey (n : node) (m : nat) (c : child) : key := match c with Engine u => KFrom u m | Sub b => KUp (b :: n) m end.
Definition delivered (h : list key) (n : node) (m : nat) (c : child) : bool := inb (ckey n m c) h.
Definition complete (h : list key) (n : node) (m : nat) : Prop :=
  length n <= D /\ In (KDown n m) h /\ kids n m <> [] /\ forall c, In c (kids n m) -> In (ckey n m c) h.
Definition completeb (h : list key) (n : node) (m : nat) : bool := inb (KDown n m) h && nonempty (kids n m) && forallb (delivered h n m) (kids n m).
Lemma completeb_spec h n m : length n <= D -> (completeb h n m = true <-> complete h n m).
Proof.
  intros Hl. unfold completeb, complete. rewrite !andb_true_iff, inb_In, forallb_forall. unfold delivered.
  assert (nonempty (kids n m) = true <-> kids n m <> []) by (destruct (kids n m); simpl; split; congruence).
  assert ((forall c, In c (kids n m) -> inb (ckey n m c) h = true) <-> (forall c, In c (kids n m) -> In (ckey n m c) h)).
  { split; intros Hc c Hi; apply inb_In; apply Hc; exact Hi. }
  tauto.
Qed.
Definition entry (h : list key) (n : node) (m : nat) := map (fun c => (c, if delivered h n m c then Some (payload n m c) else None)) (kids n m).
Definition live (h : list key) (n : node) (m : nat) : bool := inb (KDown n m) h && negb (completeb h n m).
Definition ann (n : node) (m : nat) : announced :=
  if is_leaf D n then Idents (map fst (route n m)) else Pairs (route (false :: n) m ++ route (true :: n) m).

Definition enabled (h : list key) (k : key) : Prop :=
  match k with
  | KDown [] m => coal m
  | KDown (b :: n) m => In (KDown n m) h /\ length n < D
  | KTo u m => exists n, length n = D /\ In (KDown n m) h /\ In u (map fst (route n m))
  | KFrom u m => In (KTo u m) h
  | KUp n m => complete h n m
  end.
Definition keyof (p : packet) : list key :=
  match p with
  | Down n m true _ => [KDown n m] | ToEngine u _ m true => [KTo u m] | FromEngine u _ m true _ _ => [KFrom u m] | Up n m _ => [KUp n m]
  | _ => [] end.
Definition keys := flat_map keyof.
Definition pay (p : packet) : Prop :=
  match p with
  | Down n m true ts => length n <= D /\ ts = route n m
  | ToEngine u n m true => length n = D /\ In u (map fst (route n m))
  | FromEngine u n m true bufs ok => length n = D /\ In u (map fst (route n m)) /\ bufs = fst (run u m)
  | Up n m r => length n <= D /\ r_bufs r = tbufs n m /\ r_targets r = ann n m
  | _ => True
  end.

Record cinv (h : list key) (s : state) : Prop := {
  c_nodup : NoDup (keys (net s) ++ h);
  c_en : forall k, In k (keys (net s) ++ h) <-> enabled h k;
  c_pay : Forall pay (net s);
  c_rep : forall n m, length n <= D -> replies s n m = if live h n m then Some (entry h n m) else None;
  c_acc : forall n m, length n <= D -> acc s n m = if live h n m then Some (if is_leaf D n then LeafTargets (map fst (route n m))
                                                                           else SubTargets (map (fun b => (b, route (b :: n) m)) (subs n m))) else None;
  c_got : NoDup (map fst (got s)) /\ (forall m, In m (map fst (got s)) <-> In (KUp [] m) h) /\
          Forall (fun g => r_bufs (snd g) = tbufs [] (fst g) /\ r_targets (snd g) = ann [] (fst g)) (got s);
  c_exec : forall u m, In (KTo u m) h -> In (u, m) (executed s) }.

(** Everything that has happened was caused. *)
Lemma caused h s : cinv h s -> forall k, In k h -> enabled h k.
Proof. intros I k Hk. apply (c_en _ _ I). apply in_or_app; auto. Qed.
Lemma kid_down h s n m c : cinv h s -> length n <= D -> In c (kids n m) -> In (ckey n m c) h -> In (KDown n m) h.
Proof.
  intros I Hl Hc Hk. unfold kids, is_leaf in Hc. destruct (Nat.eqb_spec (length n) D) as [El|Nl].
  - apply in_map_iff in Hc as (t & <- & Ht). simpl in Hk. apply (caused _ _ I) in Hk. simpl in Hk. apply (caused _ _ I) in Hk. simpl in Hk.
    destruct Hk as (n' & Hn' & Hd & Hu). replace n with n'; [exact Hd|]. eapply (route_uniq n' n); [lia|exact Hu|]. apply in_map. exact Ht.
  - apply in_map_iff in Hc as (b & <- & Hb). simpl in Hk. apply (caused _ _ I) in Hk. destruct Hk as (_ & Hd & _). apply (caused _ _ I) in Hd. apply Hd.
Qed.

Lemma keys_app a b : keys (a ++ b) = keys a ++ keys b.
Proof. apply flat_map_app. Qed.
Lemma keys_perm a b : Permutation a b -> Permutation (keys a) (keys b).
Proof. apply Permutation_flat_map. Qed.

Lemma advance h ns rest p out k : Permutation ns (p :: rest) -> keyof p = [k] ->
  NoDup (keys ns ++ h) -> (forall k', In k' (keys ns ++ h) <-> enabled h k') ->
  NoDup (keys out) -> (forall k', In k' (keys out) -> ~ enabled h k') ->
  (forall k', enabled (k :: h) k' <-> enabled h k' \/ In k' (keys out)) ->
  NoDup (keys (rest ++ out) ++ k :: h) /\ forall k', In k' (keys (rest ++ out) ++ k :: h) <-> enabled (k :: h) k'.
Proof.
  intros Hp Hk Hn He No Hdis Hen.
  assert (P : Permutation (keys (rest ++ out) ++ k :: h) (keys out ++ keys ns ++ h)).
  { rewrite keys_app. etransitivity; [apply Permutation_app_tail, Permutation_app_comm|]. rewrite <- app_assoc. apply Permutation_app_head.
    rewrite (keys_perm _ _ Hp). unfold keys at 2. simpl. rewrite Hk. simpl. symmetry. apply Permutation_middle. }
  split.
  - eapply Permutation_NoDup; [symmetry; exact P|].
    clear - No Hn Hdis He. induction (keys out) as [|x l IH]; simpl; [exact Hn|]. inversion No; subst. constructor.
    + rewrite in_app_iff. intros [Hi|Hi]; [contradiction|]. apply He in Hi. apply (Hdis x); simpl; auto.
    + apply IH; [assumption|]. intros k' Hk'. apply Hdis. simpl; auto.
  - intros k'. split.
    + intros Hi. apply (Permutation_in _ P) in Hi. apply Hen. apply in_app_iff in Hi as [Hi|Hi]; [auto|]. left. apply He. exact Hi.
    + intros Hi. apply (Permutation_in _ (Permutation_sym P)). apply in_app_iff. apply Hen in Hi as [Hi|Hi]; [right; apply He, Hi|left; exact Hi].
Qed.

(** Messages of broadcasts that are not coalesced do not matter here. *)
Lemma skip h ns rest p out : Permutation ns (p :: rest) -> keyof p = [] -> keys out = [] -> Permutation (keys (rest ++ out) ++ h) (keys ns ++ h).
Proof.
  intros Hp Hk Ho. rewrite keys_app, Ho, app_nil_r. apply Permutation_app_tail. rewrite (keys_perm _ _ Hp). unfold keys at 2. simpl. rewrite Hk. reflexivity.
Qed.

Lemma delivered_cons k h n m c : k <> ckey n m c -> delivered (k :: h) n m c = delivered h n m c.
Proof.
  intros H. unfold delivered. destruct (inb (ckey n m c) h) eqn:E.
  - apply inb_In. right. apply inb_In. exact E.
  - apply inb_false. intros [Hi|Hi]; [congruence|]. apply inb_false in E. contradiction.
Qed.
Lemma inb_cons k k' h : k <> k' -> inb k' (k :: h) = inb k' h.
Proof.
  intros H. destruct (inb k' h) eqn:E; [apply inb_In; right; apply inb_In, E|]. apply inb_false. intros [Hi|Hi]; [congruence|]. apply inb_false in E. contradiction.
Qed.

(** Nodes that the message has nothing to do with *)
Lemma unaffected k h n m : k <> KDown n m -> (forall c, In c (kids n m) -> k <> ckey n m c) ->
  live (k :: h) n m = live h n m /\ entry (k :: h) n m = entry h n m /\ completeb (k :: h) n m = completeb h n m.
Proof.
  intros H1 H2.
  assert (Ef : forallb (delivered (k :: h) n m) (kids n m) = forallb (delivered h n m) (kids n m)).
  { assert (forall l, (forall c, In c l -> In c (kids n m)) -> forallb (delivered (k :: h) n m) l = forallb (delivered h n m) l) as Hg; [|apply Hg; auto].
    induction l as [|c l IH]; intros Hl; simpl; [reflexivity|]. rewrite IH by (intros; apply Hl; right; assumption). rewrite delivered_cons; [reflexivity|].
    apply H2, Hl. left; reflexivity. }
  assert (Ec : completeb (k :: h) n m = completeb h n m) by (unfold completeb; rewrite inb_cons, Ef; auto).
  repeat split; [|apply map_ext_in; intros c Hc; rewrite delivered_cons; auto|exact Ec].
  unfold live. rewrite Ec, inb_cons; auto.
Qed.
Lemma complete_unaffected k h n m : length n <= D -> k <> KDown n m -> (forall c, In c (kids n m) -> k <> ckey n m c) -> (complete (k :: h) n m <-> complete h n m).
Proof. intros Hl H1 H2. rewrite <- !completeb_spec by exact Hl. rewrite (proj2 (proj2 (unaffected _ h _ _ H1 H2))). reflexivity. Qed.
Lemma complete_len h n m : complete h n m -> length n <= D.
Proof. intros H; apply H. Qed.

(** A child of [n] has answered. *)
Lemma coalesce h s n m c bufs ok k :
  (forall n m, length n <= D -> replies s n m = if live h n m then Some (entry h n m) else None) ->
  (forall n m, length n <= D -> acc s n m = if live h n m then Some (if is_leaf D n then LeafTargets (map fst (route n m))
                                                                           else SubTargets (map (fun b => (b, route (b :: n) m)) (subs n m))) else None) ->
  length n <= D -> In c (kids n m) -> k = ckey n m c -> In (KDown n m) h -> ~ In k h -> bufs = payload n m c ->
  let '(s', out) := coalescing_reply D false s n m c bufs ok in
  (out = if completeb (k :: h) n m then [Up n m (R (ann n m) (tbufs n m) ok)] else []) /\
  (forall n' m', length n' <= D -> replies s' n' m' = if live (k :: h) n' m' then Some (entry (k :: h) n' m') else None) /\
  (forall n' m', length n' <= D -> acc s' n' m' = if live (k :: h) n' m' then Some (if is_leaf D n' then LeafTargets (map fst (route n' m'))
                                                                           else SubTargets (map (fun b => (b, route (b :: n') m')) (subs n' m'))) else None) /\
  got s' = got s /\ executed s' = executed s.
Proof.
  intros IR IA Hl Hc Ek Hd Hk Hb. unfold coalescing_reply, store.
  assert (Hncomp : completeb h n m = false).
  { destruct (completeb h n m) eqn:E; [|reflexivity]. apply completeb_spec in E; [|exact Hl]. destruct E as (_ & _ & _ & E). exfalso. apply Hk. rewrite Ek. apply E, Hc. }
  assert (Hlive : live h n m = true) by (unfold live; rewrite Hncomp, (proj2 (inb_In _ _) Hd); reflexivity).
  rewrite (IR n m Hl), Hlive.
  assert (Eset : set_key c (Some bufs) (entry h n m) = entry (k :: h) n m).
  { unfold entry. rewrite (replace_map (fun c => if delivered h n m c then Some (payload n m c) else None)) by (auto using kids_nodup). apply map_ext. intros c'. f_equal.
    destruct (child_eqb c c') eqn:E.
    - apply child_eqb_eq in E. subst c'. replace (delivered (k :: h) n m c) with true; [subst bufs; reflexivity|]. symmetry. apply inb_In. left. exact Ek.
    - rewrite delivered_cons; [reflexivity|]. intros E'. rewrite Ek in E'. assert (c = c'); [|subst; rewrite (proj2 (child_eqb_eq c' c') eq_refl) in E; discriminate].
      destruct c, c'; simpl in E'; congruence. }
  rewrite Eset.
  assert (Eall : forallb (fun e => is_some (snd e)) (entry (k :: h) n m) = completeb (k :: h) n m).
  { unfold completeb. replace (inb (KDown n m) (k :: h)) with true by (symmetry; apply inb_In; right; exact Hd).
    replace (nonempty (kids n m)) with true by (destruct (kids n m); [destruct Hc|reflexivity]). simpl.
    unfold entry. clear. induction (kids n m) as [|c' l IH]; simpl; [reflexivity|]. rewrite IH. destruct (delivered (k :: h) n m c'); reflexivity. }
  rewrite Eall.
  assert (Hlive' : live (k :: h) n m = negb (completeb (k :: h) n m)).
  { unfold live. replace (inb (KDown n m) (k :: h)) with true by (symmetry; apply inb_In; right; exact Hd). reflexivity. }
  assert (Hoth : forall n' m', length n' <= D -> (n', m') <> (n, m) -> live (k :: h) n' m' = live h n' m' /\ entry (k :: h) n' m' = entry h n' m').
  { intros n' m' Hl' Hne. assert (U : k <> KDown n' m' /\ forall c', In c' (kids n' m') -> k <> ckey n' m' c'); [split|destruct (unaffected k h n' m' (proj1 U) (proj2 U)) as (U1 & U2 & _); auto].
    - rewrite Ek. destruct c; discriminate.
    - intros c' Hc' E'. rewrite Ek in E'. apply Hne. destruct c as [u|b], c' as [u'|b']; simpl in E'; try discriminate; injection E' as E1 E2; subst; [|congruence].
      f_equal. unfold kids, is_leaf in Hc, Hc'. destruct (Nat.eqb_spec (length n) D) as [El|]; [|apply in_map_iff in Hc as (? & ? & _); discriminate].
      destruct (Nat.eqb_spec (length n') D) as [El'|]; [|apply in_map_iff in Hc' as (? & ? & _); discriminate].
      apply in_map_iff in Hc as (t & E1 & Ht). apply in_map_iff in Hc' as (t' & E1' & Ht'). injection E1 as E1. injection E1' as E1'.
      apply (route_uniq n' n m' u'); [lia|rewrite <- E1'|rewrite <- E1]; apply in_map; assumption. }
  destruct (completeb (k :: h) n m) eqn:Ecomp.
  - assert (Ebuf : flat_map (fun e => the (snd e)) (entry (k :: h) n m) = tbufs n m).
    { rewrite <- flat_payload by exact Hl. unfold entry. rewrite flat_map_concat_map, map_map, <- flat_map_concat_map.
      assert (Hall : forall c', In c' (kids n m) -> delivered (k :: h) n m c' = true).
      { unfold completeb in Ecomp. apply andb_true_iff in Ecomp as [_ Ecomp]. rewrite forallb_forall in Ecomp. exact Ecomp. }
      clear - Hall. induction (kids n m) as [|c' l IH]; simpl; [reflexivity|]. rewrite Hall by (left; reflexivity). simpl. f_equal. apply IH. intros; apply Hall; right; assumption. }
    rewrite Ebuf, (IA n m Hl), Hlive.
    assert (Hupd : forall n' m', length n' <= D -> upd (replies s) n m None n' m' = if live (k :: h) n' m' then Some (entry (k :: h) n' m') else None).
    { intros n' m' Hl'. destruct (list_eq_dec Bool.bool_dec n' n) as [->|Hne]; [destruct (Nat.eq_dec m' m) as [->|Hne]|].
      - rewrite upd_same, Hlive'. reflexivity.
      - rewrite upd_other by congruence. destruct (Hoth n m' Hl' ltac:(congruence)) as [-> ->]. apply IR; exact Hl'.
      - rewrite upd_other by congruence. destruct (Hoth n' m' Hl' ltac:(congruence)) as [-> ->]. apply IR; exact Hl'. }
    assert (Hupa : forall n' m', length n' <= D -> upd (acc s) n m None n' m' = if live (k :: h) n' m' then Some (if is_leaf D n' then LeafTargets (map fst (route n' m'))
                                                                           else SubTargets (map (fun b => (b, route (b :: n') m')) (subs n' m'))) else None).
    { intros n' m' Hl'. destruct (list_eq_dec Bool.bool_dec n' n) as [->|Hne]; [destruct (Nat.eq_dec m' m) as [->|Hne]|].
      - rewrite upd_same, Hlive'. reflexivity.
      - rewrite upd_other by congruence. destruct (Hoth n m' Hl' ltac:(congruence)) as [-> _]. apply IA; exact Hl'.
      - rewrite upd_other by congruence. destruct (Hoth n' m' Hl' ltac:(congruence)) as [-> _]. apply IA; exact Hl'. }
    unfold ann. destruct (is_leaf D n) eqn:El.
    + repeat split; auto.
    + assert (Eext : extend_targets (entry (k :: h) n m) (map (fun b => (b, route (b :: n) m)) (subs n m)) = Some (route (false :: n) m ++ route (true :: n) m)).
      { unfold entry, kids. rewrite El. unfold subs. cbn [filter].
        assert (Hem : forall b, nonempty (route (b :: n) m) = false -> route (b :: n) m = []) by (intros b; destruct (route (b :: n) m); [reflexivity|discriminate]).
        destruct (nonempty (route (false :: n) m)) eqn:E0, (nonempty (route (true :: n) m)) eqn:E1; cbn; rewrite ?(Hem _ E0), ?(Hem _ E1), ?app_nil_r; reflexivity. }
      rewrite Eext. repeat split; auto.
  - repeat split; cbn [replies acc].
    + intros n' m' Hl'. destruct (list_eq_dec Bool.bool_dec n' n) as [->|Hne]; [destruct (Nat.eq_dec m' m) as [->|Hne]|].
      * rewrite upd_same, Hlive'. reflexivity.
      * rewrite upd_other by congruence. destruct (Hoth n m' Hl' ltac:(congruence)) as [-> ->]. apply IR; exact Hl'.
      * rewrite upd_other by congruence. destruct (Hoth n' m' Hl' ltac:(congruence)) as [-> ->]. apply IR; exact Hl'.
    + intros n' m' Hl'. destruct (list_eq_dec Bool.bool_dec n' n) as [->|Hne]; [destruct (Nat.eq_dec m' m) as [->|Hne]|].
      * rewrite Hlive'. rewrite (IA n m Hl), Hlive. reflexivity.
      * destruct (Hoth n m' Hl' ltac:(congruence)) as [-> _]. apply IA; exact Hl'.
      * destruct (Hoth n' m' Hl' ltac:(congruence)) as [-> _]. apply IA; exact Hl'.
Qed.


Lemma kid_len n m b : In (Sub b) (kids n m) -> length n <= D -> length n < D.
Proof.
  unfold kids, is_leaf. destruct (Nat.eqb_spec (length n) D) as [E|N]; [|lia]. intros H. apply in_map_iff in H as (? & ? & _). discriminate.
Qed.
Lemma reply_step h s rest p n m c bufs ok k :
  cinv h s -> Permutation (net s) (p :: rest) -> Forall pay rest -> keyof p = [k] -> length n <= D -> In c (kids n m) -> k = ckey n m c ->
  In (KDown n m) h -> ~ In k h -> bufs = payload n m c ->
  let '(s', out) := coalescing_reply D false (set_net s rest) n m c bufs ok in cinv (k :: h) (set_net s' (rest ++ out)).
Proof.
  intros HI Hp Hpr Hkp Hl Hc Ek Hd Hk Hb.
  pose proof (coalesce h (set_net s rest) n m c bufs ok k (c_rep _ _ HI) (c_acc _ _ HI) Hl Hc Ek Hd Hk Hb) as HC.
  destruct (coalescing_reply D false (set_net s rest) n m c bufs ok) as [s' out]. destruct HC as (Eo & HR & HA & HG & HE).
  assert (Hnot : ~ complete h n m) by (intros (_ & _ & _ & Hx); apply Hk; rewrite Ek; apply Hx, Hc).
  assert (Hou : forall n' m', length n' <= D -> (n', m') <> (n, m) -> (complete (k :: h) n' m' <-> complete h n' m')).
  { intros n' m' Hl' Hne. apply complete_unaffected; [exact Hl'|rewrite Ek; destruct c; discriminate|].
    intros c' Hc' E'. rewrite Ek in E'. apply Hne. destruct c as [u|b], c' as [u'|b']; simpl in E'; try discriminate; injection E' as E1 E2; subst; [|congruence].
    f_equal. unfold kids, is_leaf in Hc, Hc'. destruct (Nat.eqb_spec (length n) D) as [El|]; [|apply in_map_iff in Hc as (? & ? & _); discriminate].
    destruct (Nat.eqb_spec (length n') D) as [El'|]; [|apply in_map_iff in Hc' as (? & ? & _); discriminate].
    apply in_map_iff in Hc as (t & E1 & Ht). apply in_map_iff in Hc' as (t' & E1' & Ht'). injection E1 as E1. injection E1' as E1'.
    apply (route_uniq n' n m' u'); [lia|rewrite <- E1'|rewrite <- E1]; apply in_map; assumption. }
  assert (Hko : forall k', In k' (keys out) <-> k' = KUp n m /\ complete (k :: h) n m).
  { intros k'. rewrite Eo, <- completeb_spec by exact Hl. destruct (completeb (k :: h) n m); simpl; split; try tauto.
    - intros [<-|[]]; auto.
    - intros [-> _]; auto.
    - intros [_ Hx]; discriminate. }
  destruct (advance h (net s) rest p out k Hp Hkp (c_nodup _ _ HI) (c_en _ _ HI)) as [N1 N2].
  - rewrite Eo. destruct (completeb (k :: h) n m); simpl; repeat constructor; simpl; tauto.
  - intros k' Hk'. apply Hko in Hk' as [-> _]. exact Hnot.
  - intros k'. rewrite Hko. destruct k' as [[|b' n'] m'|u' m'|u' m'|n' m']; cbn [enabled].
    + split; [auto|intros [H|[H _]]; [exact H|discriminate]].
    + split; [intros [[H|H] HD]; [rewrite Ek in H; destruct c; discriminate|auto]|intros [[H HD]|[H _]]; [split; [right|]; auto|discriminate]].
    + split; [intros (n' & Hn' & [H|H] & Hu); [rewrite Ek in H; destruct c; discriminate|left; exists n'; auto]|intros [(n' & Hn' & H & Hu)|[H _]]; [exists n'; simpl; auto|discriminate]].
    + split; [intros [H|H]; [rewrite Ek in H; destruct c; discriminate|auto]|intros [H|[H _]]; [right; exact H|discriminate]].
    + split.
      * intros Hx. destruct (list_eq_dec Bool.bool_dec n' n) as [->|Hne]; [destruct (Nat.eq_dec m' m) as [->|Hne]|].
        -- right. auto.
        -- left. apply Hou in Hx; [exact Hx|exact Hl|congruence].
        -- left. pose proof (complete_len _ _ _ Hx). apply Hou in Hx; [exact Hx|assumption|congruence].
      * intros [Hx|[Hx Hy]]; [|injection Hx as -> ->; exact Hy]. pose proof (complete_len _ _ _ Hx). apply Hou; [assumption| |exact Hx].
        intros He. injection He as -> ->. contradiction.
  - constructor; cbn [net replies acc executed got got1 set_net]; auto.
    + apply Forall_app. split; [exact Hpr|]. rewrite Eo. destruct (completeb (k :: h) n m); repeat constructor; auto.
    + rewrite HG. destruct (c_got _ _ HI) as (G1 & G2 & G3). cbn [got set_net]. repeat split; auto.
      * intros Hm. right. apply G2, Hm.
      * intros [Hm|Hm]; [rewrite Ek in Hm; destruct c; discriminate|apply G2, Hm].
    + intros u' m' [Hx|Hx]; [rewrite Ek in Hx; destruct c; discriminate|]. rewrite HE. cbn [executed set_net]. apply (c_exec _ _ HI). exact Hx.
Qed.

Lemma fold_set us d : NoDup us -> (forall u, In u us -> ~ In (Engine u) (map fst d)) ->
  fold_left (fun d u => set_key (Engine u) (@None (list nat)) d) us d = d ++ map (fun u => (Engine u, None)) us.
Proof.
  revert d; induction us as [|u us IH]; intros d Hn Hd; simpl; [rewrite app_nil_r; reflexivity|]. inversion Hn as [|? ? H1 H2]; subst.
  assert (E : set_key (Engine u) (@None (list nat)) d = d ++ [(Engine u, None)]).
  { unfold set_key. replace (existsb _ d) with false; [reflexivity|]. symmetry. apply not_true_iff_false. intros Hx. apply existsb_exists in Hx as ([c v] & Hi & Hc).
    apply child_eqb_eq in Hc. simpl in Hc. subst c. apply (Hd u); [left; reflexivity|]. change (Engine u) with (fst (Engine u, v)). apply in_map. exact Hi. }
  rewrite E, IH; [rewrite <- app_assoc; reflexivity|exact H2|].
  intros u' Hu' Hi. rewrite map_app in Hi. apply in_app_iff in Hi as [Hi|[Hi|[]]]; [apply (Hd u'); [right; exact Hu'|exact Hi]|]. injection Hi as <-. contradiction.
Qed.

Lemma undelivered h s n m : cinv h s -> length n <= D -> ~ In (KDown n m) h ->
  entry (KDown n m :: h) n m = map (fun c => (c, None)) (kids n m) /\ completeb (KDown n m :: h) n m = false.
Proof.
  intros I Hl Hd.
  assert (H : forall c, In c (kids n m) -> delivered (KDown n m :: h) n m c = false).
  { intros c Hc. apply inb_false. intros [E|Hi]; [destruct c; discriminate|]. apply Hd. eapply kid_down; eassumption. }
  split.
  - unfold entry. apply map_ext_in. intros c Hc. rewrite H by exact Hc. reflexivity.
  - unfold completeb. destruct (kids n m) as [|c l] eqn:E; simpl; [rewrite andb_false_r; reflexivity|].
    rewrite (H c) by (left; reflexivity). simpl. rewrite andb_false_r. reflexivity.
Qed.

Lemma complete_cons_down h s n m n' m' : cinv h s -> length n <= D -> ~ In (KDown n m) h -> (complete (KDown n m :: h) n' m' <-> complete h n' m').
Proof.
  intros I Hl Hd. destruct (list_eq_dec Bool.bool_dec n' n) as [->|Hne]; [destruct (Nat.eq_dec m' m) as [->|Hne]|].
  - split; intros Hc.
    + apply completeb_spec in Hc; [|exact Hl]. destruct (undelivered h s n m I Hl Hd) as [_ E]. congruence.
    + destruct Hc as (_ & Hc & _). contradiction.
  - split; intros Hc; pose proof (complete_len _ _ _ Hc) as Hl'; (apply complete_unaffected in Hc || apply complete_unaffected); auto; try congruence; intros c _; destruct c; discriminate.
  - split; intros Hc; pose proof (complete_len _ _ _ Hc) as Hl'; (apply complete_unaffected in Hc || apply complete_unaffected); auto; try congruence; intros c _; destruct c; discriminate.
Qed.

Definition good (p : packet) : Prop := Broadcast_Proofs.wf D id_of run p.

Lemma cinv_start : cinv [] (start bs).
Proof.
  assert (Hnet : forall k, In k (keys (net (start bs))) <-> exists m, k = KDown [] m /\ coal m).
  { intros k. simpl. unfold keys. rewrite in_flat_map. split.
    - intros (p & Hp & Hk). apply in_map_iff in Hp as (b & <- & Hb). simpl in Hk. destruct (coalescing b) eqn:E; [|destruct Hk]. destruct Hk as [<-|[]]. exists (msg b). split; [reflexivity|]. exists b. auto.
    - intros (m & -> & b & Hb & Em & Ec). exists (Down [] (msg b) (coalescing b) (targets b)). split; [apply in_map_iff; exists b; auto|]. simpl. rewrite Ec, Em. left; reflexivity. }
  constructor.
  - rewrite app_nil_r. simpl. destruct Hw as [Hn _]. clear - Hn. induction bs as [|b l IH]; simpl; [constructor|]. inversion Hn as [|? ? H1 H2]; subst.
    destruct (coalescing b); simpl; [|auto]. constructor; [|auto]. intros Hi. apply in_flat_map in Hi as (p & Hp & Hk). apply in_map_iff in Hp as (b' & <- & Hb').
    simpl in Hk. destruct (coalescing b'); [|destruct Hk]. destruct Hk as [E|[]]. injection E as E. apply H1. rewrite <- E. apply in_map. exact Hb'.
  - intros k. rewrite app_nil_r, Hnet. split.
    + intros (m & -> & Hc). exact Hc.
    + destruct k as [[|b n] m|u m|u m|n m]; simpl; try tauto.
      * intros Hc. exists m. auto.
      * intros (n & _ & [] & _).
      * intros (_ & [] & _).
  - simpl. rewrite Forall_map. apply Forall_forall. intros b Hb. simpl. destruct (coalescing b) eqn:E; [|exact I]. split; [lia|]. rewrite route_root. symmetry. apply tsof_eq; auto.
  - intros n m _. reflexivity.
  - intros n m _. reflexivity.
  - simpl. repeat split; try constructor; tauto.
  - intros u m [].
Qed.

Lemma cstep h s i s' : inv D id_of run bs s -> cinv h s -> step s i = Some s' -> exists h', cinv h' s'.
Proof.
  intros J I E. unfold Broadcast_Model.step in E. destruct (take i (net s)) as [[p rest]|] eqn:Et; [|discriminate].
  pose proof (take_perm _ _ _ _ Et) as Hp.
  pose proof (Permutation_Forall Hp (c_pay _ _ I)) as Hpay. inversion Hpay as [|? ? Hpp Hpr]; subst. clear Hpay.
  pose proof (Permutation_Forall Hp (inv_wf _ _ _ _ _ J)) as Hwf. inversion Hwf as [|? ? Hwp _]; subst. clear Hwf.
  assert (Hskip : forall out, keyof p = [] -> keys out = [] -> NoDup (keys (rest ++ out) ++ h) /\ forall k, In k (keys (rest ++ out) ++ h) <-> enabled h k).
  { intros out K1 K2. pose proof (skip h _ _ _ _ Hp K1 K2) as P. split; [eapply Permutation_NoDup; [symmetry; exact P|apply (c_nodup _ _ I)]|].
    intros k. rewrite <- (c_en _ _ I). split; apply Permutation_in; [exact P|symmetry; exact P]. }
  assert (Hkey : forall k, keyof p = [k] -> ~ In k h /\ enabled h k).
  { intros k Hk. assert (Hin : In k (keys (net s))).
    { apply (Permutation_in _ (Permutation_sym (keys_perm _ _ Hp))). unfold keys. simpl. rewrite Hk. left; reflexivity. }
    split; [|apply (c_en _ _ I); apply in_or_app; auto]. intros Hh. pose proof (c_nodup _ _ I) as Hn.
    apply in_split in Hin as (l1 & l2 & El). rewrite El, <- app_assoc in Hn. simpl in Hn. apply NoDup_remove_2 in Hn. apply Hn. rewrite !in_app_iff. auto. }
  assert (Hadv : forall k out, keyof p = [k] -> NoDup (keys out) -> (forall k', In k' (keys out) -> ~ enabled h k') ->
     (forall k', enabled (k :: h) k' <-> enabled h k' \/ In k' (keys out)) ->
     NoDup (keys (rest ++ out) ++ k :: h) /\ forall k', In k' (keys (rest ++ out) ++ k :: h) <-> enabled (k :: h) k').
  { intros k out Hk. apply (advance h (net s) rest p out k Hp Hk (c_nodup _ _ I) (c_en _ _ I)). }
  pose proof (c_rep _ _ I) as I4. pose proof (c_acc _ _ I) as I5. pose proof (c_got _ _ I) as I6. pose proof (c_exec _ _ I) as I7. rename I into HI.
  destruct p as [n m c ts|u n m c|u n m c bufs ok|n m r|n u m bufs ok]; simpl in E.
  - (* a submission arrives *)
    destruct c.
    2: { exists h. unfold dispatch_submission, send_to_targets, send_to_sub_schedulers in E. set (out := if is_leaf D n then map (fun u => ToEngine u n m false) (map fst ts) else _) in E || idtac.
         destruct (is_leaf D n); injection E as <-.
         - destruct (Hskip (map (fun u => ToEngine u n m false) (map fst ts)) eq_refl) as [N1 N2].
           { unfold keys. apply flat_map_none. reflexivity. }
           constructor; simpl; auto. apply Forall_app. split; [exact Hpr|]. rewrite Forall_map. apply Forall_forall. simpl. auto.
         - match goal with |- context[rest ++ ?o] => destruct (Hskip o eq_refl eq_refl) as [N1 N2] end.
           constructor; simpl; auto. apply Forall_app. split; [exact Hpr|]. repeat constructor. }
    simpl in Hpp. destruct Hpp as [Hl ->]. destruct (Hkey (KDown n m) eq_refl) as [Kn Ke].
    destruct (undelivered h s n m HI Hl Kn) as [Uent Ucomp].
    assert (Ulive : live (KDown n m :: h) n m = true).
    { unfold live. rewrite Ucomp. replace (inb (KDown n m) (KDown n m :: h)) with true by (symmetry; apply inb_In; left; reflexivity). reflexivity. }
    assert (Hoth : forall n' m', (n', m') <> (n, m) -> live (KDown n m :: h) n' m' = live h n' m' /\ entry (KDown n m :: h) n' m' = entry h n' m').
    { intros n' m' Hne. destruct (unaffected (KDown n m) h n' m') as (U1 & U2 & _); [congruence|intros c _; destruct c; discriminate|auto]. }
    exists (KDown n m :: h).
    unfold dispatch_submission in E. destruct (is_leaf D n) eqn:El.
    + pose proof El as El'. unfold is_leaf in El'. apply Nat.eqb_eq in El'.
      unfold send_to_targets, store in E. injection E as <-.
      destruct (Hadv (KDown n m) (map (fun u => ToEngine u n m true) (map fst (route n m))) eq_refl) as [N1 N2].
      * unfold keys. rewrite (flat_map_one _ _ (fun u => KTo u m)) by reflexivity. pose proof (route_nodup n m) as Hr. induction Hr; simpl; constructor; auto.
        intros Hi. apply in_map_iff in Hi as (y & Ey & Hy). injection Ey as ->. contradiction.
      * intros k' Hk' He. unfold keys in Hk'. rewrite (flat_map_one _ _ (fun u => KTo u m)) in Hk' by reflexivity. apply in_map_iff in Hk' as (u & <- & Hu).
        destruct He as (n' & Hn' & Hd & Hu'). apply Kn. replace n with n'; [exact Hd|]. eapply route_uniq; [|exact Hu'|exact Hu]. lia.
      * intros k'. unfold keys. rewrite (flat_map_one _ _ (fun u => KTo u m)) by reflexivity. rewrite in_map_iff.
        destruct k' as [[|b n'] m'|u' m'|u' m'|n' m']; simpl.
        -- split; [auto|]. intros [H|(x & Ex & _)]; [exact H|discriminate].
        -- split; [intros [[Hd|Hd] HD]; [injection Hd as -> ->; lia|auto]|intros [[Hd HD]|(x & Ex & _)]; [auto|discriminate]].
        -- split.
           ++ intros (n' & Hn' & [Hd|Hd] & Hu); [injection Hd as <- <-; right; exists u'; auto|left; exists n'; auto].
           ++ intros [(n' & Hn' & Hd & Hu)|(x & Ex & Hx)]; [exists n'; auto|]. injection Ex as -> ->. exists n. auto.
        -- split; [intros [Hd|Hd]; [discriminate|auto]|intros [Hd|(x & Ex & _)]; [auto|discriminate]].
        -- rewrite (complete_cons_down h s n m n' m' HI Hl Kn). split; [auto|]. intros [H|(x & Ex & _)]; [exact H|discriminate].
      * constructor; cbn [net replies acc executed got got1 set_net]; auto.
        -- apply Forall_app. split; [exact Hpr|]. rewrite Forall_map. apply Forall_forall. intros u Hu. simpl. auto.
        -- intros n' m' Hl'. destruct (list_eq_dec Bool.bool_dec n' n) as [->|Hne]; [destruct (Nat.eq_dec m' m) as [->|Hne]|].
           ++ rewrite upd_same, Ulive, Uent. rewrite fold_set; [|apply route_nodup|intros u _ []]. simpl. f_equal. unfold kids. rewrite El, !map_map. reflexivity.
           ++ rewrite upd_other by congruence. destruct (Hoth n m' ltac:(congruence)) as [-> ->]. auto.
           ++ rewrite upd_other by congruence. destruct (Hoth n' m' ltac:(congruence)) as [-> ->]. auto.
        -- intros n' m' Hl'. destruct (list_eq_dec Bool.bool_dec n' n) as [->|Hne]; [destruct (Nat.eq_dec m' m) as [->|Hne]|].
           ++ rewrite upd_same, Ulive, El. reflexivity.
           ++ rewrite upd_other by congruence. destruct (Hoth n m' ltac:(congruence)) as [-> _]. auto.
           ++ rewrite upd_other by congruence. destruct (Hoth n' m' ltac:(congruence)) as [-> _]. auto.
        -- destruct I6 as (G1 & G2 & G3). repeat split; auto; [intros Hm; right; apply G2, Hm|intros [Hm|Hm]; [discriminate|apply G2, Hm]].
        -- intros u' m' [Hd|Hd]; [discriminate|auto].
    + assert (Nl : length n < D) by (unfold is_leaf in El; apply Nat.eqb_neq in El; lia).
      unfold send_to_sub_schedulers, store in E. cbv zeta in E. injection E as <-.
      change (filter (fun t => Bool.eqb (next_idx D (length n) (snd t)) false) (route n m)) with (part D n (route n m) false).
      change (filter (fun t => Bool.eqb (next_idx D (length n) (snd t)) true) (route n m)) with (part D n (route n m) true).
      rewrite !route_part by exact Nl.
      destruct (Hadv (KDown n m) [Down (false :: n) m true (route (false :: n) m); Down (true :: n) m true (route (true :: n) m)] eq_refl) as [N1 N2].
      * simpl. repeat constructor; simpl; intuition discriminate.
      * simpl. intros k' [<-|[<-|[]]] [Hd _]; contradiction.
      * intros k'. simpl. destruct k' as [[|b n'] m'|u' m'|u' m'|n' m']; simpl.
        -- split; [auto|]. intros [H|[H|[H|[]]]]; [exact H|discriminate|discriminate].
        -- split.
           ++ intros [[Hd|Hd] HD]; [injection Hd as -> ->; destruct b; auto|auto].
           ++ intros [[Hd HD]|[H|[H|[]]]]; [auto| |]; injection H as <- <- <-; auto.
        -- split; [intros (n' & Hn' & [Hd|Hd] & Hu); [injection Hd as <- <-; lia|left; exists n'; auto]|intros [(n' & Hn' & Hd & Hu)|[H|[H|[]]]]; [exists n'; auto|discriminate|discriminate]].
        -- split; [intros [Hd|Hd]; [discriminate|auto]|intros [Hd|[H|[H|[]]]]; [auto|discriminate|discriminate]].
        -- rewrite (complete_cons_down h s n m n' m' HI Hl Kn). split; [auto|]. intros [H|[H|[H|[]]]]; [exact H|discriminate|discriminate].
      * constructor; cbn [net replies acc executed got got1 set_net]; auto.
        -- apply Forall_app. split; [exact Hpr|]. repeat constructor; simpl; auto; lia.
        -- intros n' m' Hl'. destruct (list_eq_dec Bool.bool_dec n' n) as [->|Hne]; [destruct (Nat.eq_dec m' m) as [->|Hne]|].
           ++ rewrite upd_same, Ulive, Uent. transitivity (Some (map (fun b => (Sub b, @None (list nat))) (subs n m))); [reflexivity|]. f_equal. unfold kids. rewrite El, map_map. reflexivity.
           ++ rewrite upd_other by congruence. destruct (Hoth n m' ltac:(congruence)) as [-> ->]. auto.
           ++ rewrite upd_other by congruence. destruct (Hoth n' m' ltac:(congruence)) as [-> ->]. auto.
        -- intros n' m' Hl'. destruct (list_eq_dec Bool.bool_dec n' n) as [->|Hne]; [destruct (Nat.eq_dec m' m) as [->|Hne]|].
           ++ rewrite upd_same, Ulive, El. f_equal. f_equal. match goal with |- map ?f _ = _ => transitivity (map f (subs n m)); [reflexivity|] end. apply map_ext. intros b. apply (f_equal (pair b)). apply (route_part n m b Nl).
           ++ rewrite upd_other by congruence. destruct (Hoth n m' ltac:(congruence)) as [-> _]. auto.
           ++ rewrite upd_other by congruence. destruct (Hoth n' m' ltac:(congruence)) as [-> _]. auto.
        -- destruct I6 as (G1 & G2 & G3). repeat split; auto; [intros Hm; right; apply G2, Hm|intros [Hm|Hm]; [discriminate|apply G2, Hm]].
        -- intros u' m' [Hd|Hd]; [discriminate|auto].
  - (* an engine gets the request *)
    destruct Hwp as [Hl Hon]. rewrite (val_leaf D n _ Hl Hon), Nat.eqb_refl in E. injection E as <-.
    destruct c.
    2: { exists h. destruct (Hskip [FromEngine u n m false (fst (run u m)) (snd (run u m))] eq_refl eq_refl) as [N1 N2].
         constructor; cbn [net replies acc executed got got1 set_net]; auto; [apply Forall_app; split; [exact Hpr|repeat constructor]|].
         intros u' m' Hd. apply in_or_app. left. auto. }
    destruct Hpp as [_ Hu]. destruct (Hkey (KTo u m) eq_refl) as [Kn Ke]. exists (KTo u m :: h).
    assert (Hun : forall n' m', live (KTo u m :: h) n' m' = live h n' m' /\ entry (KTo u m :: h) n' m' = entry h n' m').
    { intros n' m'. destruct (unaffected (KTo u m) h n' m') as (U1 & U2 & _); [discriminate|intros c _; destruct c; discriminate|auto]. }
    destruct (Hadv (KTo u m) [FromEngine u n m true (fst (run u m)) (snd (run u m))] eq_refl) as [N1 N2].
    + simpl. repeat constructor; simpl; tauto.
    + simpl. intros k' [<-|[]] H. contradiction.
    + intros k'. simpl. destruct k' as [[|b n'] m'|u' m'|u' m'|n' m']; simpl.
      * split; [auto|intros [H|[H|[]]]; [exact H|discriminate]].
      * split; [intros [[Hd|Hd] HD]; [discriminate|auto]|intros [[Hd HD]|[H|[]]]; [auto|discriminate]].
      * split; [intros (n' & Hn' & [Hd|Hd] & Hu'); [discriminate|left; exists n'; auto]|intros [(n' & Hn' & Hd & Hu')|[H|[]]]; [exists n'; auto|discriminate]].
      * split; [intros [Hd|Hd]; [injection Hd as -> ->; auto|auto]|intros [Hd|[H|[]]]; [auto|injection H as -> ->; auto]].
      * split.
        -- intros Hc. left. pose proof (complete_len _ _ _ Hc). apply complete_unaffected in Hc; auto; [discriminate|intros c _; destruct c; discriminate].
        -- intros [Hc|[H|[]]]; [|discriminate]. pose proof (complete_len _ _ _ Hc). apply complete_unaffected; auto; [discriminate|intros c _; destruct c; discriminate].
    + constructor; cbn [net replies acc executed got got1 set_net]; auto.
      * apply Forall_app. split; [exact Hpr|]. repeat constructor; auto.
      * intros n' m' Hl'. destruct (Hun n' m') as [-> ->]. auto.
      * intros n' m' Hl'. destruct (Hun n' m') as [-> _]. auto.
      * destruct I6 as (G1 & G2 & G3). repeat split; auto; [intros Hm; right; apply G2, Hm|intros [Hm|Hm]; [discriminate|apply G2, Hm]].
      * intros u' m' [Hd|Hd]; [injection Hd as <- <-; apply in_or_app; right; left; reflexivity|apply in_or_app; left; auto].
  - (* the reply of an engine *)
    destruct c.
    2: { exists h. injection E as <-. destruct (Hskip [Pass n u m bufs ok] eq_refl eq_refl) as [N1 N2].
         constructor; cbn [net replies acc executed got got1 set_net]; auto. apply Forall_app; split; [exact Hpr|repeat constructor]. }
    destruct Hpp as (Hl & Hu & ->). destruct (Hkey (KFrom u m) eq_refl) as [Kn Ke].
    assert (Hll : length n <= D) by lia.
    assert (Hkid : In (Engine u) (kids n m)).
    { unfold kids, is_leaf. rewrite (proj2 (Nat.eqb_eq _ _) Hl). rewrite <- (map_map fst Engine). apply in_map. exact Hu. }
    assert (Hdown : In (KDown n m) h).
    { simpl in Ke. apply (caused _ _ HI) in Ke. destruct Ke as (n' & Hn' & Hd & Hu'). replace n with n'; [exact Hd|]. eapply route_uniq; [|exact Hu'|exact Hu]. lia. }
    pose proof (reply_step h s rest _ n m (Engine u) _ ok (KFrom u m) HI Hp Hpr eq_refl Hll Hkid eq_refl Hdown Kn eq_refl) as HS. simpl payload in HS.
    destruct (coalescing_reply D false (set_net s rest) n m (Engine u) (fst (run u m)) ok) as [s1 out]. injection E as <-. exists (KFrom u m :: h). exact HS.
  - (* a coalesced reply *)
    destruct Hpp as (Hl & Eb & Ea). destruct (Hkey (KUp n m) eq_refl) as [Kn Ke]. destruct n as [|b n].
    + injection E as <-. exists (KUp [] m :: h).
      assert (Hun : forall n' m', live (KUp [] m :: h) n' m' = live h n' m' /\ entry (KUp [] m :: h) n' m' = entry h n' m').
      { intros n' m'. destruct (unaffected (KUp [] m) h n' m') as (U1 & U2 & _); [discriminate|intros c _; destruct c; discriminate|auto]. }
      destruct (Hadv (KUp [] m) [] eq_refl) as [N1 N2].
      * constructor.
      * intros k' [].
      * intros k'. simpl. destruct k' as [[|b n'] m'|u' m'|u' m'|n' m']; simpl.
        -- tauto.
        -- split; [intros [[Hd|Hd] HD]; [discriminate|auto]|intros [[Hd HD]|[]]; auto].
        -- split; [intros (n' & Hn' & [Hd|Hd] & Hu'); [discriminate|left; exists n'; auto]|intros [(n' & Hn' & Hd & Hu')|[]]; exists n'; auto].
        -- split; [intros [Hd|Hd]; [discriminate|auto]|intros [Hd|[]]; auto].
        -- split.
           ++ intros Hc. left. pose proof (complete_len _ _ _ Hc). apply complete_unaffected in Hc; auto; [discriminate|intros c _; destruct c; discriminate].
           ++ intros [Hc|[]]. pose proof (complete_len _ _ _ Hc). apply complete_unaffected; auto; [discriminate|intros c _; destruct c; discriminate].
      * constructor; cbn [net replies acc executed got got1 set_net]; auto.
        -- rewrite app_nil_r. exact Hpr.
        -- intros n' m' Hl'. destruct (Hun n' m') as [-> ->]. auto.
        -- intros n' m' Hl'. destruct (Hun n' m') as [-> _]. auto.
        -- destruct I6 as (G1 & G2 & G3). rewrite map_app. cbn [map fst]. repeat split.
           ++ apply (Permutation_NoDup (Permutation_cons_append _ _)). constructor; [|exact G1]. intros Hi. apply Kn, G2, Hi.
           ++ intros Hi. apply in_app_iff in Hi as [Hi|[<-|[]]]; [right; apply G2, Hi|left; reflexivity].
           ++ intros [Hi|Hi]; apply in_app_iff; [injection Hi as ->; right; left; reflexivity|left; apply G2, Hi].
           ++ apply Forall_app. split; [exact G3|]. repeat constructor; auto.
        -- intros u' m' [Hd|Hd]; [discriminate|auto].
    + simpl in Hl. simpl in Ke. destruct Ke as (_ & Hd & Hkids & _). apply (caused _ _ HI) in Hd. simpl in Hd. destruct Hd as [Hd Hlt].
      assert (Hkid : In (Sub b) (kids n m)).
      { unfold kids at 1. unfold is_leaf. destruct (Nat.eqb_spec (length n) D) as [El|_]; [lia|]. apply in_map. unfold subs. apply filter_In. split; [destruct b; simpl; auto|].
        destruct (route (b :: n) m) eqn:Er; [|reflexivity]. exfalso. apply Hkids. unfold kids, subs. cbn [filter]. rewrite !(route_child (b :: n)), Er.
        destruct (is_leaf D (b :: n)); reflexivity. }
      pose proof (reply_step h s rest _ n m (Sub b) _ (r_ok r) (KUp (b :: n) m) HI Hp Hpr eq_refl (Nat.lt_le_incl _ _ Hlt) Hkid eq_refl Hd Kn Eb) as HS.
      destruct (coalescing_reply D false (set_net s rest) n m (Sub b) (r_bufs r) (r_ok r)) as [s1 out]. injection E as <-. exists (KUp (b :: n) m :: h). exact HS.
  - (* a reply that is passed on *)
    exists h. destruct n as [|b n]; injection E as <-.
    + destruct (Hskip [] eq_refl eq_refl) as [N1 N2]. constructor; cbn [net replies acc executed got got1 set_net]; auto. rewrite app_nil_r. exact Hpr.
    + destruct (Hskip [Pass n u m bufs ok] eq_refl eq_refl) as [N1 N2]. constructor; cbn [net replies acc executed got got1 set_net]; auto. apply Forall_app; split; [exact Hpr|repeat constructor].
Qed.
Lemma cexec sched : forall h s s', inv D id_of run bs s -> cinv h s -> exec s sched = Some s' -> exists h', cinv h' s'.
Proof.
  induction sched as [|i sched IH]; intros h s s' J I E; simpl in E; [injection E as <-; eauto|].
  destruct (step s i) as [s1|] eqn:E1; [|discriminate]. destruct (cstep _ _ _ _ J I E1) as (h1 & I1).
  eapply IH; [eapply inv_step; eassumption|exact I1|exact E].
Qed.
Lemma route_split n m u : In u (map fst (route n m)) -> exists b, In u (map fst (route (b :: n) m)).
Proof.
  intros H. apply in_map_iff in H as (t & <- & Ht). exists (Nat.testbit (snd t) (D - 1 - length n)). apply in_map. rewrite route_child. apply filter_In. split; [exact Ht|].
  apply eqb_true_iff. reflexivity.
Qed.
Lemma kid_sub n m b u : length n < D -> In u (map fst (route (b :: n) m)) -> In (Sub b) (kids n m).
Proof.
  intros Hl Hu. unfold kids, is_leaf. destruct (Nat.eqb_spec (length n) D) as [El|_]; [lia|]. apply in_map. unfold subs. apply filter_In. split; [destruct b; simpl; auto|].
  destruct (route (b :: n) m); [destruct Hu|reflexivity].
Qed.
Lemma up_executed h s : cinv h s -> forall k n m u, D - length n = k -> In (KUp n m) h -> In u (map fst (route n m)) -> In (u, m) (executed s).
Proof.
  intros I. induction k as [|k IH]; intros n m u Hk Hup Hu; apply (caused _ _ I) in Hup as (Hl & Hd & _ & Hkids).
  - apply (c_exec _ _ I). assert (Hc : In (Engine u) (kids n m)).
    { unfold kids, is_leaf. destruct (Nat.eqb_spec (length n) D) as [_|N]; [|lia]. rewrite <- (map_map fst Engine). apply in_map. exact Hu. }
    apply Hkids in Hc. simpl in Hc. apply (caused _ _ I) in Hc. exact Hc.
  - destruct (route_split _ _ _ Hu) as (b & Hb). apply (IH (b :: n) m u); [simpl; lia| |exact Hb].
    apply (Hkids (Sub b)). apply (kid_sub n m b u); [lia|exact Hb].
Qed.
(** When nothing is in flight any more *)
Lemma quiet_down h s m n : cinv h s -> net s = [] -> coal m -> length n <= D -> In (KDown n m) h.
Proof.
  intros I E Hc. induction n as [|b n IH]; simpl; intros Hl; pose proof (c_en _ _ I) as He; rewrite E in He; simpl in He; apply He; simpl; [exact Hc|].
  split; [apply IH; lia|lia].
Qed.
Lemma quiet_up h s m : cinv h s -> net s = [] -> coal m -> forall k n u, D - length n = k -> length n <= D -> In u (map fst (route n m)) -> In (KUp n m) h.
Proof.
  intros I E Hc. pose proof (c_en _ _ I) as He; rewrite E in He; simpl in He.
  induction k as [|k IH]; intros n u Hk Hl Hu; apply He; (split; [exact Hl|]); (split; [apply (quiet_down _ _ _ _ I E Hc Hl)|]).
  - assert (El : is_leaf D n = true) by (apply Nat.eqb_eq; lia). unfold kids. rewrite El. split.
    + destruct (route n m); [destruct Hu|discriminate].
    + intros c Hi. apply in_map_iff in Hi as (t & <- & Ht). simpl. apply He. simpl. apply He. simpl. exists n.
      split; [lia|]. split; [apply (quiet_down _ _ _ _ I E Hc Hl)|]. apply in_map. exact Ht.
  - destruct (route_split _ _ _ Hu) as (b & Hb). split.
    + intros E0. pose proof (kid_sub n m b u ltac:(lia) Hb) as Hx. rewrite E0 in Hx. destruct Hx.
    + assert (El : is_leaf D n = false) by (apply Nat.eqb_neq; lia). unfold kids. rewrite El. intros c Hi. apply in_map_iff in Hi as (b' & <- & Hb').
      simpl. unfold subs in Hb'. apply filter_In in Hb' as [_ Hne]. destruct (route (b' :: n) m) as [|t l] eqn:Er; [discriminate|].
      apply (IH (b' :: n) (fst t)); [simpl; lia|simpl; lia|]. rewrite Er. left. reflexivity.
Qed.
End C.
