(** Invariants of imap. *)
From Coq Require Import List Arith Bool Permutation Lia.
From Verif Require Import Async_Spec Async_Model Async_Proofs Imap_Spec Imap_Model.
Import ListNotations.

Section Imap.
Context {V : Type} (ordered : bool) (limit : nat) (ret : bool) (inputs : nat -> input) (outcome_of : nat -> outcome V).
Notation step := (step ordered limit ret inputs outcome_of).
Notation run := (run ordered limit ret inputs outcome_of).
Notation st := (@st V).
Implicit Types s : st.

(** Case analysis of a step *)
Ltac fields := cbn [pos jobs work open iterator_done recorded outstanding finished callbacks calling passed at_user yielded
  set_work set_user set_out yield_ set_calls signal_done submit shutdown take_job taken set_cbs] in *.
Ltac cases H :=
  repeat match type of H with
  | None = Some _ => discriminate H
  | match ?x with _ => _ end = Some _ => let E := fresh "E" in destruct x eqn:E; fields
  | Some (match ?x with _ => _ end) = Some _ => let E := fresh "E" in destruct x eqn:E; fields
  | Some (set_work (if ?x then _ else _) _) = Some _ => let E := fresh "E" in destruct x eqn:E; fields
  | Some _ = Some _ => injection H as <-; fields
  end.
Ltac steps s e H :=
  destruct s as [ps jb wk op dn rc out fin cbs cl pd us yl]; destruct e as [|k| | |ks|]; cbn [Imap_Model.step] in H;
    unfold worker_step, finish, cb_check, cb_submit, user_step, cancel, give in H; fields;
    repeat match goal with E : ?x = _ |- _ => is_var x; subst x end; cases H;
    repeat match goal with E : ?x = _ |- _ => is_var x; subst x end.

(* ------------------------------------------------------------------ what runs *)
Definition busy (w : worker) : nat := match w with Idle => 0 | _ => 1 end.
Definition slots s : nat := busy (work s) + jobs s + passed s + calling s + List.length (callbacks s).
Definition in_loop (u : user) : bool := match u with Loop | Waiting | Getting _ => true | _ => false end.
Definition in_rest (u : user) : bool := match u with Rest | RestGetting _ | Over => true | _ => false end.
Record invA s : Prop := {
  a_slots : slots s <= Nat.max 1 limit;
  a_full : open s = true -> iterator_done s = false -> slots s = Nat.max 1 limit;
  a_zero : limit = 0 -> callbacks s = [] /\ calling s = 0 /\ passed s = 0;
  a_loop : in_loop (at_user s) = true -> open s = true;
  a_closing : at_user s = Closing -> open s = false /\ iterator_done s = true;
  a_rest : in_rest (at_user s) = true -> open s = false /\ iterator_done s = true /\ jobs s = 0 /\ work s = Idle;
  a_rec : recorded s = negb (iterator_done s) }.
Lemma without_length x l : In x l -> NoDup l -> S (List.length (without x l)) = List.length l.
Proof.
  induction l as [|y l IH]; intros Hi Hn; [destruct Hi|]. inversion Hn as [|? ? Hy Hn']; subst. unfold without. cbn [filter].
  destruct (Nat.eqb_spec x y) as [->|Hne]; cbn [negb List.length].
  - f_equal. fold (without y l). clear - Hy. induction l as [|z l IH]; [reflexivity|]. unfold without in *. cbn [filter].
    destruct (Nat.eqb_spec y z) as [->|_]; [destruct Hy; left; reflexivity|]. cbn. f_equal. apply IH. intros H. apply Hy. right. exact H.
  - f_equal. apply IH; [destruct Hi; [congruence|assumption]|assumption].
Qed.

(* ------------------------------------------------------------------ callbacks *)
Definition its_task (w : worker) : list nat := match w with Submitted k | Listed k => [k] | _ => [] end.
Definition its_broken (w : worker) : list nat := match w with Broken k => [k] | _ => [] end.
Record cinv (ps : nat) (fin cbs : list nat) (wk : worker) : Prop := {
  c_fin : forall k, In k fin -> k < ps;
  c_cbs : forall k, In k cbs -> k < ps /\ ~ In k fin;
  c_nodup : NoDup cbs;
  c_work : forall k, In k (its_task wk) -> k < ps /\ ~ In k cbs;
  c_broken : forall k, In k (its_broken wk) -> k < ps /\ In k fin;
  c_cover : limit > 0 -> forall k, k < ps -> ~ In k fin -> In k cbs \/ In k (its_task wk) }.
Definition invC s : Prop := cinv (pos s) (finished s) (callbacks s) (work s).

Lemma invC_start : invC (start limit).
Proof. constructor; cbn; try lia; try (intros k []). constructor. Qed.

Lemma mem_false x l : mem x l = false <-> ~ In x l.
Proof. rewrite <- mem_iff. destruct (mem x l); split; congruence. Qed.
Ltac mems := repeat match goal with
  | H : mem _ _ = true |- _ => apply mem_iff in H
  | H : mem _ _ = false |- _ => apply mem_false in H
  | H : andb _ _ = true |- _ => apply andb_true_iff in H; destruct H
  | H : negb _ = true |- _ => apply negb_true_iff in H
  | H : Nat.ltb _ _ = true |- _ => apply Nat.ltb_lt in H
  | H : Nat.eqb _ _ = true |- _ => apply Nat.eqb_eq in H
  | H : Nat.eqb _ _ = false |- _ => apply Nat.eqb_neq in H
  end.
Lemma NoDup_app_intro {A} (l1 l2 : list A) : NoDup l1 -> NoDup l2 -> (forall x, In x l1 -> ~ In x l2) -> NoDup (l1 ++ l2).
Proof.
  induction l1 as [|x l1 IH]; intros H1 H2 H; [exact H2|]. inversion H1; subst. cbn. constructor.
  - rewrite in_app_iff. intros [|Hx]; [auto|]. apply (H x (or_introl eq_refl) Hx).
  - apply IH; auto. intros y Hy. apply H. right. exact Hy.
Qed.
Lemma NoDup_app_r {A} (l1 l2 : list A) : NoDup (l1 ++ l2) -> NoDup l2.
Proof. induction l1 as [|x l1 IH]; [auto|]. intros H. inversion H; auto. Qed.
Lemma NoDup_app_l {A} (l1 l2 : list A) : NoDup (l1 ++ l2) -> NoDup l1.
Proof. induction l1 as [|x l1 IH]; [constructor|]. intros H. inversion H; subst. constructor; [|auto]. intros Hi. apply H2, in_or_app. auto. Qed.
Lemma nodup_snoc (x : nat) l : NoDup l -> ~ In x l -> NoDup (l ++ [x]).
Proof. intros H1 H2. apply (Permutation_NoDup (Permutation_cons_append l x)). constructor; assumption. Qed.
Lemma nodup_without x l : NoDup l -> NoDup (without x l).
Proof. intros H. apply NoDup_filter. exact H. Qed.
Lemma in_snoc (x k : nat) l : In x (l ++ [k]) <-> In x l \/ x = k.
Proof. rewrite in_app_iff. cbn. intuition. Qed.
Lemma c_same ps fin cbs wk wk' : its_task wk' = its_task wk -> its_broken wk' = [] -> cinv ps fin cbs wk -> cinv ps fin cbs wk'.
Proof. intros E1 E2 [H1 H2 H3 H4 H5 H6]. constructor; rewrite ?E1, ?E2; auto; intros k []. Qed.
Lemma c_args ps fin cbs : cinv ps fin cbs Checked -> cinv (S ps) fin cbs (Submitted ps).
Proof.
  intros [H1 H2 H3 H4 H5 H6]. constructor; auto.
  - intros k Hk. specialize (H1 k Hk). lia.
  - intros k Hk. destruct (H2 k Hk). split; [lia|assumption].
  - intros k [<-|[]]. split; [lia|]. intros Hk. destruct (H2 _ Hk). lia.
  - intros k [].
  - intros Hl k Hk Hf. destruct (Nat.eq_dec k ps) as [->|]; [right; left; reflexivity|]. destruct (H6 Hl k) as [|[]]; auto; lia.
Qed.
Lemma c_fail ps fin cbs : cinv ps fin cbs Checked -> cinv (S ps) (fin ++ [ps]) cbs (Broken ps).
Proof.
  intros [H1 H2 H3 H4 H5 H6]. constructor; auto.
  - intros k Hk. apply in_snoc in Hk as [Hk| ->]; [specialize (H1 k Hk)|]; lia.
  - intros k Hk. destruct (H2 k Hk). split; [lia|]. rewrite in_snoc. intros [|E]; [auto|lia].
  - intros k [].
  - intros k [<-|[]]. rewrite in_snoc. split; [lia|auto].
  - intros Hl k Hk Hf. rewrite in_snoc in Hf. destruct (H6 Hl k) as [|[]]; auto; try lia.
Qed.
Lemma c_register ps fin cbs k : cinv ps fin cbs (Listed k) -> ~ In k fin -> cinv ps fin (cbs ++ [k]) Idle.
Proof.
  intros [H1 H2 H3 H4 H5 H6] Hf. destruct (H4 k (or_introl eq_refl)) as (Hk & Hn). constructor; auto using nodup_snoc; try (let y := fresh in intros y []; fail).
  - intros x Hx. apply in_snoc in Hx as [Hx| ->]; auto.
  - intros Hl x Hx Hxf. rewrite in_snoc. destruct (H6 Hl x Hx Hxf) as [|[|[]]]; auto.
Qed.
Lemma c_idle ps fin cbs k : cinv ps fin cbs (Listed k) -> In k fin \/ limit = 0 -> cinv ps fin cbs Idle.
Proof.
  intros [H1 H2 H3 H4 H5 H6] Hf. constructor; auto; try (let y := fresh in intros y []; fail).
  intros Hl x Hx Hxf. destruct (H6 Hl x Hx Hxf) as [|[->|[]]]; [auto|]. destruct Hf; [contradiction|lia].
Qed.
Lemma c_finish ps fin cbs wk k : cinv ps fin cbs wk -> k < ps -> cinv ps (fin ++ [k]) (without k cbs) wk.
Proof.
  intros [H1 H2 H3 H4 H5 H6] Hk. constructor; auto using nodup_without.
  - intros x Hx. apply in_snoc in Hx as [Hx| ->]; auto.
  - intros x Hx. apply without_iff in Hx as (Hx & Hne). destruct (H2 x Hx). split; [auto|]. rewrite in_snoc. tauto.
  - intros x Hx. destruct (H4 x Hx). split; [auto|]. rewrite without_iff. tauto.
  - intros x Hx. destruct (H5 x Hx). split; [auto|]. rewrite in_snoc. tauto.
  - intros Hl x Hx Hf. rewrite in_snoc in Hf. rewrite without_iff. destruct (H6 Hl x Hx); [tauto|left; split; [auto|intros ->; tauto]|tauto].
Qed.
Lemma without_same k l : ~ In k l -> without k l = l.
Proof.
  intros H. induction l as [|x l IH]; [reflexivity|]. unfold without in *. cbn. destruct (Nat.eqb_spec k x) as [->|]; [destruct H; left; reflexivity|].
  cbn. f_equal. apply IH. intros Hi. apply H. right. exact Hi.
Qed.
Lemma invC_step s e s' : invC s -> step s e = Some s' -> invC s'.
Proof.
  intros I H. unfold invC in *. steps s e H; mems; try exact I; try (eapply c_same; [..|exact I]; reflexivity).
  - apply c_args, I.
  - apply c_fail, I.
  - eapply c_idle; [exact I|auto].
  - eapply c_idle; [exact I|auto].
  - eapply c_register; eauto.
  - apply c_finish; assumption.
  - rewrite <- (without_same k cbs) by assumption. apply c_finish; assumption.
Qed.
(* ------------------------------------------------------------------ what runs *)
Lemma invA_start : invA (start limit).
Proof.
  unfold start. destruct (Nat.eqb_spec limit 0); constructor; unfold slots; fields; cbn [busy List.length in_loop in_rest negb];
    try discriminate; try reflexivity; auto; lia.
Qed.
Lemma invA_step s e s' : invC s -> invA s -> step s e = Some s' -> invA s'.
Proof.
  intros Ic I H. steps s e H; destruct I as [A1 A2 A3 A4 A5 A6 A7]; unfold slots in *; fields; mems;
    (constructor; unfold slots; fields; cbn [busy in_loop in_rest] in *; try assumption; try reflexivity).
  all: try (intros; discriminate).
  all: try (specialize (A4 eq_refl)); try (specialize (A6 eq_refl)); try (specialize (A5 eq_refl)).
  all: repeat match goal with H : _ /\ _ |- _ => destruct H end.
  all: try (intros; repeat split; (congruence || tauto || lia); fail).
  all: try (intros; repeat match goal with H : ?x -> _ |- _ => match x with _ = _ => specialize (H ltac:(assumption || reflexivity)) end end; repeat split; (congruence || tauto || lia); fail).
  all: try (intros Hr; destruct (A6 Hr) as (_ & _ & _ & ?); discriminate).
  all: try rewrite app_length; cbn [List.length].
  all: try (destruct Ic as [C1 C2 C3 C4 C5 C6]; fields; pose proof (without_length _ _ E0 C3)).
  all: try (intros Hr; destruct (A6 Hr) as (-> & -> & -> & ->); auto; fail).
  all: try (intros Ho Hd; specialize (A2 Ho Hd); try subst op; lia).
  all: try lia.
  all: try (destruct op; lia).
  intros Hz. destruct (A3 Hz) as (-> & _). destruct E0.
Qed.

(* ------------------------------------------------------------------ where the results are *)
Definition held (u : user) : list nat := match u with Getting ks | RestGetting ks => ks | _ => [] end.
Definition in_work (w : worker) : list nat := match w with Submitted k | Broken k => [k] | _ => [] end.
Definition stopped (ps : nat) : Prop := ends_after inputs ps \/ exists k, ps = S k /\ fails_after inputs k.
Definition raised (u : user) : bool := match u with Raised _ => true | _ => false end.
Notation get_result := (get_result ret inputs outcome_of).
Lemma get_result_ok k o : get_result k = Ret o -> o = outcome_of k.
Proof. unfold Imap_Model.get_result. destruct (inputs k); [| |discriminate]; destruct (outcome_of k), ret; cbn; intros [= <-]; reflexivity. Qed.
Record binv s (given hold : list nat) (c : bool) : Prop := {
  b_yielded : yielded s = map outcome_of given;
  b_given : forall k, In k given -> In k (finished s) /\ get_result k = Ret (outcome_of k);
  b_perm : Permutation (given ++ hold ++ outstanding s ++ in_work (work s)) (seq 0 (pos s));
  b_order : ordered = true -> given ++ hold ++ outstanding s ++ in_work (work s) = seq 0 (pos s);
  b_hold : raised (at_user s) = false -> hold = held (at_user s);
  b_raised : forall e, at_user s = Raised e -> exists k r, hold = k :: r /\ In k (finished s) /\ get_result k = Raise e;
  b_args : (forall k, k < pos s -> inputs k = Args) \/
           (exists k, pos s = S k /\ fails_after inputs k) /\
           match work s with Broken _ | Ending => True | Idle | Started => iterator_done s = true | _ => False end;
  b_broken : forall k, work s = Broken k -> pos s = S k /\ fails_after inputs k;
  b_ending : work s = Ending -> stopped (pos s);
  b_done : iterator_done s = true -> c = true \/ stopped (pos s) /\ match work s with Idle | Started => True | _ => False end }.

Lemma binv_start : binv (start limit) [] [] false.
Proof.
  constructor; cbn; auto; try discriminate; try (intros k []). left. intros k Hk. lia.
Qed.
Definition cancels (e : event) : bool := match e with Cancel => true | _ => false end.

(** taking results out *)
Lemma takes_split ks (s : st) : takes ks s = true -> NoDup (outstanding s) ->
  Permutation (ks ++ filter (fun k => negb (mem k ks)) (outstanding s)) (outstanding s) /\ ks <> [] /\ forall k, In k ks -> In k (finished s).
Proof.
  unfold takes. intros H Hn. apply andb_true_iff in H as (H & Hd). apply andb_true_iff in H as (Hne & Hf).
  destruct (list_eq_dec Nat.eq_dec (nodup Nat.eq_dec ks) ks) as [E|]; [|discriminate].
  assert (Nk : NoDup ks) by (rewrite <- E; apply NoDup_nodup). rewrite forallb_forall in Hf. split; [|split].
  - apply NoDup_Permutation; [|exact Hn|].
    + apply NoDup_app_intro. all: auto using NoDup_filter. intros x Hx Hx2. apply filter_In in Hx2 as (_ & Hx2).
      apply negb_true_iff, mem_false in Hx2. contradiction.
    + intros x. rewrite in_app_iff, filter_In, negb_true_iff, mem_false. split.
      * intros [Hx|(Hx & _)]; [|exact Hx]. specialize (Hf x Hx). apply andb_true_iff in Hf as (Hf & _). apply mem_iff, Hf.
      * intros Hx. destruct (in_dec Nat.eq_dec x ks); auto.
  - intros ->. discriminate.
  - intros k Hk. specialize (Hf k Hk). apply andb_true_iff in Hf as (_ & Hf). apply mem_iff, Hf.
Qed.

Ltac same B given hold :=
  exists given, hold; destruct B as [B1 B2 B3 B4 B5 B6 B7 B8 B9 B10]; fields; cbn [cancels] in *; rewrite ?orb_false_r, ?orb_true_r;
  constructor; fields; cbn [in_work held raised] in *; try assumption; try (intros; discriminate);
  try (intros ? Hi; destruct (B2 _ Hi); split; [try (rewrite in_snoc; left)|]; assumption);
  try (intros ? Hu; destruct (B6 _ Hu) as (k1 & r1 & Hk1 & Hk2 & Hk3); exists k1, r1; split; [exact Hk1|split; [try (rewrite in_snoc; left)|]; assumption]).
Lemma place_eq (g h o : list nat) ps : g ++ h ++ o ++ [] = seq 0 ps -> g ++ h ++ o ++ [ps] = seq 0 (S ps).
Proof. rewrite app_nil_r. intros E. rewrite seq_S. cbn. rewrite <- E, <- !app_assoc. reflexivity. Qed.
Lemma place_perm (g h o : list nat) ps : Permutation (g ++ h ++ o ++ []) (seq 0 ps) -> Permutation (g ++ h ++ o ++ [ps]) (seq 0 (S ps)).
Proof. rewrite app_nil_r. intros E. rewrite seq_S. cbn. rewrite !app_assoc in *. apply Permutation_app_tail. exact E. Qed.
Lemma place_nodup (g h o w : list nat) ps : Permutation (g ++ h ++ o ++ w) (seq 0 ps) -> NoDup o.
Proof.
  intros E. symmetry in E. apply (Permutation_NoDup) in E; [|apply seq_NoDup]. apply NoDup_app_r, NoDup_app_r, NoDup_app_l in E. exact E.
Qed.
Lemma binv_step s e s' given hold c : binv s given hold c -> step s e = Some s' ->
  exists given' hold', binv s' given' hold' (c || cancels e).
Proof.
  intros B H. steps s e H; mems.
  - (* take a job *) same B given hold.
  - (* done *) same B given hold; try tauto.
  - (* checked *) same B given hold; try tauto. destruct B7 as [|(_ & ?)]; [auto|discriminate].
  - (* arguments *) same B given hold; auto using place_perm, place_eq.
    + left. destruct B7 as [B7|(_ & [])]. intros k Hk. destruct (Nat.eq_dec k ps) as [->|]; [assumption|apply B7; lia].
    + tauto.
  - (* the end *) same B given hold; try tauto.
    intros _. left. split; [assumption|]. destruct B7 as [B7|(_ & [])]. exact B7.
  - (* failure *) same B given hold; auto using place_perm, place_eq.
    + right. destruct B7 as [B7|(_ & [])]. split; [|exact I]. exists ps. split; [reflexivity|]. split; assumption.
    + intros k [= <-]. destruct B7 as [B7|(_ & [])]. split; [reflexivity|]. split; assumption.
    + tauto.
  - (* listed *) same B given hold; rewrite ?app_nil_r; try assumption; tauto.
  - same B given hold; tauto.
  - same B given hold; tauto.
  - same B given hold; tauto.
  - (* broken *) same B given hold; rewrite ?app_nil_r; try assumption; try tauto.
    intros _. right. exists k. apply B8. reflexivity.
  - (* ending *) same B given hold; auto. tauto.
  - (* finish *) same B given hold.
  - same B given hold.
  - (* callbacks *) same B given hold.
  - same B given hold.
  - same B given hold.
  - (* loop, done *) same B given hold; auto.
  - same B given hold; auto.
  - same B given hold; auto.
  - (* ordered wait *) destruct B as [B1 B2 B3 B4 B5 B6 B7 B8 B9 B10]; fields. specialize (B5 eq_refl). cbn [held] in B5. subst hold.
    exists given, [n]. cbn [cancels]. rewrite orb_false_r. constructor; fields; auto; try (intros; discriminate).
  - (* unordered wait *) destruct B as [B1 B2 B3 B4 B5 B6 B7 B8 B9 B10]; fields. specialize (B5 eq_refl). cbn [held] in B5. subst hold.
    destruct (takes_split _ _ E1 (place_nodup _ _ _ _ _ B3)) as (Hp & _ & _). fields.
    exists given, ks. cbn [cancels]. rewrite orb_false_r. constructor; fields; auto; try (intros; discriminate).
    + etransitivity; [|exact B3]. apply Permutation_app_head. cbn [app]. rewrite app_assoc. apply Permutation_app_tail. exact Hp.
    + congruence.
  - same B given hold; auto.
  - same B given hold; auto.
  - (* give *) destruct B as [B1 B2 B3 B4 B5 B6 B7 B8 B9 B10]; fields. specialize (B5 eq_refl). cbn [held] in B5. subst hold.
    pose proof (get_result_ok _ _ E2). subst a.
    exists (given ++ [n]), l. cbn [cancels]. rewrite orb_false_r. constructor; fields; auto; try (intros; discriminate).
    + rewrite map_app, B1. reflexivity.
    + intros k Hk. apply in_snoc in Hk as [Hk| ->]; auto.
    + rewrite <- app_assoc. exact B3.
    + rewrite <- app_assoc. exact B4.
  - (* raise *) destruct B as [B1 B2 B3 B4 B5 B6 B7 B8 B9 B10]; fields. specialize (B5 eq_refl). cbn [held] in B5. subst hold.
    exists given, (n :: l). cbn [cancels]. rewrite orb_false_r. constructor; fields; auto; try (intros; discriminate).
    intros e0 [= <-]. exists n, l. auto.
  - (* closing *) same B given hold; auto.
  - (* rest *) same B given hold; auto.
  - destruct B as [B1 B2 B3 B4 B5 B6 B7 B8 B9 B10]; fields. specialize (B5 eq_refl). cbn [held] in B5. subst hold.
    exists given, [n]. cbn [cancels]. rewrite orb_false_r. constructor; fields; auto; try (intros; discriminate).
  - destruct B as [B1 B2 B3 B4 B5 B6 B7 B8 B9 B10]; fields. specialize (B5 eq_refl). cbn [held] in B5. subst hold.
    destruct (takes_split _ _ E2 (place_nodup _ _ _ _ _ B3)) as (Hp & _ & _). fields.
    exists given, ks. cbn [cancels]. rewrite orb_false_r. constructor; fields; auto; try (intros; discriminate).
    + etransitivity; [|exact B3]. apply Permutation_app_head. cbn [app]. rewrite app_assoc, app_comm_cons. apply Permutation_app_tail. exact Hp.
    + congruence.
  - same B given hold; auto.
  - (* give *) destruct B as [B1 B2 B3 B4 B5 B6 B7 B8 B9 B10]; fields. specialize (B5 eq_refl). cbn [held] in B5. subst hold.
    pose proof (get_result_ok _ _ E2). subst a.
    exists (given ++ [n]), l. cbn [cancels]. rewrite orb_false_r. constructor; fields; auto; try (intros; discriminate).
    + rewrite map_app, B1. reflexivity.
    + intros k Hk. apply in_snoc in Hk as [Hk| ->]; auto.
    + rewrite <- app_assoc. exact B3.
    + rewrite <- app_assoc. exact B4.
  - destruct B as [B1 B2 B3 B4 B5 B6 B7 B8 B9 B10]; fields. specialize (B5 eq_refl). cbn [held] in B5. subst hold.
    exists given, (n :: l). cbn [cancels]. rewrite orb_false_r. constructor; fields; auto; try (intros; discriminate).
    intros e0 [= <-]. exists n, l. auto.
  - (* cancel *) same B given hold; auto.
    destruct B7 as [|(? & ?)]; [auto|]. right. split; [assumption|]. destruct wk; auto.
Qed.

(* ------------------------------------------------------------------ reachable states *)
Lemma run_app s es es' : run s (es ++ es') = match run s es with Some s => run s es' | None => None end.
Proof. revert s. induction es as [|e es IH]; intros s; [reflexivity|]. cbn. destruct (Imap_Model.step _ _ _ _ _ s e); auto. Qed.
Lemma reach es s : run (start limit) es = Some s -> invC s /\ invA s /\ exists given hold, binv s given hold (existsb cancels es).
Proof.
  revert s. induction es as [|e es IH] using rev_ind; intros s.
  - intros [= <-]. split; [apply invC_start|]. split; [apply invA_start|]. exists [], []. apply binv_start.
  - rewrite run_app, existsb_app. cbn [existsb]. rewrite orb_false_r. cbn [Imap_Model.run]. destruct (run (start limit) es) as [s0|]; [|discriminate].
    destruct (step s0 e) as [s1|] eqn:E; [|discriminate]. intros [= <-].
    destruct (IH _ eq_refl) as (Ic & Ia & g & h & B). split; [eapply invC_step; eassumption|]. split; [eapply invA_step; eassumption|].
    destruct (binv_step _ _ _ _ _ _ B E) as (g' & h' & B'). eauto.
Qed.

Lemma over_step s e s' : (at_user s = Over -> outstanding s = []) -> invA s -> step s e = Some s' -> at_user s' = Over -> outstanding s' = [].
Proof.
  intros Ho A H. steps s e H; intros Hu; try discriminate; auto; try reflexivity;
    (subst us; destruct (a_rest _ A eq_refl) as (_ & _ & _ & Hw); fields; discriminate).
Qed.
Lemma over_empty es s : run (start limit) es = Some s -> at_user s = Over -> outstanding s = [].
Proof.
  revert s. induction es as [|e es IH] using rev_ind; intros s; [intros [= <-]; discriminate|].
  rewrite run_app. cbn [Imap_Model.run]. destruct (run (start limit) es) as [s0|] eqn:E0; [|discriminate].
  destruct (step s0 e) as [s1|] eqn:E; [|discriminate]. intros [= <-]. destruct (reach _ _ E0) as (_ & A & _).
  eapply over_step; eauto.
Qed.
Lemma seq_prefix : forall (g r : list nat) a n, g ++ r = seq a n -> g = seq a (List.length g).
Proof.
  induction g as [|x g IH]; intros r a n E; [reflexivity|]. destruct n as [|n]; [discriminate|]. injection E as -> E. cbn. f_equal. eapply IH, E.
Qed.
(** at most [limit] tasks are unfinished *)
Lemma bounded es s l : run (start limit) es = Some s -> limit > 0 -> NoDup l -> (forall k, In k l -> k < pos s /\ ~ In k (finished s)) ->
  List.length l <= limit.
Proof.
  intros H Hl Hn Hk. destruct (reach _ _ H) as ([C1 C2 C3 C4 C5 C6] & [A1 _ _ _ _ _ _] & _).
  assert (incl l (callbacks s ++ its_task (work s))).
  { intros k Hi. destruct (Hk k Hi) as (H1 & H2). rewrite in_app_iff. auto. }
  pose proof (NoDup_incl_length Hn H0) as L. rewrite app_length in L. unfold slots in A1.
  assert (List.length (its_task (work s)) <= busy (work s)) by (destruct (work s); cbn; lia). lia.
Qed.

(** no deadlock *)
Lemma no_deadlock es s : run (start limit) es = Some s -> (forall e, e <> Cancel -> step s e = None) ->
  at_user s = Over \/ exists e, at_user s = Raised e.
Proof.
  intros H Hno. destruct (reach _ _ H) as ([C1 C2 C3 C4 C5 C6] & A & g & h & B).
  assert (Hfin : forall k, k < pos s -> In k (finished s)).
  { intros k Hk. destruct (in_dec Nat.eq_dec k (finished s)) as [|Hn]; [assumption|]. specialize (Hno (Finish k) ltac:(discriminate)).
    cbn in Hno. unfold finish in Hno. apply Nat.ltb_lt in Hk. apply mem_false in Hn. rewrite Hk, Hn in Hno. discriminate. }
  pose proof (Hno Worker ltac:(discriminate)) as Hw. cbn [Imap_Model.step] in Hw. unfold worker_step in Hw.
  destruct (work s) eqn:Ew; try discriminate. destruct (jobs s) eqn:Ej; [|discriminate]. clear Hw.
  pose proof (Hno CbCheck ltac:(discriminate)) as Hc. cbn [Imap_Model.step] in Hc. unfold cb_check in Hc. destruct (calling s) eqn:Ec; [|discriminate].
  pose proof (Hno CbSubmit ltac:(discriminate)) as Hp. cbn [Imap_Model.step] in Hp. unfold cb_submit in Hp. destruct (passed s) eqn:Ep; [|discriminate].
  assert (Ecb : callbacks s = []).
  { destruct (callbacks s) as [|k r] eqn:E; [reflexivity|]. destruct (C2 k (or_introl eq_refl)) as (H1 & H2). destruct (H2 (Hfin _ H1)). }
  destruct B as [B1 B2 B3 B4 B5 B6 B7 B8 B9 B10].
  assert (Hin : forall k, In k (h ++ outstanding s) -> In k (finished s)).
  { intros k Hk. apply Hfin. assert (Hs : In k (seq 0 (pos s))); [|apply in_seq in Hs; lia]. eapply Permutation_in; [exact B3|].
    rewrite !in_app_iff in *. tauto. }
  assert (Htake : forall k, In k (outstanding s) -> takes [k] s = true).
  { intros k Hk. unfold takes. cbn [forallb]. assert (In k (finished s)) by (apply Hin, in_or_app; auto). apply mem_iff in Hk, H0. rewrite Hk, H0.
    destruct (list_eq_dec _ _ _) as [|n]; [reflexivity|destruct n; reflexivity]. }
  destruct (at_user s) eqn:Eu; [exfalso|exfalso|exfalso|exfalso|exfalso|exfalso|left; reflexivity|right; exists e; reflexivity].
  - specialize (Hno (User []) ltac:(discriminate)). cbn in Hno. unfold user_step in Hno. rewrite Eu in Hno. discriminate.
  - assert (Hu : forall ks, user_step ordered ret inputs outcome_of ks s = None) by (intros ks; apply (Hno (User ks)); discriminate).
    unfold user_step in Hu. rewrite Eu in Hu. destruct (outstanding s) as [|k r] eqn:Eo.
    + destruct A as [_ A2 _ A4 _ _ _]. specialize (Hu []). destruct (iterator_done s).
      * destruct ordered; [discriminate|]. destruct (takes [] s); discriminate.
      * rewrite Eu in A4. specialize (A2 (A4 eq_refl) eq_refl). unfold slots in A2. rewrite Ew, Ej, Ep, Ec, Ecb in A2. cbn [busy List.length] in A2. lia.
    + specialize (Hu [k]). destruct ordered; [discriminate|]. rewrite Htake in Hu by (left; reflexivity). discriminate.
  - specialize (B5 eq_refl). cbn [held] in B5. subst h. specialize (Hno (User []) ltac:(discriminate)). cbn in Hno. unfold user_step in Hno. rewrite Eu in Hno.
    destruct ks as [|k r]; [discriminate|]. unfold give in Hno. assert (Hk : In k (finished s)) by (apply Hin; left; reflexivity).
    apply mem_iff in Hk. rewrite Hk in Hno. discriminate.
  - specialize (Hno (User []) ltac:(discriminate)). cbn in Hno. unfold user_step in Hno. rewrite Eu, Ew, Ej in Hno. discriminate.
  - assert (Hu : forall ks, user_step ordered ret inputs outcome_of ks s = None) by (intros ks; apply (Hno (User ks)); discriminate).
    unfold user_step in Hu. rewrite Eu in Hu. destruct (outstanding s) as [|k r] eqn:Eo; [discriminate (Hu [])|].
    specialize (Hu [k]). destruct ordered; [discriminate|]. rewrite Htake in Hu by (left; reflexivity). discriminate.
  - specialize (B5 eq_refl). cbn [held] in B5. subst h. specialize (Hno (User []) ltac:(discriminate)). cbn in Hno. unfold user_step in Hno. rewrite Eu in Hno.
    destruct ks as [|k r]; [discriminate|]. unfold give in Hno. assert (Hk : In k (finished s)) by (apply Hin; left; reflexivity).
    apply mem_iff in Hk. rewrite Hk in Hno. discriminate.
Qed.

(* ------------------------------------------------------------------ everything ends *)
Definition w_work (w : worker) : nat :=
  match w with Idle => 0 | Started => 21 | Checked => 20 | Submitted _ => 39 | Listed _ => 26 | Broken _ => 17 | Ending => 3 end.
Definition w_user (done : bool) (u : user) : nat :=
  match u with
  | Loop => if done then 20 else 22 | Waiting => 21 | Getting ks => 23 + 2 * List.length ks | Closing => 15 | Rest => 10
  | RestGetting ks => 11 + 2 * List.length ks | Over => 0 | Raised _ => 0
  end.
Definition unfinished (ps : nat) (fin : list nat) : nat := List.length (filter (fun k => negb (mem k fin)) (seq 0 ps)).
Definition measure (n : nat) s : nat :=
  30 * (n - pos s) + w_work (work s) + 22 * jobs s + 23 * passed s + 24 * calling s + 25 * List.length (callbacks s)
  + unfinished (pos s) (finished s) + 12 * List.length (outstanding s) + w_user (iterator_done s) (at_user s) + (if iterator_done s then 0 else 1).

Lemma filter_le_length {A} (f g : A -> bool) l : (forall x, f x = true -> g x = true) -> List.length (filter f l) <= List.length (filter g l).
Proof.
  intros H. induction l as [|x l IH]; [cbn; lia|]. cbn. specialize (H x). destruct (f x); [rewrite H by reflexivity; cbn; lia|]. destruct (g x); cbn; lia.
Qed.
Lemma filter_lt_length {A} (f g : A -> bool) l x : (forall x, f x = true -> g x = true) -> In x l -> f x = false -> g x = true ->
  List.length (filter f l) < List.length (filter g l).
Proof.
  intros H. induction l as [|y l IH]; [intros []|]. intros [-> | Hi] Hf Hg; cbn.
  - rewrite Hf, Hg. cbn. pose proof (filter_le_length f g l H). lia.
  - specialize (IH Hi Hf Hg). pose proof (H y). destruct (f y); [rewrite H0 by reflexivity; cbn; lia|]. destruct (g y); cbn; lia.
Qed.
Lemma mem_snoc x k l : mem x (l ++ [k]) = true <-> mem x l = true \/ x = k.
Proof. rewrite !mem_iff. apply in_snoc. Qed.
Lemma unfinished_finish ps fin k : k < ps -> ~ In k fin -> unfinished ps (fin ++ [k]) < unfinished ps fin.
Proof.
  intros Hk Hn. apply filter_lt_length with k.
  - intros x. rewrite !negb_true_iff, !mem_false, in_snoc. tauto.
  - apply in_seq. lia.
  - apply negb_false_iff, mem_snoc. auto.
  - apply negb_true_iff, mem_false, Hn.
Qed.
Lemma unfinished_S ps fin : unfinished (S ps) fin <= S (unfinished ps fin).
Proof. unfold unfinished. rewrite seq_S, filter_app, app_length. cbn. destruct (negb _); cbn; lia. Qed.
Lemma unfinished_fail ps fin : unfinished (S ps) (fin ++ [ps]) <= unfinished ps fin.
Proof.
  unfold unfinished. rewrite seq_S, filter_app, app_length. cbn [plus]. 
  assert (E : filter (fun k => negb (mem k (fin ++ [ps]))) [ps] = []).
  { cbn [filter]. replace (mem ps (fin ++ [ps])) with true by (symmetry; apply mem_snoc; auto). reflexivity. }
  rewrite E. cbn [List.length]. pose proof (filter_le_length (fun k => negb (mem k (fin ++ [ps]))) (fun k => negb (mem k fin)) (seq 0 ps)).
  assert (forall x, negb (mem x (fin ++ [ps])) = true -> negb (mem x fin) = true) by (intros x; rewrite !negb_true_iff, !mem_false, in_snoc; tauto).
  specialize (H H0). lia.
Qed.

Lemma measure_step n s e s' given hold c : inputs n <> Args -> invC s -> binv s given hold c -> step s e = Some s' -> measure n s' < measure n s.
Proof.
  intros Hend Ic B H.
  assert (Htk : forall ks, takes ks s = true -> List.length (outstanding s) = List.length ks + List.length (filter (fun k => negb (mem k ks)) (outstanding s)) /\ List.length ks > 0).
  { intros ks Ht. destruct (takes_split _ _ Ht (place_nodup _ _ _ _ _ (b_perm _ _ _ _ B))) as (Hp & Hne & _). rewrite <- app_length. split.
    - apply Permutation_length. symmetry. exact Hp.
    - destruct ks; [contradiction|cbn; lia]. }
  steps s e H; mems; unfold measure; fields; cbn [w_work w_user];
    rewrite ?app_length; cbn [List.length].
  all: repeat match goal with
    | H1 : ?k < ?ps, H2 : ~ In ?k ?fin |- context [unfinished ?ps (?fin ++ [?k])] => pose proof (unfinished_finish ps fin k H1 H2); clear H2
    | H1 : In ?k ?l, H2 : invC _ |- context [without ?k ?l] => pose proof (without_length k l H1 (c_nodup _ _ _ _ H2)); clear H2
    | E : takes _ _ = true |- _ => destruct (Htk _ E); clear E
    end.
  all: try (destruct dn; lia); try (destruct op; lia); try lia.
  - assert (ps < n).
    { destruct (b_args _ _ _ _ B) as [Ha|(_ & [])]; fields. destruct (lt_eq_lt_dec ps n) as [[|E]|Hlt]; [assumption|subst; contradiction|destruct (Hend (Ha _ Hlt))]. }
    pose proof (unfinished_S ps fin). lia.
  - pose proof (unfinished_fail ps fin). lia.
  - assert (w_user true us <= w_user dn us) by (destruct us, dn; cbn; lia). destruct dn; lia.
  - change (if negb (mem n0 ks) then n0 :: filter (fun k => negb (mem k ks)) l else filter (fun k => negb (mem k ks)) l)
      with (filter (fun k => negb (mem k ks)) (n0 :: l)). cbn [List.length] in *. lia.
  - assert (w_user true us <= w_user false us) by (destruct us; cbn; lia). lia.
Qed.
Lemma all_end n : inputs n <> Args -> forall es s, run (start limit) es = Some s -> List.length es + measure n s <= measure n (start limit).
Proof.
  intros Hend. induction es as [|e es IH] using rev_ind; intros s; [intros [= <-]; cbn [List.length]; lia|].
  rewrite run_app. cbn [Imap_Model.run]. destruct (run (start limit) es) as [s0|] eqn:E0; [|discriminate].
  destruct (step s0 e) as [s1|] eqn:E; [|discriminate]. intros [= <-]. destruct (reach _ _ E0) as (Ic & _ & g & h & B).
  pose proof (measure_step n _ _ _ _ _ _ Hend Ic B E). specialize (IH _ eq_refl). rewrite app_length. cbn [List.length]. lia.
Qed.
Lemma measure_start n : measure n (start limit) = 30 * n + 22 * Nat.max 1 limit + 23.
Proof. unfold measure, start, unfinished. fields. cbn [w_work w_user List.length filter seq]. destruct (Nat.eqb_spec limit 0); lia. Qed.

(** after cancel at most one more input is taken *)
Definition committed s : nat := pos s + match work s with Checked => 1 | _ => 0 end.
Lemma committed_step s e s' : step s e = Some s' -> iterator_done s = true -> iterator_done s' = true /\ committed s' <= committed s.
Proof. intros H Hd. unfold committed. steps s e H; cbn [committed pos work]; fields; try discriminate; split; try reflexivity; try assumption; try lia; try congruence. Qed.
Lemma committed_run es : forall s s', run s es = Some s' -> iterator_done s = true -> committed s' <= committed s.
Proof.
  induction es as [|e es IH]; intros s s' H Hd; [injection H as <-; lia|]. cbn in H. destruct (step s e) as [s1|] eqn:E; [|discriminate].
  destruct (committed_step _ _ _ E Hd) as (Hd1 & Hc). specialize (IH _ _ H Hd1). lia.
Qed.
End Imap.
