(** Property theorems C54: the SQLite task database keeps what it is given, across crashes. *)
From Coq Require Import List ZArith String Bool Lia Permutation Sorted.
From Verif Require Serialize_Proofs.
From Verif Require Import Prelude PyValue DictDB_Spec Sqlite_Spec Sqlite_Model SqlStore_Spec SqlStore_Model SqlStore_Proofs Sqlite_Props.
Import ListNotations.
Local Open Scope string_scope.

Lemma compare_le_trans x y z : match String.compare x y with Gt => false | _ => true end = true ->
  match String.compare y z with Gt => false | _ => true end = true -> match String.compare x z with Gt => false | _ => true end = true.
Proof. intros A B. pose proof (Serialize_Proofs.leb_trans x y z) as H. unfold String.leb in H. exact (H A B). Qed.

(** ** C54: in every history of calls, commits, closings and crashes, get_record returns exactly the
    latest contents of the record, with a value for every column, and KeyError means that there is none.
    The calls that count are all those that returned, but for those after the last commit before a crash. *)
Theorem C54_contents : forall glob iso off evs s log m,
  iso_orders iso -> Forall (good off) evs -> run glob iso evs start = (s, log) ->
  (forall d, get_record glob iso m (current s) = Ok d ->
     exists f, latest glob (kept log) m (Some f) /\ forall k, dget k d = if existsb (String.eqb k) columns then Some (f k) else None) /\
  (get_record glob iso m (current s) = Raise KeyError <-> latest glob (kept log) m None) /\
  (forall f, latest glob (kept log) m (Some f) -> exists d, get_record glob iso m (current s) = Ok d).
Proof. intros glob iso off evs s log m Hi Hg Hr. apply (get_spec glob iso off). eapply Inv_reached; eassumption. Qed.
Print Assumptions C54_contents.

(** "The latest contents" are unique. *)
Theorem C54_latest_unique : forall glob h m o o', latest glob h m o -> latest glob h m o' -> o = o'.
Proof. exact latest_fun. Qed.
Print Assumptions C54_latest_unique.

(** A call that raises changes nothing, and these are the calls that raise: adding an id that is there,
    updating nothing or a column that does not exist. *)
Theorem C54_failed_calls : forall glob iso off evs s log,
  iso_orders iso -> Forall (good off) evs -> run glob iso evs start = (s, log) ->
  (forall m r, NoDup (dkeys r) -> happen glob iso (Call (SAdd m r)) s = None <-> exists d, get_record glob iso m (current s) = Ok d) /\
  (forall m r, happen glob iso (Call (SUpdate m r)) s = None <-> r = [] \/ exists k, In k (dkeys r) /\ ~ In k columns) /\
  (forall m, happen glob iso (Call (SDrop m)) s <> None) /\
  (forall q, good_call off (SDropMatching q) -> happen glob iso (Call (SDropMatching q)) s <> None) /\
  (forall e evs', happen glob iso e s = None -> run glob iso (e :: evs') s = run glob iso evs' s).
Proof.
  intros glob iso off evs s log Hi Hg Hr. assert (I : Inv glob iso off (current s) (kept log)) by (eapply Inv_reached; eassumption).
  split; [|split; [|split; [|split]]].
  - intros m r Hn. cbn [happen perform]. pose proof (add_raises glob iso off _ _ m r I Hn) as A. pose proof (get_spec glob iso off _ _ m I) as (G1 & _ & G2).
    destruct (add_record m r (current s)) eqn:E.
    + split; [discriminate|]. intros [d Hd]. destruct (G1 d Hd) as (f & L & _). assert (X : Some t = None) by (apply A; exists f; exact L). discriminate.
    + split; [intros _|reflexivity]. destruct A as [A _]. destruct (A eq_refl) as (f & L). exact (G2 f L).
  - intros m r. cbn [happen perform]. rewrite <- (update_raises glob iso (current s) m r). destruct (update_record glob iso m r (current s)); split; intros H; congruence.
  - intros m. cbn [happen perform]. discriminate.
  - intros q Hq. cbn [happen perform]. destruct (delete_selects glob iso off Hi q _ _ I Hq) as (p & _ & ->). discriminate.
  - intros e evs' H. cbn [run]. rewrite H. reflexivity.
Qed.
Print Assumptions C54_failed_calls.

(** get_history lists the ids of all records once each, undated ones first, then by the time shown when
    they were submitted. *)
Theorem C54_history : forall glob iso off evs s log,
  iso_orders iso -> Forall (good off) evs -> run glob iso evs start = (s, log) ->
  exists ids, get_history iso (current s) = map SText ids /\ NoDup ids /\
    (forall m, In m ids <-> exists f, latest glob (kept log) m (Some f)) /\
    (forall i j a b f g, i < j -> nth_error ids i = Some a -> nth_error ids j = Some b ->
       latest glob (kept log) a (Some f) -> latest glob (kept log) b (Some g) -> not_after (f "submitted") (g "submitted")).
Proof.
  intros glob iso off evs s log Hi Hg Hr. assert (I : Inv glob iso off (current s) (kept log)) by (eapply Inv_reached; eassumption).
  set (t := current s) in *. clearbody t. set (o := fold_right (insert_line iso) [] t). assert (P : Permutation o t) by apply order_perm.
  assert (Ho : forall l, In l o <-> In l t) by (intros l; split; apply Permutation_in; [exact P|apply Permutation_sym; exact P]).
  set (txt := fun l => match mid l with SText x => x | _ => "" end).
  assert (Ht : forall l, In l o -> mid l = SText (txt l)).
  { intros l Hl. apply Ho in Hl. destruct (i_ok _ _ _ _ _ I l Hl) as (_ & _ & x & E). unfold txt. rewrite E. reflexivity. }
  exists (map txt o). split; [|split; [|split]].
  - unfold get_history. fold o. rewrite map_map. apply map_ext_in. exact Ht.
  - apply (NoDup_map_inv SText). rewrite map_map. replace (map (fun x => SText (txt x)) o) with (map mid o).
    + apply Permutation_NoDup with (map mid t); [apply Permutation_map, Permutation_sym, P|exact (i_nodup _ _ _ _ _ I)].
    + apply map_ext_in. exact Ht.
  - intros m. split.
    + intros H. apply in_map_iff in H as (l & <- & Hl). destruct (i_some _ _ _ _ _ I l (txt l)) as (f & L & _); [apply Ho, Hl|apply Ht, Hl|]. exists f. exact L.
    + intros [f L]. destruct (find (is_msg glob iso m) t) as [l|] eqn:F.
      * destruct (find_some glob iso off _ _ _ _ I F) as [Hl E]. apply in_map_iff. exists l. apply Ho in Hl. split; [|exact Hl]. rewrite (Ht l Hl) in E. congruence.
      * pose proof (i_none _ _ _ _ _ I m (find_none glob iso off _ _ _ I F)) as N. pose proof (latest_fun _ _ _ _ _ L N). discriminate.
  - intros i j a b f g Hij Ea Eb La Lb. rewrite nth_error_map in Ea, Eb.
    destruct (nth_error o i) as [la|] eqn:Eia; [|discriminate]. destruct (nth_error o j) as [lb|] eqn:Ejb; [|discriminate]. injection Ea as <-. injection Eb as <-.
    assert (S : StronglySorted (le_line iso) o).
    { apply Sorted_StronglySorted; [|apply order_sorted]. intros x y z. unfold le_line.
      destruct (adapt iso (col x "submitted")) as [p|], (adapt iso (col y "submitted")) as [q|], (adapt iso (col z "submitted")) as [r|]; cbn; auto; try discriminate.
      apply compare_le_trans. }
    assert (L : le_line iso la lb).
    { clear -S Hij Eia Ejb. revert i j Hij Eia Ejb. induction S as [|x l S IH H]; intros i j Hij Ei Ej; [destruct i; discriminate|].
      destruct j as [|j]; [lia|]. destruct i as [|i]; cbn in Ei, Ej.
      - injection Ei as <-. rewrite Forall_forall in H. apply H. eapply nth_error_In. exact Ej.
      - apply (IH i j); auto. lia. }
    assert (Ia : In la t) by (apply Ho; eapply nth_error_In; exact Eia). assert (Ib : In lb t) by (apply Ho; eapply nth_error_In; exact Ejb).
    destruct (i_some _ _ _ _ _ I la (txt la) Ia) as (f' & L1 & A1); [apply Ht, Ho, Ia|]. destruct (i_some _ _ _ _ _ I lb (txt lb) Ib) as (g' & L2 & A2); [apply Ht, Ho, Ib|].
    pose proof (latest_fun _ _ _ _ _ La L1) as X; injection X as ->. pose proof (latest_fun _ _ _ _ _ Lb L2) as X; injection X as ->.
    assert (Hsub : In "submitted" columns) by (do 5 right; left; reflexivity).
    destruct (A1 _ Hsub) as [C1 D1]. destruct (A2 _ Hsub) as [C2 D2]. unfold le_line in L. rewrite <- D1, <- D2 in L.
    pose proof (proj1 (proj2 (i_ok _ _ _ _ _ I la Ia)) "submitted") as T1. pose proof (proj1 (proj2 (i_ok _ _ _ _ _ I lb Ib)) "submitted") as T2.
    rewrite <- D1 in T1. rewrite <- D2 in T2. clear -L T1 T2 Hi.
    destruct (f' "submitted") as [| |u| | |]; cbn in *; auto; try (destruct T1; discriminate); try discriminate.
    destruct (g' "submitted") as [| |v| | |]; cbn in *; auto; try discriminate.
    destruct (Z.le_gt_cases (local u) (local v)) as [|G]; [assumption|].
    assert (E : String.compare (iso v) (iso u) = Lt) by (apply Hi; lia). rewrite String.compare_antisym, E in L. discriminate.
Qed.
Print Assumptions C54_history.

(** Once committed, a call counts whatever happens later; and without crashes all calls count. *)
Definition calls (log : list sevent) : list sop := flat_map (fun e => match e with Call o => [o] | _ => [] end) log.
Lemma kept_from_app safe cur l1 l2 : exists safe', kept_from safe cur (l1 ++ l2) = kept_from safe' (kept_from safe cur l1) l2.
Proof.
  revert safe cur. induction l1 as [|e l1 IH]; intros safe cur; [exists safe; reflexivity|]. destruct e; cbn [app kept_from]; apply IH.
Qed.
Lemma kept_grows log : forall safe cur base, (exists a, safe = a ++ base)%list -> (exists b, cur = b ++ base)%list -> exists x, (kept_from safe cur log = x ++ base)%list.
Proof.
  induction log as [|e log IH]; intros safe cur base Ha Hb; [exact Hb|]. destruct e; cbn [kept_from]; apply IH; auto.
  destruct Hb as [b ->]. exists (o :: b). reflexivity.
Qed.
Theorem C54_durable : forall l1 l2 e, e = Commit \/ e = Reopen ->
  (exists later, kept (l1 ++ e :: l2) = later ++ kept l1)%list /\
  (~ In Crash l1 -> kept l1 = rev (calls l1)).
Proof.
  intros l1 l2 e He. split.
  - destruct (kept_from_app [] [] l1 (e :: l2)) as [safe E]. unfold kept. rewrite E. destruct He as [-> | ->]; cbn [kept_from]; apply kept_grows; exists []; reflexivity.
  - unfold kept. assert (G : forall safe cur, ~ In Crash l1 -> kept_from safe cur l1 = (rev (calls l1) ++ cur)%list).
    { induction l1 as [|x l1 IH]; intros safe cur H; [reflexivity|]. assert (H' : ~ In Crash l1) by (intros X; apply H; right; exact X).
      destruct x; cbn [kept_from calls flat_map app]; fold (calls l1); rewrite ?IH by exact H'; auto.
      - cbn [rev]. rewrite <- app_assoc. reflexivity.
      - destruct H. left. reflexivity. }
    intros H. rewrite G by exact H. apply app_nil_r.
Qed.
Print Assumptions C54_durable.

(** ** Example: "a" is committed and then updated, "b" is added, the process crashes; "c" is added later. *)
Definition ra : prec := [("msg_id", PText "a"); ("submitted", PTime (Time 5 0)); ("header", PDict "{}"); ("buffers", PBufs "x")].
Definition ev54 : list sevent :=
  [Call (SAdd "a" ra); Commit; Call (SUpdate "a" [("engine_uuid", PText "e1"); ("completed", PTime (Time 9 0))]); Call (SAdd "b" [("submitted", PTime (Time 7 0))]); Crash;
   Call (SAdd "c" [("submitted", PTime (Time 3 0))]); Call (SUpdate "c" [("stdout", PText "hi")]); Call (SAdd "a" ra); Reopen; Crash].
Lemma good54 : Forall (good 0) ev54.
Proof.
  assert (N : forall l : list string, nodup string_dec l = l -> NoDup l) by (intros l E; rewrite <- E; apply NoDup_nodup).
  repeat apply Forall_cons; try apply Forall_nil; try exact I;
    (split; [apply N; reflexivity|]); try split;
    repeat match goal with
    | |- forall k v, dget k _ = Some v -> _ => intros k v H; cbn in H
    | |- forall v, dget _ _ = Some v -> _ => intros v H; cbn in H
    | H : (if String.eqb ?k ?x then _ else _) = Some _ |- _ => destruct (String.eqb_spec k x) as [->|]; [injection H as <-; intros; vm_compute; auto|]
    | H : None = Some _ |- _ => discriminate H
    end; try discriminate; try (injection H as <-; reflexivity).
Qed.
Definition answers (s : store) (m : string) : option (list (option pv)) :=
  match get_record noglob iso0 m (current s) with Ok d => Some (map (fun k => dget k d) ["msg_id"; "submitted"; "header"; "buffers"; "engine_uuid"; "stdout"; "nonsense"]) | Raise _ => None end.
Example C54_example : Forall (good 0) ev54 /\
  let '(s, log) := run noglob iso0 ev54 start in
  answers s "a" = Some [Some (PText "a"); Some (PTime (Time 5 0)); Some (PDict "{}"); Some (PBufs "x"); Some PNone; Some PNone; None] /\
  answers s "b" = None /\
  answers s "c" = Some [Some (PText "c"); Some (PTime (Time 3 0)); Some PNone; Some PNone; Some PNone; Some (PText "hi"); None] /\
  get_history iso0 (current s) = [SText "c"; SText "a"] /\ List.length log = 9 /\
  kept log = [SUpdate "c" [("stdout", PText "hi")]; SAdd "c" [("submitted", PTime (Time 3 0))]; SAdd "a" ra].
Proof. split; [exact good54|]. vm_compute. repeat split; reflexivity. Qed.

(** ** Limits *)
(** A dict in one of the columns declared as text comes back as its JSON text: the Hub stores the
    contents of execute_result and error messages there (hub.py 837-840). *)
Theorem C54_dict_refuted : exists m r k v d, dget k r = Some v /\ In k columns /\
  get_record noglob iso0 m (current (fst (run noglob iso0 [Call (SAdd m r)] start))) = Ok d /\ dget k d <> Some v /\ dget k d = Some (PText "{}").
Proof.
  exists "a", [("execute_result", PDict "{}")], "execute_result", (PDict "{}").
  eexists. split; [reflexivity|]. split; [do 18 right; left; reflexivity|]. split; [vm_compute; reflexivity|]. vm_compute. split; congruence.
Qed.
(** An empty list of buffers comes back as None. *)
Theorem C54_empty_refuted : exists m r k v d, dget k r = Some v /\ In k columns /\
  get_record noglob iso0 m (current (fst (run noglob iso0 [Call (SAdd m r)] start))) = Ok d /\ dget k d = Some PNone /\ v = PEmpty.
Proof.
  exists "a", [("buffers", PEmpty)], "buffers", PEmpty. eexists. split; [reflexivity|]. split; [do 4 right; left; reflexivity|].
  split; [vm_compute; reflexivity|]. split; reflexivity.
Qed.
(** Updating or dropping a record that is not there is not an error, unlike in the in-memory database. *)
Theorem C54_missing_refuted : happen noglob iso0 (Call (SUpdate "a" [("stdout", PText "x")])) start = Some start /\ happen noglob iso0 (Call (SDrop "a")) start = Some start.
Proof. split; reflexivity. Qed.
Print Assumptions C54_dict_refuted. Print Assumptions C54_empty_refuted. Print Assumptions C54_missing_refuted.
