(** Property theorems C40: Client.db_query returns the records with their own buffers. *)
From Coq Require Import List ZArith String Bool Lia.
From Verif Require Import Prelude PyValue DictDB_Spec DictDB_Model DictDB_Proofs DbQuery_Spec DbQuery_Model.
Import ListNotations.
Local Open Scope string_scope.

(** ** The Hub and the client *)
Definition bufs_of (key : string) (r : record) : list value := match dget key r with Some (VList l) => l | _ => [] end.
Definition strip (r : record) : record := ddel "result_buffers" (ddel "buffers" r).
Definition parts (w rw : bool) (r : record) : list value :=
  ((if w then bufs_of "buffers" r else []) ++ (if rw then bufs_of "result_buffers" (ddel "buffers" r) else []))%list.
Definition lens (w : bool) (f : record -> list value) (l : list record) : option (list nat) :=
  if w then Some (map (fun r => List.length (f r)) l) else None.
Definition rbufs (r : record) : list value := bufs_of "result_buffers" (ddel "buffers" r).

Lemma detach_spec w rw : forall recs done,
  detach recs (Reply (map strip done) (lens w (bufs_of "buffers") done) (lens rw rbufs done) (List.concat (map (parts w rw) done))) =
  Reply (map strip (done ++ recs)) (lens w (bufs_of "buffers") (done ++ recs)) (lens rw rbufs (done ++ recs))
    (List.concat (map (parts w rw) (done ++ recs))).
Proof.
  induction recs as [| r recs IH]; intros done; cbn [detach]; [rewrite app_nil_r; reflexivity |].
  replace (done ++ r :: recs)%list with ((done ++ [r]) ++ recs)%list by (rewrite <- app_assoc; reflexivity).
  rewrite <- IH. unfold pop. cbn [buffer_lens result_buffer_lens buffers records].
  fold (bufs_of "buffers" r). change (match dget "result_buffers" (ddel "buffers" r) with Some (VList l) => l | _ => [] end) with (rbufs r).
  unfold put, lens. rewrite !map_app, concat_app. cbn [map List.concat]. rewrite app_nil_r.
  unfold parts at 4. fold (rbufs r).
  destruct w, rw; cbn [app]; rewrite ?app_nil_r, ?app_assoc; reflexivity.
Qed.

Definition linked (w rw : bool) (r : record) : record :=
  let r1 := if w then dset "buffers" (VList (bufs_of "buffers" r)) (strip r) else strip r in
  if rw then dset "result_buffers" (VList (rbufs r)) r1 else r1.
Lemma relink_spec w rw rest : forall recs,
  relink (map strip recs) (lens w (bufs_of "buffers") recs) (lens rw rbufs recs) (List.concat (map (parts w rw) recs) ++ rest) =
  Ok (map (linked w rw) recs, rest).
Proof.
  assert (F : forall (a b : list value), firstn (List.length a) (a ++ b) = a)
    by (intros a b; rewrite firstn_app, Nat.sub_diag, firstn_all, firstn_O, app_nil_r; reflexivity).
  assert (S : forall (a b : list value), skipn (List.length a) (a ++ b) = b)
    by (intros a b; rewrite skipn_app, Nat.sub_diag, skipn_all; reflexivity).
  induction recs as [| r recs IH]; [reflexivity |].
  cbn [map relink List.concat]. unfold lens in *. unfold parts at 1. fold (rbufs r). unfold linked at 1.
  destruct w, rw; cbn [map take_bufs bind app]; rewrite <- ?app_assoc; rewrite ?F, ?S, ?IH; cbn [bind app];
    rewrite ?F, ?S, ?IH; reflexivity.
Qed.

Definition has (k : string) (keys : option (list string)) : bool :=
  match keys with Some l => existsb (String.eqb k) l | None => false end.
Lemma wanted_lens k keys f : wanted k keys = lens (has k keys) f [].
Proof. destruct keys as [l |]; [| reflexivity]. cbn. destruct (existsb (String.eqb k) l); reflexivity. Qed.

Lemma db_query_eq glob d q keys :
  db_query glob d q keys =
  bind (find_records glob d q (match keys_list keys with Some l => l | None => [] end)) (fun recs =>
    Ok (map (linked (has "buffers" (keys_list keys)) (has "result_buffers" (keys_list keys))) recs, [])).
Proof.
  unfold db_query, hub_db_query. destruct (find_records glob d q _) as [recs | e]; [| reflexivity]. cbn [bind].
  rewrite (wanted_lens "buffers" _ (bufs_of "buffers")), (wanted_lens "result_buffers" _ rbufs).
  pose proof (detach_spec (has "buffers" (keys_list keys)) (has "result_buffers" (keys_list keys)) recs []) as D.
  cbn [map List.concat app] in D. rewrite D. cbn [records buffer_lens result_buffer_lens buffers].
  rewrite <- (app_nil_r (List.concat _)). rewrite relink_spec. reflexivity.
Qed.

Lemma dkeys_ddel k (d : record) : NoDup (dkeys d) -> NoDup (dkeys (ddel k d)).
Proof.
  unfold dkeys. induction d as [| [k' v] d IH]; intros H; [constructor |]. inversion H as [| x l Hn Hd]; subst. cbn [ddel].
  destruct (String.eqb k k'); [exact Hd |]. cbn [map fst]. constructor; [| apply IH, Hd].
  intros X. apply Hn. clear -X. induction d as [| [a b] d IH]; [destruct X |]. cbn [ddel] in X.
  destruct (String.eqb k a); [right; exact X |]. destruct X as [X | X]; [left; exact X | right; apply IH, X].
Qed.
Lemma strip_get k r : NoDup (dkeys r) -> dget k (strip r) = if is_buffers k then None else dget k r.
Proof.
  intros H. unfold strip. rewrite dget_ddel by (apply dkeys_ddel, H). rewrite dget_ddel by exact H. unfold is_buffers.
  destruct (String.eqb k "buffers"), (String.eqb k "result_buffers"); reflexivity.
Qed.
Lemma linked_get w rw k r : NoDup (dkeys r) ->
  dget k (linked w rw r) =
  if is_buffers k then if (String.eqb k "buffers" && w) || (String.eqb k "result_buffers" && rw) then Some (stored_buffers r k) else None
  else dget k r.
Proof.
  intros H.
  assert (E : rbufs r = bufs_of "result_buffers" r) by (unfold rbufs, bufs_of; rewrite dget_ddel by exact H; reflexivity).
  assert (B : forall k, VList (bufs_of k r) = stored_buffers r k)
    by (intros k'; unfold bufs_of, stored_buffers; destruct (dget k' r) as [[] |]; reflexivity).
  unfold linked. rewrite E, !B.
  destruct (String.eqb_spec k "buffers") as [-> | N1]; [| destruct (String.eqb_spec k "result_buffers") as [-> | N2]].
  - destruct w, rw; rewrite ?dget_dset; cbn; rewrite ?dget_dset, ?strip_get by exact H; reflexivity.
  - destruct w, rw; rewrite ?dget_dset; cbn; rewrite ?dget_dset, ?strip_get by exact H; reflexivity.
  - apply String.eqb_neq in N1, N2.
    assert (I : is_buffers k = false) by (unfold is_buffers; rewrite N1, N2; reflexivity).
    rewrite I. destruct w, rw; rewrite ?dget_dset, ?N1, ?N2, ?strip_get, ?I by exact H; reflexivity.
Qed.

(** The query succeeds exactly if the database's does; the answer has one record for each record
    matched, in the same order, with its own buffers exactly if they were asked for; no buffer is left. *)
Theorem C40_db_query : forall glob d q keys out rest,
  db_query glob d q keys = Ok (out, rest) ->
  (forall r, In r (map snd (recs d)) -> NoDup (dkeys r)) ->
  rest = [] /\ exists full, find_records glob d q [] = Ok full /\ Forall2 (answer (asked_for keys)) full out.
Proof.
  intros glob d q keys out rest H Hd. rewrite db_query_eq in H.
  replace (asked_for keys) with (match keys_list keys with Some l => l | None => [] end) by (destruct keys; reflexivity).
  set (ks := keys_list keys) in *.
  destruct (find_records glob d q (match ks with Some l => l | None => [] end)) as [found | e] eqn:Ef; [| discriminate].
  cbn [bind] in H. injection H as <- <-. split; [reflexivity |].
  assert (Hfull : forall full, find_records glob d q [] = Ok full -> Forall (fun r => NoDup (dkeys r)) full).
  { intros full E. assert (S : forall r, In r full -> In r (map snd (recs d))).
    { unfold find_records, match_ in E. destruct (make_tests glob (last_value q) q) as [ts | e]; [| discriminate]. cbn [bind] in E.
      clear -E. revert full E. induction (recs d) as [| [m x] l IH]; intros full E; cbn [match_recs bind] in E.
      - injection E as <-. intros r [].
      - destruct (match_one x ts) as [b | e]; [| discriminate]. cbn [bind] in E.
        destruct (match_recs ts l) as [ms | e]; [| discriminate]. cbn [bind] in E. injection E as <-.
        intros r Hr. cbn [map snd]. destruct b; [destruct Hr as [-> | Hr]; [left; reflexivity |] |]; right; apply (IH ms); auto. }
    apply Forall_forall. intros r Hr. apply Hd, S, Hr. }
  destruct ks as [[| k l] |] eqn:Ek; cbn [match_] in Ef.
  - exists found. split; [exact Ef |]. specialize (Hfull _ Ef). clear Ef. induction Hfull as [| r found Hr _ IH]; constructor; [| exact IH].
    intros k. rewrite linked_get by exact Hr. cbn. rewrite !andb_false_r. reflexivity.
  - destruct (find_keys glob d q (k :: l) found) as (full & E & F); [discriminate | exact Ef |].
    exists full. split; [exact E |]. specialize (Hfull _ E).
    assert (Hnd : forall r r', part_of (k :: l) r r' -> NoDup (dkeys r) -> True) by auto. clear Hnd.
    assert (Hfound : Forall (fun r => NoDup (dkeys r)) found).
    { unfold find_records in Ef. destruct (match_ glob d q) as [ms |]; [| discriminate]. cbn [bind] in Ef.
      clear -Ef. revert found Ef. induction ms as [| x ms IH]; intros found Ef; cbn [traverse] in Ef; [injection Ef as <-; constructor |].
      destruct (extract_subdict x (k :: l)) as [y |] eqn:Ey; [| discriminate]. cbn [bind] in Ef.
      destruct (traverse _ ms) as [ys |]; [| discriminate]. cbn [bind] in Ef. injection Ef as <-. constructor; [| apply IH; reflexivity].
      unfold extract_subdict in Ey. destruct (dget "msg_id" x); [| discriminate].
      assert (A : NoDup (dkeys [("msg_id", v)])) by (cbn; constructor; [intros [] | constructor]).
      revert A Ey. generalize [("msg_id", v)] as acc. generalize (k :: l) as ks. clear.
      induction ks as [| k ks IH]; intros acc A E; cbn [extract_keys] in E; [injection E as <-; exact A |].
      destruct (dget k x); [| discriminate]. apply (IH (dset k v acc)); [apply dkeys_dset, A | exact E]. }
    clear -F Hfull Hfound. induction F as [| r r' full found P F IH]; [constructor |].
    inversion Hfound as [| x y Hr' Hf]; subst. inversion Hfull as [| x y Hr Hfl]; subst. cbn [map]. constructor; [| apply IH; assumption].
    intros x. rewrite linked_get by exact Hr'. cbn [has].
    pose proof (P x) as Px. cbn [existsb] in Px.
    assert (SB : forall y, existsb (String.eqb y) (k :: l) = true -> stored_buffers r' y = stored_buffers r y).
    { intros y Hy. unfold stored_buffers. rewrite (P y). cbn [existsb] in *. rewrite Hy, orb_true_r. reflexivity. }
    change (String.eqb x k || existsb (String.eqb x) l) with (existsb (String.eqb x) (k :: l)) in Px.
    destruct (existsb (String.eqb x) (k :: l)) eqn:Ex.
    + rewrite orb_true_r in Px. destruct (is_buffers x) eqn:Ib; [| exact Px].
      rewrite <- SB by exact Ex.
      destruct (String.eqb_spec x "buffers") as [-> | N1]; [rewrite Ex; reflexivity |].
      destruct (String.eqb_spec x "result_buffers") as [-> | N2]; [rewrite Ex; reflexivity |].
      unfold is_buffers in Ib. apply String.eqb_neq in N1, N2. rewrite N1, N2 in Ib. discriminate.
    + rewrite orb_false_r in Px. destruct (is_buffers x) eqn:Ib; [| exact Px].
      assert (M : String.eqb x "msg_id" = false).
      { unfold is_buffers in Ib. destruct (String.eqb_spec x "msg_id") as [-> |]; [discriminate | reflexivity]. }
      rewrite M.
      destruct (String.eqb_spec x "buffers") as [-> | N1]; [rewrite Ex; reflexivity |].
      destruct (String.eqb_spec x "result_buffers") as [-> | N2]; [rewrite Ex; reflexivity |]. reflexivity.
  - exists found. split; [exact Ef |]. specialize (Hfull _ Ef). clear Ef. induction Hfull as [| r found Hr _ IH]; constructor; [| exact IH].
    intros k. rewrite linked_get by exact Hr. cbn. rewrite !andb_false_r. reflexivity.
Qed.
Print Assumptions C40_db_query.

Theorem C40_fails : forall glob d q keys e,
  db_query glob d q keys = Raise e <-> find_records glob d q (asked_for keys) = Raise e.
Proof.
  intros glob d q keys e. rewrite db_query_eq.
  replace (asked_for keys) with (match keys_list keys with Some l => l | None => [] end) by (destruct keys; reflexivity). destruct (find_records glob d q _) as [r | e']; cbn [bind]; split; intros H; congruence.
Qed.
Print Assumptions C40_fails.

(** ** Example: records with several, no, and None buffers *)
Definition r1 : record := [("msg_id", VStr "a"); ("buffers", VList [VBytes [1]; VBytes [2]]); ("result_buffers", VList [VBytes [3]]); ("engine", VInt 0)].
Definition r2 : record := [("msg_id", VStr "b"); ("buffers", VList []); ("result_buffers", VNone); ("engine", VInt 1)].
Definition r3 : record := [("msg_id", VStr "c"); ("buffers", VList [VBytes [4]]); ("result_buffers", VList [VBytes [5]; VBytes [6]]); ("engine", VInt 0)].
Definition d3 : db := DB [("a", r1); ("b", r2); ("c", r3)] [] 6.
Example C40_example :
  (forall r, In r (map snd (recs d3)) -> NoDup (dkeys r)) /\
  db_query (fun _ _ => false) d3 [] (KList ["result_buffers"; "buffers"]) =
    Ok ([[("msg_id", VStr "a"); ("buffers", VList [VBytes [1]; VBytes [2]]); ("result_buffers", VList [VBytes [3]])];
         [("msg_id", VStr "b"); ("buffers", VList []); ("result_buffers", VList [])];
         [("msg_id", VStr "c"); ("buffers", VList [VBytes [4]]); ("result_buffers", VList [VBytes [5]; VBytes [6]])]], []) /\
  db_query (fun _ _ => false) d3 [("engine", CVal (VInt 0))] (KStr "result_buffers") =
    Ok ([[("msg_id", VStr "a"); ("result_buffers", VList [VBytes [3]])]; [("msg_id", VStr "c"); ("result_buffers", VList [VBytes [5]; VBytes [6]])]], []) /\
  db_query (fun _ _ => false) d3 [("engine", CVal (VInt 1))] KNone = Ok ([[("msg_id", VStr "b"); ("engine", VInt 1)]], []).
Proof.
  split; [| split; [| split]]; try reflexivity. intros r Hr. cbn in Hr.
  repeat (destruct Hr as [<- | Hr]; [repeat constructor; cbn; intuition congruence |]). destruct Hr.
Qed.
