(** Property theorems C38: queries to the SQLite task database. *)
From Coq Require Import List ZArith String Bool Lia.
From Verif Require Import Prelude PyValue DictDB_Spec Sqlite_Spec Sqlite_Model Sqlite_Proofs.
From Verif Require DictDB_Model DictDB_Proofs.
Import ListNotations.
Local Open Scope string_scope.

(** isoformat: datetimes that show different times of day are written in that order. *)
Definition iso_orders (iso : time -> string) : Prop := forall a b, (local a < local b)%Z -> String.compare (iso a) (iso b) = Lt.
(** All datetimes in the query are in the timezone [off], and values fit their columns. *)
Definition query_fits (off : Z) (q : squery) : Prop := forall k c, In (k, c) q ->
  match c with SVal v => fits off k v | SOps l => forall o a, In (o, a) l -> fits_arg off k a end.
Definition rows_fit (off : Z) (rows : list row) : Prop := forall r k, In r rows -> fits off k (r k).

(** A supported query returns exactly the rows that satisfy it, in order; a row without a value in a
    column satisfies only comparisons with None there. *)
Theorem C38_query : forall glob iso off rows q, iso_orders iso -> supported_sql q -> query_fits off q -> rows_fit off rows ->
  exists out, find_records glob iso rows q = Done out /\ selects (sql_matches glob q) rows out.
Proof. intros glob iso off rows q Hi Hs Hq Hr. apply (find_ok glob iso Hi off); assumption. Qed.
Print Assumptions C38_query.

(** The two databases agree on the queries both support, if the columns compared with something else
    than None have values in the rows that match. *)
Lemma selects_map {A B} (f : A -> B) (P : A -> Prop) (Q : B -> Prop) l out : (forall x, In x l -> (P x <-> Q (f x))) ->
  selects P l out -> forall out', selects Q (map f l) out' -> out' = map f out.
Proof.
  intros H S. induction S as [| x l l' Hx S IH | x l l' Hx S IH]; intros out' S'; cbn [map] in S'.
  - inversion S'. reflexivity.
  - assert (HQ : Q (f x)) by (apply H; [left; reflexivity | exact Hx]).
    inversion S'; subst; [| contradiction]. cbn [map]. f_equal. apply IH; [intros y Hy; apply H; right; exact Hy | assumption].
  - assert (HQ : ~ Q (f x)) by (intros X; apply Hx, H; [left; reflexivity | exact X]).
    inversion S'; subst; [contradiction |]. apply IH; [intros y Hy; apply H; right; exact Hy | assumption].
Qed.
Theorem C38_agree : forall glob iso off rows q d found, iso_orders iso ->
  supported_sql q -> query_fits off q -> rows_fit off rows ->
  supported (abs_query q) -> map snd (DictDB_Model.recs d) = map abs_row rows ->
  (forall r, In r rows -> matches glob (abs_query q) (abs_row r) -> has_values q r) ->
  DictDB_Model.find_records glob d (abs_query q) [] = Ok found ->
  exists out, find_records glob iso rows q = Done out /\ found = map abs_row out.
Proof.
  intros glob iso off rows q d found Hi Hs Hq Hr Hd Hrec Hv Hf.
  destruct (C38_query glob iso off rows q Hi Hs Hq Hr) as (out & E & S). exists out. split; [exact E |].
  pose proof (DictDB_Proofs.find_sound glob d (abs_query q) found Hd Hf) as S'. rewrite Hrec in S'.
  refine (selects_map abs_row _ _ rows out _ S found S'). intros r Hin. unfold sql_matches. split; [tauto | intros X; split; auto].
Qed.
Print Assumptions C38_agree.

(** ** Example *)
Fixpoint rep (n : nat) (s tail : string) : string := match n with 0 => tail | S n => s ++ rep n s tail end.
Definition iso0 (t : time) : string := if (0 <=? local t)%Z then rep (Z.to_nat (local t)) "1" "1" else rep (Z.to_nat (- local t)) "0" "1".
Lemma rep1 n m : n < m -> String.compare (rep n "1" "1") (rep m "1" "1") = Lt.
Proof.
  revert m. induction n as [| n IH]; intros m H; destruct m as [| m]; try lia.
  - destruct m; reflexivity.
  - cbn. apply IH. lia.
Qed.
Lemma rep0 n m : m < n -> String.compare (rep n "0" "1") (rep m "0" "1") = Lt.
Proof.
  revert m. induction n as [| n IH]; intros m H; [lia |]. destruct m as [| m].
  - reflexivity.
  - cbn. apply IH. lia.
Qed.
Lemma iso0_orders : iso_orders iso0.
Proof.
  intros a b H. unfold iso0. destruct (Z.leb_spec 0 (local a)), (Z.leb_spec 0 (local b)); try lia.
  - apply rep1. lia.
  - destruct (Z.to_nat (- local a)) as [| n] eqn:E; [lia |]. cbn. destruct (Z.to_nat (local b)); reflexivity.
  - apply rep0. lia.
Qed.

Definition mkrow (id : string) (e : sval) (sub comp : sval) : row := fun k =>
  if String.eqb k "msg_id" then SText id else if String.eqb k "engine_uuid" then e
  else if String.eqb k "submitted" then sub else if String.eqb k "completed" then comp else SNone.
Definition T (z : Z) : sval := STime (Time z 0).
Definition rows3 : list row := [mkrow "a" (SText "e1") (T 5) (T 9); mkrow "b" (SText "e2") (T 7) SNone; mkrow "c" SNone (T 8) (T 8)].
Definition q1 : squery := [("submitted", SOps [(OGt, One (T 5))]); ("completed", SOps [(OEq, One SNone)]); ("engine_uuid", SOps [(OIn, Many [SText "e1"; SText "e2"])])].
Definition ids (r : result (list row)) : option (list value) :=
  match r with Done l => Some (map (fun r => abs (r "msg_id")) l) | Fail _ => None end.
Definition noglob (_ _ : string) := false.
Example C38_example :
  iso_orders iso0 /\ supported_sql q1 /\ query_fits 0 q1 /\ rows_fit 0 rows3 /\
  ids (find_records noglob iso0 rows3 q1) = Some [VStr "b"] /\
  ids (find_records noglob iso0 rows3 [("submitted", SOps [(OGt, One (T 5))])]) = Some [VStr "b"; VStr "c"] /\
  ids (find_records noglob iso0 rows3 [("engine_uuid", SOps [(OIn, Many [SText "e1"; SText "e2"])]); ("submitted", SOps [(OLt, One (T 6))])]) = Some [VStr "a"].
Proof.
  split; [exact iso0_orders |]. split; [| split; [| split; [| vm_compute; auto]]].
  - split; [exists "submitted", (SOps [(OGt, One (T 5))]); split; [left; reflexivity | discriminate] |]. split.
    + intros k c H. cbn in H. repeat (destruct H as [H | H]; [injection H as <- <-; cbn; tauto |]). destruct H.
    + intros k l o a H Ha. cbn in H. repeat (destruct H as [H | H]; [injection H as <- <-; cbn in Ha;
        destruct Ha as [Ha | []]; injection Ha as <- <-; cbn; intuition (try congruence; try discriminate) |]). destruct H.
  - intros k c H. cbn in H. repeat (destruct H as [H | H]; [injection H as <- <-; intros o a Ha; cbn in Ha;
        destruct Ha as [Ha | []]; injection Ha as <- <-; cbn; auto |]); [| destruct H].
    intros v [<- | [<- | []]]; reflexivity.
  - intros r k H. cbn in H. repeat (destruct H as [<- | H]; [unfold mkrow;
      repeat match goal with |- fits _ _ (if String.eqb k ?x then _ else _) => destruct (String.eqb_spec k x) as [-> | ?] end; cbn; auto |]). destruct H.
Qed.

(** ** Refuted *)
(** A row without a value is not found by $ne or $nin, although None is not the value. *)
Theorem C38_ne_null_refuted : exists rows q, supported_sql q /\ query_fits 0 q /\ rows_fit 0 rows /\
  matches noglob (abs_query q) (abs_row (nth 0 rows (fun _ => SNone))) /\ List.length rows = 1 /\ find_records noglob iso0 rows q = Done [].
Proof.
  exists [mkrow "b" (SText "e2") (T 7) SNone], [("completed", SOps [(ONe, One (T 9))])].
  split; [| split; [| split; [| split; [| split; reflexivity]]]].
  - split; [exists "completed", (SOps [(ONe, One (T 9))]); split; [left; reflexivity | discriminate] |]. split.
    + intros k c [H | []]. injection H as <- <-. cbn. tauto.
    + intros k l o a [H | []] Ha. injection H as <- <-. destruct Ha as [Ha | []]. injection Ha as <- <-. exact I.
  - intros k c [H | []]. injection H as <- <-. intros o a [Ha | []]. injection Ha as <- <-. cbn. auto.
  - intros r k [<- | []]. unfold mkrow.
    repeat match goal with |- fits _ _ (if String.eqb k ?x then _ else _) => destruct (String.eqb_spec k x) as [-> | ?] end; cbn; auto.
  - intros k c [H | []]. injection H as <- <-. intros o b [Ha | []]. injection Ha as <- <-. cbn. unfold equal. cbn. discriminate.
Qed.
Print Assumptions C38_ne_null_refuted.

(** The empty query, which every record satisfies, and $in with an empty list, are syntax errors. *)
Theorem C38_empty_refuted : forall glob iso rows k,
  (forall r, matches glob (abs_query []) (abs_row r)) /\ find_records glob iso rows [] = Fail FSyntax /\
  (In k columns -> find_records glob iso rows [(k, SOps [(OIn, Many [])])] = Fail FSyntax).
Proof.
  intros glob iso rows k. split; [intros r k' c [] |]. split; [reflexivity |]. intros Hk. unfold find_records, render_expression.
  cbn [forallb fst]. replace (existsb (String.eqb k) columns) with true
    by (symmetry; apply existsb_exists; exists k; split; [exact Hk | apply String.eqb_refl]). reflexivity.
Qed.
Print Assumptions C38_empty_refuted.

(** Datetimes in different timezones are compared by what they show, not by the instants: with any
    isoformat a record submitted after the given time is found to be submitted before it. *)
Theorem C38_timezone_refuted : forall glob iso, iso_orders iso -> exists t u rows q r,
  (instant t > instant u)%Z /\ rows = [r] /\ r "submitted" = STime t /\ q = [("submitted", SOps [(OLt, One (STime u))])] /\
  find_records glob iso rows q = Done rows.
Proof.
  intros glob iso Hi. pose (r := mkrow "a" SNone (STime (Time 100 0)) SNone).
  exists (Time 100 0), (Time 90 60), [r], [("submitted", SOps [(OLt, One (STime (Time 90 60)))])], r.
  split; [cbn; lia |]. split; [reflexivity |]. split; [reflexivity |]. split; [reflexivity |].
  unfold find_records. cbn. unfold where_, stored. cbn. rewrite Hi by (unfold local; cbn; lia). reflexivity.
Qed.
Print Assumptions C38_timezone_refuted.

(** $lt with a list fails with UnboundLocalError - unless $in came before: then it is accepted, and
    means: less than one of them. *)
Theorem C38_join_refuted : forall glob,
  find_records glob iso0 rows3 [("msg_id", SOps [(OLt, Many [SText "b"; SText "c"])])] = Fail FUnboundLocal /\
  ids (find_records glob iso0 rows3 [("msg_id", SOps [(OIn, Many [SText "a"; SText "b"]); (OLt, Many [SText "a"; SText "b"])])]) = Some [VStr "a"].
Proof. intros glob. split; vm_compute; reflexivity. Qed.
Print Assumptions C38_join_refuted.

(** ** Example: the same query to both databases *)
Definition q2 : squery := [("submitted", SOps [(OLt, One (T 8)); (OGte, One (T 6))]); ("completed", SVal SNone)].
Definition dict3 : DictDB_Model.db := DictDB_Model.DB [("a", abs_row (nth 0 rows3 (fun _ => SNone))); ("b", abs_row (nth 1 rows3 (fun _ => SNone))); ("c", abs_row (nth 2 rows3 (fun _ => SNone)))] [] 0.
Example C38_agree_example :
  supported_sql q2 /\ query_fits 0 q2 /\ supported (abs_query q2) /\ map snd (DictDB_Model.recs dict3) = map abs_row rows3 /\
  DictDB_Model.find_records noglob dict3 (abs_query q2) [] = Ok [abs_row (nth 1 rows3 (fun _ => SNone))] /\
  (forall r, In r rows3 -> matches noglob (abs_query q2) (abs_row r) -> has_values q2 r) /\
  ids (find_records noglob iso0 rows3 q2) = Some [VStr "b"].
Proof.
  split; [| split; [| split; [| split; [| split; [| split]]]]]; try (vm_compute; reflexivity).
  - split; [exists "completed", (SVal SNone); split; [right; left; reflexivity | discriminate] |]. split.
    + intros k c H. cbn in H. repeat (destruct H as [H | H]; [injection H as <- <-; cbn; tauto |]). destruct H.
    + intros k l o a [H | [H | []]] Ha; [injection H as <- <- | discriminate]. cbn in Ha.
      repeat (destruct Ha as [Ha | Ha]; [injection Ha as <- <-; cbn; discriminate |]). destruct Ha.
  - intros k c [H | [H | []]]; injection H as <- <-; [| exact I]. intros o a Ha. cbn in Ha.
    repeat (destruct Ha as [Ha | Ha]; [injection Ha as <- <-; cbn; auto |]). destruct Ha.
  - split.
    + intros k l o b [H | [H | []]] Hb; [injection H as <- <- | discriminate]. cbn in Hb.
      repeat (destruct Hb as [Hb | Hb]; [injection Hb as <- <-; split; discriminate |]). destruct Hb.
    + intros k v [H | [H | []]]; [discriminate |]. injection H as <- <-. eexists [_], _. reflexivity.
  - intros r H M k c [Hc | [Hc | []]] Hn; injection Hc as <- <-; [| reflexivity].
    cbn in H. repeat (destruct H as [<- | H]; [discriminate Hn |]). destruct H.
Qed.
