(** Proofs for the SQLite store (C54). *)
From Coq Require Import List ZArith String Bool Lia Permutation Sorted.
From Verif Require Import Prelude PyValue DictDB_Spec Sqlite_Spec Sqlite_Model Sqlite_Proofs SqlStore_Spec SqlStore_Model.
From Verif Require DictDB_Proofs.
Import ListNotations.
Local Open Scope string_scope.

(** * Lists of columns *)
Fixpoint decl_in (cols : list (string * decl)) (k : string) : decl :=
  match cols with [] => DText | (c, d) :: r => if String.eqb k c then d else decl_in r k end.

Lemma dget_none_notin {A} k (d : dict A) : dget k d = None <-> ~ In k (dkeys d).
Proof.
  induction d as [|[k' v] d IH]; cbn; [tauto|]. destruct (String.eqb_spec k k') as [->|N]; [|rewrite IH; intuition congruence].
  split; [discriminate|tauto].
Qed.
Lemma dget_map_in {A} (g : string -> A) k l : dget k (map (fun k => (k, g k)) l) = if existsb (String.eqb k) l then Some (g k) else None.
Proof. induction l as [|x l IH]; cbn; [reflexivity|]. destruct (String.eqb_spec k x) as [->|]; [reflexivity|exact IH]. Qed.

Lemma cell_line cols d vs k : dict_to_list (map fst cols) d = Some vs -> In k (map fst cols) ->
  cell cols (map adapt_value vs) k = adapt_value (match dget k d with Some v => v | None => PNone end).
Proof.
  revert vs. induction cols as [|[c t] cols IH]; intros vs; [intros _ []|]. cbn [map fst dict_to_list cell].
  destruct (dget c d) as [v|] eqn:E; [|discriminate]. destruct (dict_to_list (map fst cols) d) as [l|] eqn:El; [|discriminate].
  intros H; injection H as <-. cbn [map]. intros Hin. destruct (String.eqb_spec k c) as [->|N]; [rewrite E; reflexivity|].
  destruct Hin as [->|Hin]; [congruence|]. apply IH; [reflexivity|exact Hin].
Qed.
Lemma cell_out cols l k : ~ In k (map fst cols) -> cell cols l k = SNone.
Proof.
  revert l. induction cols as [|[c t] cols IH]; intros l H; [reflexivity|]. destruct l as [|v l]; [reflexivity|]. cbn in *.
  destruct (String.eqb_spec k c) as [->|]; [tauto|]. apply IH. tauto.
Qed.
Lemma dict_to_list_length keys d vs : dict_to_list keys d = Some vs -> List.length vs = List.length keys.
Proof.
  revert vs. induction keys as [|k keys IH]; intros vs; cbn; [intros H; injection H as <-; reflexivity|].
  destruct (dget k d); [|discriminate]. destruct (dict_to_list keys d); [|discriminate]. intros H; injection H as <-. cbn. f_equal. apply IH. reflexivity.
Qed.
Lemma dict_to_list_total keys d : (forall k, In k keys -> In k (dkeys d)) -> exists vs, dict_to_list keys d = Some vs.
Proof.
  induction keys as [|k keys IH]; intros H; [eexists; reflexivity|]. cbn. destruct IH as [vs E]; [intros; apply H; right; assumption|]. rewrite E.
  destruct (dget k d) as [v|] eqn:Ek; [eexists; reflexivity|]. apply dget_none_notin in Ek. destruct Ek. apply H. left. reflexivity.
Qed.
Lemma set_cells_length cols sets l : List.length l = List.length cols -> List.length (set_cells cols sets l) = List.length cols.
Proof. revert l. induction cols as [|[c t] cols IH]; intros [|v l] H; try discriminate; [reflexivity|]. cbn in *. f_equal. apply IH. lia. Qed.
Lemma cell_set cols sets l k : List.length l = List.length cols -> In k (map fst cols) ->
  cell cols (set_cells cols sets l) k = match dget k sets with Some x => x | None => cell cols l k end.
Proof.
  revert l. induction cols as [|[c t] cols IH]; intros [|v l] H Hin; try discriminate; [destruct Hin|]. cbn in *.
  destruct (String.eqb_spec k c) as [->|]; [reflexivity|]. apply IH; [lia|]. destruct Hin; [congruence|assumption].
Qed.

Lemma NoDup_snoc {A} (l : list A) x : NoDup l -> ~ In x l -> NoDup (l ++ [x]).
Proof.
  induction l as [|y l IH]; cbn [app]; intros N H; [constructor; [intros []|constructor]|]. inversion N as [|? ? N1 N2]; subst.
  constructor; [|apply IH; [exact N2|intros X; apply H; right; exact X]]. rewrite in_app_iff. intros [X|[->|[]]]; [auto|]. apply H. left. reflexivity.
Qed.

Section proofs.
Context (glob : string -> string -> bool) (iso : time -> string).
Notation conv := (convert iso).
Lemma fetch_get cols l k : List.length l = List.length cols ->
  dget k (combine (map fst cols) (fetch iso cols l)) = if existsb (String.eqb k) (map fst cols) then Some (conv (decl_in cols k) (cell cols l k)) else None.
Proof.
  revert l. induction cols as [|[c t] cols IH]; intros [|v l] H; try discriminate; [reflexivity|]. cbn in *.
  destruct (String.eqb_spec k c) as [->|]; [reflexivity|]. apply IH. lia.
Qed.
Lemma fetch_length cols l : List.length l = List.length cols -> List.length (fetch iso cols l) = List.length cols.
Proof. revert l. induction cols as [|[c t] cols IH]; intros [|v l] H; try discriminate; [reflexivity|]. cbn in *. f_equal. apply IH. lia. Qed.
Lemma keys_combine {A} (ks : list string) (vs : list A) : List.length vs = List.length ks -> dkeys (combine ks vs) = ks.
Proof. revert vs. induction ks as [|k ks IH]; intros [|v vs] H; try discriminate; [reflexivity|]. cbn in *. f_equal. apply IH. lia. Qed.

Lemma columns_nodup : NoDup columns.
Proof.
  assert (A : nodup string_dec columns = columns) by (vm_compute; reflexivity). rewrite <- A. apply NoDup_nodup.
Qed.
Lemma keys_columns : keys_ = columns. Proof. reflexivity. Qed.
Lemma schema_columns : map fst schema = columns. Proof. reflexivity. Qed.

Lemma record_of_line l k : List.length l = List.length schema ->
  dget k (list_to_dict (fetch iso schema l) keys_) = if existsb (String.eqb k) columns then Some (conv (decl_in schema k) (col l k)) else None.
Proof.
  intros H. unfold list_to_dict. change (fold_left _ ?new ?d) with (dupdate d new).
  rewrite DictDB_Proofs.dget_dupdate.
  - rewrite keys_columns, <- schema_columns, fetch_get by exact H. rewrite schema_columns. destruct (existsb _ columns) eqn:E; [reflexivity|].
    unfold defaults. rewrite (dget_map_in (fun _ => PNone) k columns), E. reflexivity.
  - rewrite keys_combine; [rewrite keys_columns; exact columns_nodup|]. rewrite fetch_length by exact H. reflexivity.
Qed.

(** * Types *)
Context (off : Z).
Definition types_check (k : string) : bool :=
  match type_of k, decl_in schema k with CText, DText | CTime, DTimestamp | CDict, DDict | CBufs, DBufs => true | _, _ => false end
  && Bool.eqb (timestamp k) (match type_of k with CTime => true | _ => false end).
Lemma types_checked : forallb types_check columns = true. Proof. vm_compute. reflexivity. Qed.
Lemma conv_adapt k v : In k columns -> suits off k v -> conv (decl_in schema k) (adapt_value v) = v /\ fits off k (adapt_value v) /\ searched v = adapt_value v.
Proof.
  intros Hk. pose proof (proj1 (forallb_forall _ _) types_checked k Hk) as A. unfold types_check in A. apply andb_true_iff in A as [A B].
  apply eqb_prop in B. unfold suits. destruct v, (type_of k) eqn:Et; try tauto; destruct (decl_in schema k); try discriminate; cbn; auto.
Qed.

(** * The table against the history *)
Definition mid (l : line) : sval := col l "msg_id".
Definition agree (l : line) (f : string -> pv) : Prop := forall k, In k columns -> conv (decl_in schema k) (col l k) = f k /\ searched (f k) = col l k.
Definition line_ok (l : line) : Prop := List.length l = List.length schema /\ (forall k, fits off k (col l k)) /\ exists m, mid l = SText m.
Record Inv (t : table) (h : list sop) : Prop := {
  i_ok : forall l, In l t -> line_ok l;
  i_nodup : NoDup (map mid t);
  i_some : forall l m, In l t -> mid l = SText m -> exists f, latest glob h m (Some f) /\ agree l f;
  i_none : forall m, (forall l, In l t -> mid l <> SText m) -> latest glob h m None }.

Lemma is_msg_iff m l : (exists x, mid l = SText x) -> is_msg glob iso m l = true <-> mid l = SText m.
Proof.
  intros [x E]. unfold is_msg. unfold mid in *. rewrite E. cbn. destruct (String.eqb_spec x m); subst; intuition congruence.
Qed.
Lemma find_some t h m l : Inv t h -> find (is_msg glob iso m) t = Some l -> In l t /\ mid l = SText m.
Proof. intros I H. apply find_some in H as [H1 H2]. split; [exact H1|]. apply is_msg_iff; [apply (i_ok _ _ I l H1)|exact H2]. Qed.
Lemma find_none t h m : Inv t h -> find (is_msg glob iso m) t = None -> forall l, In l t -> mid l <> SText m.
Proof.
  intros I H l Hl E. apply (is_msg_iff m l) in E; [|apply (i_ok _ _ I l Hl)]. apply (find_none _ _ H) in Hl. congruence.
Qed.
Lemma same_line t l l' : NoDup (map mid t) -> In l t -> In l' t -> mid l = mid l' -> l = l'.
Proof.
  induction t as [|x t IH]; [intros _ []|]. cbn [map In]. intros N. inversion N as [|? ? N1 N2]; subst. intros [->|H] [->|H'] E; auto.
  - destruct N1. rewrite E. apply in_map, H'.
  - destruct N1. rewrite <- E. apply in_map, H.
Qed.

Lemma latest_fun h m a b : latest glob h m a -> latest glob h m b -> a = b.
Proof.
  intros H. revert b. induction H; intros b Hb; inversion Hb; subst; try congruence; auto;
    repeat match goal with
    | IH : forall b, latest glob ?h ?m b -> ?a = b, H : latest glob ?h ?m _ |- _ => apply IH in H; try discriminate; try injection H as <-
    end; try congruence; try contradiction; auto.
Qed.

Lemma Inv_start : Inv [] [].
Proof. split; [intros l []|constructor|intros l m []|intros; constructor]. Qed.

Lemma Inv_add m r t t' h : Inv t h -> good_call off (SAdd m r) -> add_record m r t = Some t' -> Inv t' (SAdd m r :: h).
Proof.
  intros I [Hn Hs]. unfold add_record. set (d := dset "msg_id" (PText m) (dupdate (defaults keys_) r)).
  destruct (dict_to_list keys_ d) as [vs|] eqn:E; [|discriminate]. set (new := map adapt_value vs).
  assert (Hd : forall k, In k columns -> dget k d = Some (fresh m r k)).
  { intros k Hk. unfold d, fresh. rewrite DictDB_Proofs.dget_dset. destruct (String.eqb k "msg_id"); [reflexivity|].
    rewrite DictDB_Proofs.dget_dupdate by exact Hn. destruct (dget k r); [reflexivity|].
    unfold defaults. rewrite (dget_map_in (fun _ => PNone)). rewrite keys_columns. replace (existsb _ columns) with true; [reflexivity|].
    symmetry. apply existsb_exists. exists k. split; [exact Hk|apply String.eqb_refl]. }
  assert (Hc : forall k, In k columns -> col new k = adapt_value (fresh m r k)).
  { intros k Hk. unfold col, new. rewrite (cell_line schema d vs); [|exact E|exact Hk]. rewrite Hd by exact Hk. reflexivity. }
  assert (Hf : forall k, In k columns -> suits off k (fresh m r k)).
  { intros k Hk. unfold fresh. destruct (String.eqb_spec k "msg_id") as [->|N]; [exact Logic.I|]. destruct (dget k r) as [v|] eqn:Ev; [|exact Logic.I]. apply Hs; assumption. }
  assert (Hm : mid new = SText m). { unfold mid. rewrite Hc by (left; reflexivity). reflexivity. }
  fold (mid new) in *. rewrite Hm. destruct (existsb _ t) eqn:Ex; [discriminate|]. intros H; injection H as <-.
  assert (Hnew : forall l, In l t -> mid l <> SText m).
  { intros l Hl El. assert (X : existsb (fun l0 => match mid l0 with SText a => String.eqb a m | _ => false end) t = true); [|].
    - apply existsb_exists. exists l. split; [exact Hl|]. rewrite El. apply String.eqb_refl.
    - fold mid in Ex. unfold mid in X, Ex. congruence. }
  assert (Ha : agree new (fresh m r)).
  { intros k Hk. rewrite Hc by exact Hk. destruct (conv_adapt k (fresh m r k) Hk (Hf k Hk)) as (A & B & C). split; [exact A|exact C]. }
  split.
  - intros l Hl. apply in_app_iff in Hl as [Hl|[<-|[]]]; [apply (i_ok _ _ I l Hl)|]. split; [|split; [|exists m; exact Hm]].
    + unfold new. rewrite map_length, (dict_to_list_length _ _ _ E). reflexivity.
    + intros k. destruct (in_dec string_dec k columns) as [Hk|Hk].
      * rewrite Hc by exact Hk. apply conv_adapt; [exact Hk|apply Hf; exact Hk].
      * unfold col. rewrite cell_out; [exact Logic.I|exact Hk].
  - rewrite map_app. cbn [map]. apply NoDup_snoc; [exact (i_nodup _ _ I)|]. intros Hin. apply in_map_iff in Hin as (l & El & Hl). rewrite Hm in El. exact (Hnew l Hl El).
  - intros l x Hl Ex'. apply in_app_iff in Hl as [Hl|[<-|[]]].
    + destruct (i_some _ _ I l x Hl Ex') as (f & L & A). exists f. split; [|exact A]. constructor; [|exact L]. intros ->. exact (Hnew l Hl Ex').
    + rewrite Hm in Ex'. injection Ex' as <-. exists (fresh m r). split; [constructor|exact Ha].
  - intros x Hx. destruct (string_dec x m) as [->|N]; [destruct (Hx new); [apply in_app_iff; right; left; reflexivity|exact Hm]|].
    constructor; [exact N|]. apply (i_none _ _ I). intros l Hl. apply Hx. apply in_app_iff. left. exact Hl.
Qed.

Lemma sorted_in x l : In x (sorted l) <-> In x l.
Proof.
  assert (A : forall y l, In x (insert_str y l) <-> y = x \/ In x l).
  { intros y l0. induction l0 as [|z l0 IH]; cbn [insert_str]; [cbn; tauto|]. destruct (String.leb y z); cbn [In]; [tauto|]. rewrite IH. tauto. }
  induction l as [|y l IH]; [reflexivity|]. cbn [sorted fold_right]. change (fold_right insert_str [] l) with (sorted l). rewrite A, IH. reflexivity.
Qed.
Lemma sorted_nil l : List.length (sorted l) = 0 -> l = [].
Proof. destruct l as [|x l]; [reflexivity|]. intros H. assert (A : In x (sorted (x :: l))) by (apply sorted_in; left; reflexivity). destruct (sorted (x :: l)); [destruct A|discriminate]. Qed.

Lemma Inv_update m r t t' h : Inv t h -> good_call off (SUpdate m r) -> update_record glob iso m r t = Some t' -> Inv t' (SUpdate m r :: h).
Proof.
  intros I (Hn & Hs & Hm). unfold update_record. set (keys := sorted (dkeys r)).
  set (sets := map _ keys). destruct (_ || _) eqn:E; [discriminate|]. intros H; injection H as <-.
  apply orb_false_iff in E as [_ E]. apply negb_false_iff in E. rewrite forallb_forall in E.
  assert (Hk : forall k v, dget k r = Some v -> In k columns).
  { intros k v Hv. assert (In k keys). { apply sorted_in. destruct (in_dec string_dec k (dkeys r)) as [|N]; [assumption|]. apply dget_none_notin in N. congruence. }
    apply E in H. apply existsb_exists in H as (c & Hc & Ec). apply String.eqb_eq in Ec as ->. rewrite <- schema_columns. apply in_map. exact Hc. }
  assert (Hsets : forall k, dget k sets = match dget k r with Some v => Some (adapt_value v) | None => None end).
  { intros k. unfold sets. rewrite dget_map_in. destruct (existsb (String.eqb k) keys) eqn:X.
    - apply existsb_exists in X as (y & Hy & Ey). apply String.eqb_eq in Ey as <-. unfold keys in Hy. apply (proj1 (sorted_in _ _)) in Hy.
      destruct (dget k r) eqn:Ed; [reflexivity|]. apply dget_none_notin in Ed. contradiction.
    - destruct (dget k r) as [v|] eqn:Ed; [|reflexivity]. assert (Y : existsb (String.eqb k) keys = true); [|congruence].
      apply existsb_exists. exists k. split; [|apply String.eqb_refl]. apply sorted_in.
      destruct (in_dec string_dec k (dkeys r)) as [|N]; [assumption|]. apply dget_none_notin in N. congruence. }
  set (up := fun l => if is_msg glob iso m l then set_cells schema sets l else l).
  assert (Hcol : forall l k, line_ok l -> mid l = SText m -> col (set_cells schema sets l) k = match dget k r with Some v => adapt_value v | None => col l k end).
  { intros l k (Hl & _) _. destruct (in_dec string_dec k columns) as [Hc|Hc].
    - unfold col. rewrite cell_set; [|exact Hl|exact Hc]. rewrite Hsets. destruct (dget k r); reflexivity.
    - unfold col. rewrite !cell_out by exact Hc. destruct (dget k r) eqn:Ed; [|reflexivity]. apply Hk in Ed. contradiction. }
  assert (Hmid : forall l, In l t -> mid (up l) = mid l).
  { intros l Hl. unfold up. destruct (is_msg glob iso m l) eqn:Em; [|reflexivity].
    apply is_msg_iff in Em; [|apply (i_ok _ _ I l Hl)]. unfold mid at 1. rewrite Hcol by (try apply (i_ok _ _ I l Hl); exact Em).
    destruct (dget "msg_id" r) as [v|] eqn:Ev; [|reflexivity]. rewrite (Hm v eq_refl). symmetry. exact Em. }
  split.
  - intros l' Hl'. apply in_map_iff in Hl' as (l & E' & Hl). change (up l = l') in E'. subst l'. destruct (i_ok _ _ I l Hl) as (A & B & x & C).
    split; [|split; [|exists x; rewrite Hmid by exact Hl; exact C]].
    + unfold up. destruct (is_msg glob iso m l); [apply set_cells_length|]; exact A.
    + intros k. unfold up. destruct (is_msg glob iso m l) eqn:Em; [|apply B]. apply is_msg_iff in Em; [|apply (i_ok _ _ I l Hl)].
      rewrite Hcol by (try apply (i_ok _ _ I l Hl); exact Em). destruct (dget k r) as [v|] eqn:Ev; [|apply B].
      apply conv_adapt; [apply (Hk _ _ Ev)|apply Hs; exact Ev].
  - rewrite map_map. change (NoDup (map (fun x => mid (up x)) t)). replace (map (fun x => mid (up x)) t) with (map mid t); [exact (i_nodup _ _ I)|]. apply map_ext_in. intros l Hl. symmetry. apply Hmid, Hl.
  - intros l' x Hl' Ex. apply in_map_iff in Hl' as (l & E' & Hl). change (up l = l') in E'. subst l'.  rewrite Hmid in Ex by exact Hl.
    destruct (i_some _ _ I l x Hl Ex) as (f & L & A). unfold up. destruct (is_msg glob iso m l) eqn:Em.
    + pose proof Em as Em'. apply is_msg_iff in Em'; [|apply (i_ok _ _ I l Hl)]. rewrite Ex in Em'. injection Em' as ->.
      exists (changed f r). split; [constructor; exact L|]. intros k Hc. rewrite Hcol by (try apply (i_ok _ _ I l Hl); exact Ex).
      unfold changed. destruct (dget k r) as [v|] eqn:Ev; [|apply A; exact Hc]. destruct (conv_adapt k v Hc (Hs k v Ev)) as (P & Q & R). split; [exact P|exact R].
    + exists f. split; [|exact A]. apply l_update_other; [|exact L]. intros ->. apply (is_msg_iff m l) in Ex; [congruence|apply (i_ok _ _ I l Hl)].
  - intros x Hx. assert (Hx' : forall l, In l t -> mid l <> SText x).
    { intros l Hl. rewrite <- (Hmid l Hl). apply Hx. apply in_map_iff. exists l. split; [reflexivity|exact Hl]. }
    apply (i_none _ _ I) in Hx'. destruct (string_dec x m) as [->|N]; [apply l_update_none|apply l_update_other]; assumption.
Qed.

Lemma filter_nodup {A B} (f : A -> B) p l : NoDup (map f l) -> NoDup (map f (filter p l)).
Proof.
  induction l as [|x l IH]; [auto|]. cbn [map filter]. intros N. inversion N as [|? ? N1 N2]; subst. destruct (p x); [|auto]. cbn [map]. constructor; [|auto].
  intros H. apply N1. apply in_map_iff in H as (y & E & Hy). apply filter_In in Hy as [Hy _]. apply in_map_iff. exists y. auto.
Qed.
Lemma Inv_drop m t h : Inv t h -> Inv (drop_record glob iso m t) (SDrop m :: h).
Proof.
  intros I. unfold drop_record. split.
  - intros l Hl. apply filter_In in Hl as [Hl _]. apply (i_ok _ _ I l Hl).
  - apply filter_nodup, (i_nodup _ _ I).
  - intros l x Hl Ex. apply filter_In in Hl as [Hl Hm]. destruct (i_some _ _ I l x Hl Ex) as (f & L & A). exists f. split; [|exact A].
    constructor; [|exact L]. intros ->. apply (is_msg_iff m l) in Ex; [|apply (i_ok _ _ I l Hl)]. rewrite Ex in Hm. discriminate.
  - intros x Hx. destruct (string_dec x m) as [->|N]; [constructor|]. constructor; [exact N|]. apply (i_none _ _ I). intros l Hl Ex.
    apply (Hx l); [|exact Ex]. apply filter_In. split; [exact Hl|]. apply negb_true_iff. destruct (is_msg glob iso m l) eqn:Em; [|reflexivity].
    apply is_msg_iff in Em; [congruence|apply (i_ok _ _ I l Hl)].
Qed.

(** * Deleting by a query *)
Context (Hiso : forall a b, (local a < local b)%Z -> String.compare (iso a) (iso b) = Lt).
Lemma delete_selects q t h : Inv t h -> good_call off (SDropMatching q) ->
  exists p, (forall l, In l t -> p l = false <-> sql_matches glob q (col l)) /\ drop_matching_records glob iso q t = Some (filter p t).
Proof.
  intros I [Hs Hf]. unfold drop_matching_records.
  assert (F1 : forall l, (forall k, fits off k (col l k)) -> exists out, find_records glob iso [col l] q = Done out /\ selects (sql_matches glob q) [col l] out).
  { intros l Hl. apply (find_ok glob iso Hiso off); [exact Hs|exact Hf|]. intros rw k [<-|[]]. apply Hl. }
  destruct (find_ok glob iso Hiso off [] q Hs Hf) as (out0 & F0 & _); [intros rw k []|].
  unfold find_records in F0, F1. destruct (render_expression iso q) as [[ts args]|]; [|discriminate].
  destruct (where_ glob (fun _ => None) ts args) as [b0|]; [|discriminate].
  exists (fun l => match where_ glob (stored iso (col l)) ts args with Some b => negb b | None => false end). split.
  - intros l Hl. destruct (F1 l) as (out & F & S); [apply (i_ok _ _ I l Hl)|]. cbn [select] in F.
    destruct (where_ glob (stored iso (col l)) ts args) as [[]|]; [| |discriminate]; injection F as <-.
    + inversion S as [|x l0 l' Hx S'|x l0 l' Hx S']; subst; [split; auto|inversion S'].
    + inversion S; subst; split; [discriminate|contradiction].
  - clear F0. assert (Hok : forall l, In l t -> forall k, fits off k (col l k)) by (intros l Hl; apply (i_ok _ _ I l Hl)). clear I.
    induction t as [|l t IH]; [reflexivity|]. cbn [delete filter]. rewrite IH by (intros; apply Hok; right; assumption).
    destruct (F1 l) as (out & F & _); [apply Hok; left; reflexivity|]. cbn [select] in F.
    destruct (where_ glob (stored iso (col l)) ts args) as [[]|]; [reflexivity|reflexivity|discriminate].
Qed.

Lemma matches_ext q (r r' : row) : (forall k c, In (k, c) q -> In k columns) -> (forall k, In k columns -> r k = r' k) -> sql_matches glob q r -> sql_matches glob q r'.
Proof.
  intros Hq E. assert (Er : abs_row r = abs_row r').
  { unfold abs_row. apply map_ext_in. intros k Hk. rewrite E by exact Hk. reflexivity. }
  intros [A B]. split; [rewrite <- Er; exact A|]. intros k c Hin H. apply (B k c Hin). rewrite E by (eapply Hq; eassumption). exact H.
Qed.
Lemma Inv_drop_matching q t t' h : Inv t h -> good_call off (SDropMatching q) -> drop_matching_records glob iso q t = Some t' -> Inv t' (SDropMatching q :: h).
Proof.
  intros I G. destruct (delete_selects q t h I G) as (p & Hp & ->). intros H; injection H as <-. destruct G as [(_ & Hq & _) _].
  assert (X : forall l f, In l t -> agree l f -> p l = false <-> satisfies glob q f).
  { intros l f Hl A. rewrite (Hp l Hl). unfold satisfies. split; intros M; (eapply matches_ext; [exact Hq| |exact M]); intros k Hk; [symmetry|]; apply A; exact Hk. }
  split.
  - intros l Hl. apply filter_In in Hl as [Hl _]. apply (i_ok _ _ I l Hl).
  - apply filter_nodup, (i_nodup _ _ I).
  - intros l x Hl Ex. apply filter_In in Hl as [Hl Hm]. destruct (i_some _ _ I l x Hl Ex) as (f & L & A). exists f. split; [|exact A].
    constructor; [exact L|]. intros M. apply (X l f Hl A) in M. congruence.
  - intros x Hx. destruct (find (is_msg glob iso x) t) as [l|] eqn:Ef.
    + destruct (find_some _ _ _ _ I Ef) as [Hl Ex]. destruct (i_some _ _ I l x Hl Ex) as (f & L & A). apply l_match with f; [exact L|].
      destruct (p l) eqn:Epl. { destruct (Hx l); [apply filter_In; split; assumption|exact Ex]. }
      apply (X l f Hl A). exact Epl.
    + apply l_match_none, (i_none _ _ I). exact (find_none _ _ _ I Ef).
Qed.

Lemma Inv_perform o t t' h : Inv t h -> good_call off o -> perform glob iso o t = Some t' -> Inv t' (o :: h).
Proof.
  destruct o; cbn [perform]; intros I G H.
  - eapply Inv_add; eassumption.
  - eapply Inv_update; eassumption.
  - injection H as <-. apply Inv_drop, I.
  - eapply Inv_drop_matching; eassumption.
Qed.
Lemma Inv_run evs : Forall (good off) evs -> forall s safe cur s' log, Inv (on_disk s) safe -> Inv (current s) cur -> run glob iso evs s = (s', log) ->
  Inv (current s') (kept_from safe cur log).
Proof.
  induction 1 as [|e evs G _ IH]; intros s safe cur s' log I1 I2 H; cbn [run] in H.
  - injection H as <- <-. exact I2.
  - destruct (happen glob iso e s) as [s1|] eqn:E; [|eapply IH; eassumption].
    destruct (run glob iso evs s1) as [s2 l] eqn:R. injection H as <- <-.
    destruct e; cbn [happen] in E.
    + destruct (perform glob iso o (current s)) as [t|] eqn:P; [|discriminate]. injection E as <-. cbn [kept_from].
      eapply (IH _ safe (o :: cur)); [| |exact R]; [exact I1|]. exact (Inv_perform o _ _ _ I2 G P).
    + injection E as <-. cbn [kept_from]. eapply IH; [| |exact R]; exact I2.
    + injection E as <-. cbn [kept_from]. eapply IH; [| |exact R]; exact I2.
    + injection E as <-. cbn [kept_from]. eapply IH; [| |exact R]; exact I1.
Qed.
Lemma Inv_reached evs s log : Forall (good off) evs -> run glob iso evs start = (s, log) -> Inv (current s) (kept log).
Proof. intros G H. eapply Inv_run; [exact G| | |exact H]; exact Inv_start. Qed.

Lemma get_spec t h m : Inv t h ->
  (forall d, get_record glob iso m t = Ok d -> exists f, latest glob h m (Some f) /\ forall k, dget k d = if existsb (String.eqb k) columns then Some (f k) else None) /\
  (get_record glob iso m t = Raise KeyError <-> latest glob h m None) /\ (forall f, latest glob h m (Some f) -> exists d, get_record glob iso m t = Ok d).
Proof.
  intros I. unfold get_record. destruct (find (is_msg glob iso m) t) as [l|] eqn:F.
  - destruct (find_some _ _ _ _ I F) as [Hl Em]. destruct (i_some _ _ I l m Hl Em) as (f & L & A). split; [|split].
    + intros d H. assert (E : d = list_to_dict (fetch iso schema l) keys_) by congruence. clear H. subst d. exists f. split; [exact L|]. intros k. rewrite record_of_line by apply (i_ok _ _ I l Hl).
      destruct (existsb (String.eqb k) columns) eqn:X; [|reflexivity]. apply existsb_exists in X as (y & Hy & E). apply String.eqb_eq in E as <-.
      f_equal. apply A, Hy.
    + split; [discriminate|]. intros L'. pose proof (latest_fun _ _ _ _ L L'). discriminate.
    + intros f' _. eexists. reflexivity.
  - pose proof (i_none _ _ I m (find_none _ _ _ I F)) as L. split; [discriminate|]. split; [tauto|]. intros f L'. pose proof (latest_fun _ _ _ _ L L'). discriminate.
Qed.

(** Which calls raise *)
Lemma add_raises t h m r : Inv t h -> NoDup (dkeys r) -> add_record m r t = None <-> exists f, latest glob h m (Some f).
Proof.
  intros I Hn. unfold add_record. set (d := dset "msg_id" (PText m) (dupdate (defaults keys_) r)).
  destruct (dict_to_list_total keys_ d) as [vs E].
  { intros k Hk. destruct (in_dec string_dec k (dkeys d)) as [|N]; [assumption|]. apply dget_none_notin in N. exfalso. revert N. unfold d.
    rewrite DictDB_Proofs.dget_dset. destruct (String.eqb k "msg_id"); [discriminate|]. rewrite DictDB_Proofs.dget_dupdate by exact Hn.
    destruct (dget k r); [discriminate|]. unfold defaults. rewrite (dget_map_in (fun _ => PNone)).
    replace (existsb _ keys_) with true; [discriminate|]. symmetry. apply existsb_exists. exists k. split; [exact Hk|apply String.eqb_refl]. }
  rewrite E. assert (Hm : col (map adapt_value vs) "msg_id" = SText m).
  { unfold col. rewrite (cell_line schema d vs); [|exact E|left; reflexivity]. unfold d. rewrite DictDB_Proofs.dget_dset. reflexivity. }
  rewrite Hm. destruct (existsb _ t) eqn:X.
  - split; [intros _|reflexivity]. apply existsb_exists in X as (l & Hl & El). change (col l "msg_id") with (mid l) in El.
    destruct (i_ok _ _ I l Hl) as (_ & _ & x & Ex). rewrite Ex in El. apply String.eqb_eq in El as ->.
    destruct (i_some _ _ I l m Hl Ex) as (f & L & _). exists f. exact L.
  - split; [discriminate|]. intros [f L]. assert (N : latest glob h m None); [|pose proof (latest_fun _ _ _ _ L N); discriminate].
    apply (i_none _ _ I). intros l Hl El. assert (Y : existsb (fun l0 => match mid l0 with SText a => String.eqb a m | _ => false end) t = true).
    { apply existsb_exists. exists l. split; [exact Hl|]. rewrite El. apply String.eqb_refl. }
    unfold mid in Y. congruence.
Qed.
Lemma update_raises t m r : update_record glob iso m r t = None <-> r = [] \/ exists k, In k (dkeys r) /\ ~ In k columns.
Proof.
  unfold update_record. destruct (Nat.eqb (List.length (sorted (dkeys r))) 0) eqn:E0; cbn [orb].
  - split; [intros _|reflexivity]. left. apply Nat.eqb_eq, sorted_nil in E0. destruct r; [reflexivity|discriminate].
  - destruct (forallb _ _) eqn:E; cbn [negb].
    + split; [discriminate|]. intros [->|(k & Hk & N)]; [discriminate|]. rewrite forallb_forall in E. specialize (E k (proj2 (sorted_in k _) Hk)).
      apply existsb_exists in E as (c & Hc & Ec). apply String.eqb_eq in Ec as ->. destruct N. rewrite <- schema_columns. apply in_map. exact Hc.
    + split; [intros _|reflexivity]. right. assert (X : exists k, In k (sorted (dkeys r)) /\ existsb (fun c => String.eqb k (fst c)) schema = false).
      { clear E0. induction (sorted (dkeys r)) as [|x l IH]; [discriminate|]. cbn [forallb] in E. apply andb_false_iff in E as [E|E].
        - exists x. split; [left; reflexivity|exact E].
        - destruct (IH E) as (k & Hk & Ek). exists k. split; [right; exact Hk|exact Ek]. }
      destruct X as (k & Hk & Ek). exists k. split; [apply sorted_in; exact Hk|]. intros Hc. rewrite <- schema_columns in Hc. apply in_map_iff in Hc as (c & <- & Hc).
      assert (Y : existsb (fun c' => String.eqb (fst c) (fst c')) schema = true); [|congruence]. apply existsb_exists. exists c. split; [exact Hc|apply String.eqb_refl].
Qed.

(** History *)
Lemma insert_perm x l : Permutation (insert_line iso x l) (x :: l).
Proof.
  induction l as [|y l IH]; [reflexivity|]. cbn [insert_line]. destruct (sql_le _ _); [reflexivity|]. rewrite IH. apply perm_swap.
Qed.
Lemma order_perm t : Permutation (fold_right (insert_line iso) [] t) t.
Proof. induction t as [|x t IH]; [reflexivity|]. cbn [fold_right]. rewrite insert_perm, IH. reflexivity. Qed.
Definition le_line (a b : line) : Prop := sql_le (adapt iso (col a "submitted")) (adapt iso (col b "submitted")) = true.
Lemma sql_le_total a b : sql_le a b = true \/ sql_le b a = true.
Proof. destruct a as [x|], b as [y|]; cbn; auto. rewrite (String.compare_antisym y x). destruct (String.compare x y); cbn; auto. Qed.
Lemma insert_sorted x l : Sorted le_line l -> Sorted le_line (insert_line iso x l).
Proof.
  induction 1 as [|y l S IH H]; [repeat constructor|]. cbn [insert_line]. destruct (sql_le _ _) eqn:E; [constructor; [constructor; assumption|constructor; exact E]|].
  constructor; [exact IH|]. assert (Hy : le_line y x). { unfold le_line. destruct (sql_le_total (adapt iso (col x "submitted")) (adapt iso (col y "submitted"))); congruence. }
  destruct l as [|z l]; cbn [insert_line]; [constructor; exact Hy|]. destruct (sql_le (adapt iso (col x "submitted")) (adapt iso (col z "submitted"))); constructor; [exact Hy|]. inversion H; assumption.
Qed.
Lemma order_sorted t : Sorted le_line (fold_right (insert_line iso) [] t).
Proof. induction t as [|x t IH]; [constructor|]. cbn [fold_right]. apply insert_sorted, IH. Qed.
End proofs.
