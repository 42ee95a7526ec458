(** Proofs for C57. *)
From Coq Require Import List String Ascii Bool Arith Lia.
From Verif Require Import Out_Spec Out_Model.
Import ListNotations.

(** ** Lines *)
Lemma app_cons_inv : forall (c : ascii) a b x y, a ++ c :: b = x ++ c :: y ->
  (exists d, x = a ++ c :: d /\ b = d ++ c :: y) \/ (a = x /\ b = y) \/ (exists d, a = x ++ c :: d /\ y = d ++ c :: b).
Proof.
  intros c. induction a as [|h a IH]; intros b x y E; destruct x as [|k x]; cbn [app] in E.
  - injection E as ->. auto.
  - injection E as <- ->. left. exists x. auto.
  - injection E as -> <-. right. right. exists a. auto.
  - injection E as -> E. destruct (IH b x y E) as [[d [-> ->]]|[[-> ->]|[d [-> ->]]]]; [left; exists d | right; left | right; right; exists d]; split; reflexivity.
Qed.
Lemma line_unique : forall l v w, line_shows l v -> line_shows l w -> v = w.
Proof.
  intros l v w [Nv [->|[Ev [a Ea]]]] [Nw [->|[Ew [b Eb]]]].
  - reflexivity.
  - exfalso. apply Ew. exact (Nv _ _ Eb).
  - exfalso. apply Ev. exact (Nw _ _ Ea).
  - rewrite Ea in Eb. apply app_cons_inv in Eb. destruct Eb as [[d [_ E]]|[[_ E]|[d [_ E]]]].
    + exfalso. apply Ew. exact (Nv _ _ E).
    + exact E.
    + exfalso. apply Ev. exact (Nw _ _ E).
Qed.
Lemma app_LF : forall (l l' t t' : text), ~ In LF l -> ~ In LF l' -> l ++ LF :: t = l' ++ LF :: t' -> l = l' /\ t = t'.
Proof.
  intros l l' t t' H H' E. apply app_cons_inv in E. destruct E as [[d [-> _]]|[E|[d [-> _]]]]; [|exact E|].
  - exfalso. apply H'. apply in_elt.
  - exfalso. apply H. apply in_elt.
Qed.
Lemma text_unique : forall t v, text_shows t v -> forall w, text_shows t w -> v = w.
Proof.
  intros t v H. induction H as [l v Hl Hv|l v t w Hl Hv Ht IH]; intros x Hx; inversion Hx as [l' v' Hl' Hv'|l' v' t' w' Hl' Hv' Ht' E]; subst.
  - apply (line_unique l); assumption.
  - exfalso. apply Hl. apply in_elt.
  - exfalso. apply Hl'. apply in_elt.
  - apply app_LF in E; try assumption. destruct E as [-> ->]. rewrite (line_unique l v v') by assumption. rewrite (IH w') by assumption. reflexivity.
Qed.
Lemma line_shows_LF : forall l v, line_shows l v -> ~ In LF l -> ~ In LF v.
Proof. intros l v [_ [->|[_ [a ->]]]] H C; apply H; [exact C | apply in_or_app; right; right; exact C]. Qed.
Lemma line_again : forall v, no_inner_cr v -> line_shows v v.
Proof. intros v H. split; auto. Qed.
(** what is cut off an unfinished line does not matter for the rest of it *)
Lemma line_app : forall l v y w, line_shows l v -> (line_shows (l ++ y) w <-> line_shows (v ++ y) w).
Proof.
  intros l v y w [Nv [->|[Ev [a ->]]]]; [reflexivity|].
  assert (Ey : v ++ y <> []) by (destruct v; [congruence | discriminate]).
  split; intros [Nw H]; split; try exact Nw.
  - rewrite <- app_assoc in H. cbn [app] in H. destruct H as [E|[Ew [b E]]].
    + exfalso. apply Ey. subst w. exact (Nw a (v ++ y) eq_refl).
    + apply app_cons_inv in E. destruct E as [[d [_ E]]|[[_ E]|[d [_ E]]]].
      * right. split; [exact Ew|]. exists d. exact E.
      * left. symmetry. exact E.
      * exfalso. apply Ey. exact (Nw _ _ E).
  - rewrite <- app_assoc. cbn [app]. right. destruct H as [->|[Ew [b E]]].
    + split; [exact Ey|]. exists a. reflexivity.
    + split; [exact Ew|]. exists (a ++ CR :: b). rewrite <- app_assoc. cbn [app]. rewrite E. reflexivity.
Qed.
Lemma split_line : forall y : text, (~ In LF y) \/ exists a b, y = a ++ LF :: b /\ ~ In LF a.
Proof.
  induction y as [|c y IH]; [left; auto|]. destruct (Ascii.eqb_spec c LF) as [->|N].
  - right. exists [], y. auto.
  - destruct IH as [H|[a [b [-> H]]]].
    + left. intros [E|E]; [congruence | exact (H E)].
    + right. exists (c :: a), b. split; [reflexivity|]. intros [E|E]; [congruence | exact (H E)].
Qed.
Lemma text_app : forall x v y w, text_shows x v -> (text_shows (x ++ y) w <-> text_shows (v ++ y) w).
Proof.
  intros x v y w H. revert w. induction H as [l v Hl Hv|l v t w0 Hl Hv Ht IH]; intros w.
  - pose proof (line_shows_LF _ _ Hv Hl) as Lv. destruct (split_line y) as [Hy|(a & b & -> & Ha)].
    + assert (A : ~ In LF (l ++ y)) by (rewrite in_app_iff; tauto). assert (B : ~ In LF (v ++ y)) by (rewrite in_app_iff; tauto).
      split; intros H; inversion H as [l' v' Hl' Hv' E E'|l' v' t' w' Hl' Hv' Ht' E]; subst.
      * apply Last; [exact B|]. apply (line_app l v y w Hv). exact Hv'.
      * exfalso. apply A. rewrite <- E. apply in_elt.
      * apply Last; [exact A|]. apply (line_app l v y w Hv). exact Hv'.
      * exfalso. apply B. rewrite <- E. apply in_elt.
    + assert (A : ~ In LF (l ++ a)) by (rewrite in_app_iff; tauto). assert (B : ~ In LF (v ++ a)) by (rewrite in_app_iff; tauto).
      rewrite !app_assoc. split; intros H; inversion H as [l' v' Hl' Hv' E E'|l' v' t' w' Hl' Hv' Ht' E]; subst.
      * exfalso. apply Hl'. apply in_elt.
      * apply app_LF in E; try assumption. destruct E as [-> ->]. apply More; [exact B| |exact Ht']. apply (line_app l v a v' Hv). exact Hv'.
      * exfalso. apply Hl'. apply in_elt.
      * apply app_LF in E; try assumption. destruct E as [-> ->]. apply More; [exact A| |exact Ht']. apply (line_app l v a v' Hv). exact Hv'.
  - pose proof (line_shows_LF _ _ Hv Hl) as Lv. pose proof (line_again v (proj1 Hv)) as Hvv.
    rewrite <- !app_assoc. cbn [app]. split; intros H; inversion H as [l' v' Hl' Hv' E E'|l' v' t' w' Hl' Hv' Ht' E]; subst.
    + exfalso. apply Hl'. apply in_elt.
    + apply app_LF in E; try assumption. destruct E as [-> ->]. rewrite (line_unique l v' v) by assumption. apply More; auto. apply IH. exact Ht'.
    + exfalso. apply Hl'. apply in_elt.
    + apply app_LF in E; try assumption. destruct E as [-> ->]. rewrite (line_unique v v' v) by assumption. apply More; auto. apply IH. exact Ht'.
Qed.

(** ** The regular expression *)
Lemma cr_match_some : forall s r, cr_match s = Some r ->
  exists a d r', s = a ++ CR :: r /\ ~ In LF a /\ r = d :: r' /\ d <> LF /\ cr_match r = None.
Proof.
  induction s as [|c s IH]; intros r H; [discriminate|]. cbn [cr_match] in H.
  destruct (Ascii.eqb_spec c LF) as [->|N]; [discriminate|].
  destruct (cr_match s) as [x|] eqn:E.
  - injection H as ->. destruct (IH r eq_refl) as (a & d & r' & -> & Ha & Hr). exists (c :: a), d, r'. split; [reflexivity|]. split; [|exact Hr].
    intros [C|C]; [congruence | exact (Ha C)].
  - destruct (Ascii.eqb_spec c CR) as [->|]; [|discriminate]. destruct s as [|d s]; [discriminate|].
    destruct (Ascii.eqb_spec d LF); [discriminate|]. injection H as <-. exists [], d, s. repeat split; auto.
Qed.
Lemma cr_match_none : forall a l t, ~ In LF l -> (t = [] \/ exists b, t = LF :: b) -> cr_match (l ++ t) = None -> l = a ++ CR :: nil \/ True -> no_inner_cr l.
Proof.
  intros _ l t Hl Ht H _ a b ->. revert Hl H. induction a as [|c a IH]; intros Hl H.
  - cbn [app cr_match] in H. change (Ascii.eqb CR LF) with false in H. change (Ascii.eqb CR CR) with true in H. cbn [orb] in H.
    destruct b as [|d b]; [reflexivity|]. cbn [app] in H. destruct (cr_match (d :: b ++ t)); [discriminate|].
    destruct (Ascii.eqb_spec d LF) as [->|]; [|discriminate]. exfalso. apply Hl. right. left. reflexivity.
  - cbn [app cr_match] in H. destruct (Ascii.eqb_spec c LF) as [->|]; [exfalso; apply Hl; left; reflexivity|].
    destruct (cr_match ((a ++ CR :: b) ++ t)) eqn:E; [discriminate|]. apply IH; [intros C; apply Hl; right; exact C | reflexivity].
Qed.
Lemma cr_match_tail : forall c s, c <> LF -> cr_match (c :: s) = None -> cr_match s = None.
Proof. intros c s N H. cbn [cr_match] in H. apply Ascii.eqb_neq in N. rewrite N in H. destruct (cr_match s); [discriminate | reflexivity]. Qed.
(** without a match in its first line, the line is kept *)
Lemma sub_line : forall l t n, ~ In LF l -> cr_match (l ++ t) = None -> (t = [] \/ exists b, t = LF :: b) ->
  List.length (l ++ t) < n -> sub_from n (l ++ t) = l ++ sub_from (n - List.length l) t.
Proof.
  induction l as [|c l IH]; intros t n Hl H Ht Hn.
  - cbn [app List.length]. rewrite Nat.sub_0_r. reflexivity.
  - destruct n as [|n]; [lia|]. cbn [app]. cbn [sub_from]. cbn [app] in H. rewrite H. cbn [List.length]. rewrite Nat.sub_succ. f_equal.
    apply IH; auto.
    + intros C. apply Hl. right. exact C.
    + apply (cr_match_tail c); [intros ->; apply Hl; left; reflexivity | exact H].
    + cbn [app List.length] in Hn. lia.
Qed.
Lemma sub_shows : forall n s, List.length s < n -> text_shows s (sub_from n s).
Proof.
  induction n as [n IHn] using lt_wf_ind. intros s Hn.
  assert (Key : forall s n', n' <= n -> List.length s < n' -> cr_match s = None -> text_shows s (sub_from n' s)).
  { intros x n' Hle Hx Hc. destruct (split_line x) as [Hl|(a & b & -> & Ha)].
    - rewrite <- (app_nil_r x) in Hc, Hx |- *. rewrite sub_line by auto. 
      assert (Z : sub_from (n' - List.length x) [] = []) by (destruct (n' - List.length x); reflexivity). rewrite Z, !app_nil_r in *.
      apply Last; [exact Hl|]. apply line_again. apply (cr_match_none [] x []); auto. rewrite app_nil_r. exact Hc.
    - rewrite sub_line by eauto. rewrite app_length in Hx. cbn [List.length] in Hx.
      destruct (n' - List.length a) as [|k] eqn:Ek; [lia|]. cbn [sub_from].
      assert (Z : cr_match (LF :: b) = None) by reflexivity. rewrite Z.
      apply More; [exact Ha | apply line_again; apply (cr_match_none [] a (LF :: b)); eauto |]. apply IHn; lia. }
  destruct n as [|n]; [lia|]. destruct s as [|c s].
  { cbn [sub_from]. apply Last; [auto|]. apply line_again. intros a b E. destruct a; discriminate. }
  destruct (cr_match (c :: s)) as [r|] eqn:E; [|apply Key; auto].
  replace (sub_from (S n) (c :: s)) with (sub_from n r) by (cbn [sub_from]; rewrite E; reflexivity).
  destruct (cr_match_some _ _ E) as (a & d & r' & Es & Ha & Er & Hd & Hr). rewrite Es.
  assert (Hlen : List.length r < n). { rewrite Es in Hn. rewrite app_length in Hn. cbn [List.length] in Hn. lia. }
  pose proof (Key r n (Nat.le_succ_diag_r n) Hlen Hr) as Kr.
  (* the first line of r is what shows of the first line *)
  destruct (split_line r) as [Hl|(x & b & Ex & Hx)].
  - assert (Hv' : line_shows r (sub_from n r)).
    { clear -Kr Hl. remember (sub_from n r) as w. clear Heqw. destruct Kr as [l v H1 H2|l v t w H1 H2 H3]; [exact H2|]. exfalso. apply Hl. apply in_elt. }
    assert (Nr : no_inner_cr r). { apply (cr_match_none [] r []); auto. rewrite app_nil_r. exact Hr. }
    rewrite <- (line_unique r r _ (line_again r Nr) Hv').
    apply Last; [rewrite in_app_iff; intros [C|[C|C]]; [exact (Ha C) | discriminate C | exact (Hl C)]|].
    split; [exact Nr|]. right. split; [rewrite Er; discriminate | eauto].
  - assert (Nx : no_inner_cr x). { apply (cr_match_none [] x (LF :: b)); eauto. rewrite <- Ex. exact Hr. }
    assert (Inv : exists v' w', sub_from n r = v' ++ LF :: w' /\ line_shows x v' /\ text_shows b w').
    { clear -Kr Ex Hx. remember (sub_from n r) as w. clear Heqw. destruct Kr as [l v H1 H2|l v t w H1 H2 H3].
      - exfalso. apply H1. rewrite Ex. apply in_elt.
      - apply app_LF in Ex; try assumption. destruct Ex as [-> ->]. eauto. }
    destruct Inv as (v' & w' & E2 & Hv' & Ht'). rewrite E2.
    rewrite <- (line_unique x x v' (line_again x Nx) Hv'). rewrite Ex.
    replace (a ++ CR :: x ++ LF :: b) with ((a ++ CR :: x) ++ LF :: b) by (rewrite <- app_assoc; reflexivity).
    apply More; [rewrite in_app_iff; intros [C|[C|C]]; [exact (Ha C) | discriminate C | exact (Hx C)] | | exact Ht'].
    split; [exact Nx|]. right. split; [|eauto].
    intros ->. cbn [app] in Ex. congruence.
Qed.
Lemma cr_sub_shows : forall s, text_shows s (cr_sub s).
Proof. intros s. apply sub_shows. lia. Qed.
Lemma text_again : forall t v, text_shows t v -> text_shows v v.
Proof.
  intros t v H. pose proof (text_app t v [] v H) as A. rewrite !app_nil_r in A. apply A, H.
Qed.

(** ** Pieces *)
Lemma existsb_CR : forall t, existsb (Ascii.eqb CR) t = true <-> In CR t.
Proof.
  intros t. rewrite existsb_exists. split; [intros [x [H E]]; apply Ascii.eqb_eq in E; subst; exact H | intros H; exists CR; split; [exact H | apply Ascii.eqb_refl]].
Qed.
Lemma captures_nil : captures [] [].
Proof. repeat split; auto. contradiction. Qed.
Lemma captures_snoc : forall ps s t, captures ps s -> captures (ps ++ [t]) (new_text s t).
Proof.
  intros ps s t (C1 & C2 & C3). unfold new_text.
  assert (Cc : List.concat (ps ++ [t]) = List.concat ps ++ t) by (rewrite concat_app; cbn [List.concat]; rewrite app_nil_r; reflexivity).
  assert (A : forall v, text_shows (List.concat ps ++ t) v <-> text_shows (s ++ t) v).
  { intros v. pose proof (cr_sub_shows (List.concat ps)) as H. rewrite (text_app _ _ t v H). apply C1 in H. rewrite (text_app _ _ t v H). reflexivity. }
  rewrite <- Cc in A. destruct (existsb (Ascii.eqb CR) t) eqn:E.
  - apply existsb_CR in E. split; [|split].
    + intros v. rewrite A. split; intros H.
      * rewrite (text_unique _ _ H _ (cr_sub_shows (s ++ t))). apply (text_again _ _ (cr_sub_shows (s ++ t))).
      * rewrite (text_unique _ _ H _ (text_again _ _ (cr_sub_shows (s ++ t)))). apply cr_sub_shows.
    + intros N. exfalso. apply N. rewrite Cc, in_app_iff. auto.
    + intros _. apply A, cr_sub_shows.
  - split; [|split].
    + exact A.
    + rewrite Cc, in_app_iff. intros N. rewrite C2 by tauto. reflexivity.
    + rewrite last_last. intros H. apply existsb_CR in H. congruence.
Qed.

(** ** One metadata object *)
Definition holds (os : list output) (x : md) : Prop :=
  captures (pieces false os) (stdout x) /\ captures (pieces true os) (stderr x) /\
  error x = last_of an_error os /\ execute_input x = last_of an_input os /\ execute_result x = last_of a_result os /\
  outputs x = displays os /\ forall k, dget k (data x) = datum k os.
Lemma holds_nil : holds [] new_md.
Proof. repeat split; auto; contradiction. Qed.
Lemma dget_dset : forall k v j d, dget j (dset k v d) = if String.eqb k j then Some v else dget j d.
Proof.
  intros k v j d. induction d as [|[k' v'] d IH]; cbn [dset dget]; [reflexivity|].
  destruct (String.eqb_spec k' k) as [->|N]; cbn [dget].
  - destruct (String.eqb k j); reflexivity.
  - rewrite IH. destruct (String.eqb_spec k' j) as [->|]; [|reflexivity]. apply not_eq_sym, String.eqb_neq in N. rewrite N. reflexivity.
Qed.
Lemma pieces_app : forall e a b, pieces e (a ++ b) = pieces e a ++ pieces e b.
Proof. intros. unfold pieces. apply flat_map_app. Qed.
Lemma last_of_snoc : forall f os o, last_of f (os ++ [o]) = match f o with Some c => Some c | None => last_of f os end.
Proof. intros. unfold last_of. rewrite fold_left_app. reflexivity. Qed.
Lemma holds_snoc : forall os o x, holds os x -> holds (os ++ [o]) (capture o x).
Proof.
  intros os o x (H1 & H2 & H3 & H4 & H5 & H6 & H7). unfold holds.
  rewrite !pieces_app, !last_of_snoc. unfold displays. rewrite flat_map_app. fold (displays os).
  assert (D : forall k, datum k (os ++ [o]) = match o with Data d => fold_left (fun acc p => if String.eqb (fst p) k then Some (snd p) else acc) d (datum k os) | _ => datum k os end).
  { intros k. unfold datum. rewrite fold_left_app. destruct o; reflexivity. }
  destruct o as [e t|c|c|c|c|d| | |];
    try (cbn [pieces flat_map app capture stdout stderr error execute_input execute_result outputs data an_error an_input a_result]; rewrite !app_nil_r;
         repeat split; try assumption; try congruence; try (intros; rewrite D; apply H7); try (apply H1); try (apply H2); fail).
  - destruct e; cbn [pieces flat_map app Bool.eqb capture stdout stderr error execute_input execute_result outputs data an_error an_input a_result]; rewrite !app_nil_r;
      (split; [|split]; [first [apply captures_snoc; assumption | assumption] .. | repeat split; try assumption; intros k; rewrite D; apply H7]).
  - cbn [pieces flat_map app Bool.eqb capture stdout stderr error execute_input execute_result outputs data an_error an_input a_result]; rewrite !app_nil_r.
    do 3 (split; [assumption|]). do 3 (split; [assumption|]). intros k. rewrite D. rewrite <- H7. clear -d. generalize (data x). induction d as [|[a b] d IH]; intros l; [reflexivity|].
    cbn [fold_left fst snd]. rewrite IH, dget_dset. reflexivity.
Qed.

(** ** Dictionaries and the heap *)
Lemma look_pop : forall A k j (d : list (string * A)), look j (pop k d) = if String.eqb k j then None else look j d.
Proof.
  intros A k j d. unfold pop. induction d as [|[a v] d IH]; cbn [filter look fst].
  - destruct (String.eqb k j); reflexivity.
  - destruct (String.eqb_spec a k) as [->|N]; cbn [negb look].
    + rewrite IH. destruct (String.eqb k j); reflexivity.
    + rewrite IH. destruct (String.eqb_spec a j) as [->|]; [|reflexivity]. apply not_eq_sym, String.eqb_neq in N. rewrite N. reflexivity.
Qed.
Lemma look_put : forall A k j v (d : list (string * A)), look j (put k v d) = if String.eqb k j then Some v else look j d.
Proof. intros. unfold put. cbn [look]. rewrite look_pop. destruct (String.eqb k j); reflexivity. Qed.
Lemma look_resolve : forall m n fs, look n (resolve m fs) = if String.eqb m n then match look n fs with Some _ => Some true | None => None end else look n fs.
Proof.
  intros m n fs. unfold resolve. destruct (String.eqb_spec m n) as [->|N].
  - destruct (look n fs) as [[|]|] eqn:E; try exact E. rewrite look_put, String.eqb_refl. reflexivity.
  - destruct (look m fs) as [[|]|]; try reflexivity. rewrite look_put. apply String.eqb_neq in N. rewrite N. reflexivity.
Qed.
Lemma nth_modify : forall f l i j, nth_error (modify i f l) j = if Nat.eqb i j then option_map f (nth_error l j) else nth_error l j.
Proof.
  intros f. induction l as [|x l IH]; intros i j.
  - destruct i, j; cbn; try reflexivity; destruct (Nat.eqb i j); reflexivity.
  - destruct i, j; cbn [modify nth_error Nat.eqb]; try reflexivity. apply IH.
Qed.
Lemma length_modify : forall f l i, List.length (modify i f l) = List.length l.
Proof. intros f. induction l as [|x l IH]; intros [|i]; cbn [modify List.length]; auto. Qed.
Lemma modify_id : forall l i, modify i (fun x => x) l = l.
Proof. induction l as [|x l IH]; intros [|i]; cbn [modify]; try reflexivity. rewrite IH. reflexivity. Qed.

(** ** The client *)
Definition sent (h : history) (m : string) : bool := existsb (fun e => match e with Send n => String.eqb n m | _ => false end) h.
(** [hn]: the history that counts for the requests not heard of *)
Record Inv2 (h hn : history) (c : client) : Prop := {
  i_sent : forall m, sent h m = true -> exists i x, look m (handles c) = Some i /\ nth_error (heap c) i = Some x /\ holds (seen h m) x /\
             if forgotten h m then look m (futures c) = None /\ look m (output_futures c) = None
             else look m (metadata c) = Some i /\ look m (futures c) = Some (replied h m) /\ look m (output_futures c) = Some (over h m);
  i_unsent : forall m, sent h m = false -> look m (handles c) = None /\ look m (futures c) = None /\ look m (output_futures c) = None;
  i_new : forall m, existsb (about m) hn = false -> look m (metadata c) = None;
  i_refs : forall m i, look m (metadata c) = Some i -> i < List.length (heap c);
  i_alias : forall m n i, look m (handles c) = Some i -> look n (metadata c) = Some i -> n = m /\ forgotten h m = false }.
Notation Inv h c := (Inv2 h h c).

Lemma Inv_init : Inv [] init.
Proof. constructor; cbn; intros; try discriminate; auto. Qed.
Lemma not_about : forall h m, existsb (about m) h = false -> sent h m = false /\ seen h m = [] /\ forgotten h m = false /\ replied h m = false /\ over h m = false.
Proof.
  induction h as [|e h IH]; intros m H; [repeat split|]. cbn [existsb] in H. apply orb_false_iff in H. destruct H as [He H].
  destruct (IH m H) as (A & B & C & D & E). unfold sent, replied, over in *. cbn [existsb seen]. rewrite A, B, C, D, E.
  destruct e as [n|[|] n o|n s|n]; cbn [about output_of ends forgotten] in *; rewrite ?He; cbn [andb orb]; repeat split; auto.
  - destruct o; rewrite ?He; reflexivity.
  - destruct s as [|[|]|]; rewrite ?He; reflexivity.
Qed.
(** the client after [self.metadata[m]] *)
Lemma get_md_spec : forall h c m, Inv h c -> let '(c', i) := get_md m c in
  handles c' = handles c /\ futures c' = futures c /\ output_futures c' = output_futures c /\
  look m (metadata c') = Some i /\ (forall n, n <> m -> look n (metadata c') = look n (metadata c)) /\
  (exists l, heap c' = heap c ++ l) /\ i < List.length (heap c') /\
  (look m (metadata c) = Some i /\ heap c' = heap c \/ look m (metadata c) = None /\ i = List.length (heap c) /\ heap c' = heap c ++ [new_md]).
Proof.
  intros h c m I. unfold get_md. destruct (look m (metadata c)) as [i|] eqn:E.
  - repeat split; auto; [exists []; rewrite app_nil_r; reflexivity | apply (i_refs _ _ _ I m), E].
  - cbn [handles futures output_futures metadata heap]. repeat split; auto.
    + rewrite look_put, String.eqb_refl. reflexivity.
    + intros n N. rewrite look_put. apply not_eq_sym, String.eqb_neq in N. rewrite N. reflexivity.
    + eauto.
    + rewrite app_length. cbn [List.length]. lia.
Qed.
Lemma handle_bound : forall h hn c m i, Inv2 h hn c -> look m (handles c) = Some i -> i < List.length (heap c).
Proof.
  intros h hn c m i I H. destruct (sent h m) eqn:S; [|destruct (i_unsent _ _ _ I m S); congruence].
  destruct (i_sent _ _ _ I m S) as (j & x & H1 & H2 & _). replace i with j by congruence. apply nth_error_Some. congruence.
Qed.

Lemma Inv_send : forall h c m, Inv h c -> existsb (about m) h = false -> Inv (Send m :: h) (step c (Send m)).
Proof.
  intros h c m I H. destruct (not_about h m H) as (N1 & N2 & N3 & N4 & N5). pose proof (i_new _ _ _ I m H) as N6.
  cbn [step]. unfold send, get_md. cbn [metadata heap futures output_futures handles]. rewrite N6.
  cbn [metadata heap futures output_futures handles].
  assert (Fg : forall n, forgotten (Send m :: h) n = forgotten h n) by reflexivity.
  assert (Se : forall n, seen (Send m :: h) n = seen h n) by (intros n; cbn [seen output_of]; rewrite app_nil_r; destruct (forgotten h n); reflexivity).
  constructor; cbn [metadata heap futures output_futures handles]; intros n; rewrite ?look_put.
  - intros Sn. rewrite Fg, Se. change (replied (Send m :: h) n) with (replied h n). change (over (Send m :: h) n) with (over h n).
    destruct (String.eqb_spec m n) as [<-|N].
    + exists (List.length (heap c)), new_md. split; [reflexivity|]. rewrite nth_error_app2, Nat.sub_diag by lia. rewrite N2, N3, N4, N5.
      repeat split; auto; try (intros; contradiction); apply holds_nil.
    + unfold sent in Sn. cbn [existsb] in Sn. apply String.eqb_neq in N. rewrite N in Sn. cbn [orb] in Sn. fold (sent h n) in Sn.
      destruct (i_sent _ _ _ I n Sn) as (i & x & A1 & A2 & A3 & A4). exists i, x. split; [exact A1|]. split; [|split; [exact A3 | exact A4]].
      rewrite nth_error_app1; [exact A2|]. apply nth_error_Some. congruence.
  - intros Sn. unfold sent in Sn. cbn [existsb] in Sn. apply orb_false_iff in Sn. destruct Sn as [Sm Sn]. rewrite Sm. apply (i_unsent _ _ _ I), Sn.
  - intros An. cbn [existsb about] in An. apply orb_false_iff in An. destruct An as [Am An]. rewrite Am. apply (i_new _ _ _ I), An.
  - intros i. rewrite app_length. cbn [List.length]. destruct (String.eqb m n); intros E; [injection E as <-; lia|].
    apply (i_refs _ _ _ I) in E. lia.
  - intros k i. rewrite look_put, Fg. destruct (String.eqb_spec m n) as [<-|N].
    + intros E. injection E as <-. destruct (String.eqb_spec m k) as [<-|]; [auto|]. intros E. apply (i_refs _ _ _ I) in E. lia.
    + intros E. destruct (String.eqb_spec m k) as [<-|]; [|apply (i_alias _ _ _ I); exact E].
      intros E'. injection E' as <-. eapply handle_bound in E; [lia | exact I].
Qed.

(** an object made for a request that the client does not know, or knows no more *)
Lemma Inv_get_md : forall h hn c m, Inv h c -> existsb (about m) hn = true -> (forall n, existsb (about n) hn = false -> existsb (about n) h = false) ->
  Inv2 h hn (fst (get_md m c)).
Proof.
  intros h hn c m I A Am.
  unfold get_md. destruct (look m (metadata c)) as [i|] eqn:E; cbn [fst].
  { destruct I as [I1 I2 I3 I4 I5]. constructor; auto. }
  constructor; cbn [metadata heap futures output_futures handles].
  - intros n Sn. destruct (i_sent _ _ _ I n Sn) as (i & x & A1 & A2 & A3 & A4). exists i, x. split; [exact A1|].
    split; [rewrite nth_error_app1; [exact A2 | apply nth_error_Some; congruence]|]. split; [exact A3|].
    destruct (forgotten h n); [exact A4|]. destruct A4 as [A4 A5]. split; [|exact A5]. rewrite look_put.
    destruct (String.eqb_spec m n) as [<-|]; [congruence | exact A4].
  - apply (i_unsent _ _ _ I).
  - intros n An. rewrite look_put. destruct (String.eqb_spec m n) as [<-|]; [congruence | apply (i_new _ _ _ I), Am, An].
  - intros n i. rewrite look_put, app_length. cbn [List.length]. destruct (String.eqb m n); intros Ei; [injection Ei as <-; lia|]. apply (i_refs _ _ _ I) in Ei. lia.
  - intros k n i Hk. rewrite look_put. destruct (String.eqb_spec m n) as [<-|]; [|apply (i_alias _ _ _ I); exact Hk].
    intros Ei. injection Ei as <-. eapply handle_bound in Hk; [lia | exact I].
Qed.
Lemma get_md_look : forall m c, look m (metadata (fst (get_md m c))) = Some (snd (get_md m c)).
Proof.
  intros m c. unfold get_md. destruct (look m (metadata c)) as [i|] eqn:E; cbn [fst snd metadata]; [exact E|].
  rewrite look_put, String.eqb_refl. reflexivity.
Qed.

(** an event that only concerns the futures of [m] *)
Lemma Inv_futures : forall h e c m fs os, Inv2 h (e :: h) c ->
  (forall n, sent (e :: h) n = sent h n) -> (forall n, seen (e :: h) n = seen h n) -> (forall n, forgotten (e :: h) n = forgotten h n) ->
  (forall n, look n fs = match look n (futures c) with Some b => Some (b || (String.eqb m n && match e with Reply _ _ => true | _ => false end)) | None => None end) ->
  (forall n, look n os = match look n (output_futures c) with Some b => Some (b || ends n e) | None => None end) ->
  (match e with Reply n _ => n = m | _ => True end) ->
  Inv (e :: h) (Client (heap c) (metadata c) fs os (handles c)).
Proof.
  intros h e c m fs os I S1 S2 S3 Hf Ho He. constructor; cbn [metadata heap futures output_futures handles].
  - intros n Sn. rewrite S1 in Sn. destruct (i_sent _ _ _ I n Sn) as (i & x & A1 & A2 & A3 & A4). exists i, x. rewrite S2, S3, Hf, Ho.
    split; [exact A1|]. split; [exact A2|]. split; [exact A3|]. destruct (forgotten h n).
    + destruct A4 as [-> ->]. auto.
    + destruct A4 as (B1 & -> & ->). split; [exact B1|]. unfold replied, over. cbn [existsb]. split; [|rewrite orb_comm; reflexivity].
      f_equal. rewrite orb_comm. f_equal. destruct e; try apply andb_false_r. subst. apply andb_true_r.
  - intros n Sn. rewrite S1 in Sn. destruct (i_unsent _ _ _ I n Sn) as (A1 & A2 & A3). rewrite Hf, Ho, A2, A3. auto.
  - apply (i_new _ _ _ I).
  - apply (i_refs _ _ _ I).
  - intros k n i. rewrite S3. apply (i_alias _ _ _ I).
Qed.
Lemma Inv_reply : forall h c m s, Inv h c -> Inv (Reply m s :: h) (step c (Reply m s)).
Proof.
  intros h c m s I. cbn [step]. unfold handle_reply.
  pose proof (Inv_get_md h (Reply m s :: h) c m I) as G. destruct (get_md m c) as [c' i]. cbn [fst] in G.
  apply (Inv_futures h (Reply m s) c' m).
  - apply G; [cbn [existsb about]; rewrite String.eqb_refl; reflexivity|]. intros n An. cbn [existsb] in An. apply orb_false_iff in An. tauto.
  - reflexivity.
  - intros n. cbn [seen output_of]. rewrite app_nil_r. destruct (forgotten h n); reflexivity.
  - reflexivity.
  - intros n. rewrite look_resolve, andb_true_r. destruct (String.eqb m n), (look n (futures c')) as [[|]|]; reflexivity.
  - intros n. destruct s as [|[|]|]; cbn [ends]; rewrite ?look_resolve; destruct (String.eqb m n), (look n (output_futures c')) as [[|]|]; reflexivity.
  - reflexivity.
Qed.
Lemma Inv_forget : forall h c m, Inv h c -> Inv (Forget m :: h) (step c (Forget m)).
Proof.
  intros h c m I. cbn [step]. unfold cleanup.
  assert (Se : forall n, seen (Forget m :: h) n = seen h n) by (intros n; cbn [seen output_of]; rewrite app_nil_r; destruct (forgotten h n); reflexivity).
  assert (Same : (sent h m = true -> forgotten h m = false -> over h m && replied h m = false) -> Inv (Forget m :: h) c).
  { intros Hm. constructor.
    - intros n Sn. destruct (i_sent _ _ _ I n Sn) as (i & x & A1 & A2 & A3 & A4). exists i, x. rewrite Se. split; [exact A1|]. split; [exact A2|]. split; [exact A3|].
      change (replied (Forget m :: h) n) with (replied h n). change (over (Forget m :: h) n) with (over h n).
      cbn [forgotten]. destruct (String.eqb_spec m n) as [<-|]; cbn [andb orb]; [|exact A4].
      destruct (forgotten h m) eqn:Fm; [rewrite orb_true_r; exact A4|]. rewrite (Hm Sn eq_refl). exact A4.
    - apply (i_unsent _ _ _ I).
    - intros n An. cbn [existsb] in An. apply orb_false_iff in An. apply (i_new _ _ _ I), An.
    - apply (i_refs _ _ _ I).
    - intros k n i Hk Hn. destruct (i_alias _ _ _ I k n i Hk Hn) as [-> F]. split; [reflexivity|]. cbn [forgotten]. rewrite F, orb_false_r.
      destruct (String.eqb_spec m k) as [<-|]; [|reflexivity]. cbn [andb]. destruct (sent h m) eqn:Sm; [apply Hm; auto|].
      destruct (i_unsent _ _ _ I m Sm). congruence. }
  destruct (sent h m) eqn:Sm.
  2:{ destruct (i_unsent _ _ _ I m Sm) as (_ & -> & _). apply Same. discriminate. }
  destruct (i_sent _ _ _ I m Sm) as (i & x & A1 & A2 & A3 & A4). destruct (forgotten h m) eqn:Fm.
  { destruct A4 as [-> _]. apply Same. discriminate. }
  destruct A4 as (B1 & B2 & B3). rewrite B2, B3. destruct (replied h m) eqn:R; [|apply Same; intros _ _; apply andb_false_r].
  destruct (over h m) eqn:O; [|apply Same; reflexivity].
  constructor; cbn [metadata heap futures output_futures handles].
  - intros n Sn. destruct (i_sent _ _ _ I n Sn) as (j & y & C1 & C2 & C3 & C4). exists j, y. rewrite Se. split; [exact C1|]. split; [exact C2|]. split; [exact C3|].
    change (replied (Forget m :: h) n) with (replied h n). change (over (Forget m :: h) n) with (over h n).
    cbn [forgotten]. rewrite !look_pop. destruct (String.eqb_spec m n) as [<-|]; cbn [andb orb]; [|exact C4].
    rewrite O, R. cbn [andb orb]. auto.
  - intros n Sn. destruct (i_unsent _ _ _ I n Sn) as (C1 & C2 & C3). rewrite !look_pop, C2, C3. destruct (String.eqb m n); auto.
  - intros n An. cbn [existsb] in An. apply orb_false_iff in An. rewrite look_pop. destruct (String.eqb m n); [reflexivity|]. apply (i_new _ _ _ I), An.
  - intros n j. rewrite look_pop. destruct (String.eqb m n); [discriminate|]. apply (i_refs _ _ _ I).
  - intros k n j Hk. rewrite look_pop. destruct (String.eqb_spec m n) as [|N]; [discriminate|]. intros Hn.
    destruct (i_alias _ _ _ I k n j Hk Hn) as [-> F]. split; [reflexivity|]. cbn [forgotten]. rewrite F. apply String.eqb_neq in N. rewrite N. reflexivity.
Qed.
Lemma Inv_pub : forall h c mine m o, Inv h c -> Inv (Pub mine m o :: h) (step c (Pub mine m o)).
Proof.
  intros h c mine m o I. cbn [step]. unfold dispatch_iopub. destruct mine; cbn [negb].
  2:{ (* another session *)
    replace c with (Client (heap c) (metadata c) (futures c) (output_futures c) (handles c)) by (destruct c; reflexivity).
    apply (Inv_futures h (Pub false m o) c m); auto; try reflexivity.
    - destruct I as [I1 I2 I3 I4 I5]. constructor; auto.
    - intros n. cbn [seen output_of]. rewrite app_nil_r. destruct (forgotten h n); reflexivity.
    - intros n. rewrite andb_false_r. destruct (look n (futures c)) as [[|]|]; reflexivity.
    - intros n. cbn [ends]. destruct (look n (output_futures c)) as [[|]|]; reflexivity. }
  assert (Quiet : match o with Idle | Busy => True | _ => False end -> look m (metadata c) = None -> Inv (Pub true m o :: h) c).
  { intros Ho Hm. replace c with (Client (heap c) (metadata c) (futures c) (output_futures c) (handles c)) by (destruct c; reflexivity).
    apply (Inv_futures h (Pub true m o) c m); auto; try reflexivity.
    - destruct I as [I1 I2 I3 I4 I5]. constructor; auto. intros n An. cbn [existsb] in An. apply orb_false_iff in An. apply I3, An.
    - intros n. cbn [seen output_of]. replace (is_output o) with false by (destruct o; contradiction || reflexivity). rewrite andb_false_r, app_nil_r. destruct (forgotten h n); reflexivity.
    - intros n. rewrite andb_false_r. destruct (look n (futures c)) as [[|]|]; reflexivity.
    - intros n. cbn [ends]. destruct o; try contradiction; [|destruct (look n (output_futures c)) as [[|]|]; reflexivity].
      destruct (String.eqb_spec m n) as [<-|]; [|destruct (look n (output_futures c)) as [[|]|]; reflexivity].
      destruct (sent h m) eqn:Sm; [|destruct (i_unsent _ _ _ I m Sm) as (_ & _ & ->); reflexivity].
      destruct (i_sent _ _ _ I m Sm) as (i & x & A1 & A2 & A3 & A4). destruct (forgotten h m); [destruct A4 as [_ ->]; reflexivity|]. destruct A4 as (B & _). congruence. }
  pose proof (Inv_get_md h (Pub true m o :: h) c m I) as G. pose proof (get_md_look m c) as L.
  assert (G' : Inv2 h (Pub true m o :: h) (fst (get_md m c))).
  { apply G; [cbn [existsb about]; rewrite String.eqb_refl; reflexivity|]. intros n An. cbn [existsb] in An. apply orb_false_iff in An. tauto. }
  clear G. 
  assert (Loud : match o with Idle => False | _ => True end -> let '(c', i) := get_md m c in
     Inv (Pub true m o :: h) (Client (modify i (capture o) (heap c')) (metadata c') (futures c') (output_futures c') (handles c'))).
  { intros Ho. destruct (get_md m c) as [c' i]. cbn [fst snd] in *.
    constructor; cbn [metadata heap futures output_futures handles].
    - intros n Sn. destruct (i_sent _ _ _ G' n Sn) as (j & x & A1 & A2 & A3 & A4).
      exists j, (if Nat.eqb i j then capture o x else x). split; [exact A1|]. rewrite nth_modify, A2.
      split; [destruct (Nat.eqb i j); reflexivity|].
      change (forgotten (Pub true m o :: h) n) with (forgotten h n). change (replied (Pub true m o :: h) n) with (replied h n).
      replace (over (Pub true m o :: h) n) with (over h n) by (unfold over; cbn [existsb ends]; destruct o; contradiction || reflexivity).
      split; [|exact A4]. cbn [seen output_of].
      destruct (Nat.eqb_spec i j) as [<-|Nij].
      + destruct (i_alias _ _ _ G' n m i A1 L) as [E F]. subst n. rewrite F, String.eqb_refl. cbn [andb].
        destruct (is_output o) eqn:Io; [apply holds_snoc, A3|]. rewrite app_nil_r. destruct o; try discriminate; exact A3.
      + destruct (forgotten h n) eqn:Fn; [exact A3|]. destruct A4 as (B & _). destruct (String.eqb_spec m n) as [<-|]; [congruence|]. rewrite app_nil_r. exact A3.
    - apply (i_unsent _ _ _ G').
    - apply (i_new _ _ _ G').
    - intros n j. rewrite length_modify. apply (i_refs _ _ _ G').
    - apply (i_alias _ _ _ G'). }
  destruct (get_md m c) as [c' i] eqn:Eg. cbn [fst snd] in *.
  destruct o; try (apply Loud; exact Logic.I).
  - destruct (look m (metadata c)) eqn:Em; [|apply Quiet; auto]. 
    apply (Inv_futures h (Pub true m Idle) c' m); auto; try reflexivity.
    + intros n'. cbn [seen output_of is_output]. rewrite andb_false_r, app_nil_r. destruct (forgotten h n'); reflexivity.
    + intros n'. rewrite andb_false_r. destruct (look n' (futures c')) as [[|]|]; reflexivity.
    + intros n'. cbn [ends]. rewrite look_resolve. destruct (String.eqb m n'), (look n' (output_futures c')) as [[|]|]; reflexivity.
  - destruct (look m (metadata c)) eqn:Em; [|apply Quiet; auto]. apply Loud. exact Logic.I.
Qed.
Theorem Inv_run : forall h, orderly h -> Inv h (run h).
Proof.
  induction h as [|e h IH]; intros H; [apply Inv_init|]. cbn [run]. destruct e; cbn [orderly] in H.
  - apply Inv_send; [apply IH|]; tauto.
  - apply Inv_pub, IH, H.
  - apply Inv_reply, IH, H.
  - apply Inv_forget, IH, H.
Qed.
