From stdpp Require Import base gmap strings list.
From Verif Require Import Ns_Spec Ns_Model Ns_Proofs Ns_Proofs2 Ns_Proofs3.
From Verif Require Map_Model Prelude Map_Spec Map_Proofs.
From Coq Require Import Lia ZArith Ascii.

(** * Names of the sequences *)
Fixpoint parse (acc : nat) (s : string) : nat := match s with EmptyString => acc | String a s => parse (acc * 10 + (nat_of_ascii a - 48)) s end.
Lemma parse_app s t : forall acc, parse acc (s ++ t) = parse (parse acc s) t.
Proof. induction s as [|a s IH]; intros acc; [reflexivity|]. cbn [String.append parse]. apply IH. Qed.
Lemma parse_decimal fuel : forall n, n < fuel -> parse 0 (decimal fuel n) = n.
Proof.
  induction fuel as [|fuel IH]; intros n L; [lia|]. cbn [decimal]. rewrite parse_app. cbn [parse].
  assert (D : nat_of_ascii (ascii_of_nat (48 + n mod 10)) = 48 + n mod 10) by (apply nat_ascii_embedding; pose proof (Nat.mod_upper_bound n 10); lia).
  rewrite D. replace (48 + n mod 10 - 48) with (n mod 10) by lia. destruct (Nat.ltb_spec n 10) as [H|H].
  - cbn [parse]. rewrite Nat.mod_small by exact H. lia.
  - rewrite IH; [|apply Nat.lt_le_trans with n; [apply Nat.div_lt; lia|lia]]. pose proof (Nat.div_mod n 10). lia.
Qed.
Lemma seq_name_inj key i j : seq_name key i = seq_name key j -> i = j.
Proof.
  unfold seq_name. intros H. apply (inj (String.append "_seq_")), (inj (String.append key)), (inj (String.append "_")) in H.
  rewrite <- (parse_decimal (S i) i), <- (parse_decimal (S j) j) by lia. rewrite H. reflexivity.
Qed.
Lemma all_chars_app p s t : all_chars p (s ++ t) = all_chars p s && all_chars p t.
Proof. induction s as [|a s IH]; [reflexivity|]. change (p a && all_chars p (s ++ t) = p a && all_chars p s && all_chars p t). rewrite IH, andb_assoc. reflexivity. Qed.
Lemma decimal_digits fuel : forall n, all_chars digit (decimal fuel n) = true.
Proof.
  induction fuel as [|fuel IH]; intros n; [reflexivity|]. cbn [decimal]. rewrite all_chars_app. cbn [all_chars]. rewrite andb_true_r. apply andb_true_intro. split; [destruct (n <? 10); [reflexivity|apply IH]|].
  unfold digit. rewrite nat_ascii_embedding by (pose proof (Nat.mod_upper_bound n 10); lia). pose proof (Nat.mod_upper_bound n 10). apply andb_true_intro. split; apply Nat.leb_le; lia.
Qed.
Lemma all_chars_impl p q s : (forall a, p a = true -> q a = true) -> all_chars p s = true -> all_chars q s = true.
Proof. intros H. induction s as [|a s IH]; [reflexivity|]. cbn [all_chars]. intros X. apply andb_prop in X as [X Y]. rewrite (H _ X), IH by exact Y. reflexivity. Qed.
(** no keyword begins with an underscore *)
Lemma no_keyword s : String "_"%char s ∉ keywords.
Proof.
  intros H. assert (X : forallb (fun k => match k with String "_"%char _ => false | _ => true end) keywords = true) by reflexivity.
  rewrite forallb_forall in X. apply elem_of_list_In in H. specialize (X _ H). discriminate.
Qed.
Lemma seq_name_identifier key i : all_chars (fun a => letter a || digit a) key = true -> identifier (seq_name key i) = true.
Proof.
  intros K. set (P := fun a => letter a || digit a) in *. set (r := ("seq_" ++ key ++ "_" ++ decimal (S i) i)%string). change (seq_name key i) with (String "_"%char r).
  change (letter "_"%char && all_chars P r && negb (bool_decide (String "_"%char r ∈ keywords)) = true). rewrite bool_decide_false by apply no_keyword.
  assert (R : all_chars P r = true); [|rewrite R; reflexivity]. unfold r. rewrite !all_chars_app, K, (all_chars_impl digit P (decimal (S i) i)); [reflexivity| |apply decimal_digits].
  intros a D. unfold P. rewrite D. apply orb_true_r.
Qed.
Lemma seq_name_not_tmp key i : ~ is_tmp (seq_name key i).
Proof. intros [k H]. unfold seq_name, tmp_name in H. cbn [String.append] in H. discriminate. Qed.

(** * flatten *)
Lemma concat_singles {A} (parts : list (list A)) : Forall (fun p => length p = 1) parts -> parts = map (fun x => [x]) (concat parts).
Proof. induction 1 as [|p parts H _ IH]; [reflexivity|]. destruct p as [|x [|]]; try discriminate. cbn. f_equal. exact IH. Qed.
Lemma parts_singles {A} d (l : list A) q parts : 0 < q -> length l = q -> Map_Model.scatter_parts d l q = Prelude.Ok parts -> parts = map (fun x => [x]) l.
Proof.
  intros Q L H. destruct d.
  - destruct (Map_Proofs.block_scatter_gather l q Q) as (parts' & A1 & A2 & A3 & _). rewrite H in A1. injection A1 as <-. rewrite <- A3. apply concat_singles. apply Forall_lookup. intros i p P.
    apply (parts_at _ _ _ _ _ _ H) in P. apply Map_Proofs.block_size in P. rewrite P, Nat2Z.id, L, Nat.div_same, Nat.mod_same by lia. reflexivity.
  - destruct (Map_Proofs.rr_scatter_gather l q Q) as (parts' & A1 & A2 & A3 & _). rewrite H in A1. injection A1 as <-. apply Map_Proofs.nth_error_ext. intros i. rewrite nth_error_map.
    destruct (nth_error parts i) as [p|] eqn:P.
    + specialize (A3 _ _ P). assert (Li : i < q) by (rewrite <- A2; apply nth_error_Some; congruence). destruct (nth_error l i) as [x|] eqn:X; [|apply nth_error_None in X; lia]. cbn. f_equal.
      apply Map_Proofs.nth_error_ext. intros k. rewrite A3. unfold Map_Spec.dealt_position. destruct k as [|k]; [rewrite Nat.add_0_r; exact X|]. cbn [nth_error].
      replace (nth_error (@nil A) k) with (@None A) by (destruct k; reflexivity). apply nth_error_None. nia.
    + apply nth_error_None in P. replace (nth_error l i) with (@None A); [reflexivity|]. symmetry. apply nth_error_None. lia.
Qed.
Section Engine.
Context (builtins : namespace) (fn : nat -> list val -> val + nat) (code : nat -> namespace -> namespace * reply).
Notation exec := (exec builtins fn code).
Notation run := (run builtins fn code).
Notation leaves := (leaves exec).
Notation seen_by := (seen_by builtins fn code).

Definition plain (v : val) : Prop := match v with VSeq KList _ | VSeq KTuple _ => False | _ => True end.
Lemma flatten_ok h d key k l c ts A B C ev out x : length l = length ts -> ts <> [] -> NoDup ts -> identifier key = true -> ~ is_tmp key -> head l = Some x -> plain x ->
  scatter d true key (VSeq k l) c ts = Some ev -> sends h = A ++ ev ++ B ++ gather key c ts ++ C ->
  (forall e c' r, Send e c' r ∈ B -> e ∈ ts -> leaves r key) -> (forall e c' r, Send e c' r ∈ A ++ C -> e ∈ ts -> c' <> c -> leaves r key) ->
  gathered d (run h) (seq (length (A ++ ev ++ B)) (length ts)) = Some out -> out = inl (VSeq KList l).
Proof.
  intros L Nt N I T Hx Px Ev H HB HAC G. assert (Q : 0 < length ts) by (destruct ts; [contradiction|cbn; lia]). destruct (scatter_eq d true key k l c ts Q) as (parts & P1 & P2 & P3 & P4).
  assert (M : map (fun p => flattened true (VSeq k p)) parts = l).
  { rewrite (parts_singles d l _ parts Q L P1), map_map. cbn. apply map_id. }
  rewrite M, Ev in P4. injection P4 as ->. rewrite (pushed_gathered builtins fn code h c key ts l A B C d out H N); auto. unfold join. destruct l as [|y l]; [discriminate|]. injection Hx as ->.
  destruct x as [|n|[| |] its]; cbn in Px; try contradiction; reflexivity.
Qed.
End Engine.
