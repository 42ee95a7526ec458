(** Lemmas for C80. *)
From Coq Require Import NArith String Ascii List Bool Lia.
From Coq Require DecimalN.
From Verif Require Import Batch_Spec Batch_Model.
Import ListNotations.
Open Scope N_scope.

(* ------------------------------------------------------------ characters *)
Lemma is_in c s : is c s = true <-> In c (lit s).
Proof.
  unfold is. rewrite existsb_exists. split.
  - intros (x & Hx & E). apply N.eqb_eq in E. now subst.
  - intros H. exists c. split; auto. apply N.eqb_refl.
Qed.
Lemma safe_is c s : safe c = true -> forallb (fun d => negb (safe d)) (lit s) = true -> is c s = false.
Proof.
  intros Hc Hs. destruct (is c s) eqn:E; auto. apply is_in in E.
  rewrite forallb_forall in Hs. specialize (Hs _ E). rewrite Hc in Hs. discriminate.
Qed.
Lemma safe_ne c d : safe c = true -> safe d = false -> c =? d = false.
Proof. intros H1 H2. apply N.eqb_neq. intros ->. rewrite H1 in H2. discriminate. Qed.

(* ------------------------------------------------------------ the words of a command line *)
Fixpoint pushes (w : option word) (s : list N) : option word :=
  match s with [] => w | c :: s => pushes (push false c w) s end.
Lemma lex_safe s : forall w ws r, forallb safe s = true -> commands Plain w ws (s ++ r) = commands Plain (pushes w s) ws r.
Proof.
  induction s as [|c s IH]; intros w ws r H; [reflexivity|].
  change (forallb safe (c :: s)) with (safe c && forallb safe s) in H. apply andb_true_iff in H. destruct H as [Hc Hs].
  change (pushes w (c :: s)) with (pushes (push false c w) s). rewrite <- (IH (push false c w) ws r Hs).
  change ((c :: s) ++ r) with (c :: (s ++ r)). cbn [commands].
  rewrite (safe_is c " " Hc eq_refl), (safe_ne c 9 Hc eq_refl), (safe_ne c nl Hc eq_refl), (safe_is c "'" Hc eq_refl), (safe_ne c 34 Hc eq_refl),
    (safe_is c "\" Hc eq_refl), (safe_is c "#" Hc eq_refl), (safe_is c "|&;<>()$`*?[]~{}^!" Hc eq_refl), (safe_ne c 0 Hc eq_refl), (safe_ne c 13 Hc eq_refl).
  reflexivity.
Qed.
Fixpoint asg (before s : list N) : bool :=
  match s with [] => false | c :: s => ((c =? 61) && is_name before) || asg (before ++ [c]) s end.
Lemma pushes_some s : forall t a, pushes (Some (Word t true a)) s = Some (Word (t ++ s) true (a || asg t s)).
Proof.
  induction s as [|c s IH]; intros t a.
  - change (pushes (Some (Word t true a)) []) with (Some (Word t true a)). rewrite app_nil_r. cbn [asg]. now rewrite orb_false_r.
  - change (pushes (Some (Word t true a)) (c :: s)) with (pushes (Some (Word (t ++ [c]) true (a || (true && (c =? 61) && true && is_name t)))) s).
    rewrite IH, <- app_assoc. cbn [asg app]. do 2 f_equal. rewrite orb_assoc. do 2 f_equal. now destruct (c =? 61).
Qed.
Lemma asg_odd s : forall before, asg before s = true -> exists a b, before ++ s = a ++ 61 :: b /\ is_name a = true.
Proof.
  induction s as [|c s IH]; intros before H; [discriminate|].
  cbn [asg] in H. apply orb_true_iff in H. destruct H as [H|H].
  - apply andb_true_iff in H. destruct H as [H1 H2]. apply N.eqb_eq in H1. subst c. exists before, s. auto.
  - destruct (IH _ H) as (a & b & E & Ha). rewrite <- app_assoc in E. exists a, b. auto.
Qed.

Definition body (s : list N) : list N := flat_map (fun c => if is c "'" then [39; 34; 39; 34; 39] else [c]) s.
Lemma lex_body s : forall t a ws r,
  commands Single (Some (Word t false a)) ws (body s ++ 39 :: r) = commands Plain (Some (Word (t ++ s) false a)) ws r.
Proof.
  induction s as [|c s IH]; intros t a ws r.
  - rewrite app_nil_r. reflexivity.
  - change (body (c :: s)) with ((if is c "'" then [39; 34; 39; 34; 39] else [c]) ++ body s).
    destruct (is c "'") eqn:E.
    + apply is_in in E. change (lit "'") with [39] in E. destruct E as [<-|[]].
      change ((([39; 34; 39; 34; 39] ++ body s) ++ 39 :: r)) with (39 :: 34 :: 39 :: 34 :: 39 :: (body s ++ 39 :: r)).
      transitivity (commands Single (Some (Word (t ++ [39]) false (a || false))) ws (body s ++ 39 :: r)); [reflexivity|].
      rewrite IH, orb_false_r, <- app_assoc. reflexivity.
    + change ((([c] ++ body s) ++ 39 :: r)) with (c :: (body s ++ 39 :: r)). cbn [commands]. rewrite E.
      transitivity (commands Single (Some (Word (t ++ [c]) false (a || false))) ws (body s ++ 39 :: r)); [reflexivity|].
      rewrite IH, orb_false_r, <- app_assoc. reflexivity.
Qed.

Definition wof (s : list N) : word :=
  if nonempty s && forallb safe s then Word s true (asg [] s) else Word s false false.
Lemma wof_text s : text (wof s) = s.
Proof. unfold wof. destruct (nonempty s && forallb safe s); reflexivity. Qed.
Lemma lex_quote s ws r : commands Plain None ws (quote s ++ r) = commands Plain (Some (wof s)) ws r.
Proof.
  destruct s as [|c s]; [reflexivity|]. unfold quote, wof. cbn [nonempty andb].
  destruct (forallb safe (c :: s)) eqn:E.
  - rewrite lex_safe by exact E.
    change (pushes None (c :: s)) with (pushes (Some (Word [c] true (false || (true && (c =? 61) && true && is_name [])))) s).
    rewrite pushes_some. cbn [app asg]. do 3 f_equal. cbn [is_name]. rewrite !andb_false_r. reflexivity.
  - fold (body (c :: s)). rewrite <- !app_assoc. change (lit "'" ++ body (c :: s) ++ lit "'" ++ r) with (39 :: (body (c :: s) ++ 39 :: r)).
    transitivity (commands Single (Some (Word [] false false)) ws (body (c :: s) ++ 39 :: r)); [reflexivity|].
    rewrite lex_body. reflexivity.
Qed.

Lemma lex_space w ws r : commands Plain w ws (32 :: r) = commands Plain None (end_word w ws) r.
Proof. reflexivity. Qed.
Lemma lex_join cmd : forall ws r, cmd <> [] ->
  commands Plain None ws (shlex_join cmd ++ r) = commands Plain (Some (wof (last cmd []))) (ws ++ map wof (removelast cmd)) r.
Proof.
  induction cmd as [|a cmd IH]; intros ws r Hn; [congruence|].
  destruct cmd as [|b cmd].
  - unfold shlex_join. cbn [map join last removelast]. rewrite lex_quote, app_nil_r. reflexivity.
  - change (shlex_join (a :: b :: cmd)) with (quote a ++ lit " " ++ shlex_join (b :: cmd)).
    rewrite <- !app_assoc, lex_quote. change (lit " " ++ shlex_join (b :: cmd) ++ r) with (32 :: (shlex_join (b :: cmd) ++ r)).
    rewrite lex_space. change (end_word (Some (wof a)) ws) with (ws ++ [wof a]). rewrite IH by discriminate.
    change (last (a :: b :: cmd) []) with (last (b :: cmd) []). change (removelast (a :: b :: cmd)) with (a :: removelast (b :: cmd)).
    cbn [map]. now rewrite <- app_assoc.
Qed.
Lemma words_of cmd ws : cmd <> [] -> end_word (Some (wof (last cmd []))) (ws ++ map wof (removelast cmd)) = ws ++ map wof cmd.
Proof.
  intros Hn. change (end_word (Some (wof (last cmd []))) (ws ++ map wof (removelast cmd))) with ((ws ++ map wof (removelast cmd)) ++ [wof (last cmd [])]).
  rewrite <- app_assoc. f_equal. rewrite (app_removelast_last [] Hn) at 3. now rewrite map_app.
Qed.
Lemma map_wof cmd : map text (map wof cmd) = cmd.
Proof. rewrite map_map. rewrite <- (map_id cmd) at 2. apply map_ext. apply wof_text. Qed.

Lemma not_odd p : ~ odd_name p -> assignment (wof p) || (plain (wof p) && existsb (eqs (text (wof p))) reserved) = false.
Proof.
  intros H. unfold wof. destruct (nonempty p && forallb safe p); [|reflexivity]. cbn [assignment plain text].
  apply orb_false_iff. split.
  - destruct (asg [] p) eqn:E; auto. apply asg_odd in E. exfalso. apply H. right. exact E.
  - cbn [andb]. destruct (existsb (eqs p) reserved) eqn:E; auto. apply existsb_exists in E. destruct E as (x & Hx & E).
    unfold eqs in E. destruct (list_eq_dec N.eq_dec p x); [|discriminate]. subst x. exfalso. apply H. left. exact Hx.
Qed.
Lemma simple_words p args : ~ odd_name p -> simple (map wof (p :: args)) = Some [p :: args].
Proof.
  intros H. cbn [map simple]. rewrite (not_odd p H). do 2 f_equal. apply (map_wof (p :: args)).
Qed.
(* ------------------------------------------------------------ lines *)
Lemma join_cons x ls : ls <> [] -> join [nl] (x :: ls) = x ++ nl :: join [nl] ls.
Proof. destruct ls; [congruence|reflexivity]. Qed.
Lemma lex_comment l : forall s, one_line l -> commands Comment None [] (l ++ nl :: s) = commands Plain None [] s.
Proof.
  induction l as [|c l IH]; intros s H.
  - cbn [app commands]. change (nl =? nl) with true. cbn [end_word simple then_run].
    destruct (commands Plain None [] s); reflexivity.
  - cbn [app commands]. destruct (c =? nl) eqn:E.
    + apply N.eqb_eq in E. subst. exfalso. apply H. now left.
    + apply IH. intros HI. apply H. now right.
Qed.
Inductive quiet : list N -> Prop :=
| quiet_blank : quiet []
| quiet_comment l : one_line l -> quiet (35 :: l)
| quiet_indent l : quiet l -> quiet (32 :: l).
Lemma lex_quiet l s : quiet l -> commands Plain None [] (l ++ nl :: s) = commands Plain None [] s.
Proof.
  induction 1.
  - cbn [app commands]. change (is nl " " || (nl =? 9)) with false. change (nl =? nl) with true. cbn [end_word simple then_run].
    destruct (commands Plain None [] s); reflexivity.
  - transitivity (commands Comment None [] (l ++ nl :: s)); [reflexivity|]. now apply lex_comment.
  - change ((32 :: l) ++ nl :: s) with (32 :: (l ++ nl :: s)). rewrite lex_space. exact IHquiet.
Qed.
Lemma lex_header hs : forall ls, Forall quiet hs -> ls <> [] -> runs (join [nl] (hs ++ ls)) = runs (join [nl] ls).
Proof.
  induction hs as [|h hs IH]; intros ls H Hn; [reflexivity|]. inversion_clear H as [|? ? Hh Hr].
  cbn [app]. rewrite join_cons by (destruct hs; [exact Hn|discriminate]).
  unfold runs at 1. rewrite lex_quiet by exact Hh. now apply IH.
Qed.

(* ------------------------------------------------------------ templates *)
Definition expand (l : launcher) (n : N) (line : list piece) : list N :=
  concat (map (fun p => match p with T s => lit s | F f => value l n f end) line).
Lemma format_expand l n t : format l n t = join [nl] (map (expand l n) t).
Proof. reflexivity. Qed.
Definition tidy_line (p : piece) : bool :=
  match p with T s => negb (existsb (N.eqb nl) (lit s)) | F ProgramAndArgs => false | F _ => true end.
Fixpoint hash (s : list N) : bool := match s with [] => false | c :: s => if c =? 32 then hash s else c =? 35 end.
Definition tidy (line : list piece) : bool :=
  match line with [] => true | T s :: _ => hash (lit s) && forallb tidy_line line | _ => false end.

Definition settings_one_line (l : launcher) : Prop :=
  one_line (queue l) /\ one_line (output_file l) /\ one_line (cluster_id l) /\ one_line (account l) /\ one_line (qos l) /\ one_line (timelimit l).
Lemma chars_digits d : Forall (fun c => digit c = true) (chars d).
Proof. induction d; cbn [chars]; constructor; auto. Qed.
Lemma decimal_one_line n : one_line (decimal n).
Proof. intros H. pose proof (chars_digits (N.to_uint n)) as D. rewrite Forall_forall in D. specialize (D _ H). discriminate. Qed.
Lemma one_line_app a b : one_line a -> one_line b -> one_line (a ++ b).
Proof. unfold one_line. rewrite in_app_iff. tauto. Qed.
Lemma one_line_expand l n line : settings_one_line l -> forallb tidy_line line = true -> one_line (expand l n line).
Proof.
  intros (H1 & H2 & H3 & H4 & H5 & H6). induction line as [|p line IH]; intros H; [intros []|].
  cbn [forallb] in H. apply andb_true_iff in H. destruct H as [Hp Hl].
  change (expand l n (p :: line)) with ((match p with T s => lit s | F f => value l n f end) ++ expand l n line).
  apply one_line_app; [|auto].
  destruct p as [s|[]]; cbn [value]; auto using decimal_one_line; [|discriminate].
  cbn [tidy_line] in Hp. intros HI. apply negb_true_iff in Hp.
  assert (E : existsb (N.eqb nl) (lit s) = true) by (apply existsb_exists; exists nl; split; [exact HI|apply N.eqb_refl]).
  rewrite E in Hp. discriminate.
Qed.
Lemma quiet_hash s : forall r, hash s = true -> one_line (s ++ r) -> quiet (s ++ r).
Proof.
  induction s as [|c s IH]; intros r H Ho; [discriminate|]. cbn [hash] in H. cbn [app] in *.
  destruct (c =? 32) eqn:E.
  - apply N.eqb_eq in E. subst. constructor. apply IH; auto. intros HI. apply Ho. now right.
  - apply N.eqb_eq in H. subst. constructor. intros HI. apply Ho. now right.
Qed.
Lemma tidy_quiet l n line : settings_one_line l -> tidy line = true -> quiet (expand l n line).
Proof.
  intros Hs. destruct line as [|[s|f] line]; cbn [tidy]; intros H; [constructor| |discriminate].
  apply andb_true_iff in H. destruct H as [H1 H2]. pose proof (one_line_expand l n _ Hs H2) as Ho.
  change (expand l n (T s :: line)) with (lit s ++ expand l n line) in *. now apply quiet_hash.
Qed.

(** The template before the program's line *)
Definition header (s : system) (k : kind) (l : launcher) : template :=
  removelast (removelast (insert_job_array s k (insert_options s l (default_template s k)))).
Definition program_line (s : system) (k : kind) : list piece :=
  match s, k with Slurm, Engines => [T "srun "; F ProgramAndArgs] | LSF, _ => [T "    "; F ProgramAndArgs] | _, _ => [F ProgramAndArgs] end.
Definition last_line (s : system) : list piece := match s with LSF => [T "    "] | _ => [] end.
Lemma template_split s k l :
  insert_job_array s k (insert_options s l (default_template s k)) = header s k l ++ [program_line s k; last_line s] /\ forallb tidy (header s k l) = true.
Proof.
  unfold header, insert_options.
  destruct s, k, (nonempty (queue l)), (nonempty (output_file l)); try (split; reflexivity);
    destruct (nonempty (account l)), (nonempty (qos l)), (nonempty (timelimit l)); split; reflexivity.
Qed.
Lemma header_quiet s k l n : settings_one_line l -> Forall quiet (map (expand l n) (header s k l)).
Proof.
  intros H. destruct (template_split s k l) as [_ Ht]. rewrite Forall_map, Forall_forall. intros x Hx.
  rewrite forallb_forall in Ht. apply tidy_quiet; auto.
Qed.
Lemma script_split s k l n :
  script s k l n = join [nl] (map (expand l n) (header s k l) ++ [expand l n (program_line s k); expand l n (last_line s)]).
Proof.
  unfold script, write_batch_script. cbn [snd]. rewrite format_expand. destruct (template_split s k l) as [-> _]. now rewrite map_app.
Qed.

(** What the script runs *)
Lemma rest_of_line ws w s : (s = [] \/ s = lit "    ") -> commands Plain w ws (nl :: s) = then_run (simple (end_word w ws)) (Some []).
Proof. intros [->| ->]; reflexivity. Qed.
Lemma then_run_nil a : then_run a (Some []) = a.
Proof. destruct a as [a|]; [|reflexivity]. cbn [then_run]. now rewrite app_nil_r. Qed.
Lemma last_line_is l n s : expand l n (last_line s) = [] \/ expand l n (last_line s) = lit "    ".
Proof. destruct s; [left|left|left|right]; reflexivity. Qed.

Lemma script_runs s k l n cmd :
  settings_one_line l -> program l ++ program_args l = cmd -> cmd <> [] ->
  runs (script s k l n) =
    match s, k with Slurm, Engines => Some [lit "srun" :: cmd] | _, _ => simple (map wof cmd) end.
Proof.
  intros Hs Hc Hn. rewrite script_split, lex_header; [|now apply header_quiet|discriminate].
  rewrite join_cons by discriminate. cbn [join].
  assert (P : forall r ws, commands Plain None ws (shlex_join cmd ++ r) = commands Plain (Some (wof (last cmd []))) (ws ++ map wof (removelast cmd)) r).
  { intros. now apply lex_join. }
  assert (F1 : forall ws, commands Plain None ws (shlex_join cmd ++ nl :: expand l n (last_line s)) = simple (ws ++ map wof cmd)).
  { intros ws. rewrite P, rest_of_line by apply last_line_is. now rewrite then_run_nil, words_of. }
  assert (G : forall pre ws, commands Plain None [] (pre ++ shlex_join cmd ++ nl :: expand l n (last_line s)) = commands Plain None ws (shlex_join cmd ++ nl :: expand l n (last_line s)) ->
     expand l n (program_line s k) = pre ++ shlex_join cmd ++ [] ->
     runs (expand l n (program_line s k) ++ nl :: expand l n (last_line s)) = simple (ws ++ map wof cmd)).
  { intros pre ws E1 E2. unfold runs. rewrite E2, app_nil_r, <- app_assoc, E1. apply F1. }
  assert (E : forall pre, concat (map (fun p => match p with T s => lit s | F f => value l n f end) [T pre; F ProgramAndArgs]) = lit pre ++ shlex_join cmd ++ []).
  { intros pre. cbn [map concat value]. now rewrite Hc. }
  assert (E0 : concat (map (fun p => match p with T s => lit s | F f => value l n f end) [F ProgramAndArgs]) = lit "" ++ shlex_join cmd ++ []).
  { cbn [map concat value]. now rewrite Hc. }
  destruct s; [ | |destruct k| ].
  - rewrite (G (lit "") []); [now destruct k|reflexivity|destruct k; exact E0].
  - rewrite (G (lit "") []); [now destruct k|reflexivity|destruct k; exact E0].
  - rewrite (G (lit "") []); [reflexivity|reflexivity|exact E0].
  - rewrite (G (lit "srun ") [Word (lit "srun") true false]); [|reflexivity|exact (E "srun "%string)].
    change ([Word (lit "srun") true false] ++ map wof cmd) with (Word (lit "srun") true false :: map wof cmd).
    cbn [simple assignment plain text]. change (false || (true && existsb (eqs (lit "srun")) reserved)) with false. cbn [map text]. now rewrite map_wof.
  - rewrite (G (lit "    ") []); [now destruct k|reflexivity|destruct k; exact (E "    "%string)].
Qed.

(* ------------------------------------------------------------ directives *)
Lemma lines_cons x s : one_line x -> lines (x ++ nl :: s) = x :: lines s.
Proof.
  induction x as [|c x IH]; intros H; [reflexivity|].
  cbn [app lines]. destruct (c =? nl) eqn:E; [apply N.eqb_eq in E; subst; exfalso; apply H; now left|].
  rewrite IH; [reflexivity|]. intros HI. apply H. now right.
Qed.
Lemma lines_head c s : c <> nl -> exists r ls, lines (c :: s) = (c :: r) :: ls.
Proof.
  intros H. cbn [lines]. apply N.eqb_neq in H. rewrite H. destruct (lines s) as [|x xs]; eauto.
Qed.
Fixpoint take_comments (hs : list (list N)) : list (list N) * bool :=
  match hs with [] => ([], true) | h :: r => if starts_with (lit "#") h then let (a, b) := take_comments r in (h :: a, b) else ([], false) end.
Lemma comments_header hs : forall ls, Forall one_line hs -> ls <> [] ->
  comments (lines (join [nl] (hs ++ ls))) = fst (take_comments hs) ++ (if snd (take_comments hs) then comments (lines (join [nl] ls)) else []).
Proof.
  induction hs as [|h hs IH]; intros ls H Hn; [reflexivity|]. inversion_clear H as [|? ? Hh Hr].
  cbn [app]. rewrite join_cons by (destruct hs; [exact Hn|discriminate]). rewrite lines_cons by exact Hh.
  cbn [comments take_comments]. destruct (starts_with (lit "#") h); [|reflexivity].
  rewrite IH by auto. destruct (take_comments hs) as [a b]. reflexivity.
Qed.
Lemma not_comment c s : c <> 35 -> comments (lines (c :: s)) = [].
Proof.
  intros Hc. destruct (N.eq_dec c nl) as [->|Hn]; [reflexivity|].
  destruct (lines_head c s Hn) as (r & ls & ->). cbn [comments]. change (lit "#") with [35]. cbn [starts_with].
  assert (E : N.eqb 35 c = false) by (apply N.eqb_neq; congruence). now rewrite E.
Qed.
Lemma quote_head s : exists c r, quote s = c :: r /\ c <> 35.
Proof.
  destruct s as [|c s]; [exists 39, [39]; split; [reflexivity|discriminate]|]. unfold quote.
  destruct (forallb safe (c :: s)) eqn:E.
  - exists c, s. split; auto. intros ->. discriminate.
  - exists 39. eexists. split; [reflexivity|discriminate].
Qed.
Lemma join_head cmd : shlex_join cmd = [] \/ exists c r, shlex_join cmd = c :: r /\ c <> 35.
Proof.
  destruct cmd as [|a [|b cmd]]; [now left| |]; right.
  - apply quote_head.
  - destruct (quote_head a) as (c & r & E & H). change (shlex_join (a :: b :: cmd)) with (quote a ++ lit " " ++ shlex_join (b :: cmd)). rewrite E.
    exists c. eexists. split; [reflexivity|exact H].
Qed.
Lemma program_no_comment s k l n ls : comments (lines (join [nl] (expand l n (program_line s k) :: ls))) = [].
Proof.
  assert (A : forall x, (x = [] \/ exists c r, x = c :: r /\ c <> 35) -> comments (lines (join [nl] (x :: ls))) = []).
  { intros x [->|(c & r & -> & H)].
    - destruct ls; reflexivity.
    - destruct ls; [now apply not_comment|]. rewrite join_cons by discriminate. now apply not_comment. }
  assert (B : expand l n [F ProgramAndArgs] = shlex_join (program l ++ program_args l)) by (unfold expand; cbn [map concat value]; apply app_nil_r).
  apply A. destruct s; [ | |destruct k| ]; cbn [program_line].
  - destruct k; rewrite B; apply join_head.
  - destruct k; rewrite B; apply join_head.
  - rewrite B. apply join_head.
  - right. exists 115. eexists. split; [reflexivity|discriminate].
  - right. exists 32. destruct k; eexists; (split; [reflexivity|discriminate]).
Qed.
Lemma tidy_one_line l n line : settings_one_line l -> tidy line = true -> one_line (expand l n line).
Proof.
  intros Hs. destruct line as [|[s|f] line]; cbn [tidy]; intros H; [intros []| |discriminate].
  apply andb_true_iff in H. destruct H as [_ H2]. now apply one_line_expand.
Qed.
Lemma script_comments s k l n : settings_one_line l ->
  comments (lines (script s k l n)) = fst (take_comments (map (expand l n) (header s k l))).
Proof.
  intros H. rewrite script_split, comments_header; [|rewrite Forall_map, Forall_forall|discriminate].
  - rewrite program_no_comment. destruct (snd _); apply app_nil_r.
  - destruct (template_split s k l) as [_ Ht]. rewrite forallb_forall in Ht. intros x Hx. apply tidy_one_line; auto.
Qed.

(* ------------------------------------------------------------ numbers *)
Lemma number_acc d : forall p, fold_left (fun a c => 10 * a + (c - 48)) (chars d) (Npos p) = Npos (Pos.of_uint_acc d p).
Proof. induction d; intros p; [reflexivity|..]; cbn [chars fold_left Pos.of_uint_acc]; rewrite <- IHd; f_equal; lia. Qed.
Lemma number_chars d : fold_left (fun a c => 10 * a + (c - 48)) (chars d) 0 = N.of_uint d.
Proof.
  unfold N.of_uint. induction d; [reflexivity|exact IHd|..]; cbn [chars fold_left Pos.of_uint];
    match goal with |- context [Npos (Pos.of_uint_acc d ?p)] => exact (number_acc d p) end.
Qed.
Lemma decimal_numeral n : numeral (decimal n) n.
Proof.
  unfold decimal, numeral, number. rewrite number_chars, DecimalN.Unsigned.of_to. repeat split; [|apply chars_digits].
  destruct n as [|p]; [discriminate|]. intros E. pose proof (number_chars (N.to_uint (Npos p))) as H. rewrite E, DecimalN.Unsigned.of_to in H. discriminate.
Qed.
