(** C80: what the batch scripts run and ask for. *)
From Coq Require Import NArith String Ascii List Bool Lia.
From Verif Require Import Batch_Spec Batch_Model Batch_Proofs.
Import ListNotations.
Open Scope N_scope.

(** A command line made of quoted words is one command with exactly these words, whatever characters are in them. *)
Theorem C80_quoting p args : ~ odd_name p -> runs (shlex_join (p :: args)) = Some [p :: args].
Proof.
  intros H. unfold runs. rewrite <- (app_nil_r (shlex_join (p :: args))), lex_join by discriminate.
  transitivity (simple (end_word (Some (wof (last (p :: args) []))) ([] ++ map wof (removelast (p :: args))))); [reflexivity|].
  rewrite words_of by discriminate. now apply simple_words.
Qed.
Print Assumptions C80_quoting.

(** Every script runs the program with its arguments, once, and nothing else; the engines of Slurm through srun. *)
Theorem C80_runs s k l n p args :
  one_line (queue l) -> one_line (output_file l) -> one_line (cluster_id l) -> one_line (account l) -> one_line (qos l) -> one_line (timelimit l) ->
  program l ++ program_args l = p :: args -> ~ odd_name p ->
  runs (script s k l n) = Some [match s, k with Slurm, Engines => lit "srun" :: p :: args | _, _ => p :: args end].
Proof.
  intros H1 H2 H3 H4 H5 H6 Hc Hp. rewrite (script_runs s k l n (p :: args)); [|repeat split; assumption|exact Hc|discriminate].
  destruct s, k; try reflexivity; now apply simple_words.
Qed.
Print Assumptions C80_runs.

(** srun is there whatever the program is called *)
Theorem C80_slurm_engines l n p args :
  one_line (queue l) -> one_line (output_file l) -> one_line (cluster_id l) -> one_line (account l) -> one_line (qos l) -> one_line (timelimit l) ->
  program l ++ program_args l = p :: args ->
  runs (script Slurm Engines l n) = Some [lit "srun" :: p :: args].
Proof.
  intros H1 H2 H3 H4 H5 H6 Hc. rewrite (script_runs Slurm Engines l n (p :: args)); [reflexivity|repeat split; assumption|exact Hc|discriminate].
Qed.
Print Assumptions C80_slurm_engines.

Lemma given_spec v : given v = if nonempty v then [v] else [].
Proof. now destruct v. Qed.
Fixpoint expand' (l : launcher) (n : N) (line : list piece) : list N :=
  match line with
  | [] => []
  | [p] => match p with T s => lit s | F f => value l n f end
  | p :: r => (match p with T s => lit s | F f => value l n f end) ++ expand' l n r
  end.
Lemma expand_eq l n line : expand l n line = expand' l n line.
Proof.
  induction line as [|p line IH]; [reflexivity|].
  change (expand l n (p :: line)) with ((match p with T s => lit s | F f => value l n f end) ++ expand l n line). rewrite IH.
  destruct line; [apply app_nil_r|reflexivity].
Qed.
Ltac calc l :=
  unfold asked, directives; rewrite script_comments by (repeat split; assumption);
  rewrite (map_ext _ _ (expand_eq l _)); unfold header, insert_options;
  destruct (nonempty (queue l)), (nonempty (output_file l));
  try (destruct (nonempty (account l)), (nonempty (qos l)), (nonempty (timelimit l)));
  vm_compute; reflexivity.

(** The batch system is asked for n engines, once. *)
Theorem C80_number s l n :
  one_line (queue l) -> one_line (output_file l) -> one_line (cluster_id l) -> one_line (account l) -> one_line (qos l) -> one_line (timelimit l) ->
  exists ds, numeral ds n /\
    match s with
    | PBS => asked "#PBS" "#PBS -t 1-" (script s Engines l n) = [ds]
    | SGE => asked "#$" "#$ -t 1-" (script s Engines l n) = [ds]
    | Slurm => asked "#SBATCH" "#SBATCH --ntasks=" (script s Engines l n) = [ds]
    | LSF => asked "#BSUB" "#BSUB -J ipengine[1-" (script s Engines l n) = [ds ++ lit "]"]
    end.
Proof.
  intros H1 H2 H3 H4 H5 H6. exists (decimal n). split; [apply decimal_numeral|].
  destruct s; calc l.
Qed.
Print Assumptions C80_number.

(** ... and of the controller there is one *)
Theorem C80_one_controller s l :
  one_line (queue l) -> one_line (output_file l) -> one_line (cluster_id l) -> one_line (account l) -> one_line (qos l) -> one_line (timelimit l) ->
  exists ds, numeral ds 1 /\
    match s with
    | PBS => asked "#PBS" "#PBS -t 1-" (script s Controller l 1) = [ds]
    | SGE => asked "#$" "#$ -t 1-" (script s Controller l 1) = [ds]
    | Slurm => asked "#SBATCH" "#SBATCH --ntasks=" (script s Controller l 1) = [ds]
    | LSF => asked "#BSUB" "#BSUB -J ipengine[1-" (script s Controller l 1) = [ds ++ lit "]"]
    end.
Proof.
  intros H1 H2 H3 H4 H5 H6. exists (decimal 1). split; [apply decimal_numeral|]. destruct s; calc l.
Qed.
Print Assumptions C80_one_controller.

(** The queue is asked for if and only if one has been given. *)
Theorem C80_queue s k l n :
  one_line (queue l) -> one_line (output_file l) -> one_line (cluster_id l) -> one_line (account l) -> one_line (qos l) -> one_line (timelimit l) ->
  match s with
  | PBS => asked "#PBS" "#PBS -q " (script s k l n)
  | SGE => asked "#$" "#$ -q " (script s k l n)
  | Slurm => asked "#SBATCH" "#SBATCH --partition=" (script s k l n)
  | LSF => asked "#BSUB" "#BSUB -q " (script s k l n)
  end = given (queue l).
Proof. intros H1 H2 H3 H4 H5 H6. rewrite given_spec. destruct s, k; calc l. Qed.
Print Assumptions C80_queue.

(** The output goes to the file that has been given: on PBS, Slurm and LSF. *)
Theorem C80_output s k l n :
  one_line (queue l) -> one_line (output_file l) -> one_line (cluster_id l) -> one_line (account l) -> one_line (qos l) -> one_line (timelimit l) ->
  s <> SGE ->
  match s with
  | PBS => asked "#PBS" "#PBS -o " (script s k l n)
  | SGE => asked "#$" "#$ -o " (script s k l n)
  | Slurm => asked "#SBATCH" "#SBATCH --output=" (script s k l n)
  | LSF => asked "#BSUB" "#BSUB -o " (script s k l n)
  end = given (output_file l).
Proof. intros H1 H2 H3 H4 H5 H6 Hs. rewrite given_spec. destruct s; [|congruence|..]; destruct k; calc l. Qed.
Print Assumptions C80_output.

(** ... on SGE it never does: the line is there, but with the mark of PBS. *)
Theorem C80_output_refuted k l n :
  one_line (queue l) -> one_line (output_file l) -> one_line (cluster_id l) -> one_line (account l) -> one_line (qos l) -> one_line (timelimit l) ->
  asked "#$" "#$ -o " (script SGE k l n) = [].
Proof. intros H1 H2 H3 H4 H5 H6. destruct k; calc l. Qed.
Print Assumptions C80_output_refuted.

(** Slurm's account, quality of service and time limit *)
Theorem C80_slurm_settings k l n :
  one_line (queue l) -> one_line (output_file l) -> one_line (cluster_id l) -> one_line (account l) -> one_line (qos l) -> one_line (timelimit l) ->
  asked "#SBATCH" "#SBATCH --account=" (script Slurm k l n) = given (account l) /\
  asked "#SBATCH" "#SBATCH --qos=" (script Slurm k l n) = given (qos l) /\
  asked "#SBATCH" "#SBATCH --time=" (script Slurm k l n) = given (timelimit l).
Proof. intros H1 H2 H3 H4 H5 H6. rewrite !given_spec. destruct k; (split; [|split]); calc l. Qed.
Print Assumptions C80_slurm_settings.

(** ... but the extra options never reach the script. *)
Theorem C80_slurm_options_refuted s k q o c p a ac qs t o1 o2 n :
  script s k (Launcher q o c p a ac qs t o1) n = script s k (Launcher q o c p a ac qs t o2) n.
Proof. reflexivity. Qed.
Print Assumptions C80_slurm_options_refuted.

(** The job's name tells the controller from the engines ... *)
Theorem C80_names s k l n :
  one_line (queue l) -> one_line (output_file l) -> one_line (cluster_id l) -> one_line (account l) -> one_line (qos l) -> one_line (timelimit l) ->
  match s with
  | PBS => asked "#PBS" "#PBS -N " (script s k l n) = [lit (match k with Controller => "ipcontroller" | Engines => "ipengine" end)]
  | SGE => asked "#$" "#$ -N " (script s k l n) = [lit (match k with Controller => "ipcontroller" | Engines => "ipengine" end)]
  | Slurm => asked "#SBATCH" "#SBATCH --job-name=" (script s k l n) = [lit (match k with Controller => "ipcontroller-" | Engines => "ipengine-" end) ++ cluster_id l]
  | LSF => True
  end.
Proof. intros H1 H2 H3 H4 H5 H6. destruct s, k; try exact I; calc l. Qed.
Print Assumptions C80_names.
(** ... except on LSF, where the controller is called like engines. *)
Theorem C80_lsf_name_refuted l :
  one_line (queue l) -> one_line (output_file l) -> one_line (cluster_id l) -> one_line (account l) -> one_line (qos l) -> one_line (timelimit l) ->
  asked "#BSUB" "#BSUB -J " (script LSF Controller l 1) = [lit "ipengine[1-1]"].
Proof. intros H1 H2 H3 H4 H5 H6. calc l. Qed.
Print Assumptions C80_lsf_name_refuted.

(** The script says which program interprets it: a shell. *)
Theorem C80_interpreter s k l n :
  one_line (queue l) -> one_line (output_file l) -> one_line (cluster_id l) -> one_line (account l) -> one_line (qos l) -> one_line (timelimit l) ->
  match s with
  | SGE => asked "#$" "#$ -S " (script s k l n) = [lit "/bin/sh"]
  | _ => hd [] (lines (script s k l n)) = lit "#!/bin/sh"
  end.
Proof.
  intros H1 H2 H3 H4 H5 H6.
  assert (E : forall x, starts_with (lit "#") x = true -> x = hd [] (comments (lines (script s k l n))) -> hd [] (lines (script s k l n)) = x).
  { intros x Hx ->. destruct (lines (script s k l n)) as [|y ys]; [discriminate|]. cbn [comments] in *. destruct (starts_with (lit "#") y) eqn:Y; [reflexivity|]. discriminate. }
  destruct s; [ | destruct k; calc l | | ]; (apply E; [reflexivity|]);
    rewrite script_comments by (repeat split; assumption); rewrite (map_ext _ _ (expand_eq l _)); unfold header, insert_options;
    destruct k, (nonempty (queue l)), (nonempty (output_file l));
    try (destruct (nonempty (account l)), (nonempty (qos l)), (nonempty (timelimit l))); vm_compute; reflexivity.
Qed.
Print Assumptions C80_interpreter.

(** Starting again with another number writes the script that a first start would write. *)
Theorem C80_again s k l n m :
  snd (write_batch_script s k (Some (fst (write_batch_script s k None l n))) l m) = script s k l m.
Proof. reflexivity. Qed.
Print Assumptions C80_again.

(* ------------------------------------------------------------ examples *)
Definition example_launcher : launcher :=
  Launcher (lit "short jobs") (lit "/tmp/out $x.log") (lit "a-1") [lit "/usr/bin/python3"; lit "-m"; lit "ipyparallel.engine"]
    [lit "--profile-dir"; lit "/home/d'Arc/my $HOME"; []; lit "#x;rm *"; [97; 10; 35; 80; 66; 83; 32; 98]] (lit "me") [] (lit "1:00") (lit "-x").
Example C80_ex_runs :
  runs (script Slurm Engines example_launcher 12) =
  Some [lit "srun" :: program example_launcher ++ program_args example_launcher].
Proof. vm_compute. reflexivity. Qed.
Example C80_ex_script :
  script PBS Engines (Launcher (lit "q") [] [] [lit "prog"] [lit "a b"] [] [] [] []) 40 =
  join [nl] [lit "#!/bin/sh"; lit "#PBS -t 1-40"; lit "#PBS -q q"; lit "#PBS -V"; lit "#PBS -N ipengine"; lit "prog 'a b'"; []].
Proof. vm_compute. reflexivity. Qed.
Example C80_ex_hypotheses :
  one_line (queue example_launcher) /\ one_line (output_file example_launcher) /\ one_line (cluster_id example_launcher) /\
  one_line (account example_launcher) /\ one_line (qos example_launcher) /\ one_line (timelimit example_launcher) /\
  exists p args, program example_launcher ++ program_args example_launcher = p :: args /\ ~ odd_name p.
Proof.
  assert (D : forall s, existsb (N.eqb nl) s = false -> one_line s).
  { intros s H HI. assert (E : existsb (N.eqb nl) s = true) by (apply existsb_exists; exists nl; split; [exact HI|reflexivity]). congruence. }
  repeat (split; [apply D; vm_compute; reflexivity|]). eexists _, _. split; [reflexivity|].
  intros [H|(a & b & E & _)].
  - vm_compute in H. repeat destruct H as [H|H]; try discriminate; exact H.
  - assert (I : In 61 (lit "/usr/bin/python3")) by (rewrite E; apply in_or_app; right; now left). vm_compute in I.
    repeat destruct I as [I|I]; try discriminate; exact I.
Qed.

(** A program whose name looks like an assignment is not run: shlex.quote leaves it alone. *)
Theorem C80_odd_names_refuted : exists p args, runs (shlex_join (p :: args)) <> Some [p :: args] /\ p <> [] /\ one_line p.
Proof.
  exists (lit "a=b"), [lit "c"]. split; [vm_compute; discriminate|]. split; [discriminate|].
  intros H. vm_compute in H. repeat destruct H as [H|H]; try discriminate; exact H.
Qed.
Print Assumptions C80_odd_names_refuted.

(** A setting of two lines is a command of the script. *)
Theorem C80_settings_are_trusted_refuted : exists l n, program l <> [] /\
  runs (script PBS Engines l n) = Some [lit "rm" :: [lit "-r"; lit "x"]; program l].
Proof.
  exists (Launcher (lit "q" ++ nl :: lit "rm -r x") [] [] [lit "prog"] [] [] [] [] []), 3. split; [discriminate|]. vm_compute. reflexivity.
Qed.
Print Assumptions C80_settings_are_trusted_refuted.
