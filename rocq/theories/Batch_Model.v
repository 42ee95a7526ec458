(** Model of the batch scripts of ipyparallel/cluster/launcher.py: BatchSystemLauncher (1724-1986) and the launchers for PBS (2027-2080),
    Slurm (2083-2205), SGE (2211-2250) and LSF (2253-2330), and of shlex.quote (used by util.py 712-714).
    Simplifications: a template is a list of lines, a line a list of texts and of fields in braces (EvalFormatter would also evaluate expressions;
    the default templates have none); the namespace of the user is empty; the searches for settings in the default templates, which are constants, are replaced by
    their results: none of the default templates has a queue, output, account, qos, time limit, whatever else has been inserted; only the pattern for Slurm's
    ntasks (2133: #SBATCH\W+(?:--ntasks|-n)[\w\d\-\$]+) occurs, in the template of the controller (its "-n" matches within "--ntasks"). *)
From Coq Require Import NArith String List Bool Decimal.
From Verif Require Import Batch_Spec.
Import ListNotations.
Open Scope N_scope.

(** shlex.quote: re.compile(r'[^\w@%+=:,./-]', re.ASCII).search *)
Definition safe (c : N) : bool := letter c || digit c || is c "@%+=:,./-".
Definition quote (s : list N) : list N :=
  match s with
  | [] => lit "''"
  | _ => if forallb safe s then s
         else lit "'" ++ flat_map (fun c => if is c "'" then [39; 34; 39; 34; 39] else [c]) s ++ lit "'"
  end.
(** util.py 712-714 *)
Fixpoint join (sep : list N) (l : list (list N)) : list N :=
  match l with [] => [] | [x] => x | x :: r => x ++ sep ++ join sep r end.
Definition shlex_join (cmd : list (list N)) : list N := join (lit " ") (map quote cmd).

(** Templates *)
Inductive field := Queue | OutputFile | NumEngines | ClusterId | ProgramAndArgs | Account | Qos | TimeLimit.
Inductive piece := T (s : string) | F (f : field).
Definition template := list (list piece).

(** str(n) *)
Fixpoint chars (d : uint) : list N :=
  match d with
  | Nil => [] | D0 d => 48 :: chars d | D1 d => 49 :: chars d | D2 d => 50 :: chars d | D3 d => 51 :: chars d | D4 d => 52 :: chars d
  | D5 d => 53 :: chars d | D6 d => 54 :: chars d | D7 d => 55 :: chars d | D8 d => 56 :: chars d | D9 d => 57 :: chars d
  end.
Definition decimal (n : N) : list N := chars (N.to_uint n).

(** The traits of a launcher *)
Record launcher := Launcher {
  queue : list N; output_file : list N; cluster_id : list N; program : list (list N); program_args : list (list N);
  account : list N; qos : list N; timelimit : list N; options : list N }.
Inductive system := PBS | SGE | Slurm | LSF.
Inductive kind := Controller | Engines.

(** 2053-2061, 2068-2080, 2176-2186, 2194-2205, 2223-2232, 2238-2250, 2299-2308, 2314-2323: default_template *)
Definition default_template (s : system) (k : kind) : template :=
  match s, k with
  | PBS, Controller => [[T "#!/bin/sh"]; [T "#PBS -V"]; [T "#PBS -N ipcontroller"]; [F ProgramAndArgs]; []]
  | PBS, Engines => [[T "#!/bin/sh"]; [T "#PBS -V"]; [T "#PBS -N ipengine"]; [F ProgramAndArgs]; []]
  | SGE, Controller => [[T "#$ -V"]; [T "#$ -S /bin/sh"]; [T "#$ -N ipcontroller"]; [F ProgramAndArgs]; []]
  | SGE, Engines => [[T "#$ -V"]; [T "#$ -S /bin/sh"]; [T "#$ -N ipengine"]; [F ProgramAndArgs]; []]
  | Slurm, Controller => [[T "#!/bin/sh"]; [T "#SBATCH --export=ALL"]; [T "#SBATCH --job-name=ipcontroller-"; F ClusterId]; [T "#SBATCH --ntasks=1"]; [F ProgramAndArgs]; []]
  | Slurm, Engines => [[T "#!/bin/sh"]; [T "#SBATCH --export=ALL"]; [T "#SBATCH --job-name=ipengine-"; F ClusterId]; [T "srun "; F ProgramAndArgs]; []]
  | LSF, Controller => [[T "#!/bin/sh"]; [T "    #BSUB -env all"]; [T "    #BSUB -J ipcontroller-"; F ClusterId]; [T "    "; F ProgramAndArgs]; [T "    "]]
  | LSF, Engines => [[T "#!/bin/sh"]; [T "    #BSUB -J ipengine-"; F ClusterId]; [T "    #BSUB -env all"]; [T "    "; F ProgramAndArgs]; [T "    "]]
  end.
(** 2043-2047, 2135-2149, 2214-2217, 2270-2275 *)
Definition job_array_template (s : system) : template :=
  match s with PBS => [[T "#PBS -t 1-"; F NumEngines]] | SGE => [[T "#$ -t 1-"; F NumEngines]] | Slurm => [[T "#SBATCH --ntasks="; F NumEngines]]
             | LSF => [[T "#BSUB -J ipengine[1-"; F NumEngines; T "]"]] end.
Definition queue_template (s : system) : template :=
  match s with PBS => [[T "#PBS -q "; F Queue]] | SGE => [[T "#$ -q "; F Queue]] | Slurm => [[T "#SBATCH --partition="; F Queue]] | LSF => [[T "#BSUB -q "; F Queue]] end.
Definition output_template (s : system) : template :=
  match s with
  | PBS | SGE => [[T "#PBS -j oe"]; [T "#PBS -o "; F OutputFile]]                  (* SGELauncher inherits it from PBSLauncher *)
  | Slurm => [[T "#SBATCH --output="; F OutputFile]]
  | LSF => [[T "#BSUB -o "; F OutputFile]; [T "#BSUB -e "; F OutputFile]; []]
  end.

Definition nonempty (s : list N) : bool := match s with [] => false | _ => true end.
(** 1931-1932, 1941-1943, 2166-2168: firstline, rest = template.split('\n', 1) *)
Definition insert (ls : template) (t : template) : template :=
  match t with first :: rest => first :: ls ++ rest | [] => ls end.
(** 1919-1932 and 2151-2168: _insert_options_in_script *)
Definition insert_options (s : system) (l : launcher) (t : template) : template :=
  let t := insert ((if nonempty (queue l) then queue_template s else []) ++ (if nonempty (output_file l) then output_template s else [])) t in
  match s with
  | Slurm => insert ((if nonempty (account l) then [[T "#SBATCH --account="; F Account]] else []) ++
                     (if nonempty (qos l) then [[T "#SBATCH --qos="; F Qos]] else []) ++
                     (if nonempty (timelimit l) then [[T "#SBATCH --time="; F TimeLimit]] else [])) t
  | _ => t
  end.
(** 1938-1943: _insert_job_array_in_script *)
Definition insert_job_array (s : system) (k : kind) (t : template) : template :=
  match s, k with Slurm, Controller => t | _, _ => insert (job_array_template s) t end.

(** 1830-1857: the context *)
Definition value (l : launcher) (n : N) (f : field) : list N :=
  match f with
  | Queue => queue l | OutputFile => output_file l | NumEngines => decimal n | ClusterId => cluster_id l
  | ProgramAndArgs => shlex_join (program l ++ program_args l)
  | Account => account l | Qos => qos l | TimeLimit => timelimit l
  end.
Definition format (l : launcher) (n : N) (t : template) : list N :=
  join [nl] (map (fun line => concat (map (fun p => match p with T s => lit s | F f => value l n f end) line)) t).

(** 1891-1917: write_batch_script. The trait batch_template (None: empty) is what a first call leaves to the next (1899-1908). *)
Definition write_batch_script (s : system) (k : kind) (batch_template : option template) (l : launcher) (n : N) : template * list N :=
  let t := match batch_template with
           | Some t => t
           | None => insert_job_array s k (insert_options s l (default_template s k))
           end in
  (t, format l n t).
(** The script of a launcher without a template of the user, at its first start *)
Definition script (s : system) (k : kind) (l : launcher) (n : N) : list N := snd (write_batch_script s k None l n).
