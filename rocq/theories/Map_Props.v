(** Property theorems C01-C05 (client/map.py, client/remotefunction.py). *)
From Verif Require Import Prelude Map_Spec Map_Model Map_Proofs.

(** C01: block scatter yields one partition per engine; concatenated in engine order they
    are the original sequence, and that is what gather returns. *)
Theorem C01_block_scatter_gather :
  forall (A : Type) (l : list A) (q : nat), 0 < q ->
  exists parts,
    scatter_parts DistBlock l q = Ok parts /\ length parts = q /\
    concat parts = l /\ gather DistBlock parts = Ok l.
Proof. exact (fun A => @block_scatter_gather A). Qed.
Print Assumptions C01_block_scatter_gather.

Example C01_example :
  scatter_parts DistBlock [10; 11; 12; 13; 14; 15; 16] 3 = Ok [[10; 11; 12]; [13; 14]; [15; 16]].
Proof. reflexivity. Qed.
Example C01_example_fewer_items_than_engines :
  scatter_parts DistBlock [10; 11] 3 = Ok [[10]; [11]; []].
Proof. reflexivity. Qed.

(** C02: sizes of the block partitions, and rejection of bad indices. *)
Theorem C02_block_sizes :
  forall (A : Type) (l : list A) (p q : Z) (part : list A),
  block_getPartition l p q (Z.of_nat (length l)) = Ok part ->
  length part = length l / Z.to_nat q +
                (if Z.to_nat p <? length l mod Z.to_nat q then 1 else 0).
Proof. exact (fun A => @block_size A). Qed.
Print Assumptions C02_block_sizes.

Theorem C02_block_rejects_exactly_bad_indices :
  forall (A : Type) (l : list A) (p q : Z),
  block_getPartition l p q (Z.of_nat (length l)) = Raise ValueError <-> ~ (0 <= p < q)%Z.
Proof. exact (fun A => @block_balance A). Qed.
Print Assumptions C02_block_rejects_exactly_bad_indices.

Example C02_example : block_getPartition [1; 2; 3; 4; 5] 1 3 5 = Ok [3; 4].
Proof. reflexivity. Qed.

(** C03: round robin. *)
Theorem C03_round_robin_scatter_gather :
  forall (A : Type) (l : list A) (q : nat), 0 < q ->
  exists parts,
    scatter_parts DistRR l q = Ok parts /\ length parts = q /\
    (forall p part, nth_error parts p = Some part -> dealt l q p part) /\
    gather DistRR parts = Ok l.
Proof. exact (fun A => @rr_scatter_gather A). Qed.
Print Assumptions C03_round_robin_scatter_gather.

Example C03_example :
  scatter_parts DistRR [10; 11; 12; 13; 14; 15; 16] 3 = Ok [[10; 13; 16]; [11; 14]; [12; 15]].
Proof. reflexivity. Qed.

(** C04: view.map = builtin map. *)
Theorem C04_parallel_map_is_builtin_map :
  forall (A B : Type) (d : dist) (v : viewkind) (f : list A -> B) (seqs : list (list A)),
  seqs <> [] -> v <> Multiplexed 0 ->
  exists out, parallel_map d v f seqs = Ok out /\ builtin_map f seqs out.
Proof. exact (fun A B => @parallel_map_builtin A B). Qed.
Print Assumptions C04_parallel_map_is_builtin_map.

(** [builtin_map] pins the result down. *)
Theorem C04_builtin_map_unique :
  forall (A B : Type) (f : list A -> B) (seqs : list (list A)) (o1 o2 : list B),
  builtin_map f seqs o1 -> builtin_map f seqs o2 -> o1 = o2.
Proof. exact (fun A B => @builtin_map_unique A B). Qed.
Print Assumptions C04_builtin_map_unique.

(** [len(ar)] (the sum of the chunk sizes recorded for the tasks) is the number of items. *)
Theorem C04_len_counts_items :
  forall (A B : Type) (d : dist) (v : viewkind) (f : list A -> B) (seqs : list (list A)) tasks out,
  seqs <> [] -> v <> Multiplexed 0 -> maxlen seqs <> 0%Z ->
  pf_tasks d v seqs = Ok tasks -> parallel_map d v f seqs = Ok out ->
  sum (map min_len_arg tasks) = length out.
Proof. exact (fun A B => @map_len_counts A B). Qed.
Print Assumptions C04_len_counts_items.

Example C04_example_unequal_lengths :
  parallel_map DistRR (Multiplexed 2) (fun r => r) [[1; 2; 3; 4; 5]; [10; 20; 30]]
  = Ok [[1; 10]; [2; 20]; [3; 30]].
Proof. reflexivity. Qed.
Example C04_example_hypotheses :
  [[1; 2; 3; 4; 5]; [10; 20; 30]] <> [] /\ Multiplexed 2 <> Multiplexed 0 /\
  maxlen [[1; 2; 3; 4; 5]; [10; 20; 30]] <> 0%Z.
Proof. repeat split; discriminate. Qed.
(** The argument mismatch: an unbalanced view without engines has nothing to join. *)
Example C04_no_engines : parallel_map DistBlock (Multiplexed 0) (fun r : list nat => r) [[1; 2]] = Raise IndexError.
Proof. reflexivity. Qed.

(** C05: chunking of a load-balanced map; [s0] is a longest argument sequence. *)
Theorem C05_balanced_chunks :
  forall (A : Type) (d : dist) (c : nat) (seqs : list (list A)) (s0 : list A),
  In s0 seqs -> (forall s, In s seqs -> length s <= length s0) -> s0 <> [] ->
  exists tasks,
    pf_tasks d (Balanced c) seqs = Ok tasks /\
    length tasks = ceil_div (length s0) (Nat.max 1 c) /\
    forall args, In args tasks ->
      length args = length seqs /\
      (exists a, In a args /\ a <> []) /\
      (forall a, In a args -> length a <= Nat.max 1 c).
Proof. exact (fun A => @balanced_chunks A). Qed.
Print Assumptions C05_balanced_chunks.

Example C05_example :
  pf_tasks DistBlock (Balanced 3) [[1; 2; 3; 4; 5; 6; 7]; [8; 9]]
  = Ok [[[1; 2; 3]; [8; 9]]; [[4; 5]; []]; [[6; 7]; []]].
Proof. reflexivity. Qed.
