(** Property theorems C17 (scheduling policies). *)
From Coq Require Import List Arith ZArith QArith Lia.
Import ListNotations.
From Verif Require Import Chooser_Spec Chooser_Model Chooser_Proofs.

(** leastload: the first engine of minimal load. *)
Theorem C17_leastload : forall loads : list Z, loads <> [] ->
  exists i x, leastload loads = Some i /\ nth_error loads i = Some x /\
    Forall (fun y => (x <= y)%Z) loads /\
    (forall k y, (k < i)%nat -> nth_error loads k = Some y -> (x < y)%Z).
Proof. exact leastload_spec. Qed.
Print Assumptions C17_leastload.

(** weighted: of two engines picked by weight the chosen one has the smaller load. *)
Theorem C17_weighted : forall (u v : Q) (loads : list Z),
  loads <> [] -> Forall (fun z => 0 <= z)%Z loads -> (0 <= u < 1)%Q -> (0 <= v < 1)%Q ->
  exists ix iy lx ly i,
    falls_into u loads ix /\ falls_into v loads iy /\
    nth_error loads ix = Some lx /\ nth_error loads iy = Some ly /\
    weighted u v loads = Some i /\
    (i = ix \/ i = iy) /\ (exists l, nth_error loads i = Some l /\ (l <= lx)%Z /\ (l <= ly)%Z).
Proof. exact weighted_spec. Qed.
Print Assumptions C17_weighted.

(** lru, plainrandom, twobin: in range; twobin picks the less recently used (smaller index)
    of its two draws, lru the head of the LRU-ordered list. *)
Theorem C17_simple_policies : forall (a b : nat) (loads : list Z),
  (a < length loads)%nat -> (b < length loads)%nat ->
  lru loads = 0%nat /\ (lru loads < length loads)%nat /\
  (plainrandom a loads < length loads)%nat /\
  (twobin a b loads < length loads)%nat /\
  (twobin a b loads = a \/ twobin a b loads = b) /\
  (twobin a b loads <= a)%nat /\ (twobin a b loads <= b)%nat.
Proof. unfold lru, plainrandom, twobin. intros a b loads Ha Hb. repeat split; lia. Qed.
Print Assumptions C17_simple_policies.

Example C17_example_leastload : leastload [3; 1; 2; 1]%Z = Some 1%nat.
Proof. reflexivity. Qed.
Example C17_example_weighted : weighted (1 # 2) (9 # 10) [3; 0; 2]%Z = Some 1%nat.
Proof. vm_compute. reflexivity. Qed.
