(** The list of clusters of the web service (C87). Independent of the code. Texts are lists of code points. *)
From Coq Require Import NArith String List Bool.
From Verif Require Import Batch_Spec.
Import ListNotations.

(** What the service says about a cluster *)
Record entry := Entry { id : list N; profile_name : list N; cluster_name : list N; started : bool }.

(** the usual order of texts *)
Inductive text_lt : list N -> list N -> Prop :=
| lt_end c r : text_lt [] (c :: r)
| lt_here c d r s : (c < d)%N -> text_lt (c :: r) (d :: s)
| lt_later c r s : text_lt r s -> text_lt (c :: r) (c :: s).

(** [a] is to be shown before [b]: running clusters, then those of the default profile, then default clusters, then by name *)
Definition default_profile (a : entry) : Prop := profile_name a = lit "default".
Definition default_cluster (a : entry) : Prop := cluster_name a = [].
Definition shown_before (a b : entry) : Prop :=
  (started a = true /\ started b = false) \/
  (started a = started b /\
    ((default_profile a /\ ~ default_profile b) \/
     ((default_profile a <-> default_profile b) /\
       ((default_cluster a /\ ~ default_cluster b) \/
        ((default_cluster a <-> default_cluster b) /\
          (text_lt (profile_name a) (profile_name b) \/
           (profile_name a = profile_name b /\ text_lt (cluster_name a) (cluster_name b)))))))).

Inductive answer := OK (e : entry) | Listed (l : list entry) | Waits (serial : N) | Deleted | NotFound | BadRequest | ServerError.
