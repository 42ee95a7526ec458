(** What purging results should do (C55).  Independent of the model. *)
From Coq Require Import List ZArith String Bool.
From Verif Require Import Prelude PyValue.
Import ListNotations.
Local Open Scope string_scope.

(** What can be given as jobs: an index into the history of the client, an id, an AsyncResult with its
    messages, or anything else; one of these or several.  The id "all", given alone, means everything. *)
Inductive job := Index (i : Z) | Id (m : string) | Handle (ids : list string) | Junk.
Inductive jobs := One (j : job) | Several (js : list job).
Definition everything : jobs := One (Id "all").

(** The messages that are asked for; negative indices count from the end of the history. *)
Inductive names (history : list string) : job -> list string -> Prop :=
| n_index i m : nth_error history i = Some m -> names history (Index (Z.of_nat i)) [m]
| n_index_end i m before after : history = (before ++ m :: after)%list -> List.length after = i -> names history (Index (- Z.of_nat (S i))) [m]
| n_id m : names history (Id m) [m]
| n_handle ids : names history (Handle ids) ids.
Definition asked (history : list string) (j : jobs) (ids : list string) : Prop :=
  match j with
  | One j => names history j ids
  | Several js => exists idss, Forall2 (names history) js idss /\ ids = concat idss
  end.

(** [purged P before after]: exactly the records with [P] are gone, the others are as they were. *)
Definition purged {R} (P : string -> R -> Prop) (before after : string -> option R) : Prop := forall m,
  (before m = None -> after m = None) /\
  (forall r, before m = Some r -> (P m r -> after m = None) /\ (~ P m r -> after m = Some r)).
