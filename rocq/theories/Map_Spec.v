(** What "scatter", "gather" and "map" should mean, independently of the code. *)
From Verif Require Import Prelude.

(** [rows] is the list of argument tuples the builtin [map(f, *seqs)] would use:
    the i-th row exists exactly when every sequence has an i-th item, and then
    consists of these items. *)
Definition zip_rows {A} (seqs : list (list A)) (rows : list (list A)) : Prop :=
  forall i row,
    nth_error rows i = Some row <->
    sequence (map (fun s => nth_error s i) seqs) = Some row.

(** The result of the builtin [list(map(f, *seqs))]. *)
Definition builtin_map {A B} (f : list A -> B) (seqs : list (list A)) (out : list B) : Prop :=
  exists rows, zip_rows seqs rows /\ out = map f rows.

(** Position of the [i]-th item dealt to engine [p] when dealing to [q] engines in turn. *)
Definition dealt_position (q p i : nat) : nat := p + i * q.

(** [part] is what engine [p] of [q] holds when [l] is dealt one by one. *)
Definition dealt {A} (l : list A) (q p : nat) (part : list A) : Prop :=
  forall i, nth_error part i = nth_error l (dealt_position q p i).

(** Rounded-up quotient, and the sum of a list. *)
Definition ceil_div (n c : nat) : nat := (n + (c - 1)) / c.
Definition sum (l : list nat) : nat := fold_right Nat.add 0 l.
