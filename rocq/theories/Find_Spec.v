(** Finding the connection files of a cluster (property C90). *)
From Coq Require Import String Ascii List NArith.
Import ListNotations.

(** Strings, and times in tenths of a second. *)
Definition str := list ascii.
Definition lit (s : string) : str := list_ascii_of_string s.

(** The two connection files of a controller. *)
Inductive kind := ForClient | ForEngine.

(** What such a file says: which controller wrote it (its profile directory,
    its cluster id, when it was started), and for whom. *)
Record info := Info { of_profile : str; of_cluster : str; since : nat; whom : kind }.
(** A file may be read while it is being written. *)
Inductive content := Partial | Whole (i : info).

(** The files there are, at each time. *)
Definition files := nat -> str -> option content.
Definition there (fs : files) (t : nat) (p : str) : Prop := fs t p <> None.
(** Files are not removed. *)
Definition kept (fs : files) : Prop :=
  forall t t' p, t <= t' -> there fs t p -> there fs t' p.

(** A name without a slash. *)
Definition plain (s : str) : Prop := ~ In "/"%char s.
