(** Engines on several hosts (C82). Independent of the code. Texts are lists of code points. *)
From Coq Require Import NArith ZArith String List Bool.
From Verif Require Import Batch_Spec.
Import ListNotations.

(** How many engines the i-th host gets if at most [n] are wanted: hosts are filled one after the other. *)
Fixpoint filled (n : Z) (slots : list Z) : list nat :=
  match slots with
  | [] => []
  | s :: r => let k := Z.max 0 (Z.min s n) in Z.to_nat k :: filled (n - k) r
  end.
Definition total (slots : list Z) : Z := fold_right (fun s a => (Z.max 0 s + a)%Z) 0%Z slots.

(** [user@]host[:port] *)
Inductive address : list N -> option (list N) -> list N -> option (list N) -> Prop :=
| plain_host h : ~ In 64%N h -> ~ In 58%N h -> address h None h None
| with_port h p : ~ In 64%N h -> ~ In 64%N p -> ~ In 58%N h -> address (h ++ 58%N :: p) None h (Some p)
| with_user u h : ~ In 64%N u -> ~ In 58%N h -> address (u ++ 64%N :: h) (Some u) h None
| with_user_port u h p : ~ In 64%N u -> ~ In 58%N h -> address (u ++ 64%N :: h ++ 58%N :: p) (Some u) h (Some p).

Definition prefix (p s : list N) : Prop := exists r, s = p ++ r.
