(** What a user of a client sees of the tasks (C37), independently of the client's dictionaries. *)
From stdpp Require Import base gmap list.
From Verif Require Import Client_Model.

Record world := World {
  live : gmap nat nat;               (* engine id -> uuid of the registered engines *)
  tasks : gset mid;                  (* every task id ever issued *)
  requests : gset mid;               (* every other request id ever issued *)
  out : gset mid;                    (* the tasks without an answer *)
  route : gmap mid (list nat);       (* the engines (uuids) a task was sent to by name *)
  res : gmap mid result;             (* the answers *)
  purged : gset mid                  (* the ids the user purged *)
}.
Definition new_world : world := World ∅ ∅ ∅ ∅ ∅ ∅ ∅.
Definition used (w : world) : gset mid := tasks w ∪ requests w.
Definition routes (w : world) (m : mid) : list nat := default [] (route w !! m).

(** The answer in a reply: none if it cannot be read. *)
Definition outcome (r : reply) : option result :=
  match r with
  | ROk v => Some (Value v)
  | RError x _ => Some x
  | RAborted => Some TaskAborted
  | RUnreadable | RResubmitted => None
  end.
(** The task [m] is answered. *)
Definition answered (m : mid) (o : option result) (w : world) : world :=
  World (live w) (tasks w) (requests w) (out w ∖ {[m]}) (route w)
    (match o with Some x => <[m := x]> (res w) | None => res w end) (purged w).
(** A new task [m] for the engines [us]. *)
Definition issued (us : list nat) (w : world) (m : mid) : world :=
  World (live w) ({[m]} ∪ tasks w) (requests w) ({[m]} ∪ out w) (<[m := us]> (route w)) (res w) (purged w).

Definition is_live (w : world) (u : nat) : bool :=
  bool_decide (u ∈ map snd (map_to_list (live w))).

Definition happens (w : world) (e : event) : world :=
  match e with
  | Send m ident =>
      issued (match ident with Some u => if is_live w u then [u] else [] | None => [] end) w m
  | Request m => World (live w) (tasks w) ({[m]} ∪ requests w) (out w) (route w) (res w) (purged w)
  | Broadcast n us true => issued us w (Plain n)
  | Broadcast n us false =>
      fold_left (fun w u => issued [u] w (Derived n u)) us (issued [] w (Plain n))
  | Reply _ m _ r => if bool_decide (m ∈ out w) then answered m (outcome r) w else w     (* the first reply only *)
  | Single m v =>
      if res w !! m then w
      else if bool_decide (m ∈ purged w) then w
      else World (live w) (tasks w) (requests w) (out w) (route w) (<[m := Value v]> (res w)) (purged w)
  | Idle _ => w
  | Register e u => World (<[e := u]> (live w)) (tasks w) (requests w) (out w) (route w) (res w) (purged w)
  | Unregister e =>
      match live w !! e with
      | Some u =>                                    (* its tasks fail *)
          let lost := filter (fun m => u ∈ routes w m) (out w) in
          World (delete e (live w)) (tasks w) (requests w) (out w ∖ lost) (route w)
            (gset_to_gmap (EngineDied u) lost ∪ res w) (purged w)
      | None => w
      end
  | Purge ids =>
      if decide (out w ∩ ids = ∅)
      then World (live w) (tasks w) (requests w) (out w) (route w) (res w) (purged w ∪ (ids ∩ used w)) else w
  | PurgeAll =>
      if decide (out w = ∅)
      then World (live w) (tasks w) (requests w) (out w) (route w) (res w) (used w) else w
  end.
Definition seen (l : list event) : world := fold_left happens l new_world.

(** What can happen: ids are new; a reply is to a task that is waiting or was answered (a duplicate), and
    names the engines the task was sent to; a new engine has a new id and uuid. *)
Definition fresh (w : world) (n : nat) : Prop := Plain n ∉ used w /\ forall u, Derived n u ∉ used w.
Definition may (w : world) (e : event) : Prop :=
  match e with
  | Send m _ | Request m => exists n, m = Plain n /\ fresh w n
  | Broadcast n us _ => fresh w n /\ NoDup us
  | Reply _ m us _ =>
      m ∈ tasks w /\ (m ∈ out w \/ is_Some (res w !! m)) /\ (m ∈ out w -> forall u, u ∈ routes w m -> u ∈ us)
  | Single m _ => m ∈ requests w
  | Register e u => live w !! e = Some u \/ (live w !! e = None /\ forall e', live w !! e' <> Some u)
  | Idle _ | Unregister _ | Purge _ | PurgeAll => True
  end.
Fixpoint genuine_from (w : world) (l : list event) : Prop :=
  match l with
  | [] => True
  | e :: l => may w e /\ genuine_from (happens w e) l
  end.
Definition genuine (l : list event) : Prop := genuine_from new_world l.
