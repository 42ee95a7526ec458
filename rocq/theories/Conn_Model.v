(** Model of how a client learns which engines there are: Client._connect (client.py 728-796) with _update_engines and the
    notification handlers, composed with the Hub of [Hub_Model].  The Hub's answer is computed at [Answer]; the client
    opens its subscription only after having received it (761, 779-782), so the subscription takes effect later, at [Subscribe];
    the I/O thread handles notices only after _update_engines (791, 796).  Messages on one socket keep their order and are not lost
    (RCVHWM = 0).  ssh tunnels, encryption and the 'pure' scheme are left out. *)
From stdpp Require Import base gmap list sorting.
From Verif Require Import RDict_Model Client_Model Hub_Spec Conn_Spec.
From Verif Require Hub_Model.

(** client.py 661-675, _update_engines: the ids are appended one by one and sorted at the end *)
Definition update_engines (es : list (nat * nat)) (s : client) : client :=
  let '(d, ids) := fold_left (fun '(d, ids) '(e, u) =>
      (state_of (setitem d (inl e) (inr u)), if contains d (inl e) then ids else ids ++ [e]))               (* 663-667 *)
    es (engines s, eids s) in
  set_engines d (merge_sort Nat.le ids) s.                                                                  (* 668 *)

(** client.py 845-872: the handlers of notices (the rest of the handling is in [Client_Model]) *)
Definition handle_notice (enum : gset mid -> list mid) (n : notice) (s : client) : client :=
  match n with
  | Registered i u => fst (register_engine i u s)
  | Unregistered i _ => fst (unregister_engine enum i s)
  | _ => s
  end.

Record world := World {
  hub : Hub_Model.hub;
  answer : option (list (nat * nat));        (* the engines in the Hub's answer, hub.py 868-878 *)
  subscribed : bool;
  begun : bool;
  inbox : list notice;                       (* notices sent to the client, not yet handled *)
  cl : client }.
Definition start_world : world := World Hub_Model.start None false false [] empty_client.

Definition is_own (e : Client_Model.event) : bool := match e with Client_Model.Register _ _ | Client_Model.Unregister _ => false | _ => true end.

Definition step (enum : gset mid -> list mid) (w : world) (e : event Client_Model.event) : world :=
  match e with
  | AtHub e =>
      let h := Hub_Model.step (hub w) e in
      let new := filter is_public (drop (length (Hub_Model.notices (hub w))) (Hub_Model.notices h)) in
      World h (answer w) (subscribed w) (begun w) (if subscribed w then inbox w ++ new else inbox w) (cl w)   (* hub.py 995-997, 1060-1062 *)
  | Answer => match answer w with                                                                           (* hub.py 868-878 *)
              | None => World (hub w) (Some (Hub_Model.engines (hub w))) (subscribed w) (begun w) (inbox w) (cl w)
              | Some _ => w
              end
  | Subscribe => match answer w with                                                                        (* client.py 779-782 *)
                 | Some _ => World (hub w) (answer w) true (begun w) (inbox w) (cl w)
                 | None => w
                 end
  | Begin => match answer w with                                                                            (* client.py 791, 796 *)
             | Some es => if begun w then w else World (hub w) (answer w) (subscribed w) true (inbox w) (update_engines es (cl w))
             | None => w
             end
  | Deliver => if begun w then match inbox w with                                                           (* client.py 1101-1109 *)
               | n :: r => World (hub w) (answer w) (subscribed w) true r (handle_notice enum n (cl w))
               | [] => w
               end else w
  | Own e => if begun w && is_own e then World (hub w) (answer w) (subscribed w) true (inbox w) (fst (Client_Model.step enum (cl w) e)) else w
  end.
Definition run (enum : gset mid -> list mid) (es : list (event Client_Model.event)) : world := fold_left (step enum) es start_world.

(** client.ids (1358-1361) is a copy of _ids; the engine a target id stands for is _engines[id] (700-726) *)
Definition ids (w : world) : list nat := eids (cl w).
Definition uuid_of (w : world) (i : nat) : option nat :=
  match fwd (engines (cl w)) !! inl i with Some (inr u) => Some u | _ => None end.
