(** What a client should know about the engines (C75), independently of the client's dictionaries. *)
From stdpp Require Import base gmap list.
From Verif Require Import Hub_Spec.

(** What the Hub tells everybody (the rest are answers to single engines) *)
Definition is_public (n : notice) : bool := match n with Registered _ _ | Unregistered _ _ => true | _ => false end.
Definition about (n : notice) : option nat := match n with Registered i _ | Unregistered i _ => Some i | _ => None end.

(** What happens between the Hub and one client *)
Inductive event {own : Type} :=
| AtHub (e : Hub_Spec.event)        (* the Hub handles something *)
| Answer                            (* the Hub answers the client's request for connection *)
| Subscribe                         (* from now on, the Hub's notices are sent to the client *)
| Begin                             (* the client reads the answer, and starts to work *)
| Deliver                           (* the client handles the next notice *)
| Own (e : own).                    (* something else happens at the client: requests, replies *)
Arguments event : clear implicits.
