(** The addresses clients and engines connect to (C85, C86).  Independent of the code.  Texts are lists of code points. *)
From Coq Require Import NArith String Ascii List.
Import ListNotations.

Definition text := list N.
Definition txt (s : string) : text := map N_of_ascii (list_ascii_of_string s).
Definition colon : N := 58.

(** transport://address:port *)
Definition url_of (proto addr port : text) : text := proto ++ txt "://" ++ addr ++ txt ":" ++ port.
Definition occurs (p s : text) : Prop := exists a b, s = a ++ p ++ b.
(** the parts can be told apart *)
Definition parts (proto addr port : text) : Prop :=
  ~ occurs (txt "://") proto /\ ~ In colon addr /\ ~ In colon port /\ ~ (exists r, port = txt "//" ++ r).

(** A machine: its name, the address of its loopback interface, its addresses that others can use, all its addresses, and what a name means to it *)
Record machine := Machine { hostname : text; loopback : text; public : list text; local : list text; resolve : text -> option text }.

(** What happens to a connection made by machine [m] to [addr] (a name or an address): it arrives at machine [c] *)
Definition arrives (M : nat -> machine) (m : nat) (addr : text) (c : nat) : Prop :=
  exists a, (resolve (M m) addr = Some a \/ (resolve (M m) addr = None /\ a = addr)) /\
    ((In a (local (M m)) /\ c = m) \/ (~ In a (local (M m)) /\ In a (public (M c)))).

(** A network: every machine reaches itself by its loopback address; public addresses belong to one machine; addresses mean themselves *)
Record network (M : nat -> machine) : Prop := Network {
  net_loopback : forall m, In (loopback (M m)) (local (M m));
  net_public : forall m a, In a (public (M m)) -> In a (local (M m));
  net_unique : forall m c a, In a (public (M c)) -> In a (local (M m)) -> m = c;
  net_loop_means : forall m, resolve (M m) (loopback (M m)) = Some (loopback (M m));
  net_means : forall m c a, In a (public (M c)) -> resolve (M m) a = Some a }.

(** [loc] means machine [c], as seen from machine [m]: no other machine calls itself so, and for all but c itself it resolves to an address of c *)
Definition means (M : nat -> machine) (m : nat) (loc : text) (c : nat) : Prop :=
  (m = c /\ loc = hostname (M c)) \/
  (loc <> hostname (M m) /\ exists a, resolve (M m) loc = Some a /\ In a (public (M c))).

(** What a socket does: it connects to [url], directly or through an ssh server; and the key of the controller it encrypts for, if any *)
Record connection := Connection { target : text; via : option text; key : option text }.

(** The address to use for [ip] of a controller at [loc] *)
Definition wild (ip : text) : Prop := ip = txt "0.0.0.0" \/ ip = txt "*".
(** what a name or an address means to a machine: a name it cannot resolve stands for itself *)
Definition denotes (m : machine) (l a : text) : Prop := resolve m l = Some a \/ (resolve m l = None /\ a = l).
Inductive chooses (m : machine) : text -> option text -> text -> Prop :=
| explicit ip loc : ~ wild ip -> chooses m ip loc ip
| nowhere ip loc : wild ip -> loc = None \/ loc = Some [] -> chooses m ip loc (loopback m)
| by_name ip : wild ip -> hostname m <> [] -> chooses m ip (Some (hostname m)) (loopback m)
| by_address ip l a : wild ip -> l <> [] -> l <> hostname m -> denotes m l a -> In a (public m) -> chooses m ip (Some l) (loopback m)
| elsewhere ip l a : wild ip -> l <> [] -> l <> hostname m -> denotes m l a -> ~ In a (public m) -> chooses m ip (Some l) a.

(** a name or address of a machine begins with a letter, a digit, or any other character but these two *)
Definition named (l : text) : Prop := forall c r, l = c :: r -> c <> 46%N /\ c <> 40%N.

(** the controller on machine c listens there: on all its interfaces, or on one that others can use *)
Definition open_to_all (M : nat -> machine) (c : nat) (ip : text) : Prop := wild ip \/ (~ wild ip /\ In ip (public (M c))).
