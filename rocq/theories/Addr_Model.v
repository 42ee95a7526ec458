(** What clients and engines connect to.  ipyparallel/util.py 188-275, client/client.py 490-600, 730-790, engine/app.py 390-425, 472-530, 600-680.
    Simplified: every function of the operating system (names, addresses) is a field of [machine], and does not change; locations are written with
    letters, digits and the characters . - _ : (which mean themselves in a regular expression, but '.'). *)
From Coq Require Import NArith String Ascii List Bool.
From Verif Require Import Addr_Spec.
Import ListNotations.

Definition eqt (a b : text) : bool := if list_eq_dec N.eq_dec a b then true else false.
Definition mem (a : text) (l : list text) : bool := existsb (eqt a) l.

(** s.split(sep): the text before the first sep, and after it *)
Fixpoint starts (p s : text) : bool :=
  match p, s with [], _ => true | c :: p, d :: s => N.eqb c d && starts p s | _ :: _, [] => false end.
Fixpoint cut (sep s : text) : option (text * text) :=
  if starts sep s then Some ([], skipn (length sep) s)
  else match s with
       | [] => None
       | c :: r => match cut sep r with Some (a, b) => Some (c :: a, b) | None => None end
       end.
(** s.split(sep) has two elements *)
Definition two (sep s : text) : option (text * text) :=
  match cut sep s with
  | Some (a, b) => match cut sep b with None => Some (a, b) | Some _ => None end
  | None => None
  end.

(** util.py 188-197: split_url. None: AssertionError *)
Definition split_url (url : text) : option (text * text * text) :=
  match two (txt "://") url with
  | None => None
  | Some (proto, addr) => match two (txt ":") addr with None => None | Some (addr, port) => Some (proto, addr, port) end
  end.

(** util.py 200-205: is_ip. re.match(location, r'(\d+\.){3}\d+'): the location is taken as the pattern, and the pattern as the string *)
Fixpoint matches (p s : text) : bool :=
  match p, s with [], _ => true | c :: p, d :: s => (N.eqb c 46 || N.eqb c d) && matches p s | _ :: _, [] => false end.
Definition is_ip (location : text) : bool := matches location (txt "(\d+\.){3}\d+").

(** util.py 208-222: ip_for_host *)
Definition ip_for_host (m : machine) (host : text) : text := match resolve m host with Some a => a | None => host end.

(** util.py 225-259: disambiguate_ip_address; 'not location': None or empty *)
Definition disambiguate_ip (m : machine) (ip : text) (location : option text) : text :=
  if mem ip [txt "0.0.0.0"; txt "*"] then
    match location with
    | None | Some [] => loopback m
    | Some ((_ :: _) as l) =>
        if negb (is_ip l) && eqt l (hostname m) then loopback m
        else let l := if is_ip l then l else ip_for_host m l in
             if mem l (public m) then loopback m else l
    end
  else ip.

(** util.py 262-275: disambiguate_url *)
Definition disambiguate_url (m : machine) (url : text) (location : option text) : text :=
  match split_url url with
  | None => url
  | Some (proto, ip, port) => proto ++ txt "://" ++ disambiguate_ip m ip location ++ txt ":" ++ port
  end.

(** The connection file (controller/app.py 925-945). [ssh] may be the empty text (the default). Simplified: ports are texts; the file has all its keys. *)
Record conn_file := File { interface : text; location : option text; ssh : option text; port : text -> text; leaves : list text; serverkey : option text }.

Definition truthy (t : option text) : bool := match t with Some (_ :: _) => true | _ => false end.

(** client.py 500-507: the address.  None: ValueError *)
Definition address (m : machine) (f : conn_file) (loc : option text) : option (text * text) :=
  match two (txt "://") (interface f) with
  | None => None
  | Some (proto, addr) => Some (proto, disambiguate_ip m addr loc)
  end.

(** client.py 527-563: the ssh server, and whether there is a warning *)
Definition choose_ssh (m : machine) (f : conn_file) (addr : text) (sshserver : option text) : option text * bool :=
  match location f with
  | Some loc =>
      if eqt addr (loopback m) then
        let ip := ip_for_host m loc in
        let s := if negb (mem ip (local m)) && negb (truthy sshserver) then ssh f else sshserver in
        (s, negb (mem ip (local m)) && negb (truthy s) && negb (eqt loc (hostname m)))
      else (if truthy sshserver then sshserver else ssh f, false)
  | None => (if truthy sshserver then sshserver else ssh f, false)
  end.
(** client.py 567-570: self._ssh, and the server *)
Definition use_ssh (addr : text) (s sshkey password : option text) : option text :=
  if truthy s || truthy sshkey || truthy password then match s with Some s => Some s | None => Some addr end else None.

(** client.py 487-489: the key of the controller: the file's, else the environment's *)
Definition nonempty (t : option text) : option text := if truthy t then t else None.
Definition client_key (f : conn_file) (env : option text) : option text := if truthy (serverkey f) then serverkey f else nonempty env.

Definition others : list text := map txt ["mux"; "task"; "broadcast"; "notification"; "control"; "iopub"]%string.

(** client.py 585-600 (the registration socket) and 738-790 (the others), 789-807 of util.py: connections in the order they are made *)
Definition client (m : machine) (f : conn_file) (env sshserver sshkey password : option text) : option (list connection * bool) :=
  match address m f (location f) with
  | None => None
  | Some (proto, addr) =>
      let '(s, warn) := choose_ssh m f addr sshserver in
      let v := use_ssh addr s sshkey password in
      let url k := proto ++ txt "://" ++ addr ++ txt ":" ++ port f k in
      let k := client_key f env in
      Some (Connection (url (txt "registration")) v k
              :: map (fun c => Connection (url c) v (match v with Some _ => None | None => k end)) others, warn)
  end.

(** engine/app.py 392-425 (load_connection_file), 472-530 (init_connector), 640-670, 773-778.
    [cli]: the location given on the command line; [sshserver], [sshkey] may be empty; [nanny]: the address of the nanny, if there is one.
    The connections: registration, mux, task, the leaf of the broadcast tree, control, iopub, and those of the heart. *)
Definition engine_location (f : conn_file) (cli : option text) : option text := match cli with Some l => Some l | None => location f end.
(** s.split(sep)[0] *)
Definition before (sep s : text) : text := match cut sep s with Some (a, _) => a | None => s end.
Definition engine_ssh (f : conn_file) (registration sshserver sshkey : text) : option text :=
  let s := if truthy (Some sshserver) then Some sshserver else ssh f in
  if truthy (Some sshkey) || truthy s then
    (if truthy (Some sshkey) && negb (truthy s)
     then Some (before (txt ":") (before (txt "://") (match cut (txt "://") registration with Some (_, r) => r | None => [] end)))
     else s)
  else None.
(** the key of the controller: the file's, else the engine's own configuration or environment *)
Definition engine_key (f : conn_file) (own : option text) : option text := if truthy (serverkey f) then serverkey f else nonempty own.

(** nanny: None, or the address of the engine's nanny and the engine's own public key.  None: ValueError (interface), or IndexError (no leaves: cannot be) *)
Definition engine (m : machine) (f : conn_file) (cli own : option text) (sshserver sshkey : text) (nanny : option (text * text)) (id : nat) : option (list connection) :=
  let loc := engine_location f cli in
  match address m f loc with
  | None => None
  | Some (proto, addr) =>
      let url p := proto ++ txt "://" ++ addr ++ txt ":" ++ p in
      let v := engine_ssh f (url (port f (txt "registration"))) sshserver sshkey in
      let k := engine_key f own in
      let connect u k := Connection (disambiguate_url m u loc) v k in
      match nth_error (leaves f) (Nat.modulo id (length (leaves f))) with
      | None => None
      | Some leaf =>
          Some [connect (url (port f (txt "registration"))) k; connect (url (port f (txt "mux"))) k; connect (url (port f (txt "task"))) k; connect (url leaf) k;
                match nanny with
                | None => connect (url (port f (txt "control"))) k
                | Some (u, own_key) => connect u (match k with Some _ => Some own_key | None => None end)
                end;
                connect (url (port f (txt "iopub"))) k; connect (url (port f (txt "hb_ping"))) k; connect (url (port f (txt "hb_pong"))) k]
      end
  end.
(** engine/nanny.py 205-216 and 112-127: what the nanny itself connects to: the controller's control channel, and at the end the registration *)
Definition nanny_connections (m : machine) (f : conn_file) (cli own : option text) : option (list connection) :=
  match address m f (engine_location f cli) with
  | None => None
  | Some (proto, addr) =>
      let url p := proto ++ txt "://" ++ addr ++ txt ":" ++ p in
      Some [Connection (url (port f (txt "control"))) None (engine_key f own); Connection (url (port f (txt "registration"))) None (engine_key f own)]
  end.
