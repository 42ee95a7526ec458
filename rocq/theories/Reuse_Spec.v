(** Connection files and controllers (C88).  Independent of the code.  Keys, ports and the like are numbers: only whether they are equal matters. *)
From Coq Require Import NArith List.
Import ListNotations.

(** What a connection file says: the key that signs messages, how messages are written (packer, unpacker, signature scheme), the key to encrypt for,
    the port of the registration, the other addresses and ports of this side, and where the controller is *)
Record cfile := CFile { key : N; format : N; curve : option N; reg : N; ports : N; location : N; ssh : N }.
(** A file: not there; not JSON (a writer was killed); JSON without a field that is needed *)
Inductive content := Missing | Garbled | Lacks | Good (f : cfile).
Record disk := Disk { engine_file : content; client_file : content }.

(** A controller that runs: its keys, and where it listens *)
Record running := Running { r_key : N; r_format : N; r_curve : option N; r_reg : N; r_engine : N; r_client : N; r_location : N }.
(** Who reads this file can talk to the controller: through the ports for engines, or for clients *)
Definition talks (f : cfile) (r : running) : Prop := key f = r_key r /\ format f = r_format r /\ curve f = r_curve r /\ reg f = r_reg r /\ location f = r_location r.
Definition engines_talk (c : content) (r : running) : Prop := exists f, c = Good f /\ talks f r /\ ports f = r_engine r.
Definition clients_talk (c : content) (r : running) : Prop := exists f, c = Good f /\ talks f r /\ ports f = r_client r.
