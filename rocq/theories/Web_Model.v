(** The web service: ipyparallel/nbextension/handlers.py 24-165, on the model of the ClusterManager (Manager_Model).
    Simplified: a request to start or to stop a cluster is two steps, its beginning and its end, between which anything may happen; what starting and stopping
    do to the cluster is [Around]. Bodies have only the fields profile, cluster_id and n; their values are of the right types or null. *)
From Coq Require Import NArith String List Bool.
From Verif Require Import Batch_Spec Manager_Spec Manager_Model Manager_Notions Web_Spec.
Import ListNotations.

(** handlers.py 29-49, cluster.py 445: 'controller' is there iff it is not after *)
Definition model (home : path) (kc : list N * cluster) : entry :=
  Entry (fst kc) (abbreviate home (profile_dir (snd kc))) (cluster_id (snd kc)) (match controller (snd kc) with Some s => not_after s | None => false end).

(** a < b for texts, as Python has it *)
Fixpoint ltt (a b : list N) : bool :=
  match a, b with
  | [], [] => false
  | [], _ :: _ => true
  | _ :: _, [] => false
  | c :: a, d :: b => if N.eqb c d then ltt a b else N.ltb c d
  end.
(** 62-83: sort_key, and a < b for such tuples: the first components that differ decide *)
Definition sort_key (a : entry) : bool * bool * bool * list N * list N :=
  (negb (started a), negb (eqs (profile_name a) (lit "default")), negb (eqs (cluster_name a) []), profile_name a, cluster_name a).
Definition ltb (a b : bool) : bool := negb a && b.
Definition lt_key (x y : bool * bool * bool * list N * list N) : bool :=
  let '(a1, a2, a3, a4, a5) := x in
  let '(b1, b2, b3, b4, b5) := y in
  if negb (Bool.eqb a1 b1) then ltb a1 b1
  else if negb (Bool.eqb a2 b2) then ltb a2 b2
  else if negb (Bool.eqb a3 b3) then ltb a3 b3
  else if negb (eqs a4 b4) then ltt a4 b4
  else ltt a5 b5.
(** sorted(l, key=...): stable *)
Fixpoint insert (a : entry) (l : list entry) : list entry :=
  match l with [] => [a] | b :: r => if lt_key (sort_key b) (sort_key a) then b :: insert a r else a :: b :: r end.
Definition sorted (l : list entry) : list entry := fold_right insert [] l.

(** 56-97: GET /clusters *)
Definition list_clusters (home : path) (alive : N -> bool) (all : list path) (s : state) : state * answer :=
  let s := load home alive true all s in (s, Listed (sorted (map (model home) (clusters s)))).

(** 99-120: POST /clusters. A value: absent or null; or a text. *)
Definition cleared (v : option (list N)) : option (list N) := match v with Some [] => None | v => v end.
Record body := Body { b_profile : option (list N); b_id : option (list N) }.
(** [dir_of]: the directory of a profile name, None: of no name; [abspath]; [random]: a random cluster id *)
Definition create (home : path) (dir_of : option (list N) -> path) (abspath : path -> path) (random : list N) (b : body) (s : state) : state * answer :=
  let profile := cleared (b_profile b) in
  let id := cleared (b_id b) in
  let is_path := match profile with Some p => existsb (N.eqb 47) p | None => false end in
  let profile_name := if is_path then None else profile in
  let dir := if is_path then match profile with Some p => abspath p | None => [] end else dir_of profile_name in
  let id := match profile_name, id with
            | Some p, None => if has (p ++ lit ":") (clusters s) then random else []
            | _, Some i => i
            | None, None => random
            end in
  match new_cluster home dir id s with
  | None => (s, ServerError)
  | Some (k, s') => match get_cluster k s' with Some c => (s', OK (model home (k, c))) | None => (s', ServerError) end
  end.

(** 133-137, 151-153: GET /clusters/k *)
Definition show (home : path) (k : list N) (s : state) : answer := match get_cluster k s with Some c => OK (model home (k, c)) | None => NotFound end.
(** 139-147: POST /clusters/k, the beginning. n: absent or null; an int; anything else *)
Inductive number := NoNumber | Int | Other.
Definition start (k : list N) (n : number) (s : state) : answer :=
  match get_cluster k s with
  | None => NotFound
  | Some c => match n with Other => BadRequest | _ => Waits (serial c) end
  end.
(** 155-160: DELETE /clusters/k, the beginning and the end *)
Definition delete_begins (k : list N) (s : state) : answer := match get_cluster k s with None => NotFound | Some c => Waits (serial c) end.
Definition delete_ends (k : list N) (s : state) : state * answer :=
  match remove_cluster k s with None => (s, ServerError) | Some s' => (s', Deleted) end.

(** What happens to the service *)
Inductive wevent := WList | WCreate | WDelete (k : list N) | WAround.
Inductive wstep (home : path) : state * (N -> bool) -> wevent -> state * (N -> bool) -> Prop :=
| W_list s alive all : wstep home (s, alive) WList (fst (list_clusters home alive all s), alive)
| W_create s alive dir_of abspath random b : wstep home (s, alive) WCreate (fst (create home dir_of abspath random b s), alive)
| W_delete s alive k : wstep home (s, alive) (WDelete k) (fst (delete_ends k s), alive)
| W_around s alive s' : step home (s, alive) Around s' -> wstep home (s, alive) WAround s'.
Inductive wrun (home : path) (ok : wevent -> Prop) : state * (N -> bool) -> state * (N -> bool) -> Prop :=
| wrun_here s : wrun home ok s s
| wrun_on s e s' t : ok e -> wstep home s e s' -> wrun home ok s' t -> wrun home ok s t.
