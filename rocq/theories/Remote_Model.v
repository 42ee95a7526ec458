(** Model of ipyparallel/cluster/shellcmd.py (ShellCommandSend, 64-71 and 237-275, 412-524) and shellcmd_receive.py (ShellCommandReceivePosix), with json and base64 of Python's library.
    Simplifications: the other machine runs POSIX; breakaway_support is None there (initialize, 296-372, only sets it on Windows); numbers are natural; a failing command
    (an exception on the other side) is a non-zero exit code, which check_output turns into an exception; mkdir and rmdir are not modelled. *)
From Coq Require Import NArith String List Bool.
From Verif Require Import Batch_Spec Batch_Model Remote_Spec.
Import ListNotations.
Open Scope N_scope.

(* ------------------------------------------------------------ json.dumps: ensure_ascii, separators ", " and ": " *)
Definition hexdigit (n : N) : N := if n <? 10 then 48 + n else 87 + n.
Definition hex4 (n : N) : list N := [hexdigit (n / 4096); hexdigit (n / 256 mod 16); hexdigit (n / 16 mod 16); hexdigit (n mod 16)].
(** json/encoder.py: py_encode_basestring_ascii *)
Definition escape (c : N) : list N :=
  if c =? 34 then [92; 34] else if c =? 92 then [92; 92] else if c =? 10 then [92; 110] else if c =? 13 then [92; 114]
  else if c =? 9 then [92; 116] else if c =? 12 then [92; 102] else if c =? 8 then [92; 98]
  else if (32 <=? c) && (c <=? 126) then [c]
  else if c <? 65536 then 92 :: 117 :: hex4 c
  else let v := c - 65536 in (92 :: 117 :: hex4 (55296 + v / 1024)) ++ 92 :: 117 :: hex4 (56320 + v mod 1024).
Definition dumps_str (s : list N) : list N := 34 :: flat_map escape s ++ [34].
Fixpoint dumps (v : json) : list N :=
  match v with
  | JNull => lit "null" | JBool true => lit "true" | JBool false => lit "false"
  | JNum n => decimal n
  | JStr s => dumps_str s
  | JArr l => 91 :: join (lit ", ") (map dumps l) ++ [93]
  | JObj d => 123 :: join (lit ", ") (map (fun kv => dumps_str (fst kv) ++ lit ": " ++ dumps (snd kv)) d) ++ [125]
  end.

(* ------------------------------------------------------------ json.loads *)
Definition unhex (c : N) : option N :=
  if (48 <=? c) && (c <=? 57) then Some (c - 48) else if (97 <=? c) && (c <=? 102) then Some (c - 87)
  else if (65 <=? c) && (c <=? 70) then Some (c - 55) else None.
Definition unhex4 (a b c d : N) : option N :=
  match unhex a, unhex b, unhex c, unhex d with Some a, Some b, Some c, Some d => Some (a * 4096 + b * 256 + c * 16 + d) | _, _, _, _ => None end.
Definition prepend (c : N) (r : option (list N * list N)) : option (list N * list N) :=
  match r with Some (s, r) => Some (c :: s, r) | None => None end.
(** json/decoder.py: py_scanstring (strict) *)
Fixpoint scanstring (s : list N) : option (list N * list N) :=
  match s with
  | [] => None
  | c :: s =>
      if c =? 34 then Some ([], s)
      else if c =? 92 then
        match s with
        | [] => None
        | e :: s =>
            if e =? 117 then
              match s with
              | a :: b :: c :: d :: s' =>
                  match unhex4 a b c d with
                  | None => None
                  | Some u =>
                      if (55296 <=? u) && (u <=? 56319) then
                        match s' with
                        | x :: y :: a2 :: b2 :: c2 :: d2 :: s'' =>
                            if (x =? 92) && (y =? 117) then
                              match unhex4 a2 b2 c2 d2 with
                              | None => None
                              | Some u2 =>
                                  if (56320 <=? u2) && (u2 <=? 57343) then prepend (65536 + (u - 55296) * 1024 + (u2 - 56320)) (scanstring s'')
                                  else prepend u (scanstring s')
                              end
                            else prepend u (scanstring s')
                        | _ => prepend u (scanstring s')
                        end
                      else prepend u (scanstring s')
                  end
              | _ => None
              end
            else if e =? 34 then prepend 34 (scanstring s) else if e =? 92 then prepend 92 (scanstring s)
            else if e =? 47 then prepend 47 (scanstring s) else if e =? 98 then prepend 8 (scanstring s)
            else if e =? 102 then prepend 12 (scanstring s) else if e =? 110 then prepend 10 (scanstring s)
            else if e =? 114 then prepend 13 (scanstring s) else if e =? 116 then prepend 9 (scanstring s)
            else None
        end
      else if c <? 32 then None
      else prepend c (scanstring s)
  end.
Fixpoint skip (s : list N) : list N :=
  match s with c :: r => if (c =? 32) || (c =? 9) || (c =? 10) || (c =? 13) then skip r else s | [] => [] end.
Fixpoint digits (s : list N) : list N * list N :=
  match s with c :: r => if digit c then let (a, b) := digits r in (c :: a, b) else ([], s) | [] => ([], []) end.
(** A dict: the last value of a key counts, at the place of the first *)
Fixpoint put {A} (k : list N) (v : A) (d : list (list N * A)) : list (list N * A) :=
  match d with [] => [(k, v)] | (k', v') :: d => if eqs k k' then (k', v) :: d else (k', v') :: put k v d end.
(** json/scanner.py: py_make_scanner; decoder.py: JSONObject, JSONArray. [f] bounds the recursion. Simplified: leading zeros are not rejected. *)
Fixpoint value (f : nat) (s : list N) : option (json * list N) :=
  match f with
  | O => None
  | S f =>
      match s with
      | [] => None
      | c :: r =>
          if c =? 34 then match scanstring r with Some (t, r) => Some (JStr t, r) | None => None end
          else if c =? 123 then
            match skip r with
            | d :: r' => if d =? 125 then Some (JObj [], r') else match members f [] (d :: r') with Some (o, r) => Some (JObj o, r) | None => None end
            | [] => None
            end
          else if c =? 91 then
            match skip r with
            | d :: r' => if d =? 93 then Some (JArr [], r') else match elements f (d :: r') with Some (l, r) => Some (JArr l, r) | None => None end
            | [] => None
            end
          else if starts_with (lit "null") s then Some (JNull, skipn 4 s)
          else if starts_with (lit "true") s then Some (JBool true, skipn 4 s)
          else if starts_with (lit "false") s then Some (JBool false, skipn 5 s)
          else if digit c then let (a, b) := digits s in Some (JNum (number a), b)
          else None
      end
  end
with members (f : nat) (acc : list (list N * json)) (s : list N) : option (list (list N * json) * list N) :=
  match f with
  | O => None
  | S f =>
      match s with
      | 34 :: r =>
          match scanstring r with
          | Some (k, r) =>
              match skip r with
              | 58 :: r =>
                  match value f (skip r) with
                  | Some (v, r) =>
                      match skip r with
                      | 44 :: r => members f (put k v acc) (skip r)
                      | 125 :: r => Some (put k v acc, r)
                      | _ => None
                      end
                  | None => None
                  end
              | _ => None
              end
          | None => None
          end
      | _ => None
      end
  end
with elements (f : nat) (s : list N) : option (list json * list N) :=
  match f with
  | O => None
  | S f =>
      match value f s with
      | Some (v, r) =>
          match skip r with
          | 44 :: r => match elements f (skip r) with Some (l, r) => Some (v :: l, r) | None => None end
          | 93 :: r => Some ([v], r)
          | _ => None
          end
      | None => None
      end
  end.
Definition loads (s : list N) : option json :=
  match value (S (length s)) (skip s) with Some (v, r) => match skip r with [] => Some v | _ => None end | None => None end.

(* ------------------------------------------------------------ base64 *)
Definition alphabet : list N := lit "ABCDEFGHIJKLMNOPQRSTUVWXYZabcdefghijklmnopqrstuvwxyz0123456789+/".
Definition code (i : N) : N := nth (N.to_nat i) alphabet 0.
Fixpoint position (c : N) (l : list N) : option N :=
  match l with [] => None | d :: l => if c =? d then Some 0 else match position c l with Some i => Some (i + 1) | None => None end end.
Fixpoint b64encode (s : list N) : list N :=
  match s with
  | [] => []
  | [a] => [code (a / 4); code (a mod 4 * 16); 61; 61]
  | [a; b] => [code (a / 4); code (a mod 4 * 16 + b / 16); code (b mod 16 * 4); 61]
  | a :: b :: c :: s => code (a / 4) :: code (a mod 4 * 16 + b / 16) :: code (b mod 16 * 4 + c / 64) :: code (c mod 64) :: b64encode s
  end.
(** Simplified: characters that are not of the alphabet are an error (Python's decoder would skip them) *)
Fixpoint b64decode (s : list N) : option (list N) :=
  match s with
  | [] => Some []
  | p :: q :: r :: t :: s =>
      match position p alphabet, position q alphabet with
      | Some p, Some q =>
          if (r =? 61) && (t =? 61) then match s with [] => Some [p * 4 + q / 16] | _ => None end
          else
            match position r alphabet with
            | Some r =>
                if t =? 61 then match s with [] => Some [p * 4 + q / 16; q mod 16 * 16 + r / 4] | _ => None end
                else
                  match position t alphabet, b64decode s with
                  | Some t, Some s => Some (p * 4 + q / 16 :: q mod 16 * 16 + r / 4 :: r mod 4 * 64 + t :: s)
                  | _, _ => None
                  end
            | None => None
            end
      | _, _ => None
      end
  | _ => None
  end.
(** utf-8 of texts of ASCII characters (json.dumps gives no others) *)
Definition utf8 (s : list N) : option (list N) := if forallb (fun c => c <? 128) s then Some s else None.

(** shellcmd.py 64-70: _encode *)
Definition encode (v : json) : option (list N) := match utf8 (dumps v) with Some b => Some (b64encode b) | None => None end.
(** shellcmd.py 37-38: _decode *)
Definition decode (s : list N) : option json :=
  match b64decode s with Some b => match utf8 b with Some t => loads t | None => None end | None => None end.

(* ------------------------------------------------------------ the receiver *)
Inductive outcome (A : Type) := Ok (a : A) | Failed.
Arguments Ok {A}. Arguments Failed {A}.

Fixpoint arg (k : string) (kw : list (list N * json)) : option json :=
  match kw with [] => None | (k', v) :: r => if eqs (lit k) k' then Some v else arg k r end.
(** A Python call with keyword arguments: unknown names and missing required ones raise TypeError *)
Definition accepts (required optional : list string) (kw : list (list N * json)) : bool :=
  forallb (fun k => match arg k kw with Some _ => true | None => false end) required &&
  forallb (fun kv => existsb (fun n => eqs (lit n) (fst kv)) (required ++ optional)) kw.

(** str(value) for what is in an environment (texts; numbers) *)
Definition as_text (v : json) : option (list N) :=
  match v with JStr s => Some s | JNum n => Some (decimal n) | _ => None end.
Definition set_env (e : environment) (k : list N) (v : option (list N)) : environment := fun k' => if eqs k k' then v else e k'.
(** shellcmd_receive.py 62-81: _prepare_cmd_start *)
Fixpoint update_env (e : environment) (d : list (list N * json)) : option environment :=
  match d with
  | [] => Some e
  | (k, v) :: d =>
      match v with
      | JNull | JStr [] => update_env (set_env e k None) d
      | _ => match as_text v with Some t => update_env (set_env e k (Some t)) d | None => None end
      end
  end.
Fixpoint texts (l : list json) : option (list (list N)) :=
  match l with [] => Some [] | JStr s :: l => match texts l with Some l => Some (s :: l) | None => None end | _ => None end.
Definition prepare_cmd_start (start_cmd env : json) (e : environment) : option (list (list N) * environment) :=
  match match env with
        | JNull => Some e | JObj d => update_env e d | JStr [] | JArr [] | JBool false | JNum 0 => Some e
        | _ => None end,
        match start_cmd with JStr s => Some [s] | JArr l => texts l | _ => None end with
  | Some e, Some cmd => Some (cmd, e)
  | _, _ => None
  end.
(** 204-217: ShellCommandReceivePosix.cmd_start; [p] is the pid that the system gives to the process *)
Definition recv_start (p : N) (m : machine) (cmd env_ output_file : json) : outcome (machine * list N) :=
  match prepare_cmd_start cmd env_ (env m), match output_file with JNull | JStr [] => Some None | JStr f => Some (Some f) | _ => None end with
  | Some (cmd, e), Some fo =>
      match cmd with
      | [] => Failed                                                             (* Popen([]) raises *)
      | _ => Ok (Machine (env m) (p :: running m) (match fo with Some f => f :: files m | None => files m end) (started m ++ [Process p cmd e fo]) (signals m),
                 lit "__remote_pid=" ++ decimal p ++ lit "__" ++ [nl])
      end
  | _, _ => Failed
  end.
Definition has (p : N) (l : list N) : bool := existsb (N.eqb p) l.
(** 219-226: cmd_running; os.kill(pid, 0) *)
Definition recv_running (m : machine) (p : N) : outcome (machine * list N) :=
  Ok (m, (if has p (running m) then lit "__running=1__" else lit "__running=0__") ++ [nl]).
(** 228-230: cmd_kill *)
Definition recv_kill (m : machine) (p : N) (sig : json) : outcome (machine * list N) :=
  match sig with
  | JNum g => if has p (running m) then Ok (Machine (env m) (running m) (files m) (started m) (signals m ++ [(p, g)]), []) else Failed
  | _ => Failed                                                                  (* os.kill(pid, None) raises TypeError *)
  end.
Definition has_file (f : list N) (l : list (list N)) : bool := existsb (eqs f) l.
(** 103-108: cmd_exists *)
Definition recv_exists (m : machine) (f : list N) : outcome (machine * list N) :=
  Ok (m, (if has_file f (files m) then lit "__exists=1__" else lit "__exists=0__") ++ [nl]).
(** 110-112: cmd_remove *)
Definition recv_remove (m : machine) (f : list N) : outcome (machine * list N) :=
  if has_file f (files m) then Ok (Machine (env m) (running m) (filter (fun g => negb (eqs f g)) (files m)) (started m) (signals m), []) else Failed.

Definition dflt (o : option json) : json := match o with Some v => v | None => JNull end.
(** shellcmd.py 32-46: the program that is sent; ShellCommandReceive (233-246) accepts debugging, use_breakaway and log *)
Definition receive (p : N) (m : machine) (method : string) (inputs_encoded : list N) : outcome (machine * list N) :=
  match decode inputs_encoded with
  | Some (JObj d) =>
      match arg "receive_parameters" d, arg "command_parameters" d with
      | Some (JObj rp), Some (JObj kw) =>
          if negb (accepts [] ["debugging"; "use_breakaway"; "log"]%string rp) then Failed
          else if String.eqb method "cmd_start" then
            if accepts ["cmd"%string] ["env"; "output_file"]%string kw then recv_start p m (dflt (arg "cmd" kw)) (dflt (arg "env" kw)) (dflt (arg "output_file" kw)) else Failed
          else if String.eqb method "cmd_running" then
            if accepts ["pid"%string] [] kw then match arg "pid" kw with Some (JNum q) => recv_running m q | _ => Failed end else Failed
          else if String.eqb method "cmd_kill" then
            if accepts ["pid"%string] ["sig"%string] kw then match arg "pid" kw with Some (JNum q) => recv_kill m q (dflt (arg "sig" kw)) | _ => Failed end else Failed
          else if String.eqb method "cmd_exists" then
            if accepts ["path"%string] [] kw then match arg "path" kw with Some (JStr f) => recv_exists m f | _ => Failed end else Failed
          else if String.eqb method "cmd_remove" then
            if accepts ["path"%string] [] kw then match arg "path" kw with Some (JStr f) => recv_remove m f | _ => Failed end else Failed
          else Failed
      | _, _ => Failed
      end
  | _ => Failed
  end.

(* ------------------------------------------------------------ the sender *)
(** The other side: the machine, the pid its system gives next, and what its shell writes before and after what the command writes *)
Record link := Link { machine_of : machine; next_pid : N; before : list N; after : list N; debugging : bool }.
(** 237-268: _cmd_send *)
Definition cmd_send (w : link) (method : string) (kwargs : list (list N * json)) : outcome (machine * list N) :=
  let receive_params := if debugging w then [(lit "debugging", JBool true); (lit "log", JStr (lit "~/ipp_shellcmd.log"))] else [] in
  match encode (JObj [(lit "receive_parameters", JObj receive_params); (lit "command_parameters", JObj kwargs)]) with
  | Some e => match receive (next_pid w) (machine_of w) method e with
              | Ok (m, out) => Ok (m, before w ++ out ++ after w)
              | Failed => Failed
              end
  | None => Failed
  end.

(** re: __([a-z][a-z0-9_]+)=([a-z0-9\-\.]+)__ , ignoring case (of ASCII letters). The classes do not contain the character that follows them, so a match is found without going back. *)
Definition alpha (c : N) : bool := letter c && negb (c =? 95).
Definition key_char (c : N) : bool := letter c || digit c.
Definition value_char (c : N) : bool := alpha c || digit c || is c "-.".
Fixpoint span (f : N -> bool) (s : list N) : list N * list N :=
  match s with c :: r => if f c then let (a, b) := span f r in (c :: a, b) else ([], s) | [] => ([], []) end.
Definition tail_match (c : N) (r : list N) : option (list N * list N * list N) :=
  match span key_char r with
  | ((_ :: _) as k, e :: r) =>
      if e =? 61 then
        match span value_char r with
        | ((_ :: _) as v, x :: y :: r) => if (x =? 95) && (y =? 95) then Some (c :: k, v, r) else None
        | _ => None
        end
      else None
  | _ => None
  end.
Definition match_here (s : list N) : option (list N * list N * list N) :=
  match s with
  | x :: y :: c :: r => if (x =? 95) && (y =? 95) && alpha c then tail_match c r else None
  | _ => None
  end.
(** findall; [f] bounds the number of positions *)
Fixpoint findall (f : nat) (s : list N) : list (list N * list N) :=
  match f with
  | O => []
  | S f =>
      match match_here s with
      | Some (k, v, r) => (k, v) :: findall f r
      | None => match s with [] => [] | _ :: s => findall f s end
      end
  end.
Definition last_of (k : list N) (l : list (list N * list N)) : option (list N) :=
  fold_left (fun r kv => if eqs k (fst kv) then Some (snd kv) else r) l None.
(** int(...) of a text of digits *)
Definition as_int (s : list N) : option N := if forallb digit s && nonempty s then Some (number s) else None.
(** 270-276: _get_pid *)
Definition get_pid (output : list N) : outcome N :=
  match last_of (lit "remote_pid") (findall (S (length output)) output) with
  | Some v => match as_int v with Some p => Ok p | None => Failed end
  | None => Failed
  end.
Fixpoint contains (p s : list N) : bool :=
  starts_with p s || match s with [] => false | _ :: s => contains p s end.

Definition jopt (o : option (list N)) : json := match o with Some s => JStr s | None => JNull end.
Definition jenv (e : option changes) : json :=
  match e with None => JNull | Some cs => JObj (map (fun kv => (fst kv, jopt (snd kv))) cs) end.
(** A command: a text or a list of texts *)
Inductive command := One (s : list N) | Many (l : list (list N)).
Definition jcmd (c : command) : json := match c with One s => JStr s | Many l => JArr (map JStr l) end.

(** 424-436: cmd_start *)
Definition cmd_start (w : link) (cmd : command) (e : option changes) (output_file : option (list N)) : outcome (machine * N) :=
  match cmd_send w "cmd_start" [(lit "cmd", jcmd cmd); (lit "env", jenv e); (lit "output_file", jopt output_file)] with
  | Ok (m, out) => match get_pid out with Ok p => Ok (m, p) | Failed => Failed end
  | Failed => Failed
  end.
(** 474-486 *)
Definition cmd_running (w : link) (p : N) : outcome (machine * bool) :=
  match cmd_send w "cmd_running" [(lit "pid", JNum p)] with
  | Ok (m, out) => if contains (lit "__running=1__") out then Ok (m, true) else if contains (lit "__running=0__") out then Ok (m, false) else Failed
  | Failed => Failed
  end.
(** 488-494 *)
Definition cmd_kill (w : link) (p : N) (sig : option N) : outcome machine :=
  match cmd_send w "cmd_kill" ([(lit "pid", JNum p)] ++ match sig with Some 0 | None => [] | Some g => [(lit "sig", JNum g)] end) with
  | Ok (m, _) => Ok m
  | Failed => Failed
  end.
(** 506-518 *)
Definition cmd_exists (w : link) (f : list N) : outcome (machine * bool) :=
  match cmd_send w "cmd_exists" [(lit "path", JStr f)] with
  | Ok (m, out) => if contains (lit "__exists=1__") out then Ok (m, true) else if contains (lit "__exists=0__") out then Ok (m, false) else Failed
  | Failed => Failed
  end.
(** 520-523 *)
Definition cmd_remove (w : link) (f : list N) : outcome machine :=
  match cmd_send w "cmd_remove" [(lit "path", JStr f)] with Ok (m, _) => Ok m | Failed => Failed end.
