(** Model of how a launcher notices that its process has ended, and of stop() (ipyparallel/cluster/launcher.py): LocalProcessLauncher._wait, _start_waiting, join, stop, signal
    (506-533, 566-574, 617-648), SSHLauncher._wait, _start_waiting, wait_one, join, signal (1330-1395), ssh_waitpid (1066-1078) and notify_stop (282-297).
    The thread that waits, the event loop and the process take steps in any order. [remote]: SSHLauncher.
    Simplifications: one process per launcher (a process number is not used again); stop() is not called while it runs; callbacks of notify_stop are only counted;
    a process that gets a signal may end at once, later or (TERM) never. *)
From Coq Require Import List Bool Arith.
Import ListNotations.

Inductive signal := Term | Kill.
(** Where the thread is in _wait: at the head of the loop; in a poll, which began when the process existed or not; after add_callback; ended by an exception *)
Inductive thread := Head | Polling (alive_then : bool) | Finished | Crashed.
(** Where stop() is: not called; in the first join (which began when the process existed or not); in the second; in _wait_thread.join() of SSHLauncher.join; returned; raised *)
Inductive stopping := Idle | Joining (second : bool) (alive_then : bool) | Joined | Returned | Raised.
Record launcher := Launcher {
  alive : bool;                    (* the process exists *)
  running : bool;                  (* self.state == 'running' *)
  stop_waiting : bool;             (* self._stop_waiting.is_set() *)
  waiter : thread;
  queued : nat;                    (* calls of notify_stop that the loop has yet to make *)
  notified : nat;                  (* calls of notify_stop made *)
  sent : list signal;              (* signals sent to the process, the last first *)
  stop : stopping }.
(** after start(), or from_dict() of a process that exists: _start_waiting has been called *)
Definition started : launcher := Launcher true true false Head 0 0 [] Idle.

Inductive label :=
| Ends                             (* the process ends by itself, or because of a signal *)
| Check                            (* the thread evaluates the condition of the loop *)
| PollSaysEnded | PollSaysRunning | PollFails
| Callback                         (* the loop calls notify_stop *)
| StopCalled (delivered : bool)    (* stop() is called: TERM is sent, unless that fails (it is logged) *)
| JoinEnds | JoinTimesOut (delivered : bool) | JoinFails
| ThreadJoined.
Definition of_thread (l : label) : bool := match l with Check | PollSaysEnded | PollSaysRunning | PollFails => true | _ => false end.
Definition of_stop (l : label) : bool := match l with StopCalled _ | JoinEnds | JoinTimesOut _ | JoinFails | ThreadJoined => true | _ => false end.
Definition thread_done (t : thread) : bool := match t with Finished | Crashed => true | _ => false end.
(** The event loop is blocked in Thread.join: in join() of a local process (569), in SSHLauncher.join (1391) *)
Definition blocked (remote : bool) (s : stopping) : bool := match s with Joining _ _ => negb remote | Joined => true | _ => false end.
Definition can_stop (s : stopping) : bool := match s with Idle | Returned | Raised => true | _ => false end.

(** 641-648, 1393-1395: a signal is sent only if the state is 'running'; [delivered]: it did not fail *)
Definition signalled (g : signal) (delivered : bool) (s : launcher) : list signal := if running s && delivered then g :: sent s else sent s.

Inductive step (remote : bool) : launcher -> label -> launcher -> Prop :=
| S_ends s : alive s = true -> step remote s Ends (Launcher false (running s) (stop_waiting s) (waiter s) (queued s) (notified s) (sent s) (stop s))
(* while not self._stop_waiting.is_set() and self.state == 'running' (509, 1333) *)
| S_poll s : waiter s = Head -> stop_waiting s = false -> running s = true ->
    step remote s Check (Launcher (alive s) (running s) (stop_waiting s) (Polling (alive s)) (queued s) (notified s) (sent s) (stop s))
| S_leave s : waiter s = Head -> stop_waiting s = true \/ running s = false ->
    step remote s Check (Launcher (alive s) (running s) (stop_waiting s) Finished (S (queued s)) (notified s) (sent s) (stop s))
(* 512-519, 1335-1342: break, and add_callback *)
| S_ended s a : waiter s = Polling a -> alive s = false ->
    step remote s PollSaysEnded (Launcher (alive s) (running s) (stop_waiting s) Finished (S (queued s)) (notified s) (sent s) (stop s))
(* TimeoutExpired, TimeoutError: continue. The answer may be old. *)
| S_running s : waiter s = Polling true ->
    step remote s PollSaysRunning (Launcher (alive s) (running s) (stop_waiting s) Head (queued s) (notified s) (sent s) (stop s))
(* CalledProcessError of ssh, or RuntimeError (1367): not caught *)
| S_fails s a : remote = true -> waiter s = Polling a ->
    step remote s PollFails (Launcher (alive s) (running s) (stop_waiting s) Crashed (queued s) (notified s) (sent s) (stop s))
(* notify_stop: 282-297 *)
| S_callback s n : queued s = S n -> blocked remote (stop s) = false ->
    step remote s Callback (Launcher (alive s) false (stop_waiting s) (waiter s) n (S (notified s)) (sent s) (stop s))
(* stop: 617-623 *)
| S_stop s delivered : can_stop (stop s) = true ->
    step remote s (StopCalled delivered) (Launcher (alive s) (running s) (stop_waiting s) (waiter s) (queued s) (notified s) (signalled Term delivered s) (Joining false (alive s)))
(* join of a local process: the thread has ended (566-574) *)
| S_join_local s b a : remote = false -> stop s = Joining b a -> thread_done (waiter s) = true ->
    step remote s JoinEnds (Launcher (alive s) (running s) (stop_waiting s) (waiter s) (queued s) (notified s) (sent s) Returned)
(* join over ssh: wait_one says that the process has ended (1376-1388) *)
| S_join_remote s b a : remote = true -> stop s = Joining b a -> alive s = false ->
    step remote s JoinEnds (Launcher (alive s) (running s) true (waiter s) (queued s) (notified s) (sent s) Joined)
| S_thread_joined s : stop s = Joined -> thread_done (waiter s) = true ->
    step remote s ThreadJoined (Launcher (alive s) (running s) (stop_waiting s) (waiter s) (queued s) (notified s) (sent s) Returned)
(* the first join times out: KILL, and the second (624-639) *)
| S_timeout s a delivered : stop s = Joining false a -> (if remote then a = true else thread_done (waiter s) = false) ->
    step remote s (JoinTimesOut delivered) (Launcher (alive s) (running s) (stop_waiting s) (waiter s) (queued s) (notified s) (signalled Kill delivered s) (Joining true (alive s)))
| S_timeout_again s a delivered : stop s = Joining true a -> (if remote then a = true else thread_done (waiter s) = false) ->
    step remote s (JoinTimesOut delivered) (Launcher (alive s) (running s) (stop_waiting s) (waiter s) (queued s) (notified s) (sent s) Raised)
(* another exception out of join: not caught (624-631) *)
| S_join_fails s b a : remote = true -> stop s = Joining b a ->
    step remote s JoinFails (Launcher (alive s) (running s) (stop_waiting s) (waiter s) (queued s) (notified s) (sent s) Raised).

Inductive run (remote : bool) : launcher -> list label -> launcher -> Prop :=
| Run_nil s : run remote s [] s
| Run_cons s l t ls u : step remote s l t -> run remote t ls u -> run remote s (l :: ls) u.
