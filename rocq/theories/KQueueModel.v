(** Model of the kqueue child watcher: watcher.py 155-251 (KQueueStrategy),
    432-474 (_poll_dead_pid, _invoke_callback), util.py 84-116 (wait_pid).

    Any number of threads may call [watch_pid]; one thread calls [close] (a
    strategy is closed at most once: watcher.py 118-123); the watching thread
    runs [_run]; children exit at any moment.  Every step is one atomic operation
    (a dictionary operation, a system call) and all interleavings are executions.

    Simplifications:
    - each child is watched at most once (watcher.py 52) and nobody else reaps
      the children while they are watched; a child whose watch_pid raised may be
      reaped by other code;
    - the kernel: the NOTE_EXIT event of a process may come before the process
      can be waited for (the comment in watcher.py 236-237), so a process that
      exits is "dying" first; registering a dying or dead process either fails
      with ESRCH or gives the event at once (macOS and FreeBSD differ);
    - [ordered] says whether kevent reports events in the order in which they
      were triggered;
    - [quick] says whether a dying process can be waited for by the time that a
      sleep (watcher.py 238, 439) is over;
    - [bad_cb] says whether callbacks may raise something other than
      RuntimeError;
    - a time-out of kevent (217) only repeats the call and is no step;
    - logging is left out. *)
From Verif Require Import Base EPollModel.
From Coq Require Import List ZArith Lia Bool Permutation.
Import ListNotations.
Local Open Scope nat_scope.

(** A process, named by identity; its pid can be used again after it was reaped. *)
Inductive qst := QNone | QRun (pid : Z) | QDying (pid s : Z) | QZombie (pid s : Z) | QReaped (pid s : Z).
Definition qpid (x : qst) : option Z :=
  match x with QNone => None | QRun n => Some n | QDying n _ => Some n | QZombie n _ => Some n | QReaped n _ => Some n end.
(** The process that the kernel means by this pid. *)
Definition qholds (x : qst) (n : Z) : Prop :=
  match x with QRun m => m = n | QDying m _ => m = n | QZombie m _ => m = n | _ => False end.

(** An event: the exit of a process (event.ident is its pid) or the dummy timer. *)
Inductive qev := QProc (p : nat) | QTimer.

(** The call [watch_pid] number [k]. *)
Inductive qpc :=
| QIdle                      (* not called yet *)
| QCheck                     (* 190: before the assert *)
| QSet                       (* 191: before self._pids[pid] = ... *)
| QAdd                       (* 194: before _add_kevent *)
| QOk                        (* returned *)
| QPop                       (* 201: ESRCH, before self._pids.pop(pid) *)
| QWait                      (* 205: before wait_pid *)
| QCall (s : Z)              (* 207: before the callback *)
| QTask                      (* 210: before create_task *)
| QPoll (n : nat)            (* 439: the polling task, [n] polls to go *)
| QLate (s : Z)              (* 442: before the callback of the polling task *)
| QEnd                       (* all done *)
| QRejected                  (* AssertionError (190) *)
| QRaised.                   (* _add_kevent or create_task or the callback raised *)

(** The watching thread. *)
Inductive qtpc :=
| TkPoll                                   (* 217 *)
| TkLoop (pending : list qev)              (* 218 *)
| TkPop (p : nat) (rest : list qev)        (* 230 *)
| TkWait (k : nat) (rest : list qev)       (* 234 *)
| TkSleep (k : nat) (rest : list qev)      (* 238 *)
| TkWait2 (k : nat) (rest : list qev)      (* 239 *)
| TkCall (k : nat) (s : Z) (rest : list qev) (* 242 *)
| TkFin                                    (* 226: finally *)
| TkDone.

(** The caller of [close]. *)
Inductive qcpc := DIdle | DAdd | DJoin | DDone | DRaised.

(** What can be observed (latest first in the log). *)
Inductive qlev :=
| QLExit (p : nat) (s : Z)       (* process p has exited and can be waited for *)
| QLWatched (k : nat)            (* watch_pid number k returned normally *)
| QLRejected (k : nat)           (* watch_pid number k raised AssertionError *)
| QLCall (k : nat) (s : Z)       (* the callback of watch k was called *)
| QLClosing                      (* close() was called *)
| QLClosed                       (* close() has returned *)
| QLCloseRaised                  (* close() raised ValueError *)
| QLFree.                        (* the kqueue descriptor was closed *)

Record kst := mk_kst {
  k_proc  : nat -> qst;
  k_dict  : Z -> option nat;            (* self._pids: pid -> watch (callback, args) *)
  k_note  : nat -> bool;                (* a process has a registered event *)
  k_ready : list qev;                   (* triggered events *)
  k_open  : bool;                       (* self._kqueue is not closed *)
  k_pc    : qtpc;
  k_wproc : nat -> nat;                 (* the process watched by watch k *)
  k_pid   : nat -> Z;                   (* the argument pid of watch k *)
  k_w     : nat -> qpc;
  k_close : qcpc;
  k_log   : list qlev }.

Definition q_proc v s := mk_kst v (k_dict s) (k_note s) (k_ready s) (k_open s) (k_pc s) (k_wproc s) (k_pid s) (k_w s) (k_close s) (k_log s).
Definition q_dict v s := mk_kst (k_proc s) v (k_note s) (k_ready s) (k_open s) (k_pc s) (k_wproc s) (k_pid s) (k_w s) (k_close s) (k_log s).
Definition q_note v s := mk_kst (k_proc s) (k_dict s) v (k_ready s) (k_open s) (k_pc s) (k_wproc s) (k_pid s) (k_w s) (k_close s) (k_log s).
Definition q_ready v s := mk_kst (k_proc s) (k_dict s) (k_note s) v (k_open s) (k_pc s) (k_wproc s) (k_pid s) (k_w s) (k_close s) (k_log s).
Definition q_open v s := mk_kst (k_proc s) (k_dict s) (k_note s) (k_ready s) v (k_pc s) (k_wproc s) (k_pid s) (k_w s) (k_close s) (k_log s).
Definition q_pc v s := mk_kst (k_proc s) (k_dict s) (k_note s) (k_ready s) (k_open s) v (k_wproc s) (k_pid s) (k_w s) (k_close s) (k_log s).
Definition q_close v s := mk_kst (k_proc s) (k_dict s) (k_note s) (k_ready s) (k_open s) (k_pc s) (k_wproc s) (k_pid s) (k_w s) v (k_log s).
Definition q_log e s := mk_kst (k_proc s) (k_dict s) (k_note s) (k_ready s) (k_open s) (k_pc s) (k_wproc s) (k_pid s) (k_w s) (k_close s) (e :: k_log s).
Definition q_w k v s := mk_kst (k_proc s) (k_dict s) (k_note s) (k_ready s) (k_open s) (k_pc s) (k_wproc s) (k_pid s) (fset (k_w s) k v) (k_close s) (k_log s).
Definition pset {A} (f : Z -> A) (i : Z) (v : A) : Z -> A := fun j => if Z.eqb j i then v else f j.

(** util.py 84-116: wait_pid(pid) with WNOHANG. *)
Inductive qwait (pr : nat -> qst) (n : Z) : option Z -> (nat -> qst) -> Prop :=
| qw_running : forall q, pr q = QRun n -> qwait pr n None pr
| qw_dying : forall q s, pr q = QDying n s -> qwait pr n None pr
| qw_zombie : forall q s, pr q = QZombie n s -> qwait pr n (Some s) (fset pr q (QReaped n s))
| qw_none : (forall q, ~ qholds (pr q) n) -> qwait pr n (Some 255%Z) pr.

(** A sleep is over: the processes that were dying can be waited for. *)
Definition rested (quick : bool) (x : qst) : Prop := quick = true -> forall n s, x <> QDying n s.

Section KQueue.
Context (ordered quick bad_cb : bool).

Inductive kstep : kst -> kst -> Prop :=
(** *** The operating system and other code *)
| q_fork : forall s p n,
    k_proc s p = QNone -> (forall q, ~ qholds (k_proc s q) n) ->
    kstep s (q_proc (fset (k_proc s) p (QRun n)) s)
(** A child begins to exit: the event is triggered (EV_ONESHOT: once). *)
| q_die : forall s p n st,
    k_proc s p = QRun n ->
    kstep s (q_proc (fset (k_proc s) p (QDying n st))
               (q_ready (if k_note s p then k_ready s ++ [QProc p] else k_ready s)
                  (q_note (fset (k_note s) p false) s)))
| q_exit : forall s p n st,
    k_proc s p = QDying n st ->
    kstep s (q_log (QLExit p st) (q_proc (fset (k_proc s) p (QZombie n st)) s))
(** A child that is not watched is reaped by somebody else. *)
| q_other : forall s p n st,
    k_proc s p = QZombie n st ->
    (forall j, k_w s j <> QIdle -> k_wproc s j = p -> k_w s j = QRaised \/ k_w s j = QRejected) ->
    kstep s (q_proc (fset (k_proc s) p (QReaped n st)) s)
(** *** watch_pid (watcher.py 183-210) *)
| q_watch : forall s k p n,
    k_w s k = QIdle -> qholds (k_proc s p) n ->
    (forall j, k_w s j <> QIdle -> k_wproc s j <> p) ->
    kstep s (mk_kst (k_proc s) (k_dict s) (k_note s) (k_ready s) (k_open s) (k_pc s)
               (fset (k_wproc s) k p) (fset (k_pid s) k n) (fset (k_w s) k QCheck) (k_close s) (k_log s))
| q_check : forall s k,
    k_w s k = QCheck -> k_dict s (k_pid s k) = None -> kstep s (q_w k QSet s)
| q_check_err : forall s k,
    k_w s k = QCheck -> k_dict s (k_pid s k) <> None -> kstep s (q_log (QLRejected k) (q_w k QRejected s))
| q_set : forall s k,
    k_w s k = QSet -> kstep s (q_w k QAdd (q_dict (pset (k_dict s) (k_pid s k) (Some k)) s))
(** kqueue.control: a process that runs is registered, ... *)
| q_add : forall s k p,
    k_w s k = QAdd -> k_open s = true -> k_proc s p = QRun (k_pid s k) ->
    kstep s (q_log (QLWatched k) (q_w k QOk (q_note (fset (k_note s) p true) s)))
(** ... one that is exiting gives the event at once ... *)
| q_add_late : forall s k p,
    k_w s k = QAdd -> k_open s = true -> qholds (k_proc s p) (k_pid s k) -> k_proc s p <> QRun (k_pid s k) ->
    kstep s (q_log (QLWatched k) (q_w k QOk (q_ready (k_ready s ++ [QProc p]) s)))
(** ... or ProcessLookupError. *)
| q_add_esrch : forall s k,
    k_w s k = QAdd -> k_open s = true -> (forall p, k_proc s p <> QRun (k_pid s k)) -> kstep s (q_w k QPop s)
(** The kqueue is closed (ValueError), or the kernel refuses. *)
| q_add_err : forall s k, k_w s k = QAdd -> kstep s (q_w k QRaised s)
| q_kpop : forall s k,
    k_w s k = QPop -> kstep s (q_w k (match k_dict s (k_pid s k) with Some _ => QWait | None => QRaised end)
                                 (q_dict (pset (k_dict s) (k_pid s k) None) s))
| q_kwait : forall s k r pr,
    k_w s k = QWait -> qwait (k_proc s) (k_pid s k) r pr ->
    kstep s (q_w k (match r with Some st => QCall st | None => QTask end) (q_proc pr s))
| q_kcall : forall s k st,
    k_w s k = QCall st -> kstep s (q_log (QLWatched k) (q_log (QLCall k st) (q_w k QEnd s)))
| q_kcall_raises : forall s k st,
    bad_cb = true -> k_w s k = QCall st -> kstep s (q_log (QLCall k st) (q_w k QEnd s))
| q_task : forall s k, k_w s k = QTask -> kstep s (q_log (QLWatched k) (q_w k (QPoll 5) s))
(** asyncio.create_task raises RuntimeError without a running loop. *)
| q_task_err : forall s k, k_w s k = QTask -> kstep s (q_w k QRaised s)
(** 438-443: the polling task; it sleeps before each poll. *)
| q_poll : forall s k n r pr,
    k_w s k = QPoll (S n) -> rested quick (k_proc s (k_wproc s k)) -> qwait (k_proc s) (k_pid s k) r pr ->
    kstep s (q_w k (match r with Some st => QLate st | None => QPoll n end) (q_proc pr s))
| q_poll_end : forall s k, k_w s k = QPoll 0 -> kstep s (q_w k QEnd s)
| q_late : forall s k st,
    k_w s k = QLate st -> kstep s (q_log (QLCall k st) (q_w k QEnd s))
(** *** close (watcher.py 178-181): a timer that goes off at once *)
| q_close_start : forall s, k_close s = DIdle -> kstep s (q_log QLClosing (q_close DAdd s))
| q_close_add : forall s,
    k_close s = DAdd -> k_open s = true -> kstep s (q_close DJoin (q_ready (k_ready s ++ [QTimer]) s))
| q_close_err : forall s,
    k_close s = DAdd -> k_open s = false -> kstep s (q_log QLCloseRaised (q_close DRaised s))
| q_close_join : forall s,
    k_close s = DJoin -> k_pc s = TkDone -> kstep s (q_log QLClosed (q_close DDone s))
(** *** _run, _reap_pid (watcher.py 212-244) *)
| q_kevent : forall s l r,
    k_pc s = TkPoll -> l <> [] -> List.length l <= 10 -> Permutation (k_ready s) (l ++ r) ->
    (ordered = true -> k_ready s = l ++ r) ->
    kstep s (q_pc (TkLoop l) (q_ready r s))
| q_loop_end : forall s, k_pc s = TkLoop [] -> kstep s (q_pc TkPoll s)
| q_loop : forall s e l,
    k_pc s = TkLoop (e :: l) ->
    kstep s (q_pc (match e with QTimer => TkFin | QProc p => TkPop p l end) s)
| q_pop : forall s p l n k,
    k_pc s = TkPop p l -> qpid (k_proc s p) = Some n -> k_dict s n = Some k ->
    kstep s (q_pc (TkWait k l) (q_dict (pset (k_dict s) n None) s))
(** KeyError: the thread ends. *)
| q_pop_err : forall s p l n,
    k_pc s = TkPop p l -> qpid (k_proc s p) = Some n -> k_dict s n = None -> kstep s (q_pc TkFin s)
| q_wait : forall s k l r pr,
    k_pc s = TkWait k l -> qwait (k_proc s) (k_pid s k) r pr ->
    kstep s (q_pc (match r with Some st => TkCall k st l | None => TkSleep k l end) (q_proc pr s))
| q_sleep : forall s k l,
    k_pc s = TkSleep k l -> rested quick (k_proc s (k_wproc s k)) -> kstep s (q_pc (TkWait2 k l) s)
| q_wait2 : forall s k l r pr,
    k_pc s = TkWait2 k l -> qwait (k_proc s) (k_pid s k) r pr ->
    kstep s (q_pc (match r with Some st => TkCall k st l | None => TkLoop l end) (q_proc pr s))
| q_call : forall s k st l,
    k_pc s = TkCall k st l -> kstep s (q_log (QLCall k st) (q_pc (TkLoop l) s))
| q_call_raises : forall s k st l,
    bad_cb = true -> k_pc s = TkCall k st l -> kstep s (q_log (QLCall k st) (q_pc TkFin s))
| q_fin : forall s,
    k_pc s = TkFin ->
    kstep s (q_log QLFree (q_pc TkDone (q_open false (q_note (fun _ => false) (q_ready [] s))))).

(** watcher.py 165-175: after __init__. *)
Definition k_init (s : kst) : Prop :=
  (forall p, k_proc s p = QNone) /\ (forall n, k_dict s n = None) /\ (forall p, k_note s p = false)
  /\ k_ready s = [] /\ k_open s = true /\ k_pc s = TkPoll /\ (forall k, k_w s k = QIdle)
  /\ k_close s = DIdle /\ k_log s = [].

Inductive kreach : kst -> Prop :=
| kr_init : forall s, k_init s -> kreach s
| kr_step : forall s s', kreach s -> kstep s s' -> kreach s'.
End KQueue.
