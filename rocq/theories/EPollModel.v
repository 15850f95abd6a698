(** Model of the pidfd/epoll child watcher: watcher.py 253-365 (EPollStrategy),
    432-474 (_poll_dead_pid, _invoke_callback), util.py 84-116 (wait_pid).

    Any number of threads may call [watch_pid]; one thread calls [close] (each
    strategy is closed at most once: watcher.py 118-123 takes it out of
    [_strategy] under the lock); the watching thread runs [_run]; the operating
    system lets children exit and lets other code of the program open and close
    descriptors at any moment.  Every step below is one bytecode-level atomic
    operation (a dictionary operation, a system call), and all interleavings
    are executions.

    Simplifications:
    - each child is watched at most once ("calling this function more than once
      for a given process pid is not supported", watcher.py 52) and nobody else
      reaps the watched children;
    - a pidfd is readable exactly when its process has exited (pidfd_open(2));
    - [ordered] says whether epoll reports descriptors in the order in which
      they became ready (Linux does, its manual does not promise it);
    - [bad_cb] says whether callbacks may raise something other than
      RuntimeError (asyncio's callback only raises RuntimeError);
    - logging is left out. *)
From Verif Require Import Base.
From Coq Require Import List ZArith Lia Bool.
Import ListNotations.
Local Open Scope nat_scope.

Definition fset {A} (f : nat -> A) (i : nat) (v : A) : nat -> A :=
  fun j => if j =? i then v else f j.

(** A process, named by identity; its pid is a number that is used again after
    the process was reaped. *)
Inductive pst := PNone | PRun (pid : Z) | PZombie (pid : Z) (s : Z) | PReaped (pid : Z) (s : Z).

Definition pid_of (x : pst) : option Z :=
  match x with PNone => None | PRun n => Some n | PZombie n _ => Some n | PReaped n _ => Some n end.
(** The process that the kernel means by this pid. *)
Definition holds_pid (x : pst) (n : Z) : Prop :=
  match x with PRun m => m = n | PZombie m _ => m = n | _ => False end.
Definition exited (x : pst) : bool := match x with PZombie _ _ => true | PReaped _ _ => true | _ => false end.

(** What a descriptor refers to: the pidfd opened for watch [k], the two ends
    of the self-pipe, the epoll object, or something of other code. *)
Inductive obj := OPid (k : nat) | OPipeR | OPipeW | OEpoll | OOther (n : nat).

(** The call [watch_pid] number [k]: where its thread is. *)
Inductive wpc :=
| WNone                      (* not called yet *)
| WOpen                      (* 356: before os.pidfd_open *)
| WDict (fd : nat)           (* 357: before self._pidfds[pidfd] = ... *)
| WReg (fd : nat)            (* 359: before self._epoll.register *)
| WOk (fd : nat)             (* returned *)
| WKill                      (* 310: before os.kill *)
| WTask                      (* 313: before create_task *)
| WPoll (n : nat)            (* 438: the polling task, [n] polls to go *)
| WCall (s : Z)              (* 442: before the callback *)
| WEnd.                      (* the task has ended *)

(** The watching thread. *)
Inductive tpc :=
| TPoll                                    (* 324 *)
| TLoop (pending : list nat)               (* 325 *)
| TPop (fd : nat) (rest : list nat)        (* 339 *)
| TWait (k fd : nat) (rest : list nat)     (* 343 *)
| TCall (k : nat) (s : Z) (fd : nat) (rest : list nat)  (* 345 *)
| TUnreg (fd : nat) (rest : list nat)      (* 364 *)
| TClose (fd : nat) (rest : list nat)      (* 365 *)
| TFin1                                    (* 332 *)
| TFin2                                    (* 333 *)
| TFin3 (l : list nat)                     (* 334 *)
| TFin4                                    (* 335 *)
| TDone.

(** The caller of [close]. *)
Inductive cpc := CIdle | CCheck | CWrite (fd : nat) | CJoin | CDone.

(** What can be observed, in the order of the events (latest first in the log). *)
Inductive lev :=
| LExit (p : nat) (s : Z)       (* process p exited with status s *)
| LWatched (k : nat)            (* watch_pid number k returned normally *)
| LWatchFailed (k : nat)        (* watch_pid number k is about to raise *)
| LKill (p : nat)               (* SIGKILL was sent to process p *)
| LCall (k : nat) (s : Z)       (* the callback of watch k was called with status s *)
| LOpened (k : nat)             (* a pidfd was opened for watch k *)
| LClosing                      (* close() was called *)
| LClosed                       (* close() has returned *)
| LClose (o : obj)              (* a descriptor of this object was closed by the watcher *)
| LBadClose (fd : nat)          (* the watcher closed a number that is not open *)
| LWrote (o : option obj).      (* close() wrote its byte into this *)

Record est := mk_est {
  e_proc  : nat -> pst;
  e_fdt   : nat -> option obj;          (* descriptor table of the program *)
  e_dict  : nat -> option nat;          (* self._pidfds: pidfd -> watch (pid, callback, args) *)
  e_reg   : nat -> bool;                (* registered with epoll *)
  e_ready : list nat;                   (* ready list of the epoll object *)
  e_eopen : bool;                       (* self._epoll is not closed *)
  e_self  : option (nat * nat);         (* self._selfpipe *)
  e_pc    : tpc;
  e_wproc : nat -> nat;                 (* the process watched by watch k *)
  e_w     : nat -> wpc;
  e_close : cpc;
  e_log   : list lev }.

Definition s_proc v s := mk_est v (e_fdt s) (e_dict s) (e_reg s) (e_ready s) (e_eopen s) (e_self s) (e_pc s) (e_wproc s) (e_w s) (e_close s) (e_log s).
Definition s_fdt v s := mk_est (e_proc s) v (e_dict s) (e_reg s) (e_ready s) (e_eopen s) (e_self s) (e_pc s) (e_wproc s) (e_w s) (e_close s) (e_log s).
Definition s_dict v s := mk_est (e_proc s) (e_fdt s) v (e_reg s) (e_ready s) (e_eopen s) (e_self s) (e_pc s) (e_wproc s) (e_w s) (e_close s) (e_log s).
Definition s_reg v s := mk_est (e_proc s) (e_fdt s) (e_dict s) v (e_ready s) (e_eopen s) (e_self s) (e_pc s) (e_wproc s) (e_w s) (e_close s) (e_log s).
Definition s_ready v s := mk_est (e_proc s) (e_fdt s) (e_dict s) (e_reg s) v (e_eopen s) (e_self s) (e_pc s) (e_wproc s) (e_w s) (e_close s) (e_log s).
Definition s_eopen v s := mk_est (e_proc s) (e_fdt s) (e_dict s) (e_reg s) (e_ready s) v (e_self s) (e_pc s) (e_wproc s) (e_w s) (e_close s) (e_log s).
Definition s_self v s := mk_est (e_proc s) (e_fdt s) (e_dict s) (e_reg s) (e_ready s) (e_eopen s) v (e_pc s) (e_wproc s) (e_w s) (e_close s) (e_log s).
Definition s_pc v s := mk_est (e_proc s) (e_fdt s) (e_dict s) (e_reg s) (e_ready s) (e_eopen s) (e_self s) v (e_wproc s) (e_w s) (e_close s) (e_log s).
Definition s_wproc v s := mk_est (e_proc s) (e_fdt s) (e_dict s) (e_reg s) (e_ready s) (e_eopen s) (e_self s) (e_pc s) v (e_w s) (e_close s) (e_log s).
Definition s_w v s := mk_est (e_proc s) (e_fdt s) (e_dict s) (e_reg s) (e_ready s) (e_eopen s) (e_self s) (e_pc s) (e_wproc s) v (e_close s) (e_log s).
Definition s_close v s := mk_est (e_proc s) (e_fdt s) (e_dict s) (e_reg s) (e_ready s) (e_eopen s) (e_self s) (e_pc s) (e_wproc s) (e_w s) v (e_log s).
Definition s_log e s := mk_est (e_proc s) (e_fdt s) (e_dict s) (e_reg s) (e_ready s) (e_eopen s) (e_self s) (e_pc s) (e_wproc s) (e_w s) (e_close s) (e :: e_log s).
Definition w_pc k v s := s_w (fset (e_w s) k v) s.

(** util.py 84-116: wait_pid(pid) with WNOHANG, on the process table: None
    while it runs, the exit status when it is a zombie (it is then reaped),
    255 when there is no such child. *)
Inductive waitpid (pr : nat -> pst) (n : Z) : option Z -> (nat -> pst) -> Prop :=
| wp_running : forall q, pr q = PRun n -> waitpid pr n None pr
| wp_zombie : forall q s, pr q = PZombie n s -> waitpid pr n (Some s) (fset pr q (PReaped n s))
| wp_none : (forall q, ~ holds_pid (pr q) n) -> waitpid pr n (Some 255%Z) pr.

(** os.close on a descriptor number (util.py 68-73: an OSError is logged and
    otherwise ignored). A closed descriptor leaves the epoll set. *)
Definition os_close (fd : nat) (s : est) : est :=
  match e_fdt s fd with
  | Some o => s_log (LClose o)
                (s_fdt (fset (e_fdt s) fd None)
                   (s_reg (fset (e_reg s) fd false) (s_ready (remove Nat.eq_dec fd (e_ready s)) s)))
  | None => s_log (LBadClose fd) s
  end.

Section EPoll.
Context (ordered bad_cb : bool).
(** The numbers of the self-pipe and of the epoll descriptor. *)
Context (rfd wfd efd : nat).

Inductive estep : est -> est -> Prop :=
(** *** The operating system and other code *)
| e_fork : forall s p n,
    e_proc s p = PNone -> (forall q, ~ holds_pid (e_proc s q) n) ->
    estep s (s_proc (fset (e_proc s) p (PRun n)) s)
(** A child exits: its pidfd becomes readable. *)
| e_exit : forall s p n st l,
    e_proc s p = PRun n -> NoDup l ->
    (forall fd, In fd l <-> e_reg s fd = true /\ exists k, e_fdt s fd = Some (OPid k) /\ e_wproc s k = p) ->
    estep s (s_log (LExit p st) (s_ready (e_ready s ++ l) (s_proc (fset (e_proc s) p (PZombie n st)) s)))
| e_open_other : forall s fd n,
    e_fdt s fd = None -> estep s (s_fdt (fset (e_fdt s) fd (Some (OOther n))) s)
| e_close_other : forall s fd n,
    e_fdt s fd = Some (OOther n) -> estep s (s_fdt (fset (e_fdt s) fd None) s)
(** *** watch_pid (watcher.py 285-313, 349-360) *)
| e_watch : forall s k p,
    e_w s k = WNone -> (exists n, holds_pid (e_proc s p) n) ->
    (forall j, e_w s j <> WNone -> e_wproc s j <> p) ->
    estep s (s_wproc (fset (e_wproc s) k p) (w_pc k WOpen s))
| e_open : forall s k fd,
    e_w s k = WOpen -> e_fdt s fd = None ->
    estep s (s_log (LOpened k) (w_pc k (WDict fd) (s_fdt (fset (e_fdt s) fd (Some (OPid k))) s)))
| e_open_err : forall s k,
    e_w s k = WOpen -> estep s (s_log (LWatchFailed k) (w_pc k WKill s))
| e_dictset : forall s k fd,
    e_w s k = WDict fd -> estep s (w_pc k (WReg fd) (s_dict (fset (e_dict s) fd (Some k)) s))
(** register: a pidfd whose process has exited is ready at once. *)
| e_register : forall s k fd,
    e_w s k = WReg fd -> e_eopen s = true ->
    estep s (s_log (LWatched k) (w_pc k (WOk fd) (s_reg (fset (e_reg s) fd true)
               (s_ready (if exited (e_proc s (e_wproc s k)) then e_ready s ++ [fd] else e_ready s) s))))
(** register fails: the epoll object is closed, or the kernel refuses. *)
| e_register_err : forall s k fd,
    e_w s k = WReg fd -> estep s (s_log (LWatchFailed k) (w_pc k WKill s))
| e_kill : forall s k n q,
    e_w s k = WKill -> pid_of (e_proc s (e_wproc s k)) = Some n -> holds_pid (e_proc s q) n ->
    estep s (s_log (LKill q) (w_pc k WTask s))
| e_kill_err : forall s k n,
    e_w s k = WKill -> pid_of (e_proc s (e_wproc s k)) = Some n -> (forall q, ~ holds_pid (e_proc s q) n) ->
    estep s (w_pc k WTask s)
| e_task : forall s k, e_w s k = WTask -> estep s (w_pc k (WPoll 5) s)
(** asyncio.create_task raises RuntimeError without a running loop; a task of
    a loop that stops never runs. *)
| e_task_err : forall s k, e_w s k = WTask -> estep s (w_pc k WEnd s)
| e_poll_none : forall s k n pid pr,
    e_w s k = WPoll (S n) -> pid_of (e_proc s (e_wproc s k)) = Some pid ->
    waitpid (e_proc s) pid None pr -> estep s (w_pc k (WPoll n) (s_proc pr s))
| e_poll_some : forall s k n pid st pr,
    e_w s k = WPoll (S n) -> pid_of (e_proc s (e_wproc s k)) = Some pid ->
    waitpid (e_proc s) pid (Some st) pr -> estep s (w_pc k (WCall st) (s_proc pr s))
| e_poll_end : forall s k, e_w s k = WPoll 0 -> estep s (w_pc k WEnd s)
| e_poll_call : forall s k st,
    e_w s k = WCall st -> estep s (s_log (LCall k st) (w_pc k WEnd s))
(** *** close (watcher.py 279-283) *)
| e_close_start : forall s, e_close s = CIdle -> estep s (s_log LClosing (s_close CCheck s))
| e_close_check : forall s,
    e_close s = CCheck ->
    estep s (s_close (match e_self s with Some (_, w) => CWrite w | None => CJoin end) s)
| e_close_write : forall s w,
    e_close s = CWrite w ->
    estep s (s_log (LWrote (e_fdt s w))
              (s_close CJoin
                 (s_ready (match e_fdt s w with
                           | Some OPipeW => if e_reg s rfd then e_ready s ++ [rfd] else e_ready s
                           | _ => e_ready s end) s)))
| e_close_join : forall s,
    e_close s = CJoin -> e_pc s = TDone -> estep s (s_log LClosed (s_close CDone s))
(** *** _run (watcher.py 316-365) *)
| e_poll_ordered : forall s l r,
    ordered = true -> e_pc s = TPoll -> e_ready s = l ++ r -> l <> [] ->
    estep s (s_pc (TLoop l) (s_ready (r ++ l) s))
| e_poll_any : forall s l,
    ordered = false -> e_pc s = TPoll -> NoDup l -> incl l (e_ready s) -> l <> [] ->
    estep s (s_pc (TLoop l) s)
| e_loop_end : forall s, e_pc s = TLoop [] -> estep s (s_pc TPoll s)
| e_loop : forall s fd l,
    e_pc s = TLoop (fd :: l) ->
    estep s (s_pc (if fd =? rfd then TFin1 else TPop fd l) s)
| e_pop : forall s fd l k,
    e_pc s = TPop fd l -> e_dict s fd = Some k ->
    estep s (s_pc (TWait k fd l) (s_dict (fset (e_dict s) fd None) s))
(** KeyError: the thread ends. *)
| e_pop_err : forall s fd l,
    e_pc s = TPop fd l -> e_dict s fd = None -> estep s (s_pc TFin1 s)
| e_wait : forall s k fd l pid r pr,
    e_pc s = TWait k fd l -> pid_of (e_proc s (e_wproc s k)) = Some pid ->
    waitpid (e_proc s) pid r pr ->
    estep s (s_pc (match r with Some st => TCall k st fd l | None => TUnreg fd l end) (s_proc pr s))
| e_call : forall s k st fd l,
    e_pc s = TCall k st fd l -> estep s (s_log (LCall k st) (s_pc (TUnreg fd l) s))
| e_call_raises : forall s k st fd l,
    bad_cb = true -> e_pc s = TCall k st fd l -> estep s (s_log (LCall k st) (s_pc TFin1 s))
| e_unreg : forall s fd l,
    e_pc s = TUnreg fd l -> e_reg s fd = true ->
    estep s (s_pc (TClose fd l) (s_reg (fset (e_reg s) fd false) (s_ready (remove Nat.eq_dec fd (e_ready s)) s)))
(** FileNotFoundError: the thread ends. *)
| e_unreg_err : forall s fd l,
    e_pc s = TUnreg fd l -> e_reg s fd = false -> estep s (s_pc TFin1 s)
| e_closefd : forall s fd l,
    e_pc s = TClose fd l -> estep s (s_pc (TLoop l) (os_close fd s))
| e_fin1 : forall s,
    e_pc s = TFin1 ->
    estep s (s_pc TFin2 (s_eopen false (s_reg (fun _ => false) (s_ready [] (os_close efd s)))))
| e_fin2 : forall s l r w,
    e_pc s = TFin2 -> NoDup l -> (forall fd, In fd l <-> e_dict s fd <> None) ->
    e_self s = Some (r, w) ->
    estep s (s_pc (TFin3 (l ++ [r; w])) s)
| e_fin3 : forall s fd l,
    e_pc s = TFin3 (fd :: l) -> estep s (s_pc (TFin3 l) (os_close fd s))
| e_fin3_end : forall s, e_pc s = TFin3 [] -> estep s (s_pc TFin4 s)
| e_fin4 : forall s, e_pc s = TFin4 -> estep s (s_pc TDone (s_self None s)).

(** watcher.py 264-277: after __init__: no watches yet, the pipe is registered. *)
Definition e_init (s : est) : Prop :=
  (forall p, e_proc s p = PNone) /\ e_dict s = (fun _ => None)
  /\ e_reg s = (fun fd => fd =? rfd) /\ e_ready s = [] /\ e_eopen s = true
  /\ e_self s = Some (rfd, wfd) /\ e_pc s = TPoll /\ (forall k, e_w s k = WNone)
  /\ e_close s = CIdle /\ e_log s = []
  /\ e_fdt s rfd = Some OPipeR /\ e_fdt s wfd = Some OPipeW /\ e_fdt s efd = Some OEpoll
  /\ (forall fd, fd <> rfd -> fd <> wfd -> fd <> efd ->
        match e_fdt s fd with None => True | Some (OOther _) => True | _ => False end)
  /\ rfd <> wfd /\ rfd <> efd /\ wfd <> efd.

Inductive ereach : est -> Prop :=
| er_init : forall s, e_init s -> ereach s
| er_step : forall s s', ereach s -> estep s s' -> ereach s'.
End EPoll.
