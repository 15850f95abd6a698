(** Model of the thread-per-child watcher: watcher.py 368-418 (ThreadStrategy),
    450-474 (_invoke_callback), util.py 84-116 (wait_pid with block=True).

    Any number of threads call [watch_pid]; every watch has its own reaper
    thread; the operating system lets children exit.  Each step is one atomic
    operation (a dictionary operation, a system call); all interleavings are
    executions.

    Simplifications: each child is watched at most once (watcher.py 52) and
    nobody else reaps the watched children; [bad_cb] says whether a callback may
    raise something other than RuntimeError; logging is left out; [close] only
    logs (379-385) and is left out. *)
From Verif Require Import Base EPollModel.
From Coq Require Import List ZArith Lia Bool.
Import ListNotations.
Local Open Scope nat_scope.

(** The call [watch_pid] number [k]. *)
Inductive kpc :=
| KNone                    (* not called yet *)
| KCheck                   (* 394: before the assert *)
| KSet                     (* 401: before self._pids[pid] = thread *)
| KStart                   (* 402: before thread.start() *)
| KOk                      (* returned *)
| KRejected                (* AssertionError *)
| KFailed.                 (* thread.start() raised *)

(** The reaper thread of watch [k] (watcher.py 404-418). *)
Inductive rpc :=
| RNone | RWait | RCall (s : Z) | RPop | REnd | RDied.

Inductive tev :=
| VExit (p : nat) (s : Z)    (* process p exited with status s *)
| VWatched (k : nat)         (* watch_pid number k returned *)
| VRejected (k : nat)        (* watch_pid number k raised AssertionError *)
| VCall (k : nat) (s : Z)    (* the callback of watch k was called *)
| VEnded (k : nat).          (* the reaper thread of watch k has ended normally *)

Record tst := mk_tst {
  t_proc : nat -> pst;
  t_dict : Z -> option nat;        (* self._pids: pid -> thread (of watch k) *)
  t_wproc : nat -> nat;            (* the process watched by watch k *)
  t_pid : nat -> Z;                (* the argument pid of watch k *)
  t_w : nat -> kpc;
  t_r : nat -> rpc;
  t_log : list tev }.

Definition zset {A} (f : Z -> A) (i : Z) (v : A) : Z -> A := fun j => if Z.eqb j i then v else f j.
Definition tw_w k v s := mk_tst (t_proc s) (t_dict s) (t_wproc s) (t_pid s) (fset (t_w s) k v) (t_r s) (t_log s).
Definition tw_r k v s := mk_tst (t_proc s) (t_dict s) (t_wproc s) (t_pid s) (t_w s) (fset (t_r s) k v) (t_log s).
Definition tw_log e s := mk_tst (t_proc s) (t_dict s) (t_wproc s) (t_pid s) (t_w s) (t_r s) (e :: t_log s).
Definition tw_proc pr s := mk_tst pr (t_dict s) (t_wproc s) (t_pid s) (t_w s) (t_r s) (t_log s).
Definition tw_dict d s := mk_tst (t_proc s) d (t_wproc s) (t_pid s) (t_w s) (t_r s) (t_log s).

Section Thread.
Context (bad_cb : bool).

Inductive twstep : tst -> tst -> Prop :=
| w_fork : forall s p n,
    t_proc s p = PNone -> (forall q, ~ holds_pid (t_proc s q) n) ->
    twstep s (tw_proc (fset (t_proc s) p (PRun n)) s)
| w_exit : forall s p n st,
    t_proc s p = PRun n ->
    twstep s (tw_log (VExit p st) (tw_proc (fset (t_proc s) p (PZombie n st)) s))
(** 387: a child that was not reaped is watched. *)
| w_watch : forall s k p n,
    t_w s k = KNone -> holds_pid (t_proc s p) n ->
    (forall j, t_w s j <> KNone -> t_wproc s j <> p) ->
    twstep s (mk_tst (t_proc s) (t_dict s) (fset (t_wproc s) k p) (fset (t_pid s) k n) (fset (t_w s) k KCheck) (t_r s) (t_log s))
(** 394: assert pid not in self._pids. *)
| w_check_ok : forall s k,
    t_w s k = KCheck -> t_dict s (t_pid s k) = None -> twstep s (tw_w k KSet s)
| w_check_fail : forall s k,
    t_w s k = KCheck -> t_dict s (t_pid s k) <> None -> twstep s (tw_log (VRejected k) (tw_w k KRejected s))
(** 401 *)
| w_set : forall s k,
    t_w s k = KSet -> twstep s (tw_w k KStart (tw_dict (zset (t_dict s) (t_pid s k) (Some k)) s))
(** 402 *)
| w_start : forall s k,
    t_w s k = KStart -> twstep s (tw_log (VWatched k) (tw_r k RWait (tw_w k KOk s)))
| w_start_err : forall s k, t_w s k = KStart -> twstep s (tw_w k KFailed s)
(** 412: waitpid blocks while the process runs. *)
| w_wait : forall s k st pr,
    t_r s k = RWait -> waitpid (t_proc s) (t_pid s k) (Some st) pr ->
    twstep s (tw_r k (RCall st) (tw_proc pr s))
(** 414, 464-474: RuntimeError is logged. *)
| w_call : forall s k st,
    t_r s k = RCall st -> twstep s (tw_log (VCall k st) (tw_r k RPop s))
| w_call_raises : forall s k st,
    bad_cb = true -> t_r s k = RCall st -> twstep s (tw_log (VCall k st) (tw_r k RDied s))
(** 418: self._pids.pop(pid); KeyError ends the thread. *)
| w_pop : forall s k,
    t_r s k = RPop -> t_dict s (t_pid s k) <> None ->
    twstep s (tw_log (VEnded k) (tw_r k REnd (tw_dict (zset (t_dict s) (t_pid s k) None) s)))
| w_pop_err : forall s k,
    t_r s k = RPop -> t_dict s (t_pid s k) = None -> twstep s (tw_r k RDied s).

Definition tw_init (s : tst) : Prop :=
  (forall p, t_proc s p = PNone) /\ (forall n, t_dict s n = None) /\ (forall k, t_w s k = KNone) /\ (forall k, t_r s k = RNone) /\ t_log s = [].

Inductive twreach : tst -> Prop :=
| wr_init : forall s, tw_init s -> twreach s
| wr_step : forall s s', twreach s -> twstep s s' -> twreach s'.
End Thread.
