(** Model of the life cycle of class Runner (shellous/runner.py 381-990) on
    Linux (BSD_DERIVED is False), on top of AsyncModel and HarvestModel.

    The main task runs `async with Runner(cmd) as run: body`.  The rest of the
    world [rx] holds the operating system's view of the child, asyncio's view of
    it, and the attributes of the Runner.

    Simplifications:
    - setting up redirections before and after the launch ([setup],
      [setup_streams]) may succeed or raise any exception; what they do to file
      descriptors is in RunOptionsModel;
    - the coroutines that copy data ([KIO]) may end in any way at any time; what
      they copy is in CopyModel;
    - the audit callback is assumed not to raise (AuditModel lifts this);
    - clocks: see AsyncModel; closing a coroutine (GeneratorExit) is not modelled. *)
From Verif Require Export ResultModel HarvestModel.
Open Scope Z_scope.

(** Phases reported to the audit callback (runner.py 930-946). *)
Inductive phase := PStart | PSignal (s : option Z) | PStop (failure : option exn).

(** Observable events of a run, in order. *)
Inductive rev :=
| LAudit (p : phase)       (* the audit callback is called *)
| LSpawn                   (* the child process is created *)
| LSignal (s : option Z)   (* Process.send_signal(s) is called; None: Process.kill() *)
| LSent (s : Z)            (* kill(pid, s) on the live child *)
| LExit (s : Z)            (* the child terminates, with this wait status *)
| LCollect (s : Z)         (* asyncio's Process.returncode becomes s *)
| LCancel                  (* somebody cancels the main task *)
| LExpired                 (* the timer of the timeout option fires and cancels the main task *)
| LClosed                  (* the transport is closed although the exit status is unknown *)
| LAbort                   (* asyncio gives up a launch after the child was created *)
| LUser.                   (* somebody calls run.send_signal() or run.cancel() *)

Record rx := mk_rx {
  x_log : list rev;
  x_launching : bool;      (* create_subprocess_exec is running *)
  x_aborting : bool;       (* asyncio has given up the launch *)
  x_child : bool;          (* the child process was created *)
  x_proc : bool;           (* Runner._proc is set *)
  x_exit : option Z;       (* the child has terminated with this status *)
  x_reaped : bool;         (* somebody called waitpid successfully *)
  x_watch : option Z;      (* the status the child watcher got *)
  x_rc : option Z;         (* Process.returncode *)
  x_cancelled : bool;      (* Runner._cancelled *)
  x_timer : bool;          (* Runner._timer is not None *)
  x_timed_out : bool;      (* Runner._timed_out *)
  x_lastsig : option Z;    (* Runner._last_signal *)
  x_tasks : list nat;      (* Runner._tasks *)
  x_inside : bool          (* between __aenter__ and __aexit__ *)
}.
Definition rx0 : rx := mk_rx [] false false false false None false None None false false false None [] false.

Definition set_log v x := mk_rx v (x_launching x) (x_aborting x) (x_child x) (x_proc x) (x_exit x) (x_reaped x) (x_watch x) (x_rc x) (x_cancelled x) (x_timer x) (x_timed_out x) (x_lastsig x) (x_tasks x) (x_inside x).
Definition log e x := set_log (x_log x ++ [e]) x.
Definition set_launching v x := mk_rx (x_log x) v (x_aborting x) (x_child x) (x_proc x) (x_exit x) (x_reaped x) (x_watch x) (x_rc x) (x_cancelled x) (x_timer x) (x_timed_out x) (x_lastsig x) (x_tasks x) (x_inside x).
Definition set_aborting v x := mk_rx (x_log x) (x_launching x) v (x_child x) (x_proc x) (x_exit x) (x_reaped x) (x_watch x) (x_rc x) (x_cancelled x) (x_timer x) (x_timed_out x) (x_lastsig x) (x_tasks x) (x_inside x).
Definition set_child v x := mk_rx (x_log x) (x_launching x) (x_aborting x) v (x_proc x) (x_exit x) (x_reaped x) (x_watch x) (x_rc x) (x_cancelled x) (x_timer x) (x_timed_out x) (x_lastsig x) (x_tasks x) (x_inside x).
Definition set_proc v x := mk_rx (x_log x) (x_launching x) (x_aborting x) (x_child x) v (x_exit x) (x_reaped x) (x_watch x) (x_rc x) (x_cancelled x) (x_timer x) (x_timed_out x) (x_lastsig x) (x_tasks x) (x_inside x).
Definition set_exit v x := mk_rx (x_log x) (x_launching x) (x_aborting x) (x_child x) (x_proc x) v (x_reaped x) (x_watch x) (x_rc x) (x_cancelled x) (x_timer x) (x_timed_out x) (x_lastsig x) (x_tasks x) (x_inside x).
Definition set_reaped v x := mk_rx (x_log x) (x_launching x) (x_aborting x) (x_child x) (x_proc x) (x_exit x) v (x_watch x) (x_rc x) (x_cancelled x) (x_timer x) (x_timed_out x) (x_lastsig x) (x_tasks x) (x_inside x).
Definition set_watch v x := mk_rx (x_log x) (x_launching x) (x_aborting x) (x_child x) (x_proc x) (x_exit x) (x_reaped x) v (x_rc x) (x_cancelled x) (x_timer x) (x_timed_out x) (x_lastsig x) (x_tasks x) (x_inside x).
Definition set_rc v x := mk_rx (x_log x) (x_launching x) (x_aborting x) (x_child x) (x_proc x) (x_exit x) (x_reaped x) (x_watch x) v (x_cancelled x) (x_timer x) (x_timed_out x) (x_lastsig x) (x_tasks x) (x_inside x).
Definition set_canc v x := mk_rx (x_log x) (x_launching x) (x_aborting x) (x_child x) (x_proc x) (x_exit x) (x_reaped x) (x_watch x) (x_rc x) v (x_timer x) (x_timed_out x) (x_lastsig x) (x_tasks x) (x_inside x).
Definition set_timer v x := mk_rx (x_log x) (x_launching x) (x_aborting x) (x_child x) (x_proc x) (x_exit x) (x_reaped x) (x_watch x) (x_rc x) (x_cancelled x) v (x_timed_out x) (x_lastsig x) (x_tasks x) (x_inside x).
Definition set_timed_out v x := mk_rx (x_log x) (x_launching x) (x_aborting x) (x_child x) (x_proc x) (x_exit x) (x_reaped x) (x_watch x) (x_rc x) (x_cancelled x) (x_timer x) v (x_lastsig x) (x_tasks x) (x_inside x).
Definition set_lastsig v x := mk_rx (x_log x) (x_launching x) (x_aborting x) (x_child x) (x_proc x) (x_exit x) (x_reaped x) (x_watch x) (x_rc x) (x_cancelled x) (x_timer x) (x_timed_out x) v (x_tasks x) (x_inside x).
Definition set_tasks v x := mk_rx (x_log x) (x_launching x) (x_aborting x) (x_child x) (x_proc x) (x_exit x) (x_reaped x) (x_watch x) (x_rc x) (x_cancelled x) (x_timer x) (x_timed_out x) (x_lastsig x) v (x_inside x).
Definition set_inside v x := mk_rx (x_log x) (x_launching x) (x_aborting x) (x_child x) (x_proc x) (x_exit x) (x_reaped x) (x_watch x) (x_rc x) (x_cancelled x) (x_timer x) (x_timed_out x) (x_lastsig x) (x_tasks x) v.

Definition SIGKILL : Z := 9.
Definition UNKNOWN_EXIT_CODE : Z := 255.     (* runner.py 33 *)
Definition CANCELLED_EXIT_CODE : Z := -1000. (* runner.py 40 *)

(** Tasks: Runner._waiter, copying coroutines and process substitutions,
    Runner._subprocess_exec, StreamWriter.wait_closed. *)
Inductive rkind := KWaiter | KIO | KExec | KClosed.

Section Runner.
Context (o : opts).
(** Whether somebody outside shellous may cancel the runner's own tasks. *)
Context (ext : bool).
(** Process.stdin is not None; a pty is used. *)
Context (piped_stdin use_pty : bool).
(** What the output buffers hold when result() is called (see CopyModel). *)
Context (out_bytes err_bytes : option bytes) (enc : text).

(** runner.py 930-946: _audit_callback. *)
Definition audit (p : phase) (x : rx) : rx :=
  match o_audit_callback o with Some _ => log (LAudit p) x | None => x end.

(** subprocess.Popen.poll() as called by Popen.send_signal and by the close()
    of asyncio's subprocess transport: it reaps a terminated child. *)
Definition popen_poll (x : rx) : rx :=
  match x_exit x with Some _ => set_reaped true x | None => x end.
(** Popen.send_signal(s): poll(), then kill(pid, s) if still running. *)
Definition popen_send (s : Z) (x : rx) : rx :=
  match x_exit x with Some _ => popen_poll x | None => log (LSent s) x end.

(** runner.py 591-603: _signal. *)
Definition signal_x (sig : option Z) (x : rx) : rx :=
  let x1 := log (LSignal sig) (audit (PSignal sig) x) in
  match sig with
  | None => popen_send SIGKILL x1
  | Some s => set_lastsig (Some s) (popen_send s x1)
  end.

(** runner.py 434-448: returncode. *)
Definition returncode (x : rx) : option Z :=
  if negb (x_proc x) then (if x_cancelled x then Some CANCELLED_EXIT_CODE else None)
  else match x_rc x with
       | Some c => match x_lastsig x with
                   | Some s => if c =? UNKNOWN_EXIT_CODE then Some (- s) else Some c
                   | None => Some c
                   end
       | None => None
       end.

(** util.py 86-118: wait_pid, as the child watcher and poll_wait_pid call it:
    the status of the child, or 255 if it was already reaped. *)
Definition waitpid_status (x : rx) : option Z :=
  match x_exit x with
  | Some s => Some (if x_reaped x then UNKNOWN_EXIT_CODE else s)
  | None => None
  end.

(** Events of the environment. *)
Inductive rxe :=
| XSpawn                       (* fork and exec succeed inside create_subprocess_exec *)
| XExit (s : Z)                (* the child terminates *)
| XWatch                       (* the child watcher calls waitpid *)
| XCollect                     (* asyncio's _process_exited *)
| XTimer                       (* runner.py 779-783: _set_timer_expired *)
| XAbort                       (* asyncio gives up the launch: it kills the child *)
| XCancel                      (* somebody cancels the main task *)
| XSendSignal (s : Z)          (* runner.py 512-515: run.send_signal(s) *)
| XUserCancel.                 (* runner.py 517-520: run.cancel() *)

Definition rstep (x : rx) (e : rxe) : option (rx * bool) :=
  match e with
  | XSpawn => if x_launching x && negb (x_child x) then Some (log LSpawn (set_child true x), false) else None
  | XExit s =>
      match x_child x, x_exit x with
      | true, None => Some (log (LExit s) (set_exit (Some s) x), false)
      | _, _ => None
      end
  | XWatch =>
      match waitpid_status x, x_watch x with
      | Some z, None => Some (set_reaped true (set_watch (Some z) x), false)
      | _, _ => None
      end
  | XCollect =>
      match x_watch x, x_rc x with
      | Some z, None => Some (log (LCollect z) (set_rc (Some z) x), false)
      | _, _ => None
      end
  | XTimer => if x_timer x then Some (log LExpired (set_timed_out true (set_timer false x)), true) else None
  | XAbort => if x_launching x && x_child x && negb (x_aborting x)
              then Some (popen_send SIGKILL (log LAbort (set_aborting true x)), false) else None
  | XCancel => Some (log LCancel x, true)
  | XSendSignal s =>
      if x_inside x then
        match returncode x with
        | None => Some (signal_x (Some s) (log LUser x), false)
        | Some _ => Some (x, false)
        end
      else None
  | XUserCancel =>
      if x_inside x then
        match returncode x with
        | None => Some (signal_x (o_cancel_signal o) (log LUser x), false)
        | Some _ => Some (x, false)
        end
      else None
  end.

(** How tasks end.
    - runner.py 747-758: _waiter ends when the process has exited and in any
      case stops the timer (a task cancelled before its first step would not:
      __aexit__ stops the timer again);
    - runner.py 734-745 and asyncio's _make_subprocess_transport: the launch
      sets _proc, or fails; if there already is a child asyncio has killed it
      and waits for it unless cancelled again;
    - a task cannot hold a CancelledError as its exception: it is cancelled;
      tasks that hold another BaseException which is not an Exception
      (KeyboardInterrupt, SystemExit, GeneratorExit) are not modelled. *)
Definition is_cancelled (e : exn) : bool := match e with CancelledError => true | _ => false end.
Definition rfinish (x : rx) (t : task rkind unit) (r : tout unit) : option rx :=
  match t_kind t, r with
  | KWaiter, TValue _ => match x_rc x with Some _ => Some (set_timer false x) | None => None end
  | KWaiter, TCancelled => if ext || negb (Nat.eqb (t_creq t) 0) then Some (set_timer false x) else None
  | KWaiter, TFail _ => None
  | KExec, TValue _ => if x_launching x && x_child x && negb (x_aborting x)
                       then Some (set_launching false (set_proc true x)) else None
  | KExec, TFail e =>
      if is_Exception e
         && (negb (x_child x) || x_aborting x && match x_rc x with Some _ => true | None => false end)
      then Some (set_launching false x) else None
  | KExec, TCancelled =>
      if (ext || negb (Nat.eqb (t_creq t) 0))
         && (negb (x_child x)
             || x_aborting x && (ext || (2 <=? t_creq t)%nat || match x_rc x with Some _ => true | None => false end))
      then Some (set_launching false x) else None
  | _, TFail e => if is_Exception e then Some x else None
  | _, _ => Some x
  end.

Notation world := (world rx rkind unit).
Notation M := (@M rx rkind unit).
Notation harvest := (harvest rstep rfinish).
Notation "m1 ;; m2" := (bindM m1 (fun _ => m2)) (at level 61, right associativity).
Definition when (b : bool) (m : M unit) : M unit := if b then m else ret tt.

(** runner.py 501-510: add_task. *)
Definition add_task (k : rkind) : M unit :=
  bindM (spawn k) (fun i => modx (fun x => set_tasks (x_tasks x ++ [i]) x)).

(** runner.py 760-763: _set_cancelled; 784-787: _stop_timer. *)
Definition stop_timer : M unit := modx (set_timer false).
Definition set_cancelled : M unit := modx (fun x => set_timer false (set_canc true x)).
Definition signal (sig : option Z) : M unit := bindM (getx x_proc) assertM ;; modx (signal_x sig).

(** util.py 120-138: poll_wait_pid. *)
Definition poll_wait_pid : M bool :=
  bindM (getx x_rc) (fun rc => match rc with
  | Some _ => ret true
  | None => bindM (getx waitpid_status) (fun st => match st with
            | Some z => modx (fun x => log (LCollect z) (set_rc (Some z) (set_reaped true x))) ;; ret true
            | None => ret false
            end)
  end).

(** runner.py 605-623: _kill_wait. *)
Definition unable_to_kill : exn := RuntimeError "Unable to kill process".
Definition kill_wait : M unit :=
  bindM (getx x_proc) assertM ;;
  bindM (getx x_rc) (fun rc => match rc with
  | Some _ => ret tt
  | None =>
      tryM (signal None ;; harvest [AwCoro KWaiter] true false)
           (fun e => match e with
                     | TimeoutError => Some (bindM poll_wait_pid (fun b => if b then ret tt else raise unable_to_kill))
                     | _ => None
                     end)
  end).

(** runner.py 561-589: _kill. *)
Definition kill : M unit :=
  bindM (getx x_proc) assertM ;;
  tryM (bindM (getx x_rc) (fun rc => match rc with None => signal (o_cancel_signal o) | Some _ => ret tt end) ;;
        bindM (getx x_tasks) (fun ts => match ts with [] => ret tt | _ => harvest (map AwTask ts) true false end) ;;
        bindM (getx x_rc) (fun rc => match rc with None => harvest [AwCoro KWaiter] true false | Some _ => ret tt end))
       (fun e => match e with
                 | CancelledError => Some (set_cancelled ;; kill_wait)
                 | TimeoutError => Some kill_wait
                 | _ => Some (kill_wait ;; raise e)
                 end).

(** runner.py 526-547: _wait. *)
Definition clear_tasks : M unit := modx (set_tasks []).
Definition wait : M unit :=
  bindM (getx x_proc) assertM ;;
  tryM (bindM (getx x_tasks) (fun ts => match ts with [] => ret tt | _ => harvest (map AwTask ts) false false end))
       (fun e => match e with
                 | CancelledError => Some (set_cancelled ;; clear_tasks ;; kill)
                 | _ => if is_Exception e then Some (clear_tasks ;; kill ;; raise e) else None
                 end).

(** runner.py 898-928: _close; the transport's close() kills a child that is
    still running. *)
Definition close_transport : M unit :=
  modx (fun x => match x_rc x with None => popen_send SIGKILL (log LClosed x) | Some _ => x end).
Definition close : M unit :=
  bindM (getx x_proc) assertM ;;
  close_transport ;;
  bindM (getx x_rc) (fun rc => match rc with
  | None => ret tt
  | Some _ =>
      if piped_stdin then
        tryM (harvest [AwCoro KClosed] true true)
             (fun e => match e with TimeoutError => Some (ret tt) | _ => None end)
      else ret tt
  end).

(** runner.py 882-898: _finish. *)
Definition finish (exc : option exn) : M bool :=
  bindM (getx x_proc) assertM ;;
  finallyM
    (match exc with
     | Some e => when (is_cancelled e) set_cancelled ;;
                 kill ;; getx x_cancelled
     | None => wait ;; ret false
     end)
    close.

(** runner.py 855-880: __aexit__. *)
Definition aexit (exc : option exn) : M bool :=
  bindM (finallyM (tryM (finish exc)
                        (fun e => match e with CancelledError => Some (set_cancelled ;; ret false) | _ => None end))
                  (stop_timer ;; modx (fun x => set_inside false (audit (PStop None) x))))
        (fun suppress =>
         bindM (getx (fun x => x_cancelled x && x_timed_out x && negb (o_catch_cancelled o))) (fun t =>
         if t then raise TimeoutError else ret suppress)).

(** util.py 141-150: uninterrupted. *)
Definition uninterrupted (k : rkind) : M unit :=
  bindM (spawn k) (fun i =>
  tryM (await_shield rstep rfinish i)
       (fun e => match e with
                 | CancelledError =>
                     Some (bindM getM (fun w =>
                           match task_out w i with
                           | Some TCancelled => raise CancelledError
                           | _ => await_task rstep rfinish i ;; raise CancelledError
                           end))
                 | _ => None
                 end)).

(** Some awaiting code that may end normally, raise, or be cancelled
    (pty_util.open_streams). *)
Definition await_any : M unit := fun w r w' =>
  exists evs s, wait_run rstep rfinish ALL_COMPLETED None (w, mk_wst [] false true false) evs = Some (w', s)
  /\ (if s_canc s then r = Err CancelledError else forall e, r = Err e -> is_Exception e = true).

(** runner.py 712-732: _subprocess_spawn, without the process substitutions. *)
Definition subprocess_spawn : M unit :=
  bindM (getx x_proc) (fun p => assertM (negb p)) ;;
  when use_pty await_any ;;
  await_yield rstep rfinish ;;
  modx (set_launching true) ;; uninterrupted KExec.

(** Code without await that may raise (runner.py 649: __enter__ of _RunOptions). *)
Definition setup : M unit := fun w r w' => w' = w /\ forall e, r = Err e -> is_Exception e = true.
(** runner.py 730-732 and 651-686: process substitutions, sinks and sources:
    some number of new tasks, or an exception on the way. *)
Fixpoint add_io (n : nat) : M unit := match n with O => ret tt | S m => add_task KIO ;; add_io m end.
Definition setup_streams : M unit := fun w r w' => exists n, (add_io n ;; setup) w r w'.

(** runner.py 765-776: _start_timer. *)
Definition start_timer : M unit :=
  bindM (getx x_timer) (fun t => assertM (negb t)) ;;
  when (match o_timeout o with Some _ => true | None => false end) (modx (set_timer true)).

(** runner.py 640-710: _start. *)
Definition start : M unit :=
  bindM (getx x_tasks) (fun ts => assertM (match ts with [] => true | _ => false end)) ;;
  tryM (setup ;; subprocess_spawn ;; bindM (getx x_proc) assertM ;; setup_streams)
       (fun e => if is_Exception e || is_cancelled e
                 then Some (when (is_cancelled e) set_cancelled ;;
                            bindM (getx x_proc) (fun p => when p kill) ;; raise e)
                 else None) ;;
  add_task KWaiter ;; start_timer ;; modx (set_inside true).

(** runner.py 477-499: result(). *)
Definition run_result (check : bool) : M result :=
  bindM (getx (fun x => runner_result (returncode x) out_bytes err_bytes enc o (x_cancelled x) (x_timed_out x) check))
        (fun r => match r with Ok v => ret v | Err e => raise e end).

(** runner.py 624-638: __aenter__. *)
Definition aenter : M unit :=
  modx (audit PStart) ;;
  finallyM (tryM start (fun e => Some (stop_timer ;; modx (audit (PStop (Some e))) ;; raise e)))
           (bindM (getx (fun x => x_cancelled x && o_catch_cancelled o)) (fun b =>
            if b then run_result true ;; ret tt else ret tt)).

(** The body of the `async with`: any code; it may wait, start tasks, use the
    runner, and end in any way. *)
Inductive body_steps : world -> world -> Prop :=
| bs_refl w : body_steps w w
| bs_env w ev w1 c w2 : env_step rstep rfinish w ev = Some (w1, c) -> body_steps w1 w2 -> body_steps w w2
| bs_task w w1 w2 : add_task KIO w (Ok tt) w1 -> body_steps w1 w2 -> body_steps w w2.
Definition any_body : M unit := fun w r w' => body_steps w w'.

(** `async with Runner(cmd) as run: body` (the language's rules for `with`). *)
Definition with_run (body : M unit) : M unit :=
  aenter ;;
  fun w r w' => exists rb w1, body w rb w1 /\
    match rb with
    | Ok _ => (aexit None ;; ret tt) w1 r w'
    | Err e => bindM (aexit (Some e)) (fun suppress => if suppress then ret tt else raise e) w1 r w'
    end.

(** runner.py 968-988: run_command, without the multiple capture check. *)
Definition run_command : M result := with_run (ret tt) ;; run_result true.

End Runner.
