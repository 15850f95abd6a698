(** Model of a Runner whose `_is_bsd_pty()` is true (shellous/runner.py
    522-524): BSD_DERIVED is True and the command runs on a pty.  asyncio's child
    watcher ignores the process (runner.py 734-745, `set_ignore_child_watcher`),
    so the run has no "waiter" task (700-702) and `_wait` polls waitpid itself
    (533-534, 549-559).

    The world, the events of the environment and every function that does not
    look at `_is_bsd_pty()` are those of RunnerModel, with use_pty = true and
    piped_stdin = false (a pty is used: Process.stdin is None, runner.py 656-658).

    Simplifications, besides those of RunnerModel:
    - the tasks [KWaiter] are here only those that `_kill` and `_kill_wait` create
      for `harvest`.  Each of their polls is the two events XWatch (waitpid) and
      XCollect (Process.returncode is set), which may happen at any time: the
      model has more behaviours than the code;
    - a poll of the main task between these two events uses the status that
      XWatch got, since in the code the two are one step;
    - asyncio.sleep(0.025) is [await_yield]: any events may happen meanwhile. *)
From Verif Require Export RunnerModel.
Open Scope Z_scope.

Section Bsd.
Context (o : opts).
Context (ext : bool).
Context (out_bytes err_bytes : option bytes) (enc : text).
Notation world := (world rx rkind unit).
Notation M := (@M rx rkind unit).
Notation rstep := (rstep o).
Notation rfinish := (rfinish ext).
Notation harvest := (harvest rstep rfinish).
Notation "m1 ;; m2" := (bindM m1 (fun _ => m2)) (at level 61, right associativity).

(** util.py 86-118, 120-138: wait_pid and poll_wait_pid as called by the main
    task: waitpid(WNOHANG) and, if there is a status, `_process_exited`. *)
Definition poll_status (x : rx) : option Z :=
  match x_watch x with Some z => Some z | None => waitpid_status x end.
Definition collect_status (z : Z) (x : rx) : rx :=
  log (LCollect z) (set_rc (Some z) (match x_watch x with Some _ => x | None => set_reaped true (set_watch (Some z) x) end)).
Definition poll_wait_pid_bsd : M bool :=
  bindM (getx x_rc) (fun rc => match rc with
  | Some _ => ret true
  | None => bindM (getx poll_status) (fun st => match st with
            | Some z => modx (collect_status z) ;; ret true
            | None => ret false
            end)
  end).

(** runner.py 549-559: _wait_pid.  [wait_pid_loop n] is the loop in a run in
    which at most [n] polls find the process running. *)
Fixpoint wait_pid_loop (n : nat) : M unit :=
  bindM poll_wait_pid_bsd (fun b =>
  if b then ret tt
  else match n with
       | O => fun _ _ _ => False
       | S m => await_yield rstep rfinish ;; wait_pid_loop m
       end).
Definition wait_pid : M unit := fun w r w' => exists n, wait_pid_loop n w r w'.

(** runner.py 747-758: _waiter. *)
Definition waiter_bsd : M unit := bindM (getx x_proc) assertM ;; finallyM wait_pid stop_timer.

(** runner.py 526-547: _wait. *)
Definition wait_bsd : M unit :=
  bindM (getx x_proc) assertM ;;
  tryM (bindM (getx x_tasks) (fun ts => match ts with [] => ret tt | _ => harvest (map AwTask ts) false false end) ;;
        waiter_bsd)
       (fun e => match e with
                 | CancelledError => Some (set_cancelled ;; clear_tasks ;; kill o ext)
                 | _ => if is_Exception e then Some (clear_tasks ;; kill o ext ;; raise e) else None
                 end).

(** runner.py 882-898: _finish. *)
Definition finish_bsd (exc : option exn) : M bool :=
  bindM (getx x_proc) assertM ;;
  finallyM
    (match exc with
     | Some e => when (is_cancelled e) set_cancelled ;;
                 kill o ext ;; getx x_cancelled
     | None => wait_bsd ;; ret false
     end)
    (close o ext false).

(** runner.py 855-880: __aexit__. *)
Definition aexit_bsd (exc : option exn) : M bool :=
  bindM (finallyM (tryM (finish_bsd exc)
                        (fun e => match e with CancelledError => Some (set_cancelled ;; ret false) | _ => None end))
                  (stop_timer ;; modx (fun x => set_inside false (audit o (PStop None) x))))
        (fun suppress =>
         bindM (getx (fun x => x_cancelled x && x_timed_out x && negb (o_catch_cancelled o))) (fun t =>
         if t then raise TimeoutError else ret suppress)).

(** runner.py 640-710: _start; no waiter task is added (700-702). *)
Definition start_bsd : M unit :=
  bindM (getx x_tasks) (fun ts => assertM (match ts with [] => true | _ => false end)) ;;
  tryM (setup ;; subprocess_spawn o ext true ;; bindM (getx x_proc) assertM ;; setup_streams)
       (fun e => if is_Exception e || is_cancelled e
                 then Some (when (is_cancelled e) set_cancelled ;;
                            bindM (getx x_proc) (fun p => when p (kill o ext)) ;; raise e)
                 else None) ;;
  start_timer o ;; modx (set_inside true).

(** runner.py 624-638: __aenter__. *)
Definition aenter_bsd : M unit :=
  modx (audit o PStart) ;;
  finallyM (tryM start_bsd (fun e => Some (stop_timer ;; modx (audit o (PStop (Some e))) ;; raise e)))
           (bindM (getx (fun x => x_cancelled x && o_catch_cancelled o)) (fun b =>
            if b then run_result o out_bytes err_bytes enc true ;; ret tt else ret tt)).

(** `async with Runner(cmd) as run: body` (the language's rules for `with`). *)
Definition with_run_bsd (body : M unit) : M unit :=
  aenter_bsd ;;
  fun w r w' => exists rb w1, body w rb w1 /\
    match rb with
    | Ok _ => (aexit_bsd None ;; ret tt) w1 r w'
    | Err e => bindM (aexit_bsd (Some e)) (fun suppress => if suppress then ret tt else raise e) w1 r w'
    end.

(** runner.py 968-988: run_command, without the multiple capture check. *)
Definition run_command_bsd : M result := with_run_bsd (ret tt) ;; run_result o out_bytes err_bytes enc true.

End Bsd.
