(** Model of class Runner (shellous/runner.py 381-990) when the audit callback
    may raise: RunnerModel with every call of the callback replaced by one that
    has an outcome.  Everything that does not call the callback is taken from
    RunnerModel; the functions below are those that do, directly or not.

    Simplification: a callback that is called by the user's own run.send_signal()
    or run.cancel() (events XSendSignal and XUserCancel of RunnerModel) does not
    raise. *)
From Verif Require Import AsyncModel HarvestModel RunnerModel.
Open Scope Z_scope.

Section Audit.
(** The outcomes that the callback may have in each phase: [Ok tt] when it
    returns, [Err e] when it raises. *)
Context (cb : phase -> res unit -> Prop).
Context (o : opts) (ext piped_stdin use_pty : bool).
Context (out_bytes err_bytes : option bytes) (enc : text).
Notation world := (world rx rkind unit).
Notation M := (@M rx rkind unit).
Notation rstep := (rstep o).
Notation rfinish := (rfinish ext).
Notation harvest := (harvest rstep rfinish).
Notation "m1 ;; m2" := (bindM m1 (fun _ => m2)) (at level 61, right associativity).

(** runner.py 930-946: _audit_callback. *)
Definition callback (p : phase) : M unit := fun w r w' =>
  w' = w /\ match o_audit_callback o with Some _ => cb p r | None => r = Ok tt end.
Definition call_audit (p : phase) : M unit := modx (audit o p) ;; callback p.

(** runner.py 591-603: _signal: the callback is called before the signal is sent. *)
Definition send (sig : option Z) (x : rx) : rx :=
  let x1 := log (LSignal sig) x in
  match sig with
  | None => popen_send SIGKILL x1
  | Some s => set_lastsig (Some s) (popen_send s x1)
  end.
Definition signal_cb (sig : option Z) : M unit :=
  bindM (getx x_proc) assertM ;; call_audit (PSignal sig) ;; modx (send sig).

(** runner.py 605-623: _kill_wait. *)
Definition kill_wait_cb : M unit :=
  bindM (getx x_proc) assertM ;;
  bindM (getx x_rc) (fun rc => match rc with
  | Some _ => ret tt
  | None =>
      tryM (signal_cb None ;; harvest [AwCoro KWaiter] true false)
           (fun e => match e with
                     | TimeoutError => Some (bindM poll_wait_pid (fun b => if b then ret tt else raise unable_to_kill))
                     | _ => None
                     end)
  end).

(** runner.py 561-589: _kill. *)
Definition kill_cb : M unit :=
  bindM (getx x_proc) assertM ;;
  tryM (bindM (getx x_rc) (fun rc => match rc with None => signal_cb (o_cancel_signal o) | Some _ => ret tt end) ;;
        bindM (getx x_tasks) (fun ts => match ts with [] => ret tt | _ => harvest (map AwTask ts) true false end) ;;
        bindM (getx x_rc) (fun rc => match rc with None => harvest [AwCoro KWaiter] true false | Some _ => ret tt end))
       (fun e => match e with
                 | CancelledError => Some (set_cancelled ;; kill_wait_cb)
                 | TimeoutError => Some kill_wait_cb
                 | _ => Some (kill_wait_cb ;; raise e)
                 end).

(** runner.py 526-547: _wait. *)
Definition wait_cb : M unit :=
  bindM (getx x_proc) assertM ;;
  tryM (bindM (getx x_tasks) (fun ts => match ts with [] => ret tt | _ => harvest (map AwTask ts) false false end))
       (fun e => match e with
                 | CancelledError => Some (set_cancelled ;; clear_tasks ;; kill_cb)
                 | _ => if is_Exception e then Some (clear_tasks ;; kill_cb ;; raise e) else None
                 end).

(** runner.py 882-898: _finish. *)
Definition finish_cb (exc : option exn) : M bool :=
  bindM (getx x_proc) assertM ;;
  finallyM
    (match exc with
     | Some e => when (is_cancelled e) set_cancelled ;;
                 kill_cb ;; getx x_cancelled
     | None => wait_cb ;; ret false
     end)
    (close o ext piped_stdin).

(** runner.py 855-880: __aexit__. *)
Definition aexit_cb (exc : option exn) : M bool :=
  bindM (finallyM (tryM (finish_cb exc)
                        (fun e => match e with CancelledError => Some (set_cancelled ;; ret false) | _ => None end))
                  (stop_timer ;; modx (fun x => set_inside false (audit o (PStop None) x)) ;; callback (PStop None)))
        (fun suppress =>
         bindM (getx (fun x => x_cancelled x && x_timed_out x && negb (o_catch_cancelled o))) (fun t =>
         if t then raise TimeoutError else ret suppress)).

(** runner.py 640-710: _start. *)
Definition start_cb : M unit :=
  bindM (getx x_tasks) (fun ts => assertM (match ts with [] => true | _ => false end)) ;;
  tryM (setup ;; subprocess_spawn o ext use_pty ;; bindM (getx x_proc) assertM ;; setup_streams)
       (fun e => if is_Exception e || is_cancelled e
                 then Some (when (is_cancelled e) set_cancelled ;;
                            bindM (getx x_proc) (fun p => when p kill_cb) ;; raise e)
                 else None) ;;
  add_task KWaiter ;; start_timer o ;; modx (set_inside true).

(** runner.py 624-638: __aenter__: the first call is outside the try block. *)
Definition aenter_cb : M unit :=
  call_audit PStart ;;
  finallyM (tryM start_cb (fun e => Some (stop_timer ;; call_audit (PStop (Some e)) ;; raise e)))
           (bindM (getx (fun x => x_cancelled x && o_catch_cancelled o)) (fun b =>
            if b then run_result o out_bytes err_bytes enc true ;; ret tt else ret tt)).

(** `async with Runner(cmd) as run: body` (the language's rules for `with`). *)
Definition with_run_cb (body : M unit) : M unit :=
  aenter_cb ;;
  fun w r w' => exists rb w1, body w rb w1 /\
    match rb with
    | Ok _ => (aexit_cb None ;; ret tt) w1 r w'
    | Err e => bindM (aexit_cb (Some e)) (fun suppress => if suppress then ret tt else raise e) w1 r w'
    end.
End Audit.
