(** Model of `await pipeline` from the commands to the value returned:
    _setup_pipeline of PipelineModel, the tasks of PipeRunnerModel and, inside
    each of these tasks, the whole run of a command of AwaitModel (runner.py
    1053-1088, 1103-1178, 1210-1242 and 968-988).

    Simplifications: those of the three models.  The runs of the members are
    separate worlds; what connects them is how each task ends and who cancels
    it (Task.cancel on the task of a member is a cancellation of the main task
    of its Runner). *)
From Verif Require Export AwaitModel.
From Verif Require PipeRunnerModel RunnerSpec.
Open Scope Z_scope.

Notation pworld := PipeRunnerModel.world.
Notation PRes := PipeRunnerModel.PRes.

(** Cancellations of the task of the run from outside; the expiry of the timer
    of the run (runner.py 778-782) is [LExpired]. *)
Fixpoint outside (l : list RunnerModel.rev) : nat :=
  match l with [] => 0%nat | LCancel :: l' => S (outside l') | _ :: l' => outside l' end.

Section Pipe.
Context (dec : text -> bytes -> option text).

(** result.py 112 is the only place that raises ResultError: the exception
    holds the result of the run.  Members with a process substitution are left
    out here: their Runner can also fail with the ResultError of the substituted
    command (runner.py 730-732). *)
Definition own_result_error (o : opts) (a : res awaited) (w : world rx rkind unit) : Prop :=
  forall v, a = Err (ResultError v) -> exists ob eb,
  runner_result (returncode (w_x w)) ob eb (o_encoding o) o (x_cancelled (w_x w)) (x_timed_out (w_x w)) true = Err (ResultError v).

(** How the task of a member ends: Runner.run_command has returned or raised
    (runner.py 968-988), or the task was cancelled before its first step. *)
Definition member_end (c : command) (a : res awaited) (w : world rx rkind unit) (t : task PipeRunnerModel.pkind PipeRunnerModel.pval) : Prop :=
  match t_out t with
  | Some (TValue (PRes r)) => a = Ok (AResult r)
  | Some (TValue _) => False
  | Some (TFail e) => a = Err e /\ e <> CancelledError
  | Some TCancelled => a = Err CancelledError
  | None => True
  end
  /\ own_result_error (c_opts c) a w
  /\ (outside (x_log (w_x w)) <= t_creq t)%nat.

(** runner.py 1232-1242: `await pipeline`.  For each command [j]: [R j] answers
    the system calls of its run, [next j] is the next free descriptor, [rd j]
    what its streams deliver, [sinks j] what its copying tasks have written,
    [ws j] the world in which its run has ended. *)
Definition await_pipeline (R : nat -> routes) (pipe : nat -> option (Z * Z)) (cmds : pipeline) (next : nat -> Z)
    (rd : nat -> RunOptionsModel.stream -> sreader) (sinks : nat -> RunOptionsModel.sink -> list Z)
    (v : res awaited) (wp : pworld) (ws : nat -> world rx rkind unit) : Prop :=
  exists fds cmds' o r,
    setup_pipeline pipe cmds = (fds, Ok cmds') /\ pipe_options cmds = Ok o
    /\ PipeRunnerModel.run_pipeline (List.length cmds) (Ok tt) o PipeRunnerModel.pw0 r wp
    /\ v = await_value dec o r
    /\ forall j c t, nth_error cmds' j = Some c -> nth_error (w_tasks wp) j = Some t ->
       (t_out t = Some TCancelled /\ t_creq t <> 0%nat)
       \/ exists a, await_command dec (R j) c (next j) (rd j) (sinks j) a (ws j) /\ member_end c a (ws j) t.
End Pipe.
