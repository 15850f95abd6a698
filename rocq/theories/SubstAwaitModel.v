(** Model of `await cmd` with process substitution, at any depth: the run of
    the command itself is that of AwaitModel; each command or pipeline among its
    arguments is run by `cmd.coro()` in one of its tasks (runner.py 148-186,
    712-732, 968-988; command.py 661-670).

    Simplifications: those of AwaitModel.  The runs are separate worlds; what
    connects them is how each task ends and who cancels it.  For a substituted
    pipeline only the outcome of `await pipeline` is kept (PipeAwaitModel models
    that). *)
From Verif Require Export AwaitModel PipeAwaitModel.
Open Scope Z_scope.

(** A run and the runs of the commands substituted into the arguments. *)
Inductive rtree :=
| RCmd (c : command) (a : res awaited) (w : world rx rkind unit) (subs : list rtree)
| RPipe (p : pipeline) (a : res awaited)
| RNever (v : value)      (* its task was cancelled before its first step *)
| RGoing (v : value).     (* its task has not ended *)
Definition subject (t : rtree) : value :=
  match t with RCmd c _ _ _ => VCmd (c_args c) (c_opts c) | RPipe p _ => VPipe p | RNever v | RGoing v => v end.

(** How the task of a coroutine with this outcome ends; each substituted
    command has a task of the Runner (runner.py 730-732), and is cancelled from
    outside only by cancelling that task. *)
Definition task_ends (a : res awaited) (r : option (tout unit)) : Prop :=
  match r with
  | Some (TValue _) => exists v, a = Ok v
  | Some (TFail e) => a = Err e /\ e <> CancelledError
  | Some TCancelled => a = Err CancelledError
  | None => False
  end.
Definition sub_end (t : rtree) (k : task rkind unit) : Prop :=
  t_kind k = KIO /\
  match t with
  | RCmd _ a w _ => task_ends a (t_out k) /\ (outside (x_log (w_x w)) <= t_creq k)%nat
  | RPipe _ a => task_ends a (t_out k)
  | RNever _ => t_out k = Some TCancelled /\ t_creq k <> 0%nat
  | RGoing _ => t_out k = None
  end.

Section Subst.
Context (dec : text -> bytes -> option text).

(** runner.py 968-988, as [await_command]; the tasks for process substitution
    are the first of the Runner's tasks (runner.py 730-732), numbered from 1
    (0 is the launch, util.py 141-150).  When the start fails, they may have
    been started or not. *)
Inductive runs : rtree -> Prop :=
| rn_refused c e : RunOptionsModel.run_command_guard c false = Some e -> runs (RCmd c (Err e) (mk_world [] rx0 []) [])
| rn_not_started c pty e w' subs : RunOptionsModel.run_command_guard c false = None ->
    aenter (c_opts c) false pty None None (o_encoding (c_opts c)) (mk_world [] rx0 []) (Err e) w' ->
    (forall t, In t subs -> runs t) ->
    (forall k t, nth_error subs k = Some t -> exists tk, nth_error (w_tasks w') (S k) = Some tk /\ sub_end t tk) ->
    runs (RCmd c (Err e) w' subs)
| rn_ran R c next rd sinks s hin hout herr wi w0 r w' subs :
    let o := c_opts c in
    let ob := if RunOptionsModel.s_output_bytes s then Some (sinks ResultOut) else None in
    let eb := if RunOptionsModel.s_error_bytes s then Some (sinks ResultErr) else None in
    RunOptionsModel.run_command_guard c false = None ->
    RunOptionsModel.start R c next = (s, Ok ((hin, hout, herr), wi)) ->
    aenter o false (match RunOptionsModel.s_pty s with Some _ => true | None => false end) ob eb (o_encoding o)
           (mk_world [] rx0 []) (Ok tt) w0 ->
    bindM (aexit o false (RunOptionsModel.is_pipe hin) None) (fun _ => run_result o ob eb (o_encoding o) true) w0 r w' ->
    copied dec o wi rd (x_tasks (w_x w0)) w' sinks ->
    (forall t, In t subs -> runs t) ->
    map subject subs = RunOptionsModel.s_subcmds s ->
    (forall k t, nth_error subs k = Some t -> nth_error (x_tasks (w_x w0)) k = Some (S k)
       /\ exists tk, nth_error (w_tasks w') (S k) = Some tk /\ sub_end t tk) ->
    runs (RCmd c (await_value dec o r) w' subs)
| rn_pipe p a : runs (RPipe p a)
| rn_never v : runs (RNever v)
| rn_going v : runs (RGoing v).
End Subst.
