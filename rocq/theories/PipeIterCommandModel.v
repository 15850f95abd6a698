(** Model of `async for line in pipeline` from the commands to the lines: the
    preflight and the routing of RunOptionsModel, _setup_pipeline of
    PipelineModel and the run and the loop of PipeIterModel put together
    (pipeline.py 224-242; redirect.py 284-310; runner.py 1117-1242).

    Simplifications: those of the models.  Of the run of the last command only its
    start is connected with the pipeline here (its streams are handed over when it
    has started, runner.py 985-988 and 1186-1208); how the commands end is that
    of PipeRunnerModel. *)
From Verif Require Export AwaitModel.
From Verif Require PipeRunnerModel PipeIterModel.
Open Scope Z_scope.

Section PipeIterCommand.
Context (dec : text -> bytes -> option text).

(** What __aenter__ learns of _setup_pipeline. *)
Definition outcome {A} (r : res A) : res unit := match r with Ok _ => Ok tt | Err e => Err e end.

(** pipeline.py 234-242.  [R] answers the system calls of the run of the last
    command, [next] is its next free descriptor, [rd] what its streams deliver,
    [pipe] gives the pipes; [ls]: the lines that the consumer got; [r]: how the
    generator ended (Ok: the `async for` ends normally). *)
Inductive iterate_pipeline (R : routes) (pipe : nat -> option (Z * Z)) (cmds : pipeline) (next : Z)
    (rd : RunOptionsModel.stream -> sreader) : list text -> res unit -> PipeRunnerModel.world -> Prop :=
| ip_refused e : RunOptionsModel.pipe_aiter_preflight cmds = Err e ->
    iterate_pipeline R pipe cmds next rd [] (Err e) PipeRunnerModel.pw0
| ip_not_started cmds1 e wp : RunOptionsModel.pipe_aiter_preflight cmds = Ok cmds1 ->
    PipeRunnerModel.aenter (List.length cmds1) (outcome (snd (setup_pipeline pipe cmds1))) true PipeRunnerModel.pw0 (Err e) wp ->
    iterate_pipeline R pipe cmds next rd [] (Err e) wp
| ip_ran cmds1 fds cmds' o last s hs wi ls rb r wp :
    RunOptionsModel.pipe_aiter_preflight cmds = Ok cmds1 -> pipe_options cmds1 = Ok o ->
    setup_pipeline pipe cmds1 = (fds, Ok cmds') ->
    nth_error cmds' (List.length cmds1 - 1) = Some last ->
    RunOptionsModel.start R last next = (s, Ok (hs, wi)) ->
    PipeIterModel.piterate dec o (List.length cmds1) (Ok tt)
      (match RunOptionsModel.iter_stream wi with Some src => Some (rd src) | None => None end) ls (Some rb) r wp ->
    iterate_pipeline R pipe cmds next rd ls r wp.
End PipeIterCommand.
