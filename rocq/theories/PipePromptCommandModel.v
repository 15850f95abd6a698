(** Model of `pipeline.prompt()` from the commands to the operations of the
    Prompt: the options (pipeline.py 106-142), the pipes (runner.py 1159-1178),
    the routing of the first and the last command, _setup_capturing (runner.py
    1180-1208), the beginning of Prompt.__init__ (prompt.py 64-92) and the
    operations of PromptModel put together.

    Simplifications: those of PipelineModel, RunOptionsModel and PromptModel.  A
    command that cannot be started is not modelled here: that the block is then not
    entered is part of PipeRunnerModel and PipeIterModel (C86, C88). *)
From Verif Require Import Base CommandModel PipelineModel.
From Verif Require RunOptionsModel.
From Verif Require Export PromptCommandModel.
Open Scope Z_scope.

(** pipeline.py 127: self.stdin(Redirect.CAPTURE).stdout(Redirect.CAPTURE) *)
Definition pipe_prompt_options (p : pipeline) : res pipeline :=
  bind (pipe_stdin p (VRedirect CAPTURE) false) (fun p1 => pipe_stdout p1 (VRedirect CAPTURE) false false).

(** runner.py 1200-1204 and prompt.py 73-74: stdin of the first command, stdout
    of the last one; they must not be None. *)
Definition pipe_prompt_streams (first last : RunOptionsModel.wiring) : res (RunOptionsModel.stream * RunOptionsModel.stream) :=
  match RunOptionsModel.wi_stdin first, RunOptionsModel.wi_stdout last with
  | Some a, Some b => Ok (a, b)
  | _, _ => Err AssertionError
  end.

(** prompt.py 79-85, 104-125 and 404: a PipeRunner has no terminal; its options
    are those of the last command (runner.py 1034-1041). *)
Definition pipe_prompt_settings (a : prompt_args) (k : codec) (e : errors) : settings :=
  {| c_default := a_default a; c_timeout := a_timeout a; c_chunk := a_chunk a; c_log := a_log a;
     c_pty_eof := None; c_codec := k; c_errors := e |}.

(** pipeline.py 127-139: the Prompt [cfg] in its initial state [w0] that is given
    to the block, or the exception raised.  [Rf] and [Rl] answer the system calls
    of the runs of the first and the last command, [nf] and [nl] are their next
    free descriptors, [rd] all the bytes that a stream of the last command
    delivers, [pipe] gives the pipes. *)
Inductive pipe_prompt_start (Rf Rl : RunOptionsModel.world) (pipe : nat -> option (Z * Z)) (cmds : pipeline) (nf nl : Z)
    (rd : RunOptionsModel.stream -> bytes) (a : prompt_args) : res (settings * world px rkind rval) -> Prop :=
| pps_refused e : pipe_prompt_options cmds = Err e -> pipe_prompt_start Rf Rl pipe cmds nf nl rd a (Err e)
| pps_no_pipe p fds e : pipe_prompt_options cmds = Ok p -> setup_pipeline pipe p = (fds, Err e) ->
    pipe_prompt_start Rf Rl pipe cmds nf nl rd a (Err e)
| pps_no_stream p fds cmds' f l sf sl hf hl wf wl e : pipe_prompt_options cmds = Ok p -> setup_pipeline pipe p = (fds, Ok cmds') ->
    nth_error cmds' 0 = Some f -> nth_error cmds' (List.length cmds' - 1) = Some l ->
    RunOptionsModel.start Rf f nf = (sf, Ok (hf, wf)) -> RunOptionsModel.start Rl l nl = (sl, Ok (hl, wl)) ->
    pipe_prompt_streams wf wl = Err e -> pipe_prompt_start Rf Rl pipe cmds nf nl rd a (Err e)
| pps_no_codec p fds cmds' f l sf sl hf hl wf wl st o : pipe_prompt_options cmds = Ok p -> setup_pipeline pipe p = (fds, Ok cmds') ->
    nth_error cmds' 0 = Some f -> nth_error cmds' (List.length cmds' - 1) = Some l ->
    RunOptionsModel.start Rf f nf = (sf, Ok (hf, wf)) -> RunOptionsModel.start Rl l nl = (sl, Ok (hl, wl)) ->
    pipe_prompt_streams wf wl = Ok st -> pipe_options p = Ok o -> parse_encoding (o_encoding o) = None ->
    pipe_prompt_start Rf Rl pipe cmds nf nl rd a (Err (OtherError 0))
| pps_started p fds cmds' f l sf sl hf hl wf wl win wout o k e : pipe_prompt_options cmds = Ok p -> setup_pipeline pipe p = (fds, Ok cmds') ->
    nth_error cmds' 0 = Some f -> nth_error cmds' (List.length cmds' - 1) = Some l ->
    RunOptionsModel.start Rf f nf = (sf, Ok (hf, wf)) -> RunOptionsModel.start Rl l nl = (sl, Ok (hl, wl)) ->
    pipe_prompt_streams wf wl = Ok (win, wout) -> pipe_options p = Ok o -> parse_encoding (o_encoding o) = Some (k, e) ->
    pipe_prompt_start Rf Rl pipe cmds nf nl rd a
      (Ok (pipe_prompt_settings a k e, prompt_world (a_normalize a) (rd wout) None)).
