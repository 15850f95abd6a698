(** Model of `cmd.prompt()` from the options to the operations of the Prompt:
    the options (command.py 673-709), the routing of RunOptionsModel, the
    beginning of Prompt.__init__ (prompt.py 64-92) and the operations of
    PromptModel put together.

    Simplifications: those of RunOptionsModel and PromptModel.  The run around the
    block is that of IterModel/RunnerModel (C81, C82). *)
From Verif Require Import Base CommandModel.
From Verif Require RunOptionsModel.
From Verif Require Export EncodingModel PromptModel.
Open Scope Z_scope.

(** command.py 695: self.stdin(Redirect.CAPTURE).stdout(Redirect.CAPTURE) *)
Definition prompt_options (c : CommandModel.command) : res CommandModel.command :=
  bind (cmd_stdin c (VRedirect CAPTURE) false) (fun c1 => cmd_stdout c1 (VRedirect CAPTURE) false false).

(** prompt.py 73-74: runner.stdin and runner.stdout must not be None. *)
Definition prompt_streams (wi : RunOptionsModel.wiring) : res (RunOptionsModel.stream * RunOptionsModel.stream) :=
  match RunOptionsModel.wi_stdin wi, RunOptionsModel.wi_stdout wi with
  | Some a, Some b => Ok (a, b)
  | _, _ => Err AssertionError
  end.

(** The arguments of prompt() and what does not come from the options: the
    default pattern and timeout, _chunk_size, LOG_PROMPT, normalize_newlines; the
    terminal's EOF character, and whether it echoes. *)
Record prompt_args := { a_default : option pattern; a_timeout : option Z; a_chunk : nat; a_log : bool; a_normalize : bool;
  a_eof : bytes; a_echo : bool }.

(** prompt.py 79-85, runner.py 456-475: the settings of the Prompt. *)
Definition prompt_settings (a : prompt_args) (pty : option (Z * Z)) (k : codec) (e : errors) : settings :=
  {| c_default := a_default a; c_timeout := a_timeout a; c_chunk := a_chunk a; c_log := a_log a;
     c_pty_eof := match pty with Some _ => Some (a_eof a) | None => None end; c_codec := k; c_errors := e |}.

(** command.py 695-705: the Prompt [cfg] in its initial state [w0] that is given
    to the block, or the exception raised.  [R] answers the system calls, [next]
    is the next free descriptor, [rd] all the bytes that a stream delivers.
    LookupError of an unknown codec is OtherError. *)
Inductive prompt_start (R : RunOptionsModel.world) (c : CommandModel.command) (next : Z) (rd : RunOptionsModel.stream -> bytes) (a : prompt_args) :
    res (settings * world px rkind rval) -> Prop :=
| ps_refused e : prompt_options c = Err e -> prompt_start R c next rd a (Err e)
| ps_not_started c' s e : prompt_options c = Ok c' -> RunOptionsModel.start R c' next = (s, Err e) -> prompt_start R c next rd a (Err e)
| ps_no_stream c' s h wi e : prompt_options c = Ok c' -> RunOptionsModel.start R c' next = (s, Ok (h, wi)) ->
    prompt_streams wi = Err e -> prompt_start R c next rd a (Err e)
| ps_no_codec c' s h wi st : prompt_options c = Ok c' -> RunOptionsModel.start R c' next = (s, Ok (h, wi)) ->
    prompt_streams wi = Ok st -> parse_encoding (o_encoding (c_opts c')) = None -> prompt_start R c next rd a (Err (OtherError 0))
| ps_started c' s h wi win wout k e : prompt_options c = Ok c' -> RunOptionsModel.start R c' next = (s, Ok (h, wi)) ->
    prompt_streams wi = Ok (win, wout) -> parse_encoding (o_encoding (c_opts c')) = Some (k, e) ->
    prompt_start R c next rd a
      (Ok (prompt_settings a (RunOptionsModel.s_pty s) k e,
           prompt_world (a_normalize a) (rd wout) (match RunOptionsModel.s_pty s with Some _ => Some (a_echo a) | None => None end))).
