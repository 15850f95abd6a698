(** Model of `async for line in cmd` and `async with cmd.prompt() as cli` for a
    command (command.py 673-709, 724-736; runner.py 957-966; prompt.py 127-145,
    399-424), on top of RunnerModel (the run) and CopyModel (the stream).

    An asynchronous generator runs in the task of its consumer.  Between two
    lines the generator is suspended and the consumer's code runs.

    Simplifications:
    - the reader's bytes are those of CopyModel; a cancellation of the consumer's
      task while the generator waits for a line is an event of the world;
    - the consumer resumes the generator, or closes it (aclose(), also what the
      event loop does for a generator that was abandoned and garbage collected);
      a generator that is abandoned and never closed has no outcome;
    - detailed logging (LOG_PROMPT) is omitted. *)
From Verif Require Export RunnerModel CopyModel Utf8Model.
Open Scope Z_scope.

Section Iter.
(** decode_bytes(data, encoding), util.py 51-56 *)
Context (dec : text -> bytes -> option text).
Context (o : opts) (ext piped_stdin use_pty : bool) (out_bytes err_bytes : option bytes) (enc : text).
Notation world := (world rx rkind unit).
Notation M := (@M rx rkind unit).
Notation rfinish := (rfinish ext).
Notation rstep := (rstep o).

(** The coroutine is suspended for some time, and then cancelled or not. *)
Definition suspended (cancelled : bool) (w w' : world) : Prop :=
  exists evs s, wait_run rstep rfinish ALL_COMPLETED None (w, mk_wst [] false true false) evs = Some (w', s)
  /\ s_canc s = cancelled.

(** command.py 733-736, runner.py 957-962 and redirect.py 284-288: the loop in
    the block, from the reader and the world to the lines yielded and the way
    the block ends. *)
Inductive iter_loop : sreader -> world -> list text -> res unit -> world -> Prop :=
| it_cancelled r w w' : suspended true w w' -> iter_loop r w [] (Err CancelledError) w'
| it_eof r r' w w' : suspended false w w' -> sreadline LIMIT r = (Ok [], r') -> iter_loop r w [] (Ok tt) w'
| it_error r r' e w w' : suspended false w w' -> sreadline LIMIT r = (Err e, r') -> iter_loop r w [] (Err e) w'
| it_undecodable r r' d w w' : suspended false w w' -> sreadline LIMIT r = (Ok d, r') -> d <> [] ->
    dec (o_encoding o) d = None -> iter_loop r w [] (Err UnicodeError) w'
| it_line r r' d t ls rb w w1 w2 w' : suspended false w w1 -> sreadline LIMIT r = (Ok d, r') -> d <> [] ->
    dec (o_encoding o) d = Some t ->
    body_steps o ext w1 w2 ->                       (* the consumer's code *)
    iter_loop r' w2 ls rb w' -> iter_loop r w (t :: ls) rb w'
| it_closed r r' d t w w1 w2 : suspended false w w1 -> sreadline LIMIT r = (Ok d, r') -> d <> [] ->
    dec (o_encoding o) d = Some t ->
    body_steps o ext w1 w2 ->
    iter_loop r w [t] (Err GeneratorExit) w2.       (* aclose() *)
(** runner.py 959-960: no stream, no lines. *)
Definition iter_block (stream : option sreader) (w : world) (ls : list text) (rb : res unit) (w' : world) : Prop :=
  match stream with
  | Some r => iter_loop r w ls rb w'
  | None => ls = [] /\ rb = Ok tt /\ w' = w
  end.

(** What follows the block: __aexit__ and the language's rules for `with`
    (the last part of RunnerModel.with_run). *)
Definition leave_with (rb : res unit) : M unit :=
  match rb with
  | Ok _ => bindM (aexit o ext piped_stdin None) (fun _ => ret tt)
  | Err e => bindM (aexit o ext piped_stdin (Some e)) (fun suppress : bool => if suppress then ret tt else raise e)
  end.

(** command.py 728-736: __aiter__ after the preflight (C15) and _readlines.
    [ls]: the lines the consumer got; [rb]: how the block ended, if it was
    entered; [r]: how the generator ended: Ok is StopAsyncIteration (the `async
    for` ends normally), Err GeneratorExit is a normal end of aclose(). *)
Inductive iterate (stream : option sreader) : list text -> option (res unit) -> res unit -> world -> Prop :=
| ite_failed e w' : aenter o ext use_pty out_bytes err_bytes enc (mk_world [] rx0 []) (Err e) w' ->
    iterate stream [] None (Err e) w'
| ite_entered w0 w1 ls rb r w' :
    aenter o ext use_pty out_bytes err_bytes enc (mk_world [] rx0 []) (Ok tt) w0 ->
    iter_block stream w0 ls rb w1 -> leave_with rb w1 r w' ->
    iterate stream ls (Some rb) r w'.

(** prompt.py 399-414: Prompt.close(), without detailed logging: stdin.close(),
    or the end-of-file characters for a pty; neither waits. *)
Definition prompt_close : M unit := assertM (piped_stdin || use_pty).
(** prompt.py 416-424: _finish_(). *)
Definition prompt_finish : M result := run_result o out_bytes err_bytes enc false.

(** command.py 697-709: `async with cmd.prompt() as cli: body`.  An exception
    of the body is thrown into the generator (contextlib.asynccontextmanager):
    if the generator ends normally the exception is suppressed, otherwise the
    generator's exception is raised.  [rb]: how the body ended; [cr]: the value
    of cli.result afterwards (None: RuntimeError "still running"). *)
Definition block_end (rb : res unit) (w : world) (rc : res unit) : Prop :=
  match rb with Ok _ => prompt_close w rc w | Err e => rc = Err e end.
Inductive prompt_session : option (res unit) -> option result -> res unit -> world -> Prop :=
| pr_failed e w' : aenter o ext use_pty out_bytes err_bytes enc (mk_world [] rx0 []) (Err e) w' ->
    prompt_session None None (Err e) w'
| pr_result w0 rb w1 rc r w2 v :
    aenter o ext use_pty out_bytes err_bytes enc (mk_world [] rx0 []) (Ok tt) w0 ->
    body_steps o ext w0 w1 -> block_end rb w1 rc -> leave_with rc w1 r w2 ->
    prompt_finish w2 (Ok v) w2 -> prompt_session (Some rb) (Some v) r w2
| pr_no_result w0 rb w1 rc r w2 e :
    aenter o ext use_pty out_bytes err_bytes enc (mk_world [] rx0 []) (Ok tt) w0 ->
    body_steps o ext w0 w1 -> block_end rb w1 rc -> leave_with rc w1 r w2 ->
    prompt_finish w2 (Err e) w2 -> prompt_session (Some rb) None (Err e) w2.
End Iter.
