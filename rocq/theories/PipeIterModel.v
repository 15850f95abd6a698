(** Model of `async for line in pipeline` and `async with pipeline.prompt() as
    cli` (pipeline.py 106-142, 234-242; runner.py 1221-1230; prompt.py 399-424),
    on top of PipeRunnerModel (the run) and CopyModel (the stream).

    Simplifications: those of PipeRunnerModel and IterModel. *)
From Verif Require Export PipeRunnerModel CopyModel Utf8Model.
Open Scope Z_scope.

(** The coroutine is suspended for some time, and then cancelled or not. *)
Definition psuspended (cancelled : bool) (w w' : world) : Prop :=
  exists evs s, wait_run pstep pfinish ALL_COMPLETED None (w, mk_wst [] false true false) evs = Some (w', s)
  /\ s_canc s = cancelled.

Section PIter.
(** decode_bytes(data, encoding), util.py 51-56; the options of the pipeline
    (runner.py 1028). *)
Context (dec : text -> bytes -> option text) (o : opts).

(** pipeline.py 238-242, runner.py 1220-1229 and redirect.py 284-288: the loop
    in the block, from the reader and the world to the lines yielded and the way
    the block ends. *)
Inductive piter_loop : sreader -> world -> list text -> res unit -> world -> Prop :=
| pi_cancelled r w w' : psuspended true w w' -> piter_loop r w [] (Err CancelledError) w'
| pi_eof r r' w w' : psuspended false w w' -> sreadline LIMIT r = (Ok [], r') -> piter_loop r w [] (Ok tt) w'
| pi_error r r' e w w' : psuspended false w w' -> sreadline LIMIT r = (Err e, r') -> piter_loop r w [] (Err e) w'
| pi_undecodable r r' d w w' : psuspended false w w' -> sreadline LIMIT r = (Ok d, r') -> d <> [] ->
    dec (o_encoding o) d = None -> piter_loop r w [] (Err UnicodeError) w'
| pi_line r r' d t ls rb w w1 w2 w' : psuspended false w w1 -> sreadline LIMIT r = (Ok d, r') -> d <> [] ->
    dec (o_encoding o) d = Some t ->
    body_steps w1 w2 ->                             (* the consumer's code *)
    piter_loop r' w2 ls rb w' -> piter_loop r w (t :: ls) rb w'
| pi_closed r r' d t w w1 w2 : psuspended false w w1 -> sreadline LIMIT r = (Ok d, r') -> d <> [] ->
    dec (o_encoding o) d = Some t ->
    body_steps w1 w2 ->
    piter_loop r w [t] (Err GeneratorExit) w2.      (* aclose() *)
(** runner.py 1222-1225: no stream, no lines. *)
Definition piter_block (stream : option sreader) (w : world) (ls : list text) (rb : res unit) (w' : world) : Prop :=
  match stream with
  | Some r => piter_loop r w ls rb w'
  | None => ls = [] /\ rb = Ok tt /\ w' = w
  end.

(** What follows the block: __aexit__ and the language's rules for `with`
    (the last part of PipeRunnerModel.with_pipe). *)
Definition pleave (rb : res unit) : M unit :=
  match rb with
  | Ok _ => bindM (aexit None) (fun _ => ret tt)
  | Err e => bindM (aexit (Some e)) (fun suppress : bool => if suppress then ret tt else raise e)
  end.

(** pipeline.py 234-242: __aiter__ after the preflight (C15) and _readlines; [n]
    commands, [setup] the outcome of _setup_pipeline.  [ls]: the lines the
    consumer got; [rb]: how the block ended, if it was entered; [r]: how the
    generator ended (Ok: the `async for` ends normally). *)
Inductive piterate (n : nat) (setup : res unit) (stream : option sreader) : list text -> option (res unit) -> res unit -> world -> Prop :=
| pite_failed e w' : aenter n setup true pw0 (Err e) w' -> piterate n setup stream [] None (Err e) w'
| pite_entered w0 w1 ls rb r w' :
    aenter n setup true pw0 (Ok tt) w0 ->
    piter_block stream w0 ls rb w1 -> pleave rb w1 r w' ->
    piterate n setup stream ls (Some rb) r w'.
End PIter.

(** prompt.py 399-414: Prompt.close() for a PipeRunner: stdin.close().  The
    first command's stdin is CAPTURE (pipeline.py 127), so there is a stdin. *)
Definition pprompt_close : M unit := bindM (getx p_ready) assertM.
(** prompt.py 416-424 and runner.py 1053-1061: _finish_(), result(check=False). *)
Definition pprompt_finish : M result :=
  bindM (getx p_results) (fun rs =>
  match rs with
  | None => raise AssertionError
  | Some l => bindM (getx p_cancelled) (fun c =>
      match convert_result_list (map entry l) c with Ok r => ret r | Err e => raise e end)
  end).

(** pipeline.py 127-142: `async with pipeline.prompt() as cli: body`; [rb]: how
    the body ended; [cr]: the value of cli.result afterwards (None: it raises
    RuntimeError).  An exception in the `finally` replaces the other one. *)
Definition pblock_end (rb : res unit) (w : world) (rc : res unit) : Prop :=
  match rb with Ok _ => pprompt_close w rc w | Err e => rc = Err e end.
Inductive pprompt_session (n : nat) (setup : res unit) : option (res unit) -> option result -> res unit -> world -> Prop :=
| pp_failed e w' : aenter n setup true pw0 (Err e) w' -> pprompt_session n setup None None (Err e) w'
| pp_result w0 rb w1 rc r w2 v :
    aenter n setup true pw0 (Ok tt) w0 ->
    body_steps w0 w1 -> pblock_end rb w1 rc -> pleave rc w1 r w2 ->
    pprompt_finish w2 (Ok v) w2 -> pprompt_session n setup (Some rb) (Some v) r w2
| pp_no_result w0 rb w1 rc r w2 e :
    aenter n setup true pw0 (Ok tt) w0 ->
    body_steps w0 w1 -> pblock_end rb w1 rc -> pleave rc w1 r w2 ->
    pprompt_finish w2 (Err e) w2 -> pprompt_session n setup (Some rb) None (Err e) w2.
