(** Model of `async for line in cmd` from the options to the lines: the
    preflight and the routing of RunOptionsModel, the run and the loop of
    IterModel and the copying coroutines of AwaitModel put together (command.py
    724-736; redirect.py 284-310; runner.py 640-710, 819-852, 949-962).

    Simplifications: those of the four models.  What a stream delivers is an
    [sreader] per stream. *)
From Verif Require Export IterModel AwaitModel.
Open Scope Z_scope.

Section IterCommand.
(** decode_bytes(data, encoding), util.py 51-56 *)
Context (dec : text -> bytes -> option text).

(** command.py 728-736.  [R] answers the system calls, [next] is the next free
    descriptor; [sinks]: what the copying tasks have written at the end, [ls]: the
    lines that the consumer got, [r]: how the generator ended (Ok: the `async
    for` ends normally). *)
Inductive iterate_command (R : routes) (c : command) (next : Z) (rd : RunOptionsModel.stream -> sreader) :
    (RunOptionsModel.sink -> list Z) -> list text -> res unit -> world rx rkind unit -> Prop :=
| ic_refused sinks e : RunOptionsModel.cmd_aiter_preflight c = Err e ->
    iterate_command R c next rd sinks [] (Err e) (mk_world [] rx0 [])
| ic_not_started sinks c' pty e w' : RunOptionsModel.cmd_aiter_preflight c = Ok c' ->
    aenter (c_opts c') false pty None None (o_encoding (c_opts c')) (mk_world [] rx0 []) (Err e) w' ->
    iterate_command R c next rd sinks [] (Err e) w'
| ic_ran sinks c' s hin hout herr wi w0 w1 ls rb r w' :
    let o := c_opts c' in
    let ob := if RunOptionsModel.s_output_bytes s then Some (sinks ResultOut) else None in
    let eb := if RunOptionsModel.s_error_bytes s then Some (sinks ResultErr) else None in
    RunOptionsModel.cmd_aiter_preflight c = Ok c' ->
    RunOptionsModel.start R c' next = (s, Ok ((hin, hout, herr), wi)) ->
    aenter o false (match RunOptionsModel.s_pty s with Some _ => true | None => false end) ob eb (o_encoding o)
           (mk_world [] rx0 []) (Ok tt) w0 ->
    iter_block dec o false (match RunOptionsModel.iter_stream wi with Some src => Some (rd src) | None => None end) w0 ls rb w1 ->
    leave_with o false (RunOptionsModel.is_pipe hin) rb w1 r w' ->
    copied dec o wi rd (x_tasks (w_x w0)) w' sinks ->
    iterate_command R c next rd sinks ls r w'.
End IterCommand.
