(** Model of `await cmd` from the options to the value returned: the routing of
    RunOptionsModel, the run of RunnerModel, the copying coroutines of CopyModel
    and the value of ResultModel put together (runner.py 640-710, 819-852,
    968-988).

    Simplifications: those of the four models.  What a stream delivers is an
    [sreader] per stream; its [EndEof] is the moment at which every process that
    holds the other end has closed it. *)
From Verif Require Export RunnerModel CopyModel.
From Verif Require RunOptionsModel.
Open Scope Z_scope.

Notation routes := RunOptionsModel.world.
Notation TCopy := RunOptionsModel.TCopy.
Notation ResultOut := RunOptionsModel.ResultOut.
Notation ResultErr := RunOptionsModel.ResultErr.
Notation Sink := RunOptionsModel.Sink.

(** str.isspace for one character; str.rstrip() of redirect.py 219 removes these. *)
Definition py_isspace (c : Z) : bool :=
  ((9 <=? c) && (c <=? 13)) || ((28 <=? c) && (c <=? 32)) || (c =? 133) || (c =? 160) || (c =? 5760) || ((8192 <=? c) && (c <=? 8202))
  || (c =? 8232) || (c =? 8233) || (c =? 8239) || (c =? 8287) || (c =? 12288).

(** What is observed of the sinks that are not containers, as a list: for a
    Logger the messages, each after the mark -1 (no code point); for a
    StreamWriter the bytes written, and -1 where it is closed. *)
Definition messages (l : list text) : list Z := flat_map (fun m => -1 :: m) l.
Fixpoint writer_log (l : list wevent) : list Z :=
  match l with [] => [] | Write b :: r => b ++ writer_log r | Close :: r => -1 :: writer_log r | WaitClosed :: r => writer_log r end.
(** How the coroutine of a sink reads its source: lines for a Logger
    (redirect.py 217), chunks otherwise. *)
Definition reads_by (dst : RunOptionsModel.sink) : sreader -> res bytes * sreader :=
  match dst with Sink (VLogger _) => sreadline LIMIT | _ => sread CHUNK_SIZE end.

Section Await.
(** decode_bytes(data, encoding), util.py 51-56 *)
Context (dec : text -> bytes -> option text).

(** runner.py 819-852: the coroutine chosen by _setup_output_sink, what it
    leaves in the sink and the exception that ends it.  [dr] and [closed] are the
    answers of the drain() and wait_closed() of the StreamWriter. *)
Inductive copies (o : opts) (append : bool) : RunOptionsModel.sink -> option Z -> list bytes -> option exn -> list Z -> option exn -> Prop :=
| cp_output ds e b x : copy_bytearray ds e [] = (b, x) -> copies o append ResultOut None ds e b x
| cp_error ds e b x : copy_bytearray ds e [] = (b, x) -> copies o append ResultErr None ds e b x
| cp_error_limit l ds e b x n : copy_bytearray_limit ds e l [] = (b, x, n) -> copies o append ResultErr (Some l) ds e b x
| cp_bytearray id old ds e b x : copy_bytearray ds e (set_position_bytearray append old) = (b, x) ->
    copies o append (Sink (VByteArray id old)) None ds e b x
| cp_bytesio id old p ds e m x : copy_bytesio ds e (set_position_mem append {| m_data := old; m_pos := p |}) = (m, x) ->
    copies o append (Sink (VBytesIO id old)) None ds e (m_data m) x
| cp_stringio id old p ds e m x : copy_stringio (dec (o_encoding o)) ds e (set_position_mem append {| m_data := old; m_pos := p |}) = (m, x) ->
    copies o append (Sink (VStringIO id old)) None ds e (m_data m) x
| cp_logger id ds e l x : copy_logger py_isspace (dec (o_encoding o)) ds e = (l, x) -> copies o append (Sink (VLogger id)) None ds e (messages l) x
| cp_writer id dr closed ds e l x : copy_streamwriter dr closed 0 ds e = (l, x) -> copies o append (Sink (VStreamWriter id)) None ds e (writer_log l) x.

(** How the task ends, given the exception that ends its coroutine; a task that
    has not ended is still waiting for data. *)
Definition ends_with (r : option (tout unit)) (x : option exn) : Prop :=
  match r with
  | Some (TValue _) => x = None
  | Some (TFail e) => x = Some e
  | Some TCancelled => x = Some CancelledError
  | None => True
  end.

(** runner.py 305, 331: the append option of the stream that is copied. *)
Definition append_of (o : opts) (src : RunOptionsModel.stream) : bool :=
  match src with RunOptionsModel.PStderr => o_error_append o | _ => o_output_append o end.

(** [sinks] holds what the copying tasks, which are among the tasks of the
    Runner, have written when the run has ended in world [w]. *)
Definition copied (o : opts) (wi : RunOptionsModel.wiring) (rd : RunOptionsModel.stream -> sreader) (tasks : list nat)
    (w : world rx rkind unit) (sinks : RunOptionsModel.sink -> list Z) : Prop :=
  forall src dst lim, In (TCopy src dst lim) (RunOptionsModel.wi_tasks wi) ->
  exists i ds e x, In i tasks /\ answers (reads_by dst) (rd src) ds e
  /\ copies o (append_of o src) dst lim ds e (sinks dst) x /\ ends_with (task_out w i) x.

(** runner.py 968-988: `await cmd`; [R] answers the system calls, [next] is the
    next free descriptor. *)
Inductive await_command (R : routes) (c : command) (next : Z) (rd : RunOptionsModel.stream -> sreader) :
    (RunOptionsModel.sink -> list Z) -> res awaited -> world rx rkind unit -> Prop :=
| aw_refused sinks e : RunOptionsModel.run_command_guard c false = Some e ->
    await_command R c next rd sinks (Err e) (mk_world [] rx0 [])
| aw_not_started sinks pty e w' : RunOptionsModel.run_command_guard c false = None ->
    aenter (c_opts c) false pty None None (o_encoding (c_opts c)) (mk_world [] rx0 []) (Err e) w' ->
    await_command R c next rd sinks (Err e) w'
| aw_ran sinks s hin hout herr wi w0 r w' :
    let o := c_opts c in
    let ob := if RunOptionsModel.s_output_bytes s then Some (sinks ResultOut) else None in
    let eb := if RunOptionsModel.s_error_bytes s then Some (sinks ResultErr) else None in
    RunOptionsModel.run_command_guard c false = None ->
    RunOptionsModel.start R c next = (s, Ok ((hin, hout, herr), wi)) ->
    aenter o false (match RunOptionsModel.s_pty s with Some _ => true | None => false end) ob eb (o_encoding o)
           (mk_world [] rx0 []) (Ok tt) w0 ->
    bindM (aexit o false (RunOptionsModel.is_pipe hin) None) (fun _ => run_result o ob eb (o_encoding o) true) w0 r w' ->
    copied o wi rd (x_tasks (w_x w0)) w' sinks ->
    await_command R c next rd sinks (await_value dec o r) w'.
End Await.
