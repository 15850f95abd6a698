(** Model of the flow of data between shellous and the processes of a command or
    pipeline: the tasks that write the input and collect the output
    (shellous/redirect.py 112-264), the pipes, which hold a limited number of
    bytes, and the asyncio classes in between: _UnixWritePipeTransport,
    _UnixReadPipeTransport (asyncio/unix_events.py of Python 3.12),
    SubprocessStreamProtocol (asyncio/subprocess.py), FlowControlMixin and
    StreamReader (asyncio/streams.py).

    A pipeline of [n] processes: process [i] reads pipe [i] and writes pipe
    [i + 1] and its own stderr pipe; shellous writes pipe 0 and reads pipe [n]
    and every stderr pipe.  A single command is the case [n = 1].

    One transition is one callback of the event loop, one step of a task from
    one `await` to the next, or one action of a process.
    Simplifications: the model starts when all processes run and shellous has
    closed its copies of the inner pipe ends (C44); no task is cancelled (that is
    RunnerModel); each process has no children that keep its pipes open; the
    source of write_reader always has its next chunk ready; sinks that can refuse
    data (StreamWriter, Logger) are left out. *)
From Verif Require Export Base.
Open Scope Z_scope.

Definition size (b : bytes) : Z := Z.of_nat (List.length b).
(** Limits: StreamReader (streams.py 23), flow control of transports
    (transports.py 314-321), chunk size (redirect.py 17), POSIX PIPE_BUF. *)
Definition LIMIT : Z := 65536.
Definition HIGH : Z := 65536.
Definition CHUNK : nat := Z.to_nat 8192.
Definition PIPE_BUF : Z := 4096.

(** ** Pipes.  [p_in] and [p_out] remember all bytes written and read so far. *)
Record pipe := mk_pipe { data : bytes; cap : Z; w_open : bool; r_open : bool; p_in : bytes; p_out : bytes }.
Definition new_pipe (c : Z) : pipe := mk_pipe [] c true true [] [].
Definition room (p : pipe) : Z := cap p - size (data p).
Definition put (b : bytes) (p : pipe) := mk_pipe (data p ++ b) (cap p) (w_open p) (r_open p) (p_in p ++ b) (p_out p).
Definition take (n : nat) (p : pipe) := mk_pipe (skipn n (data p)) (cap p) (w_open p) (r_open p) (p_in p) (p_out p ++ firstn n (data p)).
Definition shut_w (p : pipe) := mk_pipe (data p) (cap p) false (r_open p) (p_in p) (p_out p).
Definition shut_r (p : pipe) := mk_pipe (data p) (cap p) (w_open p) false (p_in p) (p_out p).

(** ** Writing the input *)
Inductive wcb := CbTLost (exc : bool)  (* transport: _call_connection_lost *)
               | CbPLost (exc : bool). (* protocol: pipe_connection_lost *)
Inductive wpc :=
| WNext               (* about to take the next chunk, or to close *)
| WDrain              (* about to call drain *)
| WHelper             (* drain after its sleep(0) *)
| WWait               (* drain waits for its future *)
| WWoken (exc : bool) (* the future is done *)
| WClosed             (* the task has ended *)
| WFailed.            (* the task has raised BrokenPipeError *)
Record writer := mk_w {
  proactive : bool;   (* true: write_stream, false: write_reader *)
  src : list bytes;   (* chunks not written yet *)
  pc : wpc;
  wb : bytes;         (* transport: _buffer *)
  closing : bool;     (* transport: _closing *)
  sel_peer : bool;    (* loop: the transport is told when the peer closes the pipe *)
  paused : bool;      (* transport._protocol_paused, protocol._paused *)
  conn_lost : bool;   (* protocol._connection_lost *)
  wq : list wcb }.
Definition up_task (s : list bytes) (c : wpc) (w : writer) := mk_w (proactive w) s c (wb w) (closing w) (sel_peer w) (paused w) (conn_lost w) (wq w).
Definition up_buf (b : bytes) (pa : bool) (w : writer) := mk_w (proactive w) (src w) (pc w) b (closing w) (sel_peer w) pa (conn_lost w) (wq w).
Definition up_close (cl se : bool) (w : writer) := mk_w (proactive w) (src w) (pc w) (wb w) cl se (paused w) (conn_lost w) (wq w).
Definition up_lost (l : bool) (w : writer) := mk_w (proactive w) (src w) (pc w) (wb w) (closing w) (sel_peer w) (paused w) l (wq w).
Definition up_wq (q : list wcb) (w : writer) := mk_w (proactive w) (src w) (pc w) (wb w) (closing w) (sel_peer w) (paused w) (conn_lost w) q.
Definition soon (c : wcb) (w : writer) := up_wq (wq w ++ [c]) w.

(** redirect.py 124-155, 158-185: one chunk for write_stream, any number for
    write_reader; `eof is None` (no pty). *)
Definition new_writer (stream : bool) (input : list bytes) : writer := mk_w stream input WNext [] false true false false [].

(** unix_events.py 791-797: _close *)
Definition t_fail (exc : bool) (w : writer) : writer := soon (CbTLost exc) (up_close true false (up_buf [] (paused w) w)).
(** The future that drain waits for (streams.py 141-162). *)
Definition wake (exc : bool) (w : writer) : writer := match pc w with WWait => up_task (src w) (WWoken exc) w | _ => w end.
(** transports.py 277-293: _maybe_pause_protocol *)
Definition maybe_pause (w : writer) : writer := if HIGH <? size (wb w) then up_buf (wb w) true w else w.
(** transports.py 295-309: _maybe_resume_protocol, called with an empty buffer only *)
Definition resume (w : writer) : writer := if paused w then wake false (up_buf (wb w) false w) else w.
(** unix_events.py 680-713: write; os.write accepts [n] bytes, or fails because
    nobody has the other end of the pipe open. *)
Inductive t_write (b : bytes) (w : writer) (p : pipe) : writer -> pipe -> Prop :=
| tw_dropped : closing w = true -> t_write b w p w p
| tw_buffered : closing w = false -> wb w <> [] -> t_write b w p (maybe_pause (up_buf (wb w ++ b) (paused w) w)) p
| tw_broken : closing w = false -> wb w = [] -> r_open p = false -> t_write b w p (t_fail true w) p
| tw_all : closing w = false -> wb w = [] -> r_open p = true -> size b <= room p -> t_write b w p w (put b p)
| tw_part n : closing w = false -> wb w = [] -> r_open p = true -> (n < List.length b)%nat -> size (firstn n b) <= room p ->
    t_write b w p (maybe_pause (up_buf (skipn n b) (paused w) w)) (put (firstn n b) p).
(** unix_events.py 746-753, 764-767: close *)
Definition t_close (w : writer) : writer :=
  if closing w then w
  else match wb w with
       | [] => soon (CbTLost false) (up_close true false w)
       | _ => up_close true (sel_peer w) w
       end.
(** streams.py 164-174: _drain_helper.  What follows drain: redirect.py 112-119,
    140-147 (write_stream closes) and 166-180 (write_reader goes on, or closes
    after an error). *)
Definition after_drain (exc : bool) (w : writer) : writer := up_task (if exc then [] else src w) WNext w.
Definition helper (w : writer) : writer :=
  if conn_lost w then after_drain true w
  else if paused w then up_task (src w) WWait w
  else after_drain false w.
(** One step of write_stream (redirect.py 124-147) or write_reader (158-180). *)
Inductive w_task (w : writer) (p : pipe) : writer -> pipe -> Prop :=
| wt_end : pc w = WNext -> (src w = [] \/ exists rest, src w = [] :: rest) -> w_task w p (up_task [] WClosed (t_close w)) p
| wt_refuse b rest : pc w = WNext -> src w = b :: rest -> b <> [] -> proactive w = true -> closing w = true -> w_task w p (up_task (src w) WFailed w) p
| wt_write b rest w' p' : pc w = WNext -> src w = b :: rest -> b <> [] -> (proactive w = true -> closing w = false) ->
    t_write b w p w' p' -> w_task w p (up_task rest WDrain w') p'
| wt_drain : pc w = WDrain -> w_task w p (if closing w then up_task (src w) WHelper w else helper w) p
| wt_helper : pc w = WHelper -> w_task w p (helper w) p
| wt_woken exc : pc w = WWoken exc -> w_task w p (after_drain exc w) p.
(** base_subprocess.py 269-272: connection_lost; unix_events.py 799-806 *)
Definition t_lost (exc : bool) (w : writer) (p : pipe) : writer * pipe := (soon (CbPLost exc) w, shut_w p).
(** subprocess.py 74-87: pipe_connection_lost of stdin; streams.py 151-162 *)
Definition p_lost (exc : bool) (w : writer) : writer :=
  let w := up_lost true w in if paused w then wake exc w else w.
(** What the event loop and the task can do. *)
Inductive w_step (w : writer) (p : pipe) : writer -> pipe -> Prop :=
| ws_task w' p' : w_task w p w' p' -> w_step w p w' p'
| ws_tlost exc q : wq w = CbTLost exc :: q -> w_step w p (fst (t_lost exc (up_wq q w) p)) (snd (t_lost exc (up_wq q w) p))
| ws_plost exc q : wq w = CbPLost exc :: q -> w_step w p (p_lost exc (up_wq q w)) p
  (* unix_events.py 671-678: _read_ready, the peer has closed the pipe *)
| ws_peer : sel_peer w = true -> r_open p = false -> w_step w p (t_fail (match wb w with [] => false | _ => true end) w) p
  (* unix_events.py 715-741: _write_ready *)
| ws_broken : wb w <> [] -> r_open p = false -> w_step w p (t_fail true w) p
| ws_part n : wb w <> [] -> r_open p = true -> n <> O -> (n < List.length (wb w))%nat -> size (firstn n (wb w)) <= room p ->
    w_step w p (up_buf (skipn n (wb w)) (paused w) w) (put (firstn n (wb w)) p)
| ws_all : wb w <> [] -> r_open p = true -> size (wb w) <= room p -> closing w = false ->
    w_step w p (resume (up_buf [] (paused w) w)) (put (wb w) p)
| ws_all_closing : wb w <> [] -> r_open p = true -> size (wb w) <= room p -> closing w = true ->
    w_step w p (fst (t_lost false (up_close true false (resume (up_buf [] (paused w) w))) (put (wb w) p)))
               (snd (t_lost false (up_close true false (resume (up_buf [] (paused w) w))) (put (wb w) p))).

(** ** Collecting the output *)
Inductive rcb := CbData (b : bytes) (* protocol: pipe_data_received *)
               | CbRTLost           (* transport: _call_connection_lost *)
               | CbRPLost.          (* protocol: pipe_connection_lost *)
Inductive rpc := RCollect | RDiscard | RDone.
Record reader := mk_r {
  rq : list rcb;
  rclosing : bool; rpaused : bool;               (* transport *)
  sbuf : bytes; seof : bool; spaused : bool;     (* StreamReader *)
  sink : bytes; limit : option nat; rstate : rpc }.
Definition up_rq (q : list rcb) (r : reader) := mk_r q (rclosing r) (rpaused r) (sbuf r) (seof r) (spaused r) (sink r) (limit r) (rstate r).
Definition up_rt (cl pa : bool) (r : reader) := mk_r (rq r) cl pa (sbuf r) (seof r) (spaused r) (sink r) (limit r) (rstate r).
Definition up_sr (b : bytes) (e pa : bool) (r : reader) := mk_r (rq r) (rclosing r) (rpaused r) b e pa (sink r) (limit r) (rstate r).
Definition up_sink (b : bytes) (c : rpc) (r : reader) := mk_r (rq r) (rclosing r) (rpaused r) (sbuf r) (seof r) (spaused r) b (limit r) c.
(** copy_bytearray (redirect.py 223-231; the same for copy_bytesio 211-219 and
    copy_stringio 188-206), or copy_bytearray_limit (234-258) with a limit. *)
Definition new_reader (l : option nat) : reader := mk_r [] false false [] false false [] l RCollect.

(** streams.py 502-517: feed_data, with pause_reading (unix_events.py 541-545) *)
Definition feed_data (b : bytes) (r : reader) : reader :=
  let r := up_sr (sbuf r ++ b) (seof r) (spaused r) r in
  if negb (spaused r) && (2 * LIMIT <? size (sbuf r))
  then let r := if rclosing r then r else up_rt false true r in up_sr (sbuf r) (seof r) true r
  else r.
(** streams.py 451-454: _maybe_resume_transport, with resume_reading
    (unix_events.py 549-553) *)
Definition maybe_resume (r : reader) : reader :=
  if spaused r && (size (sbuf r) <=? LIMIT)
  then let r := up_sr (sbuf r) (seof r) false r in if rclosing r then r else up_rt false false r
  else r.
(** The body of the loops, given what `await source.read` returned. *)
Definition got (b : bytes) (r : reader) : reader :=
  match b, rstate r with
  | [], _ => up_sink (sink r) RDone r
  | _, RCollect =>
      let s := sink r ++ b in
      match limit r with
      | Some l => if (l <? List.length s)%nat then up_sink (firstn l s) RDiscard r else up_sink s RCollect r
      | None => up_sink s RCollect r
      end
  | _, c => up_sink (sink r) c r
  end.
Inductive r_step (r : reader) (p : pipe) : reader -> pipe -> Prop :=
  (* unix_events.py 523-539: _read_ready; base_subprocess.py 204-205 *)
| rs_data n : rclosing r = false -> rpaused r = false -> n <> O -> (n <= List.length (data p))%nat ->
    r_step r p (up_rq (rq r ++ [CbData (firstn n (data p))]) r) (take n p)
| rs_eof : rclosing r = false -> rpaused r = false -> data p = [] -> w_open p = false ->
    r_step r p (up_rq (rq r ++ [CbRTLost]) (up_rt true (rpaused r) r)) p
| rs_feed b q : rq r = CbData b :: q -> r_step r p (feed_data b (up_rq q r)) p
| rs_tlost q : rq r = CbRTLost :: q -> r_step r p (up_rq (q ++ [CbRPLost]) r) (shut_r p)
  (* subprocess.py 88-98: feed_eof *)
| rs_plost q : rq r = CbRPLost :: q -> r_step r p (up_sr (sbuf r) true (spaused r) (up_rq q r)) p
  (* streams.py 664-711: read, when it need not wait *)
| rs_task : rstate r <> RDone -> sbuf r <> [] \/ seof r = true ->
    r_step r p (got (firstn CHUNK (sbuf r)) (maybe_resume (up_sr (skipn CHUNK (sbuf r)) (seof r) (spaused r) r))) p.

(** ** The processes: any programs.  A process is busy with itself, waits in a
    system call, or has exited. *)
Inductive pst := Busy | Reading | WritingOut (b : bytes) | WritingErr (b : bytes) | Exited.

Record st := mk_st {
  wr : writer; out : reader; errs : nat -> reader;
  pipes : nat -> pipe; epipes : nat -> pipe;
  procs : nat -> pst;
  saw_eof : nat -> bool }.  (* read() has told process [i] that its input has ended *)
Definition set {A} (f : nat -> A) (i : nat) (x : A) : nat -> A := fun j => if Nat.eqb j i then x else f j.
Definition up_wr (w : writer) (p0 : pipe) (s : st) := mk_st w (out s) (errs s) (set (pipes s) 0 p0) (epipes s) (procs s) (saw_eof s).
Definition up_out (n : nat) (r : reader) (p : pipe) (s : st) := mk_st (wr s) r (errs s) (set (pipes s) n p) (epipes s) (procs s) (saw_eof s).
Definition up_err (i : nat) (r : reader) (p : pipe) (s : st) := mk_st (wr s) (out s) (set (errs s) i r) (pipes s) (set (epipes s) i p) (procs s) (saw_eof s).
Definition up_proc (i : nat) (c : pst) (s : st) := mk_st (wr s) (out s) (errs s) (pipes s) (epipes s) (set (procs s) i c) (saw_eof s).
Definition up_pipe (i : nat) (p : pipe) (s : st) := mk_st (wr s) (out s) (errs s) (set (pipes s) i p) (epipes s) (procs s) (saw_eof s).
Definition up_epipe (i : nat) (p : pipe) (s : st) := mk_st (wr s) (out s) (errs s) (pipes s) (set (epipes s) i p) (procs s) (saw_eof s).
Definition up_saw (i : nat) (s : st) := mk_st (wr s) (out s) (errs s) (pipes s) (epipes s) (procs s) (set (saw_eof s) i true).

(** What process [i] can do. *)
Inductive p_step (i : nat) (s : st) : st -> Prop :=
| ps_want_read : procs s i = Busy -> r_open (pipes s i) = true -> p_step i s (up_proc i Reading s)
| ps_read n : procs s i = Reading -> n <> O -> (n <= List.length (data (pipes s i)))%nat ->
    p_step i s (up_proc i Busy (up_pipe i (take n (pipes s i)) s))
| ps_read_eof : procs s i = Reading -> data (pipes s i) = [] -> w_open (pipes s i) = false -> p_step i s (up_saw i (up_proc i Busy s))
| ps_want_write b : procs s i = Busy -> w_open (pipes s (S i)) = true -> b <> [] -> p_step i s (up_proc i (WritingOut b) s)
| ps_write b k : procs s i = WritingOut b -> r_open (pipes s (S i)) = true -> k <> O -> (k <= List.length b)%nat -> size (firstn k b) <= room (pipes s (S i)) ->
    p_step i s (up_proc i (match skipn k b with [] => Busy | b' => WritingOut b' end) (up_pipe (S i) (put (firstn k b) (pipes s (S i))) s))
| ps_write_fails b : procs s i = WritingOut b -> r_open (pipes s (S i)) = false -> p_step i s (up_proc i Busy s)
| ps_want_err b : procs s i = Busy -> w_open (epipes s i) = true -> b <> [] -> p_step i s (up_proc i (WritingErr b) s)
| ps_err b k : procs s i = WritingErr b -> k <> O -> (k <= List.length b)%nat -> size (firstn k b) <= room (epipes s i) ->
    p_step i s (up_proc i (match skipn k b with [] => Busy | b' => WritingErr b' end) (up_epipe i (put (firstn k b) (epipes s i)) s))
| ps_close_in : procs s i = Busy -> p_step i s (up_pipe i (shut_r (pipes s i)) s)
| ps_close_out : procs s i = Busy -> p_step i s (up_pipe (S i) (shut_w (pipes s (S i))) s)
| ps_close_err : procs s i = Busy -> p_step i s (up_epipe i (shut_w (epipes s i)) s)
  (* exits, or is killed, at any time *)
| ps_exit : procs s i <> Exited ->
    p_step i s (let s1 := up_pipe i (shut_r (pipes s i)) s in
                let s2 := up_pipe (S i) (shut_w (pipes s1 (S i))) s1 in
                up_proc i Exited (up_epipe i (shut_w (epipes s2 i)) s2)).

(** What shellous and the event loop do, for [n] processes. *)
Inductive l_step (n : nat) (s : st) : st -> Prop :=
| ls_in w p : w_step (wr s) (pipes s 0) w p -> l_step n s (up_wr w p s)
| ls_out r p : r_step (out s) (pipes s n) r p -> l_step n s (up_out n r p s)
| ls_err i r p : (i < n)%nat -> r_step (errs s i) (epipes s i) r p -> l_step n s (up_err i r p s).
Inductive step (n : nat) (s : st) : st -> Prop :=
| st_loop s' : l_step n s s' -> step n s s'
| st_proc i s' : (i < n)%nat -> p_step i s s' -> step n s s'.

(** Start: all processes run, all pipes are empty.  [stream], [input]: see
    new_writer; [olim], [elim]: error_limit, if the sink has one; [caps],
    [ecaps]: capacities of the pipes. *)
Definition start (stream : bool) (input : list bytes) (olim : option nat) (elim : nat -> option nat) (caps ecaps : nat -> Z) : st :=
  mk_st (new_writer stream input) (new_reader olim) (fun i => new_reader (elim i)) (fun i => new_pipe (caps i)) (fun i => new_pipe (ecaps i)) (fun _ => Busy) (fun _ => false).
Inductive reachable (n : nat) (s0 : st) : st -> Prop :=
| reach_start : reachable n s0 s0
| reach_step s s' : reachable n s0 s -> step n s s' -> reachable n s0 s'.
