(** Model of the stream pair of a pseudo-terminal: _open_pty_streams and
    PtyStreamReaderProtocol (shellous/pty_util.py 106-181), with the asyncio
    classes they are built from: _UnixReadPipeTransport, _UnixWritePipeTransport
    (asyncio/unix_events.py of Python 3.12), StreamReader and StreamWriter
    (asyncio/streams.py).  Both transports use the same descriptor; only the
    file object of the writer closes it.

    One transition is one callback run by the event loop, one call made by the
    program, or one action of the processes on the other side of the terminal.
    Simplifications: the model starts when both streams are open and ends with
    the loop; StreamWriter.drain is not modelled (it writes nothing); the
    variant for BSD (lines 122-142, closing the child descriptor) is left out. *)
From Verif Require Export Base.
Open Scope Z_scope.

(** Default limit of asyncio.StreamReader (pty_util.py 154). *)
Definition LIMIT : Z := 65536.
Definition size (b : bytes) : Z := Z.of_nat (List.length b).

(** Why a transport is closed: nothing, EIO (the other side of a terminal is
    closed), another OSError. *)
Inductive cause := NoError | EIO | OtherOSError.

(** Callbacks in the queue of the event loop. *)
Inductive callback :=
| CbEof                       (* protocol.eof_received *)
| CbReaderLost (c : cause)    (* reader transport: _call_connection_lost *)
| CbWriterLost.               (* writer transport: _call_connection_lost *)

(** What can be observed from outside. *)
Inductive pev :=
| PChild (b : bytes)     (* the processes on the terminal have written [b] *)
| PHangup                (* they have closed the terminal *)
| PGot (b : bytes)       (* reader.read returned [b] *)
| PEnd                   (* reader.read returned b"" *)
| PRaise                 (* reader.read raised an OSError *)
| PWrite (b : bytes)     (* writer.write [b] was called *)
| PTook (b : bytes)      (* the terminal has accepted [b] *)
| PRefused               (* a write to the terminal failed *)
| PBroken                (* a read from the terminal failed (not with EIO) *)
| PClose                 (* writer.close was called *)
| PClosed                (* the descriptor was closed *)
| PForeign.              (* the loop watches the number of the descriptor although it is closed *)

Record ps := mk_ps {
  k_out : bytes;         (* written by the child, not read yet *)
  k_open : bool;         (* a process on the other side has the terminal open *)
  fd_open : bool;        (* the descriptor of the parent *)
  sel_r : bool;          (* loop: the reader transport watches the descriptor *)
  sel_w : bool;          (* loop: the writer transport watches the descriptor *)
  r_closing : bool; r_paused : bool;      (* reader transport *)
  s_buf : bytes; s_eof : bool; s_exc : bool; s_paused : bool;  (* StreamReader *)
  w_buf : bytes; w_closing : bool;        (* writer transport *)
  queue : list callback;
  p_log : list pev }.

(** pty_util.py 151-181: both transports are open, nothing has happened. *)
Definition ps0 : ps := mk_ps [] true true true false false false [] false false false [] false [] [].

Definition upd_kernel (out : bytes) (open : bool) (s : ps) := mk_ps out open (fd_open s) (sel_r s) (sel_w s) (r_closing s) (r_paused s) (s_buf s) (s_eof s) (s_exc s) (s_paused s) (w_buf s) (w_closing s) (queue s) (p_log s).
Definition upd_sel_r (b : bool) (s : ps) := mk_ps (k_out s) (k_open s) (fd_open s) b (sel_w s) (r_closing s) (r_paused s) (s_buf s) (s_eof s) (s_exc s) (s_paused s) (w_buf s) (w_closing s) (queue s) (p_log s).
Definition upd_sel_w (b : bool) (s : ps) := mk_ps (k_out s) (k_open s) (fd_open s) (sel_r s) b (r_closing s) (r_paused s) (s_buf s) (s_eof s) (s_exc s) (s_paused s) (w_buf s) (w_closing s) (queue s) (p_log s).
Definition upd_rt (closing paused : bool) (s : ps) := mk_ps (k_out s) (k_open s) (fd_open s) (sel_r s) (sel_w s) closing paused (s_buf s) (s_eof s) (s_exc s) (s_paused s) (w_buf s) (w_closing s) (queue s) (p_log s).
Definition upd_sr (buf : bytes) (eof exc paused : bool) (s : ps) := mk_ps (k_out s) (k_open s) (fd_open s) (sel_r s) (sel_w s) (r_closing s) (r_paused s) buf eof exc paused (w_buf s) (w_closing s) (queue s) (p_log s).
Definition upd_wt (buf : bytes) (closing : bool) (s : ps) := mk_ps (k_out s) (k_open s) (fd_open s) (sel_r s) (sel_w s) (r_closing s) (r_paused s) (s_buf s) (s_eof s) (s_exc s) (s_paused s) buf closing (queue s) (p_log s).
Definition upd_fd (b : bool) (s : ps) := mk_ps (k_out s) (k_open s) b (sel_r s) (sel_w s) (r_closing s) (r_paused s) (s_buf s) (s_eof s) (s_exc s) (s_paused s) (w_buf s) (w_closing s) (queue s) (p_log s).
Definition upd_queue (q : list callback) (s : ps) := mk_ps (k_out s) (k_open s) (fd_open s) (sel_r s) (sel_w s) (r_closing s) (r_paused s) (s_buf s) (s_eof s) (s_exc s) (s_paused s) (w_buf s) (w_closing s) q (p_log s).
Definition log (e : pev) (s : ps) := mk_ps (k_out s) (k_open s) (fd_open s) (sel_r s) (sel_w s) (r_closing s) (r_paused s) (s_buf s) (s_eof s) (s_exc s) (s_paused s) (w_buf s) (w_closing s) (queue s) (p_log s ++ [e]).
(** loop.call_soon *)
Definition call_soon (c : callback) (s : ps) := upd_queue (queue s ++ [c]) s.

(** ** Reader transport *)
(** unix_events.py 541-545: pause_reading *)
Definition pause_reading (s : ps) : ps :=
  if r_paused s || r_closing s then s else upd_sel_r false (upd_rt (r_closing s) true s).
(** unix_events.py 549-553: resume_reading.  loop._add_reader on a number whose
    descriptor is closed raises OSError, or watches another file if the number
    is in use again ([reused]).  The second component: it raised. *)
Definition resume_reading (reused : bool) (s : ps) : ps * bool :=
  if r_closing s || negb (r_paused s) then (s, false)
  else
    let s := upd_rt (r_closing s) false s in
    if fd_open s then (upd_sel_r true s, false)
    else if reused then (log PForeign (upd_sel_r true s), false)
    else (s, true).
(** unix_events.py 589-592: _close *)
Definition r_close (c : cause) (s : ps) : ps :=
  call_soon (CbReaderLost c) (upd_sel_r false (upd_rt true (r_paused s) s)).
(** unix_events.py 566-568: close *)
Definition reader_close (s : ps) : ps := if r_closing s then s else r_close NoError s.

(** streams.py 502-517: StreamReader.feed_data *)
Definition feed_data (b : bytes) (s : ps) : ps :=
  let buf := s_buf s ++ b in
  let s := upd_sr buf (s_eof s) (s_exc s) (s_paused s) s in
  if negb (s_paused s) && (2 * LIMIT <? size buf)
  then let s := pause_reading s in upd_sr (s_buf s) (s_eof s) (s_exc s) true s
  else s.

(** Answer of os.read. *)
Inductive ranswer := RData (b : bytes) | RBlock | REof | RFail (c : cause).
(** unix_events.py 523-539: _read_ready *)
Definition read_ready (a : ranswer) (s : ps) : ps :=
  match a with
  | RData b => feed_data b s
  | RBlock => s
  | REof => call_soon (CbReaderLost NoError) (call_soon CbEof (upd_sel_r false (upd_rt true (r_paused s) s)))
  | RFail c => r_close c s
  end.

(** ** Writer transport *)
(** unix_events.py 791-797: _close; loop._remove_reader is called with the
    number of the shared descriptor. *)
Definition w_close (s : ps) : ps :=
  let s := match w_buf s with [] => s | _ => upd_sel_w false s end in
  call_soon CbWriterLost (upd_sel_r false (upd_wt [] true s)).
(** Answer of os.write: the number of bytes accepted (0: BlockingIOError), or an
    exception. *)
Inductive wanswer := WTook (n : nat) | WFail.
Definition possible (a : wanswer) (b : bytes) : Prop := match a with WTook n => (n <= List.length b)%nat | WFail => True end.
(** unix_events.py 680-713: write, as StreamWriter.write calls it. *)
Definition write (b : bytes) (a : wanswer) (s : ps) : ps :=
  match b with
  | [] => s
  | _ =>
    if w_closing s then s
    else match w_buf s with
    | [] =>
        match a with
        | WFail => w_close (log PRefused s)
        | WTook n =>
            let s := log (PTook (firstn n b)) s in
            if (n =? List.length b)%nat then s
            else upd_sel_w true (upd_wt (skipn n b) false s)
        end
    | old => upd_wt (old ++ b) false s
    end
  end.
(** unix_events.py 799-806: _call_connection_lost: closes the file. *)
Definition w_lost (s : ps) : ps := log PClosed (upd_fd false s).
(** unix_events.py 715-741: _write_ready *)
Definition write_ready (a : wanswer) (s : ps) : ps :=
  match a with
  | WFail => w_close (upd_sel_w false (upd_wt [] (w_closing s) (log PRefused s)))
  | WTook n =>
      let s' := log (PTook (firstn n (w_buf s))) s in
      if (n =? List.length (w_buf s))%nat then
        let s' := upd_sel_w false (upd_wt [] (w_closing s) s') in
        if w_closing s then w_lost (upd_sel_r false s') else s'
      else upd_wt (skipn n (w_buf s)) (w_closing s) s'
  end.
(** unix_events.py 746-753, 764-767: write_eof, close *)
Definition orig_close (s : ps) : ps :=
  if w_closing s then s
  else
    let e := w_buf s in
    let s := upd_wt (w_buf s) true s in
    match e with [] => call_soon CbWriterLost (upd_sel_r false s) | _ => s end.
(** pty_util.py 172-179: the patched close of the writer transport. *)
Definition close (s : ps) : ps := reader_close (orig_close s).

(** ** The protocols *)
(** pty_util.py 112-120 and streams.py 251-263: PtyStreamReaderProtocol.connection_lost *)
Definition reader_lost (c : cause) (s : ps) : ps :=
  match c with
  | NoError | EIO => upd_sr (s_buf s) true (s_exc s) (s_paused s) s
  | OtherOSError => upd_sr (s_buf s) (s_eof s) true (s_paused s) s
  end.
Definition run_callback (c : callback) (s : ps) : ps :=
  match c with
  | CbEof => upd_sr (s_buf s) true (s_exc s) (s_paused s) s  (* pty_util.py 144-148, streams.py 270-278 *)
  | CbReaderLost c => reader_lost c s
  | CbWriterLost => w_lost s
  end.

(** ** Reading (streams.py 664-711: StreamReader.read(n) when it does not have to
    wait; lines 451-454: _maybe_resume_transport) *)
Definition maybe_resume (reused : bool) (s : ps) : ps * bool :=
  if s_paused s && (size (s_buf s) <=? LIMIT)
  then resume_reading reused (upd_sr (s_buf s) (s_eof s) (s_exc s) false s)
  else (s, false).
Definition read (n : nat) (reused : bool) (s : ps) : ps :=
  if s_exc s then log PRaise s
  else
    let b := firstn n (s_buf s) in
    let (s, raised) := maybe_resume reused (upd_sr (skipn n (s_buf s)) (s_eof s) (s_exc s) (s_paused s) s) in
    if raised then log PRaise s
    else match b with [] => log PEnd s | _ => log (PGot b) s end.

(** What os.read can answer: the terminal gives what was written, in order; when
    all processes have closed it and nothing is left, EIO (Linux) or end of
    file. A number that belongs to another file by now gives anything. *)
Inductive reads (s : ps) : ranswer -> ps -> Prop :=
| rd_data b rest : fd_open s = true -> k_out s = b ++ rest -> b <> [] -> reads s (RData b) (upd_kernel rest (k_open s) s)
| rd_block : fd_open s = true -> k_out s = [] -> k_open s = true -> reads s RBlock s
| rd_eof : fd_open s = true -> k_out s = [] -> k_open s = false -> reads s REof s
| rd_eio : fd_open s = true -> k_out s = [] -> k_open s = false -> reads s (RFail EIO) s
| rd_error : fd_open s = true -> reads s (RFail OtherOSError) (log PBroken s)
| rd_foreign a : fd_open s = false -> reads s a s.

Inductive step : ps -> ps -> Prop :=
| st_child s b : k_open s = true -> b <> [] -> step s (log (PChild b) (upd_kernel (k_out s ++ b) true s))
| st_hangup s : k_open s = true -> step s (log PHangup (upd_kernel (k_out s) false s))
| st_read_ready s a s' : sel_r s = true -> reads s a s' -> step s (read_ready a s')
| st_write_ready s a : sel_w s = true -> possible a (w_buf s) -> step s (write_ready a s)
| st_callback s c q : queue s = c :: q -> step s (run_callback c (upd_queue q s))
| st_read s n reused : n <> O -> s_buf s <> [] \/ s_eof s = true \/ s_exc s = true -> step s (read n reused s)
| st_write s b a : possible a b -> step s (write b a (log (PWrite b) s))
| st_close s : step s (close (log PClose s)).

(** Every state the stream pair can get into. *)
Inductive reachable : ps -> Prop :=
| reach_start : reachable ps0
| reach_step s s' : reachable s -> step s s' -> reachable s'.
