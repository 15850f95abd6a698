(** Model of pty_util.py: terminal attributes (184-257), the pty descriptors
    (34-78, 106-142), and prompt.py 104-125 (Prompt.echo).

    A terminal is what tcgetattr returns plus its size; the operating system's
    tcgetattr/tcsetattr/TIOCSWINSZ read and store exactly that (assumption), or
    fail when the descriptor is not a terminal.  [t_sets] counts tcsetattr
    calls.  Constants are those of Linux. *)
From Verif Require Export Base FdModel.
Open Scope Z_scope.

(** termios.tcgetattr: [iflag, oflag, cflag, lflag, ispeed, ospeed, cc]. *)
Record attrs := mk_attrs {
  a_iflag : Z; a_oflag : Z; a_cflag : Z; a_lflag : Z; a_ispeed : Z; a_ospeed : Z; a_cc : list bytes }.
Record tty := mk_tty { t_attrs : attrs; t_rows : Z; t_cols : Z; t_sets : nat }.

(** termios constants. *)
Definition ECHO := 8.
Definition ICANON := 2.
Definition VEOF := 4%nat.
Definition VTIME := 5%nat.
Definition VMIN := 6%nat.

(** Descriptor numbers to terminals. *)
Definition ttys := Z -> option tty.
Definition tput (m : ttys) (fd : Z) (t : tty) : ttys := fun x => if x =? fd then Some t else m x.

(** What is raised: termios.error; struct.error; AssertionError; RuntimeError. *)
Definition termios_error := OtherError 1.
Definition struct_error := OtherError 2.

(** tcgetattr, tcsetattr (an operation on one terminal, reached by [fd]). *)
Definition tcgetattr (m : ttys) (fd : Z) : res attrs :=
  match m fd with Some t => Ok (t_attrs t) | None => Err termios_error end.
Definition tcsetattr (m : ttys) (fd : Z) (a : attrs) : res unit * ttys :=
  match m fd with
  | Some t => (Ok tt, tput m fd (mk_tty a (t_rows t) (t_cols t) (S (t_sets t))))
  | None => (Err termios_error, m)
  end.
Definition with_lflag (a : attrs) (l : Z) : attrs :=
  mk_attrs (a_iflag a) (a_oflag a) (a_cflag a) l (a_ispeed a) (a_ospeed a) (a_cc a).

(** pty_util.py 221-224 (get_term_echo). *)
Definition get_term_echo (m : ttys) (fd : Z) : res bool :=
  bind (tcgetattr m fd) (fun a => Ok (negb (Z.land (a_lflag a) ECHO =? 0))).

(** pty_util.py 227-238 (set_term_echo), second half: from the attributes read. *)
Definition set_term_echo_with (m : ttys) (fd : Z) (echo : bool) (a : attrs) : res unit * ttys :=
  let curr_echo := negb (Z.land (a_lflag a) ECHO =? 0) in
  if Bool.eqb echo curr_echo then (Ok tt, m)
  else if echo then tcsetattr m fd (with_lflag a (Z.lor (a_lflag a) ECHO))
  else tcsetattr m fd (with_lflag a (Z.land (a_lflag a) (Z.lnot ECHO))).
(** pty_util.py 227-238 (set_term_echo). *)
Definition set_term_echo (m : ttys) (fd : Z) (echo : bool) : res unit * ttys :=
  match tcgetattr m fd with
  | Err e => (Err e, m)
  | Ok a => set_term_echo_with m fd echo a
  end.

(** prompt.py 104-125; [pty_fd] is runner.py 455-464, None also for a
    PipeRunner. *)
Definition prompt_get_echo (m : ttys) (pty_fd : option Z) : res bool :=
  match pty_fd with None => Ok false | Some fd => get_term_echo m fd end.
Definition prompt_set_echo (m : ttys) (pty_fd : option Z) (value : bool) : res unit * ttys :=
  match pty_fd with
  | None => (Err (RuntimeError "Cannot set echo mode. Not running in a PTY."), m)
  | Some fd => set_term_echo m fd value
  end.

(** pty_util.py 250-257 (_get_eof).  IndexError cannot occur: cc has 32 entries. *)
Definition get_eof (m : ttys) (fd : Z) : res bytes :=
  bind (tcgetattr m fd) (fun a =>
    if Z.land (a_lflag a) ICANON =? 0 then Ok [] else Ok (nth VEOF (a_cc a) [])).

(** pty_util.py 241-247 (_set_term_size): struct.pack("HHHH") raises
    struct.error outside 0..65535; an OSError of the ioctl is only logged. *)
Definition in_u16 (n : Z) : bool := (0 <=? n) && (n <? 65536).
Definition set_term_size (m : ttys) (fd rows cols : Z) : res unit * ttys :=
  if in_u16 rows && in_u16 cols then
    match m fd with
    | Some t => (Ok tt, tput m fd (mk_tty (t_attrs t) rows cols (t_sets t)))
    | None => (Ok tt, m)
    end
  else (Err struct_error, m).

Fixpoint set_nth (n : nat) (v : bytes) (l : list bytes) : list bytes :=
  match l, n with
  | [], _ => []
  | _ :: l, O => v :: l
  | x :: l, S n => x :: set_nth n v l
  end.
Definition noncanonical_cc (l : list bytes) : list bytes := set_nth VTIME [0] (set_nth VMIN [1] l).
(** CPython Lib/tty.py cfmakeraw: the flags cleared on Linux. *)
Definition RAW_I := 7679.  (* IGNBRK|BRKINT|IGNPAR|PARMRK|INPCK|ISTRIP|INLCR|IGNCR|ICRNL|IXON|IXANY|IXOFF *)
Definition RAW_L := 33275. (* ECHO|ECHOE|ECHOK|ECHONL|ICANON|IEXTEN|ISIG|NOFLSH|TOSTOP *)
Definition cfmakeraw (a : attrs) : attrs :=
  mk_attrs (Z.land (a_iflag a) (Z.lnot RAW_I)) (Z.land (a_oflag a) (Z.lnot 1))
    (Z.lor (Z.land (a_cflag a) (Z.lnot 304)) 48) (Z.land (a_lflag a) (Z.lnot RAW_L))
    (a_ispeed a) (a_ospeed a) (noncanonical_cc (a_cc a)).
(** CPython Lib/tty.py cfmakecbreak. *)
Definition cfmakecbreak (a : attrs) : attrs :=
  mk_attrs (a_iflag a) (a_oflag a) (a_cflag a) (Z.land (a_lflag a) (Z.lnot 10))
    (a_ispeed a) (a_ospeed a) (noncanonical_cc (a_cc a)).
(** tty.setraw, tty.setcbreak. *)
Definition tty_set (mk : attrs -> attrs) (m : ttys) (fd : Z) : res unit * ttys :=
  match tcgetattr m fd with Err e => (Err e, m) | Ok a => tcsetattr m fd (mk a) end.

(** Sequencing of operations on terminals. *)
Definition seq_tty (p : res unit * ttys) (f : ttys -> res unit * ttys) : res unit * ttys :=
  match p with (Ok _, m) => f m | (Err e, m) => (Err e, m) end.
Definition size_if (m : ttys) (fd rows cols : Z) : res unit * ttys :=
  if (rows =? 0) && (cols =? 0) then (Ok tt, m) else set_term_size m fd rows cols.
Definition assert_eof (m : ttys) (fd : Z) (v : bytes) : res unit * ttys :=
  match get_eof m fd with
  | Err e => (Err e, m)
  | Ok b => if text_eqb b v then (Ok tt, m) else (Err AssertionError, m)
  end.
(** pty_util.py 184-193 (raw), 196-205 (cbreak), 208-218 (cooked): the adapter
    called with the child's descriptor. *)
Definition adapter_raw (rows cols : Z) (m : ttys) (fd : Z) : res unit * ttys :=
  seq_tty (tty_set cfmakeraw m fd) (fun m => seq_tty (size_if m fd rows cols) (fun m => assert_eof m fd [])).
Definition adapter_cbreak (rows cols : Z) (m : ttys) (fd : Z) : res unit * ttys :=
  seq_tty (tty_set cfmakecbreak m fd) (fun m => seq_tty (size_if m fd rows cols) (fun m => assert_eof m fd [])).
Definition adapter_cooked (rows cols : Z) (echo : bool) (m : ttys) (fd : Z) : res unit * ttys :=
  seq_tty (size_if m fd rows cols) (fun m =>
  seq_tty (if echo then (Ok tt, m) else set_term_echo m fd false) (fun m => assert_eof m fd [4])).

(** ** Descriptors of a pty: pty_util.py 34-78 *)

(** The shared ChildFd cell, the two protocol references to it (106-142, BSD)
    and the PtyFds object in use: [p_writer] says whether it has streams. *)
Record ptys := mk_ptys {
  p_child : Z;            (* ChildFd.child_fd *)
  p_ref : bool;           (* PtyStreamReaderProtocol.pty__child_fd is not None *)
  p_parent : Z;
  p_writer : bool }.
Inductive pop :=
| OpChildClose            (* child_fd.close(): open_fds cleanup, runner.py 360-361 *)
| OpProtocol              (* _close_child_fd: first data or timer, pty_util.py 125-142 *)
| OpStreams               (* open_streams, pty_util.py 58-68, 157-159 *)
| OpClose.                (* PtyFds.close, pty_util.py 70-78 *)
(** Calls made: closing of descriptors, or of the stream writer. *)
Inductive pcall := PcOs (c : call) | PcWriter.
Definition pty_op (b : closing) (o : pop) (p : ptys) : ptys * list pcall :=
  match o with
  | OpChildClose =>
      let (fd', calls) := child_close b (p_child p) in
      (mk_ptys fd' (p_ref p) (p_parent p) (p_writer p), map PcOs calls)
  | OpProtocol =>
      if p_ref p then
        let (fd', calls) := child_close b (p_child p) in
        (mk_ptys fd' false (p_parent p) (p_writer p), map PcOs calls)
      else (p, [])
  | OpStreams => (mk_ptys (p_child p) true (p_parent p) true, [])
  | OpClose =>
      let (fd', calls) := child_close b (p_child p) in
      (mk_ptys fd' (p_ref p) (p_parent p) (p_writer p),
       map PcOs calls ++ (if p_writer p then [PcWriter] else map PcOs (fst (fst (close_fds b (AList [FInt (p_parent p)]))))))
  end.
Fixpoint pty_ops (b : closing) (l : list pop) (p : ptys) : ptys * list pcall :=
  match l with
  | [] => (p, [])
  | o :: l => let (p1, c1) := pty_op b o p in let (p2, c2) := pty_ops b l p1 in (p2, c1 ++ c2)
  end.
