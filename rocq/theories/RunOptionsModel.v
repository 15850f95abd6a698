(** Model of class _RunOptions (runner.py 60-378), of the stream wiring in
    Runner._start (runner.py 640-690, 789-852) and of the helpers
    _uses_process_substitution, _is_writable, _is_multiple_capture, _cleanup,
    _set_position (runner.py 51-57, 1244-1299), Redirect.from_default
    (redirect.py 43-66), aiter_preflight (redirect.py 291-314),
    Runner._readlines's choice of stream (runner.py 949-954), close_fds
    (util.py 59-74) and open_pty / ChildFd (pty_util.py 33-48, 87-102).

    Simplifications:
    - Descriptors created by the code get fresh names (a counter); the
      kernel's reuse of numbers is modelled by names being distinct.
    - Every system call may fail: the n-th one succeeds iff [w_ok n].
    - Bytes are not in this file: it models which stream is connected to
      which sink; the copying is in CopyModel.v.
    - Logging is omitted. *)
From Verif Require Export CommandModel.
From Verif Require Import PipelineModel.
Open Scope Z_scope.

Inductive std := SIn | SOut | SErr.

(** What is passed to Popen for stdin/stdout/stderr. *)
Inductive handle :=
| HInt (z : Z)                              (* descriptor, or PIPE -1, STDOUT -2, DEVNULL -3 *)
| HSys (s : std)                            (* sys.stdin, sys.stdout, sys.stderr *)
| HOpen (path : value) (mode_append : option bool) (fd : Z)  (* open(path, "rb"/"wb"/"ab"); None is "rb" *)
| HClient (f : value).                      (* a file object of the client *)
Definition PIPE : Z := -1.

Record world := {
  w_ok : nat -> bool;                       (* does the n-th system call succeed? *)
  w_same_std : bool;                        (* sys.stdout == sys.stderr *)
  w_bsd : bool;                             (* util.py 33-34: BSD_DERIVED *)
  w_encode : text -> text -> option bytes;  (* util.py 42-44: encode_bytes(data, encoding) *)
  w_no_dirname : value -> bool;             (* not os.path.dirname(executable) *)
  w_which : opts -> value -> option value;  (* options.which *)
  w_dev_fd : Z -> text                      (* f"/dev/fd/{fd}" *)
}.

(** Log of descriptor operations, oldest first. *)
Inductive fdev := Opened (fd : Z) | Closed (fd : Z).
Definition fdev_eqb (a b : fdev) : bool :=
  match a, b with
  | Opened x, Opened y => x =? y
  | Closed x, Closed y => x =? y
  | _, _ => false
  end.

(** Elements of open_fds: ints, file objects (owning a descriptor), ChildFd. *)
Inductive item := IFd (z : Z) | IFile (fd : Z) | IChild (fd : Z) | IClient (f : value).

(** Attributes of _RunOptions (runner.py 73-96), plus the kernel state. *)
Record rst := {
  s_next : Z;                   (* next fresh descriptor *)
  s_sys : nat;                  (* system calls made *)
  s_log : list fdev;
  s_open : list item;           (* self.open_fds *)
  s_subcmds : list value;       (* self.subcmds *)
  s_input_bytes : option bytes; (* self.input_bytes *)
  s_output_bytes : bool;        (* self.output_bytes is not None *)
  s_error_bytes : bool;         (* self.error_bytes is not None *)
  s_stderr_only : bool;         (* self.is_stderr_only *)
  s_pty : option (Z * Z);       (* self.pty_fds: (parent_fd, child_fd) *)
  s_pass_fds : option (list Z); (* kwd_args["pass_fds"] *)
  s_close_fds : option bool;    (* kwd_args["close_fds"] *)
  s_positioned : list (value * bool) (* _set_position calls *)
}.

Definition init_rst (next : Z) : rst := {|
  s_next := next; s_sys := 0; s_log := []; s_open := []; s_subcmds := []; s_input_bytes := None;
  s_output_bytes := false; s_error_bytes := false; s_stderr_only := false; s_pty := None;
  s_pass_fds := None; s_close_fds := None; s_positioned := [] |}.

(** Field updates. *)
Definition upd_sys (s : rst) (next : Z) (log : list fdev) : rst := {|
  s_next := next; s_sys := S (s_sys s); s_log := log; s_open := s_open s; s_subcmds := s_subcmds s;
  s_input_bytes := s_input_bytes s; s_output_bytes := s_output_bytes s; s_error_bytes := s_error_bytes s;
  s_stderr_only := s_stderr_only s; s_pty := s_pty s; s_pass_fds := s_pass_fds s;
  s_close_fds := s_close_fds s; s_positioned := s_positioned s |}.
Definition set_log_open (s : rst) (log : list fdev) (open : list item) : rst := {|
  s_next := s_next s; s_sys := s_sys s; s_log := log; s_open := open; s_subcmds := s_subcmds s;
  s_input_bytes := s_input_bytes s; s_output_bytes := s_output_bytes s; s_error_bytes := s_error_bytes s;
  s_stderr_only := s_stderr_only s; s_pty := s_pty s; s_pass_fds := s_pass_fds s;
  s_close_fds := s_close_fds s; s_positioned := s_positioned s |}.
Definition add_open (s : rst) (l : list item) : rst := set_log_open s (s_log s) (s_open s ++ l).
Definition add_subcmd (s : rst) (c : value) : rst := {|
  s_next := s_next s; s_sys := s_sys s; s_log := s_log s; s_open := s_open s; s_subcmds := s_subcmds s ++ [c];
  s_input_bytes := s_input_bytes s; s_output_bytes := s_output_bytes s; s_error_bytes := s_error_bytes s;
  s_stderr_only := s_stderr_only s; s_pty := s_pty s; s_pass_fds := s_pass_fds s;
  s_close_fds := s_close_fds s; s_positioned := s_positioned s |}.
Definition set_input_bytes (s : rst) (b : option bytes) : rst := {|
  s_next := s_next s; s_sys := s_sys s; s_log := s_log s; s_open := s_open s; s_subcmds := s_subcmds s;
  s_input_bytes := b; s_output_bytes := s_output_bytes s; s_error_bytes := s_error_bytes s;
  s_stderr_only := s_stderr_only s; s_pty := s_pty s; s_pass_fds := s_pass_fds s;
  s_close_fds := s_close_fds s; s_positioned := s_positioned s |}.
Definition set_bufs (s : rst) (ob eb : bool) : rst := {|
  s_next := s_next s; s_sys := s_sys s; s_log := s_log s; s_open := s_open s; s_subcmds := s_subcmds s;
  s_input_bytes := s_input_bytes s; s_output_bytes := ob; s_error_bytes := eb;
  s_stderr_only := s_stderr_only s; s_pty := s_pty s; s_pass_fds := s_pass_fds s;
  s_close_fds := s_close_fds s; s_positioned := s_positioned s |}.
Definition set_stderr_only (s : rst) : rst := {|
  s_next := s_next s; s_sys := s_sys s; s_log := s_log s; s_open := s_open s; s_subcmds := s_subcmds s;
  s_input_bytes := s_input_bytes s; s_output_bytes := s_output_bytes s; s_error_bytes := s_error_bytes s;
  s_stderr_only := true; s_pty := s_pty s; s_pass_fds := s_pass_fds s;
  s_close_fds := s_close_fds s; s_positioned := s_positioned s |}.
Definition set_pty (s : rst) (p : Z * Z) : rst := {|
  s_next := s_next s; s_sys := s_sys s; s_log := s_log s; s_open := s_open s; s_subcmds := s_subcmds s;
  s_input_bytes := s_input_bytes s; s_output_bytes := s_output_bytes s; s_error_bytes := s_error_bytes s;
  s_stderr_only := s_stderr_only s; s_pty := Some p; s_pass_fds := s_pass_fds s;
  s_close_fds := s_close_fds s; s_positioned := s_positioned s |}.
Definition set_fds_kwds (s : rst) (pass : option (list Z)) (close : option bool) : rst := {|
  s_next := s_next s; s_sys := s_sys s; s_log := s_log s; s_open := s_open s; s_subcmds := s_subcmds s;
  s_input_bytes := s_input_bytes s; s_output_bytes := s_output_bytes s; s_error_bytes := s_error_bytes s;
  s_stderr_only := s_stderr_only s; s_pty := s_pty s; s_pass_fds := pass;
  s_close_fds := close; s_positioned := s_positioned s |}.
Definition add_positioned (s : rst) (v : value) (append : bool) : rst := {|
  s_next := s_next s; s_sys := s_sys s; s_log := s_log s; s_open := s_open s; s_subcmds := s_subcmds s;
  s_input_bytes := s_input_bytes s; s_output_bytes := s_output_bytes s; s_error_bytes := s_error_bytes s;
  s_stderr_only := s_stderr_only s; s_pty := s_pty s; s_pass_fds := s_pass_fds s;
  s_close_fds := s_close_fds s; s_positioned := s_positioned s ++ [(v, append)] |}.

(** State and exception monad. *)
Definition M (A : Type) := rst -> rst * res A.
Definition ret {A} (a : A) : M A := fun s => (s, Ok a).
Definition raise {A} (e : exn) : M A := fun s => (s, Err e).
Definition mbind {A B} (m : M A) (f : A -> M B) : M B :=
  fun s => let (s', r) := m s in match r with Ok a => f a s' | Err e => (s', Err e) end.
Definition modify (f : rst -> rst) : M unit := fun s => (f s, Ok tt).
Declare Scope run_scope.
Notation "'let*' x ':=' m 'in' k" := (mbind m (fun x => k))
  (at level 200, x name, m at level 100, k at level 200) : run_scope.
Notation "m ;; k" := (mbind m (fun _ => k)) (at level 100, right associativity) : run_scope.
Open Scope run_scope.

(** System calls. [sys_check] stands for calls that create no descriptor. *)
Definition sys_check (w : world) (e : exn) : M unit := fun s =>
  (upd_sys s (s_next s) (s_log s), if w_ok w (s_sys s) then Ok tt else Err e).
Definition sys_open (w : world) : M Z := fun s =>
  if w_ok w (s_sys s)
  then (upd_sys s (s_next s + 1) (s_log s ++ [Opened (s_next s)]), Ok (s_next s))
  else (upd_sys s (s_next s) (s_log s), Err OSError).
Definition sys_pair (w : world) : M (Z * Z) := fun s =>
  if w_ok w (s_sys s)
  then (upd_sys s (s_next s + 2) (s_log s ++ [Opened (s_next s); Opened (s_next s + 1)]),
        Ok (s_next s, s_next s + 1))
  else (upd_sys s (s_next s) (s_log s), Err OSError).

(** util.py 59-74: close_fds. Negative ints are skipped, an OSError of
    os.close is logged and ignored; closing a closed file object or ChildFd
    (pty_util.py 43-48) does nothing. *)
Definition close_item (log : list fdev) (i : item) : list fdev :=
  match i with
  | IFd z => if 0 <=? z then log ++ [Closed z] else log
  | IFile fd | IChild fd => if existsb (fdev_eqb (Closed fd)) log then log else log ++ [Closed fd]
  | IClient _ => log
  end.
Definition close_fds (l : list item) (log : list fdev) : list fdev := fold_left close_item l log.

(** redirect.py 43-53 and the table 58-66. *)
Definition pty_bool (p : ptyopt) : bool := match p with PtyOff => false | _ => true end.
Definition from_default (v : value) (fdesc : std) (pty : ptyopt) : value :=
  match v with
  | VRedirect DEFAULT =>
      match fdesc, pty_bool pty with
      | SIn, false => VBytes []
      | SIn, true => VRedirect CAPTURE
      | SOut, _ => VRedirect BUFFER
      | SErr, false => VRedirect BUFFER
      | SErr, true => VRedirect STDOUT
      end
  | _ => v
  end.

(** runner.py 1244-1248, 51-57 *)
Definition is_substitution (v : value) : bool := match v with VCmd _ _ | VPipe _ => true | _ => false end.
Definition uses_process_substitution (c : command) : bool := existsb is_substitution (c_args c).
Definition is_writable (v : value) : bool :=
  match v with
  | VCmd _ o => o_writable o
  | VPipe p => match last_cmd p, first_cmd p with
               | Ok l, Ok f => o_writable (c_opts l) || o_writable (c_opts f)
               | _, _ => false
               end
  | _ => false
  end.

(** arg.stdin(fd, close=True) / arg.stdout(fd, close=True) *)
Definition sub_stdin (v : value) (fd : Z) : res value :=
  match v with
  | VCmd a o => as_cmd_value (cmd_stdin (a, o) (VInt fd) true)
  | VPipe p => as_pipe_value (pipe_stdin p (VInt fd) true)
  | _ => Err (OtherError 0)
  end.
Definition sub_stdout (v : value) (fd : Z) : res value :=
  match v with
  | VCmd a o => as_cmd_value (cmd_stdout (a, o) (VInt fd) false true)
  | VPipe p => as_pipe_value (pipe_stdout p (VInt fd) false true)
  | _ => Err (OtherError 0)
  end.

(** runner.py 145-171: the loop over the arguments. *)
Fixpoint procsub_loop (w : world) (args : list value) : M (list value * list Z) :=
  match args with
  | [] => ret ([], [])
  | a :: rest =>
      if is_substitution a then
        let* rw := sys_pair w in
        let (read_fd, write_fd) := rw : Z * Z in
        let wr := is_writable a in
        match (if wr then sub_stdin a read_fd else sub_stdout a write_fd) with
        | Err e => raise e
        | Ok subcmd =>
            modify (fun s => add_subcmd s subcmd) ;;
            let* r := procsub_loop w rest in
            let fd := if wr then write_fd else read_fd in
            ret (VStr (w_dev_fd w fd) :: fst r, fd :: snd r)
        end
      else
        let* r := procsub_loop w rest in
        ret (a :: fst r, snd r)
  end.
(** runner.py 148-185: _setup_process_substitution (not Windows). *)
Definition setup_process_substitution (w : world) (c : command) : M (list value) :=
  let* r := procsub_loop w (c_args c) in
  modify (fun s => add_open (set_fds_kwds s (Some (snd r)) (Some true)) (map IFd (snd r))) ;;
  (if w_bsd w then sys_check w (RuntimeError "Missing /dev/fd") else ret tt) ;;
  ret (fst r).

(** runner.py 256-291: _setup_input. *)
Definition setup_input (w : world) (input : value) (close : bool) (encoding : text) : M (handle * option bytes) :=
  match input with
  | VNone => raise AssertionError
  | VBytes b | VByteArray _ b => ret (HInt PIPE, Some b)
  | VPath _ =>
      let* fd := sys_open w in
      modify (fun s => add_open s [IFile fd]) ;;
      ret (HOpen input None fd, None)
  | VRedirect INHERIT => ret (HSys SIn, None)
  | VRedirect BUFFER => raise (TypeError "unsupported input type")
  | VRedirect CAPTURE => ret (HInt PIPE, None)
  | VRedirect DEFAULT => raise AssertionError   (* assert input_ == Redirect.CAPTURE *)
  | VRedirect r =>                              (* STDOUT, DEVNULL: plain ints *)
      modify (fun s => if close then add_open s [IFd (redirect_int r)] else s) ;;
      ret (HInt (redirect_int r), None)
  | VInt z =>
      modify (fun s => if close then add_open s [IFd z] else s) ;;
      ret (HInt z, None)
  | VStr t => match w_encode w encoding t with
              | Some b => ret (HInt PIPE, Some b)
              | None => raise UnicodeError
              end
  | VStreamReader _ | VBytesIO _ _ | VStringIO _ _ => ret (HInt PIPE, None)
  | _ => raise (TypeError "unsupported input type")
  end.

(** runner.py 293-341: _setup_output; [which] is SOut when called with
    sys.stdout and SErr when called with sys.stderr. *)
Definition setup_output (w : world) (output : value) (append close : bool) (which : std) : M handle :=
  let is_sys_stderr := match which with SErr => true | _ => w_same_std w end in
  let is_sys_stdout := match which with SOut => true | _ => w_same_std w end in
  match output with
  | VNone => raise AssertionError
  | VPath _ | VPathLike _ =>
      let* fd := sys_open w in
      modify (fun s => add_open s [IFile fd]) ;;
      ret (HOpen output (Some append) fd)
  | _ => fun s =>
    if s_stderr_only s && is_sys_stderr then
      if eq_redirect output STDOUT
      then (set_bufs s true (s_error_bytes s), Ok (HInt PIPE))
      else (s, Err AssertionError)
    else
      match output with
      | VRedirect BUFFER =>
          if is_sys_stdout then (set_bufs s true (s_error_bytes s), Ok (HInt PIPE))
          else (set_bufs s (s_output_bytes s) true, Ok (HInt PIPE))
      | VRedirect INHERIT => (s, Ok (HSys which))
      | VRedirect CAPTURE => (s, Ok (HInt PIPE))
      | VRedirect DEFAULT => (s, Err AssertionError)  (* assert output == Redirect.CAPTURE *)
      | VRedirect r =>
          (if close then add_open s [IFd (redirect_int r)] else s, Ok (HInt (redirect_int r)))
      | VInt z => (if close then add_open s [IFd z] else s, Ok (HInt z))
      | VStringIO _ _ | VBytesIO _ _ | VByteArray _ _ | VLogger _ | VStreamWriter _ =>
          (add_positioned s output append, Ok (HInt PIPE))
      | VFile _ => (add_positioned s output append, Ok (HClient output))
      | _ => (s, Err (TypeError "unsupported output type"))
      end
  end.

(** pty_util.py 81-94: open_pty; the client's adapter and tcgetattr may raise. *)
Definition open_pty (w : world) (p : ptyopt) : M (Z * Z) :=
  let* pc := sys_pair w in
  (match p with PtyFunc _ => sys_check w (OtherError 1) | _ => ret tt end) ;;
  sys_check w OSError ;;
  ret pc.

Definition is_pipe (h : handle) : bool := match h with HInt z => z =? PIPE | _ => false end.
Definition is_stdout_const (h : handle) : bool := match h with HInt z => z =? -2 | _ => false end.

(** runner.py 344-378: _setup_pty1 (without the preexec_fn). *)
Definition setup_pty1 (w : world) (hin hout herr : handle) (p : ptyopt) : M (handle * handle * handle) :=
  let* pc := open_pty w p in
  modify (fun s => set_pty s pc) ;;
  (if w_bsd w then ret tt else modify (fun s => add_open s [IChild (snd pc)])) ;;
  let child := HInt (snd pc) in
  sys_check w OSError ;; (* os.ttyname *)
  ret (if is_pipe hin then child else hin,
       if is_pipe hout then child else hout,
       if is_stdout_const herr then child else herr).

(** runner.py 187-239: _setup_redirects. *)
Definition setup_redirects (w : world) (c : command) : M (handle * handle * handle) :=
  let o := c_opts c in
  let* i := setup_input w (from_default (o_input o) SIn (o_pty o)) (o_input_close o) (o_encoding o) in
  (if eq_redirect (o_output o) DEVNULL && eq_redirect (o_error o) STDOUT then modify set_stderr_only else ret tt) ;;
  let* hout := setup_output w (from_default (o_output o) SOut (o_pty o)) (o_output_append o) (o_output_close o) SOut in
  let* herr := setup_output w (from_default (o_error o) SErr (o_pty o)) (o_error_append o) (o_error_close o) SErr in
  let* hs := (match o_pty o with
              | PtyOff => ret (fst i, hout, herr)
              | p => match o_preexec_fn o with
                     | Some _ => raise AssertionError   (* line 219 *)
                     | None => setup_pty1 w (fst i) hout herr p
                     end
              end) in
  modify (fun s => set_input_bytes s (snd i)) ;;
  ret hs.

(** runner.py 241-254: _setup_pass_fds. *)
Definition setup_pass_fds (c : command) : M unit := fun s =>
  let o := c_opts c in
  match o_pass_fds o with
  | _ :: _ =>
      let s1 := set_fds_kwds s (Some ((match s_pass_fds s with Some l => l | None => [] end) ++ o_pass_fds o)) (Some true) in
      (if o_pass_fds_close o then add_open s1 (map IFd (o_pass_fds o)) else s1, Ok tt)
  | [] =>
      (match s_close_fds s with
       | Some _ => s
       | None => set_fds_kwds s (s_pass_fds s) (Some (o_close_fds o))
       end, Ok tt)
  end.

(** runner.py 1258-1276: _cleanup. *)
Definition add_close (close : bool) (v : value) : list item :=
  if close then
    match v with
    | VInt z => [IFd z]
    | VRedirect r => [IFd (redirect_int r)]
    | VStringIO _ _ | VBytesIO _ _ | VFile _ => [IClient v]
    | _ => []
    end
  else [].
Definition cleanup_items (o : opts) : list item :=
  add_close (o_input_close o) (o_input o) ++ add_close (o_output_close o) (o_output o)
  ++ add_close (o_error_close o) (o_error o)
  ++ (if o_pass_fds_close o then map IFd (o_pass_fds o) else []).
(** command.options of a Command or Pipeline *)
Definition value_options (v : value) : option opts :=
  match v with
  | VCmd _ o => Some o
  | VPipe p => match last_cmd p with Ok c => Some (c_opts c) | Err _ => None end
  | _ => None
  end.
Definition cleanup (v : value) (log : list fdev) : list fdev :=
  match value_options v with Some o => close_fds (cleanup_items o) log | None => log end.
Definition cmd_value (c : command) : value := VCmd (c_args c) (c_opts c).

(** runner.py 98-127: __enter__. Returns pos_args and the three handles. *)
Definition enter_body (w : world) (c : command) : M (list value * (handle * handle * handle)) :=
  let* args := (if uses_process_substitution c then setup_process_substitution w c else ret (c_args c)) in
  let* hs := setup_redirects w c in
  setup_pass_fds c ;;
  match args with
  | [] => raise (OtherError 0)
  | exe :: rest =>
      if w_no_dirname w exe then
        match w_which w (c_opts c) exe with
        | None => raise FileNotFoundError
        | Some found => ret (found :: rest, hs)
        end
      else ret (exe :: rest, hs)
  end.
Definition enter (w : world) (c : command) : M (list value * (handle * handle * handle)) := fun s =>
  let (s', r) := enter_body w c s in
  match r with
  | Ok x => (s', Ok x)
  | Err e => (set_log_open s' (cleanup (cmd_value c) (s_log s')) (s_open s'), Err e)
  end.

(** runner.py 130-146: __exit__ *)
Definition exit_ (failed : bool) (s : rst) : rst :=
  let log1 := close_fds (s_open s) (s_log s) in
  let log2 := if failed then fold_left (fun l sub => cleanup sub l) (s_subcmds s) log1 else log1 in
  set_log_open s log2 [].

(** * Wiring in Runner._start (runner.py 646-690, 789-852) *)

Inductive stream := PStdin | PStdout | PStderr | PtyReader | PtyWriter.
(** Where a copying task puts the data. *)
Inductive sink := ResultOut | ResultErr | Sink (v : value).
Inductive task :=
| TCopy (src : stream) (dst : sink) (limit : option Z)
| TWriteBytes (b : bytes) (dst : stream) (use_eof : bool)
| TWriteReader (v : value) (dst : stream) (use_eof : bool).

Record wiring := {
  wi_tasks : list task;
  wi_stdin : option stream;    (* run.stdin *)
  wi_stdout : option stream;   (* run.stdout *)
  wi_stderr : option stream    (* run.stderr *)
}.

(** runner.py 817-852: _setup_output_sink. A sink that is not one of the
    supported classes leaves the stream to the caller. *)
Definition output_sink (src : stream) (v : value) : list task * option stream :=
  match v with
  | VStringIO _ _ | VBytesIO _ _ | VByteArray _ _ | VLogger _ | VStreamWriter _ => ([TCopy src (Sink v) None], None)
  | _ => ([], Some src)
  end.

(** runner.py 789-817: _setup_input_source. *)
Definition input_source (w : world) (dst : stream) (ib : option bytes) (o : opts) (pty : bool) : res (list task * option stream) :=
  match ib with
  | Some b => Ok ([TWriteBytes b dst pty], None)
  | None =>
      match o_input o with
      | VStreamReader _ => Ok ([TWriteReader (o_input o) dst pty], None)
      | VBytesIO _ b => Ok ([TWriteBytes b dst pty], None)
      | VStringIO _ t => match w_encode w (o_encoding o) t with
                         | Some b => Ok ([TWriteBytes b dst pty], None)
                         | None => Err UnicodeError
                         end
      | _ => Ok ([], Some dst)
      end
  end.

Definition pipe_stream (h : handle) (s : stream) : option stream := if is_pipe h then Some s else None.

(** runner.py 651-690, given the state after the launch and the handles
    passed to Popen (asyncio's proc.stdin/stdout/stderr is a stream exactly
    when PIPE was passed). *)
Definition wire (w : world) (c : command) (s : rst) (hs : handle * handle * handle) : res wiring :=
  let '(hin, hout, herr) := hs in
  let o := c_opts c in
  bind (match s_pty s with
        | None => Ok (pipe_stream hin PStdin, pipe_stream hout PStdout)
        | Some _ => if is_pipe hin || is_pipe hout then Err AssertionError (* line 657 *)
                    else Ok (Some PtyWriter, Some PtyReader)
        end) (fun io =>
  let (pin, pout) := io in
  bind (match pipe_stream herr PStderr with
        | None => Ok ([], None)
        | Some e =>
            if s_error_bytes s then Ok ([TCopy e ResultErr (o_error_limit o)], None)
            else if s_stderr_only s then
              match pout with
              | Some _ => Err AssertionError (* line 667 *)
              | None => if s_output_bytes s then Ok ([TCopy e ResultOut None], None)
                        else Err AssertionError (* line 668 *)
              end
            else Ok (output_sink e (o_error o))
        end) (fun er =>
  let ou := match pout with
            | None => ([], None)
            | Some p => if s_output_bytes s then ([TCopy p ResultOut None], None)
                        else output_sink p (o_output o)
            end in
  bind (match pin with
        | None => Ok ([], None)
        | Some p => input_source w p (s_input_bytes s) o (match s_pty s with Some _ => true | None => false end)
        end) (fun inp =>
  Ok {| wi_tasks := fst er ++ fst ou ++ fst inp;
        wi_stdin := snd inp; wi_stdout := snd ou; wi_stderr := snd er |}))).

(** Everything from __enter__ to the wired streams, for a launch that succeeds. *)
Definition start (w : world) (c : command) (next : Z) : rst * res ((handle * handle * handle) * wiring) :=
  match enter w c (init_rst next) with
  | (s, Err e) => (s, Err e)
  | (s, Ok (_, hs)) => let s' := exit_ false s in (s', bind (wire w c s' hs) (fun wi => Ok (hs, wi)))
  end.

(** * Entry points *)

(** runner.py 1251-1255 *)
Definition is_multiple_capture (c : command) : bool :=
  let o := c_opts c in
  eq_redirect (from_default (o_output o) SOut (o_pty o)) CAPTURE
  && eq_redirect (from_default (o_error o) SErr (o_pty o)) CAPTURE.

(** runner.py 963-984: the guard of run_command; Some: refused before anything
    is launched. *)
Definition run_command_guard (c : command) (has_future : bool) : option exn :=
  if negb has_future && is_multiple_capture c then Some (ValueError "multiple capture requires 'async with'") else None.

(** redirect.py 291-310: aiter_preflight, for a Command ... *)
Definition cmd_aiter_preflight (c : command) : res command :=
  bind (if eq_redirect (o_output (c_opts c)) DEFAULT then cmd_stdout c (VRedirect CAPTURE) false false
        else if eq_redirect (o_output (c_opts c)) DEVNULL && eq_redirect (o_error (c_opts c)) STDOUT
        then cmd_stderr c (VRedirect CAPTURE) false false
        else Ok c) (fun r =>
  if eq_redirect (o_output (c_opts r)) CAPTURE && eq_redirect (o_error (c_opts r)) CAPTURE
  then Err (RuntimeError "multiple capture not supported in iterator") else Ok r).
(** ... and for a Pipeline (cmd.options are those of the last command). *)
Definition pipe_aiter_preflight (p : pipeline) : res pipeline :=
  bind (pipe_options p) (fun o =>
  bind (if eq_redirect (o_output o) DEFAULT then pipe_stdout p (VRedirect CAPTURE) false false
        else if eq_redirect (o_output o) DEVNULL && eq_redirect (o_error o) STDOUT
        then pipe_stderr p (VRedirect CAPTURE) false false
        else Ok p) (fun r =>
  bind (pipe_options r) (fun o' =>
  if eq_redirect (o_output o') CAPTURE && eq_redirect (o_error o') CAPTURE
  then Err (RuntimeError "multiple capture not supported in iterator") else Ok r))).

(** runner.py 949-954: the stream that `async for` reads. *)
Definition iter_stream (wi : wiring) : option stream :=
  match wi_stdout wi with Some s => Some s | None => wi_stderr wi end.
