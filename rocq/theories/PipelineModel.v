(** Model of shellous/pipeline.py, of the operators of shellous/command.py
    753-785 and of PipeRunner._setup_pipeline (runner.py 1159-1178). *)
From Verif Require Export CommandModel.
Open Scope Z_scope.

(** pipeline.py 39-53: class Pipeline; a pipeline is its tuple of commands. *)
Definition pipeline := list command.
Definition mk_pipeline (cmds : list command) : res pipeline :=
  match cmds with
  | [] => Err (ValueError "Pipeline must include at least one command")
  | _ => Ok cmds
  end.

(** self.commands[0:-1] and self.commands[-1] *)
Definition but_last (p : pipeline) : pipeline := removelast p.
Definition last_cmd (p : pipeline) : res command :=
  match rev p with [] => Err (OtherError 0) (* IndexError *) | c :: _ => Ok c end.
Definition first_cmd (p : pipeline) : res command :=
  match p with [] => Err (OtherError 0) (* IndexError *) | c :: _ => Ok c end.

(** pipeline.py 60-63: Pipeline.options. *)
Definition pipe_options (p : pipeline) : res opts := bind (last_cmd p) (fun c => Ok (c_opts c)).

(** pipeline.py 65-69 *)
Definition pipe_stdin (p : pipeline) (v : value) (close : bool) : res pipeline :=
  bind (first_cmd p) (fun c =>
  bind (cmd_stdin c v close) (fun c' => mk_pipeline (c' :: tl p))).
(** pipeline.py 71-81 *)
Definition pipe_stdout (p : pipeline) (v : value) (append close : bool) : res pipeline :=
  bind (last_cmd p) (fun c =>
  bind (cmd_stdout c v append close) (fun c' => mk_pipeline (but_last p ++ [c']))).
(** pipeline.py 83-93 *)
Definition pipe_stderr (p : pipeline) (v : value) (append close : bool) : res pipeline :=
  bind (last_cmd p) (fun c =>
  bind (cmd_stderr c v append close) (fun c' => mk_pipeline (but_last p ++ [c']))).
(** pipeline.py 95-99 *)
Definition pipe_set (p : pipeline) (k : kwds) : res pipeline :=
  bind (last_cmd p) (fun c =>
  bind (cmd_set c k) (fun c' => mk_pipeline (but_last p ++ [c']))).
(** pipeline.py 205-216 *)
Definition pipe_writable (p : pipeline) := pipe_set p kwds_writable.
Definition pipe_result (p : pipeline) := pipe_set p kwds_result.

(** pipeline.py 144-150: _add *)
Definition pipe_add_cmd (p : pipeline) (c : command) : res pipeline := mk_pipeline (p ++ [c]).
Definition pipe_add_pipe (p q : pipeline) : res pipeline := mk_pipeline (p ++ q).

(** pipeline.py 160-163: Pipeline.__call__ *)
Definition pipe_call (p : pipeline) (args : list value) : res pipeline :=
  match args with
  | [] => Ok p
  | _ => Err (TypeError "Calling pipeline with 1 or more arguments.")
  end.

(** redirect.py 72-81, 94-102: isinstance(x, STDIN_TYPES / STDOUT_TYPES).
    VStringIO, VBytesIO and VFile are io.IOBase. *)
Definition is_stdin_type (v : value) : bool :=
  match v with
  | VStr _ | VBytes _ | VPath _ | VByteArray _ _ | VStringIO _ _ | VBytesIO _ _ | VFile _
  | VInt _ | VRedirect _ | VStreamReader _ => true
  | _ => false
  end.
Definition is_stdout_type (v : value) : bool :=
  match v with
  | VPath _ | VByteArray _ _ | VStringIO _ _ | VBytesIO _ _ | VFile _
  | VInt _ | VRedirect _ | VLogger _ | VStreamWriter _ => true
  | _ => false
  end.

Definition as_cmd_value (r : res command) : res value := bind r (fun c => Ok (VCmd (c_args c) (c_opts c))).
Definition as_pipe_value (r : res pipeline) : res value := bind r (fun p => Ok (VPipe p)).

(** An operator method returns a value, raises, or returns NotImplemented. *)
Inductive opres := Ret (v : value) | Raise (e : exn) | NotImplemented.
Definition to_op (r : res value) : opres := match r with Ok v => Ret v | Err e => Raise e end.

Definition unsupported_operand : exn := TypeError "unsupported operand type(s)".

(** pipeline.py 178-187: Pipeline.__or__ *)
Definition pipe_or (p : pipeline) (rhs : value) : opres :=
  match rhs with
  | VCmd a o => to_op (as_pipe_value (pipe_add_cmd p (a, o)))
  | VPipe q => to_op (as_pipe_value (pipe_add_pipe p q))
  | _ =>
    if is_stdout_type rhs then to_op (as_pipe_value (pipe_stdout p rhs false false))
    else match rhs with
         | VStr _ | VBytes _ => Raise (TypeError "unsupported for | output (Use 'pathlib.Path')")
         | _ => NotImplemented
         end
  end.

(** command.py 767-771: Command.__or__: the expression
    [Pipeline.create(self) | rhs] on line 771 is a full operator dispatch;
    [rhs] here is never something with an applicable __ror__ (commands and
    pipelines are handled by Pipeline.__or__). *)
Definition cmd_or (c : command) (rhs : value) : opres :=
  if is_stdout_type rhs then to_op (as_cmd_value (cmd_stdout c rhs false false))
  else match bind (mk_pipeline [c]) (fun p => match pipe_or p rhs with
                                              | Ret v => Ok v
                                              | Raise e => Err e
                                              | NotImplemented => Err unsupported_operand
                                              end) with
       | Ok v => Ret v
       | Err e => Raise e
       end.

(** command.py 773-777, pipeline.py 189-192: __ror__ *)
Definition cmd_ror (c : command) (lhs : value) : opres :=
  if is_stdin_type lhs then to_op (as_cmd_value (cmd_stdin c lhs false)) else NotImplemented.
Definition pipe_ror (p : pipeline) (lhs : value) : opres :=
  if is_stdin_type lhs then to_op (as_pipe_value (pipe_stdin p lhs false)) else NotImplemented.

(** command.py 779-785, pipeline.py 194-203: __rshift__ *)
Definition cmd_rshift (c : command) (rhs : value) : opres :=
  if is_stdout_type rhs then to_op (as_cmd_value (cmd_stdout c rhs true false)) else NotImplemented.
Definition pipe_rshift (p : pipeline) (rhs : value) : opres :=
  if is_stdout_type rhs then to_op (as_pipe_value (pipe_stdout p rhs true false))
  else match rhs with
       | VStr _ | VBytes _ => Raise (TypeError "unsupported for >> output (Use 'pathlib.Path')")
       | _ => NotImplemented
       end.

(** Python's dispatch of [l | r] and [l >> r] when at least one side is a
    Command or Pipeline: the left operand's method first, then the right
    operand's reflected method, else TypeError.  The left operand's own
    __or__ returns NotImplemented when it is not a Command or Pipeline (true
    of all the built-in types above). *)
Definition reflected (r l : value) : opres :=
  match r with
  | VCmd a o => cmd_ror (a, o) l
  | VPipe p => pipe_ror p l
  | _ => NotImplemented
  end.
Definition py_or (l r : value) : res value :=
  let first := match l with
               | VCmd a o => cmd_or (a, o) r
               | VPipe p => pipe_or p r
               | _ => NotImplemented
               end in
  match first with
  | Ret v => Ok v
  | Raise e => Err e
  | NotImplemented =>
      match reflected r l with
      | Ret v => Ok v
      | Raise e => Err e
      | NotImplemented => Err unsupported_operand
      end
  end.
Definition py_rshift (l r : value) : res value :=
  match (match l with
         | VCmd a o => cmd_rshift (a, o) r
         | VPipe p => pipe_rshift p r
         | _ => NotImplemented
         end) with
  | Ret v => Ok v
  | Raise e => Err e
  | NotImplemented => Err unsupported_operand
  end.

(** * PipeRunner._setup_pipeline (runner.py 1159-1178) *)

(** cmds[i] = c *)
Fixpoint list_set {A} (l : list A) (i : nat) (x : A) : list A :=
  match l, i with
  | [], _ => []
  | _ :: r, O => x :: r
  | y :: r, S i' => y :: list_set r i' x
  end.
(** cmds[i] *)
Definition list_get {A} (l : list A) (i : nat) : res A :=
  match nth_error l i with Some x => Ok x | None => Err (OtherError 0) end.

(** runner.py 1176: set(_return_result=True, _catch_cancelled_error=True) *)
Definition kwds_pipe : kwds := {|
  k_path := None; k_env := None; k_inherit_env := None; k_encoding := None;
  k_return_result := Some true; k_catch_cancelled := Some true;
  k_exit_codes := None; k_timeout := None;
  k_cancel_timeout := None; k_cancel_signal := None; k_alt_name := None; k_pass_fds := None;
  k_pass_fds_close := None; k_writable := None; k_start_new_session := None; k_preexec_fn := None;
  k_pty := None; k_close_fds := None; k_audit_callback := None; k_coerce_arg := None;
  k_error_limit := None |}.

(** The loop of lines 1168-1173. [pipe i] is the outcome of the i-th os.pipe()
    call: (read_fd, write_fd) or OSError. [todo] is the number of iterations
    left, [i] the loop index.  Returns the list [open_fds] (which the caller
    closes if there was an exception) and the commands. *)
Fixpoint stitch (pipe : nat -> option (Z * Z)) (todo i : nat) (cmds : list command) (open_fds : list Z)
  : list Z * res (list command) :=
  match todo with
  | O => (open_fds, Ok cmds)
  | S todo' =>
      match pipe i with
      | None => (open_fds, Err OSError)
      | Some (read_fd, write_fd) =>
          let open_fds' := open_fds ++ [read_fd; write_fd] in
          match
            bind (list_get cmds i) (fun ci =>
            bind (cmd_stdout ci (VInt write_fd) false true) (fun ci' =>
            let cmds1 := list_set cmds i ci' in
            bind (list_get cmds1 (S i)) (fun cj =>
            bind (cmd_stdin cj (VInt read_fd) true) (fun cj' =>
            Ok (list_set cmds1 (S i) cj')))))
          with
          | Err e => (open_fds', Err e)
          | Ok cmds' => stitch pipe todo' (S i) cmds' open_fds'
          end
      end
  end.

(** Lines 1175-1176. *)
Fixpoint set_all (cmds : list command) : res (list command) :=
  match cmds with
  | [] => Ok []
  | c :: r => bind (cmd_set c kwds_pipe) (fun c' => bind (set_all r) (fun r' => Ok (c' :: r')))
  end.

Definition setup_pipeline (pipe : nat -> option (Z * Z)) (cmds : pipeline) : list Z * res (list command) :=
  let (fds, r) := stitch pipe (List.length cmds - 1) 0 cmds [] in
  (fds, bind r set_all).
