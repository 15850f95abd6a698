(** Specification vocabulary for C13-C16 and C66: where data goes. *)
From Verif Require Export RunOptionsModel CommandSpec.
Open Scope Z_scope.

(** * Named destinations: the meaning of a redirection option (README). *)
Inductive dest :=
| ToResultOutput                      (* Result.output *)
| ToResultError (limit : option Z)    (* Result.error, limited *)
| ToObject (v : value)                (* the user's bytearray, StringIO, BytesIO, Logger, StreamWriter *)
| ToCaller (s : std)                  (* run.stdout / run.stderr *)
| ToInherited (s : std)               (* the parent's own stream *)
| ToFile (path : value) (append : bool)
| ToDescriptor (z : Z)
| ToClientFile (f : value)
| ToNull
| Unread                              (* a stream with no reader at all *)
| Contended.                          (* a stream with two readers *)

Definition named (v : value) (append : bool) (which : std) (limit : option Z) : dest :=
  match v with
  | VRedirect BUFFER | VRedirect DEFAULT =>
      match which with SErr => ToResultError limit | _ => ToResultOutput end
  | VRedirect CAPTURE => ToCaller which
  | VRedirect INHERIT => ToInherited which
  | VRedirect DEVNULL => ToNull
  | VInt z => if z =? -3 then ToNull else if z =? -1 then ToCaller which else ToDescriptor z
  | VPath _ | VPathLike _ => ToFile v append
  | VFile _ => ToClientFile v
  | VByteArray _ _ | VStringIO _ _ | VBytesIO _ _ | VLogger _ | VStreamWriter _ => ToObject v
  | _ => Unread
  end.
Definition named_out (o : opts) : dest := named (o_output o) (o_output_append o) SOut None.
(** Does stderr follow stdout? *)
Definition follows_stdout (o : opts) : bool :=
  is_stdout (o_error o)
  || match o_error o, o_pty o with
     | VRedirect DEFAULT, PtyOff => false
     | VRedirect DEFAULT, _ => true
     | _, _ => false
     end.
(** stdout=DEVNULL, stderr=STDOUT means "stderr only": the result's output. *)
Definition named_err (o : opts) : dest :=
  if follows_stdout o then
    match named_out o with
    | ToNull => if is_stdout (o_error o) then ToResultOutput else ToNull
    | d => d
    end
  else named (o_error o) (o_error_append o) SErr (o_error_limit o).

(** Destinations that shellous itself reads from the child (a pipe or pty). *)
Definition read_by_shellous (d : dest) : bool :=
  match d with ToResultOutput | ToResultError _ | ToObject _ | ToCaller _ => true | _ => false end.

(** * Observed destinations: the meaning of Popen's handles and of the tasks. *)
Definition stream_eqb (a b : stream) : bool :=
  match a, b with
  | PStdin, PStdin | PStdout, PStdout | PStderr, PStderr | PtyReader, PtyReader | PtyWriter, PtyWriter => true
  | _, _ => false
  end.
Definition is_stream (x : option stream) (s : stream) : bool :=
  match x with Some s' => stream_eqb s' s | None => false end.
(** All the readers of a stream: copying tasks and the caller. *)
Definition readers (wi : wiring) (s : stream) : list dest :=
  flat_map (fun t => match t with
                     | TCopy s' d lim =>
                         if stream_eqb s' s then
                           [match d with ResultOut => ToResultOutput | ResultErr => ToResultError lim | Sink v => ToObject v end]
                         else []
                     | _ => []
                     end) (wi_tasks wi)
  ++ (if is_stream (wi_stdout wi) s then [ToCaller SOut] else [])
  ++ (if is_stream (wi_stderr wi) s then [ToCaller SErr] else []).
Definition reader (wi : wiring) (s : stream) : dest :=
  match readers wi s with [] => Unread | [d] => d | _ => Contended end.

(** [pty] is the (parent, child) descriptor pair of the pseudo-terminal. *)
Definition handle_dest (wi : wiring) (pty : option (Z * Z)) (own : stream) (stdout_dest : dest) (h : handle) : dest :=
  match h with
  | HInt z => if z =? -1 then reader wi own
              else if z =? -2 then stdout_dest
              else if z =? -3 then ToNull
              else match pty with
                   | Some (_, child) => if z =? child then reader wi PtyReader else ToDescriptor z
                   | None => ToDescriptor z
                   end
  | HSys s => ToInherited s
  | HOpen p (Some a) _ => ToFile p a
  | HOpen p None _ => Unread
  | HClient f => ToClientFile f
  end.
Definition observed_out (s : rst) (hs : handle * handle * handle) (wi : wiring) : dest :=
  let '(_, hout, _) := hs in handle_dest wi (s_pty s) PStdout Unread hout.
Definition observed_err (s : rst) (hs : handle * handle * handle) (wi : wiring) : dest :=
  let '(_, _, herr) := hs in handle_dest wi (s_pty s) PStderr (observed_out s hs wi) herr.

(** * Standard input *)
Inductive source :=
| FromBytes (b : bytes)               (* these bytes, then end of file *)
| FromReader (v : value)              (* copied from a StreamReader *)
| FromCaller                          (* the caller writes to run.stdin *)
| FromInherited
| FromFile (path : value)
| FromDescriptor (z : Z)
| FromNull
| NoSource.
Definition named_in (enc : text -> text -> option bytes) (o : opts) : source :=
  match o_input o with
  | VRedirect DEFAULT => match o_pty o with PtyOff => FromBytes [] | _ => FromCaller end
  | VRedirect CAPTURE => FromCaller
  | VRedirect INHERIT => FromInherited
  | VRedirect DEVNULL => FromNull
  | VInt z => if z =? -3 then FromNull else if z =? -1 then FromCaller else FromDescriptor z
  | VPath _ => FromFile (o_input o)
  | VBytes b | VByteArray _ b | VBytesIO _ b => FromBytes b
  | VStr t | VStringIO _ t => match enc (o_encoding o) t with Some b => FromBytes b | None => NoSource end
  | VStreamReader _ => FromReader (o_input o)
  | _ => NoSource
  end.
Definition writers (wi : wiring) (s : stream) : list source :=
  flat_map (fun t => match t with
                     | TWriteBytes b s' _ => if stream_eqb s' s then [FromBytes b] else []
                     | TWriteReader v s' _ => if stream_eqb s' s then [FromReader v] else []
                     | _ => []
                     end) (wi_tasks wi)
  ++ (if is_stream (wi_stdin wi) s then [FromCaller] else []).
Definition writer (wi : wiring) (s : stream) : source :=
  match writers wi s with [x] => x | _ => NoSource end.
Definition observed_in (s : rst) (hs : handle * handle * handle) (wi : wiring) : source :=
  let '(hin, _, _) := hs in
  match hin with
  | HInt z => if z =? -1 then writer wi PStdin
              else if z =? -3 then FromNull
              else match s_pty s with
                   | Some (_, child) => if z =? child then writer wi PtyWriter else FromDescriptor z
                   | None => FromDescriptor z
                   end
  | HSys SIn => FromInherited
  | HOpen p None _ => FromFile p
  | _ => NoSource
  end.

(** Descriptors given by the user exist before the run: they are smaller than
    the fresh ones. *)
Definition old_fd (next : Z) (v : value) : Prop := match v with VInt z => z < next | _ => True end.
Definition old_fds (next : Z) (o : opts) : Prop :=
  0 <= next /\ old_fd next (o_input o) /\ old_fd next (o_output o) /\ old_fd next (o_error o).
(** Options as the API can build them (C11). *)
Definition api_options (o : opts) : Prop :=
  is_none (o_input o) = false /\ is_stdout (o_input o) = false
  /\ is_none (o_output o) = false /\ is_stdout (o_output o) = false
  /\ is_none (o_error o) = false.

(** Redirections documented as supported (README tables). *)
Inductive supported_input : value -> Prop :=
| si_str s : supported_input (VStr s)
| si_bytes b : supported_input (VBytes b)
| si_path p : supported_input (VPath p)
| si_bytearray n b : supported_input (VByteArray n b)
| si_stringio n s : supported_input (VStringIO n s)
| si_bytesio n b : supported_input (VBytesIO n b)
| si_fd z : supported_input (VInt z)
| si_default : supported_input (VRedirect DEFAULT)
| si_capture : supported_input (VRedirect CAPTURE)
| si_inherit : supported_input (VRedirect INHERIT)
| si_devnull : supported_input (VRedirect DEVNULL)
| si_reader n : supported_input (VStreamReader n).
Inductive supported_output : value -> Prop :=
| so_path p : supported_output (VPath p)
| so_pathlike n : supported_output (VPathLike n)
| so_bytearray n b : supported_output (VByteArray n b)
| so_stringio n s : supported_output (VStringIO n s)
| so_bytesio n b : supported_output (VBytesIO n b)
| so_file n : supported_output (VFile n)
| so_fd z : supported_output (VInt z)
| so_redirect r : supported_output (VRedirect r)
| so_logger n : supported_output (VLogger n)
| so_writer n : supported_output (VStreamWriter n).

(** A machine on which nothing goes wrong. *)
Record cooperative (w : world) (c : command) : Prop := {
  co_sys : forall n, w_ok w n = true;
  co_encode : forall e t, w_encode w e t <> None;
  co_which : forall v, w_which w (c_opts c) v <> None
}.
