(** Specification vocabulary for C09-C12. *)
From Verif Require Export PipelineModel CommandSpec.
Open Scope Z_scope.

(** The commands that a Command or Pipeline value stands for. *)
Definition commands_of (v : value) : option (list command) :=
  match v with
  | VCmd a o => Some [(a, o)]
  | VPipe p => Some p
  | _ => None
  end.
(** Commands and pipelines as the constructors allow them: never empty. *)
Definition well_formed (v : value) : Prop :=
  match commands_of v with
  | Some cs => cs <> [] /\ Forall (fun c => c_args c <> []) cs
  | None => True
  end.

(** Documented operand types (README): what may stand left of | ... *)
Inductive input_operand : value -> Prop :=
| io_str s : input_operand (VStr s)
| io_bytes b : input_operand (VBytes b)
| io_path p : input_operand (VPath p)
| io_bytearray n b : input_operand (VByteArray n b)
| io_stringio n s : input_operand (VStringIO n s)
| io_bytesio n b : input_operand (VBytesIO n b)
| io_file n : input_operand (VFile n)
| io_fd z : input_operand (VInt z)
| io_redirect r : input_operand (VRedirect r)
| io_reader n : input_operand (VStreamReader n).
(** ... and right of | or >>. *)
Inductive output_operand : value -> Prop :=
| oo_path p : output_operand (VPath p)
| oo_bytearray n b : output_operand (VByteArray n b)
| oo_stringio n s : output_operand (VStringIO n s)
| oo_bytesio n b : output_operand (VBytesIO n b)
| oo_file n : output_operand (VFile n)
| oo_fd z : output_operand (VInt z)
| oo_redirect r : output_operand (VRedirect r)
| oo_logger n : output_operand (VLogger n)
| oo_writer n : output_operand (VStreamWriter n).

(** Same outcome: the same value, or an exception on both sides. *)
Definition same_outcome {A} (x y : res A) : Prop :=
  match x, y with
  | Ok a, Ok b => a = b
  | Err _, Err _ => True
  | _, _ => False
  end.

(** The updates that running a pipeline of [n] commands with pipes
    [(r i, w i)] makes to command number [i]: stdin is the read end of the
    pipe on its left, stdout the write end of the pipe on its right, both to
    be closed in the parent; and the command is told to return a Result and
    to report cancellation as a ResultError. *)
Definition pipe_member_kwds : kwds := {|
  k_path := None; k_env := None; k_inherit_env := None; k_encoding := None;
  k_return_result := Some true; k_catch_cancelled := Some true;
  k_exit_codes := None; k_timeout := None;
  k_cancel_timeout := None; k_cancel_signal := None; k_alt_name := None; k_pass_fds := None;
  k_pass_fds_close := None; k_writable := None; k_start_new_session := None; k_preexec_fn := None;
  k_pty := None; k_close_fds := None; k_audit_callback := None; k_coerce_arg := None;
  k_error_limit := None |}.
Definition member_updates (r w : nat -> Z) (n i : nat) : list upd :=
  (if (i =? 0)%nat then [] else [UStdin (VInt (r (i - 1)%nat)) true])
  ++ (if (S i =? n)%nat then [] else [UStdout (VInt (w i)) false true])
  ++ [USet pipe_member_kwds].
