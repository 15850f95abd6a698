(** Theorems for C13-C16 and C66 (where standard streams go). *)
From Verif Require Import RunOptionsModel RouteSpec RouteProofs RouteProofs2 PipelineModel PipelineSpec.
Open Scope Z_scope.

(** A machine on which everything works, used by the examples. *)
Definition ex_world : world := {|
  w_ok := fun _ => true; w_same_std := false; w_bsd := false;
  w_encode := fun _ t => Some t; w_no_dirname := fun _ => true;
  w_which := fun _ v => Some v; w_dev_fd := fun z => [z] |}.
Definition ex_opts (i o e : value) (p : ptyopt) (pre : option nat) : opts := {|
  o_path := None; o_env := None; o_inherit_env := true;
  o_input := i; o_input_close := false;
  o_output := o; o_output_append := false; o_output_close := false;
  o_error := e; o_error_append := false; o_error_close := false;
  o_error_limit := Some 1024; o_encoding := utf8_name; o_return_result := false;
  o_catch_cancelled := false; o_exit_codes := None; o_timeout := None;
  o_cancel_timeout := 3; o_cancel_signal := Some 15; o_alt_name := None;
  o_pass_fds := []; o_pass_fds_close := false; o_writable := false;
  o_start_new_session := false; o_preexec_fn := pre; o_pty := p;
  o_close_fds := true; o_audit_callback := None; o_coerce_arg := None |}.
Definition ex_cmd (i o e : value) (p : ptyopt) : command := ([VStr [108; 115]], ex_opts i o e p None).
Definition dflt := VRedirect DEFAULT.
Ltac run_it t := let r := eval vm_compute in t in match r with (?s, Ok (?hs, ?wi)) => exists s, hs, wi end.

(** C13 *)
Theorem c13_default_redirections :
  forall w c next s hs wi,
  w_same_std w = false -> api_options (c_opts c) -> old_fds next (c_opts c) ->
  start w c next = (s, Ok (hs, wi)) ->
  (o_input (c_opts c) = VRedirect DEFAULT ->
     observed_in s hs wi = match o_pty (c_opts c) with PtyOff => FromBytes [] | _ => FromCaller end)
  /\ (o_output (c_opts c) = VRedirect DEFAULT -> observed_out s hs wi = ToResultOutput)
  /\ (o_error (c_opts c) = VRedirect DEFAULT -> o_pty (c_opts c) = PtyOff ->
        observed_err s hs wi = ToResultError (o_error_limit (c_opts c)))
  /\ (o_error (c_opts c) = VRedirect DEFAULT -> o_pty (c_opts c) <> PtyOff ->
        read_by_shellous (observed_out s hs wi) = true ->
        observed_err s hs wi = observed_out s hs wi).
Proof. exact defaults_observed. Qed.
Print Assumptions c13_default_redirections.

Theorem c13_explicit_never_replaced :
  forall v fd pty, (v <> VRedirect DEFAULT -> from_default v fd pty = v)
                /\ from_default v fd pty <> VRedirect DEFAULT.
Proof. intros. split; [apply from_default_explicit|apply from_default_never]. Qed.
Print Assumptions c13_explicit_never_replaced.

Example c13_example :
  match start ex_world (ex_cmd dflt dflt dflt PtyOff) 10 with
  | (s, Ok (hs, wi)) => api_options (c_opts (ex_cmd dflt dflt dflt PtyOff)) /\ old_fds 10 (c_opts (ex_cmd dflt dflt dflt PtyOff))
  /\ observed_in s hs wi = FromBytes [] /\ observed_out s hs wi = ToResultOutput
  /\ observed_err s hs wi = ToResultError (Some 1024)
  | _ => False
  end.
Proof. vm_compute. repeat split; discriminate. Qed.
Example c13_example_pty :
  match start ex_world (ex_cmd dflt dflt dflt PtyOn) 10 with
  | (s, Ok (hs, wi)) => observed_in s hs wi = FromCaller /\ observed_out s hs wi = ToResultOutput
  /\ observed_err s hs wi = ToResultOutput
  | _ => False
  end.
Proof. vm_compute. repeat split; discriminate. Qed.

(** C14. The full claim: every successful start sends stdout and stderr to the
    destinations named by the options. *)
Definition c91_full_claim : Prop :=
  forall w c next s hs wi, api_options (c_opts c) -> old_fds next (c_opts c) ->
  supported_output (o_output (c_opts c)) -> supported_output (o_error (c_opts c)) ->
  start w c next = (s, Ok (hs, wi)) ->
  observed_out s hs wi = named_out (c_opts c) /\ observed_err s hs wi = named_err (c_opts c).

(** It is false: with a pty and stdout sent to a file, stderr (which should
    follow stdout) goes to the pty's reader, which is left to the caller. *)
Theorem c91_destination_refuted : ~ c91_full_claim.
Proof.
  intro H.
  assert (X : exists s hs wi, start ex_world (ex_cmd dflt (VPath [120]) dflt PtyOn) 10 = (s, Ok (hs, wi))
              /\ observed_err s hs wi = ToCaller SOut).
  { run_it (start ex_world (ex_cmd dflt (VPath [120]) dflt PtyOn) 10). vm_compute. split; reflexivity. }
  destruct X as (s & hs & wi & X & Y).
  destruct (H ex_world (ex_cmd dflt (VPath [120]) dflt PtyOn) 10 s hs wi) as (_ & Z);
    [repeat split; reflexivity|repeat split; try reflexivity; discriminate|constructor|constructor|exact X|].
  rewrite Y in Z. discriminate Z.
Qed.
Print Assumptions c91_destination_refuted.

(** Also when the parent's sys.stdout and sys.stderr are the same object
    (runner.py 311): the default stderr is then left unread by shellous. *)
Definition same_world : world := {| w_ok := fun _ => true; w_same_std := true; w_bsd := false;
    w_encode := fun _ t => Some t; w_no_dirname := fun _ => true;
    w_which := fun _ v => Some v; w_dev_fd := fun z => [z] |}.
Theorem c91_same_std_refuted :
  exists w c next s hs wi, w_same_std w = true /\ api_options (c_opts c) /\ old_fds next (c_opts c) /\
  o_pty (c_opts c) = PtyOff /\ start w c next = (s, Ok (hs, wi)) /\
  named_err (c_opts c) = ToResultError (Some 1024) /\ observed_err s hs wi = ToCaller SErr.
Proof.
  exists same_world, (ex_cmd dflt dflt dflt PtyOff), 10.
  run_it (start same_world (ex_cmd dflt dflt dflt PtyOff) 10). vm_compute. repeat split; discriminate.
Qed.
Print Assumptions c91_same_std_refuted.

(** What holds. stdout: always (when sys.stdout and sys.stderr differ). *)
Theorem c14_stdout_destination :
  forall w c next s hs wi, w_same_std w = false -> api_options (c_opts c) -> old_fds next (c_opts c) ->
  start w c next = (s, Ok (hs, wi)) ->
  observed_out s hs wi = named_out (c_opts c).
Proof. exact observed_out_named. Qed.
Print Assumptions c14_stdout_destination.

(** stderr: without a pty, or when it has its own destination, or when stdout
    is read by shellous. Missing: a pty whose stdout is not read by shellous. *)
Theorem c91_stderr_destination_partial :
  forall w c next s hs wi, w_same_std w = false -> api_options (c_opts c) -> old_fds next (c_opts c) ->
  (o_pty (c_opts c) = PtyOff \/ follows_stdout (c_opts c) = false \/ read_by_shellous (named_out (c_opts c)) = true) ->
  start w c next = (s, Ok (hs, wi)) ->
  observed_err s hs wi = named_err (c_opts c).
Proof. exact observed_err_named. Qed.
Print Assumptions c91_stderr_destination_partial.

(** A supported destination is never "nobody" and never "two readers". *)
Theorem c14_delivered_once :
  forall o, api_options o -> supported_output (o_output o) -> supported_output (o_error o) ->
  (named_out o <> Unread /\ named_out o <> Contended) /\ (named_err o <> Unread /\ named_err o <> Contended).
Proof. exact named_delivered. Qed.
Print Assumptions c14_delivered_once.

Example c14_example :
  match start ex_world (ex_cmd dflt (VBytesIO 1 []) (VRedirect STDOUT) PtyOff) 10 with
  | (s, Ok (hs, wi)) => observed_out s hs wi = ToObject (VBytesIO 1 []) /\ observed_err s hs wi = ToObject (VBytesIO 1 [])
  | _ => False
  end.
Proof. vm_compute. repeat split; discriminate. Qed.
Example c14_example_stderr_only :
  match start ex_world (ex_cmd dflt (VRedirect DEVNULL) (VRedirect STDOUT) PtyOff) 10 with
  | (s, Ok (hs, wi)) => observed_out s hs wi = ToNull /\ observed_err s hs wi = ToResultOutput
  | _ => False
  end.
Proof. vm_compute. repeat split; discriminate. Qed.

(** C66: the child's standard input is what the options name. *)
Theorem c66_stdin_source :
  forall w c next s hs wi, w_same_std w = false -> api_options (c_opts c) -> old_fds next (c_opts c) ->
  start w c next = (s, Ok (hs, wi)) ->
  observed_in s hs wi = named_in (w_encode w) (c_opts c).
Proof. exact observed_in_named. Qed.
Print Assumptions c66_stdin_source.
Example c66_example :
  match start ex_world (ex_cmd (VStr [104; 105]) dflt dflt PtyOff) 10 with
  | (s, Ok (hs, wi)) => observed_in s hs wi = FromBytes [104; 105]
  | _ => False
  end.
Proof. vm_compute. repeat split; discriminate. Qed.

(** C15: awaiting a command refuses the double capture, exactly when both
    streams are CAPTURE. *)
Theorem c15_await_refuses_double_capture :
  forall c, run_command_guard c false
  = if eq_redirect (o_output (c_opts c)) CAPTURE && eq_redirect (o_error (c_opts c)) CAPTURE
    then Some (ValueError "multiple capture requires 'async with'") else None.
Proof. intro c. exact (guard_iff c false). Qed.
Print Assumptions c15_await_refuses_double_capture.

(** Iterating refuses it when both would be captured (default stdout is). *)
Theorem c15_iterate_refuses_double_capture :
  forall c, c_args c <> [] ->
  (exists m, cmd_aiter_preflight c = Err (RuntimeError m)) <->
  ((eq_redirect (o_output (c_opts c)) CAPTURE = true \/ eq_redirect (o_output (c_opts c)) DEFAULT = true)
    /\ eq_redirect (o_error (c_opts c)) CAPTURE = true).
Proof. exact preflight_refuses. Qed.
Print Assumptions c15_iterate_refuses_double_capture.

Theorem c15_pipeline_iteration :
  forall (pre : list command) c,
  pipe_aiter_preflight (pre ++ [c]) = bind (cmd_aiter_preflight c) (fun c' => Ok (pre ++ [c'])).
Proof. exact preflight_pipeline. Qed.
Print Assumptions c15_pipeline_iteration.

Theorem c15_iterate_default_output :
  forall w c r next s hs wi, w_same_std w = false -> api_options (c_opts c) -> old_fds next (c_opts c) ->
  o_output (c_opts c) = VRedirect DEFAULT ->
  cmd_aiter_preflight c = Ok r -> start w r next = (s, Ok (hs, wi)) ->
  iter_stream wi = wi_stdout wi /\ wi_stdout wi <> None /\ observed_out s hs wi = ToCaller SOut.
Proof. exact iterate_default. Qed.
Print Assumptions c15_iterate_default_output.

(** Iteration over stderr. Missing: with a pty (refuted below). *)
Theorem c92_iterate_stderr_only_partial :
  forall w c r next s hs wi, w_same_std w = false -> api_options (c_opts c) -> old_fds next (c_opts c) ->
  o_output (c_opts c) = VRedirect DEVNULL -> o_error (c_opts c) = VRedirect STDOUT -> o_pty (c_opts c) = PtyOff ->
  cmd_aiter_preflight c = Ok r -> start w r next = (s, Ok (hs, wi)) ->
  iter_stream wi = wi_stderr wi /\ wi_stderr wi <> None /\ observed_err s hs wi = ToCaller SErr /\ observed_out s hs wi = ToNull.
Proof. exact iterate_stderr_only. Qed.
Print Assumptions c92_iterate_stderr_only_partial.

(** With a pty, iteration reads the pty, and the captured stderr is never read. *)
Theorem c92_iterate_stderr_only_pty_refuted :
  exists c r s hs wi, api_options (c_opts c) /\ old_fds 10 (c_opts c) /\
  o_output (c_opts c) = VRedirect DEVNULL /\ o_error (c_opts c) = VRedirect STDOUT /\
  cmd_aiter_preflight c = Ok r /\ start ex_world r 10 = (s, Ok (hs, wi)) /\
  iter_stream wi = Some PtyReader /\ wi_stderr wi = Some PStderr /\ observed_err s hs wi = ToCaller SErr.
Proof.
  exists (ex_cmd dflt (VRedirect DEVNULL) (VRedirect STDOUT) PtyOn), (ex_cmd dflt (VRedirect DEVNULL) (VRedirect CAPTURE) PtyOn).
  run_it (start ex_world (ex_cmd dflt (VRedirect DEVNULL) (VRedirect CAPTURE) PtyOn) 10).
  vm_compute. repeat split; discriminate.
Qed.
Print Assumptions c92_iterate_stderr_only_pty_refuted.

Example c15_example : exists r s hs wi,
  cmd_aiter_preflight (ex_cmd dflt (VRedirect DEVNULL) (VRedirect STDOUT) PtyOff) = Ok r
  /\ start ex_world r 10 = (s, Ok (hs, wi)) /\ iter_stream wi = Some PStderr.
Proof.
  exists (ex_cmd dflt (VRedirect DEVNULL) (VRedirect CAPTURE) PtyOff).
  run_it (start ex_world (ex_cmd dflt (VRedirect DEVNULL) (VRedirect CAPTURE) PtyOff) 10).
  vm_compute. repeat split.
Qed.
Example c15_example_refused :
  run_command_guard (ex_cmd dflt (VRedirect CAPTURE) (VRedirect CAPTURE) PtyOff) false <> None
  /\ exists m, cmd_aiter_preflight (ex_cmd dflt dflt (VRedirect CAPTURE) PtyOff) = Err (RuntimeError m).
Proof. split; [discriminate|]. eexists. reflexivity. Qed.

(** C16. The full claim. *)
Definition c16_full_claim : Prop :=
  forall w c next s, cooperative w c -> w_same_std w = false -> api_options (c_opts c) -> old_fds next (c_opts c) ->
  start w c next <> (s, Err AssertionError).

Theorem c16_accepted_redirections_launch_refuted : ~ c16_full_claim.
Proof.
  intro H.
  destruct (start ex_world (ex_cmd dflt (VRedirect DEVNULL) (VRedirect STDOUT) PtyOn) 10) as [s r] eqn:E.
  apply (H ex_world (ex_cmd dflt (VRedirect DEVNULL) (VRedirect STDOUT) PtyOn) 10 s).
  - constructor; intros; discriminate || reflexivity.
  - reflexivity.
  - repeat split; reflexivity.
  - repeat split; try reflexivity. discriminate.
  - rewrite E. f_equal. change r with (snd (s, r)). rewrite <- E. vm_compute. reflexivity.
Qed.
Print Assumptions c16_accepted_redirections_launch_refuted.

(** The assertion fails only with a pty, and then only with preexec_fn or with
    stdout=DEVNULL and stderr=STDOUT; this holds for every failing system call. *)
Theorem c16_no_assertion_partial :
  forall w c next s, w_same_std w = false -> api_options (c_opts c) -> old_fds next (c_opts c) ->
  start w c next = (s, Err AssertionError) ->
  o_pty (c_opts c) <> PtyOff
  /\ (o_preexec_fn (c_opts c) <> None
      \/ (eq_redirect (o_output (c_opts c)) DEVNULL = true /\ eq_redirect (o_error (c_opts c)) STDOUT = true)).
Proof. exact start_noassert. Qed.
Print Assumptions c16_no_assertion_partial.

(** Every documented redirection starts, when the machine cooperates. *)
Theorem c16_supported_redirections_start :
  forall w c next, cooperative w c -> w_same_std w = false ->
  c_args c <> [] -> Forall well_formed (c_args c) -> api_options (c_opts c) -> old_fds next (c_opts c) ->
  supported_input (o_input (c_opts c)) -> supported_output (o_output (c_opts c)) -> supported_output (o_error (c_opts c)) ->
  (o_pty (c_opts c) = PtyOff \/ (o_preexec_fn (c_opts c) = None
     /\ eq_redirect (o_output (c_opts c)) DEVNULL && eq_redirect (o_error (c_opts c)) STDOUT = false)) ->
  exists s hs wi, start w c next = (s, Ok (hs, wi)).
Proof. exact start_succeeds. Qed.
Print Assumptions c16_supported_redirections_start.

(** But an operand accepted on the left of | need not be supported: a file
    object and sh.BUFFER are accepted and fail with TypeError at the launch. *)
Theorem c16_accepted_input_fails_refuted :
  exists x c m s, input_operand x /\ py_or x (VCmd [VStr [108; 115]] default_options) = Ok (VCmd (c_args c) (c_opts c))
  /\ cooperative ex_world c /\ start ex_world c 10 = (s, Err (TypeError m)).
Proof.
  exists (VFile 1), (ex_cmd (VFile 1) dflt dflt PtyOff).
  let r := eval vm_compute in (start ex_world (ex_cmd (VFile 1) dflt dflt PtyOff) 10) in
  match r with (?s, Err (TypeError ?m)) => exists m, s end.
  split; [constructor|]. split; [vm_compute; reflexivity|]. split; [constructor; intros; discriminate || reflexivity|].
  vm_compute. reflexivity.
Qed.
Print Assumptions c16_accepted_input_fails_refuted.

Example c16_example :
  cooperative ex_world (ex_cmd dflt (VBytesIO 1 []) (VRedirect STDOUT) PtyOn)
  /\ exists s hs wi, start ex_world (ex_cmd dflt (VBytesIO 1 []) (VRedirect STDOUT) PtyOn) 10 = (s, Ok (hs, wi)).
Proof. split; [constructor; intros; discriminate || reflexivity|]. 
  run_it (start ex_world (ex_cmd dflt (VBytesIO 1 []) (VRedirect STDOUT) PtyOn) 10). vm_compute. reflexivity.
Qed.
