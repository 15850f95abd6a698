(** A member command of a pipeline that is cancelled while it is being launched
    (used by C72). *)
From Verif Require Import AsyncModel AsyncSpec AsyncProofs HarvestModel RunnerModel RunnerSpec RunnerProofs5 EarlyCancelProofs RunnerProps RunTac.
Open Scope Z_scope.

(** Pipelines run their commands with _catch_cancelled_error=True (runner.py 1176). *)
Definition member_opts : opts := {|
  o_path := None; o_env := None; o_inherit_env := true;
  o_input := VRedirect DEFAULT; o_input_close := false;
  o_output := VRedirect DEFAULT; o_output_append := false; o_output_close := false;
  o_error := VRedirect DEFAULT; o_error_append := false; o_error_close := false;
  o_error_limit := Some 1024; o_encoding := utf8_name; o_return_result := true;
  o_catch_cancelled := true; o_exit_codes := None; o_timeout := None;
  o_cancel_timeout := 3; o_cancel_signal := Some 15; o_alt_name := None;
  o_pass_fds := []; o_pass_fds_close := false; o_writable := false;
  o_start_new_session := false; o_preexec_fn := None; o_pty := PtyOff;
  o_close_fds := true; o_audit_callback := None; o_coerce_arg := None |}.
(** Cancelled before the process was started: the result says so, with the exit
    status CANCELLED_EXIT_CODE. *)
Theorem c72_cancelled_during_launch : exists w',
  run_command member_opts false false false None None [] fresh
    (Err (ResultError {| r_exit := -1000; r_output := []; r_error := []; r_cancelled := true; r_encoding := [] |})) w'
  /\ events w' = [LCancel].
Proof.
  eexists. split; [|].
  - unfold run_command. apply b_bind_err. unfold with_run. apply b_bind_err.
    all: go. 1: apply setup_ok. all: go. 1: wait_by [ev XCancel]. all: go.
  - reflexivity.
Qed.
Print Assumptions c72_cancelled_during_launch.
(** A member command that has been started never ends with CancelledError,
    however often it is cancelled. *)
Theorem c72_member_not_cancelled : forall o ext piped_stdin use_pty ob eb enc w0 r w',
  o_catch_cancelled o = true ->
  aenter o ext use_pty ob eb enc fresh (Ok tt) w0 ->
  bindM (aexit o ext piped_stdin None) (fun _ => run_result o ob eb enc true) w0 r w' ->
  r <> Err CancelledError.
Proof. exact member_not_cancelled. Qed.
Print Assumptions c72_member_not_cancelled.
