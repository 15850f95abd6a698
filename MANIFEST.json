{
 "claims": [
  {
   "property": "C01",
   "status": "proved",
   "theorems": [
    "c01_arguments_flatten"
   ],
   "note": ""
  },
  {
   "property": "C02",
   "status": "proved",
   "theorems": [
    "c02_unsupported_arguments_rejected"
   ],
   "note": ""
  },
  {
   "property": "C03",
   "status": "proved",
   "theorems": [
    "c03_coerce_arg_once_per_argument"
   ],
   "note": ""
  },
  {
   "property": "C04",
   "status": "proved",
   "theorems": [
    "c04_partial_application",
    "c04_call_without_arguments",
    "c04_never_empty"
   ],
   "note": ""
  },
  {
   "property": "C05",
   "status": "proved",
   "theorems": [
    "c05_options_follow_history",
    "c05_defaults"
   ],
   "note": ""
  },
  {
   "property": "C06",
   "status": "proved",
   "theorems": [
    "c06_env_history"
   ],
   "note": ""
  },
  {
   "property": "C07",
   "status": "proved",
   "theorems": [
    "c07_child_environment"
   ],
   "note": ""
  },
  {
   "property": "C08",
   "status": "partial",
   "theorems": [
    "c08_equal_hash_equal_refuted",
    "c08_equal_hash_partial"
   ],
   "note": "False of the code when variables were inserted in different orders (util.py 210-211 hashes items in insertion order, util.py 213-218 compares dicts)."
  },
  {
   "property": "C65",
   "status": "proved",
   "theorems": [
    "c65_name"
   ],
   "note": ""
  },
  {
   "property": "C09",
   "status": "proved",
   "theorems": [
    "c09_pipeline_associative"
   ],
   "note": ""
  },
  {
   "property": "C10",
   "status": "proved",
   "theorems": [
    "c10_redirections_bind_to_ends",
    "c10_result_and_writable",
    "c10_output_operators",
    "c10_input_operator",
    "c10_grouping_output",
    "c10_grouping_input"
   ],
   "note": ""
  },
  {
   "property": "C11",
   "status": "proved",
   "theorems": [
    "c11_invalid_redirections"
   ],
   "note": ""
  },
  {
   "property": "C12",
   "status": "proved",
   "theorems": [
    "c12_pipes_connect_neighbours",
    "c12_pipe_creation_fails"
   ],
   "note": ""
  },
  {
   "property": "C13",
   "status": "proved",
   "theorems": [
    "c13_default_redirections",
    "c13_explicit_never_replaced"
   ],
   "note": ""
  },
  {
   "property": "C14",
   "status": "proved",
   "theorems": [
    "c14_stdout_destination",
    "c14_delivered_once"
   ],
   "note": "Every combination of options, with and without a pty."
  },
  {
   "property": "C91",
   "status": "partial",
   "theorems": [
    "c91_destination_refuted",
    "c91_same_std_refuted",
    "c91_stderr_destination_partial"
   ],
   "note": "False with a pty when stdout is not read by shellous (runner.py 371-376 sends stderr to the pty) and when sys.stdout is sys.stderr (runner.py 311); proved otherwise."
  },
  {
   "property": "C15",
   "status": "proved",
   "theorems": [
    "c15_await_refuses_double_capture",
    "c15_iterate_refuses_double_capture",
    "c15_pipeline_iteration",
    "c15_iterate_default_output"
   ],
   "note": ""
  },
  {
   "property": "C92",
   "status": "partial",
   "theorems": [
    "c92_iterate_stderr_only_partial",
    "c92_iterate_stderr_only_pty_refuted"
   ],
   "note": "Proved without a pty; with one the pty is read instead of stderr (runner.py 951)."
  },
  {
   "property": "C16",
   "status": "partial",
   "theorems": [
    "c16_accepted_redirections_launch_refuted",
    "c16_no_assertion_partial",
    "c16_supported_redirections_start",
    "c16_accepted_input_fails_refuted"
   ],
   "note": "False: pty with stdout=DEVNULL, stderr=STDOUT fails an assertion after the launch (runner.py 667); the exact set of failing combinations is proved."
  },
  {
   "property": "C66",
   "status": "proved",
   "theorems": [
    "c66_stdin_source"
   ],
   "note": ""
  },
  {
   "property": "C17",
   "status": "proved",
   "theorems": [
    "c17_reads_exist",
    "c17_bytes_exact",
    "c17_streamwriter_exact"
   ],
   "note": ""
  },
  {
   "property": "C18",
   "status": "proved",
   "theorems": [
    "c18_error_limit"
   ],
   "note": ""
  },
  {
   "property": "C19",
   "status": "proved",
   "theorems": [
    "c19_text_independent_of_chunks",
    "c19_interrupted_mid_character_refuted"
   ],
   "note": "Any decoder. A copy cancelled in the middle of a character therefore loses its text: c19_interrupted_mid_character_refuted is an instance, not an exception."
  },
  {
   "property": "C20",
   "status": "partial",
   "theorems": [
    "c20_long_line_refuted",
    "c20_lines_exact_partial",
    "c20_lines_determined",
    "c20_lines_before_long_line",
    "c20_rstrip"
   ],
   "note": "A line longer than the 65536-byte stream limit raises ValueError; exact for all other inputs."
  },
  {
   "property": "C21",
   "status": "proved",
   "theorems": [
    "c21_input_delivered",
    "c21_already_closed",
    "c21_reader_delivered"
   ],
   "note": ""
  },
  {
   "property": "C93",
   "status": "partial",
   "theorems": [
    "c93_pty_eof_partial",
    "c93_pty_empty_input_refuted"
   ],
   "note": "Empty input on a pty sends the EOF character twice at the start of a line: refuted for that case, proved otherwise."
  },
  {
   "property": "C51",
   "status": "proved",
   "theorems": [
    "c51_decode_inverts_encode",
    "c51_chunks_do_not_matter",
    "c51_nothing_held_back"
   ],
   "note": ""
  },
  {
   "property": "C52",
   "status": "proved",
   "theorems": [
    "c52_newlines_normalised",
    "c52_normalised_unique"
   ],
   "note": ""
  },
  {
   "property": "C67",
   "status": "proved",
   "theorems": [
    "c67_replace_and_append",
    "c67_sinks_positioned"
   ],
   "note": ""
  },
  {
   "property": "C22",
   "status": "proved",
   "theorems": [
    "c22_pipeline_result",
    "c22_key_unique",
    "c22_status_zero"
   ],
   "note": ""
  },
  {
   "property": "C23",
   "status": "proved",
   "theorems": [
    "c23_first_other_exception",
    "c23_result_means_no_exception",
    "c23_cancelled_member"
   ],
   "note": ""
  },
  {
   "property": "C24",
   "status": "proved",
   "theorems": [
    "c24_check_table",
    "c24_result_property"
   ],
   "note": ""
  },
  {
   "property": "C25",
   "status": "partial",
   "theorems": [
    "c25_realtime_signal_refuted",
    "c25_exit_signal_partial"
   ],
   "note": "exit_signal raises ValueError for real-time signals that have no name in signal.Signals."
  },
  {
   "property": "C68",
   "status": "partial",
   "theorems": [
    "c68_member_exit_codes_refuted",
    "c68_last_exit_codes_partial"
   ],
   "note": "False: the key exit status is checked against the exit_codes of the last command only."
  },
  {
   "property": "C26",
   "status": "partial",
   "theorems": [
    "c26_two_cancels_refuted",
    "c26_nothing_left_running_partial",
    "c26_cancelled_twice_partial",
    "c26_runtime_error",
    "c26_results_partial",
    "c26_wakes_up"
   ],
   "note": "Proved while harvest itself is cancelled at most once (twice if the first cancellation ends the first wait). Refuted in general: two cancellations while waiting for the siblings leave them running."
  },
  {
   "property": "C27",
   "status": "partial",
   "theorems": [
    "c27_argument_order_refuted",
    "c27_which_exception_partial",
    "c27_single_failure"
   ],
   "note": "Literal claim refuted: the exception raised is the first in argument order, not in time."
  },
  {
   "property": "C28",
   "status": "proved",
   "theorems": [
    "c28_siblings_are_cancelled",
    "c28_no_needless_cancel",
    "c28_reacts_at_once"
   ],
   "note": "cancel_finish=False for the first; any for the second."
  },
  {
   "property": "C29",
   "status": "partial",
   "theorems": [
    "c29_reraised_refuted",
    "c29_results_positional_partial"
   ],
   "note": "RuntimeError and AssertionError of a task are re-raised instead of returned; two cancellations can give InvalidStateError."
  },
  {
   "property": "C30",
   "status": "proved",
   "theorems": [
    "c30_timeout_only_if_expired",
    "c30_giving_up_raises_timeout",
    "c30_reacts_at_once"
   ],
   "note": "A task's own TimeoutError is the other possible source; the RuntimeError of C26 replaces it if tasks resist cancellation."
  },
  {
   "property": "C31",
   "status": "partial",
   "theorems": [
    "c31_swallowed_refuted",
    "c31_cancel_propagates_partial",
    "c31_reacts_at_once"
   ],
   "note": "A cancellation that arrives while harvest waits for the siblings of a failed task is swallowed."
  },
  {
   "property": "C32",
   "status": "proved",
   "theorems": [
    "c32_cancel_finish"
   ],
   "note": "The tasks' completion is proved for at most two cancellations; more: see C26."
  },
  {
   "property": "C33",
   "status": "proved",
   "theorems": [
    "c33_audit_brackets"
   ],
   "note": "audit callbacks that raise are not modelled"
  },
  {
   "property": "C34",
   "status": "proved",
   "theorems": [
    "c34_nothing_left_running"
   ],
   "note": "nobody outside shellous cancels the runner's own tasks (ext = false); SIGKILL sent counts, see C35"
  },
  {
   "property": "C35",
   "status": "partial",
   "theorems": [
    "c35_status_collected_partial",
    "c35_cancelled_twice_refuted"
   ],
   "note": "the full claim is false: cancelling again after SIGKILL was sent ends the run before the status is known (refuted by an explicit schedule); proved when no cancellation arrives after SIGKILL"
  },
  {
   "property": "C36",
   "status": "proved",
   "theorems": [
    "c36_normal_run_no_signals",
    "c36_no_signal_after_exit"
   ],
   "note": ""
  },
  {
   "property": "C37",
   "status": "proved",
   "theorems": [
    "c37_signal_escalation"
   ],
   "note": "for cancel_signal other than None and SIGKILL"
  },
  {
   "property": "C38",
   "status": "partial",
   "theorems": [
    "c38_timeout_partial",
    "c38_cancel_partial",
    "c38_success_was_not_interrupted",
    "c38_timer_off",
    "c38_failure_hides_timeout_refuted"
   ],
   "note": "the full claim is false: the failure of a copying task hides a timeout that expires during the clean-up (refuted); proved up to such errors; a timed out or cancelled command never looks successful"
  },
  {
   "property": "C39",
   "status": "partial",
   "theorems": [
    "c39_exit_code_partial",
    "c39_unsignalled",
    "c39_stolen_status_refuted"
   ],
   "note": "the full claim is false: a process that exits just before it is signalled may be reaped by Popen.send_signal and its status reported as -signal (refuted by an explicit schedule)"
  },
  {
   "property": "C40",
   "status": "proved",
   "theorems": [
    "c40_body_error"
   ],
   "note": ""
  },
  {
   "property": "C41",
   "status": "proved",
   "theorems": [
    "c41_result_before_exit",
    "c41_result_in_body",
    "c41_before_start",
    "c41_never_started"
   ],
   "note": ""
  },
  {
   "property": "C42",
   "status": "partial",
   "theorems": [
    "c42_refuted",
    "c42_close_count",
    "c42_own_descriptors",
    "c42_client_objects",
    "c42_pipeline_argument_leaks"
   ],
   "note": "The full claim is false: the descriptors of a pipeline used as an argument are not closed when the launch fails early, and a file object given with close=True is closed only on failure. The exact number of times each descriptor is closed is proved for every command and outcome."
  },
  {
   "property": "C43",
   "status": "partial",
   "theorems": [
    "c43_refuted",
    "c43_pty_parent_leaks",
    "c43_failed_launch_partial",
    "c43_successful_launch_partial",
    "c43_nothing_opened_partial"
   ],
   "note": "The full claim is false: the parent side of the pty, and process-substitution pipes when the executable is not found, stay open after a failed launch; everything else is proved."
  },
  {
   "property": "C57",
   "status": "partial",
   "theorems": [
    "c57_refuted",
    "c57_partial",
    "c57_stops_at_first_raise",
    "c57_child_closed_once"
   ],
   "note": "The full claim is false: a file object whose close() raises stops the loop and the remaining descriptors stay open."
  },
  {
   "property": "C44",
   "status": "partial",
   "theorems": [
    "c44_closed_once_partial",
    "c44_not_capturing_partial",
    "c44_cancelled_entering",
    "c44_refuted",
    "c44_pipe_creation_fails"
   ],
   "note": "Proved for await pipeline and for every block that is entered. False if `async with` is cancelled while entering: every pipe descriptor is closed twice. Command tasks are assumed to have started."
  },
  {
   "property": "C45",
   "status": "partial",
   "theorems": [
    "c45_refuted",
    "c45_hangs",
    "c45_failed_command_never_ready",
    "c45_ready_partial"
   ],
   "note": "False: if the first or last command fails to launch, its ready-future is never set and entering hangs until cancelled. Proved: entering completes once both ready-futures are set."
  },
  {
   "property": "C69",
   "status": "partial",
   "theorems": [
    "c69_refuted",
    "c69_exit_partial",
    "c69_enter_partial",
    "c69_no_orphans_partial"
   ],
   "note": "Two cancellations while harvest waits leave commands running (refuted); proved for fewer."
  },
  {
   "property": "C70",
   "status": "partial",
   "theorems": [
    "c70_refuted",
    "c70_masked_partial"
   ],
   "note": "No command is started, but the OSError is always masked by ValueError('Set of Tasks/Futures is empty.') from asyncio.wait."
  },
  {
   "property": "C71",
   "status": "partial",
   "theorems": [
    "c71_refuted",
    "c71_value_partial",
    "c71_undisturbed_partial"
   ],
   "note": "A RuntimeError or AssertionError of a command is re-raised by harvest ahead of the pipeline order."
  },
  {
   "property": "C72",
   "status": "partial",
   "theorems": [
    "c72_refuted",
    "c72_swallowed",
    "c72_cancelled_partial",
    "c72_cancelled_during_launch",
    "c72_member_not_cancelled"
   ],
   "note": "A cancellation after a command failed, or during a launch, does not raise CancelledError (refuted); proved for the first cancellation while waiting for the commands."
  },
  {
   "property": "C46",
   "status": "partial",
   "theorems": [
    "c46_refuted",
    "c46_nothing_lost_partial",
    "c46_what_is_lost"
   ],
   "note": "False: if expect()/command() is cancelled after its background task found the prompt, the text up to the end of the prompt is lost (refuted by a schedule). Proved for every session without that; and what is lost is exactly the matched text. Every codec and error handler of EncodingModel; output that cannot be decoded (e.g. not UTF-8, with \"strict\") is excluded."
  },
  {
   "property": "C47",
   "status": "proved",
   "theorems": [
    "c47_exact_string",
    "c47_chunk_independent",
    "c47_eof"
   ],
   "note": "Every codec and error handler of EncodingModel; output that cannot be decoded (possible with strict only, apart from utf-16) is excluded; what the text is: c50_text_of_the_output."
  },
  {
   "property": "C48",
   "status": "partial",
   "theorems": [
    "c48_refuted",
    "c48_strings_partial"
   ],
   "note": "False if one string occurs in another one ([\"abc\", \"ab\"] with the output arriving as \"ab\", \"c\"); proved for lists in which none does."
  },
  {
   "property": "C49",
   "status": "proved",
   "theorems": [
    "c49_kept",
    "c49_eof_exact",
    "c49_no_timeout",
    "c49_timeout_applies"
   ],
   "note": "As C47: output that can be decoded."
  },
  {
   "property": "C101",
   "status": "partial",
   "theorems": [
    "c101_refuted",
    "c101_failures_partial"
   ],
   "note": "False for cancellation after the background task found the prompt (see C46): exactly the text up to the end of the prompt is gone. Proved otherwise."
  },
  {
   "property": "C50",
   "status": "proved",
   "theorems": [
    "c50_read_all",
    "c50_command",
    "c50_command_eof",
    "c50_text_of_the_output",
    "c50_text_written",
    "c50_text_replaced"
   ],
   "note": "The text of the output is what bytes.decode gives for all of it, in every codec and error handler of EncodingModel; what was written in the codec is read; the other handlers always have an answer."
  },
  {
   "property": "C53",
   "status": "partial",
   "theorems": [
    "c53_refuted",
    "c53_broken_pipe_partial"
   ],
   "note": "False: in _drain, cancelling and awaiting the concurrent reader in `finally` replaces the error of drain() by CancelledError, which send() ignores; the error is raised only if the reader is already done."
  },
  {
   "property": "C54",
   "status": "proved",
   "theorems": [
    "c54_no_echo",
    "c54_log",
    "c54_echo_off"
   ],
   "note": ""
  },
  {
   "property": "C55",
   "status": "proved",
   "theorems": [
    "c55_exit_matches",
    "c55_nothing_left"
   ],
   "note": "All interleavings of enters and exits of any number of tasks, owners and contexts (copied or shared), with reuse of id() addresses. Examples show the limits outside the claim: blocks that are not nested in one task, and a block left by another task (async generators)."
  },
  {
   "property": "C56",
   "status": "partial",
   "theorems": [
    "c56_launch_completes_partial",
    "c56_launch_ended_partial",
    "c56_full_claim_refuted"
   ],
   "note": "False for two cancellations: the second one, while uninterrupted awaits the launch, cancels the launch (refuted). Proved: with at most one cancellation the launch is never asked to cancel, runs to its own end, and CancelledError is raised afterwards unless the launch itself failed (its error replaces the CancelledError); for any number of cancellations the launch has ended when uninterrupted ends."
  },
  {
   "property": "C58",
   "status": "proved",
   "theorems": [
    "c58_at_most_once",
    "c58_thread_at_most_once",
    "c58_kqueue_at_most_once"
   ],
   "note": "All three strategies, every interleaving, any callback."
  },
  {
   "property": "C94",
   "status": "partial",
   "theorems": [
    "c94_exactly_once_while_open",
    "c94_exactly_once_after_close_partial",
    "c94_refuted",
    "c94_thread_exactly_once",
    "c94_thread_terminates"
   ],
   "note": "While the epoll watcher is open (callbacks raise only RuntimeError), and after close() if epoll reports descriptors in the order in which they became ready; without that order, or after a callback that raises something else, a child that exited before close() may never be reported (c94_refuted). ThreadStrategy: always."
  },
  {
   "property": "C59",
   "status": "proved",
   "theorems": [
    "c59_closes_at_most_once"
   ],
   "note": "Unconditional."
  },
  {
   "property": "C95",
   "status": "partial",
   "theorems": [
    "c95_closed_exactly_once_partial",
    "c95_refuted",
    "c95_raising_callback_refuted"
   ],
   "note": "For watch_pid calls that had ended before close() was called and callbacks that raise only RuntimeError. False in general: a watch_pid call that overlaps close() leaks its pidfd, and so does a callback that raises."
  },
  {
   "property": "C60",
   "status": "proved",
   "theorems": [
    "c60_epoll_no_collision"
   ],
   "note": "Entries are keyed by pidfd."
  },
  {
   "property": "C100",
   "status": "partial",
   "theorems": [
    "c100_thread_partial",
    "c100_refuted",
    "c100_raising_callback_refuted"
   ],
   "note": "Between the callback and the removal of the table entry a new child with the pid is rejected with AssertionError, and after a raising callback forever. Proved: accepted once the earlier reaper threads have ended."
  },
  {
   "property": "C73",
   "status": "proved",
   "theorems": [
    "c73_close_returns"
   ],
   "note": "Unconditional."
  },
  {
   "property": "C96",
   "status": "partial",
   "theorems": [
    "c96_writes_own_pipe",
    "c96_raising_callback_refuted"
   ],
   "note": "If callbacks raise only RuntimeError; otherwise the thread may have closed the pipe before and the byte goes into a foreign descriptor with the same number (refuted)."
  },
  {
   "property": "C74",
   "status": "proved",
   "theorems": [
    "c74_kills_only_the_watched_child"
   ],
   "note": "EPollStrategy; children are reaped only by the watcher."
  },
  {
   "property": "C61",
   "status": "proved",
   "theorems": [
    "c61_one_strategy",
    "c61_bounded",
    "c61_nothing_lost",
    "c61_no_deadlock"
   ],
   "note": "All interleavings of any number of add_child_handler and close calls; the constructor of a strategy may raise."
  },
  {
   "property": "C75",
   "status": "partial",
   "theorems": [
    "c75_no_overlap",
    "c75_refuted",
    "c75_watch_refuted"
   ],
   "note": "Proved for calls during which no close() runs (also after earlier close() calls). False for overlapping calls: AssertionError or AttributeError because self._strategy is None again, or the child is watched by a strategy that was closed meanwhile."
  },
  {
   "property": "C62",
   "status": "proved",
   "theorems": [
    "c62_get",
    "c62_set",
    "c62_prompt",
    "c62_idempotent",
    "c62_concurrent_refuted"
   ],
   "note": "For every attribute state. Beyond the claim: a change that the child makes between the setter's tcgetattr and tcsetattr is lost (c62_concurrent_refuted)."
  },
  {
   "property": "C63",
   "status": "proved",
   "theorems": [
    "c63_child_closed_once",
    "c63_no_other",
    "c63_parent_refuted"
   ],
   "note": "Every sequence of closes (open_fds, PtyFds.close, the BSD protocol callbacks), os.close failing or not. Beyond the claim: the parent descriptor has no such guard (PtyFds.close twice without streams closes the number twice)."
  },
  {
   "property": "C64",
   "status": "partial",
   "theorems": [
    "c64_coroutine_partial",
    "c64_coroutine_refuted",
    "c64_iteration",
    "c64_passive_generator",
    "c64_read_lines",
    "c64_generator_refuted",
    "c64_thread"
   ],
   "note": "Coroutines: any body, caller and event loop, unless repr() of the exception given to __aexit__ (or _platform_info in __aenter__) raises: that exception replaces the outcome (refuted). Async generators: unchanged when iterated, and for read_lines, the only decorated one, always; a generator with cleanup code would not receive athrow/aclose (refuted)."
  },
  {
   "property": "C76",
   "status": "proved",
   "theorems": [
    "c76_raw",
    "c76_cbreak",
    "c76_cooked",
    "c76_bad_size"
   ],
   "note": "tcgetattr/tcsetattr/TIOCSWINSZ of Linux read and store exactly the attributes (assumption)."
  },
  {
   "property": "C77",
   "status": "proved",
   "theorems": [
    "c77_lines_in_order",
    "c77_no_stream"
   ],
   "note": "Unconditional."
  },
  {
   "property": "C97",
   "status": "partial",
   "theorems": [
    "c97_complete_partial",
    "c97_text_partial",
    "c97_refuted"
   ],
   "note": "Unless the task was cancelled or the timeout expired: a cancelled loop also ends normally (refuted). Lines are those of the stream cut at newlines, each decoded with the command's encoding; c97_text_partial: for utf-8, latin-1 and ascii with every error handler they are the lines of the decoding of the whole stream."
  },
  {
   "property": "C78",
   "status": "partial",
   "theorems": [
    "c78_swallowed",
    "c78_refuted"
   ],
   "note": "False: a single cancellation after the launch is never raised, the loop just ends (refuted; c78_swallowed says exactly what happens). The process is stopped: C79."
  },
  {
   "property": "C79",
   "status": "proved",
   "theorems": [
    "c79_process_ended"
   ],
   "note": "Like C34/C35 for every way an iteration can end, including aclose(); the status is collected unless the task is cancelled again after SIGKILL or an error says so."
  },
  {
   "property": "C80",
   "status": "proved",
   "theorems": [
    "c80_exit_status_ignored",
    "c80_refuted"
   ],
   "note": "c80_refuted refutes the opposite expectation (ResultError as with await), so that this is a decision of the code and not of the model."
  },
  {
   "property": "C81",
   "status": "partial",
   "theorems": [
    "c81_result",
    "c81_available_partial",
    "c81_refuted"
   ],
   "note": "Once the process was started, cli.result is there with the collected status, or TypeError is raised, no status was collected and SIGKILL had been sent (c81_result, exhaustive). Not available only then (refuted for: cancelled after SIGKILL)."
  },
  {
   "property": "C82",
   "status": "partial",
   "theorems": [
    "c82_outcome_partial",
    "c82_swallowed",
    "c82_refuted"
   ],
   "note": "False for cancellation: the block ends normally (refuted, c82_swallowed). All other exceptions are raised unless the timeout expired, the cleanup failed or the task was cancelled during it (c82_outcome_partial, exhaustive)."
  },
  {
   "property": "C83",
   "status": "proved",
   "theorems": [
    "c83_sinks_complete",
    "c83_value",
    "c83_any_cancellation_refuted"
   ],
   "note": "Composition of the routing, Runner, copying and result models. c83_sinks_complete covers every kind of sink: buffers, BytesIO, StringIO, Logger (one message for each line, without trailing white space; no line over 64 KiB), StreamWriter. c83_any_cancellation_refuted shows the proviso is needed: if other code cancels the copying task, the call succeeds with truncated output."
  },
  {
   "property": "C84",
   "status": "proved",
   "theorems": [
    "c84_lines_in_order",
    "c84_no_stream"
   ],
   "note": "Unconditional."
  },
  {
   "property": "C98",
   "status": "partial",
   "theorems": [
    "c98_complete_partial",
    "c98_text_partial",
    "c98_refuted"
   ],
   "note": "Unless the consumer's task was cancelled (refuted: a cancelled loop also ends normally). Lines are decoded with the encoding of the pipeline's options; c98_text_partial relates them to the decoding of the whole stream (utf-8, latin-1, ascii; every error handler)."
  },
  {
   "property": "C85",
   "status": "proved",
   "theorems": [
    "c85_failures_ignored",
    "c85_refuted"
   ],
   "note": "c85_refuted refutes the opposite expectation, with a missing middle command."
  },
  {
   "property": "C86",
   "status": "proved",
   "theorems": [
    "c86_stopped"
   ],
   "note": "Unconditional."
  },
  {
   "property": "C99",
   "status": "partial",
   "theorems": [
    "c99_no_orphans_partial",
    "c99_refuted"
   ],
   "note": "At most one cancellation, unless RuntimeError says that the commands did not react. False for a consumer that is cancelled repeatedly (refuted by a schedule)."
  },
  {
   "property": "C87",
   "status": "partial",
   "theorems": [
    "c87_errors_partial",
    "c87_swallowed",
    "c87_refuted"
   ],
   "note": "False for cancellation: swallowed (refuted, c87_swallowed). Other exceptions are raised unless the task is cancelled during the clean-up or the clean-up fails (c87_errors_partial, exhaustive)."
  },
  {
   "property": "C88",
   "status": "proved",
   "theorems": [
    "c88_result",
    "c88_command_failed",
    "c88_gave_up"
   ],
   "note": "For every body and schedule. An exception of a command replaces one raised by the body."
  },
  {
   "property": "C89",
   "status": "partial",
   "theorems": [
    "c89_outcome_partial",
    "c89_replaced_refuted",
    "c89_cancelled_swallowed"
   ],
   "note": "False for cancellation (swallowed) and when a command failed or shellous gave up (their exception replaces the body's); otherwise raised unchanged (c89_outcome_partial, exhaustive)."
  },
  {
   "property": "C90",
   "status": "proved",
   "theorems": [
    "c90_writes",
    "c90_unencodable",
    "c90_child_reads"
   ],
   "note": "For every session: sequence of operations with any outcomes and pauses; every codec and error handler of EncodingModel."
  },
  {
   "property": "C102",
   "status": "partial",
   "theorems": [
    "c102_exactly_once_while_open_partial",
    "c102_exactly_once_after_close_partial",
    "c102_slow_exit_refuted",
    "c102_raising_callback_refuted",
    "c102_unordered_refuted"
   ],
   "note": "Proved if callbacks raise only RuntimeError, a child can be waited for at the latest one sleep after its exit event and, after close(), kevent reports events in order. Each of these conditions is needed (the refutations)."
  },
  {
   "property": "C103",
   "status": "proved",
   "theorems": [
    "c103_close_returns"
   ],
   "note": "Unconditional."
  },
  {
   "property": "C104",
   "status": "proved",
   "theorems": [
    "c104_kqueue_closed_once"
   ],
   "note": "Unconditional."
  },
  {
   "property": "C105",
   "status": "partial",
   "theorems": [
    "c105_recycled_pid_partial",
    "c105_refuted"
   ],
   "note": "watch_pid leaves its table entry behind when the kernel refuses to register the event, so a later child with that pid is rejected with AssertionError (refuted). Proved: a rejected child implies an earlier watch_pid call for the same pid that raised."
  },
  {
   "property": "C106",
   "status": "partial",
   "theorems": [
    "c106_complete_partial",
    "c106_refuted"
   ],
   "note": "Refuted: when the last command is killed by its timeout after the others have finished, the value is the part of the output written so far. Proved for runs in which no timer expires, every command accepts 0 and the last one only 0; members without process substitution."
  },
  {
   "property": "C107",
   "status": "partial",
   "theorems": [
    "c107_nobody_finished_partial",
    "c107_refuted"
   ],
   "note": "Refuted by the same run. Proved: if every command was cancelled or timed out and the last one does not accept the exit code it was killed with, an exception is raised (it is a ResultError, not TimeoutError: c107_example)."
  },
  {
   "property": "C108",
   "status": "proved",
   "theorems": [
    "c108_at_most_once",
    "c108_not_early",
    "c108_closed"
   ],
   "note": "asyncio's unix pipe transports of Python 3.12 and its StreamReader are part of the model; Linux."
  },
  {
   "property": "C109",
   "status": "partial",
   "theorems": [
    "c109_closed_number_partial",
    "c109_refuted"
   ],
   "note": "Proved for runs in which the terminal did not refuse input. Refuted otherwise: a refused write closes the shared descriptor while the reader transport is paused (more than 128 KiB unread); the next read re-registers the closed number."
  },
  {
   "property": "C110",
   "status": "partial",
   "theorems": [
    "c110_output_in_order_partial",
    "c110_refuted"
   ],
   "note": "Same condition; in the refuting run the program is given data of a foreign file."
  },
  {
   "property": "C111",
   "status": "partial",
   "theorems": [
    "c111_all_output_partial",
    "c111_end_is_the_end_partial",
    "c111_no_error_partial",
    "c111_refuted",
    "c111_waits_forever_refuted"
   ],
   "note": "Same condition. Refuted otherwise: when the terminal refuses a write after the process has exited, the writer transport unregisters and closes the shared descriptor; unread output is lost and the reader is never told the end, whatever happens later (until the streams are closed)."
  },
  {
   "property": "C112",
   "status": "proved",
   "theorems": [
    "c112_input_in_order",
    "c112_all_input"
   ],
   "note": "For every run; drain() is not modelled (it writes nothing)."
  },
  {
   "property": "C113",
   "status": "proved",
   "theorems": [
    "c113_no_deadlock",
    "c113_never_waits_for_shellous"
   ],
   "note": "For every run of the flow model (shellous's copy and write tasks, asyncio's pipe transports, flow control and StreamReader, bounded pipes, arbitrary processes). Not modelled: children that keep pipes open, cancelled tasks, sinks that refuse data (StreamWriter, Logger)."
  },
  {
   "property": "C114",
   "status": "proved",
   "theorems": [
    "c114_comes_to_rest"
   ],
   "note": "Same model."
  },
  {
   "property": "C115",
   "status": "proved",
   "theorems": [
    "c115_input_exact",
    "c115_between_processes",
    "c115_end_comes"
   ],
   "note": "Same model."
  },
  {
   "property": "C116",
   "status": "proved",
   "theorems": [
    "c116_never_wrong",
    "c116_done_is_all",
    "c116_all_exited"
   ],
   "note": "Same model."
  },
  {
   "property": "C117",
   "status": "partial",
   "theorems": [
    "c117_asked_partial",
    "c117_ended_partial",
    "c117_quiet_partial",
    "c117_returns_partial",
    "c117_refuted"
   ],
   "note": "Proved: in every run each task left over has been cancelled (or is the helper that waits for the pipe to close); no task is left when there was at most one cancellation and no wait ran out of time, nor when a run that was never cancelled returns; an uncancelled run that leaves a task raises one of its own errors. Refuted in full: three cancellations during the cleanup leave a copying task behind while the run returns normally."
  },
  {
   "property": "C118",
   "status": "proved",
   "theorems": [
    "c118_substitution"
   ],
   "note": "For every argument list and depth-1 substitution (nested ones are substituted by their own run). The name of a descriptor is an abstract function of its number."
  },
  {
   "property": "C119",
   "status": "proved",
   "theorems": [
    "c119_success",
    "c119_failure_reported"
   ],
   "note": "For every tree of substituted commands. Hypotheses (plain): only shellous cancels the tasks of the runs, and the private option _catch_cancelled is off. Of a substituted pipeline only its outcome is in the tree (its commands are the subject of C106)."
  },
  {
   "property": "C120",
   "status": "partial",
   "theorems": [
    "c120_processes",
    "c120_asked_partial",
    "c120_ended_partial",
    "c120_refuted"
   ],
   "note": "Proved: in every run each started process of a substituted command that is over has exited or got SIGKILL; a substituted command still going has been cancelled; none is going if every run was cancelled at most once and no wait ran out of time. Refuted in full: three cancellations of the awaiting task leave a substituted command behind."
  },
  {
   "property": "C121",
   "status": "proved",
   "theorems": [
    "c121_same_errors",
    "c121_context_history",
    "c121_configure_then_call",
    "c121_result"
   ],
   "note": "A context is modelled as its options; histories that change coerce_arg are excluded from c121_configure_then_call (they change how the arguments are read)."
  },
  {
   "property": "C122",
   "status": "partial",
   "theorems": [
    "c122_find_command",
    "c122_program_partial",
    "c122_empty_entry",
    "c122_with_directory",
    "c122_not_found",
    "c122_enter",
    "c122_refuted"
   ],
   "note": "Refuted in full: a file found through an empty entry of the search path (current directory) is passed on by its bare name, and Popen looks it up again in the PATH of the new process, so another file may run. Proved for search paths without empty entries. str names on POSIX; shutil.which, os.path and os.get_exec_path are modelled from Python 3.12; the result of find_command is the string given to pathlib.Path."
  },
  {
   "property": "C123",
   "status": "proved",
   "theorems": [
    "c123_chunks_do_not_matter",
    "c123_text_arrives",
    "c123_default_errors"
   ],
   "note": "CPython's codecs and incremental decoders are modelled (utf-8, latin-1, ascii, utf-16-le; strict, replace, ignore, surrogateescape)."
  },
  {
   "property": "C124",
   "status": "proved",
   "theorems": [
    "c124_handlers",
    "c124_surrogateescape_roundtrip",
    "c124_valid_data",
    "c124_encoding_handlers"
   ],
   "note": "utf-8, latin-1 and ascii; for utf-16-le only c124_valid_data (surrogateescape cannot represent its ill-formed units)."
  },
  {
   "property": "C125",
   "status": "partial",
   "theorems": [
    "c125_lines_partial",
    "c125_full_claim_refuted"
   ],
   "note": "Refuted in full: with utf-16-le the line is cut after the byte 0A, inside the code unit 0A 00. Proved for utf-8, latin-1 and ascii with every handler."
  },
  {
   "property": "C126",
   "status": "partial",
   "theorems": [
    "c126_error_text_partial",
    "c126_full_claim_refuted"
   ],
   "note": "Refuted in full: with the default encoding (utf-8, strict) and the default limit, a character across the 1024-byte boundary makes result.error raise UnicodeDecodeError. Proved: what the text is for every handler, and that only a limit inside a character can make strict fail."
  },
  {
   "property": "C127",
   "status": "proved",
   "theorems": [
    "c127_failed_watch"
   ],
   "note": ""
  },
  {
   "property": "C128",
   "status": "partial",
   "theorems": [
    "c128_iterator_not_closed_refuted",
    "c128_iterator_once",
    "c128_iterator_closes",
    "c128_container_partial",
    "c128_iterator_partial",
    "c128_closed_once_refuted",
    "c128_closed_once_partial",
    "c128_same_as_run_options"
   ],
   "note": "false for iterators and for repeated runs with pass_fds_close; proved for containers (any history) and, for at most one close, for single runs"
  },
  {
   "property": "C129",
   "status": "partial",
   "theorems": [
    "c129_exactly_one_partial",
    "c129_others_watched",
    "c129_flag_confined",
    "c129_two_threads_refuted"
   ],
   "note": "false for event loops in two threads; proved for one event loop, and for children without pty in any number of threads"
  },
  {
   "property": "C130",
   "status": "partial",
   "theorems": [
    "c130_signal_steals_refuted",
    "c130_255_refuted",
    "c130_status_partial",
    "c130_not_before_exit",
    "c130_never_changes",
    "c130_polling_ends",
    "c130_signals_sent",
    "c130_loop_ends",
    "c130_signals_reach_the_child",
    "c130_lost_status"
   ],
   "note": "the status may be lost to a signal; everything else is proved, and the status when a poll comes first"
  },
  {
   "property": "C131",
   "status": "partial",
   "theorems": [
    "c131_nothing_left_refuted",
    "c131_nothing_left_partial",
    "c131_entered_nothing_left",
    "c131_brackets",
    "c131_returning_callback",
    "c131_same_events",
    "c131_start_raises",
    "c131_stop_raises"
   ],
   "note": "False of the code when the start fails after the launch and the callback raises on both signals (runner.py 598: the callback is called before the signal is sent; __aenter__ never calls _close); everything else is proved."
  },
  {
   "property": "C132",
   "status": "proved",
   "theorems": [
    "c132_audit_brackets",
    "c132_nothing_left_running",
    "c132_status_collected",
    "c132_normal_run",
    "c132_no_signal_after_exit",
    "c132_signal_escalation",
    "c132_exit_code",
    "c132_timeout",
    "c132_cancel",
    "c132_success_was_not_interrupted",
    "c132_timer_off",
    "c132_body_error",
    "c132_poll_sees_exit",
    "c132_poll_waits"
   ],
   "note": "stated with the exceptions of C35, C38 and C39"
  },
  {
   "property": "C133",
   "status": "proved",
   "theorems": [
    "c133_lines",
    "c133_complete"
   ],
   "note": "stated with the exception of C97 (cancellation, timeout)"
  },
  {
   "property": "C134",
   "status": "proved",
   "theorems": [
    "c134_lines",
    "c134_complete"
   ],
   "note": "stated with the exception of C98 (cancellation)"
  },
  {
   "property": "C135",
   "status": "proved",
   "theorems": [
    "c135_accepted",
    "c135_streams",
    "c135_reads",
    "c135_writes"
   ],
   "note": "reading is stated with the exception of C46 (cancelled after the text was found)"
  },
  {
   "property": "C136",
   "status": "proved",
   "theorems": [
    "c136_streams",
    "c136_reads",
    "c136_writes"
   ],
   "note": "reading is stated with the exception of C46 (cancelled after the text was found)"
  },
  {
   "property": "C137",
   "status": "proved",
   "theorems": [
    "c137_elements",
    "c137_rebuilt",
    "c137_name"
   ],
   "note": "Unconditional."
  }
 ]
}