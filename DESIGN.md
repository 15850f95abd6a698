# Formal model of shellous in Rocq (Coq 8.16.1)

## Layout

`rocq/theories/` (logical name `Verif`), standard library only. Each area has

* `XModel.v` – the model: executable Gallina, or a relation where the code is concurrent; every definition
  cites the file and lines in /repo it models and says where it simplifies;
* `XSpec.v` – a small specification written from the English property, independent of the model's helpers
  (absent where the statement needs nothing beyond lists, arithmetic and the model's observable state);
* `XProofs*.v` – lemmas; not needed to understand the claims;
* `XProps.v` – the property theorems with `Print Assumptions` after each, and `Example`s showing concrete,
  non-trivial cases that meet the hypotheses.

Where the code violates the English property, `cNN_full_claim` states it, `…_refuted` proves its negation by
a concrete execution of the model, and `…_partial` proves what does hold, for every input and execution.

### How concurrency is modelled

* asyncio (harvest, Runner, PipeRunner, Prompt, uninterrupted): `AsyncModel.v`. The coroutine under study is
  a program in a relational state/exception monad. At every `await` the environment performs an arbitrary
  finite list of events (tasks finish in any way, timers fire, output arrives, the child exits, somebody
  cancels the main task) and then the event loop resumes the coroutine. A theorem quantifies over every
  execution, so over every schedule, cancellation point and failure. The history of requests,
  cancellations, completions and timer expiries is recorded in the state, for use in statements only.
* threads (watcher.py): transition systems whose steps are single dictionary operations or system calls;
  theorems quantify over all finite runs (and, for "comes to an end", over all fair continuations via a
  decreasing measure).

## Property table

| property | model | how it is proved | status | theorems (file) |
|---|---|---|---|---|
| C01 Argument flattening | CommandModel | functional model of Command/Options; independent flatten/field specification; induction on nested arguments and on the history of calls | proved | `c01_arguments_flatten` (CommandProps.v) |
| C02 Unsupported arguments are rejected | CommandModel | functional model of Command/Options; independent flatten/field specification; induction on nested arguments and on the history of calls | proved | `c02_unsupported_arguments_rejected` (CommandProps.v) |
| C03 coerce_arg is applied once per top-level argument | CommandModel | functional model of Command/Options; independent flatten/field specification; induction on nested arguments and on the history of calls | proved | `c03_coerce_arg_once_per_argument` (CommandProps.v) |
| C04 Partial application | CommandModel | functional model of Command/Options; independent flatten/field specification; induction on nested arguments and on the history of calls | proved | `c04_partial_application`, `c04_call_without_arguments`, `c04_never_empty` (CommandProps.v) |
| C05 Options are updated field by field | CommandModel | functional model of Command/Options; independent flatten/field specification; induction on nested arguments and on the history of calls | proved | `c05_options_follow_history`, `c05_defaults` (CommandProps.v) |
| C06 Environment updates are additive | CommandModel | association lists refine a lookup function; induction on the update history | proved | `c06_env_history` (CommandProps.v) |
| C07 Environment of the child | CommandModel | association lists refine a lookup function; induction on the update history | proved | `c07_child_environment` (CommandProps.v) |
| C08 Equal commands hash equally | CommandModel | association lists refine a lookup function; induction on the update history | partial | `c08_equal_hash_equal_refuted`, `c08_equal_hash_partial` (CommandProps.v) |
| C09 Pipelines are associative | PipelineModel | algebraic laws of `|`; induction over the stitching loop of _setup_pipeline; list specification | proved | `c09_pipeline_associative` (PipelineProps.v) |
| C10 Redirections bind to the ends of a pipeline | PipelineModel | algebraic laws of `|`; induction over the stitching loop of _setup_pipeline; list specification | proved | `c10_redirections_bind_to_ends`, `c10_result_and_writable`, `c10_output_operators`, `c10_input_operator`, `c10_grouping_output`, `c10_grouping_input` (PipelineProps.v) |
| C11 Invalid redirections are rejected when built | PipelineModel | algebraic laws of `|`; induction over the stitching loop of _setup_pipeline; list specification | proved | `c11_invalid_redirections` (PipelineProps.v) |
| C12 Pipes connect neighbouring commands | PipelineModel | algebraic laws of `|`; induction over the stitching loop of _setup_pipeline; list specification | proved | `c12_pipes_connect_neighbours`, `c12_pipe_creation_fails` (PipelineProps.v) |
| C13 Default redirections | RunOptionsModel | case analysis over every kind of redirection and flag against an independent routing table (RouteSpec) | proved | `c13_default_redirections`, `c13_explicit_never_replaced` (RouteProps.v) |
| C14 Destination of stdout | RunOptionsModel | case analysis over every kind of redirection and flag against an independent routing table (RouteSpec) | proved | `c14_stdout_destination`, `c14_delivered_once` (RouteProps.v) |
| C15 Ambiguous double capture is refused | RunOptionsModel | case analysis over every kind of redirection and flag against an independent routing table (RouteSpec) | proved | `c15_await_refuses_double_capture`, `c15_iterate_refuses_double_capture`, `c15_pipeline_iteration`, `c15_iterate_default_output` (RouteProps.v) |
| C16 Every accepted redirection launches | RunOptionsModel | case analysis over every kind of redirection and flag against an independent routing table (RouteSpec) | partial | `c16_accepted_redirections_launch_refuted`, `c16_no_assertion_partial`, `c16_supported_redirections_start`, `c16_accepted_input_fails_refuted` (RouteProps.v) |
| C17 Captured output is exact | CopyModel, Utf8Model | induction over chunk lists; the result is related to the concatenation of the whole input | proved | `c17_reads_exist`, `c17_bytes_exact`, `c17_streamwriter_exact` (CopyProps.v) |
| C18 error_limit keeps a prefix and keeps reading | CopyModel, Utf8Model | induction over chunk lists; the result is related to the concatenation of the whole input | proved | `c18_error_limit` (CopyProps.v) |
| C19 Text output does not depend on chunking | CopyModel, Utf8Model | induction over chunk lists; the result is related to the concatenation of the whole input | proved | `c19_text_independent_of_chunks`, `c19_interrupted_mid_character_refuted` (CopyProps.v) |
| C20 Line iteration loses nothing | CopyModel, Utf8Model | induction over chunk lists; the result is related to the concatenation of the whole input | partial | `c20_long_line_refuted`, `c20_lines_exact_partial`, `c20_lines_determined`, `c20_lines_before_long_line`, `c20_rstrip` (CopyProps.v) |
| C21 Standard input is delivered and ended | CopyModel, Utf8Model | induction over chunk lists; the result is related to the concatenation of the whole input | proved | `c21_input_delivered`, `c21_already_closed`, `c21_reader_delivered` (CopyProps.v) |
| C22 Exit status of a pipeline | ResultModel | induction over the result list; independent `first such that` specification | proved | `c22_pipeline_result`, `c22_key_unique`, `c22_status_zero` (ResultProps.v) |
| C23 Other errors in a pipeline win | ResultModel | induction over the result list; independent `first such that` specification | proved | `c23_first_other_exception`, `c23_result_means_no_exception`, `c23_cancelled_member` (ResultProps.v) |
| C24 When a result raises | ResultModel | induction over the result list; independent `first such that` specification | proved | `c24_check_table`, `c24_result_property` (ResultProps.v) |
| C25 Signals in exit status | ResultModel | induction over the result list; independent `first such that` specification | partial | `c25_realtime_signal_refuted`, `c25_exit_signal_partial` (ResultProps.v) |
| C26 Harvest leaves nothing running | HarvestModel on AsyncModel | every execution of the relational monad; invariants of the task table kept by every environment event | partial | `c26_two_cancels_refuted`, `c26_nothing_left_running_partial`, `c26_cancelled_twice_partial`, `c26_runtime_error`, `c26_results_partial`, `c26_wakes_up` (HarvestProps.v) |
| C27 Harvest raises the first exception seen | HarvestModel on AsyncModel | every execution of the relational monad; invariants of the task table kept by every environment event | partial | `c27_argument_order_refuted`, `c27_which_exception_partial`, `c27_single_failure` (HarvestProps.v) |
| C28 A failure cancels the siblings | HarvestModel on AsyncModel | every execution of the relational monad; invariants of the task table kept by every environment event | proved | `c28_siblings_are_cancelled`, `c28_no_needless_cancel`, `c28_reacts_at_once` (HarvestPromptProps.v, HarvestProps.v) |
| C29 Results are positional | HarvestModel on AsyncModel | every execution of the relational monad; invariants of the task table kept by every environment event | partial | `c29_reraised_refuted`, `c29_results_positional_partial` (HarvestProps.v) |
| C30 Timeouts | HarvestModel on AsyncModel | every execution of the relational monad; invariants of the task table kept by every environment event | proved | `c30_timeout_only_if_expired`, `c30_giving_up_raises_timeout`, `c30_reacts_at_once` (HarvestPromptProps.v, HarvestProps.v) |
| C31 Cancelling harvest | HarvestModel on AsyncModel | every execution of the relational monad; invariants of the task table kept by every environment event | partial | `c31_swallowed_refuted`, `c31_cancel_propagates_partial`, `c31_reacts_at_once` (HarvestPromptProps.v, HarvestProps.v) |
| C32 cancel_finish lets tasks finish | HarvestModel on AsyncModel | every execution of the relational monad; invariants of the task table kept by every environment event | proved | `c32_cancel_finish` (HarvestProps.v) |
| C33 Audit events bracket every run | RunnerModel on HarvestModel | invariants of process, timer, task table and event history over every execution, including cancellation at every await | proved | `c33_audit_brackets` (RunnerProps.v) |
| C34 No process is left running silently | RunnerModel on HarvestModel | invariants of process, timer, task table and event history over every execution, including cancellation at every await | proved | `c34_nothing_left_running` (RunnerProps.v) |
| C35 The process has exited when the run ends | RunnerModel on HarvestModel | invariants of process, timer, task table and event history over every execution, including cancellation at every await | partial | `c35_status_collected_partial`, `c35_cancelled_twice_refuted` (RunnerProps.v) |
| C36 A normal run sends no signals | RunnerModel on HarvestModel | invariants of process, timer, task table and event history over every execution, including cancellation at every await | proved | `c36_normal_run_no_signals`, `c36_no_signal_after_exit` (RunnerProps.v) |
| C37 Signal escalation | RunnerModel on HarvestModel | invariants of process, timer, task table and event history over every execution, including cancellation at every await | proved | `c37_signal_escalation` (RunnerProps.v) |
| C38 Timeout option | RunnerModel on HarvestModel | invariants of process, timer, task table and event history over every execution, including cancellation at every await | partial | `c38_timeout_partial`, `c38_cancel_partial`, `c38_success_was_not_interrupted`, `c38_timer_off`, `c38_failure_hides_timeout_refuted` (RunnerProps.v) |
| C39 Reported exit code | RunnerModel on HarvestModel | invariants of process, timer, task table and event history over every execution, including cancellation at every await | partial | `c39_exit_code_partial`, `c39_unsignalled`, `c39_stolen_status_refuted` (RunnerProps.v) |
| C40 Errors from the body | RunnerModel on HarvestModel | invariants of process, timer, task table and event history over every execution, including cancellation at every await | proved | `c40_body_error` (RunnerProps.v) |
| C41 result() before exit | RunnerModel on HarvestModel | invariants of process, timer, task table and event history over every execution, including cancellation at every await | proved | `c41_result_before_exit`, `c41_result_in_body`, `c41_before_start`, `c41_never_started` (ResultProps.v, RunnerProps.v) |
| C42 Descriptors with close=True are closed once | RunOptionsModel | open/close history of every descriptor against FdSpec; structural induction over the command (nested substitutions), every system call may fail | partial | `c42_refuted`, `c42_close_count`, `c42_own_descriptors`, `c42_client_objects`, `c42_pipeline_argument_leaks` (FdProps.v) |
| C43 A failed setup leaks no descriptors | RunOptionsModel | open/close history of every descriptor against FdSpec; structural induction over the command (nested substitutions), every system call may fail | partial | `c43_refuted`, `c43_pty_parent_leaks`, `c43_failed_launch_partial`, `c43_successful_launch_partial`, `c43_nothing_opened_partial` (FdProps.v) |
| C44 A pipeline closes its pipes | PipeRunnerModel, PipelineModel | counting closes over every execution of the pipeline | partial | `c44_closed_once_partial`, `c44_not_capturing_partial`, `c44_cancelled_entering`, `c44_refuted`, `c44_pipe_creation_fails` (PipeFdProps.v) |
| C45 Entering a captured pipeline terminates | PipeRunnerModel on HarvestModel | invariants over every execution; explicit schedules for the refutations | partial | `c45_refuted`, `c45_hangs`, `c45_failed_command_never_ready`, `c45_ready_partial` (PipeRunnerProps.v) |
| C46 expect() neither loses nor duplicates text | PromptModel, RegexModel, EncodingModel | ghost text `everything decoded so far`; invariant kept by readers, cancellation and timeouts; refinement to a whole-text search specification | partial | `c46_refuted`, `c46_nothing_lost_partial`, `c46_what_is_lost` (PromptProps.v) |
| C47 expect() of an exact string is chunk independent | PromptModel, RegexModel, EncodingModel | ghost text `everything decoded so far`; invariant kept by readers, cancellation and timeouts; refinement to a whole-text search specification | proved | `c47_exact_string`, `c47_chunk_independent`, `c47_eof` (PromptProps.v) |
| C48 expect() of several strings is chunk independent | PromptModel, RegexModel, EncodingModel | ghost text `everything decoded so far`; invariant kept by readers, cancellation and timeouts; refinement to a whole-text search specification | partial | `c48_refuted`, `c48_strings_partial` (PromptProps.v) |
| C49 Nothing is lost when expect() fails | PromptModel, RegexModel, EncodingModel | ghost text `everything decoded so far`; invariant kept by readers, cancellation and timeouts; refinement to a whole-text search specification | proved | `c49_kept`, `c49_eof_exact`, `c49_no_timeout`, `c49_timeout_applies` (PromptProps2.v, PromptProps3.v) |
| C50 read_all and command | PromptModel, RegexModel, EncodingModel | ghost text `everything decoded so far`; invariant kept by readers, cancellation and timeouts; refinement to a whole-text search specification | proved | `c50_read_all`, `c50_command`, `c50_command_eof`, `c50_text_of_the_output`, `c50_text_written`, `c50_text_replaced` (PromptProps2.v, PromptProps3.v) |
| C51 Incremental decoding | Utf8Model | relational UTF-8 specification (Utf8Spec); induction over the input with an arbitrary decoder state | proved | `c51_decode_inverts_encode`, `c51_chunks_do_not_matter`, `c51_nothing_held_back` (Utf8Props.v) |
| C52 Newline normalisation | Utf8Model | relational UTF-8 specification (Utf8Spec); induction over the input with an arbitrary decoder state | proved | `c52_newlines_normalised`, `c52_normalised_unique` (Utf8Props.v) |
| C53 send() reports a broken pipe | PromptModel, RegexModel, EncodingModel | ghost text `everything decoded so far`; invariant kept by readers, cancellation and timeouts; refinement to a whole-text search specification | partial | `c53_refuted`, `c53_broken_pipe_partial` (PromptProps2.v) |
| C54 Passwords are not echoed or logged | PromptModel, RegexModel, EncodingModel | ghost text `everything decoded so far`; invariant kept by readers, cancellation and timeouts; refinement to a whole-text search specification | proved | `c54_no_echo`, `c54_log`, `c54_echo_off` (PromptProps2.v, PromptProps3.v) |
| C55 Nested contexts pair up | ContextModel | invariant of the per-context stacks over every interleaving of enters and exits | proved | `c55_exit_matches`, `c55_nothing_left` (ContextProps.v) |
| C56 A launch completes although cancelled | AsyncModel (uninterrupted) | every execution of the relational monad | partial | `c56_launch_completes_partial`, `c56_launch_ended_partial`, `c56_full_claim_refuted` (UninterruptedProps.v) |
| C57 close_fds closes everything once | FdModel, RunOptionsModel | induction over the list of open descriptors with failing closes | partial | `c57_refuted`, `c57_partial`, `c57_stops_at_first_raise`, `c57_child_closed_once` (CloseProps.v) |
| C58 Child exit callback at most once | EPollModel, ThreadWatchModel, KQueueModel, IgnoreModel, BsdWaitModel | interleaving transition systems, inductive invariants, progress measure for termination; explicit runs for the refutations | proved | `c58_at_most_once`, `c58_thread_at_most_once`, `c58_kqueue_at_most_once` (EPollProps.v, KQueueProps.v, ThreadWatchProps.v) |
| C59 Watcher never closes a descriptor twice | EPollModel, ThreadWatchModel, KQueueModel, IgnoreModel, BsdWaitModel | interleaving transition systems, inductive invariants, progress measure for termination; explicit runs for the refutations | proved | `c59_closes_at_most_once` (EPollProps.v) |
| C60 A recycled pid can be watched again (epoll) | EPollModel, ThreadWatchModel, KQueueModel, IgnoreModel, BsdWaitModel | interleaving transition systems, inductive invariants, progress measure for termination; explicit runs for the refutations | proved | `c60_epoll_no_collision` (ThreadWatchProps.v) |
| C61 One strategy per watcher | DefaultWatchModel | interleaving transition system; lock invariant, quadratic measure for termination | proved | `c61_one_strategy`, `c61_bounded`, `c61_nothing_lost`, `c61_no_deadlock` (DefaultWatchProps.v) |
| C62 Terminal echo setter | PtyModel | bit-level lemmas on Z; induction over close sequences | proved | `c62_get`, `c62_set`, `c62_prompt`, `c62_idempotent`, `c62_concurrent_refuted` (PtyProps.v) |
| C63 Pty child descriptor closed once | PtyModel | bit-level lemmas on Z; induction over close sequences | proved | `c63_child_closed_once`, `c63_no_other`, `c63_parent_refuted` (PtyProps.v) |
| C64 Detailed logging changes nothing | LogModel | coinductive-style machines; wrapper and body answer every input list alike | partial | `c64_coroutine_partial`, `c64_coroutine_refuted`, `c64_iteration`, `c64_passive_generator`, `c64_read_lines`, `c64_generator_refuted`, `c64_thread` (LogProps.v) |
| C65 Display name | CommandModel | functional model of Command/Options; independent flatten/field specification; induction on nested arguments and on the history of calls | proved | `c65_name` (CommandProps.v) |
| C66 Source of stdin | RunOptionsModel | case analysis over every kind of redirection and flag against an independent routing table (RouteSpec) | proved | `c66_stdin_source` (RouteProps.v) |
| C67 Replace and append | CopyModel, Utf8Model | induction over chunk lists; the result is related to the concatenation of the whole input | proved | `c67_replace_and_append`, `c67_sinks_positioned` (CopyProps.v, PositionProps.v) |
| C68 exit_codes of pipeline members | ResultModel | induction over the result list; independent `first such that` specification | partial | `c68_member_exit_codes_refuted`, `c68_last_exit_codes_partial` (ResultProps.v) |
| C69 No command outlives its pipeline | PipeRunnerModel on HarvestModel | invariants over every execution; explicit schedules for the refutations | partial | `c69_refuted`, `c69_exit_partial`, `c69_enter_partial`, `c69_no_orphans_partial` (PipeRunnerProps.v) |
| C70 A failed pipeline setup is reported | PipeRunnerModel on HarvestModel | invariants over every execution; explicit schedules for the refutations | partial | `c70_refuted`, `c70_masked_partial` (PipeRunnerProps.v) |
| C71 The outcome of await pipeline is determined by its commands | PipeRunnerModel on HarvestModel | invariants over every execution; explicit schedules for the refutations | partial | `c71_refuted`, `c71_value_partial`, `c71_undisturbed_partial` (PipeRunnerProps.v) |
| C72 Cancelling await pipeline | PipeRunnerModel on HarvestModel | invariants over every execution; explicit schedules for the refutations | partial | `c72_refuted`, `c72_swallowed`, `c72_cancelled_partial`, `c72_cancelled_during_launch`, `c72_member_not_cancelled` (EarlyCancelProps.v, PipeRunnerProps.v) |
| C73 Closing the epoll watcher comes to an end | EPollModel, ThreadWatchModel, KQueueModel, IgnoreModel, BsdWaitModel | interleaving transition systems, inductive invariants, progress measure for termination; explicit runs for the refutations | proved | `c73_close_returns` (EPollProps.v) |
| C74 A failed watch kills only the child it was for | EPollModel, ThreadWatchModel, KQueueModel, IgnoreModel, BsdWaitModel | interleaving transition systems, inductive invariants, progress measure for termination; explicit runs for the refutations | proved | `c74_kills_only_the_watched_child` (EPollProps.v) |
| C75 Closing a watcher that is in use | DefaultWatchModel | interleaving transition system; lock invariant, quadratic measure for termination | partial | `c75_no_overlap`, `c75_refuted`, `c75_watch_refuted` (DefaultWatchProps.v) |
| C76 Terminal adapters | PtyModel | bit-level lemmas on Z; induction over close sequences | proved | `c76_raw`, `c76_cbreak`, `c76_cooked`, `c76_bad_size` (PtyProps.v) |
| C77 Iterating over a command delivers its lines in order | IterModel on RunnerModel and CopyModel, any encoding | every execution: the body of the `async with` block is replaced by the reading loop (induction over it); Runner invariants for the rest | proved | `c77_lines_in_order`, `c77_no_stream` (IterProps.v) |
| C78 Cancelling an iteration | IterModel on RunnerModel and CopyModel, any encoding | every execution: the body of the `async with` block is replaced by the reading loop (induction over it); Runner invariants for the rest | partial | `c78_swallowed`, `c78_refuted` (IterProps.v) |
| C79 An iteration leaves no process behind | IterModel on RunnerModel and CopyModel, any encoding | every execution: the body of the `async with` block is replaced by the reading loop (induction over it); Runner invariants for the rest | proved | `c79_process_ended` (IterProps.v) |
| C80 Iteration ignores the exit status | IterModel on RunnerModel and CopyModel, any encoding | every execution: the body of the `async with` block is replaced by the reading loop (induction over it); Runner invariants for the rest | proved | `c80_exit_status_ignored`, `c80_refuted` (IterProps.v) |
| C81 cli.result after a prompt session | IterModel on RunnerModel and CopyModel, any encoding | every execution: the body of the `async with` block is replaced by the reading loop (induction over it); Runner invariants for the rest | partial | `c81_result`, `c81_available_partial`, `c81_refuted` (PromptRunProps.v) |
| C82 Errors and cancellation in a prompt block | IterModel on RunnerModel and CopyModel, any encoding | every execution: the body of the `async with` block is replaced by the reading loop (induction over it); Runner invariants for the rest | partial | `c82_outcome_partial`, `c82_swallowed`, `c82_refuted` (PromptRunProps.v) |
| C83 `await cmd` returns everything the child wrote | AwaitModel on RunOptionsModel, RunnerModel, CopyModel, ResultModel | composition: every task of a run that succeeds has ended with a value, so every copy has reached the end of its stream | proved | `c83_sinks_complete`, `c83_value`, `c83_any_cancellation_refuted` (AwaitProps.v) |
| C84 Iterating over a pipeline delivers its lines in order | PipeIterModel on PipeRunnerModel and CopyModel, any encoding | every execution: the reading loop or prompt body as environment of the pipeline (induction over it); PipeRunner invariants and the result specification for the rest | proved | `c84_lines_in_order`, `c84_no_stream` (PipeIterProps.v) |
| C85 Iteration ignores failing commands of a pipeline | PipeIterModel on PipeRunnerModel and CopyModel, any encoding | every execution: the reading loop or prompt body as environment of the pipeline (induction over it); PipeRunner invariants and the result specification for the rest | proved | `c85_failures_ignored`, `c85_refuted` (PipeIterProps.v) |
| C86 Leaving an iteration over a pipeline stops its commands | PipeIterModel on PipeRunnerModel and CopyModel, any encoding | every execution: the reading loop or prompt body as environment of the pipeline (induction over it); PipeRunner invariants and the result specification for the rest | proved | `c86_stopped` (PipeIterProps.v) |
| C87 Errors and cancellation while iterating over a pipeline | PipeIterModel on PipeRunnerModel and CopyModel, any encoding | every execution: the reading loop or prompt body as environment of the pipeline (induction over it); PipeRunner invariants and the result specification for the rest | partial | `c87_errors_partial`, `c87_swallowed`, `c87_refuted` (PipeIterProps.v) |
| C88 cli.result of a pipeline prompt | PipeIterModel on PipeRunnerModel and CopyModel, any encoding | every execution: the reading loop or prompt body as environment of the pipeline (induction over it); PipeRunner invariants and the result specification for the rest | proved | `c88_result`, `c88_command_failed`, `c88_gave_up` (PipePromptProps.v) |
| C89 Errors and cancellation in a pipeline prompt block | PipeIterModel on PipeRunnerModel and CopyModel, any encoding | every execution: the reading loop or prompt body as environment of the pipeline (induction over it); PipeRunner invariants and the result specification for the rest | partial | `c89_outcome_partial`, `c89_replaced_refuted`, `c89_cancelled_swallowed` (PipePromptProps.v) |
| C90 What a prompt session writes | PromptModel, RegexModel, EncodingModel | ghost text `everything decoded so far`; invariant kept by readers, cancellation and timeouts; refinement to a whole-text search specification | proved | `c90_writes`, `c90_unencodable`, `c90_child_reads` (PromptWriteProps.v) |
| C91 Destination of stderr | RunOptionsModel | case analysis over every kind of redirection and flag against an independent routing table (RouteSpec) | partial | `c91_destination_refuted`, `c91_same_std_refuted`, `c91_stderr_destination_partial` (RouteProps.v) |
| C92 Iterating over stderr only | RunOptionsModel | case analysis over every kind of redirection and flag against an independent routing table (RouteSpec) | partial | `c92_iterate_stderr_only_partial`, `c92_iterate_stderr_only_pty_refuted` (RouteProps.v) |
| C93 Standard input on a pty is ended | CopyModel, Utf8Model | induction over chunk lists; the result is related to the concatenation of the whole input | partial | `c93_pty_eof_partial`, `c93_pty_empty_input_refuted` (CopyProps.v) |
| C101 Nothing is lost when expect() is cancelled | PromptModel, RegexModel, EncodingModel | ghost text `everything decoded so far`; invariant kept by readers, cancellation and timeouts; refinement to a whole-text search specification | partial | `c101_refuted`, `c101_failures_partial` (PromptProps2.v) |
| C94 Child exit callback is not lost (epoll, threads) | EPollModel, ThreadWatchModel, KQueueModel, IgnoreModel, BsdWaitModel | interleaving transition systems, inductive invariants, progress measure for termination; explicit runs for the refutations | partial | `c94_exactly_once_while_open`, `c94_exactly_once_after_close_partial`, `c94_refuted`, `c94_thread_exactly_once`, `c94_thread_terminates` (EPollExamples.v, EPollProps.v, ThreadWatchProps.v) |
| C95 Watcher releases its descriptors | EPollModel, ThreadWatchModel, KQueueModel, IgnoreModel, BsdWaitModel | interleaving transition systems, inductive invariants, progress measure for termination; explicit runs for the refutations | partial | `c95_closed_exactly_once_partial`, `c95_refuted`, `c95_raising_callback_refuted` (EPollExamples.v, EPollProps.v) |
| C100 A recycled pid can be watched again (threads) | EPollModel, ThreadWatchModel, KQueueModel, IgnoreModel, BsdWaitModel | interleaving transition systems, inductive invariants, progress measure for termination; explicit runs for the refutations | partial | `c100_thread_partial`, `c100_refuted`, `c100_raising_callback_refuted` (ThreadWatchProps.v) |
| C96 Closing the epoll watcher touches only its own pipe | EPollModel, ThreadWatchModel, KQueueModel, IgnoreModel, BsdWaitModel | interleaving transition systems, inductive invariants, progress measure for termination; explicit runs for the refutations | partial | `c96_writes_own_pipe`, `c96_raising_callback_refuted` (EPollExamples.v, EPollProps.v) |
| C97 Iterating over a command is complete | IterModel on RunnerModel and CopyModel, any encoding | every execution: the body of the `async with` block is replaced by the reading loop (induction over it); Runner invariants for the rest | partial | `c97_complete_partial`, `c97_text_partial`, `c97_refuted` (IterEncProps.v, IterProps.v) |
| C98 Iterating over a pipeline is complete | PipeIterModel on PipeRunnerModel and CopyModel, any encoding | every execution: the reading loop or prompt body as environment of the pipeline (induction over it); PipeRunner invariants and the result specification for the rest | partial | `c98_complete_partial`, `c98_text_partial`, `c98_refuted` (IterEncProps.v, PipeIterProps.v) |
| C99 An iteration over a pipeline leaves no command running | PipeIterModel on PipeRunnerModel and CopyModel, any encoding | every execution: the reading loop or prompt body as environment of the pipeline (induction over it); PipeRunner invariants and the result specification for the rest | partial | `c99_no_orphans_partial`, `c99_refuted` (PipeIterProps.v) |
| C102 Child exit callback is not lost (kqueue) | EPollModel, ThreadWatchModel, KQueueModel, IgnoreModel, BsdWaitModel | interleaving transition systems, inductive invariants, progress measure for termination; explicit runs for the refutations | partial | `c102_exactly_once_while_open_partial`, `c102_exactly_once_after_close_partial`, `c102_slow_exit_refuted`, `c102_raising_callback_refuted`, `c102_unordered_refuted` (KQueueProps.v) |
| C103 Closing the kqueue watcher comes to an end | EPollModel, ThreadWatchModel, KQueueModel, IgnoreModel, BsdWaitModel | interleaving transition systems, inductive invariants, progress measure for termination; explicit runs for the refutations | proved | `c103_close_returns` (KQueueProps.v) |
| C104 The kqueue descriptor is closed once | EPollModel, ThreadWatchModel, KQueueModel, IgnoreModel, BsdWaitModel | interleaving transition systems, inductive invariants, progress measure for termination; explicit runs for the refutations | proved | `c104_kqueue_closed_once` (KQueueProps.v) |
| C105 A recycled pid can be watched again (kqueue) | EPollModel, ThreadWatchModel, KQueueModel, IgnoreModel, BsdWaitModel | interleaving transition systems, inductive invariants, progress measure for termination; explicit runs for the refutations | partial | `c105_recycled_pid_partial`, `c105_refuted` (KQueueProps.v) |
| C106 A pipeline that succeeds is complete | PipeAwaitModel on PipelineModel, PipeRunnerModel, AwaitModel | composition of the pipeline tasks with one complete run of a command per task: who was cancelled, who timed out, which result is the key result | partial | `c106_complete_partial`, `c106_refuted` (PipeAwaitProps.v) |
| C107 The timeout of a pipeline is reported | PipeAwaitModel on PipelineModel, PipeRunnerModel, AwaitModel | composition of the pipeline tasks with one complete run of a command per task: who was cancelled, who timed out, which result is the key result | partial | `c107_nobody_finished_partial`, `c107_refuted` (PipeAwaitProps.v) |
| C108 The pty descriptor is closed exactly once | PtyStreamModel | transition system of event loop, both transports, program and terminal; inductive invariants over every run; explicit runs for the refutations | proved | `c108_at_most_once`, `c108_not_early`, `c108_closed` (PtyStreamProps.v) |
| C109 The loop never watches a recycled pty descriptor | PtyStreamModel | transition system of event loop, both transports, program and terminal; inductive invariants over every run; explicit runs for the refutations | partial | `c109_closed_number_partial`, `c109_refuted` (PtyStreamProps.v) |
| C110 Output of a pty is read in order | PtyStreamModel | transition system of event loop, both transports, program and terminal; inductive invariants over every run; explicit runs for the refutations | partial | `c110_output_in_order_partial`, `c110_refuted` (PtyStreamProps.v) |
| C111 All output of a pty and its end is seen | PtyStreamModel | transition system of event loop, both transports, program and terminal; inductive invariants over every run; explicit runs for the refutations | partial | `c111_all_output_partial`, `c111_end_is_the_end_partial`, `c111_no_error_partial`, `c111_refuted`, `c111_waits_forever_refuted` (PtyStreamProps.v) |
| C112 Input of a pty arrives complete and in order | PtyStreamModel | transition system of event loop, both transports, program and terminal; inductive invariants over every run; explicit runs for the refutations | proved | `c112_input_in_order`, `c112_all_input` (PtyStreamProps.v) |
| C113 No deadlock | FlowModel | transition system of the write and copy tasks, asyncio's pipe transports, bounded pipes and arbitrary processes; inductive invariants; a decreasing measure for termination; induction along the pipeline for absence of deadlock | proved | `c113_no_deadlock`, `c113_never_waits_for_shellous` (FlowProps.v) |
| C114 The event loop comes to rest | FlowModel | transition system of the write and copy tasks, asyncio's pipe transports, bounded pipes and arbitrary processes; inductive invariants; a decreasing measure for termination; induction along the pipeline for absence of deadlock | proved | `c114_comes_to_rest` (FlowProps.v) |
| C115 The first process reads exactly the input | FlowModel | transition system of the write and copy tasks, asyncio's pipe transports, bounded pipes and arbitrary processes; inductive invariants; a decreasing measure for termination; induction along the pipeline for absence of deadlock | proved | `c115_input_exact`, `c115_between_processes`, `c115_end_comes` (FlowProps.v) |
| C116 Output is collected completely | FlowModel | transition system of the write and copy tasks, asyncio's pipe transports, bounded pipes and arbitrary processes; inductive invariants; a decreasing measure for termination; induction along the pipeline for absence of deadlock | proved | `c116_never_wrong`, `c116_done_is_all`, `c116_all_exited` (FlowProps.v) |
| C117 Nothing a run started outlives it | RunnerModel on HarvestModel | invariants of process, timer, task table and event history over every execution, including cancellation at every await | partial | `c117_asked_partial`, `c117_ended_partial`, `c117_quiet_partial`, `c117_returns_partial`, `c117_refuted` (TasksProps.v) |
| C118 Process substitution connects the right ends | RunOptionsModel, SubstAwaitModel on AwaitModel | induction over the argument list against a relational specification (SubstSpec); induction over the tree of runs | proved | `c118_substitution` (SubstProps.v) |
| C119 Success includes the substituted commands | RunOptionsModel, SubstAwaitModel on AwaitModel | induction over the argument list against a relational specification (SubstSpec); induction over the tree of runs | proved | `c119_success`, `c119_failure_reported` (SubstAwaitProps.v) |
| C120 Substituted commands do not outlive the command | RunOptionsModel, SubstAwaitModel on AwaitModel | induction over the argument list against a relational specification (SubstSpec); induction over the tree of runs | partial | `c120_processes`, `c120_asked_partial`, `c120_ended_partial`, `c120_refuted` (SubstAwaitProps.v) |
| C121 Configuring a context configures its commands | CmdContextModel on CommandModel | induction over the chain of calls; induction over the search path against a first-match specification (CmdContextSpec) | proved | `c121_same_errors`, `c121_context_history`, `c121_configure_then_call`, `c121_result` (CmdContextProps.v) |
| C122 The program that runs is the one find_command reports | CmdContextModel on CommandModel | induction over the chain of calls; induction over the search path against a first-match specification (CmdContextSpec) | partial | `c122_find_command`, `c122_program_partial`, `c122_empty_entry`, `c122_with_directory`, `c122_not_found`, `c122_enter`, `c122_refuted` (CmdContextProps.v) |
| C123 Chunks never change decoded text | EncodingModel, CopyModel | induction over the data with an arbitrary decoder state; relational specification of well-formed and ill-formed sequences (EncodingSpec), Unicode maximal subparts | proved | `c123_chunks_do_not_matter`, `c123_text_arrives`, `c123_default_errors` (EncodingProps.v) |
| C124 Error handlers keep every valid character | EncodingModel, CopyModel | induction over the data with an arbitrary decoder state; relational specification of well-formed and ill-formed sequences (EncodingSpec), Unicode maximal subparts | proved | `c124_handlers`, `c124_surrogateescape_roundtrip`, `c124_valid_data`, `c124_encoding_handlers` (EncodingProps.v) |
| C125 Lines are the lines of the whole text | EncodingModel, CopyModel | induction over the data with an arbitrary decoder state; relational specification of well-formed and ill-formed sequences (EncodingSpec), Unicode maximal subparts | partial | `c125_lines_partial`, `c125_full_claim_refuted` (EncodingProps.v) |
| C126 The error text can always be read | EncodingModel, CopyModel | induction over the data with an arbitrary decoder state; relational specification of well-formed and ill-formed sequences (EncodingSpec), Unicode maximal subparts | partial | `c126_error_text_partial`, `c126_full_claim_refuted` (EncodingProps.v) |
| C127 A child whose watching failed is still reaped | EPollModel, ThreadWatchModel, KQueueModel, IgnoreModel, BsdWaitModel | interleaving transition systems, inductive invariants, progress measure for termination; explicit runs for the refutations | proved | `c127_failed_watch` (EPollProps2.v) |
| C128 pass_fds takes any iterable | PassFdsModel, RunOptionsModel | a heap of iterators, induction over the history of runs; agreement with RunOptionsModel on containers | partial | `c128_iterator_not_closed_refuted`, `c128_iterator_once`, `c128_iterator_closes`, `c128_container_partial`, `c128_iterator_partial`, `c128_closed_once_refuted`, `c128_closed_once_partial`, `c128_same_as_run_options` (PassFdsProps.v) |
| C129 Every child is waited for by exactly one party | EPollModel, ThreadWatchModel, KQueueModel, IgnoreModel, BsdWaitModel | interleaving transition systems, inductive invariants, progress measure for termination; explicit runs for the refutations | partial | `c129_exactly_one_partial`, `c129_others_watched`, `c129_flag_confined`, `c129_two_threads_refuted` (IgnoreProps.v) |
| C130 The exit status of a BSD pty is polled correctly | EPollModel, ThreadWatchModel, KQueueModel, IgnoreModel, BsdWaitModel | interleaving transition systems, inductive invariants, progress measure for termination; explicit runs for the refutations | partial | `c130_signal_steals_refuted`, `c130_255_refuted`, `c130_status_partial`, `c130_not_before_exit`, `c130_never_changes`, `c130_polling_ends`, `c130_signals_sent`, `c130_loop_ends`, `c130_signals_reach_the_child`, `c130_lost_status` (BsdWaitProps.v) |
| C131 An audit callback that raises | AuditModel on RunnerModel | inclusion of runs between the two models, call by call; properties kept by every step of program and environment; explicit run for the refutation | partial | `c131_nothing_left_refuted`, `c131_nothing_left_partial`, `c131_entered_nothing_left`, `c131_brackets`, `c131_returning_callback`, `c131_same_events`, `c131_start_raises`, `c131_stop_raises` (AuditProps.v) |
| C132 Runs on a BSD pty | BsdRunModel on RunnerModel | each poll of the main task is two steps of the environment, so every property kept by the environment is kept by the loop (induction on the number of polls); a failing start is one of RunnerModel; the rest as for C33-C41 | proved | `c132_audit_brackets`, `c132_nothing_left_running`, `c132_status_collected`, `c132_normal_run`, `c132_no_signal_after_exit`, `c132_signal_escalation`, `c132_exit_code`, `c132_timeout`, `c132_cancel`, `c132_success_was_not_interrupted`, `c132_timer_off`, `c132_body_error`, `c132_poll_sees_exit`, `c132_poll_waits` (BsdRunProps.v) |
| C133 `async for line in cmd` gives the lines the child writes to its standard output | IterCommandModel on RunOptionsModel, IterModel, AwaitModel | composition: the preflight and the routing give the stream; C77 and C97 give the lines; every copying task of a loop that ends normally has ended with a value | proved | `c133_lines`, `c133_complete` (IterCommandProps.v) |
| C134 `async for line in pipeline` gives the lines the last command writes to its standard output | PipeIterCommandModel on RunOptionsModel, PipelineModel, PipeIterModel | composition: the preflight, the pipes and the routing of the last command give the stream; C98 gives the lines | proved | `c134_lines`, `c134_complete` (PipeIterCommandProps.v) |
| C135 A prompt session talks to the child's standard streams | PromptCommandModel on RunOptionsModel and PromptModel | composition: the routing theorems give the two streams; C46, C50 and C90 give the dialogue | proved | `c135_accepted`, `c135_streams`, `c135_reads`, `c135_writes` (PromptCommandProps.v) |
| C136 A pipeline's prompt session talks to its two ends | PipePromptCommandModel on PipelineModel, RunOptionsModel and PromptModel | composition: C12 and the routing theorems give the streams of the two ends; C46, C50 and C90 give the dialogue | proved | `c136_streams`, `c136_reads`, `c136_writes` (PipePromptCommandProps.v) |
| C137 A pipeline is the sequence of its commands | PipelineSeqModel on PipelineModel | induction on the expression that built the pipeline | proved | `c137_elements`, `c137_rebuilt`, `c137_name` (PipelineSeqProps.v) |

137 properties: 78 proved, 59 partial (for a partial one the MANIFEST note says what is missing or false of the code).

## Trusted base

* Coq 8.16.1's kernel. `Print Assumptions` answers "Closed under the global context" for every property
  theorem (it is printed after each one while building). No axioms, no `Admitted`, no functors or module
  types of our own, no kernel check switched off. Libraries: only Coq's
  standard library. (Checkers that list the whole loaded context mention the fields of a module type in
  `Coq.ssr.ssrunder`, which no theorem here uses.)
* The hand translation of the Python text into the `*Model.v` files: nothing checks it mechanically. Each
  definition cites its lines so that it can be compared.
* Assumptions about what shellous calls, stated in the header of each model:
  * asyncio of CPython 3.12 (`wait`, `Task.cancel`, `sleep`, `shield`, `wait_for`, awaiting a task,
    `StreamReader.read/readline/readuntil`, `StreamWriter`), reduced to the interface in AsyncModel/CopyModel;
  * UTF-8 codec, `IncrementalNewlineDecoder`, the literal/alternation fragment of `re` (Utf8Model, RegexModel);
  * Linux and BSD: descriptors, pidfd + epoll + waitpid, kevent, tcgetattr/tcsetattr/TIOCSWINSZ, signals and wait statuses;
  * the GIL: one dictionary operation or system call is atomic.

## What is modelled

| file | modelled | not modelled |
|---|---|---|
| command.py | Options, CmdContext calls, program lookup, Command construction, `coerce`, operators, `name`, `__call__`, env, `__aenter__/__aexit__` stacks, `__aiter__`, `prompt()` | docstrings, `__repr__` details |
| pipeline.py | construction, operators, result options, context stacks, `__aiter__`, `prompt()` | `__repr__` |
| util.py | EnvironmentDict, encode/decode, close_fds, wait_pid, poll_wait_pid, uninterrupted, context stacks | `verify_dev_fd`, platform probes |
| redirect.py | Redirect, copying coroutines (one task at a time: CopyModel; with transports, pipes and processes: FlowModel), aiter_preflight | in FlowModel: children that keep pipes open, cancelled tasks, StreamWriter and Logger sinks |
| runner.py | _RunOptions, Runner, PipeRunner, helpers | Windows |
| result.py | Result, make_result, check, exit_signal | |
| harvest.py | all | `trustee` (diagnostics only), GeneratorExit branch |
| prompt.py | Prompt: send, expect, read_all, command, echo, decoding, logging of passwords | codecs other than those of EncodingModel (utf-8, latin-1, ascii, utf-16-le; a codec with a byte order mark writes one per send()); regular expressions beyond what `_regex_compile_exact` makes (given as an abstract matcher) |
| watcher.py | DefaultChildWatcher, EPollStrategy, KQueueStrategy, ThreadStrategy, _poll_dead_pid, _invoke_callback | |
| pty_util.py | set_ignore_child_watcher, _patch_child_watcher, ChildFd, PtyFds, terminal adapters, echo, sizes, the stream pair with asyncio's transports | opening the streams, drain, stream protocol classes for BSD |
| log.py | log_method, log_thread | log_timer, formatting |

Simplifications common to several models: values of clocks (a timer that is armed may fire at any time);
GeneratorExit and KeyboardInterrupt are not thrown into coroutines; audit callbacks do not raise, except in AuditModel (one command; there, not from
the user's own send_signal); logger
calls have no effect; `ext = false` in a Runner theorem means that nobody outside shellous cancels the
runner's own helper tasks; `asyncio.gather` of two bare futures is `asyncio.wait` on both; the command tasks
of a pipeline have started before they are cancelled (descriptor counting); a broken stdin stays broken; each
child is watched once and reaped only by its watcher.

## Where the code does not do what the documentation suggests

Each item is a theorem about the model (`…_refuted` or a proved exact description); file and lines are in the
statement's comments.

* Environment/hash: equal commands may hash differently (C08).
* Routing: with a pty, stderr goes to the terminal when stdout is not read (C91); iterating stderr only with
  a pty reads the pty (C92); pty + stdout=DEVNULL + stderr=STDOUT fails an assertion after the launch (C16).
* Copying: a cancelled copy in the middle of a character loses the text (C19); a line longer than 64 KiB
  raises ValueError (C20); empty stdin on a pty sends the EOF character twice (C93).
* Results: `exit_signal` raises for unnamed real-time signals (C25); a pipeline's key status is checked
  against the last command's exit_codes (C68).
* harvest: two cancellations leave siblings running (C26); argument order, not time, selects the exception
  (C27); RuntimeError/AssertionError are re-raised instead of returned (C29); a cancellation during sibling
  clean-up is swallowed (C31).
* Runner: a cancellation after SIGKILL ends the run before the status is known (C35); a copy failure hides a
  timeout (C38); Popen.send_signal may steal the status (C39).
  Three cancellations during the cleanup leave a copying task behind, and the run returns normally (C117).
  It can also leave a substituted command running (C120).  A body exception is dropped when the task is cancelled during
  the cleanup; a CancelledError or a failing wait_closed in `_close` replaces the RuntimeError of the cleanup.
* pass_fds given as an iterator is used up by its first use: pass_fds_close closes nothing (C128). Two threads that
  launch their first BSD ptys at once both wait for a child (C129). A signal to a pty child that has just ended loses
  its status on BSD (C130).
* Descriptors: nested substitution pipes leak when the executable is missing, the pty parent leaks after a
  failed launch, file objects with close=True are closed only on failure (C42, C43); one raising close drops
  the rest (C57); pipe ends are closed twice when `async with pipeline` is cancelled while entering (C44).
* PipeRunner: hang when the first or last command fails to launch while capturing (C45); OSError of os.pipe
  masked by ValueError (C70); RuntimeError jumps the order (C71); cancellation swallowed (C72); orphans after
  two cancellations (C69).
* Prompt: matched text lost on cancellation after a background match (C46, C101); alternatives depend on
  chunking when one contains another (C48); BrokenPipeError hidden while a reader is active (C53).
* Iteration and prompt(): a cancellation is swallowed, the block or loop just ends (C97, C78, C82); the exit
  status is never checked when iterating (C80); when no status was collected, TypeError replaces any other
  exception of a prompt block (C81).
* Pipeline iteration and prompt(): failing or missing commands are ignored by the loop (C85); a cancellation is
  swallowed (C98, C87, C89); a failed command's exception, or AssertionError when shellous gave up, replaces the
  exception of a prompt body (C88, C89).
* await: if other code cancels the task that copies stdout, the call succeeds with truncated output (C83).
* await pipeline: `(a | b).set(timeout=...)` succeeds with truncated output when `b` is killed by its timeout after `a`
  has finished (C106, C107); otherwise a timeout of a pipeline is a ResultError, not the TimeoutError of README 449.
* Lookup: a program found through an empty entry of the `path` option is looked up again in the child's PATH, so another
  file than find_command reports may run (C122).
* uninterrupted: the second cancel cancels the launch (C56).
* Watchers: a callback that raises kills the watching thread (C94, C95, C96, C102); a watch overlapping close()
  leaks its pidfd (C95) or finds no strategy (C75); ThreadStrategy refuses a recycled pid (C100); the kqueue watcher
  forgets a child that is slow to become waitable (C102) and keeps the entry of a failed watch (C105).
* pty/log: the echo setter is a racy read-modify-write (C62); `PtyFds.close` twice closes the parent number
  twice (C63); a raising `repr` replaces the outcome, and decorated async generators do not forward
  athrow/aclose (C64).
* pty streams: both transports share one descriptor; a write refused with EIO (the process has exited) closes it under
  the reader: unread output is lost and the reader waits for ever (C111), or reads a recycled number (C109, C110).
* Encodings: `result.error` raises UnicodeDecodeError if error_limit falls inside a character and the handler is
  strict, the default (C126); lines of utf-16 output are cut inside a code unit (C125).

## Testing the theorems

`seeded/LOG.jsonl` records edits of the model that imitate realistic bugs, the theorems that then fail, and
what was tightened when none did.
