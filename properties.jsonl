{"id": "C01", "title": "Argument flattening", "statement": "`sh(*args)` and `cmd(*args)` keep every argument in left-to-right order: lists, tuples, reversed, enumerate and zip objects are flattened at every depth and contribute exactly their leaves; str, bytes, path-like, Command and Pipeline leaves are kept as they are; bytearray/memoryview become bytes; StringIO/BytesIO contribute their contents; any other value contributes str(value).", "quantifier": "every finite argument list of any nesting depth", "why_tests_cant": "Nesting depth and length are unbounded; tests check a few literals.", "anchors": ["shellous/command.py:coerce", "shellous/command.py:CmdContext.__call__", "shellous/command.py:Command.__call__"]}
{"id": "C02", "title": "Unsupported arguments are rejected", "statement": "Building a command raises TypeError exactly when some leaf of the flattened arguments is a mapping, set, generator, range, None or Ellipsis, and the type named in the error is that of the first such leaf; otherwise no error is raised.", "quantifier": "every finite argument list of any nesting depth", "why_tests_cant": "The input space is unbounded; a test only samples a few shapes.", "anchors": ["shellous/command.py:coerce"]}
{"id": "C03", "title": "coerce_arg is applied once per top-level argument", "statement": "A configured coerce_arg function is called on each top-level argument exactly once, in order, and never on the elements of a flattened sequence; calling it first by hand and then building the command without it gives the same command.", "quantifier": "every coerce_arg function, every argument list", "why_tests_cant": "The input space is unbounded; a test only samples a few shapes.", "anchors": ["shellous/command.py:coerce"]}
{"id": "C04", "title": "Partial application", "statement": "`sh(*a)(*b)` equals `sh(*a, *b)` whenever either is defined, `cmd()` is cmd, and no Command with an empty argument list can ever be built.", "quantifier": "every argument lists a, b and every context options", "why_tests_cant": "The input space is unbounded; a test only samples a few shapes.", "anchors": ["shellous/command.py:Command.__call__", "shellous/command.py:Command.__post_init__"]}
{"id": "C05", "title": "Options are updated field by field", "statement": "`set(...)` changes exactly the named options; every option that is not named keeps its value, the later of two settings of one option wins, and settings of different options commute. stdin/stdout/stderr/env methods only touch their own fields. The original object is unchanged.", "quantifier": "every options value and every sequence of updates", "why_tests_cant": "Options has 30 fields and updates compose without bound.", "anchors": ["shellous/command.py:Options.set", "shellous/command.py:Options.set_stdin", "shellous/command.py:Options.set_stdout", "shellous/command.py:Options.set_stderr"]}
{"id": "C06", "title": "Environment updates are additive", "statement": "After any sequence of `env(...)` and `set(env=...)` calls the command's own variables are those of the last `set(env=)` (none if there is none) overridden by the later `env()` calls, the latest value winning for each name.", "quantifier": "every sequence of env()/set(env=) calls", "why_tests_cant": "The input space is unbounded; a test only samples a few shapes.", "anchors": ["shellous/command.py:Options.add_env", "shellous/command.py:Options.set", "shellous/util.py:EnvironmentDict"]}
{"id": "C07", "title": "Environment of the child", "statement": "The child sees, for each variable, the command's own value if it has one; otherwise the parent's value when inherit_env is true and nothing when it is false.", "quantifier": "every parent environment, every command environment, every variable name", "why_tests_cant": "The input space is unbounded; a test only samples a few shapes.", "anchors": ["shellous/command.py:Options.runtime_env"]}
{"id": "C08", "title": "Equal commands hash equally", "statement": "Two commands that compare equal have equal hashes, so commands can be used as dictionary keys.", "quantifier": "every pair of commands", "why_tests_cant": "Equality of environments is insensitive to insertion order; tests do not compare all permutations.", "anchors": ["shellous/util.py:EnvironmentDict.__hash__", "shellous/util.py:EnvironmentDict.__eq__"]}
{"id": "C09", "title": "Pipelines are associative", "statement": "`(a | b) | c` and `a | (b | c)` denote the same pipeline for commands and pipelines a, b, c, and the result lists the commands of a, b and c in order.", "quantifier": "every commands/pipelines a, b, c", "why_tests_cant": "The input space is unbounded; a test only samples a few shapes.", "anchors": ["shellous/command.py:Command.__or__", "shellous/pipeline.py:Pipeline.__or__", "shellous/pipeline.py:Pipeline._add"]}
{"id": "C10", "title": "Redirections bind to the ends of a pipeline", "statement": "Input bound with `x | pipe` or stdin() changes only the first command's input settings, output bound with `pipe | y`, `pipe >> y`, stdout(), stderr(), result and writable change only the last command's settings; grouping does not matter: `x | (a | b)` equals `(x | a) | b` and `(a | b) | y` equals `a | (b | y)`.", "quantifier": "every pipeline and every redirection value", "why_tests_cant": "The input space is unbounded; a test only samples a few shapes.", "anchors": ["shellous/pipeline.py:Pipeline.stdin", "shellous/pipeline.py:Pipeline.stdout", "shellous/pipeline.py:Pipeline.stderr", "shellous/pipeline.py:Pipeline._set", "shellous/command.py:Command.__or__"]}
{"id": "C11", "title": "Invalid redirections are rejected when built", "statement": "None is never accepted for stdin/stdout/stderr (TypeError), sh.STDOUT is rejected for stdin and stdout (ValueError), str or bytes on the right of | or >> raise TypeError; whenever an operator yields a command/pipeline its operand is one of the documented types.", "quantifier": "every operand value", "why_tests_cant": "The input space is unbounded; a test only samples a few shapes.", "anchors": ["shellous/command.py:Options.set_stdin", "shellous/command.py:Options.set_stdout", "shellous/pipeline.py:Pipeline.__or__", "shellous/pipeline.py:Pipeline.__rshift__"]}
{"id": "C12", "title": "Pipes connect neighbouring commands", "statement": "Running a pipeline of n commands creates n-1 pipes; the stdout of command i is the write end of pipe i and the stdin of command i+1 is the read end of the same pipe; the first command's stdin and the last command's stdout/stderr are as the user set them; every pipe end is closed by exactly one command.", "quantifier": "every pipeline length and every behaviour of os.pipe", "why_tests_cant": "The input space is unbounded; a test only samples a few shapes.", "anchors": ["shellous/runner.py:PipeRunner._setup_pipeline"]}
{"id": "C13", "title": "Default redirections", "statement": "Without explicit redirections stdin is empty (or captured for a pty), stdout is buffered, stderr is buffered (or follows stdout for a pty); explicit settings are never replaced; the DEFAULT marker never reaches the process launch.", "quantifier": "every redirection value and pty setting", "why_tests_cant": "Table must be right in combination with every value type.", "anchors": ["shellous/redirect.py:Redirect.from_default"]}
{"id": "C14", "title": "Destination of stdout", "statement": "What the child writes on stdout is delivered to the one destination named by the options: result buffer, user's object, stream handed to the caller, inherited stream, file, descriptor or /dev/null, with and without a pty; a supported destination of stdout or stderr never means that nobody reads or that two readers compete. (sys.stdout and sys.stderr of the parent are assumed to be different objects.)", "quantifier": "every combination of stdout, stderr and pty options", "why_tests_cant": "There are hundreds of combinations of destination types.", "anchors": ["shellous/runner.py:_RunOptions._setup_redirects", "shellous/runner.py:_RunOptions._setup_output", "shellous/runner.py:_RunOptions._setup_pty1", "shellous/runner.py:Runner._start", "shellous/runner.py:Runner._setup_output_sink"]}
{"id": "C15", "title": "Ambiguous double capture is refused", "statement": "Awaiting a command or iterating over it when both stdout and stderr would be captured raises an error before any process is launched; iteration over a command or pipeline with default output captures the stdout of the (last) command.", "quantifier": "every combination of redirections and pty", "why_tests_cant": "The input space is unbounded; a test only samples a few shapes.", "anchors": ["shellous/redirect.py:aiter_preflight", "shellous/runner.py:_is_multiple_capture", "shellous/runner.py:Runner.run_command"]}
{"id": "C16", "title": "Every accepted redirection launches", "statement": "A redirection combination that is accepted by the API does not make the launch fail with an internal assertion.", "quantifier": "every combination of redirections and pty", "why_tests_cant": "Assertions are hit only by rare combinations.", "anchors": ["shellous/runner.py:Runner._start", "shellous/runner.py:_RunOptions._setup_output"]}
{"id": "C17", "title": "Captured output is exact", "statement": "A bytearray, BytesIO or buffered result receives exactly the bytes the child wrote, in order and without loss or duplication, however the stream delivers them.", "quantifier": "every byte sequence and every split of it into reads", "why_tests_cant": "The number of possible chunkings is unbounded.", "anchors": ["shellous/redirect.py:copy_bytearray", "shellous/redirect.py:copy_bytesio", "shellous/redirect.py:copy_streamwriter"]}
{"id": "C18", "title": "error_limit keeps a prefix and keeps reading", "statement": "The stderr buffer holds exactly the first error_limit bytes of what the child wrote (all of it if shorter), and the stream is still read to the end so the child never blocks.", "quantifier": "every byte sequence, chunking and non-negative limit", "why_tests_cant": "Boundaries occur at every chunk/limit offset.", "anchors": ["shellous/redirect.py:copy_bytearray_limit"]}
{"id": "C19", "title": "Text output does not depend on chunking", "statement": "A StringIO sink receives the decoding of the concatenated bytes (of those read so far, if the copy is cancelled or fails), even when a multi-byte character is split between reads; if those bytes are not valid text, UnicodeDecodeError is raised and the sink receives nothing.", "quantifier": "every byte sequence, chunking and interruption point", "why_tests_cant": "Every split position matters.", "anchors": ["shellous/redirect.py:copy_stringio", "shellous/util.py:decode_bytes"]}
{"id": "C20", "title": "Line iteration loses nothing", "statement": "Iterating over lines yields pieces that each end with a newline (except possibly the last), whose concatenation is the whole output; the lines do not depend on chunking; a Logger sink receives each line with trailing white space removed.", "quantifier": "every byte sequence and chunking", "why_tests_cant": "The input space is unbounded; a test only samples a few shapes.", "anchors": ["shellous/redirect.py:read_lines", "shellous/redirect.py:copy_logger", "shellous/runner.py:Runner._readlines"]}
{"id": "C21", "title": "Standard input is delivered and ended", "statement": "The child receives exactly the given input followed by end of file: the pipe is closed once after the data; a child that stops reading early (broken pipe while draining) does not stop the stream from being ended properly; if the stream is already closing before a non-empty input could be written, BrokenPipeError is raised and nothing is written.", "quantifier": "every input, every chunking of a reader source, every broken pipe point", "why_tests_cant": "The input space is unbounded; a test only samples a few shapes.", "anchors": ["shellous/redirect.py:write_stream", "shellous/redirect.py:write_reader", "shellous/redirect.py:_drain"]}
{"id": "C22", "title": "Exit status of a pipeline", "statement": "The pipeline reports exit status and stderr of the first command in pipeline order that failed and was not cancelled; if there is none, of the last command that was not cancelled (of the last command if all were cancelled); output always comes from the last command.", "quantifier": "every list of per-command results", "why_tests_cant": "The input space is unbounded; a test only samples a few shapes.", "anchors": ["shellous/result.py:convert_result_list", "shellous/result.py:_find_key_result", "shellous/result.py:_compare_result"]}
{"id": "C23", "title": "Other errors in a pipeline win", "statement": "If some command of a pipeline ended with an exception other than a non-zero exit, the first of them in pipeline order is raised and no result is produced.", "quantifier": "every list of per-command outcomes", "why_tests_cant": "The input space is unbounded; a test only samples a few shapes.", "anchors": ["shellous/result.py:convert_result_list"]}
{"id": "C24", "title": "When a result raises", "statement": "A finished command raises CancelledError if it was cancelled (ResultError inside a pipeline), ResultError if its exit status is not in exit_codes (default {0}), and returns the Result otherwise; with `.result` every ordinary exit status or signal is returned.", "quantifier": "every exit status, exit_codes container, cancelled/timed-out state", "why_tests_cant": "The input space is unbounded; a test only samples a few shapes.", "anchors": ["shellous/result.py:check_result", "shellous/runner.py:Runner.result", "shellous/runner.py:Runner.run_command"]}
{"id": "C25", "title": "Signals in exit status", "statement": "exit_signal is None exactly for non-negative exit codes and otherwise is the signal whose number is the negated exit code; a Result is truthy exactly when the exit code is 0.", "quantifier": "every exit code", "why_tests_cant": "The input space is unbounded; a test only samples a few shapes.", "anchors": ["shellous/result.py:Result.exit_signal", "shellous/result.py:Result.__bool__"]}
{"id": "C26", "title": "Harvest leaves nothing running", "statement": "When waiting for a group of tasks returns or raises (other than the documented RuntimeError), every task in the group is done.", "quantifier": "every number of tasks, every order of completion, timeout and cancellation", "why_tests_cant": "The outcome depends on the order in which tasks finish, time out and get cancelled; tests exercise a handful of schedules.", "anchors": ["shellous/harvest.py:harvest", "shellous/harvest.py:harvest_wait", "shellous/harvest.py:_cancel_wait", "shellous/harvest.py:_cancel_waiter"]}
{"id": "C27", "title": "Harvest raises the first exception seen", "statement": "If a task fails, harvest raises the exception that was raised first.", "quantifier": "every order of completion", "why_tests_cant": "The outcome depends on the order in which tasks finish, time out and get cancelled; tests exercise a handful of schedules.", "anchors": ["shellous/harvest.py:harvest"]}
{"id": "C28", "title": "A failure cancels the siblings", "statement": "If one task fails while others are still running, each running sibling receives a cancel request before the exception is reported; if no task fails and nothing times out or is cancelled, no task is ever cancelled.", "quantifier": "every order of completion", "why_tests_cant": "The outcome depends on the order in which tasks finish, time out and get cancelled; tests exercise a handful of schedules.", "anchors": ["shellous/harvest.py:harvest_wait", "shellous/harvest.py:_cancel_wait"]}
{"id": "C29", "title": "Results are positional", "statement": "harvest_results returns one entry per awaitable, at the awaitable's own position: its value, or its exception, or CancelledError.", "quantifier": "every number of tasks and completion order", "why_tests_cant": "The outcome depends on the order in which tasks finish, time out and get cancelled; tests exercise a handful of schedules.", "anchors": ["shellous/harvest.py:harvest_results", "shellous/harvest.py:_to_result"]}
{"id": "C30", "title": "Timeouts", "statement": "If harvest times out with no failed task it cancels all unfinished tasks and raises TimeoutError; it raises TimeoutError in no other case.", "quantifier": "every schedule", "why_tests_cant": "The outcome depends on the order in which tasks finish, time out and get cancelled; tests exercise a handful of schedules.", "anchors": ["shellous/harvest.py:harvest_wait"]}
{"id": "C31", "title": "Cancelling harvest", "statement": "If harvest itself is cancelled it cancels all its tasks, waits for them and raises CancelledError.", "quantifier": "every schedule", "why_tests_cant": "The outcome depends on the order in which tasks finish, time out and get cancelled; tests exercise a handful of schedules.", "anchors": ["shellous/harvest.py:harvest_wait"]}
{"id": "C32", "title": "cancel_finish lets tasks finish", "statement": "With cancel_finish=True cancelling harvest does not cancel the tasks; they are allowed to finish first.", "quantifier": "every schedule", "why_tests_cant": "The outcome depends on the order in which tasks finish, time out and get cancelled; tests exercise a handful of schedules.", "anchors": ["shellous/harvest.py:harvest_wait", "shellous/harvest.py:_cancel_wait"]}
{"id": "C33", "title": "Audit events bracket every run", "statement": "For each run the audit callback sees exactly one `start` first, then zero or more `signal`, then exactly one `stop` last, for every way of failing to launch, being cancelled or timing out.", "quantifier": "every launch outcome, schedule, body outcome", "why_tests_cant": "The outcome depends on the order in which tasks finish, time out and get cancelled; tests exercise a handful of schedules.", "anchors": ["shellous/runner.py:Runner.__aenter__", "shellous/runner.py:Runner.__aexit__", "shellous/runner.py:Runner._audit_callback"]}
{"id": "C34", "title": "No process is left running silently", "statement": "When a run ends, the child process has exited, or SIGKILL has been sent to it.", "quantifier": "every launch outcome, body outcome, schedule of exits, timeouts and cancellations", "why_tests_cant": "The outcome depends on the order in which tasks finish, time out and get cancelled; tests exercise a handful of schedules.", "anchors": ["shellous/runner.py:Runner._kill", "shellous/runner.py:Runner._kill_wait", "shellous/runner.py:Runner._finish", "shellous/runner.py:Runner._close"]}
{"id": "C35", "title": "The process has exited when the run ends", "statement": "When a run ends without a RuntimeError the child process has exited and its status has been collected, so result() is available.", "quantifier": "every schedule", "why_tests_cant": "The outcome depends on the order in which tasks finish, time out and get cancelled; tests exercise a handful of schedules.", "anchors": ["shellous/runner.py:Runner._kill", "shellous/runner.py:Runner._kill_wait", "shellous/runner.py:Runner.result"]}
{"id": "C36", "title": "A normal run sends no signals", "statement": "If nothing fails, nothing is cancelled and no timeout expires, the process is never signalled; and no signal is ever sent after the exit status is known.", "quantifier": "every schedule", "why_tests_cant": "The outcome depends on the order in which tasks finish, time out and get cancelled; tests exercise a handful of schedules.", "anchors": ["shellous/runner.py:Runner._signal", "shellous/runner.py:Runner.send_signal", "shellous/runner.py:Runner._wait"]}
{"id": "C37", "title": "Signal escalation", "statement": "When a run must be ended early, the configured cancel_signal is sent first and SIGKILL is only sent after it (or when no cancel_signal is configured), apart from signals the user sends and launches that asyncio itself gives up.", "quantifier": "every schedule", "why_tests_cant": "The outcome depends on the order in which tasks finish, time out and get cancelled; tests exercise a handful of schedules.", "anchors": ["shellous/runner.py:Runner._kill", "shellous/runner.py:Runner._kill_wait"]}
{"id": "C38", "title": "Timeout option", "statement": "When the timeout option expires the command raises TimeoutError; when it is cancelled from outside it raises CancelledError; the timer never fires after the run has ended.", "quantifier": "every schedule", "why_tests_cant": "The outcome depends on the order in which tasks finish, time out and get cancelled; tests exercise a handful of schedules.", "anchors": ["shellous/runner.py:Runner._start_timer", "shellous/runner.py:Runner._stop_timer", "shellous/runner.py:Runner.__aexit__"]}
{"id": "C39", "title": "Reported exit code", "statement": "The reported exit code is the one the operating system reports; a process ended by signal s reports -s.", "quantifier": "every wait status and signal history", "why_tests_cant": "Depends on races in waitpid.", "anchors": ["shellous/runner.py:Runner.returncode", "shellous/util.py:wait_pid"]}
{"id": "C40", "title": "Errors from the body", "statement": "An exception raised in the body of `async with` propagates after the process has been stopped; it is suppressed only if the run was cancelled, and replaced only by the TimeoutError of an expired timeout or by an error of the cleanup or of a task of the run.", "quantifier": "every body outcome and schedule", "why_tests_cant": "The outcome depends on the order in which tasks finish, time out and get cancelled; tests exercise a handful of schedules.", "anchors": ["shellous/runner.py:Runner.__aexit__", "shellous/runner.py:Runner._finish"]}
{"id": "C41", "title": "result() before exit", "statement": "result() raises TypeError while the process has not exited, and never fabricates an exit code.", "quantifier": "every state of a run", "why_tests_cant": "The outcome depends on the order in which tasks finish, time out and get cancelled; tests exercise a handful of schedules.", "anchors": ["shellous/runner.py:Runner.result", "shellous/runner.py:Runner.returncode"]}
{"id": "C42", "title": "Descriptors with close=True are closed once", "statement": "Descriptors passed with close=True (and pass_fds with pass_fds_close) are closed in the parent exactly once, whether the launch succeeds, fails or is cancelled, and descriptors without close=True are never closed.", "quantifier": "every option combination and launch outcome", "why_tests_cant": "Error paths are combinatorial.", "anchors": ["shellous/runner.py:_RunOptions.__enter__", "shellous/runner.py:_RunOptions.__exit__", "shellous/runner.py:_cleanup", "shellous/util.py:close_fds"]}
{"id": "C43", "title": "A failed setup leaks no descriptors", "statement": "If setting up a command fails before launch, every descriptor opened for it (files, pipes, pty) is closed.", "quantifier": "every failure point of the setup", "why_tests_cant": "The input space is unbounded; a test only samples a few shapes.", "anchors": ["shellous/runner.py:_RunOptions.__enter__", "shellous/runner.py:_cleanup"]}
{"id": "C44", "title": "A pipeline closes its pipes", "statement": "For every pipeline and every combination of launch outcomes, the pipe descriptors it created are all closed and none is closed twice.", "quantifier": "every pipeline length, launch outcome and cancellation point", "why_tests_cant": "The input space is unbounded; a test only samples a few shapes.", "anchors": ["shellous/runner.py:PipeRunner._start", "shellous/runner.py:PipeRunner._setup_pipeline"]}
{"id": "C45", "title": "Entering a captured pipeline terminates", "statement": "`async with pipeline` either enters or raises once each of its commands has been launched or failed to launch.", "quantifier": "every combination of launch outcomes", "why_tests_cant": "The outcome depends on the order in which tasks finish, time out and get cancelled; tests exercise a handful of schedules.", "anchors": ["shellous/runner.py:PipeRunner._setup_capturing"]}
{"id": "C46", "title": "expect() neither loses nor duplicates text", "statement": "For every sequence of prompt operations, the concatenation of everything returned (outputs, matches, read_all, read_pending) followed by `pending` is exactly the decoded output read so far.", "quantifier": "every operation sequence, chunking, timeout or cancellation point", "why_tests_cant": "The outcome depends on the order in which tasks finish, time out and get cancelled; tests exercise a handful of schedules.", "anchors": ["shellous/prompt.py:Prompt.expect", "shellous/prompt.py:Prompt._search_pending", "shellous/prompt.py:Prompt._read_to_pattern", "shellous/prompt.py:Prompt._read_some", "shellous/prompt.py:Prompt.read_pending"]}
{"id": "C47", "title": "expect() of an exact string is chunk independent", "statement": "expect(s) returns the text before the first occurrence of s in the remaining output, however the output is split into reads.", "quantifier": "every output, chunking, string", "why_tests_cant": "All chunk boundaries matter.", "anchors": ["shellous/prompt.py:Prompt.expect", "shellous/prompt.py:_regex_compile_exact"]}
{"id": "C48", "title": "expect() of several strings is chunk independent", "statement": "expect([s1, ..., sn]) finds the same string at the same place however the output is split into reads.", "quantifier": "every output, chunking and list of strings", "why_tests_cant": "All chunk boundaries matter.", "anchors": ["shellous/prompt.py:Prompt.expect", "shellous/prompt.py:_regex_compile_exact"]}
{"id": "C49", "title": "Nothing is lost when expect() fails", "statement": "When expect() raises EOFError or TimeoutError all text read stays available in `pending`; EOFError is raised only at the end of output, when nothing is left or the pattern does not match what is left; for an exact string: when it does not occur.", "quantifier": "every output, chunking and interruption point", "why_tests_cant": "The outcome depends on the order in which tasks finish, time out and get cancelled; tests exercise a handful of schedules.", "anchors": ["shellous/prompt.py:Prompt.expect", "shellous/prompt.py:Prompt._read_to_pattern"]}
{"id": "C50", "title": "read_all and command", "statement": "read_all returns all the remaining text and leaves nothing pending; command() returns what expect() returns, or with allow_eof everything up to the end.", "quantifier": "every output, chunking", "why_tests_cant": "The outcome depends on the order in which tasks finish, time out and get cancelled; tests exercise a handful of schedules.", "anchors": ["shellous/prompt.py:Prompt.read_all", "shellous/prompt.py:Prompt.command"]}
{"id": "C51", "title": "Incremental decoding", "statement": "Decoding UTF-8 output chunk by chunk gives the same text, or the same failure, as decoding it all at once; decoding inverts encoding.", "quantifier": "every byte sequence and chunking", "why_tests_cant": "All chunk boundaries matter.", "anchors": ["shellous/prompt.py:_make_decoder", "shellous/util.py:decode_bytes", "shellous/util.py:encode_bytes"]}
{"id": "C52", "title": "Newline normalisation", "statement": "With normalize_newlines, CR and CR-LF become LF and nothing else changes, independent of where reads split a CR-LF.", "quantifier": "every text and chunking", "why_tests_cant": "All chunk boundaries matter.", "anchors": ["shellous/prompt.py:_make_decoder"]}
{"id": "C53", "title": "send() reports a broken pipe", "statement": "If the co-process can no longer be written to, send() raises the error.", "quantifier": "every schedule of the concurrent reader", "why_tests_cant": "The outcome depends on the order in which tasks finish, time out and get cancelled; tests exercise a handful of schedules.", "anchors": ["shellous/prompt.py:Prompt.send", "shellous/prompt.py:Prompt._drain"]}
{"id": "C54", "title": "Passwords are not echoed or logged", "statement": "send(no_echo=True) writes only after terminal echo is off (or fails after 120 polls without writing), and what is logged does not depend on the text.", "quantifier": "every text, every sequence of terminal states", "why_tests_cant": "The input space is unbounded; a test only samples a few shapes.", "anchors": ["shellous/prompt.py:Prompt._wait_no_echo", "shellous/prompt.py:Prompt._log_send", "shellous/prompt.py:Prompt.send"]}
{"id": "C55", "title": "Nested contexts pair up", "statement": "`async with` on the same Command object, nested or concurrently from several tasks, exits the runner entered by the matching enter in the same task, and nothing is left behind after all exits.", "quantifier": "every interleaving of enters and exits of any number of tasks", "why_tests_cant": "The outcome depends on the order in which tasks finish, time out and get cancelled; tests exercise a handful of schedules.", "anchors": ["shellous/util.py:context_aenter", "shellous/util.py:context_aexit"]}
{"id": "C56", "title": "A launch completes although cancelled", "statement": "If the task is cancelled while the process is being launched, the launch still completes and the CancelledError is raised afterwards, so the process can be killed and not leaked.", "quantifier": "every number and timing of cancellations", "why_tests_cant": "The outcome depends on the order in which tasks finish, time out and get cancelled; tests exercise a handful of schedules.", "anchors": ["shellous/util.py:uninterrupted", "shellous/runner.py:Runner._subprocess_spawn"]}
{"id": "C57", "title": "close_fds closes everything once", "statement": "close_fds closes every non-negative descriptor and file in the list once, goes on after an OSError, ignores negative numbers and empties a list or set.", "quantifier": "every list of descriptors and every failing close", "why_tests_cant": "The input space is unbounded; a test only samples a few shapes.", "anchors": ["shellous/util.py:close_fds", "shellous/pty_util.py:ChildFd.close"]}
{"id": "C58", "title": "Child exit callback at most once", "statement": "For a watched child the callback is called at most once, and only with the exit status of that child.", "quantifier": "every interleaving of the watching thread, callers and child exits", "why_tests_cant": "The outcome depends on the order in which tasks finish, time out and get cancelled; tests exercise a handful of schedules.", "anchors": ["shellous/watcher.py:EPollStrategy", "shellous/watcher.py:KQueueStrategy", "shellous/watcher.py:ThreadStrategy"]}
{"id": "C59", "title": "Watcher never closes a descriptor twice", "statement": "The epoll watcher closes each pidfd, its self-pipe and its epoll descriptor at most once, and never a descriptor that is not its own.", "quantifier": "every interleaving", "why_tests_cant": "The outcome depends on the order in which tasks finish, time out and get cancelled; tests exercise a handful of schedules.", "anchors": ["shellous/watcher.py:EPollStrategy._run", "shellous/watcher.py:EPollStrategy._remove_pidfd", "shellous/watcher.py:EPollStrategy.close"]}
{"id": "C60", "title": "A recycled pid can be watched again (epoll)", "statement": "With the epoll watcher, a child can be watched whatever happened to earlier children with the same pid: its entry never collides with theirs.", "quantifier": "every interleaving of threads", "why_tests_cant": "The outcome depends on the order in which tasks finish, time out and get cancelled; tests exercise a handful of schedules.", "anchors": ["shellous/watcher.py:ThreadStrategy._reap_pid", "shellous/watcher.py:ThreadStrategy.watch_pid"]}
{"id": "C61", "title": "One strategy per watcher", "statement": "Concurrent add_child_handler calls create exactly one strategy.", "quantifier": "every interleaving of threads", "why_tests_cant": "The outcome depends on the order in which tasks finish, time out and get cancelled; tests exercise a handful of schedules.", "anchors": ["shellous/watcher.py:DefaultChildWatcher.add_child_handler", "shellous/watcher.py:DefaultChildWatcher._init_strategy", "shellous/watcher.py:DefaultChildWatcher.close"]}
{"id": "C62", "title": "Terminal echo setter", "statement": "Setting echo changes only the echo flag, reading it back gives the value set, and setting it to its current value does nothing.", "quantifier": "every terminal attribute state", "why_tests_cant": "The input space is unbounded; a test only samples a few shapes.", "anchors": ["shellous/pty_util.py:set_term_echo", "shellous/pty_util.py:get_term_echo", "shellous/prompt.py:Prompt.echo"]}
{"id": "C63", "title": "Pty child descriptor closed once", "statement": "However often and from wherever it is closed, the pty's child descriptor is closed exactly once.", "quantifier": "every sequence of close calls", "why_tests_cant": "The input space is unbounded; a test only samples a few shapes.", "anchors": ["shellous/pty_util.py:ChildFd.close", "shellous/pty_util.py:PtyFds.close"]}
{"id": "C64", "title": "Detailed logging changes nothing", "statement": "Enabling SHELLOUS_TRACE detail logging does not change what a wrapped method returns or raises.", "quantifier": "every wrapped coroutine and async generator", "why_tests_cant": "The input space is unbounded; a test only samples a few shapes.", "anchors": ["shellous/log.py:log_method", "shellous/log.py:log_thread"]}
{"id": "C65", "title": "Display name", "statement": "The name of a command is its alt_name if set, else the program name, shortened to three dots plus its last 31 characters when it is longer than 31 characters.", "quantifier": "every program name and alt_name", "why_tests_cant": "The input space is unbounded; a test only samples a few shapes.", "anchors": ["shellous/command.py:Command.name"]}
{"id": "C66", "title": "Source of stdin", "statement": "The child's standard input is exactly the source named by the options: the given bytes or encoded text, the contents of a file, a descriptor, the parent's stdin, /dev/null, a copied StreamReader, or the stream handed to the caller; the default is empty input (or the caller, with a pty).", "quantifier": "every input option, with and without a pty, every encoding", "why_tests_cant": "Every value type meets pty and default handling.", "anchors": ["shellous/runner.py:_RunOptions._setup_input", "shellous/runner.py:Runner._setup_input_source", "shellous/redirect.py:Redirect.from_default"]}
{"id": "C67", "title": "Replace and append", "statement": "`cmd | sink` (append=False) makes the sink hold exactly the new output; `cmd >> sink` (append=True) keeps the previous contents and adds the output after them, wherever the sink's position was.", "quantifier": "every previous content and position of the sink, every output and chunking", "why_tests_cant": "The input space is unbounded; a test only samples a few shapes.", "anchors": ["shellous/runner.py:_set_position", "shellous/redirect.py:copy_bytesio", "shellous/redirect.py:copy_bytearray", "shellous/redirect.py:copy_stringio"]}
{"id": "C68", "title": "exit_codes of pipeline members", "statement": "A pipeline returns normally exactly when each of its commands exited with a status in its own exit_codes.", "quantifier": "every pipeline, exit_codes and exit statuses", "why_tests_cant": "The input space is unbounded; a test only samples a few shapes.", "anchors": ["shellous/result.py:convert_result_list", "shellous/result.py:_find_key_result", "shellous/runner.py:PipeRunner.result"]}
{"id": "C69", "title": "No command outlives its pipeline", "statement": "When `await pipeline` or an `async with pipeline` block has ended, no task running one of its commands is left.", "quantifier": "every pipeline length, body, schedule and number of cancellations", "why_tests_cant": "The outcome depends on the order in which tasks finish, time out and get cancelled; tests exercise a handful of schedules.", "anchors": ["shellous/runner.py:PipeRunner.__aenter__", "shellous/runner.py:PipeRunner.__aexit__", "shellous/runner.py:PipeRunner._wait"]}
{"id": "C70", "title": "A failed pipeline setup is reported", "statement": "If the pipes of a pipeline cannot be created, the OSError is raised to the caller and no command is started.", "quantifier": "every pipeline and every failing os.pipe() call", "why_tests_cant": "The input space is unbounded; a test only samples a few shapes.", "anchors": ["shellous/runner.py:PipeRunner._start", "shellous/runner.py:PipeRunner.__aenter__", "shellous/runner.py:PipeRunner._setup_pipeline"]}
{"id": "C71", "title": "The outcome of await pipeline is determined by its commands", "statement": "What `await pipeline` returns or raises depends only on the outcomes of its commands in pipeline order, not on the order in which they finish.", "quantifier": "every schedule", "why_tests_cant": "The outcome depends on the order in which tasks finish, time out and get cancelled; tests exercise a handful of schedules.", "anchors": ["shellous/runner.py:PipeRunner.run_pipeline", "shellous/runner.py:PipeRunner.result", "shellous/runner.py:PipeRunner._wait"]}
{"id": "C72", "title": "Cancelling await pipeline", "statement": "If the task awaiting a pipeline is cancelled, the commands are cancelled and CancelledError is raised.", "quantifier": "every number and timing of cancellations", "why_tests_cant": "The outcome depends on the order in which tasks finish, time out and get cancelled; tests exercise a handful of schedules.", "anchors": ["shellous/runner.py:PipeRunner._finish", "shellous/runner.py:PipeRunner.__aexit__", "shellous/runner.py:PipeRunner.result"]}
{"id": "C73", "title": "Closing the epoll watcher comes to an end", "statement": "A call of close() returns, whatever callers and children do meanwhile.", "quantifier": "every interleaving", "why_tests_cant": "The outcome depends on the order in which tasks finish, time out and get cancelled; tests exercise a handful of schedules.", "anchors": ["shellous/watcher.py:EPollStrategy.close", "shellous/watcher.py:EPollStrategy._run"]}
{"id": "C74", "title": "A failed watch kills only the child it was for", "statement": "If watching a child fails, SIGKILL is sent to that child and never to another process, even if its pid could be used again.", "quantifier": "every interleaving, every reuse of pids", "why_tests_cant": "The outcome depends on the order in which tasks finish, time out and get cancelled; tests exercise a handful of schedules.", "anchors": ["shellous/watcher.py:EPollStrategy.watch_pid", "shellous/watcher.py:_poll_dead_pid"]}
{"id": "C75", "title": "Closing a watcher that is in use", "statement": "A call of add_child_handler either watches the child with a strategy that is open at that moment or lets another one be created; it never fails because another thread calls close(), and the watcher can be used again after close().", "quantifier": "every interleaving of threads", "why_tests_cant": "The outcome depends on the order in which tasks finish, time out and get cancelled; tests exercise a handful of schedules.", "anchors": ["shellous/watcher.py:DefaultChildWatcher.add_child_handler", "shellous/watcher.py:DefaultChildWatcher.close"]}
{"id": "C76", "title": "Terminal adapters", "statement": "pty=raw(...) turns off echo, line editing and signals, cbreak(...) turns off echo and line editing only, cooked(...) changes nothing but the size and, with echo=False, the echo flag; the size is set to rows x cols exactly if one of them is given.", "quantifier": "every terminal state, every rows, cols and echo", "why_tests_cant": "The input space is unbounded; a test only samples a few shapes.", "anchors": ["shellous/pty_util.py:raw", "shellous/pty_util.py:cbreak", "shellous/pty_util.py:cooked", "shellous/pty_util.py:_set_term_size", "shellous/pty_util.py:_get_eof"]}
{"id": "C77", "title": "Iterating over a command delivers its lines in order", "statement": "`async for line in cmd` delivers the first lines of the command's output, whole, in order and decoded, none twice and none left out, however the loop ends; no lines if the output goes elsewhere.", "quantifier": "every output, chunking, consumer, exit and cancellation time", "why_tests_cant": "The outcome depends on the order in which tasks finish, time out and get cancelled; tests exercise a handful of schedules.", "anchors": ["shellous/command.py:Command._readlines", "shellous/command.py:Command.__aiter__", "shellous/runner.py:Runner.__aiter__", "shellous/redirect.py:read_lines"]}
{"id": "C78", "title": "Cancelling an iteration", "statement": "If the task iterating over a command is cancelled, the process is stopped and CancelledError is raised.", "quantifier": "every number and timing of cancellations", "why_tests_cant": "The outcome depends on the order in which tasks finish, time out and get cancelled; tests exercise a handful of schedules.", "anchors": ["shellous/command.py:Command._readlines", "shellous/runner.py:Runner.__aexit__"]}
{"id": "C79", "title": "An iteration leaves no process behind", "statement": "However an iteration over a command ends (end of output, error, cancellation, closing the generator after a break), the process has ended or was sent SIGKILL, and its status was collected.", "quantifier": "every consumer and schedule", "why_tests_cant": "The outcome depends on the order in which tasks finish, time out and get cancelled; tests exercise a handful of schedules.", "anchors": ["shellous/command.py:Command._readlines", "shellous/runner.py:Runner.__aexit__"]}
{"id": "C80", "title": "Iteration ignores the exit status", "statement": "Unlike await, iterating over a command does not look at its exit status: whatever the status, the loop ends normally after the last line, the process having been collected, and ResultError is never raised for the command itself.", "quantifier": "every exit status and schedule", "why_tests_cant": "The outcome depends on the order in which tasks finish, time out and get cancelled; tests exercise a handful of schedules.", "anchors": ["shellous/command.py:Command._readlines", "shellous/runner.py:Runner.__aiter__"]}
{"id": "C81", "title": "cli.result after a prompt session", "statement": "After `async with cmd.prompt() as cli`, cli.result holds the exit code of the process and the captured error output.", "quantifier": "every body and schedule", "why_tests_cant": "The outcome depends on the order in which tasks finish, time out and get cancelled; tests exercise a handful of schedules.", "anchors": ["shellous/command.py:Command.prompt", "shellous/prompt.py:Prompt._finish_", "shellous/runner.py:Runner.result"]}
{"id": "C82", "title": "Errors and cancellation in a prompt block", "statement": "An exception or cancellation in the body of `async with cmd.prompt()` stops the process and is raised again after the block.", "quantifier": "every body, exception and schedule", "why_tests_cant": "The outcome depends on the order in which tasks finish, time out and get cancelled; tests exercise a handful of schedules.", "anchors": ["shellous/command.py:Command.prompt", "shellous/runner.py:Runner.__aexit__"]}
{"id": "C83", "title": "`await cmd` returns everything the child wrote", "statement": "When `await cmd` returns (the call was not cancelled or timed out, and no other code cancelled shellous's own copying tasks), every stream that shellous copies was read to its end and the sinks hold all of it: the text or Result.output is exactly the child's standard output decoded with the command's encoding, Result.error is its standard error cut at the error limit, a Logger has got every line, a StreamWriter every byte and is closed, and the exit status is an accepted one.", "quantifier": "every command, option combination, answer of the operating system, arrival of the data and schedule", "why_tests_cant": "The outcome depends on the order in which tasks finish, time out and get cancelled; tests exercise a handful of schedules.", "anchors": ["shellous/runner.py:Runner.run_command", "shellous/runner.py:Runner._start", "shellous/runner.py:Runner._setup_output_sink", "shellous/runner.py:Runner.__aexit__", "shellous/runner.py:Runner.result", "shellous/redirect.py:copy_bytearray"]}
{"id": "C84", "title": "Iterating over a pipeline delivers its lines in order", "statement": "`async for line in pipeline` delivers the first lines of the last command's output, whole, in order and decoded, none twice and none left out, however the loop ends.", "quantifier": "every pipeline length, output, chunking, consumer and schedule", "why_tests_cant": "The outcome depends on the order in which tasks finish, time out and get cancelled; tests exercise a handful of schedules.", "anchors": ["shellous/pipeline.py:Pipeline._readlines", "shellous/pipeline.py:Pipeline.__aiter__", "shellous/runner.py:PipeRunner._readlines", "shellous/redirect.py:read_lines"]}
{"id": "C85", "title": "Iteration ignores failing commands of a pipeline", "statement": "How the commands of an iterated pipeline ended (unaccepted exit status, killed, not launched, timed out) does not matter to the loop: once the last command's output has ended, the loop ends normally, unless a command failed with RuntimeError or AssertionError or shellous gave up stopping the commands.", "quantifier": "every pipeline length, outcome of the commands and schedule", "why_tests_cant": "The outcome depends on the order in which tasks finish, time out and get cancelled; tests exercise a handful of schedules.", "anchors": ["shellous/pipeline.py:Pipeline._readlines", "shellous/runner.py:PipeRunner.__aexit__"]}
{"id": "C86", "title": "Leaving an iteration over a pipeline stops its commands", "statement": "If an iteration over a pipeline ends early (error, cancellation, closing the generator after a break), every command that had not ended by then is told to stop.", "quantifier": "every pipeline length, consumer and schedule", "why_tests_cant": "The outcome depends on the order in which tasks finish, time out and get cancelled; tests exercise a handful of schedules.", "anchors": ["shellous/pipeline.py:Pipeline._readlines", "shellous/runner.py:PipeRunner.__aexit__", "shellous/runner.py:PipeRunner._wait"]}
{"id": "C87", "title": "Errors and cancellation while iterating over a pipeline", "statement": "A cancellation of the consumer, and an exception that ends the iteration (undecodable or too long line), is raised after the commands have been stopped.", "quantifier": "every pipeline length, consumer, number and timing of cancellations", "why_tests_cant": "The outcome depends on the order in which tasks finish, time out and get cancelled; tests exercise a handful of schedules.", "anchors": ["shellous/pipeline.py:Pipeline._readlines", "shellous/runner.py:PipeRunner.__aexit__", "shellous/runner.py:PipeRunner._finish"]}
{"id": "C88", "title": "cli.result of a pipeline prompt", "statement": "After `async with pipeline.prompt() as cli`, cli.result combines the results of the commands as `await pipeline` does; if a command ended with an exception other than a result error or cancellation, that exception is raised instead, and if shellous gave up on the commands, an error says so.", "quantifier": "every pipeline length, body, outcome of the commands and schedule", "why_tests_cant": "The outcome depends on the order in which tasks finish, time out and get cancelled; tests exercise a handful of schedules.", "anchors": ["shellous/pipeline.py:Pipeline.prompt", "shellous/prompt.py:Prompt._finish_", "shellous/runner.py:PipeRunner.result", "shellous/result.py:convert_result_list"]}
{"id": "C89", "title": "Errors and cancellation in a pipeline prompt block", "statement": "An exception or cancellation in the body of `async with pipeline.prompt()` stops the commands and is raised again after the block.", "quantifier": "every pipeline length, body, exception and schedule", "why_tests_cant": "The outcome depends on the order in which tasks finish, time out and get cancelled; tests exercise a handful of schedules.", "anchors": ["shellous/pipeline.py:Pipeline.prompt", "shellous/runner.py:PipeRunner.__aexit__", "shellous/runner.py:PipeRunner.result"]}
{"id": "C90", "title": "What a prompt session writes", "statement": "The co-process receives exactly what send(), command() and close() were asked to write, in that order: each text encoded and followed by its line ending, in one piece, exactly once if the call succeeds and at most once if it fails; close() ends the input (on a terminal: the EOF character twice); reading operations write nothing; a text that cannot be encoded raises UnicodeError and nothing is written.", "quantifier": "every sequence of operations, text, line ending, outcome and schedule", "why_tests_cant": "The outcome depends on the order in which tasks finish, time out and get cancelled; tests exercise a handful of schedules.", "anchors": ["shellous/prompt.py:Prompt.send", "shellous/prompt.py:Prompt.command", "shellous/prompt.py:Prompt.close"]}
{"id": "C91", "title": "Destination of stderr", "statement": "What the child writes on stderr is delivered to the one destination named by the options; stderr=STDOUT sends it wherever stdout goes.", "quantifier": "every combination of stdout, stderr and pty options", "why_tests_cant": "There are hundreds of combinations of destination types.", "anchors": ["shellous/runner.py:_RunOptions._setup_redirects", "shellous/runner.py:_RunOptions._setup_output", "shellous/runner.py:_RunOptions._setup_pty1", "shellous/runner.py:Runner._start", "shellous/runner.py:Runner._setup_output_sink"]}
{"id": "C92", "title": "Iterating over stderr only", "statement": "With stdout=DEVNULL and stderr=STDOUT, iteration reads the command's stderr.", "quantifier": "every combination of redirections and pty", "why_tests_cant": "The input space is unbounded; a test only samples a few shapes.", "anchors": ["shellous/redirect.py:aiter_preflight", "shellous/runner.py:_is_multiple_capture", "shellous/runner.py:Runner.run_command"]}
{"id": "C93", "title": "Standard input on a pty is ended", "statement": "On a canonical pty the input is followed by the EOF character, once at the start of a line and twice otherwise.", "quantifier": "every input, every chunking of a reader source, every broken pipe point", "why_tests_cant": "The input space is unbounded; a test only samples a few shapes.", "anchors": ["shellous/redirect.py:write_stream", "shellous/redirect.py:write_reader", "shellous/redirect.py:_drain"]}
{"id": "C101", "title": "Nothing is lost when expect() is cancelled", "statement": "When expect() raises, cancellation included, all text read stays available in `pending`.", "quantifier": "every output, chunking and interruption point", "why_tests_cant": "The outcome depends on the order in which tasks finish, time out and get cancelled; tests exercise a handful of schedules.", "anchors": ["shellous/prompt.py:Prompt.expect", "shellous/prompt.py:Prompt._read_to_pattern"]}
{"id": "C94", "title": "Child exit callback is not lost (epoll, threads)", "statement": "With the epoll and the thread watcher, for a watched child that exits before the watcher is closed the callback is called exactly once.", "quantifier": "every interleaving of the watching thread, callers and child exits", "why_tests_cant": "The outcome depends on the order in which tasks finish, time out and get cancelled; tests exercise a handful of schedules.", "anchors": ["shellous/watcher.py:EPollStrategy", "shellous/watcher.py:ThreadStrategy"]}
{"id": "C95", "title": "Watcher releases its descriptors", "statement": "After close() the epoll watcher's pidfds and self-pipe have been closed exactly once.", "quantifier": "every interleaving", "why_tests_cant": "The outcome depends on the order in which tasks finish, time out and get cancelled; tests exercise a handful of schedules.", "anchors": ["shellous/watcher.py:EPollStrategy._run", "shellous/watcher.py:EPollStrategy._remove_pidfd", "shellous/watcher.py:EPollStrategy.close"]}
{"id": "C100", "title": "A recycled pid can be watched again (threads)", "statement": "With the thread watcher, after a child's callback has run a new child with the same pid can be watched.", "quantifier": "every interleaving of threads", "why_tests_cant": "The outcome depends on the order in which tasks finish, time out and get cancelled; tests exercise a handful of schedules.", "anchors": ["shellous/watcher.py:ThreadStrategy._reap_pid", "shellous/watcher.py:ThreadStrategy.watch_pid"]}
{"id": "C96", "title": "Closing the epoll watcher touches only its own pipe", "statement": "A call of close() writes its wake-up byte only into the watcher's own pipe.", "quantifier": "every interleaving", "why_tests_cant": "The outcome depends on the order in which tasks finish, time out and get cancelled; tests exercise a handful of schedules.", "anchors": ["shellous/watcher.py:EPollStrategy.close", "shellous/watcher.py:EPollStrategy._run"]}
{"id": "C97", "title": "Iterating over a command is complete", "statement": "If `async for line in cmd` ends normally, everything the command wrote was delivered.", "quantifier": "every output, chunking, consumer, exit and cancellation time", "why_tests_cant": "The outcome depends on the order in which tasks finish, time out and get cancelled; tests exercise a handful of schedules.", "anchors": ["shellous/command.py:Command._readlines", "shellous/command.py:Command.__aiter__", "shellous/runner.py:Runner.__aiter__", "shellous/redirect.py:read_lines"]}
{"id": "C98", "title": "Iterating over a pipeline is complete", "statement": "If `async for line in pipeline` ends normally, everything the last command wrote was delivered.", "quantifier": "every pipeline length, output, chunking, consumer and schedule", "why_tests_cant": "The outcome depends on the order in which tasks finish, time out and get cancelled; tests exercise a handful of schedules.", "anchors": ["shellous/pipeline.py:Pipeline._readlines", "shellous/pipeline.py:Pipeline.__aiter__", "shellous/runner.py:PipeRunner._readlines", "shellous/redirect.py:read_lines"]}
{"id": "C99", "title": "An iteration over a pipeline leaves no command running", "statement": "However an iteration over a pipeline ends (end of output, error, cancellation, closing the generator after a break), no command of the pipeline is left running.", "quantifier": "every pipeline length, consumer and schedule", "why_tests_cant": "The outcome depends on the order in which tasks finish, time out and get cancelled; tests exercise a handful of schedules.", "anchors": ["shellous/pipeline.py:Pipeline._readlines", "shellous/runner.py:PipeRunner.__aexit__", "shellous/runner.py:PipeRunner._wait"]}
{"id": "C102", "title": "Child exit callback is not lost (kqueue)", "statement": "With the kqueue watcher, for a watched child that exits before the watcher is closed the callback is called exactly once.", "quantifier": "every interleaving of the watching thread, callers, polling tasks and child exits, every order of events", "why_tests_cant": "The outcome depends on the order in which tasks finish, time out and get cancelled; tests exercise a handful of schedules.", "anchors": ["shellous/watcher.py:KQueueStrategy", "shellous/watcher.py:_poll_dead_pid", "shellous/watcher.py:_invoke_callback", "shellous/util.py:wait_pid"]}
{"id": "C103", "title": "Closing the kqueue watcher comes to an end", "statement": "A call of close() returns, whatever callers and children do meanwhile; it raises only if a callback raised something other than RuntimeError before.", "quantifier": "every interleaving", "why_tests_cant": "The outcome depends on the order in which tasks finish, time out and get cancelled; tests exercise a handful of schedules.", "anchors": ["shellous/watcher.py:KQueueStrategy.close", "shellous/watcher.py:KQueueStrategy._run"]}
{"id": "C104", "title": "The kqueue descriptor is closed once", "statement": "The kqueue watcher closes its kqueue descriptor at most once, and exactly once when close() has returned.", "quantifier": "every interleaving", "why_tests_cant": "The outcome depends on the order in which tasks finish, time out and get cancelled; tests exercise a handful of schedules.", "anchors": ["shellous/watcher.py:KQueueStrategy._run", "shellous/watcher.py:KQueueStrategy.close"]}
{"id": "C105", "title": "A recycled pid can be watched again (kqueue)", "statement": "With the kqueue watcher, a child is never refused because of an earlier child with the same pid.", "quantifier": "every interleaving, every reuse of pids", "why_tests_cant": "The outcome depends on the order in which tasks finish, time out and get cancelled; tests exercise a handful of schedules.", "anchors": ["shellous/watcher.py:KQueueStrategy.watch_pid", "shellous/watcher.py:KQueueStrategy._reap_pid"]}
{"id": "C106", "title": "A pipeline that succeeds is complete", "statement": "If `await pipeline` gives a value, every command of the pipeline has ended by itself with an exit code it accepts, and the value is everything the last command wrote to its standard output, decoded with its encoding.", "quantifier": "every pipeline length, options, answer of the operating system, arrival of the data and schedule of exits, timeouts, signals and cancellations in every command", "why_tests_cant": "The outcome depends on the order in which tasks finish, time out and get cancelled; tests exercise a handful of schedules.", "anchors": ["shellous/pipeline.py:Pipeline.__await__", "shellous/runner.py:PipeRunner.run_pipeline", "shellous/runner.py:PipeRunner._start", "shellous/runner.py:PipeRunner._setup_pipeline", "shellous/runner.py:Runner.run_command", "shellous/result.py:convert_result_list"]}
{"id": "C107", "title": "The timeout of a pipeline is reported", "statement": "If a command of an awaited pipeline does not finish within its timeout, `await pipeline` raises an exception.", "quantifier": "every pipeline length, options and schedule of exits, timeouts and cancellations in every command", "why_tests_cant": "The outcome depends on the order in which tasks finish, time out and get cancelled; tests exercise a handful of schedules.", "anchors": ["shellous/runner.py:PipeRunner.run_pipeline", "shellous/runner.py:PipeRunner.result", "shellous/runner.py:Runner.__aexit__", "shellous/result.py:convert_result_list", "shellous/result.py:check_result"]}
{"id": "C108", "title": "The pty descriptor is closed exactly once", "statement": "With pty streams open, the parent descriptor of the terminal is closed at most once, not before the streams are closed or the terminal has refused input, and it is closed once close() was called and pending input was taken or refused.", "quantifier": "every data, chunking, refusal, and interleaving of loop callbacks, program calls and terminal events", "why_tests_cant": "The outcome depends on the order in which tasks finish, time out and get cancelled; tests exercise a handful of schedules.", "anchors": ["shellous/pty_util.py:_open_pty_streams", "shellous/pty_util.py:PtyFds.close"]}
{"id": "C109", "title": "The loop never watches a recycled pty descriptor", "statement": "After the parent descriptor of the terminal was closed, shellous's streams never make the event loop watch the same descriptor number again (it may belong to another file by then).", "quantifier": "every data, chunking, refusal and interleaving", "why_tests_cant": "The outcome depends on the order in which tasks finish, time out and get cancelled; tests exercise a handful of schedules.", "anchors": ["shellous/pty_util.py:_open_pty_streams"]}
{"id": "C110", "title": "Output of a pty is read in order", "statement": "What is read from the pty reader is, at any time, a prefix of what the processes on the terminal wrote: nothing twice, nothing foreign, nothing out of order.", "quantifier": "every data, chunking, refusal and interleaving", "why_tests_cant": "The outcome depends on the order in which tasks finish, time out and get cancelled; tests exercise a handful of schedules.", "anchors": ["shellous/pty_util.py:_open_pty_streams", "shellous/pty_util.py:PtyStreamReaderProtocol"]}
{"id": "C111", "title": "All output of a pty and its end is seen", "statement": "Unless the program closes the streams or a read fails, a reader that keeps reading gets all that the processes on the terminal wrote, and end-of-file (not an EIO error) exactly after they have all closed it.", "quantifier": "every data, chunking, refusal and interleaving", "why_tests_cant": "The outcome depends on the order in which tasks finish, time out and get cancelled; tests exercise a handful of schedules.", "anchors": ["shellous/pty_util.py:PtyStreamReaderProtocol.connection_lost", "shellous/pty_util.py:PtyStreamReaderProtocol.eof_received", "shellous/pty_util.py:_open_pty_streams"]}
{"id": "C112", "title": "Input of a pty arrives complete and in order", "statement": "The terminal gets what the program wrote before close(), in order, nothing twice; and all of it as soon as the writer has nothing left to flush, unless the terminal refused input.", "quantifier": "every data, partial write, refusal and interleaving", "why_tests_cant": "The outcome depends on the order in which tasks finish, time out and get cancelled; tests exercise a handful of schedules.", "anchors": ["shellous/pty_util.py:_open_pty_streams"]}
{"id": "C113", "title": "No deadlock", "statement": "While a command or pipeline runs with its input written and its output (and error output) collected by shellous, the processes never all wait for each other or for shellous: whenever the event loop has nothing left to do and some process has not exited, some process can go on. In particular the first process never waits for input that shellous holds, the last never waits because shellous does not take its output, and no process waits because of its error messages.", "quantifier": "every number of processes, every behaviour of the processes, every input, every error_limit, every pipe capacity of at least PIPE_BUF, every interleaving", "why_tests_cant": "The outcome depends on the order in which tasks finish, time out and get cancelled; tests exercise a handful of schedules.", "anchors": ["shellous/redirect.py:write_stream", "shellous/redirect.py:write_reader", "shellous/redirect.py:copy_bytearray", "shellous/redirect.py:copy_bytearray_limit", "shellous/redirect.py:copy_bytesio", "shellous/redirect.py:copy_stringio", "shellous/runner.py:Runner._setup_output_sink"]}
{"id": "C114", "title": "The event loop comes to rest", "statement": "At any moment of a run, if the processes do nothing, shellous and the event loop can only take a limited number of steps and then have nothing left to do: no busy loop between paused transports, full pipes and buffers.", "quantifier": "every reachable state and every order of callbacks", "why_tests_cant": "The outcome depends on the order in which tasks finish, time out and get cancelled; tests exercise a handful of schedules.", "anchors": ["shellous/redirect.py:write_stream", "shellous/redirect.py:write_reader", "shellous/redirect.py:copy_bytearray", "shellous/redirect.py:copy_bytearray_limit"]}
{"id": "C115", "title": "The first process reads exactly the input", "statement": "What the first process reads from stdin is a beginning of the input, in order; it sees end of file only after all of the input; and if it goes on reading it gets all of the input and then end of file. The same holds between the processes of a pipeline.", "quantifier": "every input (bytes, or any chunks of a stream), process behaviour, pipe capacity, partial write and interleaving", "why_tests_cant": "The outcome depends on the order in which tasks finish, time out and get cancelled; tests exercise a handful of schedules.", "anchors": ["shellous/redirect.py:write_stream", "shellous/redirect.py:write_reader", "shellous/runner.py:Runner._setup_input_source"]}
{"id": "C116", "title": "Output is collected completely", "statement": "What shellous has collected from stdout or stderr is always a beginning of what the process wrote, cut at the error limit if there is one; a task that collects ends only when all of it is there, and it ends as soon as the writing end is closed and the loop has run; after all processes have exited all tasks that write input or collect output end.", "quantifier": "every output, limit, process behaviour, pipe capacity and interleaving", "why_tests_cant": "The outcome depends on the order in which tasks finish, time out and get cancelled; tests exercise a handful of schedules.", "anchors": ["shellous/redirect.py:copy_bytearray", "shellous/redirect.py:copy_bytearray_limit", "shellous/redirect.py:copy_bytesio", "shellous/redirect.py:copy_stringio", "shellous/redirect.py:write_stream", "shellous/redirect.py:write_reader"]}
{"id": "C117", "title": "Nothing a run started outlives it", "statement": "When `async with cmd` is over, however it ended, every task that shellous started for it (copying, waiting for the process, nested commands of process substitution) is over too, unless shellous reports that it had to give up.", "quantifier": "every launch outcome, body, number of tasks and schedule of exits, timeouts, signals and cancellations", "why_tests_cant": "The outcome depends on the order in which tasks finish, time out and get cancelled; tests exercise a handful of schedules.", "anchors": ["shellous/runner.py:Runner._kill", "shellous/runner.py:Runner._wait", "shellous/runner.py:Runner._finish", "shellous/runner.py:Runner._close", "shellous/runner.py:Runner._start", "shellous/runner.py:Runner.__aexit__", "shellous/harvest.py:harvest"]}
{"id": "C118", "title": "Process substitution connects the right ends", "statement": "Each command or pipeline among the arguments of a command is replaced by the name of one end of a pipe of its own, that end is inherited by the process (and closed in the parent after the launch), and the substituted command gets the other end: as standard output, or as standard input if it is marked writable. All other arguments are passed unchanged, in order.", "quantifier": "every argument list, options and outcome of the system calls", "why_tests_cant": "The input space is unbounded; a test only samples a few shapes.", "anchors": ["shellous/runner.py:_RunOptions._setup_process_substitution", "shellous/runner.py:_RunOptions.__enter__", "shellous/runner.py:_RunOptions._setup_pass_fds", "shellous/runner.py:_is_writable"]}
{"id": "C119", "title": "Success includes the substituted commands", "statement": "If `await cmd` returns a value, every command substituted into its arguments, at any depth of nesting, has succeeded too: it returned a value and its process exited with a code it accepts. If any of them fails, `await cmd` raises an exception.", "quantifier": "every tree of substituted commands, options, outcome of the system calls and schedule of exits, timeouts, signals and cancellations", "why_tests_cant": "The outcome depends on the order in which tasks finish, time out and get cancelled; tests exercise a handful of schedules.", "anchors": ["shellous/runner.py:Runner._subprocess_spawn", "shellous/runner.py:Runner._wait", "shellous/runner.py:Runner.run_command", "shellous/runner.py:_RunOptions._setup_process_substitution", "shellous/command.py:Command.coro"]}
{"id": "C120", "title": "Substituted commands do not outlive the command", "statement": "When `await cmd` is over, however it ended, no command substituted into its arguments, at any depth, is still running, and no process of theirs is left.", "quantifier": "every tree of substituted commands, options, outcome of the system calls and schedule of exits, timeouts, signals and cancellations", "why_tests_cant": "The outcome depends on the order in which tasks finish, time out and get cancelled; tests exercise a handful of schedules.", "anchors": ["shellous/runner.py:Runner._subprocess_spawn", "shellous/runner.py:Runner._kill", "shellous/runner.py:Runner._finish", "shellous/runner.py:Runner._close", "shellous/runner.py:Runner.run_command"]}
{"id": "C121", "title": "Configuring a context configures its commands", "statement": "Any chain of stdin/stdout/stderr/env/set/result calls on a context `sh`, followed by `sh(args)`, gives the same command (arguments, options, effects of coerce_arg, exception) as `sh(args)` followed by the same chain, unless the chain changes coerce_arg; a chain fails on the context exactly when it fails on a command, with the same exception; and each option of the context is then the one given by the last call that mentioned it.", "quantifier": "every chain of calls, context and argument list", "why_tests_cant": "The input space is unbounded; a test only samples a few shapes.", "anchors": ["shellous/command.py:CmdContext.stdin", "shellous/command.py:CmdContext.stdout", "shellous/command.py:CmdContext.stderr", "shellous/command.py:CmdContext.env", "shellous/command.py:CmdContext.set", "shellous/command.py:CmdContext.result", "shellous/command.py:CmdContext.__call__"]}
{"id": "C122", "title": "The program that runs is the one find_command reports", "statement": "`sh.find_command(name)` is the file `name` of the first entry of the search path (the `path` option, else the PATH of this process, never the command's env) that holds an executable file of that name, or None; running `sh(name)` executes exactly that file, or raises FileNotFoundError before anything is started if it is None. A program given with a directory is executed as it is.", "quantifier": "every name, search path, contents of the file system, environment of the process and of the command", "why_tests_cant": "The input space is unbounded; a test only samples a few shapes.", "anchors": ["shellous/command.py:Options.which", "shellous/command.py:CmdContext.find_command", "shellous/runner.py:_RunOptions.__enter__", "shellous/command.py:Options.runtime_env"]}
{"id": "C123", "title": "Chunks never change decoded text", "statement": "For every supported encoding option (codec, optionally followed by an error handler) the text a Prompt reads is what decoding the whole output at once gives, or both fail, no matter how the output is cut into chunks, also with newline normalisation; text that is sent in pieces and echoed back arrives unchanged.", "quantifier": "every encoding utf-8, latin-1, ascii, utf-16-le with strict, replace, ignore, surrogateescape; every output, valid or not; every division into chunks", "why_tests_cant": "The input space is unbounded; a test only samples a few shapes.", "anchors": ["shellous/util.py:decode_bytes", "shellous/util.py:encode_bytes", "shellous/prompt.py:_make_decoder", "shellous/command.py:Options.encoding"]}
{"id": "C124", "title": "Error handlers keep every valid character", "statement": "With `replace`, `ignore` or `surrogateescape` decoding output never fails: every valid character is kept in its place and every ill-formed sequence yields exactly its replacement; with surrogateescape encoding the text again gives back the original bytes; on valid output all handlers agree with strict. Encoding with `replace` or `ignore` never fails either and leaves every encodable character as it is.", "quantifier": "every byte string; utf-8, latin-1, ascii", "why_tests_cant": "The input space is unbounded; a test only samples a few shapes.", "anchors": ["shellous/util.py:decode_bytes", "shellous/util.py:encode_bytes", "shellous/result.py:Result.output", "shellous/redirect.py:copy_stringio"]}
{"id": "C125", "title": "Lines are the lines of the whole text", "statement": "Iterating over a command gives the lines of the decoded output: decoding line by line equals decoding the whole output, for every encoding and error handler; if it fails, the lines before the first undecodable one are delivered first.", "quantifier": "every output without over-long lines, every division into chunks, every encoding and handler", "why_tests_cant": "The input space is unbounded; a test only samples a few shapes.", "anchors": ["shellous/redirect.py:read_lines", "shellous/redirect.py:copy_logger", "shellous/runner.py:Runner._readlines", "shellous/util.py:decode_bytes"]}
{"id": "C126", "title": "The error text can always be read", "statement": "If a command writes valid text to standard error, `result.error` returns the part of it that fits into `error_limit` and does not fail.", "quantifier": "every text, error_limit, encoding and error handler", "why_tests_cant": "The input space is unbounded; a test only samples a few shapes.", "anchors": ["shellous/result.py:Result.error", "shellous/redirect.py:copy_bytearray_limit", "shellous/command.py:Options.error_limit", "shellous/util.py:decode_bytes"]}
{"id": "C127", "title": "A child whose watching failed is still reaped", "statement": "If the pidfd of a child cannot be watched, the child is polled up to five times: as soon as a poll finds it dead the callback is called exactly once with its exit status; if it is still running at all five polls, the callback is never called; it is never polled after its pid could have been used again.", "quantifier": "every interleaving of the polling task with the watching thread, other watches and child exits", "why_tests_cant": "The outcome depends on the order in which tasks finish, time out and get cancelled; tests exercise a handful of schedules.", "anchors": ["shellous/watcher.py:EPollStrategy.watch_pid", "shellous/watcher.py:_poll_dead_pid"]}
{"id": "C128", "title": "pass_fds takes any iterable", "statement": "With `pass_fds=fds` and `pass_fds_close=True`, every run of a command passes each of the given descriptors to the child, after those of its process substitutions, and closes each of them once in the parent, whether or not the launch succeeds. The full claim fails for an iterator (a generator is used up by the first use: nothing is closed, and a second run passes nothing); it holds for containers over any number of runs, and with an iterator nothing else is ever passed or closed. Each descriptor is closed at most once if the command is run once; a command run twice closes the same numbers twice.", "quantifier": "every iterable of descriptors (container or iterator), every combination of pass_fds_close, close_fds and process substitution, every history of runs that fail early, find no program, or launch", "why_tests_cant": "the length of the iterable, its kind and the number of runs are unbounded; the tests use one tuple and one run", "anchors": ["shellous/command.py:Options.pass_fds", "shellous/runner.py:_RunOptions._setup_pass_fds", "shellous/runner.py:_cleanup"]}
{"id": "C129", "title": "Every child is waited for by exactly one party", "statement": "On BSD, shellous polls for the child of a pty itself; the child watcher of asyncio is told about every other child exactly once, and never about a pty child, however many launches (with and without pty, and by the application itself) are interleaved, and the flag that says so never leaks out of the launch. The full claim fails when two event loops in two threads launch their first ptys at the same time (the second sees the mark of the patch before the patch); it holds in one event loop; for children without a pty it holds in any number of threads.", "quantifier": "every interleaving, statement by statement, of any number of launches and of changes of the child watcher", "why_tests_cant": "The outcome depends on the order in which tasks finish, time out and get cancelled; tests exercise a handful of schedules.", "anchors": ["shellous/pty_util.py:set_ignore_child_watcher", "shellous/pty_util.py:_patch_child_watcher", "shellous/runner.py:Runner._subprocess_exec"]}
{"id": "C130", "title": "The exit status of a BSD pty is polled correctly", "statement": "The loop that polls for the child of a BSD pty ends at the first poll after the child has ended, with a return code that never changes afterwards and the child reaped; nothing is reported earlier; no signal is ever sent to a process id that is not our running child. The return code is the child's own status. The last claim fails if the child is signalled between its end and the next poll (Popen.send_signal takes the status away), or if it exits with 255 after a signal; it holds otherwise, and a lost status is reported as minus the last signal sent, or 255.", "quantifier": "every sequence of polls, signals, waits by others and the end of the child", "why_tests_cant": "The outcome depends on the order in which tasks finish, time out and get cancelled; tests exercise a handful of schedules.", "anchors": ["shellous/runner.py:Runner._wait_pid", "shellous/runner.py:Runner.returncode", "shellous/runner.py:Runner._signal", "shellous/util.py:poll_wait_pid", "shellous/util.py:wait_pid"]}
{"id": "C131", "title": "An audit callback that raises", "statement": "If the audit callback raises, the exception comes out of the run, start and stop are still reported (start only, if it was the report of the start that raised), and the child process is not left running: when the run ends it has exited or SIGKILL has been sent to it. The last claim fails if the start of the run fails after the launch (it is cancelled, or the redirections cannot be set up) and the callback raises on the reports of both SIGTERM and SIGKILL: neither signal is sent. It holds for every run whose body was entered, whatever the callback does, and for callbacks that only raise on start and stop.", "quantifier": "every callback (each call may return or raise anything), launch outcome, body, schedule of exits, timeouts and cancellations", "why_tests_cant": "The outcome depends on the order in which tasks finish, time out and get cancelled; tests exercise a handful of schedules.", "anchors": ["shellous/runner.py:Runner._audit_callback", "shellous/runner.py:Runner._signal", "shellous/runner.py:Runner._kill", "shellous/runner.py:Runner._kill_wait", "shellous/runner.py:Runner.__aenter__", "shellous/runner.py:Runner.__aexit__"]}
{"id": "C132", "title": "Runs on a BSD pty", "statement": "On a BSD-derived system (macOS, FreeBSD), where a command on a pty is waited for by polling instead of by a child watcher, a run keeps the same promises: the audit callback sees start, every signal and stop; the child is not left running; the exit status is collected, and is the one with which the child exited, with the exceptions of C35 and C39; a run in which nothing goes wrong sends no signal; no signal is sent after the exit; SIGKILL only follows the cancel signal; timeouts and cancellations are reported as in C38. The polling itself returns only with the exit status (or is cancelled), and sees a process that has exited at its first poll.", "quantifier": "every launch outcome, body, number of tasks, and schedule of exits, polls, timeouts, signals and cancellations", "why_tests_cant": "The outcome depends on the order in which tasks finish, time out and get cancelled; tests exercise a handful of schedules.", "anchors": ["shellous/runner.py:Runner._is_bsd_pty", "shellous/runner.py:Runner._wait", "shellous/runner.py:Runner._wait_pid", "shellous/runner.py:Runner._waiter", "shellous/runner.py:Runner._start", "shellous/util.py:poll_wait_pid"]}
{"id": "C133", "title": "`async for line in cmd` gives the lines the child writes to its standard output", "statement": "With the default redirection of stdout, `async for line in cmd` gives the first lines of what the child writes to its standard output, decoded with the command's encoding, in order and none twice, however it ends; nothing else reads that stream. If the loop ends normally (and was not cancelled or timed out, and no other code cancelled shellous's own copying tasks), all lines were given, and a bytearray, StringIO, BytesIO, Logger or StreamWriter set as stderr has received everything the child wrote to standard error.", "quantifier": "every command and options, system, output, chunking, consumer, exit and cancellation time", "why_tests_cant": "Tests use short outputs and one schedule; the claim joins the preflight, the routing, the copying tasks and the loop.", "anchors": ["shellous/command.py:Command.__aiter__", "shellous/command.py:Command._readlines", "shellous/redirect.py:aiter_preflight", "shellous/redirect.py:read_lines", "shellous/runner.py:Runner._setup_output_sink", "shellous/runner.py:Runner.__aiter__"]}
{"id": "C134", "title": "`async for line in pipeline` gives the lines the last command writes to its standard output", "statement": "With the default redirection of the last command's stdout, `async for line in pipeline` gives the first lines of what the last command writes to its standard output, decoded with its encoding, in order and none twice, however it ends; nothing else reads that stream. If the loop ends normally and was not cancelled, all lines were given.", "quantifier": "every pipeline and options of its commands, system, output, chunking, consumer, exit and cancellation time", "why_tests_cant": "Tests use short pipelines, short outputs and one schedule; the claim joins the preflight, the pipes, the routing of the last command, the run of the pipeline and the loop.", "anchors": ["shellous/pipeline.py:Pipeline.__aiter__", "shellous/pipeline.py:Pipeline._readlines", "shellous/redirect.py:aiter_preflight", "shellous/runner.py:PipeRunner._setup_pipeline", "shellous/runner.py:PipeRunner._setup_capturing", "shellous/runner.py:PipeRunner._readlines"]}
{"id": "C135", "title": "A prompt session talks to the child's standard streams", "statement": "Whatever redirections the command has, `cmd.prompt()` is accepted, and if the process starts (and its encoding is known) the session exists: what its operations return is, in order, none twice and none left out, what the child writes to its standard output (or terminal), decoded with the command's encoding; what they write goes, encoded with it, to the child's standard input (or terminal) in their order. Nothing else in shellous reads or writes these streams.", "quantifier": "every command and options, system, output, chunking, sequence of operations, schedule and interruption", "why_tests_cant": "Tests use a few redirections and short dialogues; the claim joins the options, the routing, the decoder and the operations.", "anchors": ["shellous/command.py:Command.prompt", "shellous/prompt.py:Prompt.__init__", "shellous/runner.py:_RunOptions._setup_redirects", "shellous/runner.py:Runner._setup_output_sink", "shellous/runner.py:Runner._setup_input_source", "shellous/runner.py:Runner.pty_eof"]}
{"id": "C136", "title": "A pipeline's prompt session talks to its two ends", "statement": "Whatever redirections its first and last command have, `pipeline.prompt()` is accepted, and once the commands are started (and the encoding is known) the session exists: what its operations return is, in order, none twice and none left out, what the last command writes to its standard output, decoded with its encoding; what they write goes, in their order and encoded with the last command's encoding, to the first command's standard input. Nothing else in shellous reads or writes these streams.", "quantifier": "every pipeline and options of its commands, system, output, chunking, sequence of operations, schedule and interruption", "why_tests_cant": "Tests use a few pipelines and short dialogues; the claim joins the options, the pipes, the routing, the decoder and the operations.", "anchors": ["shellous/pipeline.py:Pipeline.prompt", "shellous/prompt.py:Prompt.__init__", "shellous/runner.py:PipeRunner._setup_pipeline", "shellous/runner.py:PipeRunner._setup_capturing", "shellous/runner.py:PipeRunner.options"]}
{"id": "C137", "title": "A pipeline is the sequence of its commands", "statement": "However a pipeline was grouped with `|`, len(), indexing from the front and from the back, and its name give its commands in order, each unchanged; an index outside raises an exception; putting the elements together again gives an equal pipeline.", "quantifier": "every grouping of every non-empty list of commands, every index", "why_tests_cant": "The input space is unbounded; a test only samples a few shapes.", "anchors": ["shellous/pipeline.py:Pipeline.__len__", "shellous/pipeline.py:Pipeline.__getitem__", "shellous/pipeline.py:Pipeline.name", "shellous/pipeline.py:Pipeline._add", "shellous/command.py:Command.__or__", "shellous/command.py:Command.name"]}
