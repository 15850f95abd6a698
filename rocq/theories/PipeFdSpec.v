(** Specification vocabulary for C44: the system calls of the member commands of
    a pipeline. *)
From Verif Require Import RunOptionsModel PipelineModel FdSpec.
Open Scope Z_scope.

(** The circumstances under which a member command runs: the environment, the
    next free descriptor, does it have a ready-future (first and last command of
    a capturing pipeline), does its launch fail. *)
Record member_run := { m_world : world; m_next : Z; m_future : bool; m_failed : bool }.
(** runner.py 968-984: run_command: a command that would capture both streams is
    refused and cleaned up; otherwise it is set up, launched and cleaned up.
    This happens before the command's first await, so once its task has started
    it cannot be interrupted before the cleanup is certain. *)
Definition member_fds (c : command) (m : member_run) : list fdev :=
  match run_command_guard c (m_future m) with
  | Some _ => cleanup (cmd_value c) []
  | None => run_fds (m_world m) c (m_next m) (m_failed m)
  end.
Fixpoint members_fds (cmds : list command) (ms : list member_run) : list fdev :=
  match cmds, ms with c :: cmds', m :: ms' => member_fds c m ++ members_fds cmds' ms' | _, _ => [] end.

(** os.pipe() returned new descriptors: the commands do not mention them. *)
Definition new_descriptors (fds : list Z) (cmds : list command) : Prop :=
  NoDup fds /\ forall fd c, In fd fds -> In c cmds -> ~ In fd (closable (c_opts c)) /\ forall a, In a (c_args c) -> ~ mentions a fd.
