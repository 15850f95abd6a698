(** Model of how the exit status of a child on a BSD pty is collected: runner.py
    547-559 (_wait_pid), 511-520 (send_signal, cancel), 590-603 (_signal),
    615-625 (poll after a kill), 434-449 (returncode); util.py 86-138 (wait_pid,
    poll_wait_pid); subprocess.py of Python 3.12 (Popen.poll and
    Popen.send_signal); asyncio/base_subprocess.py 149-151 (send_signal).

    There is no child watcher for this child (IgnoreModel).  The state changes
    by atomic events: the child exits, shellous polls once, shellous or the user
    sends a signal, somebody else in the process calls os.wait.
    Simplifications: one child; every exit status is understood by
    waitstatus_to_exitcode. *)
From Verif Require Export Base.
Open Scope Z_scope.

Inductive child := Running | Zombie (z : Z) | Gone.
Record st := mk_st {
  kid : child;
  rc : option Z;            (* transport._returncode, i.e. Process.returncode *)
  prc : option Z;           (* transport._proc.returncode (Popen) *)
  last : option Z;          (* Runner._last_signal *)
  kills : list (Z * child)  (* os.kill calls, and whom they reached *) }.
Definition start : st := mk_st Running None None None [].
Definition SIGKILL : Z := 9.
Definition UNKNOWN : Z := 255.

(** util.py 86-117: wait_pid with WNOHANG: the status, if there is one. *)
Definition wait_pid (s : st) : option Z * child :=
  match kid s with
  | Running => (None, Running)
  | Zombie z => (Some z, Gone)
  | Gone => (Some UNKNOWN, Gone)     (* ChildProcessError *)
  end.
(** util.py 120-138: poll_wait_pid; true: the loop at runner.py 552-559 ends. *)
Definition poll_wait_pid (s : st) : st * bool :=
  match rc s with
  | Some _ => (s, true)
  | None =>
      let (status, k) := wait_pid s in
      match status with
      | None => (s, false)
      | Some z => (mk_st k (Some z) (Some z) (last s) (kills s), true)
      end
  end.
(** subprocess.py: Popen.poll, ECHILD gives 0. *)
Definition popen_poll (s : st) : st :=
  match prc s with
  | Some _ => s
  | None => match kid s with
            | Running => s
            | Zombie z => mk_st Gone (rc s) (Some z) (last s) (kills s)
            | Gone => mk_st Gone (rc s) (Some 0) (last s) (kills s)
            end
  end.
(** subprocess.py: Popen.send_signal. *)
Definition popen_send (sig : Z) (s : st) : st :=
  let s1 := popen_poll s in
  match prc s1 with
  | Some _ => s1
  | None => mk_st (kid s1) (rc s1) (prc s1) (last s1) (kills s1 ++ [(sig, kid s1)])
  end.
(** runner.py 590-603: _signal. *)
Definition signal (sig : option Z) (s : st) : st :=
  match sig with
  | None => popen_send SIGKILL s
  | Some z => let s1 := popen_send z s in mk_st (kid s1) (rc s1) (prc s1) (Some z) (kills s1)
  end.
(** runner.py 434-449: Runner.returncode (the process has been launched). *)
Definition returncode (s : st) : option Z :=
  match rc s with
  | Some c => match last s with
              | Some z => if c =? UNKNOWN then Some (- z) else Some c
              | None => Some c
              end
  | None => None
  end.

Inductive ev :=
| Exit (z : Z)               (* the child ends: exit code, or minus the signal *)
| Poll                       (* one pass of the loop *)
| Signal (sig : option Z)    (* send_signal, cancel, _kill, _kill_wait *)
| Steal.                     (* os.wait() elsewhere in the process *)
(** The effect of an event; None: it cannot happen. *)
Definition step (s : st) (e : ev) : option st :=
  match e with
  | Exit z => match kid s with Running => Some (mk_st (Zombie z) (rc s) (prc s) (last s) (kills s)) | _ => None end
  | Poll => Some (fst (poll_wait_pid s))
  (* runner.py 513, 518, 574, 610: only while there is no return code *)
  | Signal sig => match returncode s with None => Some (signal sig s) | Some _ => Some s end
  | Steal => match kid s with Zombie _ => Some (mk_st Gone (rc s) (prc s) (last s) (kills s)) | _ => None end
  end.
Fixpoint run (s : st) (l : list ev) : option st :=
  match l with
  | [] => Some s
  | e :: l => match step s e with Some s' => run s' l | None => None end
  end.
