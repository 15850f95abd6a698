(** Specification for the flow of data between shellous and the processes
    (C113-C116). *)
From Verif Require Export FlowModel.
Open Scope Z_scope.

(** The event loop has nothing to do, except, perhaps, to write to the stdin
    pipe although poll() does not report it as writable (POSIX: a pipe is
    writable if PIPE_BUF bytes fit). *)
Definition loop_idle (n : nat) (s : st) : Prop :=
  forall s', l_step n s s' -> room (pipes s 0) < PIPE_BUF /\ p_in (pipes s' 0) <> p_in (pipes s 0).

(** A write of [b] to a pipe can wait: up to PIPE_BUF bytes are written in one
    piece. *)
Definition full (p : pipe) (b : bytes) : Prop := room p < Z.min PIPE_BUF (size b).
(** Process [i] waits in a system call that cannot go on. *)
Definition blocked (s : st) (i : nat) : Prop :=
  match procs s i with
  | Reading => data (pipes s i) = [] /\ w_open (pipes s i) = true
  | WritingOut b => r_open (pipes s (S i)) = true /\ full (pipes s (S i)) b
  | WritingErr b => full (epipes s i) b
  | _ => False
  end.

(** [k] steps of the event loop and shellous's tasks, while the processes do
    nothing. *)
Inductive loop_run (n : nat) (s : st) : nat -> st -> Prop :=
| lr_none : loop_run n s 0 s
| lr_more k s1 s2 : loop_run n s k s1 -> l_step n s1 s2 -> loop_run n s (S k) s2.

(** The input: chunks up to the first empty one, which means end of file. *)
Fixpoint whole (l : list bytes) : bytes := match l with [] => [] | b :: l => match b with [] => [] | _ => b ++ whole l end end.
(** error_limit *)
Definition cut (l : option nat) (b : bytes) : bytes := match l with Some k => firstn k b | None => b end.
Definition prefix_of (a b : bytes) : Prop := exists c, b = a ++ c.
(** A task of shellous that writes or collects has ended. *)
Definition input_done (s : st) : Prop := pc (wr s) = WClosed \/ pc (wr s) = WFailed.
Definition big_enough (caps : nat -> Z) : Prop := forall i, PIPE_BUF <= caps i.
