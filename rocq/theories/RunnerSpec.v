(** Specification vocabulary for C33-C41: predicates on the sequence of
    observable events of a run. *)
From Verif Require Import RunnerModel.
Open Scope Z_scope.

(** No event in [pb] comes after an event in [pa]. *)
Definition never_after (pa pb : rev -> Prop) (l : list rev) : Prop :=
  forall l1 a l2 b, l = l1 ++ a :: l2 -> pa a -> In b l2 -> ~ pb b.
(** Every event in [pa] comes after some event in [pb]. *)
Definition preceded (pa pb : rev -> Prop) (l : list rev) : Prop :=
  forall l1 a l2, l = l1 ++ a :: l2 -> pa a -> exists b, In b l1 /\ pb b.

Definition is_exit (e : rev) := exists s, e = LExit s.
Definition is_collect (e : rev) := exists s, e = LCollect s.
Definition is_sent (e : rev) := exists s, e = LSent s.
(** The process is signalled, an attempt is made, or it is reported. *)
Definition is_signal (e : rev) := exists s, e = LSignal s \/ e = LAudit (PSignal s).

(** Cancellations of the main task, by somebody or by the timer. *)
Fixpoint marks (l : list rev) : nat :=
  match l with [] => 0 | (LCancel | LExpired) :: l' => S (marks l') | _ :: l' => marks l' end.
Fixpoint audits (l : list rev) : list phase :=
  match l with [] => [] | LAudit p :: l' => p :: audits l' | _ :: l' => audits l' end.
Fixpoint signals (l : list rev) : list (option Z) :=
  match l with [] => [] | LSignal s :: l' => s :: signals l' | _ :: l' => signals l' end.

(** A fresh run. *)
Definition fresh : world rx rkind unit := mk_world [] rx0 [].
(** The events so far. *)
Definition events (w : world rx rkind unit) : list rev := x_log (w_x w).

(** Things that make somebody else than the child watcher call waitpid: sending
    a signal, giving up the launch, closing the transport of a live process. *)
Definition meddled (e : rev) := (exists s, e = LSignal s) \/ e = LAbort \/ e = LClosed.
(** The task is cancelled again after the process has been sent SIGKILL. *)
Definition disturbed (l : list rev) : Prop := exists l1 l2, l = l1 ++ LSignal None :: l2 /\ (marks l2 > 0)%nat.
(** Somebody cancels the task before the exit status is known. *)
Definition early_cancel (l : list rev) : Prop := exists l1 l2, l = l1 ++ LCancel :: l2 /\ forall z, ~ In (LCollect z) l1.
(** Some task of the run ended with this exception. *)
Definition task_failed (w : world rx rkind unit) (e : exn) : Prop := exists i, In (HDone i (TFail e)) (w_hist w).
Definition tasks_fine (w : world rx rkind unit) : Prop := forall e, ~ task_failed w e.
(** Errors by which the cleanup reports a failure of its own, or of a task. *)
Definition run_errors (w : world rx rkind unit) (e : exn) : Prop :=
  e = cancel_failed \/ e = unable_to_kill \/ (is_Exception e = true /\ task_failed w e).
Definition not_exited : exn := TypeError "Runner.result(): Process has not exited".
Definition gave_up (r : res unit) : Prop := r = Err cancel_failed \/ r = Err unable_to_kill \/ r = Err not_exited.
