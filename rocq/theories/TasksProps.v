(** Theorems for C117: what is left of the tasks of a run when `async with
    cmd:` is over.  [ext = false] as in RunnerProps. *)
From Verif Require Import AsyncModel AsyncSpec AsyncProofs HarvestModel HarvestSpec HarvestProofs HarvestProofs2 AsyncInv
  RunnerModel RunnerSpec RunnerProofs RunnerProofs2 RunnerProofs3 RunnerProofs4 RunnerProofs5 RunnerProofs6 RunnerProofs7
  RunnerProofs8 RunnerProofs9 RunnerProofs10 RunnerProofs11 RunnerProps AwaitModel AwaitProofs PipeAwaitProofs TasksProofs TasksProofs2 RunTac.
Open Scope Z_scope.

(** Task [i] was created during the run; it is over; it has been asked to end
    with [cancel()]; it only waits until the pipe to the process is closed. *)
Definition a_task (w : world rx rkind unit) (i : nat) : Prop := (i < List.length (w_tasks w))%nat.
Definition is_over (w : world rx rkind unit) (i : nat) : Prop := exists t oc, nth_error (w_tasks w) i = Some t /\ t_out t = Some oc.
Definition was_asked (w : world rx rkind unit) (i : nat) : Prop := In (HReq i) (w_hist w).
Definition waits_for_pipe (w : world rx rkind unit) (i : nat) : Prop := exists t, nth_error (w_tasks w) i = Some t /\ t_kind t = KClosed.

Definition c117_full_claim := forall o piped_stdin use_pty ob eb enc r w',
  with_run o false piped_stdin use_pty ob eb enc (any_body o false) fresh r w' -> ~ gave_up r ->
  forall i, a_task w' i -> is_over w' i.

(** The body fails; the task is cancelled while the copying task is being
    awaited, and twice more while waiting for the copying task to react to its
    own cancellation.  The exception of the body is dropped, too. *)
Lemma ex_task_left : exists w',
  with_run (ex_opts None) false false false None None [] (any_body (ex_opts None) false) fresh (Ok tt) w'
  /\ task_done w' 1 = false /\ a_task w' 1 /\ In (HReq 1) (w_hist w') /\ In (LCollect (-9)) (events w') /\ marks (events w') = 3%nat.
Proof.
  eexists. split; [|].
  - unfold with_run. eapply b_bind; [apply ex_launched|]. exists (Err boom), (launched false). split; [apply bs_refl|].
    all: go. 1: wait_by [ev XCancel]. all: go. 1: wait_by [ev XCancel]. all: go. 1: wait_by [ev XCancel]. all: go.
    1: wait_by [ev (XExit (-9)); ev XWatch; ev XCollect; fin 2 TCancelled; fin 3 (TValue tt); cb 3]. all: go.
  - vm_compute. intuition lia.
Qed.
Theorem c117_refuted : ~ c117_full_claim.
Proof.
  intros C. destruct ex_task_left as (w' & H & D & A & _). destruct (C _ _ _ _ _ _ _ _ H) with (i := 1%nat) as (t & oc & N & O); [|exact A|].
  - intros [Q|[Q|Q]]; discriminate.
  - unfold task_done, task_out in D. rewrite N, O in D. discriminate.
Qed.
Print Assumptions c117_refuted.

(** In every run: a task that is not over has been cancelled, or only waits for
    the pipe.  Missing: that it has also ended. *)
Theorem c117_asked_partial : forall o piped_stdin use_pty ob eb enc r w',
  with_run o false piped_stdin use_pty ob eb enc (any_body o false) fresh r w' ->
  forall i, a_task w' i -> is_over w' i \/ was_asked w' i \/ waits_for_pipe w' i.
Proof.
  intros o ps up ob eb enc r w' H i A. destruct (run_asked _ _ _ _ _ _ _ _ _ H i A) as [(t & N & [D|D])|D].
  - left. destruct (t_out t) as [oc|] eqn:E; [|congruence]. exists t, oc. auto.
  - right; right. exists t. auto.
  - right; now left.
Qed.
Print Assumptions c117_asked_partial.
Example c117_asked_example : exists r w',
  with_run (ex_opts None) false false false None None [] (any_body (ex_opts None) false) fresh r w' /\ a_task w' 1 /\ ~ is_over w' 1.
Proof.
  destruct ex_task_left as (w' & H & D & A & _). exists (Ok tt), w'. split; [exact H|]. split; [exact A|].
  intros (t & oc & N & O). unfold task_done, task_out in D. rewrite N, O in D. discriminate.
Qed.

(** If the run is cancelled at most once and none of its waits runs out of
    time, no task outlives it.  Missing: repeated cancellation, tasks that do
    not end in time. *)
Theorem c117_ended_partial : forall o piped_stdin use_pty ob eb enc r w',
  with_run o false piped_stdin use_pty ob eb enc (any_body o false) fresh r w' ->
  (marks (events w') <= 1)%nat -> ~ In HTimer (w_hist w') ->
  forall i, a_task w' i -> is_over w' i.
Proof.
  intros o ps up ob eb enc r w' H M NT i A. destruct (run_ended _ _ _ _ _ _ _ _ _ H i A) as [(t & N & D)|[D|D]].
  - destruct (t_out t) as [oc|] eqn:E; [|congruence]. exists t, oc. auto.
  - contradiction.
  - exfalso. destruct (run_J _ _ _ _ _ _ _ _ _ H) as (_ & _ & (MK & _) & _). unfold events in M. unfold RunnerProofs3.MK in MK. lia.
Qed.
Print Assumptions c117_ended_partial.
(** The body fails, the task is cancelled once during the cleanup. *)
Example c117_ended_example : exists r w',
  with_run (ex_opts None) false false false None None [] (any_body (ex_opts None) false) fresh r w'
  /\ marks (events w') = 1%nat /\ ~ In HTimer (w_hist w') /\ a_task w' 2 /\ In (LSent 15) (events w').
Proof.
  eexists (Ok tt), _. split; [|].
  - unfold with_run. eapply b_bind; [apply ex_launched|]. exists (Err boom), (launched false). split; [apply bs_refl|].
    all: go. 1: wait_by [ev XCancel]. all: go. 1: wait_by [fin 1 TCancelled; fin 2 TCancelled; cb 1; cb 2]. all: go.
    1: wait_by [ev (XExit (-9)); ev XWatch; ev XCollect; fin 3 (TValue tt); cb 3]. all: go.
  - vm_compute. intuition (try discriminate; try lia).
Qed.

(** A run nobody cancels and whose timeout does not expire leaves no task, or
    reports it by an exception of its own.  Missing: cancelled runs. *)
Theorem c117_quiet_partial : forall o piped_stdin use_pty ob eb enc r w',
  with_run o false piped_stdin use_pty ob eb enc (any_body o false) fresh r w' ->
  marks (events w') = 0%nat ->
  (forall i, a_task w' i -> is_over w' i) \/ exists e, r = Err e /\ run_errors w' e.
Proof.
  intros o ps up ob eb enc r w' H M. destruct (run_quiet _ _ _ _ _ _ _ _ H M) as [Q|Q]; [left|now right].
  intros i A. specialize (Q i A). unfold task_done, task_out in Q. destruct (nth_error (w_tasks w') i) as [t|] eqn:N; [|discriminate].
  destruct (t_out t) as [oc|] eqn:E; [|discriminate]. exists t, oc. auto.
Qed.
Print Assumptions c117_quiet_partial.
Theorem c117_returns_partial : forall o piped_stdin use_pty ob eb enc w',
  with_run o false piped_stdin use_pty ob eb enc (any_body o false) fresh (Ok tt) w' ->
  marks (events w') = 0%nat -> forall i, a_task w' i -> is_over w' i.
Proof. intros o ps up ob eb enc w' H M. destruct (c117_quiet_partial _ _ _ _ _ _ _ _ H M) as [Q|(e & Q & _)]; [exact Q|discriminate]. Qed.
Print Assumptions c117_returns_partial.
Example c117_quiet_example : exists w',
  with_run (ex_opts (Some 5)) false false false None None [] (any_body (ex_opts (Some 5)) false) fresh (Ok tt) w'
  /\ marks (events w') = 0%nat /\ a_task w' 0.
Proof.
  eexists. split; [|].
  - unfold with_run. eapply b_bind; [apply (ex_launched (Some 5))|]. exists (Ok tt), (launched true). split; [apply bs_refl|].
    all: go. 1: wait_by normal_end. all: go.
  - vm_compute. split; [reflexivity|lia].
Qed.
(** A copying task that ignores its cancellation for longer than the cancel
    timeout: the run reports it. *)
Example c117_quiet_example_loud : exists r w',
  with_run (ex_opts None) false false false None None [] (any_body (ex_opts None) false) fresh r w'
  /\ marks (events w') = 0%nat /\ a_task w' 1 /\ ~ is_over w' 1 /\ r = Err cancel_failed.
Proof.
  eexists (Err cancel_failed), _. split; [|].
  - unfold with_run. eapply b_bind; [apply ex_launched|]. exists (Err boom), (launched false). split; [apply bs_refl|].
    all: go. 1: wait_by [@WTimer unit rxe]. all: go. 1: wait_by [fin 2 TCancelled; cb 2; @WTimer unit rxe]. all: go.
    1: wait_by [ev (XExit (-9)); ev XWatch; ev XCollect; fin 3 (TValue tt); cb 3]. all: go.
  - split; [reflexivity|]. split; [vm_compute; lia|]. split; [|reflexivity]. intros (t & oc & N & O). vm_compute in N. injection N as <-. discriminate.
Qed.
