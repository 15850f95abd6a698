(** Theorems for C132: one run of a command on a pty of a BSD-derived system
    (macOS, FreeBSD), where the Runner polls waitpid itself instead of having a
    waiter task.  They hold for every launch outcome, body, number of tasks, and
    every schedule of exits, timeouts, signals and cancellations. *)
From Verif Require Import AsyncModel AsyncSpec AsyncProofs HarvestModel HarvestSpec HarvestProofs HarvestProofs2 AsyncInv
  RunnerModel RunnerSpec RunnerProofs RunnerProofs2 RunnerProofs3 RunnerProofs4 RunnerProofs5 RunnerProofs6 RunnerProofs7
  RunnerProofs8 RunnerProofs9 RunnerProofs10 RunnerProofs11 BsdRunModel BsdRunProofs BsdRunProofs2 BsdRunProofs3 RunnerProps RunTac.
Open Scope Z_scope.

(** A launched process and one copying task (task 1); nobody waits for the process. *)
Definition launched_bsd (timeout : bool) : world rx rkind unit :=
  mk_world [mk_task KExec (Some (TValue tt)) 0; mk_task KIO None 0]
    (mk_rx [LAudit PStart; LSpawn] false false true true None false None None false timeout false None [1%nat] true)
    [HDone 0 (TValue tt)].
Lemma any_now o ext (w : world rx rkind unit) : await_any o ext w (Ok tt) w.
Proof. exists (@nil (@wev unit rxe)). eexists. split; [vr|vm_compute; discriminate]. Qed.
Lemma ex_launched_bsd t ext ob eb enc :
  aenter_bsd (ex_opts t) ext ob eb enc fresh (Ok tt) (launched_bsd (match t with Some _ => true | None => false end)).
Proof.
  destruct t.
  - all: go. 1: apply setup_ok. all: go. 1: apply any_now. all: go. 1: wait_by (@nil (@wev unit rxe)).
    all: go. 1: wait_by [ev XSpawn; fin 0 (TValue tt); RunnerProps.cb 0].
    all: go. 1: exists 1%nat. all: go. 1: apply setup_ok. all: go.
  - all: go. 1: apply setup_ok. all: go. 1: apply any_now. all: go. 1: wait_by (@nil (@wev unit rxe)).
    all: go. 1: wait_by [ev XSpawn; fin 0 (TValue tt); RunnerProps.cb 0].
    all: go. 1: exists 1%nat. all: go. 1: apply setup_ok. all: go.
Qed.

(** ** The polling loop *)
(** A process that has exited, and whom nobody else has waited for, is collected
    by the first poll, with its own status, without awaiting anything. *)
Theorem c132_poll_sees_exit : forall o ext (w : world rx rkind unit) s,
  x_exit (w_x w) = Some s -> x_reaped (w_x w) = false -> x_watch (w_x w) = None -> x_rc (w_x w) = None ->
  (exists w', wait_pid o ext w (Ok tt) w')
  /\ forall r w', wait_pid o ext w r w' -> r = Ok tt /\ x_rc (w_x w') = Some s /\ events w' = events w ++ [LCollect s].
Proof. intros o ext w s E R W N. exact (poll_now o ext w s E R W N). Qed.
Print Assumptions c132_poll_sees_exit.
(** The loop returns only with an exit status; otherwise it is cancelled.  While
    the process runs, it goes on polling. *)
Theorem c132_poll_waits : forall o ext w r w', wait_pid o ext w r w' -> J ext w ->
  (r = Ok tt /\ exists z, In (LCollect z) (events w')) \/ (r = Err CancelledError /\ (marks (events w') > marks (events w))%nat).
Proof.
  intros o ext w r w' H HJ. exact (wait_pid_ends o ext w r w' H HJ).
Qed.
Print Assumptions c132_poll_waits.

(** ** Whole runs *)
Theorem c132_audit_brackets : forall o ext ob eb enc r w',
  o_audit_callback o <> None ->
  with_run_bsd o ext ob eb enc (any_body o ext) fresh r w' ->
  exists sigs f, audits (events w') = PStart :: map PSignal sigs ++ [PStop f]
  /\ sigs = signals (events w')
  /\ (f <> None -> exists e, r = Err e)
  /\ exists l, events w' = LAudit PStart :: l ++ [LAudit (PStop f)].
Proof.
  intros o ext ob eb enc r w' A H. destruct (auditb_brackets _ _ _ _ _ _ _ A H) as (l & f & E & Q & F).
  exists (signals l), f. unfold events. rewrite E. split; [|split; [|split; [exact F|eauto]]].
  - cbn. now rewrite audits_app, Q.
  - cbn. rewrite signals_app. cbn. now rewrite app_nil_r.
Qed.
Print Assumptions c132_audit_brackets.

Theorem c132_nothing_left_running : forall o ob eb enc r w',
  with_run_bsd o false ob eb enc (any_body o false) fresh r w' ->
  In LSpawn (events w') ->
  (exists s, In (LExit s) (events w')) \/ In (LSent 9) (events w').
Proof. intros. eapply nothing_leftb; eauto. Qed.
Print Assumptions c132_nothing_left_running.

(** As C35, with the same exceptions. *)
Theorem c132_status_collected : forall o ob eb enc r w',
  with_run_bsd o false ob eb enc (any_body o false) fresh r w' ->
  In LSpawn (events w') -> ~ In LAbort (events w') ->
  (forall l1 l2, events w' = l1 ++ LSignal None :: l2 -> marks l2 = 0%nat) ->
  (exists z, In (LCollect z) (events w'))
  \/ r = Err cancel_failed \/ r = Err unable_to_kill \/ r = Err not_exited.
Proof.
  intros o ob eb enc r w' H SP NA ND. destruct (status_collectedb _ _ _ _ _ _ _ eq_refl H SP NA) as [Q|Q]; [|auto|auto].
  intros (l1 & l2 & E & Mk). specialize (ND l1 l2 E). lia.
Qed.
Print Assumptions c132_status_collected.

(** A run in which nothing goes wrong sends no signal, collects the status and
    does not raise.  (Unlike C36, nothing needs to be assumed about who cancels
    the runner's tasks.) *)
Theorem c132_normal_run : forall o ext ob eb enc w0 w1 w' r,
  aenter_bsd o ext ob eb enc fresh (Ok tt) w0 -> any_body o ext w0 (Ok tt) w1 -> aexit_bsd o ext None w1 r w' ->
  marks (events w') = 0%nat -> tasks_fine w' -> ~ In LUser (events w') ->
  (forall e, In e (events w') -> ~ is_signal e /\ ~ is_sent e /\ e <> LClosed)
  /\ (exists z, In (LCollect z) (events w'))
  /\ r = Ok false.
Proof. intros. eapply normal_runb; eauto. Qed.
Print Assumptions c132_normal_run.

Theorem c132_no_signal_after_exit : forall o ext ob eb enc r w',
  with_run_bsd o ext ob eb enc (any_body o ext) fresh r w' ->
  never_after is_collect is_signal (events w') /\ never_after is_exit is_sent (events w').
Proof. intros o ext ob eb enc r w' H. destruct (runb_J _ _ _ _ _ _ _ H) as (X & _). split; [apply (xi_sig _ X)|apply (xi_sent _ X)]. Qed.
Print Assumptions c132_no_signal_after_exit.

Theorem c132_signal_escalation : forall o ob eb enc sg r w',
  o_cancel_signal o = Some sg -> sg <> 9 ->
  with_run_bsd o false ob eb enc (any_body o false) fresh r w' ->
  preceded (eq (LSent 9)) (fun b => b = LSent sg \/ b = LAbort \/ b = LUser) (events w')
  /\ preceded (eq (LSignal None)) (eq (LSignal (Some sg))) (events w').
Proof.
  intros o ob eb enc sg r w' SG N H. destruct (escalationb o false ob eb enc sg SG N r w' eq_refl H) as [A B]. split; assumption.
Qed.
Print Assumptions c132_signal_escalation.

Theorem c132_exit_code : forall o ext ob eb enc r w' z,
  with_run_bsd o ext ob eb enc (any_body o ext) fresh r w' ->
  In LSpawn (events w') -> ~ In LAbort (events w') -> returncode (w_x w') = Some z ->
  In (LExit z) (events w')
  \/ (In (LCollect 255) (events w') /\ (exists e, In e (events w') /\ meddled e)
      /\ (z = 255 \/ exists s, z = - s /\ In (LSignal (Some s)) (events w'))).
Proof. intros. eapply exit_codeb_cases; eauto. Qed.
Print Assumptions c132_exit_code.

Theorem c132_timeout : forall o ext ob eb enc r w',
  o_catch_cancelled o = false ->
  run_command_bsd o ext ob eb enc fresh r w' -> In LExpired (events w') ->
  r = Err TimeoutError \/ exists e, r = Err e /\ run_errors w' e.
Proof.
  intros o ext ob eb enc r w' CC H X. apply runb_split in H as [(w0 & HE & HL)|(e & -> & HE)].
  - exact (timeoutb_outcome _ _ _ _ _ _ _ _ CC HE HL X).
  - exfalso. apply aenterb_cases in HE as [? _ _ _ _ Q|e' Q HE]; [discriminate|]. apply aenter_cases in HE. eapply start_not_expired; eauto.
Qed.
Print Assumptions c132_timeout.
Theorem c132_cancel : forall o ext ob eb enc w0 r w',
  o_catch_cancelled o = false ->
  aenter_bsd o ext ob eb enc fresh (Ok tt) w0 ->
  bindM (aexit_bsd o ext None) (fun _ => run_result o ob eb enc true) w0 r w' ->
  early_cancel (events w') -> ~ In LExpired (events w') ->
  r = Err CancelledError \/ r = Err not_exited \/ exists e, r = Err e /\ run_errors w' e.
Proof. intros o ext ob eb enc w0 r w0' CC HE HL X NX. exact (cancelb_outcome _ _ _ _ _ _ _ _ CC HE HL X NX). Qed.
Print Assumptions c132_cancel.
Theorem c132_success_was_not_interrupted : forall o ext ob eb enc v w',
  o_catch_cancelled o = false -> run_command_bsd o ext ob eb enc fresh (Ok v) w' ->
  ~ In LExpired (events w') /\ ~ early_cancel (events w').
Proof. intros o ext ob eb enc v w0 CC H. exact (successb _ _ _ _ _ _ _ CC H). Qed.
Print Assumptions c132_success_was_not_interrupted.
Theorem c132_timer_off : forall o ext ob eb enc r w' w'',
  with_run_bsd o ext ob eb enc (any_body o ext) fresh r w' ->
  body_steps o ext w' w'' -> In LExpired (events w'') -> In LExpired (events w').
Proof. intros. eapply timer_off_expired; eauto. eapply runb_timer; eauto. Qed.
Print Assumptions c132_timer_off.

Theorem c132_body_error : forall o ext ob eb enc w0 w1 e r w',
  aenter_bsd o ext ob eb enc fresh (Ok tt) w0 -> any_body o ext w0 (Err e) w1 ->
  bindM (aexit_bsd o ext (Some e)) (fun suppress : bool => if suppress then ret tt else raise e) w1 r w' ->
  ((exists s, In (LExit s) (events w')) \/ In (LSent 9) (events w'))
  /\ (r = Err e
      \/ (r = Ok tt /\ (e = CancelledError \/ (marks (events w1) < marks (events w'))%nat))
      \/ (r = Err TimeoutError /\ In LExpired (events w') /\ o_catch_cancelled o = false)
      \/ exists e', r = Err e' /\ run_errors w' e').
Proof. intros. eapply bodyb_error; eauto. Qed.
Print Assumptions c132_body_error.

(** ** Examples *)
(** The copying task ends; the first poll finds the process running; it exits
    during the sleep; the second poll collects the status. *)
Example ex_normal_bsd t ob eb enc : exists w',
  with_run_bsd (ex_opts t) false ob eb enc (any_body (ex_opts t) false) fresh (Ok tt) w'
  /\ aexit_bsd (ex_opts t) false None (launched_bsd (match t with Some _ => true | None => false end)) (Ok false) w'
  /\ events w' = [LAudit PStart; LSpawn; LExit 7; LCollect 7; LAudit (PStop None)]
  /\ tasks_fine w'.
Proof.
  assert (H : exists w', aexit_bsd (ex_opts t) false None (launched_bsd (match t with Some _ => true | None => false end)) (Ok false) w'
    /\ events w' = [LAudit PStart; LSpawn; LExit 7; LCollect 7; LAudit (PStop None)] /\ tasks_fine w').
  { destruct t; eexists; (split; [|split]).
    - all: go. 1: wait_by [fin 1 (TValue tt); RunnerProps.cb 1]. all: go. 1: exists 1%nat. all: go. 1: wait_by [ev (XExit 7)]. all: go.
    - reflexivity.
    - intros e (i & H). vm_compute in H. intuition discriminate.
    - all: go. 1: wait_by [fin 1 (TValue tt); RunnerProps.cb 1]. all: go. 1: exists 1%nat. all: go. 1: wait_by [ev (XExit 7)]. all: go.
    - reflexivity.
    - intros e (i & H). vm_compute in H. intuition discriminate. }
  destruct H as (w' & H & E & F). exists w'. split; [|now repeat split].
  unfold with_run_bsd. eapply b_bind; [apply ex_launched_bsd|]. exists (Ok tt), (launched_bsd (match t with Some _ => true | None => false end)).
  split; [apply bs_refl|]. eapply b_bind; [exact H|]. go.
Qed.
Lemma ex_normal_bsd_hyps : exists w', aexit_bsd (ex_opts (Some 5)) false None (launched_bsd true) (Ok false) w'
  /\ marks (events w') = 0%nat /\ tasks_fine w' /\ ~ In LUser (events w') /\ In LSpawn (events w') /\ ~ In LAbort (events w').
Proof.
  destruct (ex_normal_bsd (Some 5) None None []) as (w' & _ & H & E & F). exists w'. split; [exact H|]. rewrite E. split; [reflexivity|].
  split; [exact F|]. cbn. intuition discriminate.
Qed.

(** The timeout expires between two polls: SIGTERM, and the process exits. *)
Example ex_timeout_bsd : exists w', run_command_bsd (ex_opts (Some 5)) false None None [] fresh (Err TimeoutError) w'
  /\ events w' = [LAudit PStart; LSpawn; LExpired; LAudit (PSignal (Some 15)); LSignal (Some 15); LSent 15; LExit (-15); LCollect (-15); LAudit (PStop None)].
Proof.
  eexists. split; [|].
  - unfold run_command_bsd. apply b_bind_err. unfold with_run_bsd. eapply b_bind; [apply ex_launched_bsd|]. exists (Ok tt), (launched_bsd true).
    split; [apply l_ret|].
    all: go. 1: wait_by [fin 1 (TValue tt); RunnerProps.cb 1]. all: go. 1: exists 1%nat. all: go. 1: wait_by [ev XTimer]. all: go.
    1: wait_by [ev (XExit (-15)); ev XWatch; ev XCollect; fin 2 (TValue tt); RunnerProps.cb 2]. all: go.
  - reflexivity.
Qed.
(** The caller cancels while the output is copied. *)
Example ex_cancel_bsd : exists w',
  bindM (aexit_bsd (ex_opts None) false None) (fun _ => run_result (ex_opts None) None None [] true) (launched_bsd false) (Err CancelledError) w'
  /\ early_cancel (events w') /\ ~ In LExpired (events w').
Proof.
  eexists. split; [|split; [|]].
  - all: go. 1: wait_by [ev XCancel]. all: go. 1: wait_by [fin 1 TCancelled; RunnerProps.cb 1]. all: go.
    1: wait_by [ev (XExit (-15)); ev XWatch; ev XCollect; fin 2 (TValue tt); RunnerProps.cb 2]. all: go.
  - exists [LAudit PStart; LSpawn]. eexists. split; [reflexivity|]. cbn. intuition discriminate.
  - vm_compute. intuition discriminate.
Qed.
(** The body fails and the process ignores SIGTERM: it is killed. *)
Example ex_killed_bsd : exists w',
  with_run_bsd (ex_opts None) false None None [] (any_body (ex_opts None) false) fresh (Err boom) w'
  /\ events w' = [LAudit PStart; LSpawn; LAudit (PSignal (Some 15)); LSignal (Some 15); LSent 15;
                  LAudit (PSignal None); LSignal None; LSent 9; LExit (-9); LCollect (-9); LAudit (PStop None)]
  /\ returncode (w_x w') = Some (-9)
  /\ (forall l1 l2, events w' = l1 ++ LSignal None :: l2 -> marks l2 = 0%nat).
Proof.
  eexists. split; [|split; [|split]].
  - unfold with_run_bsd. eapply b_bind; [apply ex_launched_bsd|]. exists (Err boom), (launched_bsd false). split; [apply bs_refl|].
    all: go. 1: wait_by [fin 1 (TValue tt); RunnerProps.cb 1]. all: go.
    1: wait_by [WTimer (V := unit) (XE := rxe)]. all: go.
    1: wait_by [fin 2 TCancelled; RunnerProps.cb 2]. all: go.
    1: wait_by [ev (XExit (-9)); ev XWatch; ev XCollect; fin 3 (TValue tt); RunnerProps.cb 3]. all: go.
  - reflexivity.
  - reflexivity.
  - intros l1 l2 E. change ([LAudit PStart; LSpawn; LAudit (PSignal (Some 15)); LSignal (Some 15); LSent 15; LAudit (PSignal None);
       LSignal None; LSent 9; LExit (-9); LCollect (-9); LAudit (PStop None)] = l1 ++ LSignal None :: l2) in E.
    do 11 (destruct l1 as [|? l1]; cbn [app] in E;
      [try (exfalso; congruence); inversion E; subst; reflexivity|apply (f_equal (@tl rev)) in E; cbn [tl] in E]).
    destruct l1; discriminate E.
Qed.
Example ex_body_error_bsd : any_body (ex_opts None) false (launched_bsd false) (Err boom) (launched_bsd false)
  /\ exists w', bindM (aexit_bsd (ex_opts None) false (Some boom)) (fun suppress : bool => if suppress then ret tt else raise boom) (launched_bsd false) (Err boom) w'.
Proof.
  split; [apply bs_refl|]. eexists. all: go.
  1: wait_by [fin 1 (TValue tt); RunnerProps.cb 1]. all: go.
  1: wait_by [ev (XExit (-15)); ev XWatch; ev XCollect; fin 2 (TValue tt); RunnerProps.cb 2]. all: go.
Qed.
