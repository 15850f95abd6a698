(** Theorems for C33-C41 (one run of a command).  They hold for every launch
    outcome, body, number of tasks, and every schedule of exits, timeouts,
    signals and cancellations.  [ext = false]: nobody but the runner cancels
    the tasks that the runner has created for itself. *)
From Verif Require Import AsyncModel AsyncSpec AsyncProofs HarvestModel HarvestSpec HarvestProofs HarvestProofs2 AsyncInv
  RunnerModel RunnerSpec RunnerProofs RunnerProofs2 RunnerProofs3 RunnerProofs4 RunnerProofs5 RunnerProofs6 RunnerProofs7
  RunnerProofs8 RunnerProofs9 RunnerProofs10 RunnerProofs11 RunTac.
Open Scope Z_scope.

(** ** Concrete runs for the examples: options with an audit callback and a timeout. *)
Definition ex_opts (timeout : option Z) : opts := {|
  o_path := None; o_env := None; o_inherit_env := true;
  o_input := VRedirect DEFAULT; o_input_close := false;
  o_output := VRedirect DEFAULT; o_output_append := false; o_output_close := false;
  o_error := VRedirect DEFAULT; o_error_append := false; o_error_close := false;
  o_error_limit := Some 1024; o_encoding := utf8_name; o_return_result := false;
  o_catch_cancelled := false; o_exit_codes := None; o_timeout := timeout;
  o_cancel_timeout := 3; o_cancel_signal := Some 15; o_alt_name := None;
  o_pass_fds := []; o_pass_fds_close := false; o_writable := false;
  o_start_new_session := false; o_preexec_fn := None; o_pty := PtyOff;
  o_close_fds := true; o_audit_callback := Some 0%nat; o_coerce_arg := None |}.
Definition ev (e : rxe) : @wev unit rxe := WEnv (EX e).
Definition fin (i : nat) (o : tout unit) : @wev unit rxe := WEnv (EDone i o).
Definition cb (i : nat) : @wev unit rxe := WCallback i.
Definition boom : exn := OtherError 1.

Lemma setup_ok (w : world rx rkind unit) : setup w (Ok tt) w.
Proof. split; [reflexivity|discriminate]. Qed.
Lemma yield_now o ext (w : world rx rkind unit) : await_yield (rstep o) (rfinish ext) w (Ok tt) w.
Proof. wait_by (@nil (@wev unit rxe)). Qed.

(** A launched process with one copying task; task 0 launched it, task 1
    copies, task 2 waits for the process. *)
Definition launched (timeout : bool) : world rx rkind unit :=
  mk_world [mk_task KExec (Some (TValue tt)) 0; mk_task KIO None 0; mk_task KWaiter None 0]
    (mk_rx [LAudit PStart; LSpawn] false false true true None false None None false timeout false None [1%nat; 2%nat] true)
    [HDone 0 (TValue tt)].
Lemma ex_launched t ext ob eb enc :
  aenter (ex_opts t) ext false ob eb enc fresh (Ok tt) (launched (match t with Some _ => true | None => false end)).
Proof.
  destruct t.
  - all: go. 1: apply setup_ok. all: go.  1: wait_by (@nil (@wev unit rxe)). all: go. 1: wait_by [ev XSpawn; fin 0 (TValue tt); cb 0].
    all: go. 1: exists 1%nat. all: go. 1: apply setup_ok. all: go.
  - all: go. 1: apply setup_ok. all: go.  1: wait_by (@nil (@wev unit rxe)). all: go. 1: wait_by [ev XSpawn; fin 0 (TValue tt); cb 0].
    all: go. 1: exists 1%nat. all: go. 1: apply setup_ok. all: go.
Qed.

(** The process runs, its output is copied, it exits with status 0. *)
Definition normal_end : list (@wev unit rxe) :=
  [fin 1 (TValue tt); ev (XExit 0); ev XWatch; ev XCollect; fin 2 (TValue tt); cb 1; cb 2].
Example ex_normal t ext ob eb enc : exists w',
  with_run (ex_opts t) ext false false ob eb enc (any_body (ex_opts t) ext) fresh (Ok tt) w'
  /\ aexit (ex_opts t) ext false None (launched (match t with Some _ => true | None => false end)) (Ok false) w'
  /\ events w' = [LAudit PStart; LSpawn; LExit 0; LCollect 0; LAudit (PStop None)].
Proof.
  assert (H : exists w', aexit (ex_opts t) ext false None (launched (match t with Some _ => true | None => false end)) (Ok false) w'
    /\ events w' = [LAudit PStart; LSpawn; LExit 0; LCollect 0; LAudit (PStop None)]).
  { destruct t; eexists; (split; [|]).
    - all: go. 1: wait_by normal_end. all: go.
    - reflexivity.
    - all: go. 1: wait_by normal_end. all: go.
    - reflexivity. }
  destruct H as (w' & H & E). exists w'. split; [|now split].
  unfold with_run. eapply b_bind; [apply ex_launched|]. exists (Ok tt), (launched (match t with Some _ => true | None => false end)).
  split; [apply bs_refl|]. eapply b_bind; [exact H|]. go.
Qed.

(** ** C33 *)
Lemma runner_result_exit z ob eb enc o c t check v : runner_result (Some z) ob eb enc o c t check = Ok v -> r_exit v = z.
Proof.
  unfold runner_result. destruct check; [|intros [= <-]; reflexivity]. unfold check_result. intros H.
  repeat match type of H with (if ?b then _ else _) = _ => destruct b; try discriminate end;
  try (injection H as <-; reflexivity).
Qed.
Theorem c33_audit_brackets : forall o ext piped_stdin use_pty ob eb enc r w',
  o_audit_callback o <> None ->
  with_run o ext piped_stdin use_pty ob eb enc (any_body o ext) fresh r w' ->
  exists sigs f, audits (events w') = PStart :: map PSignal sigs ++ [PStop f]
  /\ sigs = signals (events w')
  /\ (f <> None -> exists e, r = Err e)
  /\ exists l, events w' = LAudit PStart :: l ++ [LAudit (PStop f)].
Proof.
  intros o ext ps up ob eb enc r w' A H. destruct (audit_brackets _ _ _ _ _ _ _ _ _ A H) as (l & f & E & Q & F).
  exists (signals l), f. unfold events. rewrite E. split; [|split; [|split; [exact F|eauto]]].
  - cbn. now rewrite audits_app, Q.
  - cbn. rewrite signals_app. cbn. now rewrite app_nil_r.
Qed.
Print Assumptions c33_audit_brackets.

(** A launch that fails: the callback sees start and stop, with the failure. *)
Example c33_example_failed_launch : exists w',
  with_run (ex_opts None) false false false None None [] (any_body (ex_opts None) false) fresh (Err boom) w'
  /\ events w' = [LAudit PStart; LAudit (PStop (Some boom))].
Proof.
  eexists. split; [|].
  - unfold with_run. eapply g_bind.
    + all: go. 1: apply setup_ok. all: go. 1: wait_by (@nil (@wev unit rxe)). all: go.
      1: wait_by [fin 0 (TFail boom); cb 0]. all: go.
    + go.
  - reflexivity.
Qed.

(** ** C34 *)
Theorem c34_nothing_left_running : forall o piped_stdin use_pty ob eb enc r w',
  with_run o false piped_stdin use_pty ob eb enc (any_body o false) fresh r w' ->
  In LSpawn (events w') ->
  (exists s, In (LExit s) (events w')) \/ In (LSent 9) (events w').
Proof. intros. eapply nothing_left; eauto. Qed.
Print Assumptions c34_nothing_left_running.

(** ** C35 *)
Definition c35_full_claim := forall o piped_stdin use_pty ob eb enc r w',
  with_run o false piped_stdin use_pty ob eb enc (any_body o false) fresh r w' ->
  In LSpawn (events w') -> ~ In LAbort (events w') ->
  (forall m, r <> Err (RuntimeError m)) ->
  exists z, In (LCollect z) (events w').

(** The body fails, the task is cancelled while the process is being stopped
    with SIGTERM, and again while waiting for the killed process: the run ends
    although the process has not exited. *)
Lemma ex_not_collected : exists w',
  with_run (ex_opts None) false false false None None [] (any_body (ex_opts None) false) fresh (Err boom) w'
  /\ events w' = [LAudit PStart; LSpawn; LAudit (PSignal (Some 15)); LSignal (Some 15); LSent 15; LCancel;
                  LAudit (PSignal None); LSignal None; LSent 9; LCancel; LClosed; LSent 9; LAudit (PStop None)].
Proof.
  eexists. split; [|].
  - unfold with_run. eapply b_bind; [apply ex_launched|]. exists (Err boom), (launched false). split; [apply bs_refl|].
    all: go. 1: wait_by [ev XCancel]. all: go. 1: wait_by [fin 1 TCancelled; fin 2 TCancelled; cb 1; cb 2]. all: go.
    1: wait_by [ev XCancel]. all: go. 1: wait_by [fin 3 TCancelled; cb 3]. all: go.
  - reflexivity.
Qed.
Theorem c35_cancelled_twice_refuted : ~ c35_full_claim.
Proof.
  intro C. destruct ex_not_collected as (w' & H & E).
  destruct (C _ _ _ _ _ _ _ _ H) as (z & Q).
  - rewrite E. cbn; auto.
  - rewrite E. cbn. intuition discriminate.
  - discriminate.
  - rewrite E in Q. cbn in Q. intuition discriminate.
Qed.
Print Assumptions c35_cancelled_twice_refuted.

(** Missing: cancellations that arrive after SIGKILL has been sent, and launches
    that asyncio gives up.  A run that ends without the status reports it: one
    of the two RuntimeErrors, or the TypeError of result() when a cancelled
    start is reported through catch_cancelled_error. *)
Theorem c35_status_collected_partial : forall o piped_stdin use_pty ob eb enc r w',
  with_run o false piped_stdin use_pty ob eb enc (any_body o false) fresh r w' ->
  In LSpawn (events w') -> ~ In LAbort (events w') ->
  (forall l1 l2, events w' = l1 ++ LSignal None :: l2 -> marks l2 = 0%nat) ->
  (exists z, In (LCollect z) (events w'))
  \/ r = Err cancel_failed \/ r = Err unable_to_kill \/ r = Err not_exited.
Proof.
  intros o ps up ob eb enc r w' H SP NA ND. destruct (status_collected _ _ _ _ _ _ _ _ _ eq_refl H SP NA) as [Q|Q]; [|auto|auto].
  intros (l1 & l2 & E & Mk). specialize (ND l1 l2 E). lia.
Qed.
Print Assumptions c35_status_collected_partial.
Example c35_example : exists r w', with_run (ex_opts None) false false false None None [] (any_body (ex_opts None) false) fresh r w'
  /\ In LSpawn (events w') /\ ~ In LAbort (events w') /\ In (LSignal (Some 15)) (events w') /\ ~ In (LSignal None) (events w')
  /\ In (LCollect (-15)) (events w').
Proof.
  eexists (Err boom), _. split; [|].
  - unfold with_run. eapply b_bind; [apply ex_launched|]. exists (Err boom), (launched false). split; [apply bs_refl|].
    all: go. 1: wait_by [fin 1 (TValue tt); ev (XExit (-15)); ev XWatch; ev XCollect; fin 2 (TValue tt); cb 1; cb 2]. all: go.
  - vm_compute. intuition discriminate.
Qed.

(** ** C36 *)
Theorem c36_normal_run_no_signals : forall o piped_stdin use_pty ob eb enc w0 w1 w' r,
  aenter o false use_pty ob eb enc fresh (Ok tt) w0 -> any_body o false w0 (Ok tt) w1 -> aexit o false piped_stdin None w1 r w' ->
  (* nothing is cancelled, no timeout, no task fails, the user sends no signal *)
  marks (events w') = 0%nat -> tasks_fine w' -> ~ In LUser (events w') ->
  (forall e, In e (events w') -> ~ is_signal e /\ ~ is_sent e /\ e <> LClosed)
  /\ (exists z, In (LCollect z) (events w'))
  /\ (r = Ok false \/ (piped_stdin = true /\ r = Err cancel_failed)).
Proof. intros. eapply normal_run_no_signals; eauto. Qed.
Print Assumptions c36_normal_run_no_signals.
Example c36_example : exists w', aexit (ex_opts (Some 5)) false false None (launched true) (Ok false) w'
  /\ marks (events w') = 0%nat /\ tasks_fine w' /\ ~ In LUser (events w').
Proof.
  eexists. split; [|].
  - all: go. 1: wait_by normal_end. all: go.
  - split; [reflexivity|]. split; [|vm_compute; intuition discriminate]. intros e (i & H). vm_compute in H. intuition discriminate.
Qed.

(** No signal is sent, attempted or reported after the exit status is known,
    and none reaches a process that has terminated. *)
Theorem c36_no_signal_after_exit : forall o ext piped_stdin use_pty ob eb enc r w',
  with_run o ext piped_stdin use_pty ob eb enc (any_body o ext) fresh r w' ->
  never_after is_collect is_signal (events w') /\ never_after is_exit is_sent (events w').
Proof. intros o ext ps up ob eb enc r w' H. destruct (run_J _ _ _ _ _ _ _ _ _ H) as (X & _). split; [apply (xi_sig _ X)|apply (xi_sent _ X)]. Qed.
Print Assumptions c36_no_signal_after_exit.

(** ** C37 *)
Theorem c37_signal_escalation : forall o piped_stdin use_pty ob eb enc sg r w',
  o_cancel_signal o = Some sg -> sg <> 9 ->
  with_run o false piped_stdin use_pty ob eb enc (any_body o false) fresh r w' ->
  (* SIGKILL is sent only after the cancel signal, except for a launch that
     asyncio gives up and for signals sent by the user *)
  preceded (eq (LSent 9)) (fun b => b = LSent sg \/ b = LAbort \/ b = LUser) (events w')
  /\ preceded (eq (LSignal None)) (eq (LSignal (Some sg))) (events w').
Proof.
  intros o ps up ob eb enc sg r w' S N H. destruct (escalation o false ps up ob eb enc sg S N r w' eq_refl H) as [A B]. split; assumption.
Qed.
Print Assumptions c37_signal_escalation.

(** [ex_not_collected] is such a run: SIGTERM, then SIGKILL. *)
Example c37_example : exists r w', with_run (ex_opts None) false false false None None [] (any_body (ex_opts None) false) fresh r w'
  /\ In (LSent 9) (events w') /\ ~ In LAbort (events w') /\ ~ In LUser (events w').
Proof.
  destruct ex_not_collected as (w' & H & E). exists (Err boom), w'. split; [exact H|]. rewrite E. cbn. intuition discriminate.
Qed.

(** ** C38 *)
Definition c38_full_claim := forall o piped_stdin use_pty ob eb enc r w',
  o_catch_cancelled o = false ->
  run_command o false piped_stdin use_pty ob eb enc fresh r w' -> In LExpired (events w') -> r = Err TimeoutError.

(** A copying task fails; the timeout expires while its siblings are being
    cancelled: the command raises the failure, not TimeoutError. *)
Theorem c38_failure_hides_timeout_refuted : ~ c38_full_claim.
Proof.
  intro C.
  assert (H : exists w', run_command (ex_opts (Some 5)) false false false None None [] fresh (Err boom) w' /\ In LExpired (events w')).
  { eexists. split; [|].
    - unfold run_command. apply b_bind_err. unfold with_run. eapply b_bind; [apply ex_launched|]. exists (Ok tt), (launched true).
      split; [apply l_ret|].
      all: go. 1: wait_by [fin 1 (TFail boom); cb 1]. all: go. 1: wait_by [ev XTimer]. all: go. 1: wait_by [fin 2 TCancelled; cb 2]. all: go.
      1: wait_by [ev (XExit (-15)); ev XWatch; ev XCollect; fin 3 (TValue tt); cb 3]. all: go.
    - vm_compute. intuition. }
  destruct H as (w' & H & X). specialize (C (ex_opts (Some 5)) _ _ _ _ _ _ _ eq_refl H X). discriminate.
Qed.
Print Assumptions c38_failure_hides_timeout_refuted.

Lemma run_command_cases o ext ps up ob eb enc r w' : run_command o ext ps up ob eb enc fresh r w' ->
  (exists e, r = Err e /\ with_run o ext ps up ob eb enc (any_body o ext) fresh (Err e) w' /\ ~ In LExpired (events w')
     /\ aenter_case o ext ob eb enc (Err e) w')
  \/ exists w0, aenter o ext up ob eb enc fresh (Ok tt) w0 /\ leave o ext ps ob eb enc w0 r w'.
Proof.
  assert (AB : forall b rr ww, with_run o ext ps up ob eb enc (ret tt) b rr ww -> with_run o ext ps up ob eb enc (any_body o ext) b rr ww).
  { intros b rr ww [([] & w0 & H1 & (rb & w1 & [-> ->] & H2))|H]; [|now right]. left. exists tt, w0. split; [exact H1|]. exists (Ok tt), w0. split; [apply bs_refl|exact H2]. }
  intros [([] & w1 & [([] & w0 & H1 & (rb & wb & [-> ->] & H2))|(e & _ & Q)] & H3)|(e & [([] & w0 & H1 & (rb & wb & [-> ->] & H2))|(e' & H1 & Q)] & ->)]; try discriminate.
  - right. exists w0. split; [exact H1|]. destruct H2 as [(b & w2 & H2 & [_ ->])|(e & _ & Q)]; [|discriminate]. left. exists b, w2. auto.
  - right. exists w0. split; [exact H1|]. destruct H2 as [(b & w2 & H2 & [Q _])|(e' & H2 & [= ->])]; [discriminate|]. right. eauto.
  - injection Q as <-. left. exists e. assert (EC := H1). apply aenter_cases in EC. repeat split; auto.
    + apply AB. right. eauto.
    + eapply start_not_expired; eauto.
Qed.

(** Missing: a failure of a task or of the cleanup replaces the TimeoutError or
    CancelledError.  (The start of a process is not subject to the timeout.) *)
Theorem c38_timeout_partial : forall o piped_stdin use_pty ob eb enc r w',
  o_catch_cancelled o = false ->
  run_command o false piped_stdin use_pty ob eb enc fresh r w' -> In LExpired (events w') ->
  r = Err TimeoutError \/ exists e, r = Err e /\ run_errors w' e.
Proof.
  intros o ps up ob eb enc r w' CC H X. apply run_command_cases in H as [(e & _ & _ & NX & _)|(w0 & HE & HL)]; [contradiction|].
  exact (timeout_outcome _ _ _ _ _ _ _ _ _ _ eq_refl CC HE HL X).
Qed.
Print Assumptions c38_timeout_partial.
Theorem c38_cancel_partial : forall o piped_stdin use_pty ob eb enc w0 r w',
  o_catch_cancelled o = false ->
  aenter o false use_pty ob eb enc fresh (Ok tt) w0 ->
  bindM (aexit o false piped_stdin None) (fun _ => run_result o ob eb enc true) w0 r w' ->
  early_cancel (events w') -> ~ In LExpired (events w') ->
  r = Err CancelledError \/ r = Err not_exited \/ exists e, r = Err e /\ run_errors w' e.
Proof. intros o ps up ob eb enc w0 r w0' CC HE HL X NX. exact (cancel_outcome _ _ _ _ _ _ _ _ _ _ eq_refl CC HE HL X NX). Qed.
Print Assumptions c38_cancel_partial.
(** A command that was timed out or cancelled while it ran never looks successful. *)
Theorem c38_success_was_not_interrupted : forall o piped_stdin use_pty ob eb enc v w',
  o_catch_cancelled o = false -> run_command o false piped_stdin use_pty ob eb enc fresh (Ok v) w' ->
  ~ In LExpired (events w') /\ ~ early_cancel (events w').
Proof. intros o ps up ob eb enc v w0 CC H. exact (success_not_interrupted _ _ _ _ _ _ _ _ _ eq_refl CC H). Qed.
Print Assumptions c38_success_was_not_interrupted.
(** The timer never fires after the run has ended. *)
Theorem c38_timer_off : forall o ext piped_stdin use_pty ob eb enc r w' w'',
  with_run o ext piped_stdin use_pty ob eb enc (any_body o ext) fresh r w' ->
  body_steps o ext w' w'' -> In LExpired (events w'') -> In LExpired (events w').
Proof. intros. eapply timer_off_expired; eauto. eapply run_timer; eauto. Qed.
Print Assumptions c38_timer_off.
Example c38_example_timeout : exists w', run_command (ex_opts (Some 5)) false false false None None [] fresh (Err TimeoutError) w'
  /\ events w' = [LAudit PStart; LSpawn; LExpired; LAudit (PSignal (Some 15)); LSignal (Some 15); LSent 15; LExit (-15); LCollect (-15); LAudit (PStop None)].
Proof.
  eexists. split; [|].
  - unfold run_command. apply b_bind_err. unfold with_run. eapply b_bind; [apply ex_launched|]. exists (Ok tt), (launched true).
    split; [apply l_ret|].
    all: go. 1: wait_by [ev XTimer]. all: go. 1: wait_by [fin 1 TCancelled; fin 2 TCancelled; cb 1; cb 2]. all: go.
    1: wait_by [ev (XExit (-15)); ev XWatch; ev XCollect; fin 3 (TValue tt); cb 3]. all: go.
  - reflexivity.
Qed.
Example c38_example_cancel : exists w', 
  bindM (aexit (ex_opts None) false false None) (fun _ => run_result (ex_opts None) None None [] true) (launched false) (Err CancelledError) w'
  /\ early_cancel (events w') /\ ~ In LExpired (events w').
Proof.
  eexists. split; [|split; [|]].
  - all: go. 1: wait_by [ev XCancel]. all: go. 1: wait_by [fin 1 TCancelled; fin 2 TCancelled; cb 1; cb 2]. all: go.
    1: wait_by [ev (XExit (-15)); ev XWatch; ev XCollect; fin 3 (TValue tt); cb 3]. all: go.
  - exists [LAudit PStart; LSpawn]. eexists. split; [reflexivity|]. cbn. intuition discriminate.
  - vm_compute. intuition discriminate.
Qed.

(** ** C39 *)
Definition c39_full_claim := forall o piped_stdin use_pty ob eb enc r w' z,
  with_run o false piped_stdin use_pty ob eb enc (any_body o false) fresh r w' ->
  In LSpawn (events w') -> ~ In LAbort (events w') -> returncode (w_x w') = Some z -> In (LExit z) (events w').

(** The process exits with status 0; run.send_signal(SIGTERM) is called before
    the child watcher has seen that: Popen.send_signal reaps the process, the
    watcher gets ECHILD and reports 255, which becomes -15. *)
Theorem c39_stolen_status_refuted : ~ c39_full_claim.
Proof.
  intro C.
  assert (H : exists w', with_run (ex_opts None) false false false None None [] (any_body (ex_opts None) false) fresh (Ok tt) w'
    /\ returncode (w_x w') = Some (-15) /\ events w' = [LAudit PStart; LSpawn; LExit 0; LUser; LAudit (PSignal (Some 15)); LSignal (Some 15); LCollect 255; LAudit (PStop None)]).
  { eexists. split; [|].
    - unfold with_run. eapply b_bind; [apply ex_launched|]. exists (Ok tt). eexists. split.
      + eapply bs_env with (ev := EX (XExit 0)); [vr|]. eapply bs_env with (ev := EX (XSendSignal 15)); [vr|]. apply bs_refl.
      + all: go. 1: wait_by [fin 1 (TValue tt); ev XWatch; ev XCollect; fin 2 (TValue tt); cb 1; cb 2]. all: go.
    - split; reflexivity. }
  destruct H as (w' & H & R & E). specialize (C _ _ _ _ _ _ _ _ (-15) H). rewrite E in C.
  assert (Q : In (LExit (-15)) [LAudit PStart; LSpawn; LExit 0; LUser; LAudit (PSignal (Some 15)); LSignal (Some 15); LCollect 255; LAudit (PStop None)]).
  { apply C; cbn; auto. intuition discriminate. }
  cbn in Q. intuition discriminate.
Qed.
Print Assumptions c39_stolen_status_refuted.

(** Missing: a process that exits on its own just before it is signalled or
    closed, whose status 255 ("unknown") is reported as -s for the last signal
    s that was tried, or as 255. *)
Theorem c39_exit_code_partial : forall o ext piped_stdin use_pty ob eb enc r w' z,
  with_run o ext piped_stdin use_pty ob eb enc (any_body o ext) fresh r w' ->
  In LSpawn (events w') -> ~ In LAbort (events w') -> returncode (w_x w') = Some z ->
  In (LExit z) (events w')
  \/ (In (LCollect 255) (events w') /\ (exists e, In e (events w') /\ meddled e)
      /\ (z = 255 \/ exists s, z = - s /\ In (LSignal (Some s)) (events w'))).
Proof. intros. eapply exit_code_cases; eauto. Qed.
Print Assumptions c39_exit_code_partial.
(** Without any signal the exit code is the one of the operating system. *)
Theorem c39_unsignalled : forall o ext piped_stdin use_pty ob eb enc r w' z,
  with_run o ext piped_stdin use_pty ob eb enc (any_body o ext) fresh r w' ->
  In LSpawn (events w') -> (forall e, In e (events w') -> ~ meddled e) -> returncode (w_x w') = Some z -> In (LExit z) (events w').
Proof.
  intros o ext ps up ob eb enc r w' z H SP NM RC. assert (NA : ~ In LAbort (events w')) by (intros A; apply (NM _ A); right; now left).
  destruct (exit_code_cases _ _ _ _ _ _ _ _ _ _ H SP NA RC) as [Q|(_ & (e & A & B) & _)]; [exact Q|]. elim (NM e A B).
Qed.
Print Assumptions c39_unsignalled.

(** ** C40 *)
Theorem c40_body_error : forall o piped_stdin use_pty ob eb enc w0 w1 e r w',
  aenter o false use_pty ob eb enc fresh (Ok tt) w0 -> any_body o false w0 (Err e) w1 ->
  bindM (aexit o false piped_stdin (Some e)) (fun suppress : bool => if suppress then ret tt else raise e) w1 r w' ->
  ((exists s, In (LExit s) (events w')) \/ In (LSent 9) (events w'))
  /\ (r = Err e
      (* suppressed: the run was cancelled in the body or while it was cleaned up *)
      \/ (r = Ok tt /\ (e = CancelledError \/ (marks (events w1) < marks (events w'))%nat))
      (* or replaced *)
      \/ (r = Err TimeoutError /\ In LExpired (events w') /\ o_catch_cancelled o = false)
      \/ exists e', r = Err e' /\ run_errors w' e').
Proof. intros. eapply body_error; eauto. Qed.
Print Assumptions c40_body_error.
Example c40_example : any_body (ex_opts None) false (launched false) (Err boom) (launched false)
  /\ exists w', bindM (aexit (ex_opts None) false false (Some boom)) (fun suppress : bool => if suppress then ret tt else raise boom) (launched false) (Err boom) w'.
Proof.
  split; [apply bs_refl|]. eexists. all: go.
  1: wait_by [fin 1 (TValue tt); ev (XExit (-15)); ev XWatch; ev XCollect; fin 2 (TValue tt); cb 1; cb 2]. all: go.
Qed.

(** ** C41 *)
(** Called in the body, result() raises TypeError unless the exit status is known. *)
Theorem c41_result_in_body : forall o ext use_pty ob eb enc w0 w1 check r w2,
  aenter o ext use_pty ob eb enc fresh (Ok tt) w0 -> body_steps o ext w0 w1 ->
  run_result o ob eb enc check w1 r w2 ->
  w2 = w1 /\ ((forall z, ~ In (LCollect z) (events w1)) -> r = Err not_exited)
  /\ (forall v, r = Ok v -> exists z, In (LCollect z) (events w1) /\ (r_exit v = z \/ exists s, z = 255 /\ r_exit v = - s /\ In (LSignal (Some s)) (events w1))).
Proof.
  intros o ext up ob eb enc w0 w1 check r w2 HE HB HR.
  apply aenter_cases in HE as [wa P PR Mk0 -> _|e0 wa _ _ (e' & Q) _ _]; [|discriminate].
  destruct (body_ready o ext _ (Ok tt) _ P PR HB) as (J1 & PR1 & _). apply i_getx in HR. unfold returncode in HR. rewrite PR1 in HR. cbn in HR.
  assert (E : w2 = w1) by (destruct (runner_result _ _ _ _ _ _ _ _); apply HR). subst w2. split; [reflexivity|].
  destruct J1 as (X & _). destruct (x_rc (w_x w1)) as [z|] eqn:Z.
  - split; [intros N; elim (N z); now apply (xi_rc _ X)|]. intros v ->. exists z. split; [now apply (xi_rc _ X)|].
    destruct (x_lastsig (w_x w1)) as [s|] eqn:L; [destruct (Z.eqb_spec z UNKNOWN_EXIT_CODE) as [->|N]|].
    + destruct (runner_result _ _ _ _ _ _ _ _) as [v'|] eqn:R; destruct HR as [Q _]; [injection Q as ->|discriminate].
      apply runner_result_exit in R. right. exists s. split; [reflexivity|]. split; [exact R|]. now apply (xi_last _ X).
    + destruct (runner_result _ _ _ _ _ _ _ _) as [v'|] eqn:R; destruct HR as [Q _]; [injection Q as ->|discriminate].
      apply runner_result_exit in R. now left.
    + destruct (runner_result _ _ _ _ _ _ _ _) as [v'|] eqn:R; destruct HR as [Q _]; [injection Q as ->|discriminate].
      apply runner_result_exit in R. now left.
  - destruct HR as [-> _]. split; [reflexivity|discriminate].
Qed.
Print Assumptions c41_result_in_body.
(** Before `async with` has started the process, result() raises TypeError. *)
Theorem c41_before_start : forall o ob eb enc check r w, run_result o ob eb enc check fresh r w -> r = Err not_exited.
Proof. intros o ob eb enc check r w H. apply i_getx in H. cbn in H. destruct H as [-> _]. reflexivity. Qed.
Print Assumptions c41_before_start.
(** If the launch failed without a process, result() raises TypeError too, unless
    the launch was cancelled: then the exit code is -1000 (CANCELLED_EXIT_CODE)
    and the result is marked as cancelled. *)
Theorem c41_never_started : forall o ext use_pty ob eb enc e w1 check r w2,
  aenter o ext use_pty ob eb enc fresh (Err e) w1 -> ~ In LSpawn (events w1) ->
  run_result o ob eb enc check w1 r w2 ->
  ((e <> CancelledError -> (forall v, e <> ResultError v) -> r = Err not_exited)
  /\ (e = CancelledError -> o_catch_cancelled o = false -> if check then r = Err CancelledError
                            else exists v, r = Ok v /\ r_exit v = -1000 /\ r_cancelled v = true)).
Proof.
  intros o ext up ob eb enc e w1 check r w2 HE NS HR.
  apply aenter_cases in HE as [wa _ _ _ _ Q|e0 wa SC W _ NC OR]; [discriminate|].
  destruct SC as [? _ _ _ _ Q|e1 wb rk P EX HK Q]; [discriminate|]. injection Q as ->.
  assert (PR : x_proc (w_x wb) = false).
  { destruct (x_proc (w_x wb)) eqn:PR; [|reflexivity]. exfalso. apply NS. pose proof (pre_J _ _ _ _ P) as (X & _).
    assert (SP : In LSpawn (events wb)) by (apply (xi_spawn _ X), (xi_proc _ X), PR).
    assert (R2 : reg o ext wb (if is_cancelled e1 then cancelled_now wb else wb)) by (destruct (is_cancelled e1); [apply cancelled_now_reg|apply reg_refl]).
    assert (RG : reg o ext wb wa).
    { eapply reg_trans; [exact R2|]. apply (kill_spec o ext _ _ _ HK); [apply R2, (pre_J _ _ _ _ P)|exact (reg_proc _ _ _ _ R2 PR)]. }
    destruct RG as (_ & l & h & PG). subst w1. unfold failed_start, events in *. cbn. unfold audit. destruct (o_audit_callback o); cbn; rewrite ?in_app_iff; cbn; rewrite (pr_log _ _ _ _ _ PG), in_app_iff; auto. }
  rewrite PR in HK. destruct HK as [-> ->]. pose proof (pre_calm _ _ _ _ P) as (_ & _ & CF & TF).
  set (wb' := if is_cancelled e1 then cancelled_now wb else wb) in *.
  assert (XS : x_proc (w_x w1) = false /\ x_cancelled (w_x w1) = is_cancelled e1 /\ x_timed_out (w_x w1) = false).
  { subst w1 wb'. unfold failed_start, audit. destruct (o_audit_callback o), (is_cancelled e1); cbn; auto. }
  destruct XS as (XP & XC & XT). assert (XB : x_cancelled (w_x wb') = is_cancelled e1) by (subst wb'; destruct (is_cancelled e1); cbn; auto).
  apply i_getx in HR. unfold returncode in HR, OR. rewrite XP, XC, XT in HR, OR. cbn [negb] in HR, OR. rewrite XB in NC.
  destruct (is_cancelled e1) eqn:CE.
  - assert (E1 : e1 = CancelledError) by (destruct e1; try discriminate; reflexivity). subst e1. unfold runner_result, check_result in *. cbn [r_exit andb negb] in *.
    destruct (o_catch_cancelled o); cbn in *.
    + destruct OR as [OR|OR]; (split; [|discriminate]); intros N1 N2; [congruence|]. exfalso. eapply N2. injection OR as OR. symmetry. exact OR.
    + specialize (NC eq_refl). injection NC as ->. split; [congruence|]. intros _ _. destruct check; cbn in HR; destruct HR as [-> _]; eauto.
  - cbn in NC. specialize (NC eq_refl). injection NC as ->. cbn in HR. destruct HR as [-> _]. split; [reflexivity|]. intros ->. discriminate.
Qed.
Print Assumptions c41_never_started.
Example c41_never_started_example : exists w1, aenter (ex_opts None) false false None None [] fresh (Err CancelledError) w1 /\ ~ In LSpawn (events w1).
Proof.
  eexists. split.
  - all: go. 1: apply setup_ok. all: go. 1: wait_by [ev XCancel]. all: go.
  - cbn. intros [Q|[Q|[Q|[]]]]; discriminate.
Qed.

