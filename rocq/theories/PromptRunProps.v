(** Theorems about `async with cmd.prompt() as cli` as a whole (C81, C82): what
    cli.result is afterwards, and what becomes of exceptions.  They hold for
    every launch outcome, body and schedule.  [ext = false]: nobody but the
    runner cancels the tasks that the runner has created for itself. *)
From Verif Require Import AsyncModel AsyncSpec AsyncProofs HarvestModel HarvestSpec HarvestProofs HarvestProofs2 AsyncInv
  RunnerModel RunnerSpec RunnerProofs RunnerProofs2 RunnerProofs3 RunnerProofs4 RunnerProofs5 RunnerProofs6 RunnerProofs7
  RunnerProofs8 RunnerProofs9 RunnerProofs10 RunnerProofs11 CopySpec IterModel IterProofs IterProofs2
  RunTac RunnerProps.
Open Scope Z_scope.

(** The exit code [c] comes from the collected status [z]: see C39. *)
Definition code_from (l : list RunnerModel.rev) (c z : Z) : Prop :=
  c = z \/ (z = 255 /\ exists s, c = - s /\ In (LSignal (Some s)) l).

Lemma finish_value o ob eb enc (w : world rx rkind unit) r w2 : prompt_finish o ob eb enc w r w2 -> x_proc (w_x w) = true ->
  match x_rc (w_x w) with
  | None => r = Err not_exited
  | Some z => exists c, returncode (w_x w) = Some c /\ r = Ok {| r_exit := c; r_output := match ob with Some b => b | None => [] end;
                  r_error := match eb with Some b => b | None => [] end; r_cancelled := x_cancelled (w_x w); r_encoding := enc |}
  end.
Proof.
  intros H PR. apply i_getx in H. unfold returncode in *. rewrite PR in *. cbn [negb] in *. destruct (x_rc (w_x w)) as [z|].
  - destruct (x_lastsig (w_x w)) as [s|]; [destruct (z =? UNKNOWN_EXIT_CODE)|]; cbn in H; destruct H as [-> _]; eexists; (split; [reflexivity|reflexivity]).
  - cbn in H. destruct H as [-> _]. reflexivity.
Qed.

(** ** C81 *)
(** After the block cli.result is available. *)
Definition c81_full_claim := forall o piped_stdin use_pty ob eb enc rb cr r w',
  prompt_session o false piped_stdin use_pty ob eb enc (Some rb) cr r w' -> cr <> None.

(** Once the process was started: either cli.result is there, with the exit
    status that was collected and the captured error output; or TypeError is
    raised (whatever else was being raised), no status was collected and the
    process was sent SIGKILL. *)
Theorem c81_result : forall o piped_stdin use_pty ob eb enc rb cr r w',
  prompt_session o false piped_stdin use_pty ob eb enc (Some rb) cr r w' ->
  match cr with
  | Some v => (exists z, In (LCollect z) (events w') /\ code_from (events w') (r_exit v) z)
              /\ r_output v = match ob with Some b => b | None => [] end
              /\ r_error v = match eb with Some b => b | None => [] end /\ r_encoding v = enc
  | None => r = Err not_exited /\ (forall z, ~ In (LCollect z) (events w')) /\ In (LSignal None) (events w')
  end.
Proof.
  intros o ps up ob eb enc rb cr r w' H.
  inversion H as [|w0 rb0 w1 rc r0 w2 v H1 H2 H3 H4 H5|w0 rb0 w1 rc r0 w2 e H1 H2 H3 H4 H5]; subst;
    destruct (leave_signal _ _ _ _ _ _ _ _ _ _ _ _ eq_refl H1 H2 H4) as (PR & HJ & SG);
    pose proof (finish_value _ _ _ _ _ _ _ H5 PR) as FV; destruct (x_rc (w_x w')) as [z|] eqn:Z.
  - destruct FV as (c & RC & [= ->]). cbn. split; [|auto]. exists z. destruct HJ as (X & _). split; [now apply (xi_rc _ X)|].
    unfold returncode in RC. rewrite PR, Z in RC. cbn in RC. destruct (x_lastsig (w_x w')) as [s|] eqn:L; [|injection RC as <-; now left].
    destruct (Z.eqb_spec z UNKNOWN_EXIT_CODE) as [->|N]; injection RC as <-; [|now left]. right. split; [reflexivity|]. exists s. split; [reflexivity|]. now apply (xi_last _ X).
  - discriminate.
  - destruct FV as (c & _ & Q). discriminate.
  - injection FV as ->. split; [reflexivity|]. split; [|now apply SG]. intros z Q. destruct HJ as (X & _). apply (xi_rc _ X) in Q. congruence.
Qed.
Print Assumptions c81_result.

(** The body fails, and the task is cancelled twice while the process is being
    stopped: TypeError instead of the body's error, and no result. *)
Lemma ex_prompt_no_result : exists w',
  prompt_session (ex_opts None) false true false None None [] (Some (Err boom)) None (Err not_exited) w' /\ In LSpawn (events w').
Proof.
  eexists. split; [|].
  - eapply pr_no_result; [apply ex_launched|apply bs_refl|reflexivity| |].
    + unfold leave_with.
      all: go. 1: wait_by [ev XCancel]. all: go. 1: wait_by [fin 1 TCancelled; fin 2 TCancelled; cb 1; cb 2]. all: go.
      1: wait_by [ev XCancel]. all: go. 1: wait_by [fin 3 TCancelled; cb 3]. all: go.
    + all: go.
  - vm_compute. auto.
Qed.
Theorem c81_refuted : ~ c81_full_claim.
Proof. intro C. destruct ex_prompt_no_result as (w' & H & _). exact (C _ _ _ _ _ _ _ _ _ _ H eq_refl). Qed.
Print Assumptions c81_refuted.

(** Missing: the task is cancelled after the process was sent SIGKILL, or the
    process does not end although it was sent SIGKILL. *)
Theorem c81_available_partial : forall o piped_stdin use_pty ob eb enc rb cr r w',
  prompt_session o false piped_stdin use_pty ob eb enc (Some rb) cr r w' ->
  ~ In (LSignal None) (events w') ->
  exists v, cr = Some v.
Proof.
  intros o ps up ob eb enc rb cr r w' H N. pose proof (c81_result _ _ _ _ _ _ _ _ _ _ H) as R. destruct cr as [v|]; [eauto|]. destruct R as (_ & _ & R). contradiction.
Qed.
Print Assumptions c81_available_partial.

(** A session: the body does nothing; stdin is closed; the process exits with status 3. *)
Lemma ex_prompt_normal : exists w',
  prompt_session (ex_opts None) false true false None (Some [33]) [] (Some (Ok tt))
    (Some {| r_exit := 3; r_output := []; r_error := [33]; r_cancelled := false; r_encoding := [] |}) (Ok tt) w'
  /\ events w' = [LAudit PStart; LSpawn; LExit 3; LCollect 3; LAudit (PStop None)].
Proof.
  eexists. split; [|].
  - eapply pr_result; [apply ex_launched|apply bs_refl| | |].
    + cbn. apply l_ret.
    + unfold leave_with. all: go. 1: wait_by [fin 1 (TValue tt); ev (XExit 3); ev XWatch; ev XCollect; fin 2 (TValue tt); cb 1; cb 2]. all: go.
      1: wait_by [fin 3 (TValue tt); cb 3]. all: go.
    + all: go.
  - reflexivity.
Qed.
Example c81_example : exists v w', prompt_session (ex_opts None) false true false None (Some [33]) [] (Some (Ok tt)) (Some v) (Ok tt) w'
  /\ ~ In (LSignal None) (events w').
Proof. destruct ex_prompt_normal as (w' & A & B). eexists _, w'. split; [exact A|]. rewrite B. cbn. intuition discriminate. Qed.

(** ** C82 *)
(** An exception of the body leaves the block (errors of the cleanup and
    timeouts apart). *)
Definition c82_full_claim := forall o piped_stdin use_pty ob eb enc e cr r w',
  prompt_session o false piped_stdin use_pty ob eb enc (Some (Err e)) cr r w' ->
  ~ In LExpired (events w') ->
  r = Err e \/ cleanup_error r w'.

(** The task is cancelled inside expect(): the block ends normally, the code
    after it runs, and the cancellation is lost. *)
Lemma ex_prompt_cancelled : exists cr w',
  prompt_session (ex_opts None) false true false None None [] (Some (Err CancelledError)) cr (Ok tt) w'
  /\ events w' = [LAudit PStart; LSpawn; LCancel; LAudit (PSignal (Some 15)); LSignal (Some 15); LSent 15; LExit (-15); LCollect (-15); LAudit (PStop None)].
Proof.
  eexists _, _. split; [|].
  - eapply pr_result; [apply ex_launched| |reflexivity| |].
    + eapply bs_env with (ev := EX XCancel); [vr|]. apply bs_refl.
    + unfold leave_with. all: go. 1: wait_by [fin 1 (TValue tt); ev (XExit (-15)); ev XWatch; ev XCollect; fin 2 (TValue tt); cb 1; cb 2]. all: go.
      1: wait_by [fin 3 (TValue tt); cb 3]. all: go.
    + all: go.
  - reflexivity.
Qed.
Theorem c82_refuted : ~ c82_full_claim.
Proof.
  intro C. destruct ex_prompt_cancelled as (cr & w' & H & E).
  destruct (C _ _ _ _ _ _ _ _ _ _ H) as [Q|(e & Q & _)]; [rewrite E; cbn; intuition discriminate|discriminate|discriminate].
Qed.
Print Assumptions c82_refuted.

(** All outcomes.  [e] is what ends the block: the exception of the body. *)
Theorem c82_outcome_partial : forall o piped_stdin use_pty ob eb enc rb cr r w',
  piped_stdin || use_pty = true ->
  prompt_session o false piped_stdin use_pty ob eb enc (Some rb) cr r w' ->
  ((exists s, In (LExit s) (events w')) \/ In (LSent 9) (events w'))
  /\ match rb with
     | Ok _ => r = Ok tt \/ timed_out o r w' \/ cleanup_error r w' \/ (r = Err not_exited /\ cr = None)
     | Err e => r = Err e
         (* suppressed: cancelled, or cancelled during the cleanup *)
         \/ (r = Ok tt /\ (e = CancelledError \/ (0 < marks (events w'))%nat))
         \/ timed_out o r w' \/ cleanup_error r w' \/ (r = Err not_exited /\ cr = None)
     end.
Proof.
  intros o ps up ob eb enc rb cr r w' IN H. pose proof (c81_result _ _ _ _ _ _ _ _ _ _ H) as R.
  inversion H as [|w0 rb0 w1 rc r0 w2 v H1 H2 H3 H4 H5|w0 rb0 w1 rc r0 w2 e0 H1 H2 H3 H4 H5]; subst;
    (split; [eapply (c34_nothing_left_running o); [exact (leave_with_run _ _ _ _ _ _ _ _ _ _ _ _ H1 H2 H4)|]; 
             destruct (leave_signal _ _ _ _ _ _ _ _ _ _ _ _ eq_refl H1 H2 H4) as (PR & HJ & _); apply (xi_spawn _ (proj1 HJ)); apply (xi_proc _ (proj1 HJ)); exact PR|]).
  - destruct rb as [[]|e]; cbn in H3.
    + unfold prompt_close in H3. rewrite IN in H3. destruct H3 as [-> _].
      destruct (leave_ok _ _ _ _ _ _ _ _ _ _ _ H1 H2 H4) as [Q|[Q|Q]]; auto.
    + subst rc. destruct (body_error _ _ _ _ _ _ _ _ _ _ _ _ eq_refl H1 H2 H4) as (_ & [Q|[(Q & [Q2|Q2])|[Q|Q]]]); auto 6.
      right; left. split; [exact Q|right; lia].
  - destruct R as (R & _). destruct rb as [[]|e]; auto 10.
Qed.
Print Assumptions c82_outcome_partial.

(** A single cancellation that arrives in the body is never raised by the block
    (unless a cleanup error or TimeoutError takes its place, it just ends). *)
Theorem c82_swallowed : forall o piped_stdin use_pty ob eb enc cr r w0 w1 w',
  aenter o false use_pty ob eb enc fresh (Ok tt) w0 -> body_steps o false w0 w1 ->
  leave_with o false piped_stdin (Err CancelledError) w1 r w' ->
  prompt_finish o ob eb enc w' (Ok cr) w' ->
  marks (events w1) = marks (events w') ->
  r <> Err CancelledError /\ (r = Ok tt \/ timed_out o r w' \/ cleanup_error r w').
Proof.
  intros o ps up ob eb enc cr r w0 w1 w' H1 H2 H3 _ MK.
  assert (L : r = Ok tt \/ timed_out o r w' \/ cleanup_error r w') by (eapply leave_cancelled; eauto).
  split; [|exact L]. destruct L as [->|[(-> & _)|(e & -> & Q)]]; [discriminate|discriminate|]. intros [= ->]. exact (run_errors_not_cancelled _ _ Q eq_refl).
Qed.
Print Assumptions c82_swallowed.
Example c82_example : (false || true = true) /\ exists cr w', prompt_session (ex_opts None) false true false None None [] (Some (Err CancelledError)) cr (Ok tt) w'
  /\ In LCancel (events w').
Proof. split; [reflexivity|]. destruct ex_prompt_cancelled as (cr & w' & H & E). exists cr, w'. split; [exact H|]. rewrite E. cbn. auto. Qed.
