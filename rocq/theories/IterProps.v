(** Theorems about `async for line in cmd` and `async with cmd.prompt() as cli`
    (C77-C82).  They hold for every launch outcome, consumer, body, arrival of
    the data, number of tasks, and every schedule of exits, timeouts, signals
    and cancellations.  [ext = false]: nobody but the runner cancels the tasks
    that the runner has created for itself. *)
From Verif Require Import AsyncModel AsyncSpec AsyncProofs HarvestModel HarvestSpec HarvestProofs HarvestProofs2 AsyncInv
  RunnerModel RunnerSpec RunnerProofs RunnerProofs2 RunnerProofs3 RunnerProofs4 RunnerProofs5 RunnerProofs6 RunnerProofs7
  RunnerProofs8 RunnerProofs9 RunnerProofs10 RunnerProofs11 CopySpec CopyProofs CopyProofs2 Utf8Proofs IterModel IterProofs IterProofs2
  RunTac RunnerProps CopyProps.
Open Scope Z_scope.

(** The stream ends normally or with an ordinary reading error. *)
Definition plain_end (r : sreader) : Prop := sr_end r = EndEof \/ exists e, sr_end r = EndExc e /\ is_Exception e = true.


Lemma decoded_forall (f : bytes -> option text) ds : forall ls, map_opt f ds = Some ls -> Forall2 (fun d t => f d = Some t) ds ls.
Proof.
  induction ds as [|d ds IH]; intros ls B; cbn in B.
  - injection B as <-. constructor.
  - destruct (f d) as [t|] eqn:D; [|discriminate]. destruct (map_opt f ds) as [ts|]; [|discriminate].
    injection B as <-. constructor; auto.
Qed.
Lemma forall_decoded (f : bytes -> option text) ds ls : Forall2 (fun d t => f d = Some t) ds ls -> map_opt f ds = Some ls.
Proof. induction 1 as [|d t ds ts D _ IH]; [reflexivity|]. cbn. now rewrite D, IH. Qed.
(** In UTF-8 the text of the lines is the text of the whole. *)
Lemma utf8_lines d ls : Forall2 (fun l t => utf8_decode l = Some t) (split_lines d) ls -> utf8_decode d = Some (List.concat ls) /\ line_list ls.
Proof.
  intros F. apply forall_decoded in F. pose proof (decode_lines _ (split_lines_list d)) as D. rewrite split_lines_concat, F in D.
  destruct (utf8_decode d) as [t|]; [|discriminate]. destruct D as (ts & D1 & D2). injection D1 as <-. split; [now rewrite D2|].
  eapply decoded_lines_list; [apply split_lines_list|exact F].
Qed.
Definition as_utf8 (_ : text) (d : bytes) : option text := utf8_decode d.

(** ** C77 *)
(** The consumer gets the first lines of the output, decoded, in order, no line
    twice and none left out, however the iteration ends. *)
Theorem c77_lines_in_order : forall dec o ext piped_stdin use_pty ob eb enc sr ls rb r w',
  iterate dec o ext piped_stdin use_pty ob eb enc (Some sr) ls rb r w' ->
  exists ds, CopySpec.prefix ds (split_lines (sr_data sr)) /\ Forall2 (fun d t => dec (o_encoding o) d = Some t) ds ls.
Proof.
  intros dec o ext ps up ob eb enc sr ls rb r w' [e w1 H|w0 w1 ls0 rb0 r0 w2 H1 H2 H3].
  - exists []. split; [eexists; reflexivity|constructor].
  - destruct (iter_loop_lines _ _ _ [] _ _ _ _ _ H2) as (ds & rest & A & B & _). exists ds. split; [exists rest; exact A|]. now apply decoded_forall.
Qed.
Print Assumptions c77_lines_in_order.
(** A command without a stream to read (stdout sent elsewhere): no lines. *)
Theorem c77_no_stream : forall dec o ext piped_stdin use_pty ob eb enc ls rb r w',
  iterate dec o ext piped_stdin use_pty ob eb enc None ls rb r w' -> ls = [].
Proof. intros dec o ext ps up ob eb enc ls rb r w' [e w1 H|w0 w1 ls0 rb0 r0 w2 H1 H2 H3]; [reflexivity|]. exact (proj1 H2). Qed.
Print Assumptions c77_no_stream.

(** If the `async for` ends normally, all the output was delivered. *)
Definition c97_full_claim := forall dec o piped_stdin use_pty ob eb enc sr ls rb w', plain_end sr ->
  iterate dec o false piped_stdin use_pty ob eb enc (Some sr) ls rb (Ok tt) w' ->
  Forall2 (fun l t => dec (o_encoding o) l = Some t) (split_lines (sr_data sr)) ls.

(** Missing: the task was cancelled or timed out. *)
Theorem c97_complete_partial : forall dec o piped_stdin use_pty ob eb enc sr ls rb w', plain_end sr ->
  iterate dec o false piped_stdin use_pty ob eb enc (Some sr) ls rb (Ok tt) w' ->
  marks (events w') = 0%nat ->
  sr_end sr = EndEof /\ Forall2 (fun l t => dec (o_encoding o) l = Some t) (split_lines (sr_data sr)) ls
  /\ ((forall d, dec (o_encoding o) d = utf8_decode d) -> utf8_decode (sr_data sr) = Some (List.concat ls) /\ line_list ls)
  /\ rb = Some (Ok tt).   (* the loop ended by itself *)
Proof.
  intros dec o ps up ob eb enc sr ls rb w' PE H MK. inversion H as [|w0 w1 ls0 rb0 r0 w2 H1 H2 H3]; subst. cbn in H2.
  destruct (iter_loop_lines _ _ _ [] _ _ _ _ _ H2) as (ds & rest & A & B & C). assert (HB := iter_loop_steps _ _ _ _ _ _ _ _ H2).
  destruct rb0 as [u|e].
  - destruct C as [-> C]. split; [exact C|]. rewrite app_nil_r in A. apply decoded_forall in B. rewrite A. split; [exact B|].
    split; [|now destruct u].
    intros U. apply utf8_lines. rewrite A. clear -B U. induction B as [|l t l1 l2 E B IH]; constructor; [now rewrite <- U|exact IH].
  - exfalso. destruct (body_error _ _ _ _ _ _ _ _ _ _ _ _ eq_refl H1 HB H3) as (_ & [Q|[(_ & [->|Q])|[(Q & _)|(e' & Q & _)]]]); try discriminate; [|lia].
    assert (L : (marks (events w1) <= marks (events w'))%nat).
    { assert (HW := leave_with_run _ _ _ _ _ _ _ _ _ _ _ _ H1 HB H3).
      pose proof H1 as HE. apply aenter_cases in HE as [wa P PR Mk0 -> _|e0 wa _ _ (e' & Q) _ _]; [|discriminate].
      destruct (body_ready o false _ (Ok tt) _ P PR HB) as (J1 & PR1 & _).
      assert (S : exists ra, aexit o false ps (Some CancelledError) w1 ra w').
      { destruct H3 as [(b & w2 & Q1 & Q2)|(e2 & Q1 & _)]; [|exists (Err e2); exact Q1]. exists (Ok b). destruct b; destruct Q2 as [_ ->]; exact Q1. }
      destruct S as (ra & HA). destruct (aexit_world2 _ _ _ _ _ _ _ HA) as (rf & w2 & HF & W). destruct (finish_reg _ _ _ _ _ _ _ HF J1 PR1) as [R2 _].
      pose proof (reg_mk _ _ _ _ R2) as MM. unfold mk, events in *. destruct W as [(-> & _)|(_ & -> & _)].
      - destruct (stopped_log o w2) as (l & -> & _). rewrite marks_app. lia.
      - destruct (stopped_log o (cancelled_now w2)) as (l & -> & _). rewrite marks_app. cbn. lia. }
    destruct C as [(_ & C)|[(C & _)|[C|[(m & C)|C]]]]; try discriminate.
    + unfold mk in C. unfold events in L, MK. lia.
    + destruct PE as [PE|(e & PE & EX)]; rewrite PE in C; cbn in C; [discriminate|]. injection C as <-. discriminate.
Qed.
Print Assumptions c97_complete_partial.

(** The output "h", e-acute, newline, "b": the consumer gets the first line; its task is
    cancelled while the generator waits for the second. *)
Definition cancelled_events : list RunnerModel.rev :=
  [LAudit PStart; LSpawn; LCancel; LAudit (PSignal (Some 15)); LSignal (Some 15); LSent 15; LExit (-15); LCollect (-15); LAudit (PStop None)].
Lemma suspended_none o ext w : suspended o ext false w w.
Proof. exists [], (mk_wst [] false true false). split; reflexivity. Qed.
Lemma suspended_by o ext evs (w w' : world rx rkind unit) s :
  wait_run (rstep o) (rfinish ext) ALL_COMPLETED None (w, mk_wst [] false true false) evs = Some (w', s) -> forall c, s_canc s = c -> suspended o ext c w w'.
Proof. intros H c E. exists evs, s. now split. Qed.
Lemma ex_iter_cancelled : exists w',
  iterate as_utf8 (ex_opts None) false false false None None [] (Some ex_reader) [[104; 233; 10]] (Some (Err CancelledError)) (Ok tt) w'
  /\ events w' = cancelled_events.
Proof.
  eexists. split; [|].
  - eapply ite_entered; [apply ex_launched| |].
    + cbn. eapply it_line; [apply suspended_none|reflexivity|discriminate|reflexivity|apply bs_refl|].
      apply it_cancelled. refine (suspended_by _ _ [ev XCancel] _ _ _ _ _ _); [vr|vr].
    + unfold leave_with. all: go. 1: wait_by [fin 1 (TValue tt); ev (XExit (-15)); ev XWatch; ev XCollect; fin 2 (TValue tt); cb 1; cb 2]. all: go.
  - reflexivity.
Qed.
Theorem c97_refuted : ~ c97_full_claim.
Proof.
  intro C. destruct ex_iter_cancelled as (w' & H & _). assert (P : plain_end ex_reader) by now left. specialize (C _ _ _ _ _ _ _ _ _ _ _ P H). cbv -[as_utf8] in C. inversion C as [|? ? ? ? _ F]. inversion F.
Qed.
Print Assumptions c97_refuted.

(** A complete iteration; the process exits with status [z]. *)
Definition end_with (z : Z) : list (@wev unit rxe) :=
  [fin 1 (TValue tt); ev (XExit z); ev XWatch; ev XCollect; fin 2 (TValue tt); cb 1; cb 2].
Lemma ex_iter_normal z : exists w',
  iterate as_utf8 (ex_opts None) false false false None None [] (Some ex_reader) [[104; 233; 10]; [98]] (Some (Ok tt)) (Ok tt) w'
  /\ events w' = [LAudit PStart; LSpawn; LExit z; LCollect z; LAudit (PStop None)] /\ returncode (w_x w') = Some z.
Proof.
  eexists. split; [|split].
  - eapply ite_entered; [apply ex_launched| |].
    + cbn. eapply it_line; [apply suspended_none|reflexivity|discriminate|reflexivity|apply bs_refl|].
      eapply it_line; [apply suspended_none|reflexivity|discriminate|reflexivity|apply bs_refl|].
      eapply it_eof; [apply suspended_none|reflexivity].
    + unfold leave_with. all: go. 1: wait_by (end_with z). all: go.
  - reflexivity.
  - reflexivity.
Qed.
(** The same with the encoding "latin-1", every byte of which is a character: the
    output is "h", the byte 233, newline, "b". *)
Definition latin1_opts : opts := {|
  o_path := None; o_env := None; o_inherit_env := true;
  o_input := VRedirect DEFAULT; o_input_close := false;
  o_output := VRedirect DEFAULT; o_output_append := false; o_output_close := false;
  o_error := VRedirect DEFAULT; o_error_append := false; o_error_close := false;
  o_error_limit := Some 1024; o_encoding := [108; 97; 116; 105; 110; 45; 49]; o_return_result := false;
  o_catch_cancelled := false; o_exit_codes := None; o_timeout := None;
  o_cancel_timeout := 3; o_cancel_signal := Some 15; o_alt_name := None;
  o_pass_fds := []; o_pass_fds_close := false; o_writable := false;
  o_start_new_session := false; o_preexec_fn := None; o_pty := PtyOff;
  o_close_fds := true; o_audit_callback := Some 0%nat; o_coerce_arg := None |}.
Definition latin1_reader : sreader := {| sr_buf := []; sr_in := [[104; 233]; [10; 98]]; sr_end := EndEof |}.
Lemma ex_iter_latin1 (dec : text -> bytes -> option text) :
  dec (o_encoding latin1_opts) [104; 233; 10] = Some [104; 233; 10] -> dec (o_encoding latin1_opts) [98] = Some [98] -> exists w',
  iterate dec latin1_opts false false false None None [] (Some latin1_reader) [[104; 233; 10]; [98]] (Some (Ok tt)) (Ok tt) w'
  /\ marks (events w') = 0%nat.
Proof.
  intros D1 D2. eexists. split.
  - eapply (ite_entered _ _ _ _ _ _ _ _ _ (launched false)).
    + all: go. 1: apply setup_ok. all: go.  1: wait_by (@nil (@wev unit rxe)). all: go. 1: wait_by [ev XSpawn; fin 0 (TValue tt); cb 0].
      all: go. 1: exists 1%nat. all: go. 1: apply setup_ok. all: go.
    + cbn -[latin1_opts]. eapply it_line; [apply suspended_none|reflexivity|discriminate|exact D1|apply bs_refl|].
      eapply it_line; [apply suspended_none|reflexivity|discriminate|exact D2|apply bs_refl|].
      eapply it_eof; [apply suspended_none|reflexivity].
    + unfold leave_with. all: go. 1: wait_by (end_with 0). all: go.
  - reflexivity.
Qed.
Example c77_example : exists w', plain_end ex_reader
  /\ iterate as_utf8 (ex_opts None) false false false None None [] (Some ex_reader) [[104; 233; 10]; [98]] (Some (Ok tt)) (Ok tt) w'
  /\ marks (events w') = 0%nat.
Proof. destruct (ex_iter_normal 0) as (w' & A & B & _). exists w'. split; [now left|]. split; [exact A|]. rewrite B. reflexivity. Qed.

(** ** C78 *)
(** "When a command is cancelled, shellous terminates the running process and
    raises a CancelledError" (README.md 459-460): if the task is cancelled while it waits
    for the next line, CancelledError is raised. *)
Definition c78_full_claim := forall dec o piped_stdin use_pty ob eb enc stream ls r w', o_catch_cancelled o = false ->
  iterate dec o false piped_stdin use_pty ob eb enc stream ls (Some (Err CancelledError)) r w' ->
  ~ In LExpired (events w') ->
  r = Err CancelledError \/ cleanup_error r w'.
Theorem c78_refuted : ~ c78_full_claim.
Proof.
  intro C. destruct ex_iter_cancelled as (w' & H & E).
  destruct (C as_utf8 (ex_opts None) _ _ _ _ _ _ _ _ _ eq_refl H) as [Q|(e & Q & _)]; [|discriminate|discriminate].
  rewrite E. cbn. intuition discriminate.
Qed.
Print Assumptions c78_refuted.

(** What happens instead: once the process has been started, a single
    cancellation is never raised, wherever it arrives; if it arrives while the
    generator waits for a line or for the process, and there is no timeout and
    the cleanup does not fail, the `async for` just ends. *)
Theorem c78_swallowed : forall dec o piped_stdin use_pty ob eb enc stream ls rb r w',
  (forall sr, stream = Some sr -> plain_end sr) ->
  iterate dec o false piped_stdin use_pty ob eb enc stream ls (Some rb) r w' ->
  (marks (events w') <= 1)%nat ->
  r <> Err CancelledError
  /\ (rb = Ok tt \/ rb = Err CancelledError -> r = Ok tt \/ timed_out o r w' \/ cleanup_error r w').
Proof.
  intros dec o ps up ob eb enc stream ls rb r w' PE H MK. inversion H as [|w0 w1 ls0 rb0 r0 w2 H1 H2 H3]; subst.
  assert (HB := iter_block_steps _ _ _ _ _ _ _ _ H2).
  assert (NE : forall r0, (r0 = Ok tt \/ timed_out o r0 w' \/ cleanup_error r0 w') -> r0 <> Err CancelledError).
  { intros r1 [->|[(-> & _)|(e & -> & Q)]]; [discriminate|discriminate|]. intros [= ->]. exact (run_errors_not_cancelled _ _ Q eq_refl). }
  destruct rb as [[]|e].
  - pose proof (leave_ok _ _ _ _ _ _ _ _ _ _ _ H1 HB H3) as L. split; auto.
  - assert (DC : e = CancelledError \/ e <> CancelledError) by (destruct e; auto; right; discriminate). destruct DC as [->|N].
    + assert (M1 : (1 <= marks (events w1))%nat).
      { destruct stream as [sr|]; [|destruct H2 as (_ & Q & _); discriminate].
        destruct (iter_loop_lines _ _ _ [] _ _ _ _ _ H2) as (ds & rest & _ & _ & C).
        destruct C as [(_ & C)|[(C & _)|[C|[(m & C)|C]]]]; try discriminate; [unfold mk in C; unfold events; lia|].
        destruct (PE sr eq_refl) as [P2|(e & P2 & EX)]; rewrite P2 in C; cbn in C; [discriminate|]. injection C as <-. discriminate. }
      assert (L : (marks (events w1) <= marks (events w'))%nat).
      { pose proof H1 as HE. apply aenter_cases in HE as [wa P PR Mk0 -> _|e0 wa _ _ (e' & Q) _ _]; [|discriminate].
        destruct (body_ready o false _ (Ok tt) _ P PR HB) as (J1 & PR1 & _).
        assert (S : exists ra, aexit o false ps (Some CancelledError) w1 ra w').
        { destruct H3 as [(b & w2 & Q1 & Q2)|(e2 & Q1 & _)]; [|exists (Err e2); exact Q1]. exists (Ok b). destruct b; destruct Q2 as [_ ->]; exact Q1. }
        destruct S as (ra & HA). destruct (aexit_world2 _ _ _ _ _ _ _ HA) as (rf & w2 & HF & W). destruct (finish_reg _ _ _ _ _ _ _ HF J1 PR1) as [R2 _].
        pose proof (reg_mk _ _ _ _ R2) as MM. unfold mk, events in *. destruct W as [(-> & _)|(_ & -> & _)].
        - destruct (stopped_log o w2) as (l & -> & _). rewrite marks_app. lia.
        - destruct (stopped_log o (cancelled_now w2)) as (l & -> & _). rewrite marks_app. cbn. lia. }
      assert (L2 : r = Ok tt \/ timed_out o r w' \/ cleanup_error r w') by (eapply leave_cancelled; eauto; lia). split; auto.
    + split; [|intros [Q|Q]; congruence].
      destruct (body_error _ _ _ _ _ _ _ _ _ _ _ _ eq_refl H1 HB H3) as (_ & [->|[(-> & _)|[(-> & _)|(e' & -> & RE)]]]); try congruence.
      intros [= ->]. exact (run_errors_not_cancelled _ _ RE eq_refl).
Qed.
Print Assumptions c78_swallowed.
Example c78_example : exists w', (forall sr, Some ex_reader = Some sr -> plain_end sr)
  /\ iterate as_utf8 (ex_opts None) false false false None None [] (Some ex_reader) [[104; 233; 10]] (Some (Err CancelledError)) (Ok tt) w'
  /\ (marks (events w') <= 1)%nat /\ In LCancel (events w').
Proof.
  destruct ex_iter_cancelled as (w' & A & B). exists w'. split; [intros sr [= <-]; now left|]. split; [exact A|]. rewrite B. cbn. auto 10.
Qed.

(** ** C79 *)
(** However the iteration ends, the process has exited or was sent SIGKILL; and
    its exit status was collected, unless the task was cancelled after SIGKILL
    or the error says otherwise. *)
Theorem c79_process_ended : forall dec o piped_stdin use_pty ob eb enc stream ls rb r w',
  iterate dec o false piped_stdin use_pty ob eb enc stream ls rb r w' ->
  In LSpawn (events w') ->
  ((exists s, In (LExit s) (events w')) \/ In (LSent 9) (events w'))
  /\ (~ In LAbort (events w') ->
      (forall l1 l2, events w' = l1 ++ LSignal None :: l2 -> marks l2 = 0%nat) ->
      (exists z, In (LCollect z) (events w')) \/ r = Err cancel_failed \/ r = Err unable_to_kill \/ r = Err not_exited).
Proof.
  intros dec o ps up ob eb enc stream ls rb r w' H SP. apply iterate_run in H. split.
  - eapply c34_nothing_left_running; eauto.
  - intros NA ND. eapply c35_status_collected_partial; eauto.
Qed.
Print Assumptions c79_process_ended.
(** The consumer closes the generator after the first line: SIGTERM, and
    aclose() returns normally. *)
Example c79_example : exists w',
  iterate as_utf8 (ex_opts None) false false false None None [] (Some ex_reader) [[104; 233; 10]] (Some (Err GeneratorExit)) (Err GeneratorExit) w'
  /\ events w' = [LAudit PStart; LSpawn; LAudit (PSignal (Some 15)); LSignal (Some 15); LSent 15; LExit (-15); LCollect (-15); LAudit (PStop None)].
Proof.
  eexists. split; [|].
  - eapply ite_entered; [apply ex_launched| |].
    + cbn. eapply it_closed; [apply suspended_none|reflexivity|discriminate|reflexivity|apply bs_refl].
    + unfold leave_with. all: go. 1: wait_by [fin 1 (TValue tt); ev (XExit (-15)); ev XWatch; ev XCollect; fin 2 (TValue tt); cb 1; cb 2]. all: go.
  - reflexivity.
Qed.

(** ** C80 *)
(** Not what one may expect from `await`: a command that fails makes the `async
    for` raise ResultError. *)
Definition c80_full_claim := forall dec o piped_stdin use_pty ob eb enc stream ls rb r w' z, o_exit_codes o = None ->
  iterate dec o false piped_stdin use_pty ob eb enc stream ls (Some rb) r w' ->
  marks (events w') = 0%nat -> In (LExit z) (events w') -> z <> 0 -> r <> Ok tt.
Theorem c80_refuted : ~ c80_full_claim.
Proof.
  intro C. destruct (ex_iter_normal 1) as (w' & H & E & _). refine (C as_utf8 (ex_opts None) _ _ _ _ _ _ _ _ _ _ 1 eq_refl H _ _ _ eq_refl); [rewrite E; reflexivity|rewrite E; cbn; auto|discriminate].
Qed.
Print Assumptions c80_refuted.
(** What the code does: the exit status never matters. *)
Theorem c80_exit_status_ignored : forall dec o piped_stdin use_pty ob eb enc stream ls rb r w',
  (forall sr, stream = Some sr -> plain_end sr /\ forall x, sr_end sr <> EndExc (ResultError x)) ->
  iterate dec o false piped_stdin use_pty ob eb enc stream ls (Some rb) r w' ->
  (* a ResultError can only come from a process substitution *)
  (forall x, r = Err (ResultError x) -> task_failed w' (ResultError x))
  (* and an undisturbed iteration to the end of the output just ends *)
  /\ (rb = Ok tt -> marks (events w') = 0%nat -> tasks_fine w' -> ~ In LUser (events w') ->
      (exists z, In (LCollect z) (events w')) /\ (r = Ok tt \/ (piped_stdin = true /\ r = Err cancel_failed))).
Proof.
  intros dec o ps up ob eb enc stream ls rb r w' PE H. inversion H as [|w0 w1 ls0 rb0 r0 w2 H1 H2 H3]; subst.
  assert (HB := iter_block_steps _ _ _ _ _ _ _ _ H2).
  assert (RE : forall x, run_errors w' (ResultError x) -> task_failed w' (ResultError x)).
  { intros x [Q|[Q|(_ & Q)]]; [discriminate|discriminate|exact Q]. }
  split.
  - intros x ->. destruct rb as [[]|e].
    + destruct (leave_ok _ _ _ _ _ _ _ _ _ _ _ H1 HB H3) as [Q|[(Q & _)|(e & [= <-] & Q)]]; [discriminate|discriminate|auto].
    + destruct (body_error _ _ _ _ _ _ _ _ _ _ _ _ eq_refl H1 HB H3) as (_ & [[= <-]|[(Q & _)|[(Q & _)|(e' & [= <-] & Q)]]]); try discriminate; [|auto].
      exfalso. destruct stream as [sr|]; [|destruct H2 as (_ & Q & _); discriminate]. destruct (PE sr eq_refl) as [PL NR].
      destruct (iter_loop_lines _ _ _ [] _ _ _ _ _ H2) as (ds & rest & _ & _ & C).
      destruct C as [(C & _)|[(C & _)|[C|[(m & C)|C]]]]; try discriminate.
      destruct PL as [P2|(e & P2 & EX)]; rewrite P2 in C; cbn in C; [discriminate|]. injection C as <-. exact (NR x P2).
  - intros -> MK TF NU. destruct H3 as [(b & w2 & Q1 & [-> ->])|(e & Q1 & ->)];
      destruct (c36_normal_run_no_signals _ _ _ _ _ _ _ _ _ _ H1 HB Q1 MK TF NU) as (_ & CO & [Q|(-> & Q)]); split; auto; try discriminate.
    injection Q as ->. auto.
Qed.
Print Assumptions c80_exit_status_ignored.
Example c80_example : exists w', iterate as_utf8 (ex_opts None) false false false None None [] (Some ex_reader) [[104; 233; 10]; [98]] (Some (Ok tt)) (Ok tt) w'
  /\ marks (events w') = 0%nat /\ tasks_fine w' /\ ~ In LUser (events w') /\ returncode (w_x w') = Some 1.
Proof.
  eexists. split; [|].
  - eapply ite_entered; [apply ex_launched| |].
    + cbn. eapply it_line; [apply suspended_none|reflexivity|discriminate|reflexivity|apply bs_refl|].
      eapply it_line; [apply suspended_none|reflexivity|discriminate|reflexivity|apply bs_refl|].
      eapply it_eof; [apply suspended_none|reflexivity].
    + unfold leave_with. all: go. 1: wait_by (end_with 1). all: go.
  - split; [reflexivity|]. split; [intros e (i & Q); vm_compute in Q; intuition discriminate|]. split; [vm_compute; intuition discriminate|reflexivity].
Qed.
