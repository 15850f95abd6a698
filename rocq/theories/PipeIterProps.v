(** Theorems about `async for line in pipeline` and `async with
    pipeline.prompt() as cli` (C84-C89).  They hold for every number of commands,
    every way the commands end, every consumer or body, every arrival of the data
    and every schedule of completions and cancellations. *)
From Verif Require Import AsyncSpec AsyncProofs HarvestModel HarvestSpec HarvestProofs HarvestProofs2 AsyncInv
  PipeRunnerModel PipeRunnerProofs PipeRunnerProofs2 CopySpec CopyProofs CopyProofs2 Utf8Proofs PipeIterModel PipeIterProofs
  ResultSpec.
From Verif Require ResultProps CopyProps IterProps.
From Verif Require Import RunTac PipeRunnerProps.
Open Scope nat_scope.

(** ** Vocabulary *)
(** shellous itself gave up: a command failed with RuntimeError or
    AssertionError, which harvest_results raises at once, or some command has not
    ended, because it did not react to being cancelled (RuntimeError) or the task
    was cancelled twice. *)
Definition gave_up (n : nat) (w' : world) (e : exn) : Prop :=
  (exists j, j < n /\ ended true w' j (TFail e) /\ (e = AssertionError \/ exists m, e = RuntimeError m))
  \/ ((e = cancel_failed \/ (e = InvalidStateError /\ cancels (w_hist w') >= 2)) /\ exists j, j < n /\ forall o, ~ ended true w' j o).
(** The commands ended like this, in pipeline order. *)
Definition ended_as (n : nat) (w : world) (os : list (tout pval)) : Prop := Forall2 (ended true w) (seq 0 n) os.
(** The consumer's task was cancelled. *)
Definition cancelled_in (w' : world) : Prop := In HCancel (w_hist w').

(** ** Lemmas *)
Lemma stopped_gave_up n h w' r : extends (begun n true) h w' -> stopped_by n w' r -> exists e, r = Err e /\ gave_up n w' e.
Proof.
  intros E (e & -> & Y & X). exists e. split; [reflexivity|].
  assert (F : (exists i, In i (seq 2 n) /\ task_out w' i = Some (TFail e) /\ reraised (TFail (V := pval) e)) -> gave_up n w' e).
  { intros (i & Hi & T & RR). left. apply in_seq in Hi. exists (i - 2). split; [lia|]. split.
    + apply (ended_intro n true h w' (i - 2) _ E); [lia|]. cbn. replace (S (S (i - 2))) with i by lia. exact T.
    + destruct RR as [Q|(m & Q)]; injection Q as ->; [now left|right; eauto]. }
  destruct Y as [(i & Hi & D)|Y]; [|now apply F]. destruct X as [X|[X|X]]; [|now apply F|];
    (right; split; [auto|]; apply in_seq in Hi; exists (i - 2); split; [lia|]; intros o (t & Nt & _ & O);
     unfold task_done, task_out in D; replace (task_of true (i - 2)) with i in Nt by (cbn; lia); rewrite Nt, O in D; discriminate).
Qed.
Lemma ended_as_intro n h w os P : extends (begun n true) h w -> Forall2 (fun i out => task_out w i = Some out /\ P out) (seq 2 n) os -> ended_as n w os.
Proof.
  intros E F. unfold ended_as. assert (SQ : seq 2 n = map (fun j => 2 + j) (seq 0 n)) by (rewrite <- seq_shift, <- seq_shift, map_map; reflexivity).
  rewrite SQ in F. clear SQ.
  assert (G : forall l os, (forall j, In j l -> j < n) -> Forall2 (fun i out => task_out w i = Some out /\ P out) (map (fun j => 2 + j) l) os -> Forall2 (ended true w) l os).
  { clear F os. induction l as [|j l IH]; intros os L F; inversion F as [|? o ? os' [T _] F']; subst; constructor.
    - apply (ended_intro n true h w j o E); [apply L; now left|exact T].
    - apply IH; [intros k Hk; apply L; now right|exact F']. }
  apply G; [|exact F]. intros j Hj. apply in_seq in Hj. lia.
Qed.
Lemma ended_as_fun n w os os' : ended_as n w os -> ended_as n w os' -> os = os'.
Proof.
  unfold ended_as. generalize (seq 0 n). intros l F. revert os'. induction F as [|j o l os (t & N & _ & O) F IH]; intros os' F'; inversion F' as [|? o' ? os2 (t' & N' & _ & O') F2]; subst; [reflexivity|].
  f_equal; [congruence|auto].
Qed.
(** What happens after the block, for a block that was entered. *)
Lemma leave_cases n w0 w1 rb r w' : n >= 2 -> aenter n (Ok tt) true pw0 (Ok tt) w0 -> body_steps w0 w1 -> pleave rb w1 r w' ->
  exists h', extends w1 h' w' /\ (exists h, extends (begun n true) h w')
  /\ ((exists os c, p_results (w_x w') = Some os /\ p_cancelled (w_x w') = c /\ ended_as n w' os
        /\ (c = true -> rb = Err CancelledError \/ In HCancel h') /\ (rb = Err CancelledError -> c = true)
        /\ r = match rb with Ok _ => Ok tt | Err e => if c then Ok tt else Err e end)
      \/ (p_results (w_x w') = None /\ exists e, r = Err e /\ gave_up n w' e)).
Proof.
  intros N H B L. destruct (aenter_ok _ _ _ N H) as (h & R & _). destruct (body_run _ _ _ _ B _ R) as (h1 & R1 & _).
  destruct (pleave_spec _ _ _ _ _ _ N R1 L) as (h' & E & X). exists h'. split; [exact E|].
  pose proof (extends_trans _ _ _ _ _ (ru_ext _ _ _ _ R1) E) as E2. split; [eauto|].
  destruct X as [(os & c & A1 & A2 & A3 & A4 & A5 & A6)|(A1 & A2)].
  - left. exists os, c. split; [exact A1|]. split; [exact A2|]. split; [exact (ended_as_intro n _ w' os (fun o => ~ reraised o) E2 A3)|]. auto.
  - right. split; [exact A1|]. eapply stopped_gave_up; eauto.
Qed.

(** ** C84 *)
(** The consumer gets the first lines of the output of the last command, decoded,
    in order, no line twice and none left out, however the iteration ends. *)
Theorem c84_lines_in_order : forall dec o n setup sr ls rb r w',
  piterate dec o n setup (Some sr) ls rb r w' ->
  exists ds, CopySpec.prefix ds (split_lines (sr_data sr)) /\ Forall2 (fun d t => dec (o_encoding o) d = Some t) ds ls.
Proof.
  intros dec o n setup sr ls rb r w' [e w1 H|w0 w1 ls0 rb0 r0 w2 H1 H2 H3].
  - exists []. split; [eexists; reflexivity|constructor].
  - destruct (piter_loop_lines _ _ _ _ _ _ _ H2) as (ds & rest & A & B & _). exists ds. split; [exists rest; exact A|]. now apply IterProps.decoded_forall.
Qed.
Print Assumptions c84_lines_in_order.
(** A pipeline none of whose streams is captured gives no lines. *)
Theorem c84_no_stream : forall dec o n setup ls rb r w', piterate dec o n setup None ls rb r w' -> ls = [].
Proof. intros dec o n setup ls rb r w' [e w1 H|w0 w1 ls0 rb0 r0 w2 H1 H2 H3]; [reflexivity|]. exact (proj1 H2). Qed.
Print Assumptions c84_no_stream.

(** If the `async for` ends normally, all the output was delivered. *)
Definition c98_full_claim := forall dec o n sr ls rb w', n >= 2 -> IterProps.plain_end sr ->
  piterate dec o n (Ok tt) (Some sr) ls rb (Ok tt) w' -> Forall2 (fun l t => dec (o_encoding o) l = Some t) (split_lines (sr_data sr)) ls.
(** Missing: the consumer's task was cancelled. *)
Theorem c98_complete_partial : forall dec o n sr ls rb w', n >= 2 -> IterProps.plain_end sr ->
  piterate dec o n (Ok tt) (Some sr) ls rb (Ok tt) w' -> ~ cancelled_in w' ->
  sr_end sr = EndEof /\ Forall2 (fun l t => dec (o_encoding o) l = Some t) (split_lines (sr_data sr)) ls
  /\ ((forall d, dec (o_encoding o) d = utf8_decode d) -> utf8_decode (sr_data sr) = Some (List.concat ls) /\ line_list ls).
Proof.
  intros dec o n sr ls rb w' N PE H NC. inversion H as [|w0 w1 ls0 rb0 r0 w2 H1 H2 H3]; subst. cbn in H2.
  destruct (piter_loop_lines _ _ _ _ _ _ _ H2) as (ds & rest & A & B & C). assert (HB := piter_loop_steps _ _ _ _ _ _ _ H2).
  destruct rb0 as [u|e].
  - destruct C as [-> C]. split; [exact C|]. rewrite app_nil_r in A. apply IterProps.decoded_forall in B. rewrite A. split; [exact B|].
    intros U. apply IterProps.utf8_lines. rewrite A. clear -B U. induction B as [|l t l1 l2 E B IH]; constructor; [now rewrite <- U|exact IH].
  - exfalso. destruct (leave_cases _ _ _ _ _ _ N H1 HB H3) as (h' & E & _ & [(os & c & _ & _ & _ & X1 & _ & X2)|(_ & e0 & Q & _)]); [|discriminate].
    destruct c; [|discriminate]. destruct (X1 eq_refl) as [Q|Q].
    + injection Q as ->. destruct C as [(_ & h & C1 & C2)|[(C & _)|[C|[(m & C)|C]]]]; try discriminate.
      * apply NC. unfold cancelled_in. rewrite (proj1 E), (proj1 C1), !in_app_iff. auto.
      * destruct PE as [PE|(e & PE & EX)]; rewrite PE in C; cbn in C; [discriminate|]. injection C as <-. discriminate.
    + apply NC. unfold cancelled_in. rewrite (proj1 E), in_app_iff. auto.
Qed.
Print Assumptions c98_complete_partial.

(** Concrete runs: three commands; the first and the last become ready, the last
    command writes "h", e-acute, newline, "b". *)
Definition ex_popts : opts := RunnerProps.ex_opts None.
Definition ex_reader : sreader := {| sr_buf := []; sr_in := [[104; 195]; [169; 10; 98]]%Z; sr_end := EndEof |}.
Definition entered3 : world :=
  mk_world (mk_task (KFut 0) (Some (TValue (PRun 0))) 0 :: mk_task (KFut 2) (Some (TValue (PRun 2))) 0 :: map cmd_task [0; 1; 2])
    (set_ready (set_tasks [2; 3; 4] px0)) [HDone 1 (TValue (PRun 2)); HDone 0 (TValue (PRun 0))].
Lemma ex_entered3 : aenter 3 (Ok tt) true pw0 (Ok tt) entered3.
Proof. all: go. 1: wait_by [pdone 1 (TValue (PRun 2)); pdone 0 (TValue (PRun 0)); pcb 0; pcb 1]. all: go. Qed.
Lemma psuspended_none w : psuspended false w w.
Proof. exists [], (mk_wst [] false true false). split; reflexivity. Qed.
Lemma psuspended_by evs (w w' : world) s :
  wait_run pstep pfinish ALL_COMPLETED None (w, mk_wst [] false true false) evs = Some (w', s) -> forall c, s_canc s = c -> psuspended c w w'.
Proof. intros H c E. exists evs, s. now split. Qed.
Lemma ex_all_lines_in (dec : text -> bytes -> option text) o : dec (o_encoding o) [104; 195; 169; 10]%Z = Some [104; 233; 10]%Z -> dec (o_encoding o) [98]%Z = Some [98]%Z ->
  piter_loop dec o ex_reader entered3 [[104; 233; 10]; [98]]%Z (Ok tt) entered3.
Proof.
  intros D1 D2.
  eapply pi_line; [apply psuspended_none|reflexivity|discriminate|exact D1|apply bs_refl|].
  eapply pi_line; [apply psuspended_none|reflexivity|discriminate|exact D2|apply bs_refl|].
  eapply pi_eof; [apply psuspended_none|reflexivity].
Qed.
Lemma ex_all_lines : piter_loop IterProps.as_utf8 ex_popts ex_reader entered3 [[104; 233; 10]; [98]]%Z (Ok tt) entered3.
Proof. now apply ex_all_lines_in. Qed.
(** A normal end; the commands end like this. *)
Definition ends3 (o0 o1 o2 : tout pval) : list (@wev pval unit) := [pdone 2 o0; pdone 3 o1; pdone 4 o2; pcb 2; pcb 3; pcb 4].
Lemma ex_normal3_in (dec : text -> bytes -> option text) o : dec (o_encoding o) [104; 195; 169; 10]%Z = Some [104; 233; 10]%Z -> dec (o_encoding o) [98]%Z = Some [98]%Z ->
  exists w', piterate dec o 3 (Ok tt) (Some ex_reader) [[104; 233; 10]; [98]]%Z (Some (Ok tt)) (Ok tt) w' /\ ~ cancelled_in w'
  /\ ended_as 3 w' [TValue (PRes res0); TValue (PRes res0); TValue (PRes res0)].
Proof.
  intros D1 D2.
  eexists. split; [|].
  - eapply pite_entered; [apply ex_entered3|apply ex_all_lines_in; assumption|]. unfold pleave. all: go.
    1: wait_by (ends3 (TValue (PRes res0)) (TValue (PRes res0)) (TValue (PRes res0))). all: go.
  - split; [vm_compute; intuition discriminate|]. unfold ended_as. do 3 (constructor; [eexists; split; [reflexivity|split; reflexivity]|]). constructor.
Qed.
Lemma ex_normal3 : exists w', piterate IterProps.as_utf8 ex_popts 3 (Ok tt) (Some ex_reader) [[104; 233; 10]; [98]]%Z (Some (Ok tt)) (Ok tt) w' /\ ~ cancelled_in w'
  /\ ended_as 3 w' [TValue (PRes res0); TValue (PRes res0); TValue (PRes res0)].
Proof. now apply ex_normal3_in. Qed.
Example c84_example : exists w', 3 >= 2 /\ IterProps.plain_end ex_reader
  /\ piterate IterProps.as_utf8 ex_popts 3 (Ok tt) (Some ex_reader) [[104; 233; 10]; [98]]%Z (Some (Ok tt)) (Ok tt) w' /\ ~ cancelled_in w'.
Proof. destruct ex_normal3 as (w' & H & C & _). exists w'. split; [lia|]. split; [now left|]. auto. Qed.
(** The consumer is cancelled while it waits for the second line. *)
Lemma ex_cancelled3 : exists w', piterate IterProps.as_utf8 ex_popts 3 (Ok tt) (Some ex_reader) [[104; 233; 10]]%Z (Some (Err CancelledError)) (Ok tt) w' /\ cancels (w_hist w') = 1
  /\ ended_as 3 w' [TFail (ResultError killed); TFail (ResultError killed); TFail (ResultError killed)].
Proof.
  eexists. split; [|].
  - eapply pite_entered; [apply ex_entered3| |].
    + cbn. eapply pi_line; [apply psuspended_none|reflexivity|discriminate|reflexivity|apply bs_refl|].
      apply pi_cancelled. refine (psuspended_by [pcancel] _ _ _ _ _ _); [vr|vr].
    + unfold pleave. all: go. 1: wait_by (ends3 (TFail (ResultError killed)) (TFail (ResultError killed)) (TFail (ResultError killed))). all: go.
  - split; [reflexivity|]. unfold ended_as. do 3 (constructor; [eexists; split; [reflexivity|split; reflexivity]|]). constructor.
Qed.
Theorem c98_refuted : ~ c98_full_claim.
Proof. intro C. destruct ex_cancelled3 as (w' & H & _). assert (P : IterProps.plain_end ex_reader) by now left. specialize (C IterProps.as_utf8 ex_popts 3 _ _ _ _ ltac:(lia) P H). cbv -[IterProps.as_utf8] in C. inversion C as [|? ? ? ? _ F]. inversion F. Qed.
Print Assumptions c98_refuted.

(** ** C85: failures of the commands *)
(** If a command of the pipeline fails, the `async for` raises. *)
Definition c85_full_claim := forall dec o n sr ls rb r w' j e, n >= 2 -> piterate dec o n (Ok tt) (Some sr) ls rb r w' -> ~ cancelled_in w' ->
  j < n -> ended true w' j (TFail e) -> exists e', r = Err e'.
(** What really happens: once the output of the last command has ended, the
    `async for` ends normally, whatever happened to the commands -- they exited
    with any status, were killed, could not be launched, timed out. *)
Theorem c85_failures_ignored : forall dec o n stream ls r w', n >= 2 ->
  piterate dec o n (Ok tt) stream ls (Some (Ok tt)) r w' -> r = Ok tt \/ exists e, r = Err e /\ gave_up n w' e.
Proof.
  intros dec o n st ls r w' N H. inversion H as [|w0 w1 ls0 rb0 r0 w2 H1 H2 H3]; subst.
  destruct (leave_cases _ _ _ _ _ _ N H1 (piter_block_steps _ _ _ _ _ _ _ H2) H3) as (h' & _ & _ & [(os & c & _ & _ & _ & _ & _ & X)|(_ & X)]); auto.
Qed.
Print Assumptions c85_failures_ignored.
(** The middle command does not exist: the loop runs to its end without a line,
    and without an error. *)
Definition no_output : sreader := {| sr_buf := []; sr_in := []; sr_end := EndEof |}.
Lemma ex_missing : exists w', piterate IterProps.as_utf8 ex_popts 3 (Ok tt) (Some no_output) [] (Some (Ok tt)) (Ok tt) w' /\ ~ cancelled_in w'
  /\ ended true w' 1 (TFail FileNotFoundError).
Proof.
  eexists. split; [|].
  - eapply pite_entered; [apply ex_entered3|eapply pi_eof; [apply psuspended_none|reflexivity]|]. unfold pleave. all: go.
    1: wait_by [pdone 3 (TFail FileNotFoundError); pcb 3]. all: go.
    1: wait_by [pdone 2 (TFail (ResultError killed)); pdone 4 (TFail (ResultError killed)); pcb 2; pcb 4]. all: go.
  - split; [vm_compute; intuition discriminate|]. eexists. split; [reflexivity|]. split; reflexivity.
Qed.
Theorem c85_refuted : ~ c85_full_claim.
Proof. intro C. destruct ex_missing as (w' & H & NC & E). destruct (C IterProps.as_utf8 ex_popts 3 _ _ _ _ _ 1 _ ltac:(lia) H NC ltac:(lia) E) as (e' & Q). discriminate. Qed.
Print Assumptions c85_refuted.
Example c85_example : exists w', piterate IterProps.as_utf8 ex_popts 3 (Ok tt) (Some no_output) [] (Some (Ok tt)) (Ok tt) w' /\ ended true w' 1 (TFail FileNotFoundError).
Proof. destruct ex_missing as (w' & H & _ & E). eauto. Qed.

(** ** C86, C99: no command is left running *)
Definition c99_full_claim := forall dec o n stream ls rb r w', n >= 2 ->
  piterate dec o n (Ok tt) stream ls rb r w' -> r <> Err cancel_failed -> all_over n true w'.
(** The consumer is cancelled while it waits for a line, and again and again while
    shellous waits for the commands: the loop ends, the commands do not. *)
Lemma ex_orphans3 : exists r w', piterate IterProps.as_utf8 ex_popts 3 (Ok tt) (Some ex_reader) [] (Some (Err CancelledError)) r w' /\ r <> Err cancel_failed /\ task_out w' 2 = None.
Proof.
  do 2 eexists. split; [|].
  - eapply pite_entered; [apply ex_entered3| |].
    + cbn. apply pi_cancelled. refine (psuspended_by [pcancel] _ _ _ _ _ _); [vr|vr].
    + unfold pleave. all: go. 1: wait_by [pcancel]. all: go. 1: wait_by [pcancel]. all: go. 1: wait_by [pcancel]. all: go.
  - split; [discriminate|reflexivity].
Qed.
Theorem c99_refuted : ~ c99_full_claim.
Proof.
  intros C. destruct ex_orphans3 as (r & w' & H & NF & T). destruct (C IterProps.as_utf8 ex_popts 3 _ _ _ _ _ ltac:(lia) H NF 0 ltac:(lia)) as (o & t & N & _ & O).
  unfold task_out in T. change (task_of true 0) with 2 in N. rewrite N in T. congruence.
Qed.
Print Assumptions c99_refuted.
(** Missing: more than one cancellation. *)
Theorem c99_no_orphans_partial : forall dec o n stream ls rb r w', n >= 2 ->
  piterate dec o n (Ok tt) stream ls rb r w' -> cancels (w_hist w') <= 1 -> r <> Err cancel_failed -> all_over n true w'.
Proof.
  intros dec o n st ls rb r w' N H C NF. eapply c69_no_orphans_partial; [exact N|eapply piterate_with_pipe; exact H|exact C|exact NF].
Qed.
Print Assumptions c99_no_orphans_partial.
(** If the loop is left early (`break` and aclose()) or an exception ends it,
    every command that has not ended is told to stop. *)
Theorem c86_stopped : forall dec o n stream ls e r w', n >= 2 -> piterate dec o n (Ok tt) stream ls (Some (Err e)) r w' ->
  exists ha hb, w_hist w' = ha ++ hb /\ forall j, j < n -> (exists o, In (HDone (task_of true j) o) ha) \/ In (HReq (task_of true j)) hb.
Proof.
  intros dec o n st ls e r w' N H. inversion H as [|w0 w1 ls0 rb0 r0 w2 H1 H2 H3]; subst.
  destruct (aenter_ok _ _ _ N H1) as (h & R & _). destruct (body_run _ _ _ _ (piter_block_steps _ _ _ _ _ _ _ H2) _ R) as (h1 & R1 & _).
  assert (AE : exists ra, aexit (Some e) w1 ra w').
  { cbn [pleave] in H3. apply b_inv in H3 as [(b & w2 & K & K2)|(e' & K & _)]; [|eauto]. exists (Ok b). destruct b; destruct K2 as [_ ->]; exact K. }
  destruct AE as (ra & AE). destruct (aexit_spec _ _ _ _ _ _ _ N R1 AE) as (h0 & h2 & E & _ & _ & K & _).
  exists (w_hist w1), (h0 ++ h2). split; [exact (proj1 E)|]. intros j J.
  destruct (K ltac:(discriminate) (2 + j)) as [D|D]; [apply in_seq; cbn [off]; lia| |right; apply in_or_app; left; exact D].
  left. unfold task_done in D. destruct (task_out w1 (2 + j)) as [o1|] eqn:T; [|discriminate]. exists o1.
  pose proof (ru_ext _ _ _ _ R1) as E1. rewrite (ext_out _ _ _ _ E1) in T; [|pose proof (begun_nth n true j J) as BN; cbn [off] in BN; congruence].
  assert (T0 : task_out (begun n true) (2 + j) = None) by (unfold task_out; pose proof (begun_nth n true j J) as BN; cbn [off] in BN; now rewrite BN).
  rewrite T0 in T. rewrite (proj1 E1). apply in_or_app. right. apply done_in_In. exact T.
Qed.
Print Assumptions c86_stopped.
Example c86_example : exists w', piterate IterProps.as_utf8 ex_popts 3 (Ok tt) (Some ex_reader) [[104; 233; 10]]%Z (Some (Err GeneratorExit)) (Err GeneratorExit) w'
  /\ cancels (w_hist w') <= 1 /\ Err GeneratorExit <> Err (A := unit) cancel_failed.
Proof.
  eexists. split; [|].
  - eapply pite_entered; [apply ex_entered3| |].
    + cbn. eapply pi_closed; [apply psuspended_none|reflexivity|discriminate|reflexivity|apply bs_refl].
    + unfold pleave. all: go. 1: wait_by (ends3 (TFail (ResultError killed)) (TFail (ResultError killed)) (TFail (ResultError killed))). all: go.
  - split; [vm_compute; lia|discriminate].
Qed.

(** ** C87: cancelling the consumer, and other errors *)
Definition c87_full_claim := forall dec o n stream ls r w', n >= 2 ->
  piterate dec o n (Ok tt) stream ls (Some (Err CancelledError)) r w' -> cancels (w_hist w') = 1 -> r = Err CancelledError.
(** What really happens: the cancellation is swallowed, the loop just ends. *)
Theorem c87_swallowed : forall dec o n stream ls r w', n >= 2 ->
  piterate dec o n (Ok tt) stream ls (Some (Err CancelledError)) r w' -> r = Ok tt \/ exists e, r = Err e /\ gave_up n w' e.
Proof.
  intros dec o n st ls r w' N H. inversion H as [|w0 w1 ls0 rb0 r0 w2 H1 H2 H3]; subst.
  destruct (leave_cases _ _ _ _ _ _ N H1 (piter_block_steps _ _ _ _ _ _ _ H2) H3) as (h' & _ & _ & [(os & c & _ & _ & _ & _ & X1 & X)|(_ & X)]); [|auto].
  rewrite (X1 eq_refl) in X. auto.
Qed.
Print Assumptions c87_swallowed.
Theorem c87_refuted : ~ c87_full_claim.
Proof. intro C. destruct ex_cancelled3 as (w' & H & NC & _). specialize (C IterProps.as_utf8 ex_popts 3 _ _ _ _ ltac:(lia) H NC). discriminate. Qed.
Print Assumptions c87_refuted.
(** Any other exception that ends the loop (a line that cannot be decoded or is
    too long, GeneratorExit from aclose()) is raised, unless the task is
    cancelled while the commands are being stopped: then both are lost. *)
Theorem c87_errors_partial : forall dec o n stream ls e r w', n >= 2 -> e <> CancelledError ->
  piterate dec o n (Ok tt) stream ls (Some (Err e)) r w' ->
  r = Err e \/ (r = Ok tt /\ cancelled_in w') \/ exists e', r = Err e' /\ gave_up n w' e'.
Proof.
  intros dec o n st ls e r w' N NE H. inversion H as [|w0 w1 ls0 rb0 r0 w2 H1 H2 H3]; subst.
  destruct (leave_cases _ _ _ _ _ _ N H1 (piter_block_steps _ _ _ _ _ _ _ H2) H3) as (h' & E & _ & [(os & c & _ & _ & _ & X0 & _ & X)|(_ & X)]); [|auto].
  destruct c; [|auto]. destruct (X0 eq_refl) as [Q|Q]; [congruence|]. right; left. split; [exact X|]. unfold cancelled_in. rewrite (proj1 E), in_app_iff. auto.
Qed.
Print Assumptions c87_errors_partial.
