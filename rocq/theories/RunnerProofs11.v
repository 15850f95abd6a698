From Verif Require Import AsyncModel AsyncSpec AsyncProofs HarvestModel HarvestSpec HarvestProofs HarvestProofs2 AsyncInv
  RunnerModel RunnerSpec RunnerProofs RunnerProofs2 RunnerProofs3 RunnerProofs4 RunnerProofs5 RunnerProofs6 RunnerProofs7 RunnerProofs8 RunnerProofs9.
Open Scope Z_scope.

Section R.
Context (o : opts) (ext piped_stdin use_pty : bool) (out_bytes err_bytes : option bytes) (enc : text).
Notation world := (world rx rkind unit).
Notation M := (@M rx rkind unit).
Notation rstep := (rstep o).
Notation rfinish := (rfinish ext).
Notation harvest := (harvest rstep rfinish).
Notation kill_wait := (kill_wait o ext).
Notation kill_body := (kill_body o ext).
Notation kill := (kill o ext).
Notation wait := (wait o ext).
Notation close := (close o ext piped_stdin).
Notation finish := (finish o ext piped_stdin).
Notation aexit := (aexit o ext piped_stdin).
Notation J := (J ext).
Notation reg := (reg o ext).
Notation envrel := (envrel o).
Notation opt_harvest := (opt_harvest o ext).
Notation aenter := (aenter o ext use_pty out_bytes err_bytes enc).
Notation with_run := (with_run o ext piped_stdin use_pty out_bytes err_bytes enc).
Notation any_body := (any_body o ext).
Notation pre := (pre o ext).
Notation entered := (entered o).
Notation begun := (begun o).
Notation run_result := (run_result o out_bytes err_bytes enc).
Notation run_command := (run_command o ext piped_stdin use_pty out_bytes err_bytes enc).
Notation run_J := (run_J o ext piped_stdin use_pty out_bytes err_bytes enc).
Notation with_run_cases := (with_run_cases o ext piped_stdin use_pty out_bytes err_bytes enc).

(** ** The reported exit code *)
Lemma reg_launching w w' : reg w w' -> x_launching (w_x w) = false -> x_launching (w_x w') = false.
Proof. intros (_ & l & h & P) H. destruct (x_launching (w_x w')) eqn:Q; [|reflexivity]. apply (pr_launching _ _ _ _ _ P) in Q. congruence. Qed.
Lemma failed_start_launching w e : x_launching (w_x (failed_start o w e)) = x_launching (w_x w).
Proof. destruct (failed_start_log o w e) as (l & _ & _ & ->). reflexivity. Qed.
Lemma stopped_launching w : x_launching (w_x (stopped o w)) = x_launching (w_x w).
Proof. destruct (stopped_log o w) as (l & _ & _ & ->). reflexivity. Qed.
Lemma run_launching r w' : with_run any_body fresh r w' -> x_launching (w_x w') = false.
Proof.
  intros H. destruct (with_run_cases _ _ _ H) as [EC (e0 & E0)|w0 w1 rb re P PR Mk HB HX RR].
  - destruct EC as [wa _ _ _ _ Q|e wa SC -> _ _ _]; [congruence|]. rewrite failed_start_launching.
    destruct SC as [w1 P PR Mk Ew Q|e1 w1 rk P Ee HK Q]; [discriminate|].
    assert (R2 : reg w1 (if is_cancelled e1 then cancelled_now w1 else w1)) by (destruct (is_cancelled e1); [apply cancelled_now_reg|apply reg_refl]).
    destruct (x_proc (w_x w1)) eqn:PR.
    + eapply reg_launching; [|exact (reg_launching _ _ R2 (pre_launch _ _ _ _ P))].
      apply (kill_spec o ext _ _ _ HK); [apply R2, (pre_J _ _ _ _ P)|exact (reg_proc _ _ _ _ R2 PR)].
    + destruct HK as [_ ->]. exact (reg_launching _ _ R2 (pre_launch _ _ _ _ P)).
  - destruct (body_ready o ext _ _ _ P PR HB) as (J1 & PR1 & W1 & R1).
    destruct (aexit_world _ _ _ _ _ _ _ HX) as (rf & w2 & HF & W). destruct (finish_reg _ _ _ _ _ _ _ HF J1 PR1) as [R2 _].
    assert (L : x_launching (w_x w2) = false).
    { eapply reg_launching; [exact R2|]. eapply reg_launching; [exact R1|]. unfold RunnerProofs6.entered. cbn. destruct (o_timeout o); apply (pre_launch _ _ _ _ P). }
    destruct W as [->|(_ & ->)]; rewrite stopped_launching; exact L.
Qed.
Lemma run_proc r w' : with_run any_body fresh r w' -> In LSpawn (events w') -> ~ In LAbort (events w') -> x_proc (w_x w') = true.
Proof.
  intros H SP NA. destruct (run_J _ _ H) as (X & _). destruct (x_proc (w_x w')) eqn:PR; [reflexivity|].
  destruct (xi_launch _ X) as [Q|Q]; [now apply (xi_spawn _ X)|exact PR| |].
  - rewrite (run_launching _ _ H) in Q. discriminate.
  - elim NA. now apply (xi_abort _ X).
Qed.
Theorem exit_code_cases r w' z : with_run any_body fresh r w' -> In LSpawn (events w') -> ~ In LAbort (events w') -> returncode (w_x w') = Some z ->
  In (LExit z) (events w')
  \/ (In (LCollect UNKNOWN_EXIT_CODE) (events w') /\ (exists e, In e (events w') /\ meddled e)
      /\ (z = UNKNOWN_EXIT_CODE \/ exists s, z = - s /\ In (LSignal (Some s)) (events w'))).
Proof.
  intros H SP NA RC. pose proof (run_proc _ _ H SP NA) as PR. destruct (run_J _ _ H) as (X & _). unfold returncode in RC. rewrite PR in RC. cbn in RC.
  destruct (x_rc (w_x w')) as [c|] eqn:R; [|discriminate].
  destruct (xi_status _ X c (or_intror R)) as [S|(S & MD)].
  - destruct (x_lastsig (w_x w')) as [s|] eqn:L; [destruct (Z.eqb_spec c UNKNOWN_EXIT_CODE) as [->|N]|]; injection RC as <-;
      try (left; now apply (xi_exit _ X)).
    destruct (Z.eq_dec (- s) UNKNOWN_EXIT_CODE) as [Q|Q]; [left; rewrite Q; now apply (xi_exit _ X)|].
    right. split; [now apply (xi_rc _ X)|]. split; [|right; exists s; split; [reflexivity|now apply (xi_last _ X)]].
    exists (LSignal (Some s)). split; [now apply (xi_last _ X)|left; eauto].
  - subst c. right. split; [now apply (xi_rc _ X)|]. split; [exact MD|].
    destruct (x_lastsig (w_x w')) as [s|] eqn:L; [|injection RC as <-; now left]. cbn in RC. injection RC as <-. right. exists s. split; [reflexivity|now apply (xi_last _ X)].
Qed.

(** ** Time and cancellation *)
Lemma failed_start_timer w e : x_timer (w_x (failed_start o w e)) = false.
Proof. destruct (failed_start_log o w e) as (l & _ & _ & ->). reflexivity. Qed.
Lemma stopped_timer w : x_timer (w_x (stopped o w)) = false.
Proof. destruct (stopped_log o w) as (l & _ & _ & ->). reflexivity. Qed.
Lemma run_timer r w' : with_run any_body fresh r w' -> x_timer (w_x w') = false.
Proof.
  intros H. destruct (with_run_cases _ _ _ H) as [EC (e0 & E0)|w0 w1 rb re P PR Mk HB HX RR].
  - destruct EC as [wa _ _ _ _ Q|e wa SC -> _ _ _]; [congruence|]. apply failed_start_timer.
  - destruct (aexit_world _ _ _ _ _ _ _ HX) as (rf & w2 & HF & [->|(_ & ->)]); apply stopped_timer.
Qed.
Definition expd (x : rx) : Prop := In LExpired (x_log x).
Lemma expd_log e x : expd (log e x) -> e <> LExpired -> expd x.
Proof. unfold expd. cbn. intros H N. apply in_app_iff in H as [H|[H|[]]]; [exact H|congruence]. Qed.
Lemma expd_send s x : expd (popen_send s x) -> expd x.
Proof. unfold popen_send, popen_poll. destruct (x_exit x); [auto|]. intros H. apply expd_log in H; [exact H|discriminate]. Qed.
Lemma expd_signal sg x : expd (signal_x o sg x) -> expd x.
Proof.
  unfold signal_x. intros H. assert (Q : expd (log (LSignal sg) (audit o (PSignal sg) x))) by (destruct sg; eapply expd_send; exact H).
  apply expd_log in Q; [|discriminate]. unfold audit in Q. destruct (o_audit_callback o); [apply expd_log in Q; [exact Q|discriminate]|exact Q].
Qed.
Lemma expd_step x e x' c : x_timer x = false -> rstep x e = Some (x', c) -> expd x' -> expd x.
Proof.
  intros T. destruct e; unfold RunnerModel.rstep; intros Q H.
  - destruct (x_launching x && negb (x_child x))%bool; [|discriminate]. injection Q as <- <-. now apply expd_log in H.
  - destruct (x_child x); [|discriminate]. destruct (x_exit x); [discriminate|]. injection Q as <- <-. now apply expd_log in H.
  - destruct (waitpid_status x); [|discriminate]. destruct (x_watch x); [discriminate|]. injection Q as <- <-. exact H.
  - destruct (x_watch x); [|discriminate]. destruct (x_rc x); [discriminate|]. injection Q as <- <-. now apply expd_log in H.
  - rewrite T in Q. discriminate.
  - destruct (_ && _ && _)%bool; [|discriminate]. injection Q as <- <-. apply expd_send in H. now apply expd_log in H.
  - injection Q as <- <-. now apply expd_log in H.
  - destruct (x_inside x); [|discriminate]. destruct (returncode x); [injection Q as <- <-; exact H|].
    match type of Q with Some (?y, _) = _ => assert (x' = y) as -> by congruence end. apply expd_signal in H. now apply expd_log in H.
  - destruct (x_inside x); [|discriminate]. destruct (returncode x); [injection Q as <- <-; exact H|].
    match type of Q with Some (?y, _) = _ => assert (x' = y) as -> by congruence end. apply expd_signal in H. now apply expd_log in H.
Qed.
Lemma timer_off_expired w w' : x_timer (w_x w) = false -> body_steps o ext w w' -> In LExpired (events w') -> In LExpired (events w).
Proof.
  intros T H. set (P := fun u : world => x_timer (w_x u) = false /\ (In LExpired (events u) -> In LExpired (events w))).
  enough (Q : P w') by apply Q. eapply (body_stable o ext P); [| |exact H|split; [exact T|auto]].
  - apply (stable_x rstep rfinish (fun x => x_timer x = false /\ (In LExpired (x_log x) -> In LExpired (events w)))).
    + intros x e x' c [A B] Q. split; [|intros I; apply B; exact (expd_step _ _ _ _ A Q I)].
      destruct (rstep_frame _ _ _ _ _ Q) as (l & F & EP & _). eapply timer_false; eauto.
    + intros x t r x' [A B] Q. pose proof (rfinish_frame _ _ _ _ _ Q) as F. split; [eapply timer_false; eauto|].
      rewrite (fr_log _ _ _ F), app_nil_r. exact B.
  - intros u k Q. exact Q.
Qed.

(** Errors of _finish after a body that ended normally. *)
Lemma run_errors_reg w w' e : reg w w' -> run_errors w e -> run_errors w' e.
Proof. intros R [H|[H|(A & B)]]; [now left|right; now left|right; right]. split; [exact A|]. eapply reg_failed; eauto. Qed.
Inductive end_case (w : world) (r : res bool) (w' : world) : Prop :=
| en_ok w1 : opt_harvest (x_tasks (w_x w)) false w (Ok tt) w1 -> reg w w1 -> reg w1 w' -> KP o ext w1 w' \/ x_rc (w_x w1) = None -> end_case w r w'
| en_canc : x_cancelled (w_x w') = true -> (r = Ok false \/ r = Err CancelledError \/ exists e, r = Err e /\ run_errors w' e) -> end_case w r w'
| en_fail : (r = Err CancelledError \/ exists e, r = Err e /\ run_errors w' e) -> end_case w r w'.
Lemma close_errs w r w' e : close w r w' -> J w -> x_proc (w_x w) = true -> r = Err e -> e = CancelledError \/ run_errors w' e.
Proof.
  intros H HJ PR Q. destruct (close_spec _ _ _ _ _ _ H HJ PR) as (_ & _ & [(_ & Q2 & _)|(_ & _ & ER)]); [congruence|].
  destruct (ER _ Q) as [(-> & _)|[->|Q2]]; [now left|right; now left|right; right; right; exact Q2].
Qed.
Lemma close_KP w r w' : close w r w' -> x_proc (w_x w) = true -> KP o ext w w' \/ x_rc (w_x w) = None.
Proof.
  intros H PR. destruct (rc_dec (x_rc (w_x w))) as [N|NR]; [now right|left].
  unfold RunnerModel.close in H.
  destruct H as [([] & w1 & H1 & H)|(e & H1 & _)]; apply i_getx in H1; rewrite PR in H1; destruct H1 as [Q ->]; [clear Q|discriminate].
  destruct (x_rc (w_x w)) as [z|] eqn:N; [|congruence]. apply i_modx in H.
  assert (EW : upd_x w (fun x => match x_rc x with None => popen_send SIGKILL (log LClosed x) | Some _ => x end) = w).
  { unfold upd_x. rewrite N. destruct w; reflexivity. }
  rewrite EW in H. apply i_getx in H. rewrite N in H. destruct piped_stdin.
  - intros P S Q. refine (k_try P _ _ _ _ _ _ _ Q H); [exact (k_harvest _ _ _ S _ _ _)|]. intros e k. destruct e; try discriminate. intros [= <-]. apply k_ret.
  - destruct H as [-> ->]. intros P S Q. exact Q.
Qed.
Lemma reg_canc w w' : reg w w' -> x_cancelled (w_x w) = true -> x_cancelled (w_x w') = true.
Proof. intros (_ & l & h & P) H. exact (pr_canc _ _ _ _ _ P H). Qed.
Lemma end_cases w r w' : finish None w r w' -> J w -> x_proc (w_x w) = true -> end_case w r w'.
Proof.
  intros H HJ PR. destruct (finish_cases _ _ _ _ _ _ _ H PR) as [e w1 rk rc Q _ _ _|w1 rk rc _ H1 H2 Q]; [discriminate|].
  assert (R1 : reg w w1) by (eapply wait_reg; eauto). assert (J1 : J w1) by (apply R1; exact HJ). assert (PR1 := reg_proc _ _ _ _ R1 PR).
  destruct (close_spec _ _ _ _ _ _ H2 J1 PR1) as (R2 & _ & _).
  assert (RC : forall e, rc = Err e -> r = Err CancelledError \/ exists e, r = Err e /\ run_errors w' e).
  { intros e ->. destruct (close_errs _ _ _ _ H2 J1 PR1 eq_refl) as [->|E]; [now left|right; eauto]. }
  destruct (wait_cases _ _ _ _ _ H1 HJ PR) as [-> H0|w0 H0 _ HK|e w0 rk' H0 FF EX HK ->].
  - apply (en_ok _ _ _ w1); auto. eapply close_KP; eauto.
  - pose proof (r_opt_harvest _ _ _ _ _ _ _ H0) as R0.
    assert (Ra : reg w (cleared (cancelled_now w0))).
    { eapply reg_trans; [exact R0|]. eapply reg_trans; [apply cancelled_now_reg|apply cleared_reg]. }
    assert (Ja : J (cleared (cancelled_now w0))) by (apply Ra; exact HJ). assert (Pa := reg_proc _ _ _ _ Ra PR).
    destruct (kill_spec o ext _ _ _ HK Ja Pa) as (Rk & _). destruct (kill_more o ext _ _ _ HK Ja Pa) as (_ & KE).
    apply en_canc.
    + eapply reg_canc; [exact R2|]. eapply reg_canc; [exact Rk|]. reflexivity.
    + destruct rc as [[]|e]; [|right; exact (RC e eq_refl)]. destruct rk as [[]|e]; [now left|right].
      destruct (KE e eq_refl) as [(-> & _)|[->|[->|E]]]; [now left| | |]; right; (eexists; split; [exact Q|]);
        [now left|right; now left|]. eapply run_errors_reg; [exact R2|]. right; right. exact E.
  - pose proof (r_opt_harvest _ _ _ _ _ _ _ H0) as R0.
    assert (Ra : reg w (cleared w0)) by (eapply reg_trans; [exact R0|apply cleared_reg]).
    assert (Ja : J (cleared w0)) by (apply Ra; exact HJ). assert (Pa := reg_proc _ _ _ _ Ra PR).
    destruct (kill_spec o ext _ _ _ HK Ja Pa) as (Rk & _). destruct (kill_more o ext _ _ _ HK Ja Pa) as (_ & KE).
    apply en_fail. destruct rc as [[]|e']; [|exact (RC e' eq_refl)]. destruct rk' as [[]|e'].
    + right. exists e. split; [exact Q|]. destruct FF as [->|FF]; [now left|]. right; right. split; [exact EX|].
      eapply reg_failed; [exact R2|]. eapply reg_failed; [exact Rk|]. exact FF.
    + destruct (KE e' eq_refl) as [(-> & _)|[->|[->|E]]]; [now left| | |]; right; (eexists; split; [exact Q|]);
        [now left|right; now left|]. eapply run_errors_reg; [exact R2|]. right; right. exact E.
Qed.
Lemma expired_marks l : In LExpired l -> (marks l > 0)%nat.
Proof. induction l as [|a l IH]; [intros []|]. intros [->|H]; cbn; [lia|]. specialize (IH H). destruct a; cbn; lia. Qed.
Lemma stopped_has w e : In e (x_log (w_x w)) -> In e (events (stopped o w)).
Proof. intros H. unfold events. destruct (stopped_log o w) as (l & -> & _). apply in_or_app. now left. Qed.
Lemma stopped_has_inv w e : In e (events (stopped o w)) -> (forall p, e <> LAudit p) -> In e (x_log (w_x w)).
Proof.
  intros H N. unfold events in H. destruct (stopped_log o w) as (l & E & A & _). rewrite E in H. apply in_app_iff in H as [H|H]; [exact H|].
  destruct (A e H) as (p & ->). now elim (N p).
Qed.
Lemma start_not_expired r w' : aenter_case o ext out_bytes err_bytes enc r w' -> (exists e, r = Err e) -> ~ In LExpired (events w').
Proof.
  intros EC (e0 & E0) H. destruct EC as [wa _ _ _ _ Q|e wa SC -> _ _ _]; [congruence|].
  assert (TO : x_timed_out (w_x wa) = false).
  { destruct SC as [w1 P PR Mk Ew Q|e1 w1 rk P Ee HK Q]; [discriminate|]. destruct (pre_calm _ _ _ _ P) as (_ & T1 & _ & T2).
    assert (R2 : reg w1 (if is_cancelled e1 then cancelled_now w1 else w1)) by (destruct (is_cancelled e1); [apply cancelled_now_reg|apply reg_refl]).
    assert (RW : reg w1 wa).
    { destruct (x_proc (w_x w1)) eqn:PR.
      - eapply reg_trans; [exact R2|]. apply (kill_spec o ext _ _ _ HK); [apply R2, (pre_J _ _ _ _ P)|exact (reg_proc _ _ _ _ R2 PR)].
      - destruct HK as [_ ->]. exact R2. }
    destruct RW as (_ & l & h & PP). rewrite (pr_timed _ _ _ _ _ PP T1). exact T2. }
  assert (HJ : J wa).
  { destruct SC as [w1 P PR Mk Ew Q|e1 w1 rk P Ee HK Q]; [discriminate|].
    assert (R2 : reg w1 (if is_cancelled e1 then cancelled_now w1 else w1)) by (destruct (is_cancelled e1); [apply cancelled_now_reg|apply reg_refl]).
    destruct (x_proc (w_x w1)) eqn:PR.
    - apply (kill_spec o ext _ _ _ HK); [apply R2, (pre_J _ _ _ _ P)|exact (reg_proc _ _ _ _ R2 PR)|apply R2, (pre_J _ _ _ _ P)].
    - destruct HK as [_ ->]. apply R2, (pre_J _ _ _ _ P). }
  unfold events in H. destruct (failed_start_log o wa e) as (l & E & A & _). rewrite E in H. apply in_app_iff in H as [H|H].
  - apply (xi_timed _ (proj1 HJ)) in H. congruence.
  - destruct (A _ H) as (p & Q). discriminate.
Qed.
Lemma exit_value_expired w b : x_cancelled (w_x w) = true -> x_timed_out (w_x w) = true -> o_catch_cancelled o = false -> exit_value o w b = Err TimeoutError.
Proof. intros A B C. unfold exit_value. now rewrite A, B, C. Qed.

(** The run of a command: entering, no body, leaving, taking the result. *)
Lemma enter_state w0 : aenter fresh (Ok tt) w0 -> J w0 /\ x_proc (w_x w0) = true /\ WI w0 /\ mk w0 = 0%nat /\ x_cancelled (w_x w0) = false /\ x_timed_out (w_x w0) = false.
Proof.
  intros HE. apply aenter_cases in HE as [wa P PR Mk0 -> _|e wa _ _ (e' & Q) _ _]; [|discriminate].
  split; [now apply entered_J|]. destruct (entered_x o wa) as (E1 & -> & _ & -> & -> & _). split; [exact PR|]. split; [apply entered_WI|].
  split; [unfold mk in *; rewrite E1; exact Mk0|]. destruct (pre_calm _ _ _ _ P) as (_ & _ & A & B). auto.
Qed.
Definition leave (w : world) (r : res result) (w' : world) : Prop := bindM (aexit None) (fun _ => run_result true) w r w'.

Theorem timeout_outcome w0 r w' : ext = false -> o_catch_cancelled o = false -> aenter fresh (Ok tt) w0 -> leave w0 r w' -> In LExpired (events w') ->
  r = Err TimeoutError \/ exists e, r = Err e /\ run_errors w' e.
Proof.
  intros E CC HE HL EXP. destruct (enter_state _ HE) as (J0 & P0 & W0 & M0 & C0 & T0).
  assert (S : exists ra, aexit None w0 ra w' /\ match ra with Err e => r = Err e | Ok _ => True end).
  { destruct HL as [(b & w1 & H1 & H2)|(e & H1 & ->)]; [|exists (Err e); now split]. exists (Ok b). split; [|exact I]. apply i_getx in H2. destruct (runner_result _ _ _ _ _ _ _ _); destruct H2 as [_ ->]; exact H1. }
  destruct S as (ra & HX & RA). destruct (aexit_world2 _ _ _ _ _ _ _ HX) as (rf & w1 & HF & W).
  destruct (finish_reg _ _ _ _ _ _ _ HF J0 P0) as [R1 _]. assert (J1 : J w1) by (apply R1; exact J0).
  assert (T1 : x_timed_out (w_x w1) = true).
  { apply (xi_timed _ (proj1 J1)). destruct W as [(-> & _)|(_ & -> & _)]; apply stopped_has_inv in EXP; try discriminate; exact EXP. }
  assert (TC : rf = Err CancelledError -> r = Err TimeoutError).
  { intros ->. destruct W as [(_ & _ & Q)|(_ & -> & Q)]; [congruence|]. rewrite exit_value_expired in Q; auto. subst ra. exact RA. }
  assert (TE : forall e, rf = Err e -> run_errors w1 e -> r = Err TimeoutError \/ exists e, r = Err e /\ run_errors w' e).
  { intros e -> RE. destruct W as [(-> & -> & _)|(Q & _)]; [right; exists e; split; [exact RA|exact RE]|]. left. auto. }
  destruct (end_cases _ _ _ HF J0 P0) as [w2 H0 R02 R21 K21|C1 D|D].
  - exfalso. destruct (opt_harvest_waiter _ _ _ _ _ H0 W0 J0 E) as [RC TM2]. pose proof (opt_harvest_ok _ _ _ _ _ _ H0) as MK2.
    assert (J2 : J w2) by (apply R02; exact J0). destruct R21 as (_ & l & h & PP). rewrite (pr_timed _ _ _ _ _ PP TM2) in T1.
    apply (xi_timed _ (proj1 J2)) in T1. apply expired_marks in T1. unfold mk in MK2, M0. lia.
  - destruct D as [->|[->|(e & -> & RE)]]; auto; [|eauto]. left. destruct W as [(-> & -> & _)|(Q & _)]; [|discriminate].
    rewrite exit_value_expired in RA; auto.
  - destruct D as [->|(e & -> & RE)]; auto. eauto.
Qed.

Lemma split_after (A B l1 l2 : list rev) : A ++ B = l1 ++ LCancel :: l2 -> marks A = 0%nat -> exists B1, l1 = A ++ B1.
Proof.
  revert l1. induction A as [|a A IH]; intros l1 H Mk; [exists l1; reflexivity|].
  destruct l1 as [|b l1]; cbn in H; injection H as -> H; [discriminate Mk|]. destruct (IH l1 H) as (B1 & ->); [destruct b; cbn in Mk; try discriminate; exact Mk|]. now exists B1.
Qed.
Theorem cancel_outcome w0 r w' : ext = false -> o_catch_cancelled o = false -> aenter fresh (Ok tt) w0 -> leave w0 r w' ->
  early_cancel (events w') -> ~ In LExpired (events w') ->
  r = Err CancelledError \/ r = Err not_exited \/ exists e, r = Err e /\ run_errors w' e.
Proof.
  intros E CC HE HL (l1 & l2 & EL & NCo) NX. destruct (enter_state _ HE) as (J0 & P0 & W0 & M0 & C0 & T0).
  assert (S : exists ra, aexit None w0 ra w' /\ match ra with Err e => r = Err e
     | Ok _ => r = runner_result (returncode (w_x w')) out_bytes err_bytes enc o (x_cancelled (w_x w')) (x_timed_out (w_x w')) true end).
  { destruct HL as [(b & w1 & H1 & H2)|(e & H1 & ->)]; [|exists (Err e); now split]. exists (Ok b). apply i_getx in H2. destruct (runner_result _ _ _ _ _ _ _ _) eqn:RR; destruct H2 as [-> ->]; split; auto. }
  destruct S as (ra & HX & RA). destruct (aexit_world2 _ _ _ _ _ _ _ HX) as (rf & w1 & HF & W).
  destruct (finish_reg _ _ _ _ _ _ _ HF J0 P0) as [R1 _]. assert (J1 : J w1) by (apply R1; exact J0).
  assert (T1 : x_timed_out (w_x w1) = false).
  { destruct (x_timed_out (w_x w1)) eqn:Q; [|reflexivity]. apply (xi_timed _ (proj1 J1)) in Q. elim NX. destruct W as [(-> & _)|(_ & -> & _)]; now apply stopped_has. }
  assert (CR : ra <> Err TimeoutError -> x_cancelled (w_x w') = true -> (exists b, ra = Ok b) -> r = Err CancelledError \/ r = Err not_exited).
  { intros _ C (b & ->). rewrite C in RA. unfold runner_result, check_result in RA. destruct (returncode (w_x w')); [left|right; exact RA].
    rewrite CC in RA. exact RA. }
  assert (TC : rf = Err CancelledError -> r = Err CancelledError \/ r = Err not_exited).
  { intros ->. destruct W as [(_ & _ & Q)|(_ & -> & Q)]; [congruence|]. unfold exit_value in Q. cbn in Q. rewrite T1 in Q. cbn in Q.
    apply CR; [subst ra; discriminate| |eauto]. destruct (stopped_x o (cancelled_now w1)) as (_ & _ & _ & _ & -> & _). reflexivity. }
  assert (TE : forall e, rf = Err e -> run_errors w1 e -> r = Err CancelledError \/ r = Err not_exited \/ exists e, r = Err e /\ run_errors w' e).
  { intros e -> RE. destruct W as [(-> & -> & _)|(Q & _)]; [right; right; exists e; split; [exact RA|exact RE]|]. destruct (TC Q); auto. }
  destruct (end_cases _ _ _ HF J0 P0) as [w2 H0 R02 R21 K21|C1 D|D].
  - exfalso. destruct (opt_harvest_waiter _ _ _ _ _ H0 W0 J0 E) as [RC TM2]. pose proof (opt_harvest_ok _ _ _ _ _ _ H0) as MK2.
    assert (J2 : J w2) by (apply R02; exact J0). destruct R21 as (_ & l & h & PP).
    assert (exists lx, events w' = x_log (w_x w2) ++ lx) as (lx & EV).
    { unfold events. destruct W as [(-> & _)|(_ & -> & _)].
      - destruct (stopped_log o w1) as (l3 & -> & _). rewrite (pr_log _ _ _ _ _ PP), <- app_assoc. eauto.
      - destruct (stopped_log o (cancelled_now w1)) as (l3 & -> & _). cbn. rewrite (pr_log _ _ _ _ _ PP), <- app_assoc. eauto. }
    rewrite EV in EL. destruct (split_after _ _ _ _ EL) as (B1 & ->); [unfold mk in *; congruence|].
    destruct (x_rc (w_x w2)) as [z|] eqn:Z; [|congruence]. apply (NCo z). apply in_or_app. left. now apply (xi_rc _ (proj1 J2)).
  - destruct D as [->|[->|(e & -> & RE)]]; [|destruct (TC eq_refl); auto|eauto].
    destruct W as [(-> & -> & _)|(Q & _)]; [|discriminate]. cbn in *.
    assert (Q : exit_value o w1 false = Ok false) by (unfold exit_value; now rewrite T1, andb_false_r). rewrite Q in *.
    destruct CR as [CR|CR]; auto; [discriminate| |eauto]. clear -C1. unfold stopped, upd_x, audit. cbn. destruct (o_audit_callback o); exact C1.
  - destruct D as [->|(e & -> & RE)]; [destruct (TC eq_refl); auto|]. eauto.
Qed.

(** An Ok outcome means that nothing interrupted the command while it ran. *)
Theorem success_not_interrupted v w' : ext = false -> o_catch_cancelled o = false -> run_command fresh (Ok v) w' ->
  ~ In LExpired (events w') /\ ~ early_cancel (events w').
Proof.
  intros E CC H.
  assert (S : exists w0, aenter fresh (Ok tt) w0 /\ leave w0 (Ok v) w').
  { destruct H as [([] & w1 & [([] & w0 & H1 & (rb & wb & [-> ->] & H2))|(e & _ & Q)] & H3)|(e & _ & Q)]; try discriminate.
    exists w0. split; [exact H1|]. destruct H2 as [(b & w2 & H2 & [_ ->])|(e & _ & Q)]; [|discriminate]. left. exists b, w2. auto. }
  destruct S as (w0 & HE & HL). split.
  - intros X. destruct (timeout_outcome _ _ _ E CC HE HL X) as [Q|(e & Q & _)]; discriminate.
  - intros X. destruct (enter_state _ HE) as (J0 & P0 & W0 & M0 & C0 & T0).
    assert (NX : ~ In LExpired (events w')). { intros Y. destruct (timeout_outcome _ _ _ E CC HE HL Y) as [Q|(e & Q & _)]; discriminate. }
    destruct (cancel_outcome _ _ _ E CC HE HL X NX) as [Q|[Q|(e & Q & _)]]; discriminate.
Qed.

(** ** Errors from the body *)
Theorem body_error w0 w1 e r w' : ext = false -> aenter fresh (Ok tt) w0 -> any_body w0 (Err e) w1 ->
  bindM (aexit (Some e)) (fun suppress : bool => if suppress then ret tt else raise e) w1 r w' ->
  ((exists s, In (LExit s) (events w')) \/ In (LSent SIGKILL) (events w'))
  /\ (r = Err e
      \/ (r = Ok tt /\ (e = CancelledError \/ (marks (events w1) < marks (events w'))%nat))
      \/ (r = Err TimeoutError /\ In LExpired (events w') /\ o_catch_cancelled o = false)
      \/ exists e', r = Err e' /\ run_errors w' e').
Proof.
  intros E HE HB HX.
  pose proof HE as HE2. apply aenter_cases in HE as [wa P PR Mk0 -> _|e0 wa _ _ (e' & Q) _ _]; [|discriminate].
  destruct (body_ready o ext _ _ _ P PR HB) as (J1 & PR1 & W1 & R1).
  destruct (enter_state _ HE2) as (_ & _ & _ & _ & C0 & _).
  assert (CC1 : x_cancelled (w_x w1) = false).
  { eapply (body_stable o ext (fun w => x_cancelled (w_x w) = false)); [|intros u k Q; exact Q|exact HB|exact C0].
    apply (stable_x rstep rfinish (fun x => x_cancelled x = false)).
    - intros x e1 x' b H Q. destruct (rstep_frame _ _ _ _ _ Q) as (l & F & _). now rewrite (fr_canc _ _ _ F).
    - intros x t r0 x' H Q. now rewrite (fr_canc _ _ _ (rfinish_frame _ _ _ _ _ Q)). }
  assert (S : exists ra, aexit (Some e) w1 ra w' /\ r = match ra with Err e => Err e | Ok true => Ok tt | Ok false => Err e end).
  { destruct HX as [(b & w2 & H1 & H2)|(e2 & H1 & ->)]; [|exists (Err e2); now split]. exists (Ok b). destruct b; destruct H2 as [-> ->]; auto. }
  destruct S as (ra & HA & ->). clear HX. destruct (aexit_world2 _ _ _ _ _ _ _ HA) as (rf & w2 & HF & W).
  destruct (finish_reg _ _ _ _ _ _ _ HF J1 PR1) as [R2 D2]. assert (J2 : J w2) by (apply R2; exact J1).
  assert (ML : (mk w2 <= marks (events w'))%nat).
  { unfold mk, events. destruct W as [(-> & _)|(_ & -> & _)].
    - destruct (stopped_log o w2) as (l & -> & _). rewrite marks_app. lia.
    - destruct (stopped_log o (cancelled_now w2)) as (l & -> & _). rewrite marks_app. cbn. lia. }
  split.
  { destruct (dead_events _ _ J2 D2) as [(s & Q)|Q]; [left; exists s|right]; destruct W as [(-> & _)|(_ & -> & _)]; now apply stopped_has. }
  assert (XP : x_timed_out (w_x w2) = true -> In LExpired (events w')).
  { intros Q. apply (xi_timed _ (proj1 J2)) in Q. destruct W as [(-> & _)|(_ & -> & _)]; now apply stopped_has. }
  destruct (finish_cases _ _ _ _ _ _ _ HF PR1) as [e2 w3 rk rc Q H1 H2 HQ|w3 rk rc Q _ _ _]; [|discriminate]. injection Q as <-.
  assert (R0 : reg w1 (if is_cancelled e then cancelled_now w1 else w1)) by (destruct (is_cancelled e); [apply cancelled_now_reg|apply reg_refl]).
  assert (Ja : J (if is_cancelled e then cancelled_now w1 else w1)) by (apply R0; exact J1). assert (Pa := reg_proc _ _ _ _ R0 PR1).
  destruct (kill_spec o ext _ _ _ H1 Ja Pa) as (Rk & _). destruct (kill_more o ext _ _ _ H1 Ja Pa) as (KC & KE).
  assert (J3 : J w3) by (apply Rk; exact Ja). assert (P3 := reg_proc _ _ _ _ Rk Pa).
  destruct (close_spec _ _ _ _ _ _ H2 J3 P3) as (R3 & _ & _).
  assert (EV : forall u b, (u = w2 \/ u = cancelled_now w2) -> exit_value o u b = Ok b \/ (exit_value o u b = Err TimeoutError /\ In LExpired (events w') /\ o_catch_cancelled o = false)).
  { intros u b U. unfold exit_value. destruct (x_cancelled (w_x u)), (x_timed_out (w_x u)) eqn:T, (o_catch_cancelled o); cbn; auto.
    right. repeat split. apply XP. destruct U as [->| ->]; exact T. }
  destruct W as [(-> & -> & NC)|(-> & -> & ->)].
  - destruct rf as [b|e'].
    + destruct (EV w2 b (or_introl eq_refl)) as [->|(-> & X1 & X2)]; [|right; right; left; now split]. destruct b; [|now left]. right; left. split; [reflexivity|].
      destruct rc as [[]|]; [|discriminate]. destruct rk as [[]|]; [|discriminate]. injection HQ as HQ. symmetry in HQ.
      destruct (KC HQ) as [Q|Q].
      * destruct (is_cancelled e) eqn:IC; [left; now destruct e|]. congruence.
      * right. pose proof (reg_mk _ _ _ _ R3). assert (mk (if is_cancelled e then cancelled_now w1 else w1) = mk w1) by now destruct (is_cancelled e). change (marks (events w1)) with (mk w1). lia.
    + right; right; right. exists e'. split; [reflexivity|]. change (run_errors w2 e'). destruct rc as [[]|ec].
      * destruct rk as [[]|ek]; [discriminate|]. injection HQ as ->. destruct (KE ek eq_refl) as [(-> & _)|[->|[->|EE]]]; [congruence|now left|right; now left|].
        eapply run_errors_reg; [exact R3|]. right; right. exact EE.
      * injection HQ as ->. destruct (close_errs _ _ _ _ H2 J3 P3 eq_refl) as [->|EE]; [congruence|exact EE].
  - destruct (EV (cancelled_now w2) false (or_intror eq_refl)) as [->|(-> & X1 & X2)]; [now left|right; right; left; now split].
Qed.
End R.
