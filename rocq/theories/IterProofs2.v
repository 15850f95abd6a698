From Verif Require Import AsyncModel AsyncSpec AsyncProofs HarvestModel HarvestSpec HarvestProofs HarvestProofs2 AsyncInv
  RunnerModel RunnerSpec RunnerProofs RunnerProofs2 RunnerProofs3 RunnerProofs4 RunnerProofs5 RunnerProofs6 RunnerProofs7 RunnerProofs8 RunnerProofs9
  RunnerProofs10 RunnerProofs11 CopySpec CopyProofs CopyProofs2 Utf8Proofs IterModel IterProofs.
Open Scope Z_scope.

Section R.
Context (dec : text -> bytes -> option text) (o : opts) (ext piped_stdin use_pty : bool) (out_bytes err_bytes : option bytes) (enc : text).
Notation world := (world rx rkind unit).
Notation M := (@M rx rkind unit).
Notation kill := (kill o ext).
Notation close := (close o ext piped_stdin).
Notation finish := (finish o ext piped_stdin).
Notation aexit := (aexit o ext piped_stdin).
Notation J := (J ext).
Notation reg := (reg o ext).
Notation aenter := (aenter o ext use_pty out_bytes err_bytes enc).
Notation with_run := (with_run o ext piped_stdin use_pty out_bytes err_bytes enc).
Notation any_body := (any_body o ext).
Notation body_steps := (body_steps o ext).
Notation iterate := (iterate dec o ext piped_stdin use_pty out_bytes err_bytes enc).
Notation leave_with := (leave_with o ext piped_stdin).

(** Iterating is one way to use `async with`. *)
Lemma leave_with_run w0 w1 rb r w' : aenter fresh (Ok tt) w0 -> body_steps w0 w1 -> leave_with rb w1 r w' -> with_run any_body fresh r w'.
Proof.
  intros H1 H2 H3. left. exists tt, w0. split; [exact H1|]. exists rb, w1. split; [exact H2|]. destruct rb as [[]|e]; exact H3.
Qed.
Lemma iterate_run st ls rb r w' : iterate st ls rb r w' -> with_run any_body fresh r w'.
Proof.
  intros [e w1 H|w0 w1 ls0 rb0 r0 w2 H1 H2 H3]; [right; eauto|]. eapply leave_with_run; eauto. eapply iter_block_steps; eauto.
Qed.

Definition timed_out (r : res unit) (w' : world) : Prop := r = Err TimeoutError /\ In LExpired (events w') /\ o_catch_cancelled o = false.
Definition cleanup_error (r : res unit) (w' : world) : Prop := exists e, r = Err e /\ run_errors w' e.

Lemma exit_value_cases w2 w' u b : J w2 -> (forall e, (forall p, e <> LAudit p) -> In e (events w2) -> In e (events w')) -> (u = w2 \/ u = cancelled_now w2) ->
  exit_value o u b = Ok b \/ (exit_value o u b = Err TimeoutError /\ In LExpired (events w') /\ o_catch_cancelled o = false).
Proof.
  intros J2 SUB U. unfold exit_value. destruct (x_cancelled (w_x u)), (x_timed_out (w_x u)) eqn:T, (o_catch_cancelled o); cbn; auto.
  right. repeat split. apply SUB; [discriminate|]. apply (xi_timed _ (proj1 J2)). destruct U as [->| ->]; exact T.
Qed.
Lemma stopped_sub w2 u e : u = w2 \/ u = cancelled_now w2 -> In e (events w2) -> In e (events (stopped o u)).
Proof. intros [->| ->] H; now apply stopped_has. Qed.

Lemma run_errors_kill w1 w3 r e : kill w1 r w3 -> J w1 -> x_proc (w_x w1) = true -> r = Err e -> e = CancelledError \/ run_errors w3 e.
Proof.
  intros H HJ PR ->. destruct (kill_more o ext _ _ _ H HJ PR) as (_ & KE).
  destruct (KE e eq_refl) as [(-> & _)|[->|[->|EE]]]; [now left|right; now left|right; right; now left|right; right; right; exact EE].
Qed.
Lemma finish_none_errs w e w' : finish None w (Err e) w' -> J w -> x_proc (w_x w) = true -> e = CancelledError \/ run_errors w' e.
Proof.
  intros H HJ PR. destruct (finish_cases _ _ _ _ _ _ _ H PR) as [e1 w1 rk rc Q _ _ _|w1 rk rc _ H1 H2 Q]; [discriminate|].
  assert (R1 : reg w w1) by (eapply wait_reg; eauto). assert (J1 : J w1) by (apply R1; exact HJ). assert (PR1 := reg_proc _ _ _ _ R1 PR).
  destruct (close_spec _ _ _ _ _ _ H2 J1 PR1) as (R2 & _ & _).
  destruct rc as [[]|ec]; [|injection Q as ->; eapply close_errs; eauto].
  destruct rk as [[]|ek]; [discriminate|]. injection Q as ->.
  assert (G : ek = CancelledError \/ run_errors w1 ek -> ek = CancelledError \/ run_errors w' ek).
  { intros [->|G]; [now left|right]. eapply run_errors_reg; eauto. }
  apply G. destruct (wait_cases _ _ _ _ _ H1 HJ PR) as [Q H0|w0 H0 _ HK|e w0 rk' H0 FF EX HK Q]; [discriminate| |];
    pose proof (r_opt_harvest _ _ _ _ _ _ _ H0) as R0.
  - assert (Ra : reg w (cleared (cancelled_now w0))).
    { eapply reg_trans; [exact R0|]. eapply reg_trans; [apply cancelled_now_reg|apply cleared_reg]. }
    eapply run_errors_kill; [exact HK|apply Ra; exact HJ|exact (reg_proc _ _ _ _ Ra PR)|reflexivity].
  - assert (Ra : reg w (cleared w0)) by (eapply reg_trans; [exact R0|apply cleared_reg]).
    destruct rk' as [[]|e']; injection Q as ->.
    + right. destruct FF as [->|FF]; [now left|]. right; right. split; [exact EX|].
      assert (Rb : reg (cleared w0) w1) by (apply (kill_spec o ext _ _ _ HK); [apply Ra; exact HJ|exact (reg_proc _ _ _ _ Ra PR)]).
      eapply reg_failed; [exact Rb|]. exact FF.
    + eapply run_errors_kill; [exact HK|apply Ra; exact HJ|exact (reg_proc _ _ _ _ Ra PR)|reflexivity].
Qed.

Lemma leave_ok w0 w1 r w' : aenter fresh (Ok tt) w0 -> body_steps w0 w1 -> leave_with (Ok tt) w1 r w' ->
  r = Ok tt \/ timed_out r w' \/ cleanup_error r w'.
Proof.
  intros HE HB HX. apply aenter_cases in HE as [wa P PR Mk0 -> _|e0 wa _ _ (e' & Q) _ _]; [|discriminate].
  destruct (body_ready o ext _ (Ok tt) _ P PR HB) as (J1 & PR1 & W1 & R1).
  assert (S : exists ra, aexit None w1 ra w' /\ r = match ra with Err e => Err e | Ok _ => Ok tt end).
  { destruct HX as [(b & w2 & H1 & [-> ->])|(e2 & H1 & ->)]; [exists (Ok b)|exists (Err e2)]; now split. }
  destruct S as (ra & HA & ->). destruct (aexit_world2 _ _ _ _ _ _ _ HA) as (rf & w2 & HF & W).
  destruct (finish_reg _ _ _ _ _ _ _ HF J1 PR1) as [R2 _]. assert (J2 : J w2) by (apply R2; exact J1).
  assert (SUB : forall e, (forall p, e <> LAudit p) -> In e (events w2) -> In e (events w')).
  { intros e _ Q. destruct W as [(-> & _)|(_ & -> & _)]; [apply (stopped_sub w2 w2)|apply (stopped_sub w2 (cancelled_now w2))]; auto. }
  destruct W as [(-> & -> & NC)|(-> & -> & ->)].
  - destruct rf as [b|e'].
    + destruct (exit_value_cases w2 _ w2 b J2 SUB (or_introl eq_refl)) as [->|(-> & Q)]; [now left|]. right; left. split; [reflexivity|exact Q].
    + right; right. exists e'. split; [reflexivity|]. change (run_errors w2 e').
      destruct (finish_none_errs _ _ _ HF J1 PR1) as [->|RE]; [congruence|exact RE].
  - destruct (exit_value_cases w2 _ (cancelled_now w2) false J2 SUB (or_intror eq_refl)) as [->|(-> & Q)]; [now left|]. right; left. split; [reflexivity|exact Q].
Qed.

Lemma leave_cancelled w0 w1 r w' : aenter fresh (Ok tt) w0 -> body_steps w0 w1 -> leave_with (Err CancelledError) w1 r w' ->
  marks (events w') = marks (events w1) ->
  r = Ok tt \/ timed_out r w' \/ cleanup_error r w'.
Proof.
  intros HE HB HX MK. apply aenter_cases in HE as [wa P PR Mk0 -> _|e0 wa _ _ (e' & Q) _ _]; [|discriminate].
  destruct (body_ready o ext _ (Ok tt) _ P PR HB) as (J1 & PR1 & W1 & R1).
  assert (S : exists ra, aexit (Some CancelledError) w1 ra w' /\ r = match ra with Err e => Err e | Ok true => Ok tt | Ok false => Err CancelledError end).
  { destruct HX as [(b & w2 & H1 & H2)|(e2 & H1 & ->)]; [|exists (Err e2); now split]. exists (Ok b). destruct b; destruct H2 as [-> ->]; auto. }
  destruct S as (ra & HA & ->). destruct (aexit_world2 _ _ _ _ _ _ _ HA) as (rf & w2 & HF & W).
  destruct (finish_reg _ _ _ _ _ _ _ HF J1 PR1) as [R2 _]. assert (J2 : J w2) by (apply R2; exact J1).
  assert (SUB : forall e, (forall p, e <> LAudit p) -> In e (events w2) -> In e (events w')).
  { intros e _ Q. destruct W as [(-> & _)|(_ & -> & _)]; [apply (stopped_sub w2 w2)|apply (stopped_sub w2 (cancelled_now w2))]; auto. }
  assert (ML : (mk w2 <= mk w1)%nat).
  { unfold mk, events in *. destruct W as [(-> & _)|(_ & -> & _)].
    - destruct (stopped_log o w2) as (l & E & _). rewrite E, marks_app in MK. lia.
    - destruct (stopped_log o (cancelled_now w2)) as (l & E & _). rewrite E, marks_app in MK. cbn in MK. lia. }
  destruct (finish_cases _ _ _ _ _ _ _ HF PR1) as [e2 w3 rk rc Q H1 H2 HQ|w3 rk rc Q _ _ _]; [|discriminate]. injection Q as <-.
  cbn [is_cancelled] in H1.
  assert (R0 : reg w1 (cancelled_now w1)) by apply cancelled_now_reg.
  assert (Ja : J (cancelled_now w1)) by (apply R0; exact J1). assert (Pa := reg_proc _ _ _ _ R0 PR1).
  destruct (kill_spec o ext _ _ _ H1 Ja Pa) as (Rk & _). destruct (kill_more o ext _ _ _ H1 Ja Pa) as (_ & KE).
  assert (J3 : J w3) by (apply Rk; exact Ja). assert (P3 := reg_proc _ _ _ _ Rk Pa).
  destruct (close_spec _ _ _ _ _ _ H2 J3 P3) as (R3 & _ & CE).
  pose proof (reg_mk _ _ _ _ Rk) as Mk. change (mk (cancelled_now w1)) with (mk w1) in Mk. pose proof (reg_mk _ _ _ _ R3) as M3.
  assert (C3 : x_cancelled (w_x w3) = true) by (exact (reg_canc _ _ _ _ Rk eq_refl)).
  assert (KC : rk <> Err CancelledError).
  { intros ->. apply kill_mk in H1; auto. change (mk (cancelled_now w1)) with (mk w1) in H1. lia. }
  assert (CC : rc <> Err CancelledError).
  { intros ->. destruct CE as [(_ & Q & _)|(_ & _ & ER)]; [discriminate|]. destruct (ER _ eq_refl) as [(_ & Q)|[Q|(Q & _)]]; [lia|discriminate|discriminate]. }
  destruct W as [(-> & -> & NC)|(-> & -> & ->)].
  - destruct rf as [b|e'].
    + assert (b = true) as ->.
      { destruct rc as [[]|]; [|discriminate]. destruct rk as [[]|]; [|discriminate]. congruence. }
      destruct (exit_value_cases w2 _ w2 true J2 SUB (or_introl eq_refl)) as [->|(-> & Q)]; [now left|]. right; left. split; [reflexivity|exact Q].
    + right; right. exists e'. split; [reflexivity|]. change (run_errors w2 e'). destruct rc as [[]|ec].
      * destruct rk as [[]|ek]; [discriminate|]. injection HQ as ->. destruct (KE ek eq_refl) as [(-> & _)|[->|[->|EE]]]; [congruence|now left|right; now left|].
        eapply run_errors_reg; [exact R3|]. right; right. exact EE.
      * injection HQ as ->. destruct (close_errs _ _ _ _ _ _ _ H2 J3 P3 eq_refl) as [->|EE]; [congruence|exact EE].
  - exfalso. destruct rc as [[]|ec]; [|congruence]. destruct rk as [[]|]; congruence.
Qed.
Lemma run_errors_not_cancelled w e : run_errors w e -> e <> CancelledError.
Proof. intros [->|[->|(Q & _)]]; [discriminate|discriminate|]. intros ->. discriminate. Qed.

(** If the exit status is still unknown after leaving, Process.kill() was called. *)
Lemma kill_wait_signal w r w' : kill_wait o ext w r w' -> J w -> x_proc (w_x w) = true -> x_rc (w_x w') = None -> In (LSignal None) (events w').
Proof.
  intros H HJ PR N'. destruct (kill_wait_spec o ext _ _ _ H HJ PR) as (R & _).
  unfold RunnerModel.kill_wait in H. cbn [bindM] in H.
  destruct H as [([] & w1 & H1 & H)|(e & H1 & _)]; apply i_getx in H1; rewrite PR in H1; destruct H1 as [Q ->]; [clear Q|discriminate].
  apply i_getx in H. destruct (x_rc (w_x w)) eqn:N.
  { exfalso. destruct R as (_ & l & h & P). rewrite (pr_rc _ _ _ _ _ P) in N' by congruence. congruence. }
  set (wk := upd_x w (signal_x o None)) in *.
  assert (IN : In (LSignal None) (x_log (w_x wk))).
  { change (w_x wk) with (signal_x o None (w_x w)). destruct (signal_frame o None (w_x w)) as (l & F & _).
    rewrite (fr_log _ _ _ F), !in_app_iff. cbn. auto. }
  assert (KH : forall ra wa, bindM (signal o None) (fun _ => HarvestModel.harvest (rstep o) (rfinish ext) [AwCoro KWaiter] true false) w ra wa -> reg wk wa).
  { intros ra wa [([] & w1 & H1 & H2)|(e & H1 & ->)]; apply signal_run in H1 as [(_ & Q & Q2)|(Q & _)]; try congruence; subst w1.
    eapply harvest_reg; eauto. }
  assert (KG : forall u, reg wk u -> In (LSignal None) (events u)) by (intros u Ru; exact (reg_has _ _ _ _ _ Ru IN)).
  destruct H as [([] & H1 & ->)|(e & w1 & H1 & H2)]; apply KH in H1; [now apply KG|].
  assert (MD : exists e, In e (x_log (w_x w1)) /\ meddled e) by (exists (LSignal None); split; [apply KG; exact H1|left; eauto]).
  destruct e; try (destruct H2 as [-> ->]; now apply KG).
  destruct H2 as [(b & w2 & H2 & H3)|(e & H2 & ->)]; destruct (r_poll o ext _ _ _ MD H2) as [R2 P]; [|destruct P].
  assert (w' = w2) as -> by (destruct b; destruct H3; assumption). apply KG. eapply reg_trans; eauto.
Qed.
Lemma kill_signal w r w' : ext = false -> kill w r w' -> J w -> x_proc (w_x w) = true -> x_rc (w_x w') = None -> In (LSignal None) (events w').
Proof.
  intros E H HJ PR N. destruct (kill_cases _ _ _ _ _ H PR) as [HB Q|w1 HB HK|w1 HB HK|e w1 rk HB N1 N2 HK Q];
    destruct (kill_body_spec o ext _ _ _ HB HJ PR) as (R1 & RC & _).
  - elim (RC E eq_refl N).
  - eapply kill_wait_signal; [exact HK| | |exact N].
    + apply (cancelled_now_reg o ext w1), R1, HJ.
    + exact (reg_proc _ _ _ _ R1 PR).
  - eapply kill_wait_signal; [exact HK|apply R1, HJ|exact (reg_proc _ _ _ _ R1 PR)|exact N].
  - eapply kill_wait_signal; [exact HK|apply R1, HJ|exact (reg_proc _ _ _ _ R1 PR)|exact N].
Qed.
Lemma leave_signal w0 w1 rb r w' : ext = false -> aenter fresh (Ok tt) w0 -> body_steps w0 w1 -> leave_with rb w1 r w' ->
  x_proc (w_x w') = true /\ J w' /\ (x_rc (w_x w') = None -> In (LSignal None) (events w')).
Proof.
  intros E HE HB HX. pose proof (leave_with_run _ _ _ _ _ HE HB HX) as HW. pose proof (run_J _ _ _ _ _ _ _ _ _ HW) as HJ'.
  apply aenter_cases in HE as [wa P PR Mk0 -> _|e0 wa _ _ (e' & Q) _ _]; [|discriminate].
  destruct (body_ready o ext _ (Ok tt) _ P PR HB) as (J1 & PR1 & W1 & R1).
  assert (S : exists exc ra, aexit exc w1 ra w').
  { destruct rb as [[]|e]; [exists None|exists (Some e)]; destruct HX as [(b & w2 & H1 & H2)|(e2 & H1 & ->)]; [exists (Ok b)|exists (Err e2)|exists (Ok b)|exists (Err e2)]; auto.
    - destruct H2 as [_ ->]. exact H1.
    - destruct b; destruct H2 as [_ ->]; exact H1. }
  destruct S as (exc & ra & HA). destruct (aexit_world2 _ _ _ _ _ _ _ HA) as (rf & w2 & HF & W).
  destruct (finish_reg _ _ _ _ _ _ _ HF J1 PR1) as [R2 _]. assert (PR2 := reg_proc _ _ _ _ R2 PR1).
  assert (X : x_proc (w_x w') = x_proc (w_x w2) /\ x_rc (w_x w') = x_rc (w_x w2)).
  { destruct W as [(-> & _)|(_ & -> & _)].
    - destruct (stopped_x o w2) as (_ & _ & A & B & _). auto.
    - destruct (stopped_x o (cancelled_now w2)) as (_ & _ & A & B & _). auto. }
  destruct X as [-> X2]. split; [exact PR2|]. split; [exact HJ'|]. rewrite X2. intros N.
  enough (IN : In (LSignal None) (events w2)) by (destruct W as [(-> & _)|(_ & -> & _)]; now apply stopped_has).
  destruct (finish_cases _ _ _ _ _ _ _ HF PR1) as [e2 w3 rk rc Q H1 H2 HQ|w3 rk rc Q H1 H2 HQ].
  - assert (R0 : reg w1 (if is_cancelled e2 then cancelled_now w1 else w1)) by (destruct (is_cancelled e2); [apply cancelled_now_reg|apply reg_refl]).
    assert (Ja : J (if is_cancelled e2 then cancelled_now w1 else w1)) by (apply R0; exact J1). assert (Pa := reg_proc _ _ _ _ R0 PR1).
    destruct (kill_spec o ext _ _ _ H1 Ja Pa) as (Rk & _).
    destruct (close_spec _ _ _ _ _ _ H2 (proj1 Rk Ja) (reg_proc _ _ _ _ Rk Pa)) as (R3 & _ & _).
    apply (reg_has _ _ _ _ _ R3). eapply kill_signal; [exact E|exact H1|exact Ja|exact Pa|].
    destruct (x_rc (w_x w3)) eqn:N3; [|reflexivity]. destruct R3 as (_ & l & h & P3). rewrite (pr_rc _ _ _ _ _ P3) in N by congruence. congruence.
  - assert (R3 := wait_reg _ _ _ _ _ H1 J1 PR1). destruct (close_spec _ _ _ _ _ _ H2 (proj1 R3 J1) (reg_proc _ _ _ _ R3 PR1)) as (R4 & _ & _).
    apply (reg_has _ _ _ _ _ R4).
    assert (N3 : x_rc (w_x w3) = None).
    { destruct (x_rc (w_x w3)) eqn:N3; [|reflexivity]. destruct R4 as (_ & l & h & P3). rewrite (pr_rc _ _ _ _ _ P3) in N by congruence. congruence. }
    destruct (wait_cases _ _ _ _ _ H1 J1 PR1) as [-> H0|wb H0 _ HK|e wb rk' H0 FF EX HK ->].
    + exfalso. destruct (opt_harvest_waiter _ _ _ _ _ H0 W1 J1 E) as [RC _]. congruence.
    + pose proof (r_opt_harvest _ _ _ _ _ _ _ H0) as R0.
      assert (Ra : reg w1 (cleared (cancelled_now wb))).
      { eapply reg_trans; [exact R0|]. eapply reg_trans; [apply cancelled_now_reg|apply cleared_reg]. }
      eapply kill_signal; [exact E|exact HK|apply Ra; exact J1|exact (reg_proc _ _ _ _ Ra PR1)|exact N3].
    + pose proof (r_opt_harvest _ _ _ _ _ _ _ H0) as R0.
      assert (Ra : reg w1 (cleared wb)) by (eapply reg_trans; [exact R0|apply cleared_reg]).
      eapply kill_signal; [exact E|exact HK|apply Ra; exact J1|exact (reg_proc _ _ _ _ Ra PR1)|exact N3].
Qed.
End R.
