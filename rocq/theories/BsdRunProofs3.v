From Verif Require Import AsyncModel AsyncSpec AsyncProofs HarvestModel HarvestSpec HarvestProofs HarvestProofs2 AsyncInv
  RunnerModel RunnerSpec RunnerProofs RunnerProofs2 RunnerProofs3 RunnerProofs4 RunnerProofs5 RunnerProofs6 RunnerProofs7 RunnerProofs8 RunnerProofs9 RunnerProofs10 RunnerProofs11
  BsdRunModel BsdRunProofs BsdRunProofs2.
Open Scope Z_scope.

Section R.
Context (o : opts) (ext : bool) (out_bytes err_bytes : option bytes) (enc : text).
Notation world := (world rx rkind unit).
Notation M := (@M rx rkind unit).
Notation rstep := (rstep o).
Notation rfinish := (rfinish ext).
Notation kill := (kill o ext).
Notation close := (close o ext false).
Notation J := (J ext).
Notation reg := (reg o ext).
Notation opt_harvest := (opt_harvest o ext).
Notation KP := (KP o ext).
Notation pre := (pre o ext).
Notation begun := (begun o).
Notation wait_bsd := (wait_bsd o ext).
Notation finish_bsd := (finish_bsd o ext).
Notation aexit_bsd := (aexit_bsd o ext).
Notation aenter_bsd := (aenter_bsd o ext out_bytes err_bytes enc).
Notation with_run_bsd := (with_run_bsd o ext out_bytes err_bytes enc).
Notation any_body := (any_body o ext).
Notation enteredb := (enteredb o).


Notation run_result := (run_result o out_bytes err_bytes enc).
Notation run_command_bsd := (run_command_bsd o ext out_bytes err_bytes enc).

(** ** Signal escalation *)
Section Esc.
Context (sg : Z) (CS : o_cancel_signal o = Some sg) (SG : sg <> SIGKILL).
Notation EA := (EA sg).
Notation esc := (esc sg).
Notation escl := (escl sg).
Lemma waitb_ea w r w' : wait_bsd w r w' -> J w -> x_proc (w_x w) = true -> esc (w_x w) -> EA w'.
Proof using CS SG.
  intros H HJ PR HE. assert (HR := waitb_reg _ _ _ _ _ H HJ PR).
  pose proof (esc_stable o ext sg CS) as ST.
  destruct (waitb_cases _ _ _ _ _ H HJ PR) as [w1 w2 _ H1 K _ RC ->|w1 R1 _ (w0 & K & W1) H2|e w1 rk H1 _ _ H2 _].
  - split.
    + exact (K _ ST (KP_opt _ _ _ _ _ _ _ H1 _ ST HE)).
    + apply (att_rc ext sg); [apply HR; exact HJ|exact RC].
  - assert (E1 : esc (w_x w1)) by (pose proof (K _ ST HE) as E0; destruct W1 as [->| ->]; exact E0).
    assert (R2 : reg w (cleared (cancelled_now w1))).
    { eapply reg_trans; [exact R1|]. eapply reg_trans; [apply cancelled_now_reg|apply cleared_reg]. }
    eapply kill_ea; [eassumption|eassumption|exact H2|apply R2; exact HJ|exact (reg_proc _ _ _ _ R2 PR)|exact E1].
  - pose proof (KP_opt _ _ _ _ _ _ _ H1 _ ST HE) as E1. pose proof (r_opt_harvest _ _ _ _ _ _ _ H1) as R1.
    assert (R2 : reg w (cleared w1)) by (eapply reg_trans; [exact R1|apply cleared_reg]).
    eapply kill_ea; [eassumption|eassumption|exact H2|apply R2; exact HJ|exact (reg_proc _ _ _ _ R2 PR)|exact E1].
Qed.
Lemma finishb_ea exc w r w' : finish_bsd exc w r w' -> J w -> x_proc (w_x w) = true -> esc (w_x w) -> EA w'.
Proof using CS SG.
  intros H HJ PR HE. destruct (finishb_cases _ _ _ _ _ _ H PR) as [e w1 rk rc _ H1 H2 _|w1 rk rc _ H1 H2 _].
  - assert (R0 : reg w (if is_cancelled e then cancelled_now w else w)) by (destruct (is_cancelled e); [apply cancelled_now_reg|apply reg_refl]).
    refine (close_ea o ext false sg CS w1 _ w' _ H2). eapply kill_ea; [eassumption|eassumption|exact H1|apply R0; exact HJ|exact (reg_proc _ _ _ _ R0 PR)|]. destruct (is_cancelled e); exact HE.
  - refine (close_ea o ext false sg CS w1 _ w' _ H2). eapply waitb_ea; eauto.
Qed.
Theorem escalationb r w' : ext = false -> with_run_bsd any_body fresh r w' -> escl (events w').
Proof using CS SG.
  intros E H. destruct (with_runb_cases o ext out_bytes err_bytes enc _ _ _ H) as [e0 -> EC|w0 w1 rb re P PR Mk HB HX RR].
  - eapply escalation; eauto.
  - destruct (bodyb_ready _ _ _ _ _ P PR HB) as (J1 & PR1 & R1).
    assert (E1 : esc (w_x w1)).
    { eapply (body_stable o ext _ _ _ (esc_stable o ext sg CS)); [intros u k Q; exact Q|exact HB|]. unfold RunnerProofs10.esc. destruct (enteredb_x o w0) as (-> & _). eapply pre_esc; eauto. }
    destruct (aexitb_world _ _ _ _ _ _ HX) as (rf & w2 & HF & W).
    assert (E2 : esc (w_x w2)) by (eapply finishb_ea; eauto).
    unfold events. destruct W as [->|(_ & ->)].
    + destruct (stopped_log o w2) as (l & -> & AL & _). apply escl_audits; auto.
    + destruct (stopped_log o (cancelled_now w2)) as (l & -> & AL & _). apply escl_audits; auto.
Qed.
End Esc.

(** ** The reported exit code *)
Lemma runb_launching r w' : with_run_bsd any_body fresh r w' -> x_launching (w_x w') = false.
Proof.
  intros H. destruct (with_runb_cases o ext out_bytes err_bytes enc _ _ _ H) as [e0 -> EC|w0 w1 rb re P PR Mk HB HX RR].
  - eapply run_launching; eauto.
  - destruct (bodyb_ready _ _ _ _ _ P PR HB) as (J1 & PR1 & R1).
    destruct (aexitb_world _ _ _ _ _ _ HX) as (rf & w2 & HF & W). destruct (finishb_reg _ _ _ _ _ _ HF J1 PR1) as [R2 _].
    assert (L : x_launching (w_x w2) = false).
    { eapply reg_launching; [exact R2|]. eapply reg_launching; [exact R1|]. unfold BsdRunProofs.enteredb. cbn. destruct (o_timeout o); apply (pre_launch _ _ _ _ P). }
    destruct W as [->|(_ & ->)]; rewrite stopped_launching; exact L.
Qed.
Lemma runb_proc r w' : with_run_bsd any_body fresh r w' -> In LSpawn (events w') -> ~ In LAbort (events w') -> x_proc (w_x w') = true.
Proof.
  intros H SP NA. destruct (runb_J _ _ _ _ _ _ _ H) as (X & _). destruct (x_proc (w_x w')) eqn:PR; [reflexivity|].
  destruct (xi_launch _ X) as [Q|Q]; [now apply (xi_spawn _ X)|exact PR| |].
  - rewrite (runb_launching _ _ H) in Q. discriminate.
  - elim NA. now apply (xi_abort _ X).
Qed.
Theorem exit_codeb_cases r w' z : with_run_bsd any_body fresh r w' -> In LSpawn (events w') -> ~ In LAbort (events w') -> returncode (w_x w') = Some z ->
  In (LExit z) (events w')
  \/ (In (LCollect UNKNOWN_EXIT_CODE) (events w') /\ (exists e, In e (events w') /\ meddled e)
      /\ (z = UNKNOWN_EXIT_CODE \/ exists s, z = - s /\ In (LSignal (Some s)) (events w'))).
Proof.
  intros H SP NA RC. pose proof (runb_proc _ _ H SP NA) as PR. destruct (runb_J _ _ _ _ _ _ _ H) as (X & _). unfold returncode in RC. rewrite PR in RC. cbn in RC.
  destruct (x_rc (w_x w')) as [c|] eqn:R; [|discriminate].
  destruct (xi_status _ X c (or_intror R)) as [ST|(ST & MD)].
  - destruct (x_lastsig (w_x w')) as [s|] eqn:L; [destruct (Z.eqb_spec c UNKNOWN_EXIT_CODE) as [->|N]|]; injection RC as <-;
      try (left; now apply (xi_exit _ X)).
    destruct (Z.eq_dec (- s) UNKNOWN_EXIT_CODE) as [Q|Q]; [left; rewrite Q; now apply (xi_exit _ X)|].
    right. split; [now apply (xi_rc _ X)|]. split; [|right; exists s; split; [reflexivity|now apply (xi_last _ X)]].
    exists (LSignal (Some s)). split; [now apply (xi_last _ X)|left; eauto].
  - subst c. right. split; [now apply (xi_rc _ X)|]. split; [exact MD|].
    destruct (x_lastsig (w_x w')) as [s|] eqn:L; [|injection RC as <-; now left]. cbn in RC. injection RC as <-. right. exists s. split; [reflexivity|now apply (xi_last _ X)].
Qed.

(** ** Time and cancellation *)
Lemma runb_timer r w' : with_run_bsd any_body fresh r w' -> x_timer (w_x w') = false.
Proof.
  intros H. destruct (with_runb_cases o ext out_bytes err_bytes enc _ _ _ H) as [e0 -> EC|w0 w1 rb re P PR Mk HB HX RR].
  - eapply run_timer; eauto.
  - destruct (aexitb_world _ _ _ _ _ _ HX) as (rf & w2 & HF & [->|(_ & ->)]); apply stopped_timer.
Qed.
Inductive endb_case (w : world) (r : res bool) (w' : world) : Prop :=
| en_ok w1 : reg w (off w1) -> x_rc (w_x w1) <> None -> mk w1 = mk w -> reg (off w1) w' -> endb_case w r w'
| en_canc : x_cancelled (w_x w') = true -> (r = Ok false \/ r = Err CancelledError \/ exists e, r = Err e /\ run_errors w' e) -> endb_case w r w'
| en_fail : (r = Err CancelledError \/ exists e, r = Err e /\ run_errors w' e) -> endb_case w r w'.
Lemma endb_cases w r w' : finish_bsd None w r w' -> J w -> x_proc (w_x w) = true -> endb_case w r w'.
Proof.
  intros H HJ PR. destruct (finishb_cases _ _ _ _ _ _ H PR) as [e w1 rk rc Q _ _ _|w1 rk rc _ H1 H2 Q]; [discriminate|].
  assert (R1 : reg w w1) by (eapply waitb_reg; eauto). assert (J1 : J w1) by (apply R1; exact HJ). assert (PR1 := reg_proc _ _ _ _ R1 PR).
  destruct (close_spec _ _ _ _ _ _ H2 J1 PR1) as (R2 & _ & _).
  assert (RC : forall e, rc = Err e -> r = Err CancelledError \/ exists e, r = Err e /\ run_errors w' e).
  { intros e ->. destruct (close_errs _ _ _ _ _ _ _ H2 J1 PR1 eq_refl) as [->|E]; [now left|right; eauto]. }
  destruct (waitb_cases _ _ _ _ _ H1 HJ PR) as [wa wb -> H0 K Mk RCx ->|w0 R0 _ _ HK|e w0 rk' H0 FF EX HK ->].
  - apply (en_ok _ _ _ wb); auto. rewrite Mk. exact (opt_harvest_ok _ _ _ _ _ _ H0).
  - assert (Ra : reg w (cleared (cancelled_now w0))).
    { eapply reg_trans; [exact R0|]. eapply reg_trans; [apply cancelled_now_reg|apply cleared_reg]. }
    assert (Ja : J (cleared (cancelled_now w0))) by (apply Ra; exact HJ). assert (Pa := reg_proc _ _ _ _ Ra PR).
    destruct (kill_spec o ext _ _ _ HK Ja Pa) as (Rk & _). destruct (kill_more o ext _ _ _ HK Ja Pa) as (_ & KE).
    apply en_canc.
    + eapply reg_canc; [exact R2|]. eapply reg_canc; [exact Rk|]. reflexivity.
    + destruct rc as [[]|e]; [|right; exact (RC e eq_refl)]. destruct rk as [[]|e]; [now left|right].
      destruct (KE e eq_refl) as [(-> & _)|[->|[->|E]]]; [now left| | |]; right; (eexists; split; [exact Q|]);
        [now left|right; now left|]. eapply run_errors_reg; [exact R2|]. right; right. exact E.
  - pose proof (r_opt_harvest _ _ _ _ _ _ _ H0) as R0.
    assert (Ra : reg w (cleared w0)) by (eapply reg_trans; [exact R0|apply cleared_reg]).
    assert (Ja : J (cleared w0)) by (apply Ra; exact HJ). assert (Pa := reg_proc _ _ _ _ Ra PR).
    destruct (kill_spec o ext _ _ _ HK Ja Pa) as (Rk & _). destruct (kill_more o ext _ _ _ HK Ja Pa) as (_ & KE).
    apply en_fail. destruct rc as [[]|e']; [|exact (RC e' eq_refl)]. destruct rk' as [[]|e'].
    + right. exists e. split; [exact Q|]. destruct FF as [->|FF]; [now left|]. right; right. split; [exact EX|].
      eapply reg_failed; [exact R2|]. eapply reg_failed; [exact Rk|]. exact FF.
    + destruct (KE e' eq_refl) as [(-> & _)|[->|[->|E]]]; [now left| | |]; right; (eexists; split; [exact Q|]);
        [now left|right; now left|]. eapply run_errors_reg; [exact R2|]. right; right. exact E.
Qed.
Lemma enterb_state w0 : aenter_bsd fresh (Ok tt) w0 -> J w0 /\ x_proc (w_x w0) = true /\ mk w0 = 0%nat /\ x_cancelled (w_x w0) = false /\ x_timed_out (w_x w0) = false.
Proof.
  intros HE. apply aenterb_cases in HE as [wa P PR Mk0 -> _|e Q _]; [|discriminate].
  split; [now apply enteredb_J|]. destruct (enteredb_x o wa) as (E1 & -> & _ & -> & -> & _). split; [exact PR|].
  split; [unfold mk in *; rewrite E1; exact Mk0|]. destruct (pre_calm _ _ _ _ P) as (_ & _ & A & B). auto.
Qed.
Definition leaveb (w : world) (r : res result) (w' : world) : Prop := bindM (aexit_bsd None) (fun _ => run_result true) w r w'.

Theorem timeoutb_outcome w0 r w' : o_catch_cancelled o = false -> aenter_bsd fresh (Ok tt) w0 -> leaveb w0 r w' -> In LExpired (events w') ->
  r = Err TimeoutError \/ exists e, r = Err e /\ run_errors w' e.
Proof.
  intros CC HE HL EXP. destruct (enterb_state _ HE) as (J0 & P0 & M0 & C0 & T0).
  assert (SS : exists ra, aexit_bsd None w0 ra w' /\ match ra with Err e => r = Err e | Ok _ => True end).
  { destruct HL as [(b & w1 & H1 & H2)|(e & H1 & ->)]; [|exists (Err e); now split]. exists (Ok b). split; [|exact Logic.I]. apply i_getx in H2. destruct (runner_result _ _ _ _ _ _ _ _); destruct H2 as [_ ->]; exact H1. }
  destruct SS as (ra & HX & RA). destruct (aexitb_world2 _ _ _ _ _ _ HX) as (rf & w1 & HF & W).
  destruct (finishb_reg _ _ _ _ _ _ HF J0 P0) as [R1 _]. assert (J1 : J w1) by (apply R1; exact J0).
  assert (T1 : x_timed_out (w_x w1) = true).
  { apply (xi_timed _ (proj1 J1)). destruct W as [(-> & _)|(_ & -> & _)]; apply stopped_has_inv in EXP; try discriminate; exact EXP. }
  assert (TC : rf = Err CancelledError -> r = Err TimeoutError).
  { intros ->. destruct W as [(_ & _ & Q)|(_ & -> & Q)]; [congruence|]. rewrite exit_value_expired in Q; auto. subst ra. exact RA. }
  assert (TE : forall e, rf = Err e -> run_errors w1 e -> r = Err TimeoutError \/ exists e, r = Err e /\ run_errors w' e).
  { intros e -> RE. destruct W as [(-> & -> & _)|(Q & _)]; [right; exists e; split; [exact RA|exact RE]|]. left. auto. }
  destruct (endb_cases _ _ _ HF J0 P0) as [w2 R02 RC MK2 R21|C1 D|D].
  - exfalso. assert (J2 : J (off w2)) by (apply R02; exact J0). destruct R21 as (_ & l & h & PP). rewrite (pr_timed _ _ _ _ _ PP eq_refl) in T1.
    apply (xi_timed _ (proj1 J2)) in T1. apply expired_marks in T1. unfold mk in MK2, M0. cbn in T1. lia.
  - destruct D as [->|[->|(e & -> & RE)]]; auto; [|eauto]. left. destruct W as [(-> & -> & _)|(Q & _)]; [|discriminate].
    rewrite exit_value_expired in RA; auto.
  - destruct D as [->|(e & -> & RE)]; auto. eauto.
Qed.
Theorem cancelb_outcome w0 r w' : o_catch_cancelled o = false -> aenter_bsd fresh (Ok tt) w0 -> leaveb w0 r w' ->
  early_cancel (events w') -> ~ In LExpired (events w') ->
  r = Err CancelledError \/ r = Err not_exited \/ exists e, r = Err e /\ run_errors w' e.
Proof.
  intros CC HE HL (l1 & l2 & EL & NCo) NX. destruct (enterb_state _ HE) as (J0 & P0 & M0 & C0 & T0).
  assert (SS : exists ra, aexit_bsd None w0 ra w' /\ match ra with Err e => r = Err e
     | Ok _ => r = runner_result (returncode (w_x w')) out_bytes err_bytes enc o (x_cancelled (w_x w')) (x_timed_out (w_x w')) true end).
  { destruct HL as [(b & w1 & H1 & H2)|(e & H1 & ->)]; [|exists (Err e); now split]. exists (Ok b). apply i_getx in H2. destruct (runner_result _ _ _ _ _ _ _ _) eqn:RR; destruct H2 as [-> ->]; split; auto. }
  destruct SS as (ra & HX & RA). destruct (aexitb_world2 _ _ _ _ _ _ HX) as (rf & w1 & HF & W).
  destruct (finishb_reg _ _ _ _ _ _ HF J0 P0) as [R1 _]. assert (J1 : J w1) by (apply R1; exact J0).
  assert (T1 : x_timed_out (w_x w1) = false).
  { destruct (x_timed_out (w_x w1)) eqn:Q; [|reflexivity]. apply (xi_timed _ (proj1 J1)) in Q. elim NX. destruct W as [(-> & _)|(_ & -> & _)]; now apply stopped_has. }
  assert (CR : ra <> Err TimeoutError -> x_cancelled (w_x w') = true -> (exists b, ra = Ok b) -> r = Err CancelledError \/ r = Err not_exited).
  { intros _ C (b & ->). rewrite C in RA. unfold runner_result, check_result in RA. destruct (returncode (w_x w')); [left|right; exact RA].
    rewrite CC in RA. exact RA. }
  assert (TC : rf = Err CancelledError -> r = Err CancelledError \/ r = Err not_exited).
  { intros ->. destruct W as [(_ & _ & Q)|(_ & -> & Q)]; [congruence|]. unfold exit_value in Q. cbn in Q. rewrite T1 in Q. cbn in Q.
    apply CR; [subst ra; discriminate| |eauto]. destruct (stopped_x o (cancelled_now w1)) as (_ & _ & _ & _ & -> & _). reflexivity. }
  assert (TE : forall e, rf = Err e -> run_errors w1 e -> r = Err CancelledError \/ r = Err not_exited \/ exists e, r = Err e /\ run_errors w' e).
  { intros e -> RE. destruct W as [(-> & -> & _)|(Q & _)]; [right; right; exists e; split; [exact RA|exact RE]|]. destruct (TC Q); auto. }
  destruct (endb_cases _ _ _ HF J0 P0) as [w2 R02 RC MK2 R21|C1 D|D].
  - exfalso. assert (J2 : J (off w2)) by (apply R02; exact J0). destruct R21 as (_ & l & h & PP).
    assert (exists lx, events w' = x_log (w_x w2) ++ lx) as (lx & EV).
    { unfold events. destruct W as [(-> & _)|(_ & -> & _)].
      - destruct (stopped_log o w1) as (l3 & -> & _). rewrite (pr_log _ _ _ _ _ PP), <- app_assoc. cbn. eauto.
      - destruct (stopped_log o (cancelled_now w1)) as (l3 & -> & _). cbn. rewrite (pr_log _ _ _ _ _ PP), <- app_assoc. cbn. eauto. }
    rewrite EV in EL. destruct (split_after _ _ _ _ EL) as (B1 & ->); [unfold mk in *; congruence|].
    destruct (x_rc (w_x w2)) as [z|] eqn:Z; [|congruence]. apply (NCo z). apply in_or_app. left. apply (xi_rc _ (proj1 J2)). exact Z.
  - destruct D as [->|[->|(e & -> & RE)]]; [|destruct (TC eq_refl); auto|eauto].
    destruct W as [(-> & -> & _)|(Q & _)]; [|discriminate]. cbn in *.
    assert (Q : exit_value o w1 false = Ok false) by (unfold exit_value; now rewrite T1, andb_false_r). rewrite Q in *.
    destruct CR as [CR|CR]; auto; [discriminate| |eauto]. clear -C1. unfold stopped, upd_x, audit. cbn. destruct (o_audit_callback o); exact C1.
  - destruct D as [->|(e & -> & RE)]; [destruct (TC eq_refl); auto|]. eauto.
Qed.
Lemma runb_split r w' : run_command_bsd fresh r w' ->
  (exists w0, aenter_bsd fresh (Ok tt) w0 /\ leaveb w0 r w') \/ (exists e, r = Err e /\ aenter_bsd fresh (Err e) w').
Proof.
  intros [([] & w1 & [([] & w0 & H1 & (rb & wb & [-> ->] & H2))|(e & _ & Q)] & H3)|(e & [([] & w0 & H1 & (rb & wb & [-> ->] & H2))|(e' & H & Q)] & ->)]; try discriminate.
  - left. exists w0. split; [exact H1|]. destruct H2 as [(b & w2 & H2 & [_ ->])|(e & _ & Q)]; [|discriminate]. left. exists b, w2. auto.
  - left. exists w0. split; [exact H1|]. destruct H2 as [(b & w2 & H2 & [Q _])|(e' & H2 & Q)]; [discriminate|]. injection Q as <-. right. eauto.
  - injection Q as <-. right. eauto.
Qed.
Theorem successb v w' : o_catch_cancelled o = false -> run_command_bsd fresh (Ok v) w' ->
  ~ In LExpired (events w') /\ ~ early_cancel (events w').
Proof.
  intros CC H. apply runb_split in H as [(w0 & HE & HL)|(e & Q & _)]; [|discriminate].
  assert (NX : ~ In LExpired (events w')). { intros Y. destruct (timeoutb_outcome _ _ _ CC HE HL Y) as [Q|(e & Q & _)]; discriminate. }
  split; [exact NX|]. intros X. destruct (cancelb_outcome _ _ _ CC HE HL X NX) as [Q|[Q|(e & Q & _)]]; discriminate.
Qed.
(** ** Errors from the body *)
Theorem bodyb_error w0 w1 e r w' : aenter_bsd fresh (Ok tt) w0 -> any_body w0 (Err e) w1 ->
  bindM (aexit_bsd (Some e)) (fun suppress : bool => if suppress then ret tt else raise e) w1 r w' ->
  ((exists s, In (LExit s) (events w')) \/ In (LSent SIGKILL) (events w'))
  /\ (r = Err e
      \/ (r = Ok tt /\ (e = CancelledError \/ (marks (events w1) < marks (events w'))%nat))
      \/ (r = Err TimeoutError /\ In LExpired (events w') /\ o_catch_cancelled o = false)
      \/ exists e', r = Err e' /\ run_errors w' e').
Proof.
  intros HE HB HX.
  pose proof HE as HE2. apply aenterb_cases in HE as [wa P PR Mk0 -> _|e0 Q _]; [|discriminate].
  destruct (bodyb_ready _ _ _ _ _ P PR HB) as (J1 & PR1 & R1).
  destruct (enterb_state _ HE2) as (_ & _ & _ & C0 & _).
  assert (CC1 : x_cancelled (w_x w1) = false).
  { eapply (body_stable o ext (fun w => x_cancelled (w_x w) = false)); [|intros u k Q; exact Q|exact HB|exact C0].
    apply (stable_x rstep rfinish (fun x => x_cancelled x = false)).
    - intros x e1 x' b H Q. destruct (rstep_frame _ _ _ _ _ Q) as (l & F & _). now rewrite (fr_canc _ _ _ F).
    - intros x t r0 x' H Q. now rewrite (fr_canc _ _ _ (rfinish_frame _ _ _ _ _ Q)). }
  assert (S : exists ra, aexit_bsd (Some e) w1 ra w' /\ r = match ra with Err e => Err e | Ok true => Ok tt | Ok false => Err e end).
  { destruct HX as [(b & w2 & H1 & H2)|(e2 & H1 & ->)]; [|exists (Err e2); now split]. exists (Ok b). destruct b; destruct H2 as [-> ->]; auto. }
  destruct S as (ra & HA & ->). clear HX. destruct (aexitb_world2 _ _ _ _ _ _ HA) as (rf & w2 & HF & W).
  destruct (finishb_reg _ _ _ _ _ _ HF J1 PR1) as [R2 D2]. assert (J2 : J w2) by (apply R2; exact J1).
  assert (ML : (mk w2 <= marks (events w'))%nat).
  { unfold mk, events. destruct W as [(-> & _)|(_ & -> & _)].
    - destruct (stopped_log o w2) as (l & -> & _). rewrite marks_app. lia.
    - destruct (stopped_log o (cancelled_now w2)) as (l & -> & _). rewrite marks_app. cbn. lia. }
  split.
  { destruct (dead_events ext _ J2 D2) as [(s & Q)|Q]; [left; exists s|right]; destruct W as [(-> & _)|(_ & -> & _)]; now apply stopped_has. }
  assert (XP : x_timed_out (w_x w2) = true -> In LExpired (events w')).
  { intros Q. apply (xi_timed _ (proj1 J2)) in Q. destruct W as [(-> & _)|(_ & -> & _)]; now apply stopped_has. }
  destruct (finishb_cases _ _ _ _ _ _ HF PR1) as [e2 w3 rk rc Q H1 H2 HQ|w3 rk rc Q _ _ _]; [|discriminate]. injection Q as <-.
  assert (R0 : reg w1 (if is_cancelled e then cancelled_now w1 else w1)) by (destruct (is_cancelled e); [apply cancelled_now_reg|apply reg_refl]).
  assert (Ja : J (if is_cancelled e then cancelled_now w1 else w1)) by (apply R0; exact J1). assert (Pa := reg_proc _ _ _ _ R0 PR1).
  destruct (kill_spec o ext _ _ _ H1 Ja Pa) as (Rk & _). destruct (kill_more o ext _ _ _ H1 Ja Pa) as (KC & KE).
  assert (J3 : J w3) by (apply Rk; exact Ja). assert (P3 := reg_proc _ _ _ _ Rk Pa).
  destruct (close_spec _ _ _ _ _ _ H2 J3 P3) as (R3 & _ & _).
  assert (EV : forall u b, (u = w2 \/ u = cancelled_now w2) -> exit_value o u b = Ok b \/ (exit_value o u b = Err TimeoutError /\ In LExpired (events w') /\ o_catch_cancelled o = false)).
  { intros u b U. unfold exit_value. destruct (x_cancelled (w_x u)), (x_timed_out (w_x u)) eqn:T, (o_catch_cancelled o); cbn; auto.
    right. repeat split. apply XP. destruct U as [->| ->]; exact T. }
  destruct W as [(-> & -> & NC)|(-> & -> & ->)].
  - destruct rf as [b|e'].
    + destruct (EV w2 b (or_introl eq_refl)) as [->|(-> & X1 & X2)]; [|right; right; left; now split]. destruct b; [|now left]. right; left. split; [reflexivity|].
      destruct rc as [[]|]; [|discriminate]. destruct rk as [[]|]; [|discriminate]. injection HQ as HQ. symmetry in HQ.
      destruct (KC HQ) as [Q|Q].
      * destruct (is_cancelled e) eqn:IC; [left; now destruct e|]. congruence.
      * right. pose proof (reg_mk _ _ _ _ R3). assert (mk (if is_cancelled e then cancelled_now w1 else w1) = mk w1) by now destruct (is_cancelled e). change (marks (events w1)) with (mk w1). lia.
    + right; right; right. exists e'. split; [reflexivity|]. change (run_errors w2 e'). destruct rc as [[]|ec].
      * destruct rk as [[]|ek]; [discriminate|]. injection HQ as ->. destruct (KE ek eq_refl) as [(-> & _)|[->|[->|EE]]]; [congruence|now left|right; now left|].
        eapply run_errors_reg; [exact R3|]. right; right. exact EE.
      * injection HQ as ->. destruct (close_errs _ _ _ _ _ _ _ H2 J3 P3 eq_refl) as [->|EE]; [congruence|exact EE].
  - destruct (EV (cancelled_now w2) false (or_intror eq_refl)) as [->|(-> & X1 & X2)]; [now left|right; right; left; now split].
Qed.

(** ** The polling loop *)
Lemma poll_now (w : world) s :
  x_exit (w_x w) = Some s -> x_reaped (w_x w) = false -> x_watch (w_x w) = None -> x_rc (w_x w) = None ->
  (exists w', wait_pid o ext w (Ok tt) w')
  /\ forall r w', wait_pid o ext w r w' -> r = Ok tt /\ x_rc (w_x w') = Some s /\ events w' = events w ++ [LCollect s].
Proof.
  intros E R W N. assert (PS : poll_status (w_x w) = Some s) by (unfold poll_status, waitpid_status; rewrite W, E, R; reflexivity).
  set (w1 := upd_x w (collect_status s)).
  assert (P : forall r w', poll_wait_pid_bsd w r w' -> r = Ok true /\ w' = w1).
  { intros r w' H. apply i_getx in H. rewrite N in H. apply i_getx in H. rewrite PS in H. apply i_modx in H. exact H. }
  split.
  - exists w1, 0%nat. left. exists true, w1. split; [|split; reflexivity]. left. exists None, w. split; [split; [now rewrite N|reflexivity]|].
    left. exists (Some s), w. split; [split; [now rewrite PS|reflexivity]|]. left. exists tt, w1. split; split; reflexivity.
  - intros r w' (n & H). assert (H1 : r = Ok tt /\ w' = w1).
    { destruct n; cbn [wait_pid_loop] in H; destruct H as [(b & wb & H & H2)|(e & H & _)]; apply P in H as [Q ->]; try discriminate Q; injection Q as ->; exact H2. }
    destruct H1 as [-> ->]. split; [reflexivity|]. unfold w1, upd_x, events, collect_status. cbn. rewrite W. split; reflexivity.
Qed.
Lemma wait_pid_ends (w : world) r w' : wait_pid o ext w r w' -> J w ->
  (r = Ok tt /\ exists z, In (LCollect z) (events w')) \/ (r = Err CancelledError /\ (marks (events w') > marks (events w))%nat).
Proof.
  intros (n & H) HJ. apply loop_run in H as (K & O & E). pose proof (KP_J _ _ _ _ K HJ) as HJ'. destruct r as [[]|e].
  - left. split; [reflexivity|]. destruct (O eq_refl) as [_ RC]. destruct (x_rc (w_x w')) as [z|] eqn:Z; [|congruence]. exists z. now apply (xi_rc _ (proj1 HJ')).
  - right. destruct (E e eq_refl) as [-> Lt]. split; [reflexivity|exact Lt].
Qed.
End R.
