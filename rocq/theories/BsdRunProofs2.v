From Verif Require Import AsyncModel AsyncSpec AsyncProofs HarvestModel HarvestSpec HarvestProofs HarvestProofs2 AsyncInv
  RunnerModel RunnerSpec RunnerProofs RunnerProofs2 RunnerProofs3 RunnerProofs4 RunnerProofs5 RunnerProofs6 RunnerProofs7 RunnerProofs8 RunnerProofs9
  BsdRunModel BsdRunProofs.
Open Scope Z_scope.

Section R.
Context (o : opts) (ext : bool) (out_bytes err_bytes : option bytes) (enc : text).
Notation world := (world rx rkind unit).
Notation M := (@M rx rkind unit).
Notation rstep := (rstep o).
Notation rfinish := (rfinish ext).
Notation kill := (kill o ext).
Notation close := (close o ext false).
Notation J := (J ext).
Notation reg := (reg o ext).
Notation opt_harvest := (opt_harvest o ext).
Notation KP := (KP o ext).
Notation pre := (pre o ext).
Notation begun := (begun o).
Notation wait_bsd := (wait_bsd o ext).
Notation finish_bsd := (finish_bsd o ext).
Notation aexit_bsd := (aexit_bsd o ext).
Notation aenter_bsd := (aenter_bsd o ext out_bytes err_bytes enc).
Notation with_run_bsd := (with_run_bsd o ext out_bytes err_bytes enc).
Notation any_body := (any_body o ext).
Notation enteredb := (enteredb o).

(** ** The exit status has been collected *)
Lemma off_rc w : x_rc (w_x (off w)) = x_rc (w_x w).
Proof. reflexivity. Qed.
Lemma waitb_collects w r w' : wait_bsd w r w' -> J w -> x_proc (w_x w) = true -> ext = false ->
  x_rc (w_x w') <> None \/ disturbed (x_log (w_x w')) \/ r = Err cancel_failed \/ r = Err unable_to_kill.
Proof.
  intros H HJ PR E. destruct (waitb_cases _ _ _ _ _ H HJ PR) as [w1 w2 _ _ _ _ RC ->|w1 R1 _ _ H2|e w1 rk H1 _ _ H2 Q].
  - left. exact RC.
  - assert (R2 : reg w (cleared (cancelled_now w1))).
    { eapply reg_trans; [exact R1|]. eapply reg_trans; [apply cancelled_now_reg|apply cleared_reg]. }
    apply (kill_spec o ext _ _ _ H2); [apply R2; exact HJ|exact (reg_proc _ _ _ _ R2 PR)|exact E].
  - pose proof (r_opt_harvest _ _ _ _ _ _ _ H1) as R1.
    assert (R2 : reg w (cleared w1)) by (eapply reg_trans; [exact R1|apply cleared_reg]).
    destruct (kill_spec o ext _ _ _ H2) as (_ & _ & C & _); [apply R2; exact HJ|exact (reg_proc _ _ _ _ R2 PR)|].
    destruct (C E) as [C1|[C1|[->| ->]]]; auto.
Qed.
Lemma finishb_collects exc w r w' : finish_bsd exc w r w' -> J w -> x_proc (w_x w) = true -> ext = false ->
  x_rc (w_x w') <> None \/ disturbed (x_log (w_x w')) \/ r = Err cancel_failed \/ r = Err unable_to_kill.
Proof.
  intros H HJ PR E. destruct (finishb_cases _ _ _ _ _ _ H PR) as [e w1 rk rc _ H1 H2 Q|w1 rk rc _ H1 H2 Q].
  - assert (R0 : reg w (if is_cancelled e then cancelled_now w else w)) by (destruct (is_cancelled e); [apply cancelled_now_reg|apply reg_refl]).
    destruct (kill_spec o ext _ _ _ H1) as (R1 & _ & C & _); [apply R0; exact HJ|exact (reg_proc _ _ _ _ R0 PR)|].
    assert (R : reg w w1) by (eapply reg_trans; eauto).
    destruct (close_spec _ _ _ _ _ _ H2) as (R2 & _ & CL); [apply R; exact HJ|exact (reg_proc _ _ _ _ R PR)|].
    destruct (rc_dec (x_rc (w_x w1))) as [N|N]; [|left; eapply reg_rc; eauto].
    destruct CL as [(_ & -> & _)|(Q2 & _)]; [|congruence].
    destruct (C E) as [C1|[C1|[->| ->]]]; [congruence| |auto|auto]. right; left. eapply reg_disturbed; eauto.
  - assert (R : reg w w1) by (eapply waitb_reg; eauto).
    destruct (close_spec _ _ _ _ _ _ H2) as (R2 & _ & CL); [apply R; exact HJ|exact (reg_proc _ _ _ _ R PR)|].
    destruct (rc_dec (x_rc (w_x w1))) as [N|N]; [|left; eapply reg_rc; eauto].
    destruct CL as [(_ & -> & _)|(Q2 & _)]; [|congruence].
    destruct (waitb_collects _ _ _ H1 HJ PR E) as [C1|[C1|[->| ->]]]; [congruence| |auto|auto]. right; left. eapply reg_disturbed; eauto.
Qed.
Theorem status_collectedb r w' : ext = false -> with_run_bsd any_body fresh r w' -> In LSpawn (events w') -> ~ In LAbort (events w') ->
  ~ disturbed (events w') -> (exists z, In (LCollect z) (events w')) \/ gave_up r.
Proof.
  intros E H SP NA ND. pose proof (runb_J o ext out_bytes err_bytes enc _ _ H) as HJ.
  enough (G : x_rc (w_x w') <> None \/ gave_up r \/ exists z, In (LCollect z) (events w')).
  { destruct G as [G|[G|G]]; [left|now right|now left]. destruct (x_rc (w_x w')) as [z|] eqn:Z; [|congruence]. exists z. now apply (xi_rc _ (proj1 HJ)). }
  destruct (with_runb_cases o ext out_bytes err_bytes enc _ _ _ H) as [e0 -> EC|w0 w1 rb re P PR Mk HB HX RR].
  - right. destruct (status_collected _ _ _ _ _ _ _ _ _ E EC SP NA ND); auto.
  - destruct (bodyb_ready _ _ _ _ _ P PR HB) as (J1 & PR1 & R1).
    destruct (aexitb_cases _ _ _ _ _ _ HX) as [w2 b HF EW ER|w2 HF EW ER|w2 e HF N EW ER];
      destruct (finishb_collects _ _ _ _ HF J1 PR1 E) as [C|[C|[C|C]]]; try discriminate C; subst w'; subst re;
      try (left; rewrite (proj1 (proj2 (proj2 (stopped_x o _)))); exact C);
      try (elim ND; apply stopped_disturbed; exact C); injection C as ->; right; left; [left|right; left]; exact RR.
Qed.

(** ** A run in which nothing fails *)
Lemma canc_stable (b : bool) : stable rstep rfinish (fun w => x_cancelled (w_x w) = b).
Proof.
  apply (stable_x rstep rfinish (fun x => x_cancelled x = b)).
  - intros x e x' c H Q. destruct (rstep_frame _ _ _ _ _ Q) as (l & F & _). now rewrite (fr_canc _ _ _ F).
  - intros x t r0 x' H Q. now rewrite (fr_canc _ _ _ (rfinish_frame _ _ _ _ _ Q)).
Qed.
Lemma waitb_fine w r w' : wait_bsd w r w' -> J w -> x_proc (w_x w) = true -> mk w' = mk w -> tasks_fine w' ->
  r = Ok tt /\ x_rc (w_x w') <> None /\ exists w2, KP w w2 /\ w' = off w2.
Proof.
  intros H HJ PR Mk TF. destruct (waitb_cases _ _ _ _ _ H HJ PR) as [w1 w2 -> H1 K _ RC ->|w1 R1 Lt _ H2|e w1 rk H1 FF _ H2 ->].
  - split; [reflexivity|]. split; [exact RC|]. exists w2. split; [|reflexivity]. eapply KP_trans; [eapply KP_opt; exact H1|exact K].
  - exfalso. assert (R2 : reg w1 (cleared (cancelled_now w1))) by (eapply reg_trans; [apply cancelled_now_reg|apply cleared_reg]).
    assert (R3 : reg (cleared (cancelled_now w1)) w').
    { apply (kill_spec o ext _ _ _ H2); [apply R2, R1, HJ|exact (reg_proc _ _ _ _ R2 (reg_proc _ _ _ _ R1 PR))]. }
    pose proof (reg_mk _ _ _ _ (reg_trans _ _ _ _ _ R2 R3)). lia.
  - exfalso. pose proof (r_opt_harvest _ _ _ _ _ _ _ H1) as R1. assert (R2 : reg w1 (cleared w1)) by apply cleared_reg.
    assert (R3 : reg (cleared w1) w').
    { apply (kill_spec o ext _ _ _ H2); [apply R2, R1, HJ|exact (reg_proc _ _ _ _ R2 (reg_proc _ _ _ _ R1 PR))]. }
    pose proof (reg_trans _ _ _ _ _ R2 R3) as R4. pose proof (reg_mk _ _ _ _ R4). pose proof (reg_mk _ _ _ _ R1).
    assert (TF1 : tasks_fine w1) by (intros e' Q; apply (TF e'); eapply reg_failed; eauto).
    unfold RunnerProofs4.opt_harvest in H1. destruct (x_tasks (w_x w)) as [|i ts]; [destruct H1 as [Q _]; discriminate|].
    assert (Q : Err e = Ok tt :> res unit) by (eapply harvest_fine; [exact H1|discriminate|exact HJ|lia|exact TF1]). discriminate.
Qed.
Lemma aexitb_world2 exc w r w' : aexit_bsd exc w r w' -> exists rf w1, finish_bsd exc w rf w1
  /\ ((w' = stopped o w1 /\ r = match rf with Ok b => exit_value o w1 b | Err e => Err e end /\ rf <> Err CancelledError)
      \/ (rf = Err CancelledError /\ w' = stopped o (cancelled_now w1) /\ r = exit_value o (cancelled_now w1) false)).
Proof.
  intros H. apply aexitb_cases in H as [w1 b H1 -> ->|w1 H1 -> ->|w1 e H1 N -> ->]; eexists _, w1; (split; [exact H1|]); auto.
  - left. repeat split. discriminate.
  - left. repeat split. congruence.
Qed.
Theorem normal_runb w0 w1 w' r : aenter_bsd fresh (Ok tt) w0 -> any_body w0 (Ok tt) w1 -> aexit_bsd None w1 r w' ->
  marks (events w') = 0%nat -> tasks_fine w' -> ~ In LUser (events w') ->
  (forall e, In e (events w') -> ~ is_signal e /\ ~ is_sent e /\ e <> LClosed)
  /\ (exists z, In (LCollect z) (events w'))
  /\ r = Ok false.
Proof.
  intros HE HB HX Mk TF NU.
  apply aenterb_cases in HE as [wa P PR Mk0 -> _|e Q _]; [|discriminate].
  destruct (bodyb_ready _ _ _ _ _ P PR HB) as (J1 & PR1 & R1). destruct (enteredb_x o wa) as (EL0 & _ & _ & EC0 & _).
  assert (NS1 : no_sig (w_x w1)).
  { eapply (body_stable _ _ _ _ _ (no_sig_stable o ext)); [intros u k Q; exact Q|exact HB|].
    pose proof (pre_nosig _ _ _ P) as N. unfold no_sig in *. rewrite EL0. exact N. }
  assert (SO1 : sent_ok (w_x w1)).
  { eapply (body_stable _ _ _ _ _ (sent_ok_stable o ext)); [intros u k Q; exact Q|exact HB|].
    unfold sent_ok. rewrite EL0. apply (pre_keeps _ _ _ _ P _ (sent_ok_closed o ext) (begun_sent o)). }
  assert (CC : x_cancelled (w_x w1) = false).
  { eapply (body_stable _ _ (fun w => x_cancelled (w_x w) = false)); [apply canc_stable|intros u k Q; exact Q|exact HB|].
    rewrite EC0. apply (pre_calm _ _ _ _ P). }
  destruct (aexitb_world2 _ _ _ _ HX) as (rf & w2 & HF & W).
  destruct (finishb_reg _ _ _ _ _ _ HF J1 PR1) as [R2 _].
  assert (MK2 : mk w2 = 0%nat).
  { unfold mk. unfold events in Mk. destruct W as [(-> & _)|(_ & -> & _)].
    - destruct (stopped_log o w2) as (l & Q & _). rewrite Q, marks_app in Mk. lia.
    - destruct (stopped_log o (cancelled_now w2)) as (l & Q & _). rewrite Q, marks_app in Mk. cbn in Mk. lia. }
  assert (TF2 : tasks_fine w2).
  { intros e (i & Q). apply (TF e). exists i. destruct W as [(-> & _)|(_ & -> & _)]; exact Q. }
  pose proof (reg_mk _ _ _ _ R2) as MM.
  destruct (finishb_cases _ _ _ _ _ _ HF PR1) as [e w3 rk rc Q _ _ _|w3 rk rc _ H1 H2 Q]; [discriminate|].
  assert (R3 : reg w1 w3) by (eapply waitb_reg; eauto). assert (J3 : J w3) by (apply R3; exact J1).
  assert (PR3 : x_proc (w_x w3) = true) by exact (reg_proc _ _ _ _ R3 PR1).
  destruct (close_spec _ _ _ _ _ _ H2 J3 PR3) as (R4 & _ & _).
  pose proof (reg_mk _ _ _ _ R3) as M3. pose proof (reg_mk _ _ _ _ R4) as M4.
  assert (TF3 : tasks_fine w3) by (intros e H; apply (TF2 e); eapply reg_failed; eauto).
  destruct (waitb_fine _ _ _ H1 J1 PR1) as (-> & RC3 & w4 & KW & E3); [lia|exact TF3|].
  destruct (close_fine _ _ _ _ _ _ H2 PR3 J3 RC3) as [RR KC]; [lia|exact TF2|].
  assert (K2 : forall Pr, stable rstep rfinish (fun w => Pr (w_x w)) -> (forall x, Pr x -> Pr (set_timer false x)) -> Pr (w_x w1) -> Pr (w_x w2)).
  { intros Pr S T A. apply (KC _ S). rewrite E3. apply T. exact (KW _ S A). }
  pose proof (K2 _ (no_sig_stable o ext) (fun x h => h) NS1) as NS2. pose proof (K2 _ (sent_ok_stable o ext) (fun x h => h) SO1) as SO2.
  pose proof (K2 (fun x => x_cancelled x = false) (canc_stable false) (fun x h => h) CC) as CC2. cbn in CC2.
  destruct RR as [->|(Q2 & _)]; [|discriminate].
  destruct W as [(-> & -> & _)|(Q2 & _)]; [|rewrite Q2 in Q; discriminate]. destruct (stopped_log o w2) as (l & EL & AL & _). unfold events in *. rewrite EL in *.
  assert (NU2 : ~ In LUser (x_log (w_x w2))) by (intros QQ; apply NU; apply in_piece; now left).
  assert (J2 : J w2) by (apply R2; exact J1).
  assert (NM : forall e, In e (x_log (w_x w2)) -> ~ meddled e).
  { intros e He [(s & ->)|[->| ->]].
    - apply NU2. apply (proj1 NS2). eauto.
    - destruct J2 as (X & _). apply (xi_abort _ X) in He. destruct (xi_noabort _ X (reg_proc _ _ _ _ R2 PR1)). congruence.
    - apply (proj1 (proj2 NS2) He). }
  split; [|split].
  - intros e He. apply in_piece in He as [He|He].
    + split; [|split].
      * intros (s & [->| ->]); apply NU2; [apply (proj1 NS2)|apply (proj2 (proj2 NS2))]; eauto.
      * intros (s & ->). destruct (SO2 s He) as (e & A & B). exact (NM e A B).
      * intros ->. exact (proj1 (proj2 NS2) He).
    + assert (exists f, e = LAudit (PStop f)) as (f & ->).
      { unfold stopped, audit in EL. cbn in EL. destruct (o_audit_callback o); cbn in EL.
        - apply app_inv_head in EL. subst l. destruct He as [<-|[]]. eauto.
        - assert (l = []) as -> by (apply (app_inv_head (x_log (w_x w2))); rewrite app_nil_r; now symmetry). destruct He. }
      split; [intros (s & [QQ|QQ]); discriminate|]. split; [intros (s & QQ); discriminate|discriminate].
  - pose proof (reg_rc _ _ _ _ R4 RC3) as RC2. destruct (x_rc (w_x w2)) as [z|] eqn:Z; [|congruence]. exists z.
    apply in_piece. left. apply (xi_rc _ (proj1 J2)). exact Z.
  - rewrite Q. unfold exit_value. now rewrite CC2.
Qed.
End R.
