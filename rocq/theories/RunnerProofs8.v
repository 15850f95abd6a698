From Verif Require Import AsyncModel AsyncSpec AsyncProofs HarvestModel HarvestSpec HarvestProofs HarvestProofs2 AsyncInv
  RunnerModel RunnerSpec RunnerProofs RunnerProofs2 RunnerProofs3 RunnerProofs4 RunnerProofs5 RunnerProofs6 RunnerProofs7.
Open Scope Z_scope.

Section R.
Context (o : opts) (ext piped_stdin use_pty : bool) (out_bytes err_bytes : option bytes) (enc : text).
Notation world := (world rx rkind unit).
Notation M := (@M rx rkind unit).
Notation rstep := (rstep o).
Notation rfinish := (rfinish ext).
Notation harvest := (harvest rstep rfinish).
Notation kill_wait := (kill_wait o ext).
Notation kill_body := (kill_body o ext).
Notation kill := (kill o ext).
Notation wait := (wait o ext).
Notation close := (close o ext piped_stdin).
Notation finish := (finish o ext piped_stdin).
Notation aexit := (aexit o ext piped_stdin).
Notation J := (J ext).
Notation reg := (reg o ext).
Notation envrel := (envrel o).
Notation opt_harvest := (opt_harvest o ext).
Notation aenter := (aenter o ext use_pty out_bytes err_bytes enc).
Notation with_run := (with_run o ext piped_stdin use_pty out_bytes err_bytes enc).
Notation any_body := (any_body o ext).
Notation pre := (pre o ext).
Notation entered := (entered o).
Notation begun := (begun o).
Notation kill_handler := (fun e => match e with
                 | CancelledError => Some (bindM set_cancelled (fun _ => kill_wait))
                 | TimeoutError => Some kill_wait
                 | _ => Some (bindM kill_wait (fun _ => raise e))
                 end).

(** ** The parts of _kill *)
Lemma kill_inv w r w' : kill w r w' -> x_proc (w_x w) = true -> tryM kill_body kill_handler w r w'.
Proof.
  intros H PR. unfold RunnerModel.kill in H.
  destruct H as [([] & w1 & H1 & H)|(e & H1 & _)]; apply i_getx in H1; rewrite PR in H1; destruct H1 as [Q ->]; [clear Q|discriminate].
  exact H.
Qed.
Inductive kill_case (w : world) (r : res unit) (w' : world) : Prop :=
| kc_ok : kill_body w (Ok tt) w' -> r = Ok tt -> kill_case w r w'
| kc_canc w1 : kill_body w (Err CancelledError) w1 -> kill_wait (cancelled_now w1) r w' -> kill_case w r w'
| kc_time w1 : kill_body w (Err TimeoutError) w1 -> kill_wait w1 r w' -> kill_case w r w'
| kc_fail e w1 rk : kill_body w (Err e) w1 -> e <> CancelledError -> e <> TimeoutError -> kill_wait w1 rk w' ->
    r = match rk with Ok _ => Err e | Err e' => Err e' end -> kill_case w r w'.
Lemma kill_cases w r w' : kill w r w' -> x_proc (w_x w) = true -> kill_case w r w'.
Proof.
  intros H PR. apply kill_inv in H; [|exact PR]. destruct H as [([] & H & ->)|(e & w1 & H & H2)]; [now apply kc_ok|].
  destruct e; try (apply i_then_raise in H2 as (rb & H2 & Q); eapply kc_fail; [exact H|discriminate|discriminate|exact H2|destruct rb; exact Q]).
  - now apply (kc_time _ _ _ w1).
  - apply i_modx in H2. now apply (kc_canc _ _ _ w1).
Qed.
Definition after_signal (w w1 : world) : Prop :=
  x_rc (w_x w) <> None /\ w1 = w \/ x_rc (w_x w) = None /\ w1 = upd_x w (signal_x o (o_cancel_signal o)).
Lemma kill_body_errs w e w' : kill_body w (Err e) w' -> J w -> x_proc (w_x w) = true ->
  e = TimeoutError \/ (e = CancelledError /\ (mk w < mk w')%nat) \/ e = cancel_failed \/ (is_Exception e = true /\ task_failed w' e).
Proof.
  intros H HJ PR. unfold RunnerProofs4.kill_body in H.
  assert (S1 : exists w1, reg w w1
    /\ bindM (bindM (getx x_tasks) (fun ts => opt_harvest ts true)) (fun _ =>
       bindM (getx x_rc) (fun rc => match rc with None => harvest [AwCoro KWaiter] true false | Some _ => ret tt end)) w1 (Err e) w').
  { destruct H as [([] & w1 & H1 & H2)|(e' & H1 & [= <-])]; apply i_getx in H1; destruct (x_rc (w_x w)) eqn:N.
    - destruct H1 as [_ ->]. exists w. split; [apply reg_refl|exact H2].
    - apply signal_run in H1 as [(_ & _ & ->)|(Q & _)]; [|congruence]. eexists. split; [|exact H2]. now apply signal_upd.
    - destruct H1 as [Q _]. discriminate.
    - apply signal_run in H1 as [(_ & Q & _)|(Q & _)]; [discriminate|congruence]. }
  destruct S1 as (w1 & R1 & S1). assert (J1 : J w1) by (apply R1; exact HJ). pose proof (reg_mk _ _ _ _ R1) as M1.
  destruct S1 as [([] & w2 & H1 & H2)|(e' & H1 & [= <-])]; apply i_getx in H1.
  - pose proof (r_opt_harvest _ _ _ _ _ _ _ H1) as R2. pose proof (reg_mk _ _ _ _ R2) as M2. assert (J2 : J w2) by (apply R2; exact J1).
    apply i_getx in H2. destruct (x_rc (w_x w2)); [destruct H2 as [Q _]; discriminate|].
    apply harvest_waiter_err in H2; [|exact J2]. destruct H2 as [->|[->|(-> & l & h & E & Mk)]]; auto.
    right; left. split; [reflexivity|]. rewrite (envrel_mk _ _ _ _ _ E). lia.
  - apply opt_harvest_errs in H1 as (_ & [(-> & _)|[(-> & Q)|[->|Q]]]); [auto| |auto|auto|exact J1].
    right; left. split; [reflexivity|lia].
Qed.
Lemma k_kill_wait_canc c : keeps (fun w => x_cancelled (w_x w) = c) kill_wait.
Proof.
  assert (S : stable rstep rfinish (fun w => x_cancelled (w_x w) = c)).
  { apply (stable_x rstep rfinish (fun x => x_cancelled x = c)).
    - intros x e x' b H Q. destruct (rstep_frame _ _ _ _ _ Q) as (l & F & _). now rewrite (fr_canc _ _ _ F).
    - intros x t r x' H Q. now rewrite (fr_canc _ _ _ (rfinish_frame _ _ _ _ _ Q)). }
  apply k_bind; [apply k_bind; [apply k_getx|intros; apply k_assert]|]. intros _. apply k_bind; [apply k_getx|]. intros [z|]; [apply k_ret|].
  apply k_try.
  - apply k_bind; [|intros; exact (k_harvest _ _ _ S _ _ _)]. apply k_bind; [apply k_bind; [apply k_getx|intros; apply k_assert]|].
    intros _ w r w' H [_ ->]. cbn. destruct (signal_fields o None (w_x w)) as (_ & _ & _ & _ & _ & _ & Q & _).
    change (x_cancelled (signal_x o None (w_x w)) = c). congruence.
  - intros e k. destruct e; try discriminate. intros [= <-]. apply k_bind; [|intros []; [apply k_ret|apply k_raise]].
    apply k_bind; [apply k_getx|]. intros [z|]; [apply k_ret|]. apply k_bind; [apply k_getx|]. intros [z|]; [|apply k_ret].
    apply k_bind; [|intros; apply k_ret]. intros w r w' H [_ ->]. exact H.
Qed.
Lemma kill_body_canc w r w' : kill_body w r w' -> x_cancelled (w_x w') = x_cancelled (w_x w).
Proof.
  intros H. set (c := x_cancelled (w_x w)). assert (C : x_cancelled (w_x w) = c) by reflexivity. clearbody c. revert w r w' C H.
  change (keeps (fun w => x_cancelled (w_x w) = c) kill_body).
  assert (S : stable rstep rfinish (fun w => x_cancelled (w_x w) = c)).
  { apply (stable_x rstep rfinish (fun x => x_cancelled x = c)).
    - intros x e x' b H Q. destruct (rstep_frame _ _ _ _ _ Q) as (l & F & _). now rewrite (fr_canc _ _ _ F).
    - intros x t r x' H Q. now rewrite (fr_canc _ _ _ (rfinish_frame _ _ _ _ _ Q)). }
  apply k_bind; [|intros _; apply k_bind; [|intros _]].
  - apply k_bind; [apply k_getx|]. intros [z|]; [apply k_ret|]. apply k_bind; [apply k_bind; [apply k_getx|intros; apply k_assert]|].
    intros _ w r w' H [_ ->]. destruct (signal_fields o (o_cancel_signal o) (w_x w)) as (_ & _ & _ & _ & _ & _ & Q & _).
    change (x_cancelled (signal_x o (o_cancel_signal o) (w_x w)) = c). congruence.
  - apply k_bind; [apply k_getx|]. intros [|i ts]; [apply k_ret|]. exact (k_harvest _ _ _ S _ _ _).
  - apply k_bind; [apply k_getx|]. intros [z|]; [apply k_ret|]. exact (k_harvest _ _ _ S _ _ _).
Qed.
(** What _kill raises, and when it records a cancellation. *)
Lemma kill_more w r w' : kill w r w' -> J w -> x_proc (w_x w) = true ->
  (x_cancelled (w_x w') = true -> x_cancelled (w_x w) = true \/ (mk w < mk w')%nat)
  /\ (forall e, r = Err e -> (e = CancelledError /\ disturbed (x_log (w_x w'))) \/ e = cancel_failed \/ e = unable_to_kill
       \/ (is_Exception e = true /\ task_failed w' e)).
Proof.
  intros H HJ PR. destruct (kill_cases _ _ _ H PR) as [HB ->|w1 HB HK|w1 HB HK|e w1 rk HB N1 N2 HK ->];
    pose proof (kill_body_canc _ _ _ HB) as CB; destruct (kill_body_spec o ext _ _ _ HB HJ PR) as (R1 & _).
  - split; [rewrite CB; auto|discriminate].
  - assert (R2 : reg w1 (cancelled_now w1)) by apply cancelled_now_reg. assert (R3 : reg w (cancelled_now w1)) by (eapply reg_trans; eauto).
    destruct (kill_wait_spec o ext _ _ _ HK) as (R4 & _ & _ & E4); [apply R3; exact HJ|exact (reg_proc _ _ _ _ R3 PR)|].
    destruct (kill_body_errs _ _ _ HB HJ PR) as [Q|[(_ & Q)|[Q|(Q & _)]]]; try discriminate Q.
    pose proof (reg_mk _ _ _ _ R4) as M4. change (mk (cancelled_now w1)) with (mk w1) in M4.
    split; [intros _; right; lia|]. intros e ->. destruct (E4 e eq_refl) as [[->|[->| ->]] D]; auto.
  - destruct (kill_wait_spec o ext _ _ _ HK) as (R4 & _ & _ & E4); [apply R1; exact HJ|exact (reg_proc _ _ _ _ R1 PR)|].
    split.
    + rewrite (k_kill_wait_canc (x_cancelled (w_x w1)) w1 _ _ eq_refl HK), CB. auto.
    + intros e ->. destruct (E4 e eq_refl) as [[->|[->| ->]] D]; auto.
  - destruct (kill_wait_spec o ext _ _ _ HK) as (R4 & _ & _ & E4); [apply R1; exact HJ|exact (reg_proc _ _ _ _ R1 PR)|].
    split.
    + rewrite (k_kill_wait_canc (x_cancelled (w_x w1)) w1 _ _ eq_refl HK), CB. auto.
    + intros e' Q. destruct rk as [[]|e2].
      * injection Q as <-. destruct (kill_body_errs _ _ _ HB HJ PR) as [Q|[(Q & _)|[Q|(Q & Q2)]]]; try congruence; auto.
        right; right; right. split; [exact Q|]. eapply reg_failed; eauto.
      * injection Q as <-. destruct (E4 e2 eq_refl) as [[->|[->| ->]] D]; auto.
Qed.

(** ** The exit status has been collected *)
Lemma stopped_disturbed w : disturbed (x_log (w_x w)) -> disturbed (x_log (w_x (stopped o w))).
Proof. intros D. destruct (stopped_log o w) as (l & -> & _). now apply disturbed_app. Qed.
Lemma wait_collects w r w' : wait w r w' -> J w -> WI w -> x_proc (w_x w) = true -> ext = false ->
  x_rc (w_x w') <> None \/ disturbed (x_log (w_x w')) \/ r = Err cancel_failed \/ r = Err unable_to_kill.
Proof.
  intros H HJ HW PR E. destruct (wait_cases _ _ _ _ _ H HJ PR) as [_ H1|w1 H1 _ H2|e w1 rk H1 _ _ H2 Q].
  - left. eapply opt_harvest_waiter; eauto.
  - pose proof (r_opt_harvest _ _ _ _ _ _ _ H1) as R1.
    assert (R2 : reg w (cleared (cancelled_now w1))).
    { eapply reg_trans; [exact R1|]. eapply reg_trans; [apply cancelled_now_reg|apply cleared_reg]. }
    apply (kill_spec o ext _ _ _ H2); [apply R2; exact HJ|exact (reg_proc _ _ _ _ R2 PR)|exact E].
  - pose proof (r_opt_harvest _ _ _ _ _ _ _ H1) as R1.
    assert (R2 : reg w (cleared w1)) by (eapply reg_trans; [exact R1|apply cleared_reg]).
    destruct (kill_spec o ext _ _ _ H2) as (_ & _ & C & _); [apply R2; exact HJ|exact (reg_proc _ _ _ _ R2 PR)|].
    destruct (C E) as [C1|[C1|[->| ->]]]; auto.
Qed.
Lemma finish_collects exc w r w' : finish exc w r w' -> J w -> WI w -> x_proc (w_x w) = true -> ext = false ->
  x_rc (w_x w') <> None \/ disturbed (x_log (w_x w')) \/ r = Err cancel_failed \/ r = Err unable_to_kill.
Proof.
  intros H HJ HW PR E. destruct (finish_cases _ _ _ _ _ _ _ H PR) as [e w1 rk rc _ H1 H2 Q|w1 rk rc _ H1 H2 Q].
  - assert (R0 : reg w (if is_cancelled e then cancelled_now w else w)) by (destruct (is_cancelled e); [apply cancelled_now_reg|apply reg_refl]).
    destruct (kill_spec o ext _ _ _ H1) as (R1 & _ & C & _); [apply R0; exact HJ|exact (reg_proc _ _ _ _ R0 PR)|].
    assert (R : reg w w1) by (eapply reg_trans; eauto).
    destruct (close_spec _ _ _ _ _ _ H2) as (R2 & _ & CL); [apply R; exact HJ|exact (reg_proc _ _ _ _ R PR)|].
    destruct (rc_dec (x_rc (w_x w1))) as [N|N]; [|left; eapply reg_rc; eauto].
    destruct CL as [(_ & -> & _)|(Q2 & _)]; [|congruence].
    destruct (C E) as [C1|[C1|[->| ->]]]; [congruence| |auto|auto]. right; left. eapply reg_disturbed; eauto.
  - assert (R : reg w w1) by (eapply wait_reg; eauto).
    destruct (close_spec _ _ _ _ _ _ H2) as (R2 & _ & CL); [apply R; exact HJ|exact (reg_proc _ _ _ _ R PR)|].
    destruct (rc_dec (x_rc (w_x w1))) as [N|N]; [|left; eapply reg_rc; eauto].
    destruct CL as [(_ & -> & _)|(Q2 & _)]; [|congruence].
    destruct (wait_collects _ _ _ H1 HJ HW PR E) as [C1|[C1|[->| ->]]]; [congruence| |auto|auto]. right; left. eapply reg_disturbed; eauto.
Qed.
Theorem status_collected r w' : ext = false -> with_run any_body fresh r w' -> In LSpawn (events w') -> ~ In LAbort (events w') ->
  ~ disturbed (events w') -> (exists z, In (LCollect z) (events w')) \/ gave_up r.
Proof.
  intros E H SP NA ND. pose proof (run_J o ext piped_stdin use_pty out_bytes err_bytes enc _ _ H) as HJ.
  assert (CH : x_child (w_x w') = true) by (apply (xi_spawn _ (proj1 HJ)); exact SP).
  enough (G : x_rc (w_x w') <> None \/ gave_up r).
  { destruct G as [G|G]; [left|now right]. destruct (x_rc (w_x w')) as [z|] eqn:Z; [|congruence]. exists z. now apply (xi_rc _ (proj1 HJ)). }
  destruct (with_run_cases o ext piped_stdin use_pty out_bytes err_bytes enc _ _ _ H) as [EC (e0 & E0)|w0 w1 rb re P PR Mk HB HX RR].
  - destruct EC as [wa _ _ _ _ Q|e wa SC -> Ex Eq Er]; [congruence|].
    destruct (failed_start_x o wa e) as (X1 & X2 & X3 & X4 & _). rewrite X3. rewrite X1 in CH.
    destruct (rc_dec (x_rc (w_x wa))) as [N|N]; [right|now left].
    destruct SC as [w1 P PR Mk Ew Q|e1 w1 rk P Ee HK Q]; [discriminate|].
    assert (R2 : reg w1 (if is_cancelled e1 then cancelled_now w1 else w1)) by (destruct (is_cancelled e1); [apply cancelled_now_reg|apply reg_refl]).
    destruct (x_proc (w_x w1)) eqn:PR.
    + destruct (kill_spec o ext _ _ _ HK) as (R3 & _ & C & _); [apply R2, (pre_J _ _ _ _ P)|exact (reg_proc _ _ _ _ R2 PR)|].
      assert (PW : x_proc (w_x wa) = true) by exact (reg_proc _ _ _ _ R3 (reg_proc _ _ _ _ R2 PR)).
      destruct Er as [->|Er].
      * destruct (C E) as [C1|[C1|[->| ->]]]; [congruence| |injection Q as ->; now left|injection Q as ->; right; now left].
        elim ND. unfold events. destruct (failed_start_log o wa e) as (l & -> & _). now apply disturbed_app.
      * right; right. unfold returncode in Er. rewrite X4, X3, PW, N in Er. cbn in Er. destruct r as [[]|e']; [destruct Ex; discriminate|]. now injection Er as <-.
    + exfalso. apply NA. destruct HK as [_ ->]. destruct (pre_J _ _ _ _ P) as (X & _).
      assert (CH1 : x_child (w_x w1) = true) by (destruct (is_cancelled e1); exact CH).
      destruct (xi_launch _ X CH1 PR) as [Q2|Q2]; [rewrite (pre_launch _ _ _ _ P) in Q2; discriminate|].
      apply (xi_abort _ X) in Q2. unfold events. destruct (failed_start_log o (if is_cancelled e1 then cancelled_now w1 else w1) e) as (l & -> & _).
      apply in_or_app. left. destruct (is_cancelled e1); exact Q2.
  - destruct (body_ready o ext _ _ _ P PR HB) as (J1 & PR1 & W1 & R1).
    destruct (aexit_cases _ _ _ _ _ _ _ HX) as [w2 b HF EW ER|w2 HF EW ER|w2 e HF N EW ER];
      destruct (finish_collects _ _ _ _ HF J1 W1 PR1 E) as [C|[C|[C|C]]]; try discriminate C; subst w'; subst re;
      try (left; rewrite (proj1 (proj2 (proj2 (stopped_x o _)))); exact C);
      try (elim ND; apply stopped_disturbed; exact C); injection C as ->; right; [left|right; left]; exact RR.
Qed.
End R.
