From Verif Require Import AsyncModel AsyncSpec AsyncProofs HarvestModel HarvestSpec HarvestProofs HarvestProofs2 AsyncInv
  RunnerModel RunnerSpec RunnerProofs RunnerProofs2 RunnerProofs3 RunnerProofs4 RunnerProofs5 RunnerProofs6 RunnerProofs7
  RunnerProofs8 RunnerProofs9 RunnerProofs10 RunnerProofs11 CopySpec CopyProofs CopyProofs2 IterModel IterProofs AwaitModel AwaitProofs.
Open Scope Z_scope.

Section R.
Context (o : opts) (piped_stdin use_pty : bool) (out_bytes err_bytes : option bytes) (enc : text).
Notation ext := false.
Notation world := (world rx rkind unit).
Notation rstep := (rstep o).
Notation rfinish := (rfinish ext).
Notation aenter := (aenter o ext use_pty out_bytes err_bytes enc).
Notation aexit := (aexit o ext piped_stdin).
Notation body_steps := (body_steps o ext).
Notation leave_with := (leave_with o ext piped_stdin).

(** A task of the runner that nobody has asked to end. *)
Definition unasked (i : nat) (w : world) : Prop := In i (x_tasks (w_x w)) /\ exists t, nth_error (w_tasks w) i = Some t /\ t_creq t = 0%nat.
Lemma unasked_body i w w' : body_steps w w' -> unasked i w -> unasked i w'.
Proof.
  intros H. induction H as [w|w ev w1 c w2 E _ IH|w w1 w2 E _ IH]; intros (I & t & N & C); [now split; eauto| |].
  - apply IH. split.
    + destruct (env_step_reg o ext _ _ _ _ E) as (_ & l & h & R). rewrite (fr_tasks _ _ _ (er_frame _ _ _ _ _ R)). exact I.
    + destruct ev as [j r|e]; cbn in E.
      * destruct (nth_error (w_tasks w) j) as [tj|] eqn:Ej; [|discriminate]. destruct (t_out tj) eqn:Eo; [discriminate|].
        destruct (rfinish (w_x w) tj r); [|discriminate]. injection E as <- <-. cbn. destruct (Nat.eq_dec i j) as [->|NE].
        -- rewrite N in Ej. injection Ej as <-. eexists. split; [eapply nth_upd_same; exact N|]. exact C.
        -- exists t. split; [rewrite nth_upd_other; [exact N|congruence]|exact C].
      * destruct (rstep (w_x w) e) as [[x' []]|]; [| |discriminate]; injection E as <- _; eauto.
  - apply add_task_run in E as [_ ->]. apply IH. split; [cbn; apply in_app_iff; now left|]. exists t. split; [|exact C]. cbn. rewrite nth_error_app1; [exact N|]. apply nth_error_Some. congruence.
Qed.

Theorem leave_completes w0 w1 w' : aenter fresh (Ok tt) w0 -> body_steps w0 w1 -> leave_with (Ok tt) w1 (Ok tt) w' ->
  marks (events w') = 0%nat -> only_shellous_cancels w' ->
  forall i, In i (x_tasks (w_x w0)) -> exists u, task_out w' i = Some (TValue u).
Proof.
  intros HE HB HX MK OS i Hi. pose proof (entered_new _ _ _ _ _ _ HE) as NT.
  assert (U : unasked i w1). { eapply unasked_body; [exact HB|]. split; [exact Hi|]. destruct (NT i Hi) as (k & N). eexists. split; [exact N|reflexivity]. }
  apply aenter_cases in HE as [wa P PR Mk0 -> _|e0 wa _ _ (e' & Q) _ _]; [|discriminate].
  destruct (body_ready o ext _ (Ok tt) _ P PR HB) as (J1 & PR1 & W1 & R1).
  assert (HA : exists b, aexit None w1 (Ok b) w').
  { destruct HX as [(b & w2 & H1 & [_ ->])|(e2 & _ & Q)]; [|discriminate]. eauto. }
  destruct HA as (b & HA). destruct (aexit_world2 _ _ _ _ _ _ _ HA) as (rf & w2 & HF & W).
  assert (M2 : mk w2 = 0%nat).
  { unfold mk, events in *. destruct W as [(-> & _)|(_ & -> & _)].
    - destruct (stopped_log o w2) as (l & E & _). rewrite E, marks_app in MK. lia.
    - destruct (stopped_log o (cancelled_now w2)) as (l & E & _). rewrite E, marks_app in MK. cbn in MK. lia. }
  assert (TS : forall j, nth_error (w_tasks w') j = nth_error (w_tasks w2) j).
  { intros j. destruct W as [(-> & _)|(_ & -> & _)]; reflexivity. }
  destruct (finish_cases _ _ _ _ _ _ _ HF PR1) as [e w3 rk rc Q _ _ _|w3 rk rc _ H1 H2 Q]; [discriminate|].
  assert (R3 : reg o ext w1 w3) by (eapply wait_reg; eauto). assert (J3 : J ext w3) by (apply R3; exact J1). assert (P3 := reg_proc _ _ _ _ R3 PR1).
  destruct (close_spec _ _ _ _ _ _ H2 J3 P3) as (R4 & _ & CE). pose proof (reg_mk _ _ _ _ R4) as M4.
  destruct (wait_cases _ _ _ _ _ H1 J1 PR1) as [-> H0|wb H0 MB HK|e wb rk' H0 FF EX HK ->].
  - destruct (opt_harvest_waiter _ _ _ _ _ H0 W1 J1 eq_refl) as [RC _].
    destruct (close_KP _ _ _ _ _ _ H2 P3) as [K|K]; [|congruence].
    destruct U as (I1 & t1 & N1 & C1).
    unfold RunnerProofs4.opt_harvest in H0. destruct (x_tasks (w_x w1)) as [|a ts] eqn:TT; [destruct I1|].
    assert (Hne : map (@AwTask rkind) (a :: ts) <> []) by discriminate.
    destruct (harvest_ok_no_req _ _ _ _ _ _ _ H0 Hne) as (h & HH & NR & _ & (wz & E0 & E1) & D).
    rewrite managed_tasks in D. destruct (D i I1) as [D1 NF].
    destruct E0 as (_ & E0 & _). destruct (E0 i _ N1) as (t2 & N2 & _ & _ & C2).
    destruct E1 as (_ & E1 & _). destruct (E1 i _ N2) as (t3 & N3 & _ & _ & C3).
    assert (CR : t_creq t3 = 0%nat).
    { rewrite C3, C2, C1. cbn. destruct (reqs i h) eqn:Z; [reflexivity|]. elim (NR i). apply reqs_In. lia. }
    unfold task_done, task_out in D1. rewrite N3 in D1. destruct (t_out t3) as [q|] eqn:T3; [|discriminate].
    assert (NE : t_out t3 <> None) by congruence.
    assert (N4 : nth_error (w_tasks w2) i = Some t3) by exact (K _ (ended_stable o i t3 NE) N3).
    unfold task_out in NF |- *. rewrite TS, N4. rewrite N3 in NF. destruct q as [u|e|].
    + exists u. exact T3.
    + elim (NF e). exact T3.
    + elim (OS i t3); [now rewrite TS|exact T3|exact CR].
  - exfalso. assert (Ra : reg o ext wb (cleared (cancelled_now wb))) by (eapply reg_trans; [apply cancelled_now_reg|apply cleared_reg]).
    pose proof (r_opt_harvest _ _ _ _ _ _ _ H0) as R0.
    destruct (kill_spec o ext _ _ _ HK) as (Rk & _); [apply Ra, R0, J1|exact (reg_proc _ _ _ _ Ra (reg_proc _ _ _ _ R0 PR1))|].
    pose proof (reg_mk _ _ _ _ Ra). pose proof (reg_mk _ _ _ _ Rk). lia.
  - exfalso. assert (Ra : reg o ext wb (cleared wb)) by apply cleared_reg.
    pose proof (r_opt_harvest _ _ _ _ _ _ _ H0) as R0.
    assert (Ja : J ext (cleared wb)) by (apply Ra, R0, J1). assert (Pa := reg_proc _ _ _ _ Ra (reg_proc _ _ _ _ R0 PR1)).
    assert (NC : (match rk' with Ok _ => Err e | Err e' => Err e' end : res unit) <> Err CancelledError).
    { destruct rk' as [u|e']; intros [= ->]; [discriminate|]. assert (M : (mk (cleared wb) < mk w3)%nat) by (eapply kill_mk; try exact (fun _ _ => None); eauto). pose proof (reg_mk _ _ _ _ Ra). lia. }
    assert (RF : exists x, rf = Err x /\ x <> CancelledError).
    { destruct rc as [[]|ec].
      - destruct rk' as [u|e']; rewrite Q; eexists; (split; [reflexivity|]); intros ->; now apply NC.
      - rewrite Q. eexists. split; [reflexivity|]. intros ->. destruct CE as [(_ & Q2 & _)|(_ & _ & ER)]; [discriminate|].
        destruct (ER _ eq_refl) as [(_ & Q2)|[Q2|(Q2 & _)]]; [lia|discriminate|discriminate]. }
    destruct RF as (x & -> & NX). destruct W as [(_ & Q2 & _)|(Q2 & _)]; [discriminate|congruence].
Qed.
End R.
