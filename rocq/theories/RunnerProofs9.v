From Verif Require Import AsyncModel AsyncSpec AsyncProofs HarvestModel HarvestSpec HarvestProofs HarvestProofs2 AsyncInv
  RunnerModel RunnerSpec RunnerProofs RunnerProofs2 RunnerProofs3 RunnerProofs4 RunnerProofs5 RunnerProofs6 RunnerProofs7 RunnerProofs8.
Open Scope Z_scope.

Section R.
Context (o : opts) (ext piped_stdin use_pty : bool) (out_bytes err_bytes : option bytes) (enc : text).
Notation world := (world rx rkind unit).
Notation M := (@M rx rkind unit).
Notation rstep := (rstep o).
Notation rfinish := (rfinish ext).
Notation harvest := (harvest rstep rfinish).
Notation kill_wait := (kill_wait o ext).
Notation kill_body := (kill_body o ext).
Notation kill := (kill o ext).
Notation wait := (wait o ext).
Notation close := (close o ext piped_stdin).
Notation finish := (finish o ext piped_stdin).
Notation aexit := (aexit o ext piped_stdin).
Notation J := (J ext).
Notation reg := (reg o ext).
Notation envrel := (envrel o).
Notation opt_harvest := (opt_harvest o ext).
Notation aenter := (aenter o ext use_pty out_bytes err_bytes enc).
Notation with_run := (with_run o ext piped_stdin use_pty out_bytes err_bytes enc).
Notation any_body := (any_body o ext).
Notation pre := (pre o ext).
Notation entered := (entered o).
Notation begun := (begun o).

(** ** A run in which nothing fails *)
(** Every kill() comes after something that explains it. *)
Definition sent_ok (x : rx) : Prop := forall s, In (LSent s) (x_log x) -> exists e, In e (x_log x) /\ meddled e.
Lemma in_piece {A} (a : A) l p : In a (l ++ p) <-> In a l \/ In a p.
Proof. apply in_app_iff. Qed.
Lemma sent_ok_frame x x' l : frame x x' l -> sent_ok x -> (forall s, In (LSent s) l -> exists e, In e l /\ meddled e) -> sent_ok x'.
Proof.
  intros F H L s. rewrite (fr_log _ _ _ F). intros Q. apply in_piece in Q as [Q|Q]; [apply H in Q|apply L in Q]; destruct Q as (e & A & B);
    exists e; (split; [|exact B]); apply in_piece; auto.
Qed.
Ltac nosent := let s := fresh in intros s; cbn; intuition discriminate.
Lemma env_piece_sent x l s : env_piece o x l -> In (LSent s) l -> exists e, In e l /\ meddled e.
Proof.
  intros [->|[->|[(g & ->)|[(g & ->)|[->|[->|[(l' & -> & L)|(IN & g & l' & -> & _ & L)]]]]]]] H;
    try (cbn in H; intuition discriminate).
  - exists LAbort. split; [now left|right; now left].
  - exists (LSignal g). split; [right; apply in_piece; right; now left|left; eauto].
Qed.
Lemma sent_ok_step x e x' c : sent_ok x -> rstep x e = Some (x', c) -> sent_ok x'.
Proof. intros H Q. destruct (rstep_frame _ _ _ _ _ Q) as (l & F & P & _). eapply sent_ok_frame; eauto. intros s. eapply env_piece_sent; eauto. Qed.
Lemma sent_ok_finish x t r x' : sent_ok x -> rfinish x t r = Some x' -> sent_ok x'.
Proof. intros H Q. eapply sent_ok_frame; [eapply rfinish_frame; eauto|exact H|]. intros s []. Qed.
Lemma sent_ok_stable : stable rstep rfinish (fun w => sent_ok (w_x w)).
Proof. apply stable_x; [apply sent_ok_step|apply sent_ok_finish]. Qed.
Lemma sent_ok_closed : closed o ext sent_ok.
Proof. constructor; auto; [apply sent_ok_step|apply sent_ok_finish]. Qed.

(** Signals come only from run.send_signal() and run.cancel(). *)
Definition no_sig (x : rx) : Prop := ((exists s, In (LSignal s) (x_log x)) -> In LUser (x_log x)) /\ ~ In LClosed (x_log x)
  /\ ((exists s, In (LAudit (PSignal s)) (x_log x)) -> In LUser (x_log x)).
Lemma no_sig_frame x x' l : frame x x' l -> no_sig x -> (forall s, In (LSignal s) l \/ In (LAudit (PSignal s)) l -> In LUser l) -> ~ In LClosed l -> no_sig x'.
Proof.
  intros F (A & B & C) L N. unfold no_sig. rewrite (fr_log _ _ _ F). split; [|split].
  - intros (s & Q). apply in_piece in Q as [Q|Q]; apply in_piece; [left; apply A; eauto|right; eapply L; eauto].
  - intros Q. apply in_piece in Q as [Q|Q]; auto.
  - intros (s & Q). apply in_piece in Q as [Q|Q]; apply in_piece; [left; apply C; eauto|right; eapply L; eauto].
Qed.
Lemma env_piece_nosig x l s : env_piece o x l -> In (LSignal s) l \/ In (LAudit (PSignal s)) l -> In LUser l.
Proof.
  intros [->|[->|[(g & ->)|[(g & ->)|[->|[->|[(l' & -> & [->| ->])|(IN & g & l' & -> & _ & L)]]]]]]] H;
    try (cbn in H; intuition discriminate). now left.
Qed.
Lemma env_piece_noclose x l : env_piece o x l -> ~ In LClosed l.
Proof. intros H Q. apply env_piece_run in H. rewrite Forall_forall in H. exact (H _ Q). Qed.
Lemma no_sig_stable : stable rstep rfinish (fun w => no_sig (w_x w)).
Proof.
  apply stable_x.
  - intros x e x' c H Q. destruct (rstep_frame _ _ _ _ _ Q) as (l & F & P & _). eapply no_sig_frame; eauto.
    + intros s. eapply env_piece_nosig; eauto.
    + eapply env_piece_noclose; eauto.
  - intros x t r x' H Q. eapply no_sig_frame; [eapply rfinish_frame; eauto|exact H| |auto]. intros s [[]|[]].
Qed.
Lemma body_stable P w w' : stable rstep rfinish P -> (forall w k, P w -> P (added w k)) -> body_steps o ext w w' -> P w -> P w'.
Proof.
  intros S A H. induction H as [w|w ev w1 c w2 E _ IH|w w1 w2 E _ IH]; intros Q; [exact Q| |].
  - apply IH. eapply (st_env _ _ _ S); eauto.
  - apply add_task_run in E as [_ ->]. auto.
Qed.
Lemma pre_nosig w : pre begun w -> no_sig (w_x w).
Proof.
  intros P. destruct (pre_log _ _ _ _ P) as (l & E & Q). rewrite Forall_forall in Q. unfold no_sig. rewrite E.
  assert (B : x_log (w_x begun) = match o_audit_callback o with Some _ => [LAudit PStart] | None => [] end).
  { unfold RunnerProofs6.begun, audit. cbn. now destruct (o_audit_callback o). }
  rewrite B. repeat split; [intros (s & H)|intros H|intros (s & H)]; apply in_piece in H as [H|H];
    try (exfalso; exact (Q _ H)); destruct (o_audit_callback o); cbn in H; intuition discriminate.
Qed.
Lemma begun_sent : sent_ok (w_x begun).
Proof. unfold RunnerProofs6.begun, audit, sent_ok. cbn. destruct (o_audit_callback o); cbn; intuition discriminate. Qed.

(** harvest without a timeout succeeds if nothing fails and nobody cancels. *)
Lemma harvest_fine aws cf w r w' : harvest aws false cf w r w' -> aws <> [] -> J w -> mk w' = mk w -> tasks_fine w' -> r = Ok tt.
Proof.
  intros H Hne HJ Mk NF. destruct r as [[]|e]; [reflexivity|exfalso].
  destruct (harvest_errs _ _ _ _ _ _ _ _ H Hne HJ) as [(_ & Q)|[(_ & Q)|[Q|(_ & Q)]]]; [discriminate|lia| |exact (NF _ Q)].
  subst e. pose proof (harvest_reg _ _ _ _ _ _ _ _ H) as [RJ _]. destruct (RJ HJ) as (_ & _ & (MK' & HIw) & _). destruct HJ as (_ & _ & (MKw & _) & _).
  destruct (harvest_facts _ _ _ _ _ _ _ _ H Hne) as (w0 & rw & h1 & h2 & w1 & E0 & _ & F & R).
  pose proof (harvest_hist _ _ _ _ _ _ _ _ _ _ E0 F) as HH.
  assert (NC : ~ In HCancel h1 /\ ~ In HCancel h2).
  { unfold MK in *. unfold mk in Mk. rewrite MK', MKw, HH, !cancels_app in Mk.
    split; intros Q; apply cancels_In in Q; lia. }
  destruct rw as [[]|e].
  - destruct R as [(Q & _)|(e & Q & p & i & q & _ & O & _)]; [discriminate|]. injection Q as <-. apply (NF cancel_failed).
    exists i. exact (proj1 (HIw _ _ O)).
  - injection R as <-. destruct (hf_fail _ _ _ _ _ _ _ _ _ F eq_refl) as (_ & (i & Hi & Di) & RQ). specialize (RQ i Hi Di).
    assert (Ri : In (HReq i) h2) by (apply reqs_In; destruct cf; lia).
    destruct (hf_why _ _ _ _ _ _ _ _ _ F i Ri) as (_ & _ & [Q|[Q|(j & _ & Q)]]); [tauto| |].
    + apply (hf_tm _ _ _ _ _ _ _ _ _ F) in Q. discriminate.
    + destruct (task_out w1 j) as [[|e|]|] eqn:Oj; try discriminate. apply (NF e). exists j. apply HIw.
      destruct (hf_e2 _ _ _ _ _ _ _ _ _ F) as (_ & EX & _). unfold task_out in *. destruct (nth_error (w_tasks w1) j) as [t|] eqn:Nt; [|discriminate].
      destruct (EX j t Nt) as (t' & -> & _ & -> & _). now rewrite Oj.
Qed.

Lemma wait_fine w r w' : wait w r w' -> J w -> x_proc (w_x w) = true -> mk w' = mk w -> tasks_fine w' ->
  r = Ok tt /\ opt_harvest (x_tasks (w_x w)) false w (Ok tt) w'.
Proof.
  intros H HJ PR Mk TF. destruct (wait_cases _ _ _ _ _ H HJ PR) as [-> H0|w1 H1 Q H2|e w1 rk H1 FF _ H2 ->]; [auto| |]; exfalso;
    pose proof (r_opt_harvest _ _ _ _ _ _ _ H1) as R1.
  - assert (R2 : reg w1 (cleared (cancelled_now w1))) by (eapply reg_trans; [apply cancelled_now_reg|apply cleared_reg]).
    assert (R3 : reg (cleared (cancelled_now w1)) w').
    { apply (kill_spec o ext _ _ _ H2); [apply R2, R1, HJ|exact (reg_proc _ _ _ _ R2 (reg_proc _ _ _ _ R1 PR))]. }
    pose proof (reg_mk _ _ _ _ (reg_trans _ _ _ _ _ R2 R3)). lia.
  - assert (R2 : reg w1 (cleared w1)) by apply cleared_reg.
    assert (R3 : reg (cleared w1) w').
    { apply (kill_spec o ext _ _ _ H2); [apply R2, R1, HJ|exact (reg_proc _ _ _ _ R2 (reg_proc _ _ _ _ R1 PR))]. }
    pose proof (reg_trans _ _ _ _ _ R2 R3) as R4. pose proof (reg_mk _ _ _ _ R4). pose proof (reg_mk _ _ _ _ R1).
    assert (TF1 : tasks_fine w1) by (intros e' Q; apply (TF e'); eapply reg_failed; eauto).
    unfold RunnerProofs4.opt_harvest in H1. destruct (x_tasks (w_x w)) as [|i ts]; [destruct H1 as [Q _]; discriminate|].
    assert (Q : Err e = Ok tt :> res unit) by (eapply harvest_fine; [exact H1|discriminate|exact HJ|lia|exact TF1]). discriminate.
Qed.
Lemma close_fine w r w' : close w r w' -> x_proc (w_x w) = true -> J w -> x_rc (w_x w) <> None -> mk w' = mk w -> tasks_fine w' ->
  (r = Ok tt \/ (piped_stdin = true /\ r = Err cancel_failed)) /\ KP o ext w w'.
Proof.
  intros H PR HJ NR Mk TF. destruct (close_spec _ _ _ _ _ _ H HJ PR) as (_ & _ & [(Q & _)|(_ & _ & ER)]); [congruence|].
  unfold RunnerModel.close in H.
  destruct H as [([] & w1 & H1 & H)|(e & H1 & _)]; apply i_getx in H1; rewrite PR in H1; destruct H1 as [Q ->]; [clear Q|discriminate].
  destruct (x_rc (w_x w)) as [z|] eqn:N; [|congruence]. apply i_modx in H.
  assert (EW : upd_x w (fun x => match x_rc x with None => popen_send SIGKILL (log LClosed x) | Some _ => x end) = w).
  { unfold upd_x. rewrite N. destruct w; reflexivity. }
  rewrite EW in H. apply i_getx in H. rewrite N in H. destruct piped_stdin.
  - split.
    + destruct r as [[]|e]; [now left|]. destruct (ER e eq_refl) as [(_ & Q)|[->|(_ & Q)]]; [lia|auto|elim (TF _ Q)].
    + intros P S Q. refine (k_try P _ _ _ _ _ _ _ Q H); [exact (k_harvest _ _ _ S _ _ _)|]. intros e k. destruct e; try discriminate. intros [= <-]. apply k_ret.
  - destruct H as [-> ->]. split; [now left|]. intros P S Q. exact Q.
Qed.
Lemma aexit_world2 exc w r w' : aexit exc w r w' -> exists rf w1, finish exc w rf w1
  /\ ((w' = stopped o w1 /\ r = match rf with Ok b => exit_value o w1 b | Err e => Err e end /\ rf <> Err CancelledError)
      \/ (rf = Err CancelledError /\ w' = stopped o (cancelled_now w1) /\ r = exit_value o (cancelled_now w1) false)).
Proof.
  intros H. apply aexit_cases in H as [w1 b H1 -> ->|w1 H1 -> ->|w1 e H1 N -> ->]; eexists _, w1; (split; [exact H1|]); auto.
  - left. repeat split. discriminate.
  - left. repeat split. congruence.
Qed.
Theorem normal_run_no_signals w0 w1 w' r : ext = false -> aenter fresh (Ok tt) w0 -> any_body w0 (Ok tt) w1 -> aexit None w1 r w' ->
  marks (events w') = 0%nat -> tasks_fine w' -> ~ In LUser (events w') ->
  (forall e, In e (events w') -> ~ is_signal e /\ ~ is_sent e /\ e <> LClosed)
  /\ (exists z, In (LCollect z) (events w'))
  /\ (r = Ok false \/ (piped_stdin = true /\ r = Err cancel_failed)).
Proof.
  intros E HE HB HX Mk TF NU.
  apply aenter_cases in HE as [wa P PR Mk0 -> _|e wa _ _ (e' & Q) _ _]; [|discriminate].
  destruct (body_ready o ext _ _ _ P PR HB) as (J1 & PR1 & W1 & R1).
  assert (NS0 : no_sig (w_x (entered wa))).
  { pose proof (pre_nosig _ P) as N. unfold no_sig in *. destruct (entered_x o wa) as (-> & _). exact N. }
  assert (NS1 : no_sig (w_x w1)) by (eapply (body_stable _ _ _ no_sig_stable); [intros u k Q; exact Q|exact HB|exact NS0]).
  assert (SO1 : sent_ok (w_x w1)).
  { eapply (body_stable _ _ _ sent_ok_stable); [intros u k Q; exact Q|exact HB|].
    unfold sent_ok. destruct (entered_x o wa) as (-> & _). apply (pre_keeps _ _ _ _ P _ sent_ok_closed begun_sent). }
  assert (CC : x_cancelled (w_x w1) = false).
  { eapply (body_stable (fun w => x_cancelled (w_x w) = false)); [|intros u k Q; exact Q|exact HB|].
    - apply (stable_x rstep rfinish (fun x => x_cancelled x = false)).
      + intros x e x' b H Q. destruct (rstep_frame _ _ _ _ _ Q) as (l & F & _). now rewrite (fr_canc _ _ _ F).
      + intros x t r0 x' H Q. now rewrite (fr_canc _ _ _ (rfinish_frame _ _ _ _ _ Q)).
    - destruct (entered_x o wa) as (_ & _ & _ & -> & _). apply (pre_calm _ _ _ _ P). }
  destruct (aexit_world2 _ _ _ _ HX) as (rf & w2 & HF & W).
  destruct (finish_reg _ _ _ _ _ _ _ HF J1 PR1) as [R2 _].
  assert (MK2 : mk w2 = 0%nat).
  { unfold mk. unfold events in Mk. destruct W as [(-> & _)|(_ & -> & _)].
    - destruct (stopped_log o w2) as (l & Q & _). rewrite Q, marks_app in Mk. lia.
    - destruct (stopped_log o (cancelled_now w2)) as (l & Q & _). rewrite Q, marks_app in Mk. cbn in Mk. lia. }
  assert (TF2 : tasks_fine w2).
  { intros e (i & Q). apply (TF e). exists i. destruct W as [(-> & _)|(_ & -> & _)]; exact Q. }
  pose proof (reg_mk _ _ _ _ R2) as MM.
  destruct (finish_cases _ _ _ _ _ _ _ HF PR1) as [e w3 rk rc Q _ _ _|w3 rk rc _ H1 H2 Q]; [discriminate|].
  assert (R3 : reg w1 w3) by (eapply wait_reg; eauto). assert (J3 : J w3) by (apply R3; exact J1).
  assert (PR3 : x_proc (w_x w3) = true) by exact (reg_proc _ _ _ _ R3 PR1).
  destruct (close_spec _ _ _ _ _ _ H2 J3 PR3) as (R4 & _ & _).
  pose proof (reg_mk _ _ _ _ R3) as M3. pose proof (reg_mk _ _ _ _ R4) as M4.
  assert (TF3 : tasks_fine w3) by (intros e H; apply (TF2 e); eapply reg_failed; eauto).
  destruct (wait_fine _ _ _ H1 J1 PR1) as [-> H0]; [lia|exact TF3|].
  destruct (opt_harvest_waiter _ _ _ _ _ H0 W1 J1 E) as [RC3 _].
  destruct (close_fine _ _ _ H2 PR3 J3 RC3) as [RR KC]; [lia|exact TF2|].
  assert (KW : KP o ext w1 w3).
  { intros PP S QQ. unfold RunnerProofs4.opt_harvest in H0. destruct (x_tasks (w_x w1)); [destruct H0 as [_ ->]; exact QQ|].
    exact (k_harvest _ _ _ S _ _ _ _ _ _ QQ H0). }
  pose proof (KP_trans _ _ _ _ _ KW KC) as K2.
  pose proof (K2 _ no_sig_stable NS1) as NS2. pose proof (K2 _ sent_ok_stable SO1) as SO2. cbn in NS2, SO2.
  assert (CC2 : x_cancelled (w_x w2) = false).
  { apply (K2 (fun w => x_cancelled (w_x w) = false)); [|exact CC]. apply (stable_x rstep rfinish (fun x => x_cancelled x = false)).
    - intros x e x' b H Q2. destruct (rstep_frame _ _ _ _ _ Q2) as (l & F & _). now rewrite (fr_canc _ _ _ F).
    - intros x t r0 x' H Q2. now rewrite (fr_canc _ _ _ (rfinish_frame _ _ _ _ _ Q2)). }
  destruct W as [(-> & -> & _)|(Q2 & _)]; [|rewrite Q2 in Q; destruct RR as [->|(_ & ->)]; discriminate]. destruct (stopped_log o w2) as (l & EL & AL & _). unfold events in *. rewrite EL in *.
  assert (NU2 : ~ In LUser (x_log (w_x w2))) by (intros QQ; apply NU; apply in_piece; now left).
  assert (J2 : J w2) by (apply R2; exact J1).
  assert (NM : forall e, In e (x_log (w_x w2)) -> ~ meddled e).
  { intros e He [(s & ->)|[->| ->]].
    - apply NU2. apply (proj1 NS2). eauto.
    - destruct J2 as (X & _). apply (xi_abort _ X) in He. destruct (xi_noabort _ X (reg_proc _ _ _ _ R2 PR1)). congruence.
    - apply (proj1 (proj2 NS2) He). }
  split; [|split].
  - intros e He. apply in_piece in He as [He|He].
    + split; [|split].
      * intros (s & [->| ->]); apply NU2; [apply (proj1 NS2)|apply (proj2 (proj2 NS2))]; eauto.
      * intros (s & ->). destruct (SO2 s He) as (e & A & B). exact (NM e A B).
      * intros ->. exact (proj1 (proj2 NS2) He).
    + assert (exists f, e = LAudit (PStop f)) as (f & ->).
      { unfold stopped, audit in EL. cbn in EL. destruct (o_audit_callback o); cbn in EL.
        - apply app_inv_head in EL. subst l. destruct He as [<-|[]]. eauto.
        - assert (l = []) as -> by (apply (app_inv_head (x_log (w_x w2))); rewrite app_nil_r; now symmetry). destruct He. }
      split; [intros (s & [QQ|QQ]); discriminate|]. split; [intros (s & QQ); discriminate|discriminate].
  - pose proof (reg_rc _ _ _ _ R4 RC3) as RC2. destruct (x_rc (w_x w2)) as [z|] eqn:Z; [|congruence]. exists z.
    apply in_piece. left. apply (xi_rc _ (proj1 J2)). exact Z.
  - rewrite Q. destruct RR as [->|(-> & ->)]; [left|right; auto]. unfold exit_value. now rewrite CC2.
Qed.
End R.
