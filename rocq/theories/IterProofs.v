From Verif Require Import AsyncModel AsyncSpec AsyncProofs HarvestModel HarvestSpec HarvestProofs HarvestProofs2 AsyncInv
  RunnerModel RunnerSpec RunnerProofs RunnerProofs2 RunnerProofs3 RunnerProofs4 RunnerProofs5 RunnerProofs6 RunnerProofs7 RunnerProofs8 RunnerProofs9
  RunnerProofs10 RunnerProofs11 CopySpec CopyProofs CopyProofs2 Utf8Proofs IterModel.
Open Scope Z_scope.

Section R.
Context (dec : text -> bytes -> option text) (o : opts) (ext piped_stdin use_pty : bool) (out_bytes err_bytes : option bytes) (enc : text).
Notation world := (world rx rkind unit).
Notation M := (@M rx rkind unit).
Notation rstep := (rstep o).
Notation rfinish := (rfinish ext).
Notation kill_wait := (kill_wait o ext).
Notation kill_body := (kill_body o ext).
Notation kill := (kill o ext).
Notation close := (close o ext piped_stdin).
Notation finish := (finish o ext piped_stdin).
Notation aexit := (aexit o ext piped_stdin).
Notation J := (J ext).
Notation reg := (reg o ext).
Notation harvest := (harvest rstep rfinish).
Notation aenter := (aenter o ext use_pty out_bytes err_bytes enc).
Notation with_run := (with_run o ext piped_stdin use_pty out_bytes err_bytes enc).
Notation any_body := (any_body o ext).
Notation body_steps := (body_steps o ext).
Notation suspended := (suspended o ext).
Notation iter_loop := (iter_loop dec o ext).
Notation iter_block := (iter_block dec o ext).
Notation iterate := (iterate dec o ext piped_stdin use_pty out_bytes err_bytes enc).
Notation leave_with := (leave_with o ext piped_stdin).

Lemma body_trans a b c : body_steps a b -> body_steps b c -> body_steps a c.
Proof. induction 1; intros; auto; [eapply bs_env; eauto|eapply bs_task; eauto]. Qed.

(** Being suspended without a timeout or a task to wait for is a special case of
    running arbitrary code. *)
Lemma wait_steps evs : forall (w : world) s w' s', s_cbs s = [] -> s_armed s = false ->
  wait_run rstep rfinish ALL_COMPLETED None (w, s) evs = Some (w', s') -> body_steps w w'.
Proof.
  induction evs as [|ev evs IH]; intros w s w' s' C A; cbn [wait_run].
  - intros [= <- _]. apply bs_refl.
  - destruct (wait_step _ _ _ _ _ _) as [[w1 s1]|] eqn:E; [|discriminate]. intros H.
    destruct ev as [e|i|]; cbn [wait_step] in E.
    + destruct (env_step rstep rfinish w e) as [[w2 b]|] eqn:Q; [|discriminate].
      assert (w2 = w1 /\ s_cbs s1 = [] /\ s_armed s1 = false) as (-> & C1 & A1) by (destruct b; injection E as <- <-; auto).
      eapply bs_env; [exact Q|]. eapply IH; eauto.
    + rewrite C in E. discriminate.
    + rewrite A in E. discriminate.
Qed.
Lemma suspended_steps b w w' : suspended b w w' -> body_steps w w'.
Proof. intros (evs & s & H & _). eapply wait_steps; [| |exact H]; reflexivity. Qed.
Lemma suspended_mk b w w' : suspended b w w' -> if b then (mk w < mk w')%nat else mk w' = mk w.
Proof.
  intros (evs & s & H & E). destruct (wait_run_mk _ _ _ _ _ _ _ _ H) as (A & B & _). subst b. cbn in B.
  destruct (s_canc s); [auto|]. now apply A.
Qed.
Lemma iter_loop_steps r w ls rb w' : iter_loop r w ls rb w' -> body_steps w w'.
Proof.
  induction 1; try (eapply suspended_steps; eauto; fail).
  - eapply body_trans; [eapply suspended_steps; eauto|]. eapply body_trans; eauto.
  - eapply body_trans; [eapply suspended_steps; eauto|]. assumption.
Qed.
Lemma iter_block_steps st w ls rb w' : iter_block st w ls rb w' -> body_steps w w'.
Proof. destruct st; [apply iter_loop_steps|]. intros (_ & _ & ->). apply bs_refl. Qed.

Lemma body_mk w w' : body_steps w w' -> (mk w <= mk w')%nat.
Proof.
  intros H. eapply (body_stable o ext (fun u => (mk w <= mk u)%nat)); [| |exact H|lia].
  - constructor.
    + intros w0 ev w1 c Q E. apply env_step_mk in E. destruct c; lia.
    + intros w0 Q. exact Q.
    + intros w0 i Q. rewrite req_mk. exact Q.
    + intros w0 k Q. exact Q.
  - intros u k Q. exact Q.
Qed.

(** The lines that were yielded, and how the loop ended. *)
Lemma iter_loop_lines r w ls rb w' : iter_loop r w ls rb w' ->
  exists ds rest, split_lines (sr_data r) = ds ++ rest /\ map_opt (dec (o_encoding o)) ds = Some ls
  /\ match rb with
     | Ok _ => rest = [] /\ sr_end r = EndEof
     | Err e => (e = CancelledError /\ (mk w < mk w')%nat) \/ (e = GeneratorExit /\ ls <> []) \/ e = UnicodeError
                \/ (exists m, e = ValueError m) \/ Some e = end_exn (sr_end r)
     end.
Proof.
  induction 1 as [r w w' H|r r' w w' H E|r r' e w w' H E|r r' d w w' H E N D|r r' d t ls rb w w1 w2 w' H E N D B _ IH|r r' d t w w1 w2 H E N D B].
  - exists [], (split_lines (sr_data r)). split; [reflexivity|]. split; [reflexivity|]. left. split; [reflexivity|]. exact (suspended_mk _ _ _ H).
  - pose proof (sreadline_spec LIMIT r) as S. cbn zeta in S. rewrite E in S. destruct S as [S1 S2].
    exists [], []. rewrite S1. auto.
  - pose proof (sreadline_spec LIMIT r) as S. cbn zeta in S. rewrite E in S.
    exists [], (split_lines (sr_data r)). split; [reflexivity|]. split; [reflexivity|]. destruct S as [(m & l & -> & _)|(Q & _)]; eauto 8.
  - exists [], (split_lines (sr_data r)). auto 8.
  - pose proof (sreadline_spec LIMIT r) as S. cbn zeta in S. rewrite E in S. destruct d as [|x d]; [congruence|]. destruct S as (S1 & _ & S3 & _).
    destruct IH as (ds & rest & Q1 & Q2 & Q3). exists ((x :: d) :: ds), rest. split; [cbn; congruence|].
    split; [cbn [map_opt]; now rewrite D, Q2|]. rewrite <- S3. destruct rb as [u|e]; [exact Q3|].
    destruct Q3 as [(-> & Q3)|[(-> & Q3)|Q3]]; [|right; left; split; [reflexivity|discriminate]|right; right; exact Q3].
    left. split; [reflexivity|]. pose proof (suspended_mk _ _ _ H). pose proof (body_mk _ _ B). cbn in *. lia.
  - pose proof (sreadline_spec LIMIT r) as S. cbn zeta in S. rewrite E in S. destruct d as [|x d]; [congruence|]. destruct S as (S1 & _ & S3 & _).
    exists [x :: d], (split_lines (sr_data r')). split; [exact S1|]. split; [cbn [map_opt]; now rewrite D|]. right; left. split; [reflexivity|discriminate].
Qed.

(** _kill raises CancelledError only if it was cancelled. *)
Lemma kill_wait_mk w w' : kill_wait w (Err CancelledError) w' -> J w -> x_proc (w_x w) = true -> (mk w < mk w')%nat.
Proof.
  intros H HJ PR. unfold RunnerModel.kill_wait in H. cbn [bindM] in H.
  destruct H as [([] & w1 & H1 & H)|(e & H1 & _)]; apply i_getx in H1; rewrite PR in H1; destruct H1 as [Q ->]; [clear Q|discriminate].
  apply i_getx in H. destruct (x_rc (w_x w)) eqn:N; [destruct H; discriminate|].
  set (wk := upd_x w (signal_x o None)) in *.
  assert (Rk : reg w wk) by now apply signal_upd.
  assert (Jk : J wk) by (apply Rk; exact HJ).
  assert (Tail : forall ra wa, bindM (signal o None) (fun _ => harvest [AwCoro KWaiter] true false) w ra wa -> harvest [AwCoro KWaiter] true false wk ra wa).
  { intros ra wa [([] & w1 & H1 & H2)|(e & H1 & ->)]; apply signal_run in H1 as [(_ & Q & Q2)|(Q & _)]; try congruence; subst w1; exact H2. }
  destruct H as [([] & H1 & Q)|(e & w1 & H1 & H2)]; [discriminate|]. apply Tail in H1.
  destruct (harvest_waiter_err _ _ _ _ _ H1 Jk) as [->|[->|(-> & l & h & E & Mk)]].
  - destruct H2 as [(b & w2 & H2 & H3)|(e & H2 & [= <-])].
    + destruct b; destruct H3; discriminate.
    + exfalso. unfold RunnerModel.poll_wait_pid in H2. apply i_getx in H2. destruct (x_rc (w_x w1)); [destruct H2; discriminate|].
      apply i_getx in H2. destruct (waitpid_status (w_x w1)); [apply i_modx in H2|]; destruct H2; discriminate.
  - destruct H2 as [[= ] _].
  - destruct H2 as [_ ->]. pose proof (reg_mk _ _ _ _ Rk). unfold mk at 2. rewrite (fr_log _ _ _ (er_frame _ _ _ _ _ E)), marks_app. unfold mk in *. lia.
Qed.
Lemma kill_mk w w' : kill w (Err CancelledError) w' -> J w -> x_proc (w_x w) = true -> (mk w < mk w')%nat.
Proof.
  intros H HJ PR. destruct (kill_cases _ _ _ _ _ H PR) as [HB Q|w1 HB HK|w1 HB HK|e w1 rk HB N1 N2 HK Q]; [discriminate| | |];
    destruct (kill_body_spec o ext _ _ _ HB HJ PR) as (R1 & _); pose proof (reg_mk _ _ _ _ R1) as M1;
    assert (J1 : J w1) by (apply R1; exact HJ); assert (P1 := reg_proc _ _ _ _ R1 PR).
  - assert (R2 : reg w1 (cancelled_now w1)) by apply cancelled_now_reg.
    assert (mk (cancelled_now w1) < mk w')%nat by (apply kill_wait_mk; [exact HK|apply R2; exact J1|exact (reg_proc _ _ _ _ R2 P1)]).
    change (mk (cancelled_now w1)) with (mk w1) in *. lia.
  - assert (mk w1 < mk w')%nat by (apply kill_wait_mk; auto). lia.
  - destruct rk as [u|e2]; [congruence|]. injection Q as <-. assert (mk w1 < mk w')%nat by (apply kill_wait_mk; auto). lia.
Qed.
End R.
