From Verif Require Import AsyncModel AsyncSpec AsyncProofs HarvestModel HarvestSpec HarvestProofs HarvestProofs2 AsyncInv
  RunnerModel RunnerSpec RunnerProofs RunnerProofs2 RunnerProofs3 RunnerProofs4 RunnerProofs5 RunnerProofs6 RunnerProofs7
  RunnerProofs8 RunnerProofs9 RunnerProofs10 RunnerProofs11.
Open Scope Z_scope.

(** A run reports that it was cancelled only if its main task was cancelled. *)
Section R.
Context (o : opts) (piped_stdin use_pty : bool) (out_bytes err_bytes : option bytes) (enc : text).
Notation ext := false.
Notation world := (world rx rkind unit).
Notation M := (@M rx rkind unit).
Notation rstep := (rstep o).
Notation rfinish := (rfinish ext).
Notation aenter := (aenter o ext use_pty out_bytes err_bytes enc).
Notation aexit := (aexit o ext piped_stdin).
Notation finish := (finish o ext piped_stdin).
Notation J := (J ext).
Notation reg := (reg o ext).
Notation run_result := (run_result o out_bytes err_bytes enc).

Lemma mk_reg0 w w' : reg w w' -> (mk w > 0)%nat -> (mk w' > 0)%nat.
Proof. intros R H. pose proof (reg_mk _ _ _ _ R). lia. Qed.

Lemma close_canc w r w' : close o ext piped_stdin w r w' -> J w -> x_proc (w_x w) = true ->
  x_cancelled (w_x w') = x_cancelled (w_x w).
Proof.
  intros H HJ PR. destruct (close_spec _ _ _ _ _ _ H HJ PR) as (_ & _ & [(_ & _ & ->)|(_ & (l & h & E) & _)]).
  - unfold upd_x. cbn. unfold force_close, popen_send, popen_poll. cbn. destruct (x_exit (w_x w)); cbn; reflexivity.
  - exact (fr_canc _ _ _ (er_frame _ _ _ _ _ E)).
Qed.
Lemma opt_harvest_canc ts t w r w' : opt_harvest o ext ts t w r w' -> x_cancelled (w_x w') = x_cancelled (w_x w).
Proof. intros H. apply opt_harvest_envrel in H as (l & h & E). exact (fr_canc _ _ _ (er_frame _ _ _ _ _ E)). Qed.

Lemma disturbed_marks l : disturbed l -> (marks l > 0)%nat.
Proof. intros (a & b & -> & H). rewrite marks_app. cbn. lia. Qed.

Lemma wait_canc w r w' : wait o ext w r w' -> J w -> x_proc (w_x w) = true -> x_cancelled (w_x w) = false ->
  (x_cancelled (w_x w') = true -> (mk w' > 0)%nat) /\ (r = Err CancelledError -> (mk w' > 0)%nat).
Proof.
  intros H HJ PR C0. destruct (wait_cases _ _ _ _ _ H HJ PR) as [-> H0|w1 H0 L HK|e w1 rk H0 FF EX HK ->].
  - rewrite (opt_harvest_canc _ _ _ _ _ H0). split; [congruence|discriminate].
  - pose proof (r_opt_harvest _ _ _ _ _ _ _ H0) as R0.
    assert (Ra : reg w (cleared (cancelled_now w1))).
    { eapply reg_trans; [exact R0|]. eapply reg_trans; [apply cancelled_now_reg|apply cleared_reg]. }
    assert (Ja : J (cleared (cancelled_now w1))) by (apply Ra; exact HJ). assert (Pa := reg_proc _ _ _ _ Ra PR).
    destruct (kill_spec o ext _ _ _ HK Ja Pa) as (Rk & _). pose proof (reg_mk _ _ _ _ Rk) as M1.
    change (mk (cleared (cancelled_now w1))) with (mk w1) in M1. split; intros _; lia.
  - pose proof (r_opt_harvest _ _ _ _ _ _ _ H0) as R0.
    assert (Ra : reg w (cleared w1)) by (eapply reg_trans; [exact R0|apply cleared_reg]).
    assert (Ja : J (cleared w1)) by (apply Ra; exact HJ). assert (Pa := reg_proc _ _ _ _ Ra PR).
    destruct (kill_more o ext _ _ _ HK Ja Pa) as (KC & KE).
    split.
    + intros C. destruct (KC C) as [Q|Q]; [|lia]. change (x_cancelled (w_x w1) = true) in Q. rewrite (opt_harvest_canc _ _ _ _ _ H0) in Q. congruence.
    + destruct rk as [[]|e']; [intros [= ->]; discriminate EX|]. intros [= ->].
      destruct (KE _ eq_refl) as [(_ & D)|[Q|[Q|(Q & _)]]]; try discriminate. now apply disturbed_marks.
Qed.
Lemma finish_canc w r w' : finish None w r w' -> J w -> x_proc (w_x w) = true -> x_cancelled (w_x w) = false ->
  (x_cancelled (w_x w') = true -> (mk w' > 0)%nat) /\ (r = Err CancelledError -> (mk w' > 0)%nat).
Proof.
  intros H HJ PR C0. destruct (finish_cases _ _ _ _ _ _ _ H PR) as [e w1 rk rc Q _ _ _|w1 rk rc _ H1 H2 ->]; [discriminate|].
  destruct (wait_canc _ _ _ H1 HJ PR C0) as (A & B).
  assert (R1 : reg w w1) by (eapply wait_reg; eauto). assert (J1 : J w1) by (apply R1; exact HJ). assert (PR1 := reg_proc _ _ _ _ R1 PR).
  destruct (close_spec _ _ _ _ _ _ H2 J1 PR1) as (R2 & _ & CL).
  split.
  - rewrite (close_canc _ _ _ H2 J1 PR1). intros C. eapply mk_reg0; [exact R2|]. auto.
  - destruct rc as [[]|e].
    + destruct rk as [b|e]; [discriminate|]. intros [= ->]. eapply mk_reg0; [exact R2|]. auto.
    + intros [= ->]. destruct CL as [(_ & Q & _)|(_ & _ & ER)]; [discriminate|].
      destruct (ER _ eq_refl) as [(_ & Q)|[Q|(Q & _)]]; try discriminate. lia.
Qed.
Lemma stopped_mk w : mk (stopped o w) = mk w.
Proof.
  unfold mk. destruct (stopped_log o w) as (l & -> & A & _). rewrite marks_app.
  assert (Z : marks l = 0%nat); [|lia]. induction l as [|a l IH]; [reflexivity|]. destruct (A a) as (p & ->); [now left|]. cbn. apply IH. intros b Hb. apply A. now right.
Qed.
Lemma failed_mk w e : mk (failed_start o w e) = mk w.
Proof.
  unfold mk. destruct (failed_start_log o w e) as (l & -> & A & _). rewrite marks_app.
  assert (Z : marks l = 0%nat); [|lia]. induction l as [|a l IH]; [reflexivity|]. destruct (A a) as (p & ->); [now left|]. cbn. apply IH. intros b Hb. apply A. now right.
Qed.
Lemma stopped_canc w : x_cancelled (w_x (stopped o w)) = x_cancelled (w_x w).
Proof. destruct (stopped_log o w) as (l & _ & _ & ->). reflexivity. Qed.
Lemma stopped_timed w : x_timed_out (w_x (stopped o w)) = x_timed_out (w_x w).
Proof. destruct (stopped_log o w) as (l & _ & _ & ->). reflexivity. Qed.

(** A run that was started. *)
Lemma run_canc w0 r w' : aenter fresh (Ok tt) w0 -> aexit None w0 r w' -> x_cancelled (w_x w') = true -> (mk w' > 0)%nat.
Proof.
  intros HE HX C. destruct (enter_state o ext use_pty out_bytes err_bytes enc _ HE) as (J0 & P0 & W0 & M0 & C0 & T0).
  destruct (aexit_world2 _ _ _ _ _ _ _ HX) as (rf & w1 & HF & W). destruct (finish_canc _ _ _ HF J0 P0 C0) as (A & B).
  destruct W as [(-> & _)|(-> & -> & _)]; rewrite stopped_mk.
  - rewrite stopped_canc in C. auto.
  - change (mk (cancelled_now w1)) with (mk w1). auto.
Qed.
Lemma run_timed w0 r w' : aenter fresh (Ok tt) w0 -> aexit None w0 r w' -> o_timeout o = None -> x_timed_out (w_x w') = false.
Proof.
  intros HE HX TO. destruct (enter_state o ext use_pty out_bytes err_bytes enc _ HE) as (J0 & P0 & W0 & M0 & C0 & T0).
  destruct (aexit_world2 _ _ _ _ _ _ _ HX) as (rf & w1 & HF & W).
  destruct (finish_reg _ _ _ _ _ _ _ HF J0 P0) as [(_ & l & h & PP) _].
  assert (TM0 : x_timer (w_x w0) = false).
  { apply aenter_cases in HE as [wa P PR Mk0 -> _|e wa _ _ (e' & Q) _ _]; [|discriminate]. destruct (pre_calm _ _ _ _ P) as (_ & T1 & _).
    unfold entered. cbn. rewrite TO. exact T1. }
  pose proof (pr_timed _ _ _ _ _ PP TM0) as Q. rewrite T0 in Q. destruct W as [(-> & _)|(_ & -> & _)]; rewrite stopped_timed; exact Q.
Qed.

(** Launching is not interrupted by anybody else: only the main task passes a
    cancellation on to it. *)
Definition untouched (n : nat) (w : world) : Prop := exists t, nth_error (w_tasks w) n = Some t /\ t_kind t = KExec /\ t_creq t = 0%nat /\ t_out t <> Some TCancelled.
Lemma untouched_step n w ev w' c : untouched n w -> env_step rstep rfinish w ev = Some (w', c) -> untouched n w'.
Proof.
  intros (t & Nt & K & C & O) E. destruct ev as [i r|e]; cbn in E.
  - destruct (nth_error (w_tasks w) i) as [ti|] eqn:Ni; [|discriminate]. destruct (t_out ti) eqn:Oi; [discriminate|].
    destruct (rfinish (w_x w) ti r) as [x'|] eqn:F; [|discriminate]. injection E as <- _. destruct (Nat.eq_dec i n) as [->|NE].
    + rewrite Nt in Ni. injection Ni as <-. eexists. cbn. rewrite (nth_upd_same _ _ _ _ Nt). split; [reflexivity|]. cbn. split; [exact K|]. split; [exact C|].
      intros [= ->]. unfold RunnerModel.rfinish in F. rewrite K, C in F. discriminate F.
    + exists t. cbn. rewrite nth_upd_other by exact NE. auto.
  - destruct (rstep (w_x w) e) as [[x' []]|]; [| |discriminate]; injection E as <- _; exists t; auto.
Qed.
Lemma untouched_run n mode evs : forall w s w' s', untouched n w -> wait_run rstep rfinish mode None (w, s) evs = Some (w', s') -> untouched n w'.
Proof.
  induction evs as [|ev evs IH]; intros w s w' s' U R; cbn [wait_run] in R; [injection R as <- <-; exact U|].
  destruct (wait_step _ _ _ _ _ _) as [[w1 s1]|] eqn:E; [|discriminate]. apply (IH _ _ _ _) with (2 := R). clear R IH.
  destruct ev as [e|j|]; cbn [wait_step] in E.
  - destruct (env_step rstep rfinish w e) as [[w2 []]|] eqn:Q; [| |discriminate]; injection E as <- <-; eapply untouched_step; eauto.
  - destruct (_ && _); [|discriminate]. destruct (_ || _); injection E as <- <-; exact U.
  - destruct (_ && _); [|discriminate]. injection E as <- <-. exact U.
Qed.
Lemma uninterrupted_canc w w' : uninterrupted o ext KExec w (Err CancelledError) w' -> J w -> (mk w < mk w')%nat.
Proof.
  intros H HJ. unfold RunnerModel.uninterrupted in H.
  destruct H as [(i & w0 & [[= ->] ->] & H)|(e & [Q _] & _)]; [|discriminate].
  set (n := List.length (w_tasks w)) in *. set (w0 := mk_world (w_tasks w ++ [mk_task KExec None 0]) (w_x w) (w_hist w)) in *.
  assert (N0 : nth_error (w_tasks w0) n = Some (mk_task KExec None 0)).
  { cbn. rewrite nth_error_app2 by reflexivity. now rewrite Nat.sub_diag. }
  assert (J0 : J w0) by exact (st_spawn _ _ _ (stable_J o ext) w KExec HJ).
  assert (OUT0 : task_out w0 n = None) by (unfold task_out; rewrite N0; reflexivity).
  assert (U0 : untouched n w0) by (exists (mk_task KExec None 0); repeat split; auto; discriminate).
  change (mk w) with (mk w0).
  destruct H as [([] & _ & Q)|(e & w1 & H1 & H2)]; [discriminate|].
  pose proof (k_await_shield _ _ _ (stable_J o ext) n _ _ _ J0 H1) as J1.
  unfold await_shield in H1. rewrite OUT0 in H1. destruct H1 as (evs & s & r1 & R & [(Sc & [= ->])|(Sc & _ & O & Q)]).
  - destruct (wait_run_mk _ _ _ _ _ _ _ _ R) as (_ & A & _). specialize (A eq_refl Sc).
    assert (M2 : (mk w1 <= mk w')%nat); [|lia]. apply i_getM in H2.
    assert (AT : w' = w1 \/ exists r2, await_task rstep rfinish n w1 r2 w').
    { destruct (task_out w1 n) as [[u|e|]|]; try (destruct H2 as [(u' & wb & H2 & [_ ->])|(e' & H2 & _)]; right; eauto). left. apply H2. }
    destruct AT as [->|(r2 & AT)]; [lia|]. unfold await_task in AT. destruct (task_out w1 n); [destruct AT as [_ ->]; lia|].
    destruct AT as (evs2 & s2 & o2 & R2 & _). apply wait_run_target in R2 as [_ B]; [exact B|discriminate].
  - exfalso. pose proof (untouched_run _ _ _ _ _ _ _ U0 R) as (t & Nt & K & C & NC). unfold task_out in O. rewrite Nt in O.
    destruct r1 as [[]|e1|]; cbn in Q; [discriminate| |congruence]. injection Q as ->.
    assert (IE : is_Exception e1 = true).
    { destruct J1 as (_ & _ & (_ & HI1) & _). destruct (HI1 n (TFail e1)) as [_ Z]; [unfold task_out; now rewrite Nt|]. now apply Z. }
    destruct e1; try discriminate IE; destruct H2 as [Q2 _]; discriminate Q2.
Qed.
Lemma spawn_canc w w' : subprocess_spawn o ext use_pty w (Err CancelledError) w' -> J w -> clean w -> calm w -> w_tasks w = [] -> (mk w < mk w')%nat.
Proof.
  intros H HJ HC HM HT. unfold RunnerModel.subprocess_spawn in H.
  destruct H as [([] & w1 & H1 & H)|(e & H1 & _)]; apply i_getx in H1; rewrite (proj1 HC) in H1; destruct H1 as [Q ->]; [clear Q|discriminate].
  assert (LE : forall u ru u', when use_pty (await_any o ext) u ru u' -> (mk u <= mk u')%nat /\ (ru = Err CancelledError -> (mk u < mk u')%nat) /\ (J u -> J u')
     /\ (exists l h, envrel o u u' l h) /\ (w_tasks u = [] -> w_tasks u' = [])).
  { intros u ru u' HA. unfold when in HA. destruct use_pty.
    - destruct (ok_of_keeps _ _ (await_any o ext) (k_await_any o ext) _ _ _ HA) as [JA EE].
      destruct HA as (evs & s & R & Z). destruct (wait_run_mk _ _ _ _ _ _ _ _ R) as (_ & A & B). pose proof (wait_run_len _ _ _ _ _ _ _ _ _ R) as L.
      split; [exact B|]. split; [|split; [exact JA|split; [exact EE|]]].
      + intros ->. destruct (s_canc s); [auto|]. specialize (Z _ eq_refl). discriminate.
      + intros Q. rewrite Q in L. now apply length_zero_iff_nil.
    - destruct HA as [-> ->]. split; [lia|]. split; [discriminate|]. split; [auto|]. split; [exists [], []; apply envrel_refl|auto]. }
  destruct H as [([] & w1 & H1 & H)|(e & H1 & [= <-])]; apply LE in H1 as (A & B & JJ & (l1 & h1 & E1) & T1); [|auto].
  assert (J1 : J w1) by auto. assert (C1 : clean w1) by (eapply env_clean; eauto). specialize (T1 HT).
  destruct H as [([] & w2 & H1 & H)|(e & H1 & [= <-])].
  - destruct (ok_of_keeps _ _ (await_yield rstep rfinish) (fun P S => k_await_yield _ _ P S) _ _ _ H1) as [JA (l2 & h2 & E2)].
    destruct H1 as (evs & s & R & Z). destruct (wait_run_mk _ _ _ _ _ _ _ _ R) as (_ & _ & A2). pose proof (wait_run_len _ _ _ _ _ _ _ _ _ R) as L2.
    assert (J2 : J w2) by auto. assert (C2 : clean w2) by (eapply env_clean; eauto).
    assert (T2 : w_tasks w2 = []) by (rewrite T1 in L2; now apply length_zero_iff_nil).
    apply i_modx in H. set (w3 := upd_x w2 (set_launching true)) in *.
    assert (J3 : J w3).
    { destruct J2 as (X & T & Mk & Tm). split; [|split; [|split]].
      - apply XI_launching; [exact X|intros _; apply C2|discriminate].
      - intros i t. cbn. rewrite T2. destruct i; discriminate.
      - exact Mk.
      - exact Tm. }
    apply uninterrupted_canc in H; [|exact J3]. change (mk w3) with (mk w2) in H. lia.
  - destruct H1 as (evs & s & R & Z). destruct (wait_run_mk _ _ _ _ _ _ _ _ R) as (_ & A2 & B2). destruct (s_canc s) eqn:Sc; [specialize (A2 eq_refl eq_refl); lia|discriminate].
Qed.
Lemma start_canc r w' : start o ext use_pty (begun o) r w' -> x_cancelled (w_x w') = true -> (mk w' > 0)%nat.
Proof.
  intros H CN. destruct (begun_x o) as (B1 & B2 & B3 & B4 & B5 & B6 & B7 & B8).
  assert (HJ : J (begun o)) by apply begun_J. assert (HC : clean (begun o)) by (split; auto). assert (HM : calm (begun o)) by (repeat split; auto).
  pose proof H as H0. apply start_cases in H0 as [w1 P PR Mk -> _|e0 w0 rk0 P0 EX HK Q0]; auto.
  { exfalso. revert CN. unfold entered. cbn. destruct (o_timeout o); cbn; rewrite (proj1 (proj2 (proj2 (pre_calm _ _ _ _ P)))); discriminate. }
  unfold RunnerModel.start in H.
  destruct H as [([] & wz & H1 & H)|(e & H1 & _)]; apply i_getx in H1; rewrite B8 in H1; destruct H1 as [Q ->]; [clear Q|discriminate].
  assert (BODY : forall rb wb, bindM setup (fun _ => bindM (subprocess_spawn o ext use_pty) (fun _ => bindM (bindM (getx x_proc) assertM) (fun _ => setup_streams))) (begun o) rb wb
     -> pre o ext (begun o) wb /\ (rb = Err CancelledError -> (mk wb > 0)%nat) /\ (forall e, rb = Err e -> e = CancelledError \/ is_Exception e = true)).
  { intros rb wb [([] & w1 & [-> _] & HB)|(e & [-> HE] & ->)].
    2: { split; [|split; [intros [= ->]; specialize (HE _ eq_refl); discriminate|intros e' [= <-]; auto]].
         constructor; auto; [exists []; split; [now rewrite app_nil_r|constructor]|intros i t; destruct i; discriminate]. }
    destruct HB as [([] & w1 & H1 & HB)|(e & H1 & ->)]; destruct (subprocess_spawn_spec o ext use_pty _ _ _ H1 HJ HC HM eq_refl) as (P1 & O1 & E1).
    2: { split; [exact P1|]. split; [|intros e' [= <-]; auto]. intros [= ->]. apply spawn_canc in H1; auto. lia. }
    destruct (O1 eq_refl) as [PR1 _].
    destruct HB as [([] & w2 & H2 & HB)|(e & H2 & ->)]; apply i_getx in H2; rewrite PR1 in H2; destruct H2 as [Q ->]; [|discriminate].
    destruct (setup_streams_spec o ext _ _ _ _ HB P1) as (P2 & _ & _ & E2). split; [exact P2|].
    split; [intros ->; specialize (E2 _ eq_refl); discriminate|]. intros e ->. right. eauto. }
  clear P0 EX HK Q0 rk0 w0 e0.
  assert (TAIL : forall w1 rt, pre o ext (begun o) w1 -> bindM (add_task KWaiter) (fun _ => bindM (start_timer o) (fun _ => modx (set_inside true))) w1 rt w' -> False).
  { intros w1 rt P H2. assert (C1 := proj1 (proj2 (proj2 (pre_calm _ _ _ _ P)))). revert CN.
    destruct H2 as [([] & w2 & H2 & H3)|(e & H2 & _)]; apply add_task_run in H2 as [Q ->]; [|discriminate].
    destruct H3 as [([] & w3 & H3 & H4)|(e & H3 & _)].
    - destruct H4 as [_ ->]. destruct H3 as [([] & w4 & H4 & H5)|(e & H4 & Q3)]; [|discriminate].
      apply i_getx in H4. cbn in H4. rewrite (proj1 (proj2 (pre_calm _ _ _ _ P))) in H4. destruct H4 as [_ ->].
      unfold when in H5. destruct (o_timeout o); destruct H5 as [_ ->]; cbn; congruence.
    - destruct H3 as [([] & w4 & H4 & H5)|(e' & H4 & Q3)].
      + unfold when in H5. destruct (o_timeout o); destruct H5 as [Q5 _]; discriminate.
      + apply i_getx in H4. cbn in H4. rewrite (proj1 (proj2 (pre_calm _ _ _ _ P))) in H4. destruct H4 as [Q4 _]. discriminate. }
  destruct H as [([] & w1 & H1 & H)|(e & H1 & ->)].
  - exfalso. destruct H1 as [([] & HB & _)|(e & w2 & HB & HH)].
    + destruct (BODY _ _ HB) as (P & _). eapply TAIL; eauto.
    + destruct (is_Exception e || is_cancelled e).
      * destruct HH as [([] & w3 & _ & HH)|(e' & _ & Q)]; [|discriminate]. destruct HH as [([] & w4 & _ & [Q _])|(e' & _ & Q)]; discriminate.
      * destruct HH as [Q _]. discriminate.
  - destruct H1 as [([] & _ & Q)|(e1 & w1 & HB & HH)]; [discriminate|]. destruct (BODY _ _ HB) as (P1 & MC & E1). specialize (E1 e1 eq_refl).
    assert (EX : is_Exception e1 || is_cancelled e1 = true) by (destruct E1 as [->|Q]; [reflexivity|rewrite Q; reflexivity]).
    rewrite EX in HH.
    assert (HH2 : bindM (bindM (getx x_proc) (fun p => when p (kill o ext))) (fun _ => raise (A := unit) e1) (if is_cancelled e1 then cancelled_now w1 else w1) (Err e) w').
    { destruct HH as [([] & w2 & H2 & H3)|(e' & H2 & _)]; [|destruct (is_cancelled e1); destruct H2 as [Q _]; discriminate].
      destruct (is_cancelled e1); destruct H2 as [_ ->]; exact H3. }
    apply i_then_raise in HH2 as (rk & HK & RK). apply i_getx in HK.
    assert (PP : x_proc (w_x (if is_cancelled e1 then cancelled_now w1 else w1)) = x_proc (w_x w1)) by (destruct (is_cancelled e1); reflexivity).
    rewrite PP in HK.
    assert (MKE : mk (if is_cancelled e1 then cancelled_now w1 else w1) = mk w1) by (destruct (is_cancelled e1); reflexivity).
    assert (R2 : reg w1 (if is_cancelled e1 then cancelled_now w1 else w1)) by (destruct (is_cancelled e1); [apply cancelled_now_reg|apply reg_refl]).
    assert (XC : x_cancelled (w_x (if is_cancelled e1 then cancelled_now w1 else w1)) = true -> (mk w1 > 0)%nat).
    { destruct (is_cancelled e1) eqn:CE; [intros _; apply MC; destruct e1; try discriminate; reflexivity|].
      rewrite (proj1 (proj2 (proj2 (pre_calm _ _ _ _ P1)))). discriminate. }
    destruct (x_proc (w_x w1)) eqn:PR.
    + cbn [when] in HK.
      assert (J2 : J (if is_cancelled e1 then cancelled_now w1 else w1)) by apply R2, (pre_J _ _ _ _ P1).
      assert (PR2 := reg_proc _ _ _ _ R2 PR).
      destruct (kill_more o ext _ _ _ HK J2 PR2) as [KM _]. destruct (kill_spec o ext _ _ _ HK J2 PR2) as (RK2 & _).
      pose proof (reg_mk _ _ _ _ RK2) as ML. destruct (KM CN) as [Q|Q]; [apply XC in Q|]; lia.
    + cbn [when] in HK. destruct HK as [_ ->]. rewrite MKE. auto.
Qed.
Lemma enter_canc e w' : aenter fresh (Err e) w' -> x_cancelled (w_x w') = true -> (mk w' > 0)%nat.
Proof.
  intros H CN. unfold RunnerModel.aenter in H. apply i_modx in H. change (upd_x fresh (audit o PStart)) with (begun o) in H.
  destruct H as (r1 & w1 & H1 & HF).
  assert (W : w' = w1).
  { destruct HF as [(HF & _)|(e' & HF & _)]; apply i_getx in HF; (destruct (x_cancelled (w_x w1) && o_catch_cancelled o); [|apply HF]);
    destruct HF as [(v & u1 & HF & HG)|(e2 & HF & HG)]; apply i_getx in HF; destruct (runner_result _ _ _ _ _ _ _ _); try (destruct HF as [HF ->]); try discriminate; try (destruct HG as [_ ->]); reflexivity. }
  subst w'. destruct H1 as [([] & H1 & ->)|(e1 & w2 & H1 & H2)].
  - eapply start_canc; eauto.
  - apply i_modx in H2. apply i_modx in H2. destruct H2 as [_ ->].
    change (upd_x (upd_x w2 (set_timer false)) (audit o (PStop (Some e1)))) with (failed_start o w2 e1) in *.
    rewrite failed_mk. eapply start_canc; [exact H1|]. rewrite <- CN. destruct (failed_start_log o w2 e1) as (l & _ & _ & ->). reflexivity.
Qed.
Lemma enter_timed e w' : aenter fresh (Err e) w' -> x_timed_out (w_x w') = false.
Proof.
  intros H. assert (EC := H). apply aenter_cases in EC. pose proof (start_not_expired _ _ _ _ _ _ _ EC (ex_intro _ e eq_refl)) as N.
  destruct EC as [wa _ _ _ _ Q|e0 wa SC -> _ _ _]; [discriminate|].
  destruct SC as [w1 P PR Mk Ew Q|e1 w1 rk P Ee HK Q]; [discriminate|]. destruct (pre_calm _ _ _ _ P) as (_ & T1 & _ & T2).
  assert (R2 : reg w1 (if is_cancelled e1 then cancelled_now w1 else w1)) by (destruct (is_cancelled e1); [apply cancelled_now_reg|apply reg_refl]).
  assert (RW : reg w1 wa).
  { destruct (x_proc (w_x w1)) eqn:PR.
    - eapply reg_trans; [exact R2|]. apply (kill_spec o ext _ _ _ HK); [apply R2, (pre_J _ _ _ _ P)|exact (reg_proc _ _ _ _ R2 PR)].
    - destruct HK as [_ ->]. exact R2. }
  destruct (failed_start_log o wa e0) as (l & _ & _ & ->). cbn.
  destruct RW as (_ & l' & h & PP). rewrite (pr_timed _ _ _ _ _ PP T1). exact T2.
Qed.
Lemma run_not_expired w0 r w' : aenter fresh (Ok tt) w0 -> aexit None w0 r w' -> ~ In LExpired (x_log (w_x w')) -> x_timed_out (w_x w') = false.
Proof.
  intros HE HX NX. destruct (enter_state o ext use_pty out_bytes err_bytes enc _ HE) as (J0 & P0 & W0 & M0 & C0 & T0).
  destruct (aexit_world2 _ _ _ _ _ _ _ HX) as (rf & w1 & HF & W).
  destruct (finish_reg _ _ _ _ _ _ _ HF J0 P0) as [R1 _]. assert (J1 : J w1) by (apply R1; exact J0).
  assert (T1 : x_timed_out (w_x w1) = false).
  { destruct (x_timed_out (w_x w1)) eqn:Q; [|reflexivity]. apply (xi_timed _ (proj1 J1)) in Q. elim NX. destruct W as [(-> & _)|(_ & -> & _)]; now apply stopped_has. }
  destruct W as [(-> & _)|(_ & -> & _)]; rewrite stopped_timed; exact T1.
Qed.
End R.
