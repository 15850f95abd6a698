(** Lemmas for C117, continued: the three facts about tasks. *)
From Verif Require Import AsyncModel AsyncSpec AsyncProofs HarvestModel HarvestSpec HarvestProofs HarvestProofs2 AsyncInv
  RunnerModel RunnerSpec RunnerProofs RunnerProofs2 RunnerProofs3 RunnerProofs4 RunnerProofs5 RunnerProofs6 RunnerProofs7 RunnerProofs8
  RunnerProofs9 RunnerProofs10 RunnerProofs11 AwaitModel AwaitProofs PipeAwaitProofs TasksProofs.
Open Scope Z_scope.

Section R.
Context (o : opts) (ext piped_stdin use_pty : bool) (out_bytes err_bytes : option bytes) (enc : text).
Notation world := (world rx rkind unit).
Notation M := (@M rx rkind unit).
Notation rstep := (rstep o).
Notation rfinish := (rfinish ext).
Notation harvest := (harvest rstep rfinish).
Notation J := (J ext).

(** What env_step, requests, new tasks and timers do to one task. *)
Lemma stable_of_extends (F : list (task rkind unit) -> list (hev unit) -> nat -> Prop) i :
  (forall (w : world) h w', F (w_tasks w) (w_hist w) i -> extends w h w' -> F (w_tasks w') (w_hist w') i) -> stable rstep rfinish (fun w => F (w_tasks w) (w_hist w) i).
Proof.
  intros H. constructor.
  - intros w ev w' c Q E. apply env_step_ext in E as (h & E & _). eapply H; eauto.
  - intros w Q. eapply (H w [HTimer] (mk_world _ (w_x w) _)); [exact Q|]. split; [reflexivity|]. split; [|intros j r [[=]|[]]].
    intros j t N. exists t. cbn. rewrite Nat.add_0_r. repeat split; auto. destruct (t_out t); reflexivity.
  - intros w j Q. unfold req. destruct (task_done w j) eqn:D; [exact Q|]. eapply (H w [HReq j] (mk_world _ (w_x w) _)); [exact Q|]. split; [reflexivity|]. split; [|intros k r [[=]|[]]].
    intros k t N. cbn [w_tasks]. destruct (Nat.eq_dec j k) as [<-|NE].
    + exists (mk_task (t_kind t) (t_out t) (S (t_creq t))). split; [exact (nth_upd_same _ _ _ _ N)|]. cbn. rewrite Nat.eqb_refl. cbn. repeat split; [destruct (t_out t); reflexivity|]. rewrite Nat.add_1_r. reflexivity.
    + exists t. split; [rewrite nth_upd_other by exact NE; exact N|]. cbn. destruct (Nat.eqb_spec k j); [congruence|]. cbn. repeat split; [destruct (t_out t); reflexivity|lia].
  - intros w k Q. eapply (H w [] (mk_world _ (w_x w) _)); [exact Q|]. split; [cbn; now rewrite app_nil_r|]. split; [|intros j r []].
    intros j t N. exists t. cbn. split; [rewrite nth_error_app1; [exact N|]; apply nth_error_Some; congruence|]. repeat split; [destruct (t_out t); reflexivity|lia].
Qed.

(** Done, asked to end, or waiting for the end of the pipe. *)
Definition asked (ts : list (task rkind unit)) (h : list (hev unit)) (i : nat) : Prop :=
  (exists t, nth_error ts i = Some t /\ (t_out t <> None \/ t_kind t = KClosed)) \/ In (HReq i) h.
(** Done, or a timeout has expired, or there were two cancellations. *)
Definition ended (ts : list (task rkind unit)) (h : list (hev unit)) (i : nat) : Prop :=
  (exists t, nth_error ts i = Some t /\ t_out t <> None) \/ In HTimer h \/ (cancels h >= 2)%nat.
Definition over (ts : list (task rkind unit)) (h : list (hev unit)) (i : nat) : Prop := exists t, nth_error ts i = Some t /\ t_out t <> None.

Lemma done_over (w : world) i : task_done w i = true -> over (w_tasks w) (w_hist w) i.
Proof. unfold task_done, task_out. intros Q. destruct (nth_error (w_tasks w) i) as [t|] eqn:N; [|discriminate]. exists t. split; [exact N|]. now destruct (t_out t). Qed.
Lemma over_done (w : world) i : over (w_tasks w) (w_hist w) i -> task_done w i = true.
Proof. unfold task_done, task_out. intros (t & -> & Q). destruct (t_out t); congruence. Qed.
Lemma over_stable i : stable rstep rfinish (fun w => over (w_tasks w) (w_hist w) i).
Proof.
  apply (stable_of_extends over). intros w h w' (t & N & D) (_ & X & _). destruct (X i t N) as (t' & N' & _ & O' & _). exists t'. split; [exact N'|].
  destruct (t_out t); congruence.
Qed.
Lemma asked_stable i : stable rstep rfinish (fun w => asked (w_tasks w) (w_hist w) i).
Proof.
  apply (stable_of_extends asked). intros w h w' D (Hh & X & _). unfold asked. rewrite Hh. destruct D as [(t & N & D)|D]; [left|right; apply in_or_app; now left].
  destruct (X i t N) as (t' & N' & K' & O' & _). exists t'. split; [exact N'|]. destruct D as [D|D]; [left; destruct (t_out t); congruence|right; congruence].
Qed.
Lemma ended_stable2 i : stable rstep rfinish (fun w => ended (w_tasks w) (w_hist w) i).
Proof.
  apply (stable_of_extends ended). intros w h w' D E. pose proof E as (Hh & _). unfold ended. rewrite Hh.
  destruct D as [(t & N & D)|[D|D]].
  - left. destruct E as (_ & X & _). destruct (X i t N) as (t' & N' & _ & O' & _). exists t'. split; [exact N'|]. destruct (t_out t); congruence.
  - right; left. apply in_or_app. now left.
  - right; right. rewrite cancels_app. lia.
Qed.
Lemma closed_harvest t cf (w : world) r w' : harvest [AwCoro KClosed] t cf w r w' -> exists tk, nth_error (w_tasks w') (List.length (w_tasks w)) = Some tk /\ t_kind tk = KClosed.
Proof.
  intros H. destruct H as [(ts & w1 & H1 & H2)|(e & H1 & _)].
  - destruct H1 as [(a & w2 & [_ ->] & Q)|(e & [Q _] & _)]; [|discriminate].
    destruct Q as [(b & w3 & [_ ->] & [_ ->])|(e & [Q _] & _)]; [|discriminate].
    set (P := fun u : world => exists tk, nth_error (w_tasks u) (List.length (w_tasks w)) = Some tk /\ t_kind tk = KClosed).
    assert (SP : stable rstep rfinish P).
    { apply (stable_of_extends (fun ts _ _ => exists tk, nth_error ts (List.length (w_tasks w)) = Some tk /\ t_kind tk = KClosed) 0%nat).
      intros u h u' (tk & N & K) (_ & X & _). destruct (X _ _ N) as (t' & N' & K' & _). exists t'. split; [exact N'|congruence]. }
    assert (K : keeps P (harvest_tasks rstep rfinish ts t cf)).
    { unfold harvest_tasks. apply k_bind; [exact (k_harvest_wait _ _ P SP _ _ _)|]. intros _. apply k_bind; [apply k_consume|]. intros _. apply k_for. intros i.
      apply k_bind; [apply k_get|]. intros w2. assert (Q : keeps P (bindM (get_task_result i) (fun _ : unit => ret (X := rx) (K := rkind) (V := unit) tt))).
      { apply k_bind; [apply k_get_task_result|intros; apply k_ret]. }
      destruct (task_out w2 i) as [[| |]|]; auto. apply k_ret. }
    eapply K; [|exact H2]. exists (mk_task KClosed None 0). cbn. rewrite nth_error_app2 by reflexivity. rewrite Nat.sub_diag. auto.
  - apply ensure_futures_spec in H1. destruct H1; discriminate.
Qed.
Lemma asked_harvest aws t cf (w : world) r w' : harvest aws t cf w r w' -> aws <> [] -> cf = false \/ aws = [AwCoro KClosed] ->
  forall i, In i (managed w aws) -> asked (w_tasks w') (w_hist w') i.
Proof.
  intros H Hne CF i Hi. destruct CF as [->| ->].
  - destruct (harvest_facts _ _ _ _ _ _ _ _ H Hne) as (w0 & rw & h1 & h2 & w1 & E0 & O & F & R).
    destruct (hf_req _ _ _ _ _ _ _ _ _ F (fun _ => eq_refl) i Hi) as [D|RQ].
    + left. apply (ext_done _ _ _ _ (hf_e2 _ _ _ _ _ _ _ _ _ F)) in D. apply done_over in D as (tk & N & D). eauto.
    + right. rewrite (proj1 (hf_e2 _ _ _ _ _ _ _ _ _ F)). apply in_or_app. now right.
  - destruct (closed_harvest _ _ _ _ _ H) as (tk & N & K). destruct Hi as [<-|[]]. left. exists tk. auto.
Qed.
Lemma harvest_ends aws t cf (w : world) r w' : harvest aws t cf w r w' -> aws <> [] -> forall i, In i (managed w aws) ->
  over (w_tasks w') (w_hist w') i \/ (exists h, w_hist w' = w_hist w ++ h /\ cancels h >= 2)%nat \/ (r = Err cancel_failed /\ In HTimer (w_hist w')).
Proof.
  intros H Hne i Hi. destruct (harvest_facts _ _ _ _ _ _ _ _ H Hne) as (w0 & rw & h1 & h2 & w1 & E0 & O & F & R).
  pose proof (harvest_hist _ _ _ _ _ _ _ _ _ _ E0 F) as Hq. destruct rw as [[]|e].
  - left. apply done_over. now apply (hf_ok _ _ _ _ _ _ _ _ _ F).
  - subst r. destruct (hf_errs _ _ _ _ _ _ _ _ _ F e eq_refl) as [->|[->| ->]].
    + left. apply done_over. destruct (hf_to _ _ _ _ _ _ _ _ _ F eq_refl) as (_ & _ & _ & AD & _). auto.
    + destruct (hf_canc _ _ _ _ _ _ _ _ _ F eq_refl) as [(_ & [AD|Q])|(_ & Q)]; [left; apply done_over; auto| |]; right; left; exists (h1 ++ h2); (split; [exact Hq|]); rewrite cancels_app; lia.
    + right; right. split; [reflexivity|]. destruct (hf_fail _ _ _ _ _ _ _ _ _ F eq_refl) as (Q & _). rewrite Hq. apply in_or_app. right. apply in_or_app. now right.
Qed.
Lemma ended_harvest aws t cf (w : world) r w' : harvest aws t cf w r w' -> aws <> [] -> cf = false \/ aws = [AwCoro KClosed] ->
  forall i, In i (managed w aws) -> ended (w_tasks w') (w_hist w') i.
Proof.
  intros H Hne _ i Hi. destruct (harvest_ends _ _ _ _ _ _ H Hne i Hi) as [Q|[(h & Q & C)|(_ & Q)]]; [now left| |right; now left].
  right; right. rewrite Q, cancels_app. lia.
Qed.

Notation with_run := (with_run o ext piped_stdin use_pty out_bytes err_bytes enc).
Notation any_body := (any_body o ext).
Theorem run_asked r w' : with_run any_body fresh r w' -> forall i, (i < List.length (w_tasks w'))%nat -> asked (w_tasks w') (w_hist w') i.
Proof.
  intros H. eapply (all_run o ext piped_stdin use_pty out_bytes err_bytes enc asked); [|exact asked_stable|exact asked_harvest|exact H].
  intros w i D. left. apply done_over in D as (t & N & D). eauto.
Qed.
Theorem run_ended r w' : with_run any_body fresh r w' -> forall i, (i < List.length (w_tasks w'))%nat -> ended (w_tasks w') (w_hist w') i.
Proof.
  intros H. eapply (all_run o ext piped_stdin use_pty out_bytes err_bytes enc ended); [|exact ended_stable2|exact ended_harvest|exact H].
  intros w i D. left. now apply done_over.
Qed.

(** ** Runs that nobody cancels *)
Notation kill_wait := (kill_wait o ext).
Notation kill := (kill o ext).
Notation wait := (wait o ext).
Notation close := (close o ext piped_stdin).
Notation finish := (finish o ext piped_stdin).
Notation aexit := (aexit o ext piped_stdin).
Notation aenter := (aenter o ext use_pty out_bytes err_bytes enc).
Notation reg := (reg o ext).
Notation all := (all_in over).
Notation own := (own_in over).
Definition loud {A} (r : res A) : Prop := r = Err cancel_failed \/ r = Err unable_to_kill.

Lemma quiet_harvest aws t cf (w : world) r w' : harvest aws t cf w r w' -> aws <> [] -> J w -> mk w' = 0%nat ->
  (forall i, In i (managed w aws) -> over (w_tasks w') (w_hist w') i) \/ r = Err cancel_failed.
Proof.
  intros H Hne HJ MZ. destruct (harvest_facts _ _ _ _ _ _ _ _ H Hne) as (w0 & rw & h1 & h2 & w1 & E0 & O & F & R).
  pose proof (k_harvest _ _ _ (stable_J o ext) _ _ _ _ _ _ HJ H) as (_ & _ & (MKw & _) & _). unfold MK in MKw. fold (mk w') in MKw. rewrite MZ in MKw.
  pose proof (harvest_hist _ _ _ _ _ _ _ _ _ _ E0 F) as Hq. rewrite Hq, !cancels_app in MKw. destruct rw as [[]|e].
  - left. intros i Hi. apply done_over. now apply (hf_ok _ _ _ _ _ _ _ _ _ F).
  - subst r. destruct (hf_errs _ _ _ _ _ _ _ _ _ F e eq_refl) as [->|[->| ->]]; [left|exfalso|now right].
    + intros i Hi. apply done_over. destruct (hf_to _ _ _ _ _ _ _ _ _ F eq_refl) as (_ & _ & _ & AD & _). auto.
    + destruct (hf_canc _ _ _ _ _ _ _ _ _ F eq_refl) as [(Q & _)|(_ & Q)]; [apply cancels_In in Q|]; lia.
Qed.
Lemma quiet_coro k t cf w r w' : harvest [AwCoro k] t cf w r w' -> J w -> mk w' = 0%nat -> all w -> all w' \/ r = Err cancel_failed.
Proof.
  intros H HJ MZ A. destruct (quiet_harvest _ _ _ _ _ _ H) as [D|D]; [discriminate|exact HJ|exact MZ|left|now right].
  intros i L. rewrite (harvest_len o ext _ _ _ _ _ _ H) in L. destruct (Nat.eq_dec i (List.length (w_tasks w))) as [->|N].
  - apply D. now left.
  - refine (k_harvest rstep rfinish _ (over_stable i) _ _ _ _ _ _ _ H). apply A. lia.
Qed.
Lemma quiet_tasks t w r w' : opt_harvest o ext (x_tasks (w_x w)) t w r w' -> J w -> mk w' = 0%nat -> own w -> all w' \/ r = Err cancel_failed.
Proof.
  intros HH HJ MZ H. unfold opt_harvest in HH. destruct (x_tasks (w_x w)) as [|a ts] eqn:E; [destruct HH as [_ ->]; left; now apply own_empty|].
  rewrite <- E in HH. assert (N : map (@AwTask rkind) (x_tasks (w_x w)) <> []) by (rewrite E; discriminate).
  assert (LL : List.length (w_tasks w') = List.length (w_tasks w)).
  { pose proof (harvest_len o ext _ _ _ _ _ _ HH) as Q. rewrite E in Q. cbn in Q. destruct ts; apply Q; intros k; cbn; [intros [[=]|[]]|].
    intros [[=]|[[=]|I]]. clear -I. induction ts as [|b ts IH]; [destruct I|]. destruct I as [[=]|I]; auto. }
  destruct (quiet_harvest _ _ _ _ _ _ HH N HJ MZ) as [D|D]; [left|now right].
  intros i L. rewrite LL in L. destruct (H i L) as [Q|Q].
  - refine (k_harvest rstep rfinish _ (over_stable i) _ _ _ _ _ _ Q HH).
  - apply D. now rewrite managed_tasks.
Qed.
Lemma quiet_kill_wait w r w' : kill_wait w r w' -> J w -> x_proc (w_x w) = true -> mk w' = 0%nat ->
  (all w -> all w' \/ loud r) /\ (r = Ok tt \/ loud r).
Proof.
  intros H HJ PR MZ. destruct (kill_wait_spec o ext _ _ _ H HJ PR) as (R & _ & _ & ER).
  assert (RL : r = Ok tt \/ loud r).
  { destruct r as [[]|e]; [now left|right]. destruct (ER e eq_refl) as [[->|[->| ->]] D]; [|now left|now right].
    exfalso. destruct (D eq_refl) as (l1 & l2 & E & Q). unfold mk in MZ. rewrite E, marks_app in MZ. cbn in MZ. lia. }
  split; [|exact RL]. intros A. unfold RunnerModel.kill_wait in H. cbn [bindM] in H.
  destruct H as [([] & w1 & H1 & H)|(e & H1 & _)]; apply i_getx in H1; rewrite PR in H1; destruct H1 as [Q ->]; [clear Q|discriminate].
  apply i_getx in H. destruct (x_rc (w_x w)) eqn:RC; [destruct H as [_ ->]; now left|].
  assert (TRY : forall rt wt, bindM (signal o None) (fun _ => harvest [AwCoro KWaiter] true false) w rt wt -> mk wt = 0%nat -> all wt \/ rt = Err cancel_failed).
  { intros rt wt HT MT. destruct HT as [([] & w2 & H2 & H3)|(e & H2 & _)]; apply signal_run in H2 as [(_ & Q & ->)|(Q & _)]; try congruence; try discriminate.
    eapply quiet_coro; [exact H3| |exact MT|exact A]. now apply (signal_upd o ext). }
  destruct H as [([] & H & ->)|(e & w2 & H & H2)]; [destruct (TRY _ _ H MZ) as [Q|Q]; [now left|discriminate]|].
  assert (MM : e <> TimeoutError -> w' = w2 /\ r = Err e).
  { intros N. destruct e; try congruence; destruct H2 as [-> ->]; auto. }
  destruct e; try (destruct MM as [-> ->]; [discriminate|]; destruct (TRY _ _ H MZ) as [Q|Q]; [now left|right; injection Q; intros; subst; now left]).
  clear MM. assert (M2 : mk w2 = 0%nat /\ (all w2 -> all w')).
  { assert (PO : forall rp wp, poll_wait_pid w2 rp wp -> (mk w2 <= mk wp)%nat /\ (all w2 -> all wp)).
    { intros rp wp HP. apply i_getx in HP. destruct (x_rc (w_x w2)); [destruct HP as [_ ->]; auto|]. apply i_getx in HP. destruct (waitpid_status (w_x w2)); [|destruct HP as [_ ->]; auto].
      apply i_modx in HP. destruct HP as [_ ->]. split; [|intros QA; exact QA]. unfold mk. cbn. rewrite marks_app. lia. }
    destruct H2 as [(b & w3 & H3 & H4)|(e & H3 & _)]; apply PO in H3 as [L K].
    - assert (w' = w3) by (destruct b; now destruct H4). subst w3. split; [lia|exact K].
    - split; [lia|exact K]. }
  destruct M2 as [M2 K2]. destruct (TRY _ _ H M2) as [Q|Q]; [left; auto|discriminate].
Qed.
Lemma quiet_kill w r w' : kill w r w' -> J w -> x_proc (w_x w) = true -> mk w' = 0%nat ->
  (own w -> all w' \/ loud r) /\ (x_tasks (w_x w) = [] -> r = Ok tt \/ loud r).
Proof.
  intros H HJ PR MZ. unfold RunnerModel.kill in H.
  destruct H as [([] & w1 & H1 & H)|(e & H1 & _)]; apply i_getx in H1; rewrite PR in H1; destruct H1 as [Q ->]; [clear Q|discriminate].
  change (tryM (kill_body o ext) (fun e => match e with
                 | CancelledError => Some (bindM set_cancelled (fun _ => kill_wait))
                 | TimeoutError => Some kill_wait
                 | _ => Some (bindM kill_wait (fun _ => raise e))
                 end) w r w') in H.
  assert (BODY : forall rb wb, kill_body o ext w rb wb -> mk wb = 0%nat -> J wb /\ x_proc (w_x wb) = true
     /\ (own w -> all wb \/ rb = Err cancel_failed) /\ (x_tasks (w_x w) = [] -> forall e, rb = Err e -> e = TimeoutError \/ e = cancel_failed)).
  { intros rb wb HB MB. destruct (kill_body_spec o ext _ _ _ HB HJ PR) as (R & _). split; [apply R; exact HJ|]. split; [exact (reg_proc _ _ _ _ R PR)|]. unfold kill_body in HB.
    assert (SIG : exists w1, reg w w1 /\ x_tasks (w_x w1) = x_tasks (w_x w) /\ (own w -> own w1) /\ bindM (bindM (getx x_tasks) (fun ts => opt_harvest o ext ts true)) (fun _ =>
       bindM (getx x_rc) (fun rc => match rc with None => harvest [AwCoro KWaiter] true false | Some _ => ret tt end)) w1 rb wb).
    { assert (SI : forall rs ws, bindM (getx x_rc) (fun rc => match rc with None => signal o (o_cancel_signal o) | Some _ => ret tt end) w rs ws -> rs = Ok tt /\ reg w ws /\ x_tasks (w_x ws) = x_tasks (w_x w) /\ (own w -> own ws)).
      { intros rs ws Q. apply i_getx in Q. destruct (x_rc (w_x w)) eqn:RC; [destruct Q as [-> ->]; auto using reg_refl|].
        apply signal_run in Q as [(_ & -> & ->)|(Q & _)]; [|congruence]. split; [reflexivity|]. split; [now apply signal_upd|].
        assert (XT : x_tasks (w_x (upd_x w (signal_x o (o_cancel_signal o)))) = x_tasks (w_x w)).
        { unfold upd_x, signal_x, audit, popen_send, popen_poll. cbn. destruct (o_audit_callback o), (o_cancel_signal o), (x_exit (w_x w)) eqn:XE; cbn; rewrite ?XE; reflexivity. }
        split; [exact XT|]. intros HO i L. rewrite XT. exact (HO i L). }
      destruct HB as [([] & w1 & H1 & H2)|(e & H1 & _)]; apply SI in H1 as (Q & H1 & H1' & H1''); [|discriminate]. exists w1. auto. }
    destruct SIG as (w1 & R1 & X1 & O1 & H1). clear HB. assert (J1 : J w1) by (apply R1; exact HJ).
    destruct H1 as [([] & w2 & H1 & H2)|(e & H1 & ->)]; apply i_getx in H1.
    - pose proof (r_opt_harvest o ext _ _ _ _ _ H1) as R2. assert (J2 : J w2) by (apply R2; exact J1). apply i_getx in H2.
      destruct (x_rc (w_x w2)) eqn:RC.
      + destruct H2 as [-> ->]. split; [|intros _ e [=]]. intros HO. destruct (quiet_tasks _ _ _ _ H1 J1 MB (O1 HO)) as [Q|Q]; [now left|discriminate].
      + assert (M2 : mk w2 = 0%nat). { pose proof (reg_mk _ _ _ _ (harvest_reg _ _ _ _ _ _ _ _ H2)). lia. } split.
        * intros HO. destruct (quiet_tasks _ _ _ _ H1 J1 M2 (O1 HO)) as [Q|Q]; [|discriminate]. eapply quiet_coro; eauto.
        * intros _ e ->. destruct (harvest_waiter_err o ext _ _ _ H2 J2) as [->|[->|(-> & l & h & E & Q)]]; [now left|now right|].
          exfalso. unfold mk in MB. rewrite (fr_log _ _ _ (er_frame _ _ _ _ _ E)), marks_app in MB. lia.
    - split.
      + intros HO. exact (quiet_tasks _ _ _ _ H1 J1 MB (O1 HO)).
      + intros XT. rewrite X1, XT in H1. destruct H1; discriminate. }
  destruct H as [([] & H1 & ->)|(e & w1 & H1 & H2)].
  - destruct (BODY _ _ H1 MZ) as (_ & _ & B1 & _). split; [|now left]. intros HO. destruct (B1 HO) as [Q|Q]; [now left|discriminate].
  - destruct (kill_body_spec o ext _ _ _ H1 HJ PR) as (R1 & _). assert (J1 : J w1) by (apply R1; exact HJ). assert (P1 := reg_proc _ _ _ _ R1 PR).
    assert (KW : exists wk rk, (wk = w1 \/ wk = cancelled_now w1) /\ kill_wait wk rk w' /\ (match rk with Err e' => r = Err e' | Ok _ => r = Ok tt \/ r = Err e end)
       /\ (e = cancel_failed -> rk = Ok tt -> r = Err cancel_failed)
       /\ (e = TimeoutError -> rk = Ok tt -> r = Ok tt)).
    { assert (KR : bindM kill_wait (fun _ => raise (A := unit) e) w1 r w' -> exists wk rk, (wk = w1 \/ wk = cancelled_now w1) /\ kill_wait wk rk w' /\ (match rk with Err e' => r = Err e' | Ok _ => r = Ok tt \/ r = Err e end)
       /\ (e = cancel_failed -> rk = Ok tt -> r = Err cancel_failed) /\ (e = TimeoutError -> rk = Ok tt -> r = Err e)).
      { intros Q. apply i_then_raise in Q as (rk & HK & RK). exists w1, rk. split; [now left|]. split; [exact HK|]. split; [destruct rk; auto|]. split; [|intros _ ->; exact RK]. intros -> ->. exact RK. }
      destruct e; try (destruct (KR H2) as (wk & rk & A & B & C & D & E); exists wk, rk; split; [exact A|]; split; [exact B|]; split; [exact C|]; split; [exact D|discriminate]).
      - exists w1, r. split; [now left|]. split; [exact H2|]. split; [destruct r as [[]|]; auto|]. split; [discriminate|auto].
      - apply i_modx in H2. exists (cancelled_now w1), r. split; [now right|]. split; [exact H2|]. split; [destruct r as [[]|]; auto|]. split; discriminate. }
    destruct KW as (wk & rk & WK & HK & RK & CF & TO).
    assert (RW : reg w1 wk) by (destruct WK as [->| ->]; [apply reg_refl|apply cancelled_now_reg]).
    assert (JK : J wk) by (apply RW; exact J1). assert (PK := reg_proc _ _ _ _ RW P1).
    assert (M1 : mk w1 = 0%nat).
    { destruct (kill_wait_spec o ext _ _ _ HK JK PK) as (R2 & _). pose proof (reg_mk _ _ _ _ R2). pose proof (reg_mk _ _ _ _ RW). lia. }
    destruct (BODY _ _ H1 M1) as (_ & _ & B1 & B2). destruct (quiet_kill_wait _ _ _ HK JK PK MZ) as [KA KB]. split.
    + intros HO. destruct (B1 HO) as [A1|A1].
      * assert (AK : all wk) by (destruct WK as [->| ->]; exact A1). destruct (KA AK) as [Q|Q]; [now left|right]. destruct Q as [->| ->]; cbn in RK; subst r; [now left|now right].
      * injection A1 as ->. right. destruct KB as [->|[->| ->]]; [left; auto| |]; cbn in RK; subst r; [now left|now right].
    + intros XT. destruct KB as [->|[->| ->]]; [|right; cbn in RK; subst r; now left|right; cbn in RK; subst r; now right].
      destruct (B2 XT e eq_refl) as [->| ->]; [left; auto|right; left; auto].
Qed.
Lemma quiet_wait w r w' : wait w r w' -> J w -> x_proc (w_x w) = true -> mk w' = 0%nat -> own w -> all w' \/ loud r.
Proof.
  intros H HJ PR MZ HO.
  apply wait_cases in H as [-> H|w1 H Mk HK|e w1 rk H Er _ HK ->]; [| | |exact HJ|exact PR].
  - destruct (quiet_tasks _ _ _ _ H HJ MZ HO) as [Q|Q]; [now left|discriminate].
  - exfalso. pose proof (r_opt_harvest o ext _ _ _ _ _ H) as R1.
    assert (RC : reg w1 (cleared (cancelled_now w1))) by (eapply reg_trans; [apply cancelled_now_reg|apply cleared_reg]).
    pose proof (reg_trans _ _ _ _ _ R1 RC) as R2. destruct (kill_spec o ext _ _ _ HK) as (R3 & _); [apply R2; exact HJ|exact (reg_proc _ _ _ _ R2 PR)|].
    pose proof (reg_mk _ _ _ _ R3). pose proof (reg_mk _ _ _ _ RC). lia.
  - pose proof (r_opt_harvest o ext _ _ _ _ _ H) as R1. pose proof (cleared_reg o ext w1) as RC.
    pose proof (reg_trans _ _ _ _ _ R1 RC) as R2. assert (JC : J (cleared w1)) by (apply R2; exact HJ). assert (PC := reg_proc _ _ _ _ R2 PR).
    destruct (kill_spec o ext _ _ _ HK JC PC) as (R3 & _).
    assert (M1 : mk w1 = 0%nat). { pose proof (reg_mk _ _ _ _ R3). pose proof (reg_mk _ _ _ _ RC). lia. }
    destruct (quiet_kill _ _ _ HK JC PC MZ) as [KA KB]. specialize (KB eq_refl).
    destruct (quiet_tasks _ _ _ _ H HJ M1 HO) as [A1|A1].
    + destruct (KA (all_own over (cleared w1) A1)) as [Q|[->| ->]]; [now left|right; now left|right; now right].
    + injection A1 as ->. right. destruct KB as [->|[->| ->]]; [now left|now left|now right].
Qed.
Lemma quiet_close w r w' : close w r w' -> J w -> x_proc (w_x w) = true -> mk w' = 0%nat -> all w -> all w' \/ r = Err cancel_failed.
Proof.
  intros H HJ PR MZ A. unfold RunnerModel.close in H.
  destruct H as [([] & w1 & H1 & H)|(e & H1 & _)]; apply i_getx in H1; rewrite PR in H1; destruct H1 as [Q ->]; [clear Q|discriminate].
  apply i_modx in H. set (wc := upd_x w _) in *. apply i_getx in H.
  destruct (x_rc (w_x wc)) eqn:RC; [|destruct H as [_ ->]; now left]. destruct piped_stdin; [|destruct H as [_ ->]; now left].
  assert (RCW : x_rc (w_x w) <> None).
  { revert RC. subst wc. cbn. destruct (x_rc (w_x w)) eqn:Q; [discriminate|]. unfold popen_send, popen_poll. cbn. destruct (x_exit (w_x w)) eqn:XE; cbn; rewrite ?XE; cbn; congruence. }
  assert (WC : wc = w). { subst wc. unfold upd_x. destruct (x_rc (w_x w)); [destruct w; reflexivity|congruence]. } rewrite WC in *. clear wc WC.
  destruct H as [([] & H & ->)|(e & w2 & H & H2)].
  - destruct (quiet_coro _ _ _ _ _ _ H HJ MZ A) as [Q|Q]; [now left|discriminate].
  - assert (M2 : w' = w2 /\ (e = TimeoutError \/ r = Err e)) by (destruct e; destruct H2 as [-> ->]; auto).
    destruct M2 as [-> RE]. destruct (quiet_coro _ _ _ _ _ _ H HJ MZ A) as [Q|Q]; [now left|]. injection Q as ->. destruct RE as [RE|RE]; [discriminate|now right].
Qed.
Lemma quiet_finish exc w r w' : finish exc w r w' -> J w -> x_proc (w_x w) = true -> mk w' = 0%nat -> own w ->
  all w' \/ exists e, r = Err e /\ run_errors w' e.
Proof.
  intros H HJ PR MZ HO.
  assert (CL : forall (w1 : world) (rk : res unit) (b : bool) (rc : res unit), reg w w1 -> (mk w1 = 0%nat -> all w1 \/ loud rk) -> close w1 rc w' ->
     r = (match rc with Err e' => Err e' | Ok _ => match rk with Ok _ => Ok b | Err e' => Err e' end end) -> all w' \/ exists e, r = Err e /\ run_errors w' e).
  { intros w1 rk b rc R1 A1 HC Hr. assert (J1 : J w1) by (apply R1; exact HJ). assert (P1 := reg_proc _ _ _ _ R1 PR).
    destruct (close_spec o ext piped_stdin _ _ _ HC J1 P1) as (R2 & _ & CE).
    assert (M1 : mk w1 = 0%nat) by (pose proof (reg_mk _ _ _ _ R2); lia).
    destruct (A1 M1) as [A|A].
    - destruct (quiet_close _ _ _ HC J1 P1 MZ A) as [Q|Q]; [now left|right]. subst rc. exists cancel_failed. split; [exact Hr|now left].
    - right. destruct rc as [[]|e'].
      + destruct A as [->| ->]; (eexists; split; [exact Hr|]); [now left|right; now left].
      + exists e'. split; [exact Hr|]. destruct CE as [(_ & Q & _)|(_ & _ & CE)]; [discriminate|]. destruct (CE e' eq_refl) as [(_ & Q)|[->|Q]]; [lia|now left|right; now right]. }
  apply finish_cases in H as [e w1 rk rc _ HK HC Hr|w1 rk rc _ HW HC Hr]; [| |exact PR].
  - set (wk := if is_cancelled e then cancelled_now w else w) in *.
    assert (RK : reg w wk) by (unfold wk; destruct (is_cancelled e); [apply cancelled_now_reg|apply reg_refl]).
    assert (JK : J wk) by (apply RK; exact HJ). assert (PK := reg_proc _ _ _ _ RK PR).
    destruct (kill_spec o ext _ _ _ HK JK PK) as (R1 & _).
    eapply CL; [eapply reg_trans; [exact RK|exact R1]| |exact HC|exact Hr].
    intros M1. apply (quiet_kill _ _ _ HK JK PK M1). unfold wk. destruct (is_cancelled e); exact HO.
  - eapply CL; [eapply wait_reg; eauto| |exact HC|exact Hr]. intros M1. eapply quiet_wait; eauto.
Qed.
Lemma aenter_ok_start w0 : aenter fresh (Ok tt) w0 -> start o ext use_pty (begun o) (Ok tt) w0.
Proof.
  intros H. unfold RunnerModel.aenter in H. apply i_modx in H. fold (begun o) in H.
  destruct H as (ra & wb & H1 & H2).
  assert (FIN : forall rf wf, bindM (getx (fun x => x_cancelled x && o_catch_cancelled o)) (fun b : bool => if b then bindM (run_result o out_bytes err_bytes enc true) (fun _ => ret tt) else ret tt) wb rf wf -> wf = wb).
  { intros rf wf HF. apply i_getx in HF. destruct (_ && _); [|now destruct HF].
    destruct HF as [(v & w2 & HF & [_ ->])|(e & HF & _)]; apply i_getx in HF; destruct (runner_result _ _ _ _ _ _ _ _); now destruct HF. }
  destruct H2 as [(HF & Q)|(e & HF & Q)]; [|discriminate]. symmetry in Q. apply FIN in HF. subst wb ra.
  destruct H1 as [(u & HS & Q)|(e & ws & HS & HH)]; [destruct u; exact HS|]. exfalso. cbn in HH.
  destruct HH as [([] & w2 & _ & HH)|(e' & _ & Q)]; [|discriminate]. destruct HH as [([] & w3 & _ & [Q _])|(e' & _ & Q)]; discriminate.
Qed.
End R.
Section R2.
Context (o : opts) (piped_stdin use_pty : bool) (out_bytes err_bytes : option bytes) (enc : text).
Notation ext := false.
Notation world := (world rx rkind unit).
Theorem run_quiet r (w' : world) : with_run o ext piped_stdin use_pty out_bytes err_bytes enc (any_body o ext) fresh r w' -> mk w' = 0%nat ->
  (forall i, (i < List.length (w_tasks w'))%nat -> task_done w' i = true) \/ exists e, r = Err e /\ run_errors w' e.
Proof.
  intros H MZ.
  assert (FIN : all_in over w' \/ (exists e, r = Err e /\ run_errors w' e)).
  2:{ destruct FIN as [A|A]; [left|now right]. intros i L. now apply over_done, A. }
  destruct (begun_x o) as (B1 & B2 & B3 & B4 & B5 & B6 & B7 & B8).
  assert (ST : forall rs ws, start o ext use_pty (begun o) rs ws -> match rs with
     | Ok _ => own_in over ws
     | Err e => exists w1 rk, own_in over w1 /\ J ext w1 /\ (x_proc (w_x w1) = true \/ x_tasks (w_x w1) = [])
        /\ (if x_proc (w_x w1) then kill o ext w1 rk ws else rk = Ok tt /\ ws = w1) /\ (forall e', rk = Err e' -> e = e') end).
  { intros rs ws HS. pose proof (own_start o ext use_pty over done_over (over_stable o ext) _ _ _ HS) as Q.
    destruct rs as [u|e]; [apply Q|apply Q]; first [apply begun_J|split; auto|repeat split; auto]. }
  destruct H as [([] & w0 & H1 & (rb & w1 & H2 & H3))|(e & H1 & ->)].
  - pose proof (ST _ _ (aenter_ok_start _ _ _ _ _ _ _ H1)) as O0. cbn in O0.
    assert (E0 : J ext w1 /\ x_proc (w_x w1) = true).
    { apply aenter_cases in H1 as [wa P PR Mk -> _|e wa _ _ (e' & Q) _ _]; [|discriminate].
      destruct (body_ready o ext _ _ _ P PR H2) as (J1 & PR1 & _ & _). auto. }
    destruct E0 as (J1 & PR1). apply (own_body o ext over (over_stable o ext)) in H2; [|exact O0].
    assert (X : forall exc rx wx, aexit o ext piped_stdin exc w1 rx wx -> mk wx = 0%nat -> all_in over wx \/ exists e, rx = Err e /\ run_errors wx e).
    { intros exc rx wx HX MX.
      assert (SM : forall u, mk (stopped o u) = mk u).
      { intros u. unfold mk. destruct (stopped_log o u) as (l & -> & Q & _). rewrite marks_app. replace (marks l) with 0%nat; [lia|].
        clear -Q. induction l as [|a l IH]; [reflexivity|]. destruct (Q a (or_introl eq_refl)) as (p & ->). cbn. apply IH. intros b Hb. apply Q. now right. }
      apply aexit_cases in HX as [w2 b HF -> ->|w2 HF -> ->|w2 e HF Ne -> ->]; rewrite SM in MX;
        (destruct (quiet_finish _ _ _ _ _ _ _ HF J1 PR1 MX H2) as [A|(e' & Q & A)]; [left; exact A|]); try discriminate.
      - injection Q as <-. destruct A as [A|[A|(A & _)]]; discriminate.
      - injection Q as <-. right. exists e. split; [reflexivity|exact A]. }
    destruct rb as [[]|eb].
    + destruct H3 as [(b & w2 & H3 & [-> ->])|(e & H3 & ->)]; destruct (X _ _ _ H3 MZ) as [Q|(e' & Q & A)]; auto; [discriminate|]. right. injection Q as <-. eauto.
    + destruct H3 as [(b & w2 & H3 & H4)|(e & H3 & ->)].
      * assert (w' = w2) by (destruct b; now destruct H4). subst w2. destruct (X _ _ _ H3 MZ) as [Q|(e' & Q & A)]; [auto|discriminate].
      * destruct (X _ _ _ H3 MZ) as [Q|(e' & Q & A)]; [auto|]. right. injection Q as <-. eauto.
  - pose proof H1 as HE.
    apply (own_aenter o ext use_pty out_bytes err_bytes enc asked) in H1; [|intros u i D; left; apply done_over in D as (t & N & D); eauto|apply asked_stable|apply asked_harvest].
    destruct H1 as (_ & e1 & w1 & HS & -> & EE).
    assert (NC : x_cancelled (w_x (failed_start o w1 e1)) = false).
    { destruct (x_cancelled _) eqn:Q; [|reflexivity]. apply (enter_canc _ _ _ _ _ _ _ HE) in Q. lia. }
    rewrite (EE NC). clear EE. destruct (ST _ _ HS) as (w2 & rk & O2 & J2 & PX & HK & RK).
    assert (M1 : mk w1 = 0%nat) by (rewrite failed_mk in MZ; exact MZ).
    destruct (x_proc (w_x w2)) eqn:PR.
    + destruct (quiet_kill o ext _ _ _ HK J2 PR M1) as [KA _]. destruct (KA O2) as [A|A]; [left; exact A|right].
      destruct A as [->| ->]; rewrite (RK _ eq_refl); eexists; (split; [reflexivity|]); [now left|right; now left].
    + destruct HK as [_ ->]. destruct PX as [Q|Q]; [discriminate|]. left. exact (own_empty over w2 O2 Q).
Qed.
End R2.
