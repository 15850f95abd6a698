(** Lemmas for C117: the tasks of a run when the run is over. *)
From Verif Require Import AsyncModel AsyncSpec AsyncProofs HarvestModel HarvestSpec HarvestProofs HarvestProofs2 AsyncInv
  RunnerModel RunnerSpec RunnerProofs RunnerProofs2 RunnerProofs3 RunnerProofs4 RunnerProofs5 RunnerProofs6 RunnerProofs7.
Open Scope Z_scope.

Section R.
Context (o : opts) (ext piped_stdin use_pty : bool) (out_bytes err_bytes : option bytes) (enc : text).
Notation world := (world rx rkind unit).
Notation M := (@M rx rkind unit).
Notation rstep := (rstep o).
Notation rfinish := (rfinish ext).
Notation harvest := (harvest rstep rfinish).
Notation kill_wait := (kill_wait o ext).
Notation kill := (kill o ext).
Notation wait := (wait o ext).
Notation close := (close o ext piped_stdin).
Notation finish := (finish o ext piped_stdin).
Notation aexit := (aexit o ext piped_stdin).
Notation aenter := (aenter o ext use_pty out_bytes err_bytes enc).
Notation with_run := (with_run o ext piped_stdin use_pty out_bytes err_bytes enc).
Notation any_body := (any_body o ext).
Notation len w := (List.length (w_tasks w)).

(** Code that creates no tasks. *)
Definition lk {A} (m : M A) := forall w r w', m w r w' -> len w' = len w.
Lemma l_bind {A B} (m : M A) (f : A -> M B) : lk m -> (forall a, lk (f a)) -> lk (bindM m f).
Proof. intros A1 A2 w r w' [(a & w1 & H1 & H2)|(e & H1 & _)]; [rewrite (A2 a _ _ _ H2)|]; exact (A1 _ _ _ H1). Qed.
Lemma l_try {A} (m : M A) h : lk m -> (forall e k, h e = Some k -> lk k) -> lk (tryM m h).
Proof.
  intros A1 A2 w r w' [(a & H1 & _)|(e & w1 & H1 & H2)]; [exact (A1 _ _ _ H1)|]. rewrite <- (A1 _ _ _ H1). destruct (h e) as [k|] eqn:E.
  - exact (A2 e k E _ _ _ H2).
  - destruct H2 as [_ ->]. reflexivity.
Qed.
Lemma l_ret {A} (a : A) : lk (ret a). Proof. intros w r w' [_ ->]. reflexivity. Qed.
Lemma l_raise {A} e : lk (raise (A := A) e). Proof. intros w r w' [_ ->]. reflexivity. Qed.
Lemma l_get : lk getM. Proof. intros w r w' [_ ->]. reflexivity. Qed.
Lemma l_assert b : lk (assertM b). Proof. destruct b; [apply l_ret|apply l_raise]. Qed.
Lemma l_for {A} (l : list A) f : (forall a, lk (f a)) -> lk (for_ l f).
Proof. intros H. induction l as [|a l IH]; cbn; [apply l_ret|]. apply l_bind; auto. Qed.
Lemma l_cancel i : lk (cancel_task i).
Proof. intros w r w' [_ ->]. apply req_len. Qed.
Lemma l_wait fs t m : lk (await_wait rstep rfinish fs t m).
Proof. intros w r w'. destruct fs as [|f fs]; [intros [_ ->]; reflexivity|]. intros (evs & s & R & _). eapply wait_run_len; eauto. Qed.
Lemma l_consume l : lk (consume_exceptions l).
Proof. apply l_for. intros a. apply l_bind; [apply l_get|]. intros w. apply l_assert. Qed.
Lemma l_cancel_waiter l : lk (cancel_waiter rstep rfinish l).
Proof.
  apply l_bind; [apply l_wait|]. intros dp. destruct (snd dp); [apply l_ret|].
  apply l_bind; [apply l_for; intros a; apply l_cancel|]. intros; apply l_raise.
Qed.
Lemma l_cancel_wait l cf : lk (cancel_wait rstep rfinish l cf).
Proof.
  apply l_try.
  - apply l_bind; [destruct cf; [apply l_ret|apply l_for; intros a; apply l_cancel]|]. intros; apply l_cancel_waiter.
  - intros e k. destruct e; try discriminate. intros [= <-]. apply l_cancel_waiter.
Qed.
Lemma l_harvest_wait l t cf : lk (harvest_wait rstep rfinish l t cf).
Proof.
  apply l_bind.
  - apply l_try.
    + apply l_bind; [apply l_wait|]. intros dp. apply l_bind; [apply l_get|]. intros; apply l_ret.
    + intros e k. destruct e; try discriminate. intros [= <-]. apply l_bind; [apply l_cancel_wait|]. intros _.
      apply l_bind; [apply l_consume|]. intros; apply l_raise.
  - intros dpt. apply l_bind; [destruct (snd (fst dpt)); [apply l_ret|apply l_cancel_wait]|]. intros _.
    apply l_bind; [apply l_get|]. intros w. apply l_bind; [apply l_assert|]. intros _.
    destruct (snd dpt); [|apply l_ret]. apply l_bind; [apply l_consume|]. intros; apply l_raise.
Qed.
Lemma l_harvest_tasks l t cf : lk (harvest_tasks rstep rfinish l t cf).
Proof.
  apply l_bind; [apply l_harvest_wait|]. intros _. apply l_bind; [apply l_consume|]. intros _. apply l_for. intros a.
  apply l_bind; [apply l_get|]. intros w. assert (Q : lk (bindM (get_task_result a) (fun _ : unit => ret (X := rx) (K := rkind) (V := unit) tt))).
  { apply l_bind; [|intros; apply l_ret]. apply l_bind; [apply l_get|]. intros w0. destruct (task_out w0 a) as [r|]; [|apply l_raise].
    destruct (task_result r); [apply l_ret|apply l_raise]. }
  destruct (task_out w a) as [[| |]|]; auto. apply l_ret.
Qed.

(** A fact about a task that depends on the tasks and on the history only. *)
Context (F : list (task rkind unit) -> list (hev unit) -> nat -> Prop).
Notation S_ w i := (F (w_tasks w) (w_hist w) i).
Context (Fdone : forall (w : world) i, task_done w i = true -> S_ w i).
Context (Fstable : forall i, stable rstep rfinish (fun w => S_ w i)).
Context (Fharvest : forall aws t cf (w : world) r w', harvest aws t cf w r w' -> aws <> [] -> cf = false \/ aws = [AwCoro KClosed] ->
  forall i, In i (managed w aws) -> S_ w' i).

(** It holds of all tasks, or of all but those that the Runner keeps a list of. *)
Definition all_in (w : world) : Prop := forall i, (i < len w)%nat -> S_ w i.
Definition own_in (w : world) : Prop := forall i, (i < len w)%nat -> S_ w i \/ In i (x_tasks (w_x w)).
Lemma all_own w : all_in w -> own_in w.
Proof. intros H i L. left. auto. Qed.
Lemma own_empty w : own_in w -> x_tasks (w_x w) = [] -> all_in w.
Proof. intros H E i L. destruct (H i L) as [Q|Q]; [exact Q|]. rewrite E in Q. destruct Q. Qed.

Lemma harvest_len aws t cf w r w' : harvest aws t cf w r w' ->
  match aws with [AwCoro _] => len w' = S (len w) | _ => (forall k, ~ In (AwCoro k) aws) -> len w' = len w end.
Proof.
  intros H. assert (E : forall l u (ru : res (list nat)) u', (forall k, ~ In (AwCoro k) l) -> ensure_futures l u ru u' -> len u' = len (u : world)).
  { induction l as [|[i|k] l IH]; intros u ru u' N Q.
    - destruct Q as [_ ->]. reflexivity.
    - destruct Q as [(a & u1 & [_ ->] & Q)|(e & [Q _] & _)]; [|discriminate].
      destruct Q as [(b & u1 & Q & [_ ->])|(e & Q & _)]; (eapply IH; [|exact Q]); intros k Hk; apply (N k); now right.
    - elim (N k). now left. }
  destruct H as [(ts & w1 & H1 & H2)|(e & H1 & _)].
  - apply l_harvest_tasks in H2. rewrite H2. destruct aws as [|[i|k] [|b aws]]; try (intros N; eapply E; eauto; fail).
    destruct H1 as [(a & w2 & [_ ->] & Q)|(e & [Q _] & _)]; [|discriminate].
    destruct Q as [(b & w3 & [_ ->] & [_ ->])|(e & [Q _] & _)]; [|discriminate]. cbn. rewrite app_length. cbn. lia.
  - apply ensure_futures_spec in H1. destruct H1; discriminate.
Qed.
Definition upto (n : nat) (w : world) : Prop := forall i, (i < n)%nat -> S_ w i.
Definition oupto (n : nat) (w : world) : Prop := forall i, (i < n)%nat -> S_ w i \/ In i (x_tasks (w_x w)).
Lemma upto_stable n : stable rstep rfinish (upto n).
Proof.
  constructor; [intros w ev w' c H E i L|intros w H i L|intros w j H i L|intros w k H i L]; specialize (H i L).
  - eapply (st_env _ _ _ (Fstable i)); eauto.
  - exact (st_timer _ _ _ (Fstable i) _ H).
  - exact (st_req _ _ _ (Fstable i) _ _ H).
  - exact (st_spawn _ _ _ (Fstable i) _ k H).
Qed.
Lemma oupto_stable n : stable rstep rfinish (oupto n).
Proof.
  constructor; [intros w ev w' c H E i L|intros w H i L|intros w j H i L|intros w k H i L]; destruct (H i L) as [Q|Q].
  - left. eapply (st_env _ _ _ (Fstable i)); eauto.
  - right. destruct (env_step_reg o ext _ _ _ _ E) as (_ & l & h & R). rewrite (fr_tasks _ _ _ (er_frame _ _ _ _ _ R)). exact Q.
  - left. exact (st_timer _ _ _ (Fstable i) _ Q).
  - right. exact Q.
  - left. exact (st_req _ _ _ (Fstable i) _ _ Q).
  - right. unfold req. destruct (task_done w j); exact Q.
  - left. exact (st_spawn _ _ _ (Fstable i) _ k Q).
  - right. exact Q.
Qed.

Lemma all_harvest_coro k t cf : cf = false \/ k = KClosed -> keeps all_in (harvest [AwCoro k] t cf).
Proof.
  intros K w r w' H HH i L. rewrite (harvest_len _ _ _ _ _ _ HH) in L. destruct (Nat.eq_dec i (len w)) as [->|N].
  - eapply (Fharvest _ _ _ _ _ _ HH); [discriminate|destruct K as [->| ->]; auto|]. now left.
  - eapply (k_harvest _ _ _ (upto_stable (len w))); [|exact HH|lia]. exact H.
Qed.
Lemma all_modx f : keeps all_in (modx f).
Proof. intros w r w' H [_ ->]. exact H. Qed.
Lemma own_harvest ts t : forall w r w', own_in w -> ts = x_tasks (w_x w) -> opt_harvest o ext ts t w r w' -> all_in w'.
Proof.
  intros w r w' H -> HH. unfold opt_harvest in HH. destruct (x_tasks (w_x w)) as [|a ts] eqn:E; [destruct HH as [_ ->]; now apply own_empty|].
  rewrite <- E in HH. assert (N : map (@AwTask rkind) (x_tasks (w_x w)) <> []) by (rewrite E; discriminate).
  assert (LL : len w' = len w).
  { pose proof (harvest_len _ _ _ _ _ _ HH) as Q. rewrite E in Q. cbn in Q. destruct ts; apply Q; intros k; cbn; [intros [[=]|[]]|].
    intros [[=]|[[=]|I]]. clear -I. induction ts as [|b ts IH]; [destruct I|]. destruct I as [[=]|I]; auto. }
  assert (DO : forall i, In i (x_tasks (w_x w)) -> S_ w' i).
  { intros i Hi. apply (Fharvest _ _ _ _ _ _ HH N (or_introl eq_refl)). now rewrite managed_tasks. }
  intros i L. rewrite LL in L. destruct (H i L) as [Q|Q]; [|auto].
  refine (k_harvest rstep rfinish (fun u => S_ u i) (Fstable i) _ _ _ _ _ _ Q HH).
Qed.

Lemma all_kill_wait : keeps all_in kill_wait.
Proof.
  unfold RunnerModel.kill_wait. apply k_bind; [apply k_bind; [apply k_getx|intros; apply k_assert]|]. intros _.
  apply k_bind; [apply k_getx|]. intros [z|]; [apply k_ret|]. apply k_try.
  - apply k_bind; [|intros _; apply all_harvest_coro; now left]. unfold signal. apply k_bind; [apply k_bind; [apply k_getx|intros; apply k_assert]|]. intros _. apply all_modx.
  - intros e k. destruct e; try discriminate. intros [= <-]. apply k_bind.
    + unfold poll_wait_pid. apply k_bind; [apply k_getx|]. intros [z|]; [apply k_ret|]. apply k_bind; [apply k_getx|]. intros [z|]; [|apply k_ret].
      apply k_bind; [apply all_modx|intros; apply k_ret].
    + intros []; [apply k_ret|apply k_raise].
Qed.
Lemma own_kill w r w' : kill w r w' -> own_in w -> x_proc (w_x w) = true -> all_in w'.
Proof.
  intros H HO PR. unfold RunnerModel.kill in H.
  destruct H as [([] & w1 & H1 & H)|(e & H1 & _)]; apply i_getx in H1; rewrite PR in H1; destruct H1 as [Q ->]; [clear Q|discriminate].
  assert (BODY : forall rb wb, kill_body o ext w rb wb -> all_in wb).
  { intros rb wb HB. unfold kill_body in HB.
    assert (SIG : exists w1, own_in w1 /\ bindM (bindM (getx x_tasks) (fun ts => opt_harvest o ext ts true)) (fun _ =>
       bindM (getx x_rc) (fun rc => match rc with None => harvest [AwCoro KWaiter] true false | Some _ => ret tt end)) w1 rb wb).
    { assert (SI : forall rs ws, bindM (getx x_rc) (fun rc => match rc with None => signal o (o_cancel_signal o) | Some _ => ret tt end) w rs ws -> rs = Ok tt /\ own_in ws).
      { intros rs ws Q. apply i_getx in Q. destruct (x_rc (w_x w)); [destruct Q as [-> ->]; auto|].
        apply signal_run in Q as [(_ & -> & ->)|(Q & _)]; [|congruence]. split; [reflexivity|]. intros i L. destruct (HO i L) as [Q|Q]; [now left|right].
        unfold upd_x, signal_x, audit, popen_send, popen_poll. cbn. destruct (o_audit_callback o), (o_cancel_signal o), (x_exit (w_x w)) eqn:XE; cbn; rewrite ?XE; exact Q. }
      destruct HB as [([] & w1 & H1 & H2)|(e & H1 & _)]; apply SI in H1 as [Q H1]; [|discriminate]. exists w1. auto. }
    destruct SIG as (w1 & O1 & H1). clear HB.
    destruct H1 as [([] & w2 & H1 & H2)|(e & H1 & _)]; apply i_getx in H1.
    - pose proof (own_harvest _ _ _ _ _ O1 eq_refl H1) as A2. apply i_getx in H2. destruct (x_rc (w_x w2)); [destruct H2 as [_ ->]; exact A2|].
      eapply all_harvest_coro; [now left|exact A2|exact H2].
    - exact (own_harvest _ _ _ _ _ O1 eq_refl H1). }
  change (tryM (kill_body o ext) (fun e => match e with
                 | CancelledError => Some (bindM set_cancelled (fun _ => kill_wait))
                 | TimeoutError => Some kill_wait
                 | _ => Some (bindM kill_wait (fun _ => raise e))
                 end) w r w') in H.
  destruct H as [([] & H1 & _)|(e & w1 & H1 & H2)]; apply BODY in H1; [exact H1|].
  assert (K1 : keeps all_in (bindM kill_wait (fun _ : unit => raise (A := unit) e))) by (apply k_bind; [apply all_kill_wait|intros; apply k_raise]).
  assert (K2 : keeps all_in (bindM set_cancelled (fun _ => kill_wait))) by (apply k_bind; [apply all_modx|intros; apply all_kill_wait]).
  destruct e; first [exact (K1 _ _ _ H1 H2)|exact (K2 _ _ _ H1 H2)|exact (all_kill_wait _ _ _ H1 H2)].
Qed.
Lemma own_wait w r w' : wait w r w' -> J ext w -> own_in w -> x_proc (w_x w) = true -> all_in w'.
Proof.
  intros H HJ HO PR.
  assert (PP : forall t r1 w1, opt_harvest o ext (x_tasks (w_x w)) t w r1 w1 -> x_proc (w_x w1) = true).
  { intros t r1 w1 Q. pose proof (r_opt_harvest o ext _ _ _ _ _ Q) as R. exact (reg_proc _ _ _ _ R PR). }
  apply wait_cases in H as [_ H|w1 H _ HK|e w1 rk H _ _ HK _]; [|..|exact HJ|exact PR].
  - exact (own_harvest _ _ _ _ _ HO eq_refl H).
  - pose proof (own_harvest _ _ _ _ _ HO eq_refl H) as A1. eapply own_kill; [exact HK| |exact (PP _ _ _ H)]. apply all_own. exact A1.
  - pose proof (own_harvest _ _ _ _ _ HO eq_refl H) as A1. eapply own_kill; [exact HK| |exact (PP _ _ _ H)]. apply all_own. exact A1.
Qed.
Lemma all_close : keeps all_in close.
Proof.
  unfold RunnerModel.close. apply k_bind; [apply k_bind; [apply k_getx|intros; apply k_assert]|]. intros _.
  apply k_bind; [apply all_modx|]. intros _. apply k_bind; [apply k_getx|]. intros [z|]; [|apply k_ret]. destruct piped_stdin; [|apply k_ret].
  apply k_try; [apply all_harvest_coro; now right|]. intros e k. destruct e; try discriminate. intros [= <-]. apply k_ret.
Qed.
Lemma own_finish exc w r w' : finish exc w r w' -> J ext w -> own_in w -> x_proc (w_x w) = true -> all_in w'.
Proof.
  intros H HJ HO PR. apply finish_cases in H as [e w1 rk rc _ HK HC _|w1 rk rc _ HW HC _]; [| |exact PR]; (eapply all_close; [|exact HC]).
  - eapply own_kill; [exact HK| |]; destruct (is_cancelled e); auto.
  - eapply own_wait; eauto.
Qed.
Lemma own_added w k : own_in w -> own_in (added w k).
Proof.
  intros H i L. cbn in L. rewrite app_length in L. cbn in L. destruct (Nat.eq_dec i (len w)) as [->|N].
  - right. cbn. apply in_or_app. right. now left.
  - destruct (H i) as [Q|Q]; [lia| |].
    + left. exact (st_spawn _ _ _ (Fstable i) _ k Q).
    + right. cbn. apply in_or_app. now left.
Qed.
Lemma own_body w w' : body_steps o ext w w' -> own_in w -> own_in w'.
Proof.
  induction 1 as [w|w ev w1 c w2 E _ IH|w w1 w2 E _ IH]; intros H; [exact H| |].
  - apply IH. intros i L. apply (st_env _ _ _ (oupto_stable (len w)) _ _ _ _ H E). rewrite <- (env_step_len o ext _ _ _ _ E). exact L.
  - apply IH. apply add_task_run in E as [_ ->]. now apply own_added.
Qed.
Lemma own_spawn_proc w r w' : subprocess_spawn o ext use_pty w r w' -> J ext w -> clean w -> w_tasks w = [] -> x_tasks (w_x w) = [] -> all_in w' /\ x_tasks (w_x w') = [].
Proof.
  intros H HJ HC HT HX.
  assert (NT : stable rstep rfinish (fun v : world => x_tasks (w_x v) = [])).
  { constructor; auto.
    - intros v ev v' c Q E. destruct (env_step_reg o ext _ _ _ _ E) as (_ & l & h & R). now rewrite (fr_tasks _ _ _ (er_frame _ _ _ _ _ R)).
    - intros v i Q. unfold req. destruct (task_done v i); exact Q. }
  assert (E0 : forall v : world, w_tasks v = [] -> all_in v) by (intros v Q i L; rewrite Q in L; cbn in L; lia).
  assert (STEP : forall (u : world) mode tgt evs s u' s', J ext u -> clean u -> w_tasks u = [] -> x_tasks (w_x u) = [] ->
    wait_run rstep rfinish mode tgt (u, s) evs = Some (u', s') -> J ext u' /\ clean u' /\ w_tasks u' = [] /\ x_tasks (w_x u') = []).
  { intros u mode tgt evs s u' s' Ju Cu Tu Xu R. pose proof (wait_run_keeps _ _ _ (stable_J o ext) _ _ _ _ _ _ _ Ju R) as J'.
    pose proof (wait_run_keeps _ _ _ NT _ _ _ _ _ _ _ Xu R) as X'. pose proof (wait_run_len o ext _ _ _ _ _ _ _ R) as L.
    assert (E : exists l h, envrel o u u' l h).
    { eapply (wait_run_keeps _ _ _ (stable_envrel o ext u)); [|exact R]. exists [], []. apply envrel_refl. }
    destruct E as (l & h & E). split; [exact J'|]. split; [eapply env_clean; eauto|]. split; [|exact X'].
    rewrite Tu in L. destruct (w_tasks u'); [reflexivity|discriminate]. }
  unfold subprocess_spawn in H.
  destruct H as [([] & w1 & H1 & H)|(e & H1 & _)]; apply i_getx in H1; rewrite (proj1 HC) in H1; destruct H1 as [Q ->]; [clear Q|discriminate].
  assert (AA : forall ra wa, when use_pty (await_any o ext) w ra wa -> J ext wa /\ clean wa /\ w_tasks wa = [] /\ x_tasks (w_x wa) = []).
  { intros ra wa Q. unfold when in Q. destruct use_pty; [|destruct Q as [_ ->]; auto]. destruct Q as (evs & s & R & _). eapply STEP; eauto. }
  destruct H as [([] & w1 & H1 & H)|(e & H1 & _)]; destruct (AA _ _ H1) as (J1 & C1 & T1 & X1); [|auto].
  assert (AY : forall ra wa, await_yield rstep rfinish w1 ra wa -> J ext wa /\ clean wa /\ w_tasks wa = [] /\ x_tasks (w_x wa) = []).
  { intros ra wa (evs & s & R & _). eapply STEP; eauto. }
  destruct H as [([] & w2 & H2 & H)|(e & H2 & _)]; destruct (AY _ _ H2) as (J2 & C2 & T2 & X2); [|auto].
  apply i_modx in H. set (w3 := upd_x w2 (set_launching true)) in *.
  assert (J3 : J ext w3).
  { destruct J2 as (X & T & Mk & Tm). split; [|split; [|split]].
    - apply XI_launching; [exact X|intros _; apply C2|discriminate].
    - intros i t. cbn. rewrite T2. destruct i; discriminate.
    - exact Mk.
    - exact Tm. }
  destruct (uninterrupted_spec _ _ _ _ _ H J3) as (_ & _ & t & r4 & Nt & _ & Ot & _).
  pose proof (uninterrupted_len o ext _ _ _ H) as L. cbn in L. rewrite T2 in L. cbn in L. cbn in Nt. rewrite T2 in Nt. cbn in Nt.
  split; [|refine (k_uninterrupted o ext _ NT w3 _ _ _ H); exact X2].
  intros i Li. rewrite L in Li. assert (i = 0)%nat as -> by lia. apply Fdone. unfold task_done, task_out. cbn [nth_error]. rewrite Nt, Ot. reflexivity.
Qed.
Lemma add_io_own n : forall w r w', add_io n w r w' -> own_in w -> own_in w' /\ x_proc (w_x w') = x_proc (w_x w).
Proof.
  induction n as [|n IH]; intros w r w' H N.
  - destruct H as [_ ->]. auto.
  - destruct H as [([] & w1 & H1 & H2)|(e & H1 & _)]; apply add_task_run in H1 as [Q ->]; [|discriminate]. apply IH in H2; [exact H2|now apply own_added].
Qed.
Lemma own_start w r w' : start o ext use_pty w r w' -> J ext w -> clean w -> calm w -> w_tasks w = [] -> x_tasks (w_x w) = [] ->
  match r with
  | Ok _ => own_in w' /\ x_cancelled (w_x w') = false
  | Err e => exists w1 rk, own_in w1 /\ J ext w1 /\ (x_proc (w_x w1) = true \/ x_tasks (w_x w1) = [])
      /\ (if x_proc (w_x w1) then kill w1 rk w' else rk = Ok tt /\ w' = w1) /\ (forall e', rk = Err e' -> e = e')
  end.
Proof.
  intros H HJ HC HM HT HX. unfold RunnerModel.start in H.
  destruct H as [([] & w0 & H1 & H)|(e & H1 & _)]; apply i_getx in H1; rewrite HX in H1; destruct H1 as [Q ->]; [clear Q|discriminate].
  assert (E0 : all_in w) by (intros i L; rewrite HT in L; cbn in L; lia).
  set (body := bindM setup (fun _ => bindM (subprocess_spawn o ext use_pty) (fun _ => bindM (bindM (getx x_proc) assertM) (fun _ => setup_streams)))) in *.
  assert (BODY : forall rb wb, body w rb wb -> own_in wb /\ (x_proc (w_x wb) = true \/ x_tasks (w_x wb) = []) /\ (rb = Ok tt -> x_timer (w_x wb) = false /\ x_cancelled (w_x wb) = false)
      /\ (forall e, rb = Err e -> e = CancelledError \/ is_Exception e = true) /\ J ext wb).
  { intros rb wb [([] & w1 & [-> _] & HB)|(e & [-> HE] & ->)]; [|split; [now apply all_own|split; [auto|]]; split; [discriminate|]; split; [intros e' [= <-]; auto|exact HJ]].
    destruct HB as [([] & w1 & H1 & HB)|(e & H1 & ->)]; destruct (own_spawn_proc _ _ _ H1 HJ HC HT HX) as (A1 & X1);
      destruct (subprocess_spawn_spec _ _ _ _ _ _ H1 HJ HC HM HT) as (P1 & O1 & E1); [|split; [now apply all_own|split; [auto|]]; split; [discriminate|]; split; [intros e' [= <-]; auto|exact (pre_J _ _ _ _ P1)]].
    destruct (O1 eq_refl) as [PR1 _].
    destruct HB as [([] & w2 & H2 & HB)|(e & H2 & ->)]; apply i_getx in H2; rewrite PR1 in H2; destruct H2 as [Q ->]; [clear Q|discriminate].
    destruct (setup_streams_spec o ext _ _ _ _ HB P1) as (P2 & PR2 & Mk2 & E2).
    assert (O2 : own_in wb).
    { destruct HB as (n & [([] & w2 & H2 & [-> _])|(e & H2 & ->)]); apply add_io_own in H2 as [O2 _]; auto; now apply all_own. }
    split; [exact O2|]. split; [left; congruence|]. split; [intros _; split; apply (pre_calm _ _ _ _ P2)|]. split; [intros e Q; right; eauto|exact (pre_J _ _ _ _ P2)]. }
  destruct H as [([] & w1 & H1 & H)|(e & H1 & ->)].
  - destruct H1 as [([] & HB & _)|(e & w2 & HB & HH)].
    + destruct (BODY _ _ HB) as (O1 & _ & TM1 & _). destruct (TM1 eq_refl) as [TM2 CA]. clear TM1. rename TM2 into TM1. apply (own_added _ KWaiter) in O1.
      destruct H as [([] & w2 & H2 & H)|(e & H2 & _)]; apply add_task_run in H2 as [Q ->]; [|discriminate].
      assert (ST : forall rs ws, start_timer o (added w1 KWaiter) rs ws -> w_tasks ws = w_tasks (added w1 KWaiter) /\ w_hist ws = w_hist (added w1 KWaiter) /\ x_tasks (w_x ws) = x_tasks (w_x (added w1 KWaiter)) /\ rs = Ok tt /\ x_cancelled (w_x ws) = false).
      { intros rs ws [([] & w4 & H4 & H5)|(e & H4 & Q3)]; apply i_getx in H4; cbn in H4; rewrite TM1 in H4; destruct H4 as [Q4 ->]; try discriminate.
        unfold when in H5. destruct (o_timeout o); destruct H5 as [-> ->]; auto. }
      destruct H as [([] & w3 & H3 & H)|(e & H3 & ->)]; destruct (ST _ _ H3) as (T & Hh & X & Q1 & CB); [|discriminate].
      destruct H as [-> ->]. split; [|exact CB]. intros i L. cbn in L |- *. rewrite T in L |- *. rewrite Hh, X. exact (O1 i L).
    + exfalso. destruct (is_Exception e || is_cancelled e).
      * destruct HH as [([] & w3 & _ & HH)|(e' & _ & Q)]; [|discriminate]. destruct HH as [([] & w4 & _ & [Q _])|(e' & _ & Q)]; discriminate.
      * destruct HH as [Q _]. discriminate.
  - destruct H1 as [([] & _ & Q)|(e1 & w1 & HB & HH)]; [discriminate|]. destruct (BODY _ _ HB) as (O1 & PX & _ & E1 & J1). specialize (E1 e1 eq_refl).
    assert (EX : is_Exception e1 || is_cancelled e1 = true) by (destruct E1 as [->|Q]; [reflexivity|rewrite Q; reflexivity]).
    rewrite EX in HH.
    assert (HH2 : bindM (bindM (getx x_proc) (fun p => when p kill)) (fun _ => raise (A := unit) e1) (if is_cancelled e1 then cancelled_now w1 else w1) (Err e) w').
    { destruct HH as [([] & w2 & H2 & H3)|(e' & H2 & _)]; [|destruct (is_cancelled e1); destruct H2 as [Q _]; discriminate].
      destruct (is_cancelled e1); destruct H2 as [_ ->]; exact H3. }
    apply i_then_raise in HH2 as (rk & HK & RK). apply i_getx in HK.
    assert (PP : x_proc (w_x (if is_cancelled e1 then cancelled_now w1 else w1)) = x_proc (w_x w1)) by (destruct (is_cancelled e1); reflexivity).
    assert (OO : own_in (if is_cancelled e1 then cancelled_now w1 else w1)) by (destruct (is_cancelled e1); exact O1).
    exists (if is_cancelled e1 then cancelled_now w1 else w1), rk. rewrite PP in *. split; [exact OO|].
    split; [destruct (is_cancelled e1); [now apply (cancelled_now_reg o ext)|exact J1]|].
    split; [destruct PX as [Q|Q]; [now left|right; destruct (is_cancelled e1); exact Q]|]. split; [destruct (x_proc (w_x w1)); [exact HK|exact HK]|].
    intros e' ->. now injection RK as ->.
Qed.
Lemma start_err_all w e w' : start o ext use_pty w (Err e) w' -> J ext w -> clean w -> calm w -> w_tasks w = [] -> x_tasks (w_x w) = [] -> all_in w'.
Proof.
  intros H HJ HC HM HT HX. destruct (own_start _ _ _ H HJ HC HM HT HX) as (w1 & rk & O1 & _ & PX & HK & _). destruct (x_proc (w_x w1)) eqn:PR.
  - eapply own_kill; eauto.
  - destruct HK as [_ ->]. destruct PX as [Q|Q]; [discriminate|]. now apply own_empty.
Qed.
Lemma own_aenter r w' : aenter fresh r w' -> match r with
  | Ok _ => own_in w'
  | Err e => all_in w' /\ exists e1 w1, start o ext use_pty (begun o) (Err e1) w1 /\ w' = failed_start o w1 e1 /\ (x_cancelled (w_x w') = false -> e = e1)
  end.
Proof.
  intros H. unfold RunnerModel.aenter in H. apply i_modx in H. fold (begun o) in H.
  destruct (begun_x o) as (B1 & B2 & B3 & B4 & B5 & B6 & B7 & B8).
  assert (SC : forall rs ws, start o ext use_pty (begun o) rs ws -> match rs with Ok _ => own_in ws /\ x_cancelled (w_x ws) = false | Err _ => all_in ws end).
  { intros rs ws HS. destruct rs as [u|e]; [apply (own_start _ (Ok u)) in HS|apply start_err_all in HS]; auto using begun_J; first [apply begun_J|split; auto|repeat split; auto]. }
  assert (FIN : forall u ru u', bindM (getx (fun x => x_cancelled x && o_catch_cancelled o)) (fun b : bool => if b then bindM (run_result o out_bytes err_bytes enc true) (fun _ => ret tt) else ret tt) u ru u' -> u' = u /\ (x_cancelled (w_x u) = false -> ru = Ok tt)).
  { intros u ru u' Q. apply i_getx in Q. destruct (x_cancelled (w_x u)); cbn in Q; [|destruct Q as [-> ->]; auto]. destruct (o_catch_cancelled o); [|destruct Q as [-> ->]; auto].
    destruct Q as [(v & w2 & HF & [_ ->])|(e & HF & _)]; apply i_getx in HF; destruct (runner_result _ _ _ _ _ _ _ _); destruct HF as [_ ->]; split; auto; discriminate. }
  destruct H as (ra & wb & H1 & H2).
  assert (A : match ra with Ok _ => own_in wb /\ x_cancelled (w_x wb) = false
    | Err e => all_in wb /\ exists w1, start o ext use_pty (begun o) (Err e) w1 /\ wb = failed_start o w1 e end).
  { destruct H1 as [([] & HS & ->)|(e & ws & HS & HH)]; pose proof (SC _ _ HS) as AS; [exact AS|]. cbn in HH.
    destruct HH as [([] & w2 & [_ ->] & HH)|(e' & [Q _] & _)]; [|discriminate].
    destruct HH as [([] & w3 & [_ ->] & [-> ->])|(e' & [Q _] & _)]; [|discriminate]. split; [exact AS|]. exists ws. split; [exact HS|reflexivity]. }
  destruct H2 as [(HF & ->)|(e & HF & ->)]; apply FIN in HF as [-> Q].
  - destruct ra; [apply A|]. destruct A as (A & w1 & S1 & W1). split; [exact A|]. exists e, w1. auto.
  - destruct ra; [discriminate (Q (proj2 A))|]. destruct A as (A & w1 & S1 & W1). split; [exact A|]. exists e0, w1. split; [exact S1|]. split; [exact W1|].
    intros C. discriminate (Q C).
Qed.
Theorem all_run r w' : with_run any_body fresh r w' -> all_in w'.
Proof.
  intros H. destruct H as [([] & w0 & H1 & (rb & w1 & H2 & H3))|(e & H1 & _)]; pose proof (own_aenter _ _ H1) as O0; [|exact (proj1 O0)].
  assert (E0 : J ext w0 /\ x_proc (w_x w0) = true /\ J ext w1 /\ x_proc (w_x w1) = true).
  { apply aenter_cases in H1 as [wa P PR Mk -> _|e wa _ _ (e' & Q) _ _]; [|discriminate].
    destruct (body_ready o ext _ _ _ P PR H2) as (J1 & PR1 & _ & _). split; [now apply (entered_J o ext)|].
    split; [|auto]. destruct (entered_x o wa) as (_ & -> & _). exact PR. }
  destruct E0 as (_ & _ & J1 & PR1). apply own_body in H2; [|exact O0].
  assert (X : forall exc rx wx, aexit exc w1 rx wx -> all_in wx).
  { intros exc rx wx HX. destruct (aexit_world _ _ _ _ _ _ _ HX) as (rf & w2 & HF & W). apply own_finish in HF; auto. destruct W as [->|(_ & ->)]; exact HF. }
  destruct rb as [[]|eb].
  - destruct H3 as [(b & w2 & H3 & [_ ->])|(e & H3 & _)]; eapply X; eauto.
  - destruct H3 as [(b & w2 & H3 & H4)|(e & H3 & _)]; [|eapply X; eauto]. apply X in H3. destruct b; destruct H4 as [_ ->]; exact H3.
Qed.
End R.
