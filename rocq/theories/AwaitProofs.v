From Verif Require Import AsyncModel AsyncSpec AsyncProofs HarvestModel HarvestSpec HarvestProofs HarvestProofs2 AsyncInv
  RunnerModel RunnerSpec RunnerProofs RunnerProofs2 RunnerProofs3 RunnerProofs4 RunnerProofs5 RunnerProofs6 RunnerProofs7
  RunnerProofs8 RunnerProofs9 RunnerProofs10 RunnerProofs11 CopySpec CopyProofs CopyProofs2 AwaitModel.
Open Scope Z_scope.

Section R.
Context (o : opts) (piped_stdin use_pty : bool) (out_bytes err_bytes : option bytes) (enc : text).
Notation ext := false.
Notation world := (world rx rkind unit).
Notation M := (@M rx rkind unit).
Notation rstep := (rstep o).
Notation rfinish := (rfinish ext).
Notation aenter := (aenter o ext use_pty out_bytes err_bytes enc).
Notation aexit := (aexit o ext piped_stdin).
Notation run_result := (run_result o out_bytes err_bytes enc).

(** The tasks of the runner that has just been entered have not started. *)
Definition new_tasks (w : world) : Prop := forall i, In i (x_tasks (w_x w)) -> exists k, nth_error (w_tasks w) i = Some (mk_task k None 0).
Lemma added_new w k : new_tasks w -> new_tasks (added w k).
Proof.
  intros H i Hi. cbn in *. apply in_app_iff in Hi as [Hi|[<-|[]]].
  - destruct (H i Hi) as (k' & E). exists k'. rewrite nth_error_app1; [exact E|]. apply nth_error_Some. congruence.
  - exists k. rewrite nth_error_app2 by reflexivity. now rewrite Nat.sub_diag.
Qed.
Lemma add_io_new n : forall w r w', add_io n w r w' -> new_tasks w -> new_tasks w'.
Proof.
  induction n as [|n IH]; intros w r w' H N.
  - destruct H as [_ ->]. exact N.
  - destruct H as [([] & w1 & H1 & H2)|(e & H1 & _)]; apply add_task_run in H1 as [Q ->]; [|discriminate]. eapply IH; [exact H2|now apply added_new].
Qed.
Definition no_tasks (w : world) : Prop := x_tasks (w_x w) = [].
Lemma no_tasks_stable : stable rstep rfinish no_tasks.
Proof.
  constructor.
  - intros w ev w' c H E. unfold no_tasks in *.
    destruct (env_step_reg o ext _ _ _ _ E) as (_ & l & h & R). rewrite (fr_tasks _ _ _ (er_frame _ _ _ _ _ R)). exact H.
  - intros w H. exact H.
  - intros w i H. unfold no_tasks, req in *. destruct (task_done w i); exact H.
  - intros w k H. exact H.
Qed.
Lemma k_await_any P : stable rstep rfinish P -> keeps P (await_any o ext).
Proof. intros S w r w' H (evs & s & R & _). eapply wait_run_keeps; eauto. Qed.
Lemma k_spawn_proc : keeps no_tasks (subprocess_spawn o ext use_pty).
Proof.
  unfold subprocess_spawn. apply k_bind; [apply k_bind; [apply k_getx|intros; apply k_assert]|]. intros _. apply k_bind.
  - unfold when. destruct use_pty; [apply k_await_any, no_tasks_stable|apply k_ret].
  - intros _. apply k_bind; [apply k_await_yield, no_tasks_stable|]. intros _. apply k_bind; [|intros _; apply k_uninterrupted, no_tasks_stable].
    intros w r w' H [_ ->]. exact H.
Qed.
Lemma entered_new w0 : aenter fresh (Ok tt) w0 -> new_tasks w0.
Proof.
  intros H. unfold RunnerModel.aenter in H. apply i_modx in H.
  assert (N0 : no_tasks (upd_x fresh (audit o PStart))) by (unfold no_tasks, audit; cbn; destruct (o_audit_callback o); reflexivity).
  set (wa := upd_x _ _) in *.
  assert (S : exists ra wb, start o ext use_pty wa ra wb /\ (ra = Ok tt -> w0 = wb) /\ ra = Ok tt).
  { destruct H as (ra & wb & H1 & H2).
    assert (FIN : forall rf wf, bindM (getx (fun x => x_cancelled x && o_catch_cancelled o)) (fun b : bool => if b then bindM (run_result true) (fun _ => ret tt) else ret tt) wb rf wf -> wf = wb).
    { intros rf wf HF. apply i_getx in HF. destruct (_ && _); [|now destruct HF].
      destruct HF as [(v & w2 & HF & [_ ->])|(e & HF & _)]; apply i_getx in HF; destruct (runner_result _ _ _ _ _ _ _ _); now destruct HF. }
    destruct H1 as [([] & HS & ->)|(e & ws & HS & HH)].
    - exists (Ok tt), wb. split; [exact HS|]. split; [|reflexivity]. intros _. destruct H2 as [(HF & _)|(e & HF & Q)]; [|discriminate]. eapply FIN; eauto.
    - exfalso. cbn in HH. assert (RA : exists e', ra = Err e').
      { destruct HH as [([] & w2 & _ & HH)|(e' & _ & ->)]; [|eauto]. destruct HH as [([] & w3 & _ & [-> _])|(e' & _ & ->)]; eauto. }
      destruct RA as (e' & ->). destruct H2 as [(_ & Q)|(e2 & _ & Q)]; discriminate. }
  destruct S as (ra & wb & HS & W & ->). rewrite (W eq_refl). clear W H.
  unfold start in HS. destruct HS as [([] & w1 & H1 & HS)|(e & _ & Q)]; [|discriminate].
  apply i_getx in H1. unfold no_tasks in N0. rewrite N0 in H1. destruct H1 as [_ ->].
  destruct HS as [([] & w2 & H2 & HS)|(e & _ & Q)]; [|discriminate].
  assert (N2 : new_tasks w2).
  { destruct H2 as [([] & H2 & _)|(e & w3 & _ & HH)].
    - destruct H2 as [([] & w3 & [-> _] & H2)|(e & _ & Q)]; [|discriminate].
      destruct H2 as [([] & w3 & H3 & H2)|(e & _ & Q)]; [|discriminate].
      pose proof (k_spawn_proc _ _ _ N0 H3) as N3.
      destruct H2 as [([] & w4 & H4 & H2)|(e & _ & Q)]; [|discriminate].
      apply i_getx in H4. assert (w4 = w3) by (destruct (x_proc (w_x w3)); now destruct H4). subst w4.
      destruct H2 as (n & H2). destruct H2 as [([] & w5 & H5 & [-> _])|(e & _ & Q)]; [|discriminate].
      eapply add_io_new; [exact H5|]. intros i Hi. unfold no_tasks in N3. rewrite N3 in Hi. destruct Hi.
    - exfalso. destruct (is_Exception e || is_cancelled e); [|destruct HH; discriminate].
      destruct HH as [([] & w4 & _ & HH)|(e' & _ & Q)]; [|discriminate]. destruct HH as [([] & w5 & _ & [Q _])|(e' & _ & Q)]; discriminate. }
  destruct HS as [([] & w3 & H3 & HS)|(e & _ & Q)]; [|discriminate]. apply add_task_run in H3 as [_ ->].
  pose proof (added_new _ KWaiter N2) as N3. set (w3 := added w2 KWaiter) in *.
  destruct HS as [([] & w4 & H4 & [_ ->])|(e & _ & Q)]; [|discriminate].
  assert (E : w_tasks w4 = w_tasks w3 /\ x_tasks (w_x w4) = x_tasks (w_x w3)).
  { destruct H4 as [([] & w5 & H5 & H6)|(e & _ & Q)]; [|discriminate]. apply i_getx in H5. assert (w5 = w3) by (destruct (x_timer (w_x w3)); now destruct H5). subst w5.
    unfold when in H6. destruct (o_timeout o); destruct H6 as [_ ->]; auto. }
  intros i Hi. destruct E as [E1 E2]. cbn in Hi |- *. rewrite E1. apply N3. rewrite <- E2. exact Hi.
Qed.

(** A task that has ended does not change. *)
Lemma ended_stable i t : t_out t <> None -> stable rstep rfinish (fun w => nth_error (w_tasks w) i = Some t).
Proof.
  intros N. constructor.
  - intros w [j r|e] w' c H; cbn.
    + destruct (nth_error (w_tasks w) j) as [tj|] eqn:Ej; [|discriminate]. destruct (t_out tj) eqn:Eo; [discriminate|].
      destruct (rfinish (w_x w) tj r); [|discriminate]. intros [= <- <-]. cbn. rewrite nth_upd_other; [exact H|]. intros ->. congruence.
    + destruct (rstep (w_x w) e) as [[x' []]|]; [| |discriminate]; intros [= <- _]; exact H.
  - intros w H. exact H.
  - intros w j H. unfold req. destruct (task_done w j) eqn:D; [exact H|]. cbn. rewrite nth_upd_other; [exact H|]. intros ->.
    unfold task_done, task_out in D. rewrite H in D. destruct (t_out t); congruence.
  - intros w k H. cbn. rewrite nth_error_app1; [exact H|]. apply nth_error_Some. congruence.
Qed.

(** Tasks end as cancelled only after shellous has requested it. *)
Definition only_shellous_cancels (w : world) : Prop :=
  forall i t, nth_error (w_tasks w) i = Some t -> t_out t = Some TCancelled -> t_creq t <> 0%nat.

Theorem run_completes w0 v w' : aenter fresh (Ok tt) w0 ->
  bindM (aexit None) (fun _ => run_result true) w0 (Ok v) w' -> r_cancelled v = false ->
  only_shellous_cancels w' ->
  (forall i, In i (x_tasks (w_x w0)) -> exists u, task_out w' i = Some (TValue u))
  /\ runner_result (returncode (w_x w')) out_bytes err_bytes enc o false (x_timed_out (w_x w')) true = Ok v.
Proof.
  intros HE HL NC OS. destruct (enter_state o ext use_pty out_bytes err_bytes enc _ HE) as (J0 & P0 & W0 & M0 & C0 & T0).
  pose proof (entered_new _ HE) as NT.
  destruct HL as [(b & wx & HX & HR)|(e & _ & Q)]; [|discriminate]. apply i_getx in HR.
  destruct (runner_result _ _ _ _ _ _ _ _) as [v'|e] eqn:RR; destruct HR as [Q EW]; [injection Q as <-|discriminate]; subst wx.
  assert (XC : x_cancelled (w_x w') = false).
  { unfold runner_result in RR. destruct (returncode (w_x w')) as [z|]; [|discriminate]. unfold check_result in RR.
    destruct (_ && _); [discriminate|]. destruct (_ || _); [discriminate|]. injection RR as <-. exact NC. }
  rewrite XC in RR. split; [|exact RR].
  destruct (aexit_world2 _ _ _ _ _ _ _ HX) as (rf & w1 & HF & W).
  assert (W1 : w' = stopped o w1 /\ exists b', rf = Ok b').
  { destruct W as [(-> & Q & _)|(_ & -> & _)].
    - split; [reflexivity|]. destruct rf as [b'|e]; [eauto|discriminate].
    - exfalso. clear -XC. unfold stopped, upd_x, audit in XC. cbn in XC. destruct (o_audit_callback o); discriminate. }
  destruct W1 as (-> & b' & ->).
  assert (XC1 : x_cancelled (w_x w1) = false). { clear -XC. unfold stopped, upd_x, audit in XC. cbn in XC. destruct (o_audit_callback o); exact XC. }
  destruct (end_cases o ext piped_stdin _ _ _ HF J0 P0) as [w2 H0 R02 R21 K21|C1 D|D]; [|congruence|destruct D as [Q|(e & Q & _)]; discriminate].
  destruct (opt_harvest_waiter _ _ _ _ _ H0 W0 J0 eq_refl) as [RC TM2]. destruct K21 as [K21|Q]; [|congruence].
  intros i Hi. destruct (NT i Hi) as (k & N0).
  unfold RunnerProofs4.opt_harvest in H0. destruct (x_tasks (w_x w0)) as [|a ts] eqn:TS; [destruct Hi|].
  assert (Hne : map (@AwTask rkind) (a :: ts) <> []) by discriminate.
  destruct (harvest_ok_no_req _ _ _ _ _ _ _ H0 Hne) as (h & HH & NR & _ & (wz & E0 & E1) & D).
  rewrite managed_tasks in D. destruct (D i Hi) as [D1 NF]. clear D. rename D1 into D.
  destruct E0 as (_ & E0 & _). destruct (E0 i _ N0) as (t1 & N1 & _ & _ & C1).
  destruct E1 as (_ & E1 & _). destruct (E1 i _ N1) as (t2 & N2 & _ & _ & C2).
  assert (CR : t_creq t2 = 0%nat).
  { rewrite C2, C1. cbn. destruct (reqs i h) eqn:Z; [reflexivity|]. elim (NR i). apply reqs_In. lia. }
  unfold task_done, task_out in D. rewrite N2 in D. destruct (t_out t2) as [q|] eqn:T2; [|discriminate].
  assert (NE : t_out t2 <> None) by congruence.
  assert (N3 : nth_error (w_tasks w1) i = Some t2) by exact (K21 _ (ended_stable i t2 NE) N2).
  assert (N4 : nth_error (w_tasks (stopped o w1)) i = Some t2) by exact N3.
  unfold task_out in NF |- *. rewrite N4. rewrite N2 in NF. destruct q as [u|e|].
  - exists u. exact T2.
  - elim (NF e). exact T2.
  - elim (OS i t2 N4 T2). exact CR.
Qed.
End R.
