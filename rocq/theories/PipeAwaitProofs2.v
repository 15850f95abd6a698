From Verif Require Import AsyncModel AsyncSpec AsyncProofs HarvestModel HarvestSpec HarvestProofs HarvestProofs2 AsyncInv
  RunnerModel RunnerSpec RunnerProofs RunnerProofs2 RunnerProofs3 RunnerProofs4 RunnerProofs5 RunnerProofs6 RunnerProofs7
  RunnerProofs8 RunnerProofs9 RunnerProofs10 RunnerProofs11 CopySpec CopyProofs CopyProofs2 AwaitModel AwaitProofs PipeAwaitModel PipeAwaitProofs.
From Verif Require RunOptionsModel RouteSpec PipeRunnerModel.
Open Scope Z_scope.

Lemma marks_outside l : ~ In LExpired l -> marks l = outside l.
Proof.
  induction l as [|a l IH]; [reflexivity|]. intros N. assert (IH' := IH (fun H => N (or_intror H))). destruct a; cbn; try (rewrite IH'; reflexivity); try exact IH'.
  elim N. now left.
Qed.

(** A member that nobody cancelled and whose timer did not expire. *)
Lemma member_calm dec R c next rd sinks a w : await_command dec R c next rd sinks a w -> ~ In LExpired (x_log (w_x w)) ->
  x_timed_out (w_x w) = false /\ (outside (x_log (w_x w)) = 0%nat -> x_cancelled (w_x w) = false).
Proof.
  intros H NX. assert (MO := marks_outside _ NX). rewrite <- MO. change (marks (x_log (w_x w))) with (mk w).
  assert (Z : (x_cancelled (w_x w) = true -> (mk w > 0)%nat) -> mk w = 0%nat -> x_cancelled (w_x w) = false).
  { intros A B. destruct (x_cancelled (w_x w)); [specialize (A eq_refl); lia|reflexivity]. }
  destruct H as [sinks e G|sinks pty e w' G H|sinks s hin hout herr wi w0 r w' o ob eb G ST HE HL CP].
  - split; reflexivity.
  - split; [eapply enter_timed; eauto|]. apply Z. eapply enter_canc; eauto.
  - assert (AX : exists ra, aexit o false (RunOptionsModel.is_pipe hin) None w0 ra w').
    { destruct HL as [(b & w1 & HX & HR)|(e & HX & _)]; [|eauto]. apply i_getx in HR. exists (Ok b). destruct (runner_result _ _ _ _ _ _ _ _); destruct HR as [_ ->]; exact HX. }
    destruct AX as (ra & AX). split; [eapply run_not_expired; eauto|]. apply Z. eapply run_canc; eauto.
Qed.

Definition codes_of (o : opts) : container := match o_exit_codes o with Some c => if container_truth c then c else CSet [0] | None => CSet [0] end.
Lemma member_error dec R c next rd sinks v w : await_command dec R c next rd sinks (Err (ResultError v)) w -> own_result_error (c_opts c) (Err (ResultError v)) w ->
  ~ In LExpired (x_log (w_x w)) -> outside (x_log (w_x w)) = 0%nat -> r_cancelled v = false /\ container_in (r_exit v) (codes_of (c_opts c)) = false.
Proof.
  intros H OW NX OU. destruct (member_calm _ _ _ _ _ _ _ _ H NX) as [_ C]. specialize (C OU). destruct (OW v eq_refl) as (ob & eb & E). rewrite C in E.
  unfold runner_result in E. destruct (returncode (w_x w)) as [z|]; [|discriminate]. unfold check_result in E. cbn [andb orb] in E.
  fold (codes_of (c_opts c)) in E. destruct (container_in _ _) eqn:Q in E; [discriminate|]. injection E as <-. cbn in Q |- *. auto.
Qed.
Lemma member_value dec R c next rd sinks v w : await_command dec R c next rd sinks (Ok (AResult v)) w -> o_catch_cancelled (c_opts c) = true ->
  ~ In LExpired (x_log (w_x w)) -> r_cancelled v = false /\ container_in (r_exit v) (codes_of (c_opts c)) = true.
Proof.
  intros H CC NX. destruct (member_calm _ _ _ _ _ _ _ _ H NX) as [T _]. remember (Ok (AResult v)) as ra eqn:ER. revert ER.
  destruct H as [sinks e G|sinks pty e w' G H|sinks s hin hout herr wi w0 r w' o ob eb G ST HE HL CP]; intros ER; [discriminate|discriminate|].
  destruct HL as [(b & wx & HX & HR)|(e & _ & Q)]; [|subst r; discriminate]. apply i_getx in HR.
  unfold runner_result in HR. destruct (returncode (w_x wx)) as [z|]; [|destruct HR as [-> _]; discriminate].
  unfold check_result in HR. fold (codes_of o) in HR. change (o_catch_cancelled o = true) in CC. rewrite CC in HR. cbn [negb] in HR. rewrite andb_false_r in HR.
  set (t := x_timed_out (w_x wx)) in *.
  assert (TW : w' = wx). { destruct (_ || _) in HR; destruct HR; assumption. }
  subst w'. subst t. rewrite T in HR. cbn [negb] in HR. rewrite andb_true_r in HR.
  destruct (x_cancelled (w_x wx)); cbn [orb] in HR; [destruct HR as [-> _]; discriminate|].
  destruct (container_in _ (codes_of o)) eqn:CI in HR; cbn in HR; destruct HR as [-> _]; [|discriminate].
  cbn in ER. destruct (o_return_result o); [injection ER as <-; auto|]. destruct (result_output _ _); discriminate.
Qed.

(** The result that _find_key_result chooses (result.py 117-141). *)
Lemma compare_takes a item : (r_cancelled a = true \/ r_exit a = 0) -> r_cancelled item = false -> compare_result (Some a) item = item.
Proof.
  intros A I. unfold compare_result, pair_ge. cbn. rewrite I. destruct (r_cancelled a); cbn; [reflexivity|]. destruct A as [A|A]; [discriminate|]. rewrite A. reflexivity.
Qed.
Lemma find_key_zero l : forall acc key, find_key l acc = Ok key -> r_exit key = 0 -> (forall a, acc = Some a -> r_cancelled a = true \/ r_exit a = 0) ->
  forall x, In x l -> exists v, get_result x = Ok v /\ (r_cancelled v = false -> r_exit v = 0).
Proof.
  induction l as [|y l IH]; intros acc key E Z A x []; cbn [find_key] in E; cbv zeta in E.
  - subst y. destruct (get_result x) as [v|]; [|discriminate]. exists v. split; [reflexivity|]. intros C.
    assert (CV : compare_result acc v = v) by (destruct acc as [a|]; [apply compare_takes; auto|reflexivity]). rewrite CV, C in E.
    destruct (Z.eqb_spec (r_exit v) 0); [assumption|]. cbn in E. injection E as ->. congruence.
  - destruct (get_result y) as [v|]; [|discriminate]. set (k := compare_result acc v) in *. destruct (negb (r_cancelled k) && negb (r_exit k =? 0)) eqn:Q.
    + injection E as E. rewrite E, Z in Q. cbn in Q. rewrite andb_false_r in Q. discriminate.
    + eapply IH; [exact E|exact Z| |assumption]. intros a [= <-]. destruct (r_cancelled k); [now left|]. right. cbn in Q. destruct (Z.eqb_spec (r_exit k) 0); [assumption|discriminate].
Qed.
