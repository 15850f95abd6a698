From Verif Require Import AsyncModel AsyncSpec AsyncProofs HarvestModel RunnerModel RunnerSpec RunnerProofs RunnerProofs5.
Open Scope Z_scope.
Lemma member_not_cancelled : forall o ext piped_stdin use_pty ob eb enc w0 r w',
  o_catch_cancelled o = true ->
  aenter o ext use_pty ob eb enc fresh (Ok tt) w0 ->
  bindM (aexit o ext piped_stdin None) (fun _ => run_result o ob eb enc true) w0 r w' ->
  r <> Err CancelledError.
Proof.
  intros o ext ps up ob eb enc w0 r w' CC _ [(b & w1 & _ & H)|(e & H & ->)].
  - destruct H as [(x & w2 & [Q ->] & H)|(e & [Q _] & _)]; [|discriminate]. injection Q as ->.
    destruct (runner_result _ ob eb enc o _ _ true) as [v|e] eqn:R; destruct H as [-> _]; [discriminate|]. intros [= ->].
    unfold runner_result, check_result in R. destruct (returncode _); [|discriminate]. rewrite CC in R. cbn [negb] in R. rewrite andb_false_r in R.
    destruct (_ || _) in R; discriminate.
  - intros [= ->]. apply aexit_cases in H as [w1 b _ _ Q|w1 _ _ Q|w1 e _ N _ Q]; try congruence; unfold exit_value in Q; destruct (_ && _) in Q; discriminate.
Qed.
