(** C130: the exit status of a child on a BSD pty. *)
From Verif Require Import BsdWaitModel.
Open Scope Z_scope.

Lemma run_app s l1 l2 : run s (l1 ++ l2) = match run s l1 with Some s' => run s' l2 | None => None end.
Proof. revert s. induction l1 as [|e l1 IH]; intros s; cbn; [reflexivity|]. destruct (step s e); auto. Qed.

(** The full claim: what is reported is what the child returned. *)
Definition c130_full_claim : Prop :=
  forall l s z code, run start l = Some s -> In (Exit z) l -> returncode s = Some code -> code = z.
(** The child ends by itself with 0; before the next poll the user signals it. *)
Theorem c130_signal_steals_refuted : ~ c130_full_claim.
Proof.
  intros C. specialize (C [Exit 0; Signal (Some 15); Poll] _ 0 (-15) eq_refl (or_introl eq_refl) eq_refl). discriminate C.
Qed.
Print Assumptions c130_signal_steals_refuted.
(** The child handles a signal and then exits with 255: reported as killed. *)
Theorem c130_255_refuted :
  ~ (forall l s z code, run start l = Some s -> In (Exit z) l -> ~ In Steal l ->
     (forall sig, ~ In (Signal sig) (skipn 2 l)) -> returncode s = Some code -> code = z).
Proof.
  intros C. assert (X : -15 = 255); [|discriminate X].
  apply (C [Signal (Some 15); Exit 255; Poll] _ 255 (-15) eq_refl); cbn; auto.
  - intros [?|[?|[?|[]]]]; discriminate.
  - intros sig [?|[]]; discriminate.
Qed.
Print Assumptions c130_255_refuted.

(** While the child runs nothing is collected. *)
Record alive (s : st) : Prop := { al_kid : kid s = Running; al_rc : rc s = None; al_prc : prc s = None }.
Lemma alive_step s e s' : alive s -> step s e = Some s' -> (exists z, e = Exit z /\ s' = mk_st (Zombie z) (rc s) (prc s) (last s) (kills s)) \/ alive s'.
Proof.
  intros [A B C] H. destruct e as [z| |sig|]; cbn in H.
  - rewrite A in H. injection H as <-. left. eauto.
  - right. unfold poll_wait_pid, wait_pid in H. rewrite A, B in H. injection H as <-. now constructor.
  - right. unfold returncode in H. rewrite B in H. injection H as <-.
    destruct sig; unfold signal, popen_send, popen_poll; rewrite C, A, C; constructor; cbn; auto.
  - rewrite A in H. discriminate H.
Qed.
Lemma alive_run l s s' : alive s -> (forall z, ~ In (Exit z) l) -> run s l = Some s' -> alive s'.
Proof.
  revert s. induction l as [|e l IH]; intros s A N H; cbn in H; [now injection H as <-|].
  destruct (step s e) as [s1|] eqn:E; [|discriminate]. destruct (alive_step _ _ _ A E) as [(z & -> & _)|A1].
  - now elim (N z (or_introl eq_refl)).
  - eapply IH; eauto. intros z K. apply (N z). now right.
Qed.
(** The last signal with a number that was sent. *)
Fixpoint last_sent (l : list ev) : option Z :=
  match l with
  | [] => None
  | e :: l => match last_sent l, e with
              | Some z, _ => Some z
              | None, Signal (Some z) => Some z
              | None, _ => None
              end
  end.
Lemma last_run l s s' : alive s -> (forall z, ~ In (Exit z) l) -> run s l = Some s' ->
  last s' = match last_sent l with Some z => Some z | None => last s end.
Proof.
  revert s. induction l as [|e l IH]; intros s A N H; cbn in H; [now injection H as <-|].
  destruct (step s e) as [s1|] eqn:E; [|discriminate].
  destruct (alive_step _ _ _ A E) as [(z & -> & _)|A1]; [now elim (N z (or_introl eq_refl))|].
  rewrite (IH s1 A1) by (auto; intros z K; apply (N z); now right). cbn [last_sent].
  destruct (last_sent l); [reflexivity|]. destruct A as [A B C]. destruct e as [z| |sig|]; cbn in E.
  - rewrite A in E. injection E as <-. reflexivity.
  - unfold poll_wait_pid, wait_pid in E. rewrite A, B in E. now injection E as <-.
  - unfold returncode in E. rewrite B in E. injection E as <-.
    destruct sig; unfold signal, popen_send, popen_poll; rewrite C, A, C; reflexivity.
  - rewrite A in E. discriminate E.
Qed.
Lemma start_alive : alive start. Proof. now constructor. Qed.

(** Nothing is reported before the child has ended. *)
Theorem c130_not_before_exit : forall l s code,
  run start l = Some s -> returncode s = Some code -> exists z, In (Exit z) l.
Proof.
  intros l s code H R. assert (D : (exists z, In (Exit z) l) \/ forall z, ~ In (Exit z) l).
  { clear. induction l as [|e l [[z IH]|IH]]; [right; intros z []|left; exists z; now right|].
    destruct e as [z| | |]; [left; exists z; now left|..]; right; intros z' [X|X]; try discriminate X; now apply (IH z'). }
  destruct D as [D|D]; [assumption|]. pose proof (alive_run _ _ _ start_alive D H) as [_ B _].
  unfold returncode in R. rewrite B in R. discriminate R.
Qed.
Print Assumptions c130_not_before_exit.

(** Once there is a return code it does not change any more. *)
Lemma rc_stays l s s' c : rc s = Some c -> run s l = Some s' -> rc s' = Some c /\ last s' = last s /\ returncode s' = returncode s.
Proof.
  revert s. induction l as [|e l IH]; intros s R H; cbn in H; [injection H as <-; auto|].
  destruct (step s e) as [s1|] eqn:E; [|discriminate].
  assert (X : rc s1 = Some c /\ last s1 = last s).
  { destruct e as [z| |sig|]; cbn in E.
    - destruct (kid s); [injection E as <-; auto|discriminate..].
    - unfold poll_wait_pid in E. rewrite R in E. now injection E as <-.
    - unfold returncode in E. rewrite R in E. destruct (last s) as [g|] eqn:Lg; [destruct (c =? UNKNOWN)|]; injection E as <-; auto.
    - destruct (kid s); try discriminate. injection E as <-. auto. }
  destruct X as [X1 X2]. destruct (IH s1 X1 H) as (Y1 & Y2 & Y3). split; [auto|]. split; [congruence|].
  unfold returncode. now rewrite Y1, Y2, R, X2.
Qed.
Theorem c130_never_changes : forall l1 l2 s1 s2 code,
  run start l1 = Some s1 -> returncode s1 = Some code -> run s1 l2 = Some s2 -> returncode s2 = Some code.
Proof.
  intros l1 l2 s1 s2 code _ R H. destruct (rc s1) as [c|] eqn:E.
  - destruct (rc_stays _ _ _ _ E H) as (_ & _ & ->). exact R.
  - unfold returncode in R. rewrite E in R. discriminate R.
Qed.
Print Assumptions c130_never_changes.

(** If shellous polls before anything else happens to the dead child, the
    child's own status is reported, however the run goes on, unless it is 255
    and a signal had been sent. *)
Theorem c130_status_partial : forall l1 z l2 s,
  (forall z', ~ In (Exit z') l1) ->
  run start (l1 ++ Exit z :: Poll :: l2) = Some s ->
  z <> 255 \/ last_sent l1 = None ->
  returncode s = Some z /\ kid s = Gone.
Proof.
  intros l1 z l2 s N H U. rewrite run_app in H. destruct (run start l1) as [s1|] eqn:E; [|discriminate].
  pose proof (alive_run _ _ _ start_alive N E) as A. pose proof (last_run _ _ _ start_alive N E) as L.
  destruct A as [A B C]. cbn in H. rewrite A in H. cbn in H. unfold poll_wait_pid in H. cbn in H. rewrite B in H. cbn in H.
  split.
  - eapply rc_stays in H; [|reflexivity]. destruct H as (_ & _ & ->). unfold returncode. cbn. rewrite L. cbn.
    destruct (last_sent l1); [|reflexivity]. destruct (z =? UNKNOWN) eqn:K; [|reflexivity].
    apply Z.eqb_eq in K. unfold UNKNOWN in K. destruct U; [contradiction|discriminate].
  - assert (G : forall l s s', kid s = Gone -> run s l = Some s' -> kid s' = Gone).
    { clear. induction l as [|e l IH]; intros s s' K H; cbn in H; [now injection H as <-|].
      destruct (step s e) as [s1|] eqn:E; [|discriminate]. apply (IH s1); auto.
      destruct e as [z| |sig|]; cbn in E; try (rewrite K in E; discriminate E).
      - unfold poll_wait_pid, wait_pid in E. rewrite K in E. destruct (rc s); injection E as <-; auto.
      - destruct (returncode s); [now injection E as <-|]. injection E as <-.
        unfold signal, popen_send, popen_poll. destruct sig, (prc s) eqn:P; rewrite ?K; cbn; rewrite ?P; cbn; auto. }
    eapply G; [|exact H]. reflexivity.
Qed.
Print Assumptions c130_status_partial.

(** Polling always ends: the first poll after the child has ended, whatever
    happened in between, leaves the loop, with a return code, and the child is
    reaped. *)
Theorem c130_polling_ends : forall l1 z l2 s,
  run start (l1 ++ Exit z :: l2) = Some s ->
  snd (poll_wait_pid s) = true /\ returncode (fst (poll_wait_pid s)) <> None /\ kid (fst (poll_wait_pid s)) = Gone.
Proof.
  intros l1 z l2 s H. rewrite run_app in H. destruct (run start l1) as [s1|] eqn:E; [|discriminate].
  cbn [run] in H. destruct (step s1 (Exit z)) as [s2|] eqn:E2; [|discriminate].
  assert (J : forall l s s', (kid s = Gone -> True) /\ (kid s <> Running) /\ (rc s <> None -> kid s = Gone) -> run s l = Some s' ->
              kid s' <> Running /\ (rc s' <> None -> kid s' = Gone)).
  { clear. induction l as [|e l IH]; intros s s' (_ & K & R) H; cbn in H; [injection H as <-; auto|].
    destruct (step s e) as [s1|] eqn:E; [|discriminate]. apply (IH s1); auto. split; [auto|].
    destruct e as [z| |sig|]; cbn in E.
    - destruct (kid s); [now elim K|discriminate..].
    - unfold poll_wait_pid, wait_pid in E. destruct (rc s) eqn:Q.
      { injection E as <-. split; [auto|]. intros _. apply R. discriminate. }
      destruct (kid s) eqn:Q2; [now elim K|..]; injection E as <-; cbn; split; auto; discriminate.
    - destruct (returncode s) eqn:RC; [injection E as <-; auto|]. injection E as <-.
      assert (Q : rc s = None). { unfold returncode in RC. destruct (rc s); [|reflexivity]. destruct (last s); [destruct (_ =? _)|]; discriminate. }
      unfold signal, popen_send, popen_poll. destruct sig, (prc s) eqn:P, (kid s) eqn:Q2; cbn; rewrite ?P; cbn; rewrite ?Q, ?Q2;
        try (now elim K); split; try discriminate; try congruence; intros X; now elim X.
    - destruct (kid s); try discriminate. injection E as <-. cbn. split; auto; discriminate. }
  assert (B : rc s1 = None /\ kid s1 = Running).
  { cbn in E2. destruct (kid s1) eqn:K; try discriminate. split; [|reflexivity].
    assert (D : forall z', ~ In (Exit z') l1).
    { intros z' X. apply in_split in X. destruct X as (a & b & ->). rewrite run_app in E.
      destruct (run start a) as [sa|]; [|discriminate]. cbn [run] in E. destruct (step sa (Exit z')) as [sb|] eqn:E3; [|discriminate].
      assert (NR : kid sb <> Running) by (cbn in E3; destruct (kid sa); try discriminate; injection E3 as <-; discriminate).
      assert (M : forall l s s', kid s <> Running -> run s l = Some s' -> kid s' <> Running).
      { clear. induction l as [|e l IH]; intros s s' K H; cbn in H; [now injection H as <-|].
        destruct (step s e) as [s1|] eqn:E; [|discriminate]. apply (IH s1); auto.
        destruct e as [z| |sig|]; cbn in E.
        - destruct (kid s); [now elim K|discriminate..].
        - unfold poll_wait_pid, wait_pid in E. destruct (rc s); [now injection E as <-|].
          destruct (kid s); [now elim K|..]; injection E as <-; discriminate.
        - destruct (returncode s); [now injection E as <-|]. injection E as <-.
          unfold signal, popen_send, popen_poll. destruct sig, (prc s) eqn:P, (kid s) eqn:Q2; cbn; rewrite ?P; cbn; congruence.
        - destruct (kid s); try discriminate. injection E as <-. discriminate. }
      now apply (M _ _ _ NR E). }
    now destruct (alive_run _ _ _ start_alive D E). }
  destruct B as [B1 B2]. cbn in E2. rewrite B2 in E2. injection E2 as <-.
  pose proof (fun P => J l2 _ s P H) as JJ. cbn [kid rc] in JJ. rewrite B1 in JJ.
  assert (P : (Zombie z = Gone -> True) /\ Zombie z <> Running /\ (@None Z <> None -> Zombie z = Gone)).
  { split; [trivial|]. split; [discriminate|]. intros X. now elim X. }
  destruct (JJ P) as [K R].
  unfold poll_wait_pid, wait_pid. destruct (rc s) as [c|] eqn:Q.
  - cbn. split; [reflexivity|]. split; [|apply R; discriminate]. unfold returncode. rewrite Q. destruct (last s); [destruct (_ =? _)|]; discriminate.
  - destruct (kid s); [now elim K|..]; cbn; (split; [reflexivity|]; split; [|reflexivity]);
      unfold returncode; cbn; destruct (last s); try destruct (_ =? _); discriminate.
Qed.
Print Assumptions c130_polling_ends.

(** No signal is ever sent to a number that is no longer, or never again, our
    running child. *)
Theorem c130_signals_reach_the_child : forall l s sig k,
  run start l = Some s -> In (sig, k) (kills s) -> k = Running.
Proof.
  intros l s sig k H. assert (G : forall l s s', (forall sig k, In (sig, k) (kills s) -> k = Running) -> run s l = Some s' ->
    forall sig k, In (sig, k) (kills s') -> k = Running).
  { clear. induction l as [|e l IH]; intros s s' K H; cbn in H; [now injection H as <-|].
    destruct (step s e) as [s1|] eqn:E; [|discriminate]. apply (IH s1); auto.
    destruct e as [z| |sig|]; cbn in E.
    - destruct (kid s); try discriminate. now injection E as <-.
    - unfold poll_wait_pid, wait_pid in E. destruct (rc s); [now injection E as <-|]. destruct (kid s); now injection E as <-.
    - destruct (returncode s); [now injection E as <-|]. injection E as <-.
      assert (P : forall n g k, In (g, k) (kills (popen_send n s)) -> k = Running).
      { intros n g k. unfold popen_send, popen_poll. destruct (prc s) eqn:P; [rewrite P; apply K|].
        destruct (kid s) eqn:Q; cbn; rewrite ?P; cbn; try apply K. intros X. apply in_app_iff in X.
        destruct X as [X|[X|[]]]; [now apply K in X|]. injection X as _ <-. exact Q. }
      destruct sig; apply P.
    - destruct (kid s); try discriminate. now injection E as <-. }
  apply (G l start s); auto. intros ? ? [].
Qed.
Print Assumptions c130_signals_reach_the_child.

(** The signals that are sent are exactly those asked for while the child runs,
    in this order; a kill is SIGKILL (9). *)
Fixpoint asked (l : list ev) : list Z :=
  match l with
  | [] => []
  | Exit _ :: _ => []
  | Signal (Some z) :: l => z :: asked l
  | Signal None :: l => 9 :: asked l
  | (Poll | Steal) :: l => asked l
  end.
Lemma dead_step s e s' : kid s <> Running -> step s e = Some s' -> kid s' <> Running /\ kills s' = kills s.
Proof.
  intros K E. destruct e as [z| |sig|]; cbn in E.
  - destruct (kid s); [now elim K|discriminate..].
  - unfold poll_wait_pid, wait_pid in E. destruct (rc s); [injection E as <-; auto|].
    destruct (kid s); [now elim K|..]; injection E as <-; cbn; split; congruence.
  - destruct (returncode s); [injection E as <-; auto|]. injection E as <-.
    unfold signal, popen_send, popen_poll. destruct sig, (prc s) eqn:P, (kid s) eqn:Q2; cbn; rewrite ?P; cbn; try (now elim K); split; congruence.
  - destruct (kid s); try discriminate. injection E as <-. cbn. split; congruence.
Qed.
Lemma dead_run l : forall s s', kid s <> Running -> run s l = Some s' -> kills s' = kills s.
Proof.
  induction l as [|e l IH]; intros s s' K H; cbn in H; [now injection H as <-|].
  destruct (step s e) as [s1|] eqn:E; [|discriminate]. destruct (dead_step _ _ _ K E) as [A B]. rewrite <- B. now apply IH.
Qed.
Theorem c130_signals_sent : forall l s, run start l = Some s -> map fst (kills s) = asked l.
Proof.
  assert (G : forall l s s', alive s -> run s l = Some s' -> map fst (kills s') = map fst (kills s) ++ asked l).
  { induction l as [|e l IH]; intros s s' A H; cbn in H; [injection H as <-; cbn; now rewrite app_nil_r|].
    destruct (step s e) as [s1|] eqn:E; [|discriminate]. destruct (alive_step _ _ _ A E) as [(z & -> & ->)|A1].
    - cbn [asked]. rewrite app_nil_r. now rewrite (dead_run _ _ _ (ltac:(discriminate) : kid (mk_st (Zombie z) _ _ _ _) <> Running) H).
    - rewrite (IH _ _ A1 H). destruct A as [K R P]. destruct e as [z| |sig|]; cbn in E.
      + rewrite K in E. injection E as <-. destruct A1 as [X _ _]. discriminate X.
      + unfold poll_wait_pid, wait_pid in E. rewrite K, R in E. injection E as <-. reflexivity.
      + unfold returncode in E. rewrite R in E. injection E as <-.
        destruct sig; unfold signal, popen_send, popen_poll; rewrite P, K, P; cbn; rewrite map_app, <- app_assoc; reflexivity.
      + rewrite K in E. discriminate E. }
  intros l s H. exact (G l start s start_alive H).
Qed.
Print Assumptions c130_signals_sent.
(** The loop is left exactly by a poll that leaves a return code. *)
Theorem c130_loop_ends : forall s,
  snd (poll_wait_pid s) = true <-> exists code, returncode (fst (poll_wait_pid s)) = Some code.
Proof.
  intros s. unfold poll_wait_pid, wait_pid. destruct (rc s) eqn:Q.
  - cbn. split; [|auto]. intros _. unfold returncode. rewrite Q. destruct (last s); [destruct (_ =? _)|]; eauto.
  - destruct (kid s); cbn.
    + split; [discriminate|]. intros (code & H). unfold returncode in H. rewrite Q in H. discriminate H.
    + split; [|auto]. intros _. unfold returncode. cbn. destruct (last s); [destruct (_ =? _)|]; eauto.
    + split; [|auto]. intros _. unfold returncode. cbn. destruct (last s); eauto.
Qed.
Print Assumptions c130_loop_ends.

(** What is reported when the status got lost: minus the last signal, if any
    was ever sent, otherwise 255. *)
Theorem c130_lost_status : forall l1 z e l2 s,
  (forall z', ~ In (Exit z') l1) -> e = Steal \/ (exists sig, e = Signal sig) ->
  run start (l1 ++ Exit z :: e :: Poll :: l2) = Some s ->
  returncode s = Some (match last_sent (l1 ++ [e]) with Some g => - g | None => 255 end).
Proof.
  intros l1 z e l2 s N He H. rewrite run_app in H. destruct (run start l1) as [s1|] eqn:E; [|discriminate].
  pose proof (alive_run _ _ _ start_alive N E) as [A B C]. pose proof (last_run _ _ _ start_alive N E) as L.
  assert (S1 : last_sent (l1 ++ [e]) = match e with Signal (Some g) => Some g | _ => last_sent l1 end).
  { clear -He. induction l1 as [|x l1 IH]; cbn; [destruct He as [-> |[[g|] ->]]; reflexivity|]. rewrite IH.
    destruct He as [-> |[[g|] ->]]; cbn; try reflexivity. }
  cbn [run] in H. cbn [step] in H. rewrite A in H.
  destruct (step _ e) as [s2|] eqn:E2; [|discriminate].
  assert (X : kid s2 = Gone /\ rc s2 = None /\ last s2 = last_sent (l1 ++ [e])).
  { rewrite S1. destruct He as [-> |[sig ->]]; cbn in E2.
    - injection E2 as <-. cbn. rewrite L. destruct (last_sent l1); auto.
    - unfold returncode in E2. cbn in E2. rewrite B in E2. injection E2 as <-. unfold signal, popen_send, popen_poll. cbn. rewrite C. cbn.
      destruct sig; cbn; rewrite ?B, ?L; destruct (last_sent l1); auto. }
  destruct X as (X1 & X2 & X3). cbn in H. unfold poll_wait_pid, wait_pid in H. rewrite X2, X1 in H. cbn in H.
  eapply rc_stays in H; [|reflexivity]. destruct H as (_ & _ & ->). unfold returncode. cbn. rewrite X3.
  destruct (last_sent (l1 ++ [e])); reflexivity.
Qed.
Print Assumptions c130_lost_status.

Example bw_plain : option_map returncode (run start [Poll; Signal (Some 2); Poll; Exit 3; Poll]) = Some (Some 3).
Proof. reflexivity. Qed.
Example bw_killed : option_map returncode (run start [Signal (Some 15); Exit (-15); Poll]) = Some (Some (-15)).
Proof. reflexivity. Qed.
Example bw_stolen : option_map returncode (run start [Exit 3; Steal; Poll]) = Some (Some 255).
Proof. reflexivity. Qed.
Example bw_kills : option_map kills (run start [Signal (Some 15); Exit 0; Signal None; Poll; Signal None]) = Some [(15, Running)].
Proof. reflexivity. Qed.
