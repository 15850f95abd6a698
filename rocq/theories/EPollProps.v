(** Properties C58, C59, C73, C74 for the pidfd/epoll watcher (watcher.py 253-365). *)
From Verif Require Import Base EPollModel EPollProofs EPollProofs2 EPollProofs3 EPollProofs4 EPollProofs5 EPollProofs6 EPollProofs7.
From Coq Require Import List ZArith Lia Bool.
Import ListNotations.
Local Open Scope nat_scope.

(** Only the watching thread runs. *)
Inductive thread_run (ordered bad_cb : bool) (rfd efd : nat) : est -> est -> Prop :=
| tr_refl : forall s, thread_run ordered bad_cb rfd efd s s
| tr_step : forall s s' s'', estep ordered bad_cb rfd efd s s' -> e_pc s' <> e_pc s ->
    thread_run ordered bad_cb rfd efd s' s'' -> thread_run ordered bad_cb rfd efd s s''.
(** The watching thread cannot take a step: it has ended or waits in epoll. *)
Definition thread_rests (ordered bad_cb : bool) (rfd efd : nat) (s : est) : Prop :=
  forall s', estep ordered bad_cb rfd efd s s' -> e_pc s' = e_pc s.
(** The watching thread cannot run forever from here. *)
Definition thread_stops (ordered bad_cb : bool) (rfd efd : nat) (s : est) : Prop :=
  Acc (fun y x => estep ordered bad_cb rfd efd x y /\ e_pc y <> e_pc x) s.

Section Props.
Context (ordered bad_cb : bool) (rfd wfd efd : nat).
Notation ereach := (ereach ordered bad_cb rfd wfd efd).

(** *** C58 *)

(** At most one call, and the status is that of the watched child. *)
Theorem c58_at_most_once s k :
  ereach s ->
  n_calls k (e_log s) <= 1 /\ forall st, In (LCall k st) (e_log s) -> In (LExit (e_wproc s k) st) (e_log s).
Proof.
  intros R. pose proof (reach_IC _ _ _ _ _ _ R) as C. destruct (reach_IAB _ _ _ _ _ _ R) as (A & _). split; [apply (c_once _ C)|].
  intros st Q. destruct (c_true _ C k st) as (W & n & E); [left; auto|]. apply (a_exit _ A). eauto.
Qed.

Lemma exit_uniq s p st st' : IA s -> In (LExit p st) (e_log s) -> In (LExit p st') (e_log s) -> st = st'.
Proof. intros A Q Q'. apply (a_exit _ A) in Q, Q'. destruct Q as (n & [Q|Q]), Q' as (m & [Q'|Q']); congruence. Qed.
Lemma called_exact s k st : ereach s -> called k (e_log s) -> In (LExit (e_wproc s k) st) (e_log s) -> In (LCall k st) (e_log s) /\ n_calls k (e_log s) = 1.
Proof.
  intros R Q X. destruct (c58_at_most_once s k R) as (B & T). pose proof (called_n _ _ Q). split; [|lia].
  destruct Q as (st' & Q). rewrite (exit_uniq s (e_wproc s k) st st'); auto. apply (reach_IAB _ _ _ _ _ _ R).
Qed.

Lemma thread_run_reach s s' : ereach s -> thread_run ordered bad_cb rfd efd s s' -> ereach s'.
Proof. intros R T. induction T; auto. apply IHT. eapply er_step; eauto. Qed.
Lemma rests_where s : ereach s -> thread_rests ordered bad_cb rfd efd s -> e_pc s = TDone \/ (e_pc s = TPoll /\ e_ready s = []).
Proof.
  intros R Z. destruct (e_pc s) eqn:P; auto; try (exfalso; destruct (enabled _ _ _ _ _ s R) as (s' & H & N); [congruence|intros [X _]; congruence|]; apply N; apply Z; exact H).
  destruct (e_ready s) eqn:Y; auto. exfalso. destruct (enabled _ _ _ _ _ s R) as (s' & H & N); [congruence|intros [_ X]; congruence|]. apply N; apply Z; exact H.
Qed.

(** While the watcher is not closed: once the thread has handled what there is
    to handle (it cannot go on forever), every watched child that has exited
    has had its callback called exactly once with its status. *)
Theorem c94_exactly_once_while_open s :
  ereach s -> bad_cb = false -> ~ In LClosing (e_log s) ->
  thread_stops ordered bad_cb rfd efd s /\
  forall s', thread_run ordered bad_cb rfd efd s s' -> thread_rests ordered bad_cb rfd efd s' ->
    forall k st, In (LWatched k) (e_log s') -> In (LExit (e_wproc s' k) st) (e_log s') ->
      In (LCall k st) (e_log s') /\ n_calls k (e_log s') = 1.
Proof.
  intros R BC NC. split; [apply (acc_thread _ _ _ wfd _ s R)|]. intros s' T Z k st W X. pose proof (thread_run_reach _ _ R T) as R'.
  apply called_exact; auto. pose proof (reach_ID _ _ _ _ _ _ R') as D. destruct (reach_IAB _ _ _ _ _ _ R') as (A & I & _).
  assert (CE : e_close s' = CIdle).
  { assert (C0 : e_close s = CIdle) by (destruct (e_close s) eqn:Q; auto; exfalso; apply NC, (d_closing _ _ _ (reach_ID _ _ _ _ _ _ R)); congruence).
    clear -T C0. induction T; auto. apply IHT. inversion H; subst; rewrite ?os_close_eq in *; cbn in *; congruence. }
  destruct (rests_where s' R' Z) as [P|(P & Y)].
  - exfalso. destruct (stopped_closing _ _ _ _ _ s' BC R') as [Q|Q]; try congruence. rewrite P. auto.
  - destruct (d_watched _ _ _ D k W) as (f & Wf). destruct (d_ok _ _ _ D) with (k := k) (f := f) as [(F & Di & G)|[Q|Q]]; auto.
    + rewrite P. exact Logic.I.
    + exfalso. assert (Q : In f (e_ready s')).
      { eapply (d_ready _ _ _ D); eauto. rewrite P. exact Logic.I. apply (a_exit _ A) in X. destruct X as (n & [Q|Q]); rewrite Q; reflexivity. }
      rewrite Y in Q. destruct Q.
    + rewrite P in Q. destruct Q.
Qed.

(** After close() has returned: every child that was watched and had exited
    before close() was called has had its callback called exactly once (epoll
    reporting descriptors in the order in which they became ready). *)
Theorem c94_exactly_once_after_close_partial s k st :
  ereach s -> ordered = true -> bad_cb = false -> In LClosed (e_log s) ->
  before_closing (LWatched k) (e_log s) -> before_closing (LExit (e_wproc s k) st) (e_log s) ->
  In (LCall k st) (e_log s) /\ n_calls k (e_log s) = 1.
Proof.
  intros R OR BC CL B1 B2. apply called_exact; auto; [|apply before_in in B2; tauto].
  pose proof (reach_ID _ _ _ _ _ _ R) as D. apply (d_closed _ _ _ D) in CL. apply (d_done _ _ _ D) in CL.
  destruct (reach_IE _ _ _ _ _ s OR BC R k) as [Q|[Q|(AL & _)]]; auto.
  - split; eauto.
  - rewrite CL in Q. destruct Q.
  - rewrite CL in AL. destruct AL.
Qed.

(** *** C59 *)

(** The watcher closes only descriptors of its own, each at most once, and
    never a number that is not open. *)
Theorem c59_closes_at_most_once s :
  ereach s ->
  (forall o, n_closes o (e_log s) <= 1) /\ (forall n, ~ In (LClose (OOther n)) (e_log s)) /\ (forall f, ~ In (LBadClose f) (e_log s)).
Proof.
  intros R. pose proof (reach_IG _ _ _ _ _ _ R) as G. split; [apply (g_once _ _ _ _ G)|]. split; [|apply (g_bad _ _ _ _ G)].
  intros n Q. apply (g_own _ _ _ _ G) in Q. exact Q.
Qed.

(** After close() both ends of the pipe and the epoll descriptor are closed
    exactly once, and so is the pidfd of every watch_pid call that had returned
    or failed before close() was called. *)
Theorem c95_closed_exactly_once_partial s :
  ereach s -> bad_cb = false -> In LClosed (e_log s) ->
  n_closes OPipeR (e_log s) = 1 /\ n_closes OPipeW (e_log s) = 1 /\ n_closes OEpoll (e_log s) = 1 /\
  forall k, In (LOpened k) (e_log s) -> before_closing (LWatched k) (e_log s) \/ before_closing (LWatchFailed k) (e_log s) ->
    n_closes (OPid k) (e_log s) = 1.
Proof.
  intros R BC CL. pose proof (reach_ID _ _ _ _ _ _ R) as D. apply (d_closed _ _ _ D) in CL. apply (d_done _ _ _ D) in CL.
  pose proof (reach_IG _ _ _ _ _ _ R) as G. pose proof (reach_IHd _ _ _ _ _ _ BC R) as H.
  assert (P3 : ~ pre3 (e_pc s)) by (rewrite CL; auto). assert (P2 : pre2 (e_pc s) = false) by (rewrite CL; auto).
  destruct (h_end _ _ _ _ H P3) as (E1 & E2 & E3). rewrite CL in *. cbn in *.
  assert (X : forall o, In (LClose o) (e_log s) -> n_closes o (e_log s) = 1).
  { intros o Q. apply n_closes_in in Q. pose proof (g_once _ _ _ _ G o). lia. }
  repeat split.
  - apply X. destruct (g_r _ _ _ _ G); auto. tauto.
  - apply X. destruct (g_w _ _ _ _ G); auto. tauto.
  - apply X. destruct (g_e _ _ _ _ G); auto. exfalso. eapply (h_ep _ _ _ _ H); rewrite ?CL; eauto.
  - intros k O S0. apply X. destruct (g_opened _ _ _ _ G k O) as [(f & F)|Q]; auto. exfalso. eapply (E1 f k); eauto.
Qed.

(** *** C73: close() comes to an end *)

(** While close() waits for the thread, the thread cannot run forever, and when
    it stops it has ended (so the wait is over). *)
Theorem c73_close_returns s :
  ereach s -> e_close s = CJoin ->
  thread_stops ordered bad_cb rfd efd s /\
  forall s', thread_run ordered bad_cb rfd efd s s' -> thread_rests ordered bad_cb rfd efd s' ->
    e_pc s' = TDone /\ exists s'', estep ordered bad_cb rfd efd s' s'' /\ In LClosed (e_log s'').
Proof.
  intros R CJ. split; [apply (acc_thread _ _ _ wfd _ s R)|]. intros s' T Z. pose proof (thread_run_reach _ _ R T) as R'.
  assert (CE : e_close s' = CJoin).
  { clear -T CJ. induction T; auto. apply IHT. inversion H; subst; rewrite ?os_close_eq in *; cbn in *; try congruence. }
  assert (P : e_pc s' = TDone).
  { destruct (rests_where s' R' Z) as [P|(P & Y)]; auto. exfalso. destruct (d_wake _ _ _ (reach_ID _ _ _ _ _ _ R') CE) as [Q|Q].
    - rewrite P. exact Logic.I.
    - rewrite Y in Q. destruct Q.
    - rewrite P in Q. destruct Q. }
  split; auto. eexists. split; [apply e_close_join; auto|]. cbn. auto.
Qed.
(** close() writes its byte into the watcher's own pipe and nowhere else. *)
Lemma wrote_inv s : bad_cb = false -> ereach s -> forall o, In (LWrote o) (e_log s) -> o = Some OPipeW.
Proof.
  intros BC R. induction R as [s H|s s' R IH H]; intros o.
  - destruct H as (_ & _ & _ & _ & _ & _ & _ & _ & _ & L & _). rewrite L. intros [].
  - assert (X : e_log s' = LWrote (e_fdt s wfd) :: e_log s /\ (exists w, e_close s = CWrite w) \/ (In (LWrote o) (e_log s') -> In (LWrote o) (e_log s))).
    { pose proof (reach_ID _ _ _ _ _ _ R) as D. clear IH R. inversion H; subst; rewrite ?os_close_eq in *; cbn; auto;
      try solve [right; intros [Q|Q]; [discriminate|auto]]; try solve [right; intros [Q|Q]; [destruct (e_fdt s _); discriminate|auto]].
      left. rewrite (d_cw _ _ _ D _ H0). eauto. }
    destruct X as [(E & w & C)|X]; [|auto]. rewrite E. intros [[= <-]|Q]; [|auto].
    destruct (reach_IAB _ _ _ _ _ _ R) as (A & I & _). apply (b_rw _ _ _ _ I).
    destruct (alive_dec (e_pc s)) as [AL|AL]; [apply pre2_3, alive_pre2; auto|]. destruct (stopped_closing _ _ _ _ _ s BC R AL); congruence.
Qed.
Theorem c96_writes_own_pipe s :
  ereach s -> bad_cb = false -> forall o, In (LWrote o) (e_log s) -> o = Some OPipeW.
Proof. intros R BC. apply wrote_inv; auto. Qed.

(** *** C74: a failed watch kills that child only *)
Theorem c74_kills_only_the_watched_child s p :
  ereach s -> In (LKill p) (e_log s) -> exists k, In (LWatchFailed k) (e_log s) /\ e_wproc s k = p.
Proof.
  intros R.
  assert (X : (In (LKill p) (e_log s) -> exists k, In (LWatchFailed k) (e_log s) /\ e_w s k <> WNone /\ e_wproc s k = p)
           /\ forall k, e_w s k = WKill -> In (LWatchFailed k) (e_log s)).
  { induction R as [s H|s s' R (IH1 & IH2) H].
    - destruct H as (_ & _ & _ & _ & _ & _ & _ & W & _ & L & _). rewrite L. split; [intros []|]. intros k Q. rewrite W in Q. discriminate.
    - split.
      + assert (Y : In (LKill p) (e_log s') -> In (LKill p) (e_log s) \/ (exists k, e_w s k = WKill /\ e_wproc s k = p)).
        { pose proof (reach_IC _ _ _ _ _ _ R) as C. destruct (reach_IAB _ _ _ _ _ _ R) as (A & I & _). clear IH1 IH2 R.
          inversion H; subst; rewrite ?os_close_eq in *; cbn; auto; intros [Q|Q]; auto; try discriminate; try (destruct (e_fdt s _); discriminate).
          injection Q as ->. right. exists k. split; auto. destruct (wpoll_holds _ _ _ s k 0 A I C) as (m & Hm & Pm); auto.
          assert (m = n) by congruence. subst. eapply (a_pid _ A); eauto. }
        intros Q. destruct (Y Q) as [Q'|(k & W & E)].
        * destruct (IH1 Q') as (k & F & W & E). exists k. split; [eapply log_mono; eauto|]. split; [eapply wnone_keep; eauto|]. rewrite (wproc_keep _ _ _ _ _ _ _ H W). auto.
        * exists k. split; [eapply log_mono; eauto|]. assert (e_w s k <> WNone) by congruence. split; [eapply wnone_keep; eauto|]. rewrite (wproc_keep _ _ _ _ _ _ _ H); auto.
      + intros k Q. assert (D : e_w s k = WKill \/ e_w s k <> WKill) by (destruct (e_w s k); try (right; discriminate); auto).
        destruct D as [D|D]; [eapply log_mono; eauto|]. clear IH1 IH2. revert Q. inversion H; subst; rewrite ?os_close_eq in *; cbn; auto; intros Q; try contradiction;
        unfold fset in Q; destruct (Nat.eqb_spec k k0); try contradiction; try discriminate; subst; auto. }
  intros Q. destruct X as [X _]. destruct (X Q) as (k & F & _ & E). eauto.
Qed.
End Props.
Print Assumptions c58_at_most_once.
Print Assumptions c94_exactly_once_while_open.
Print Assumptions c94_exactly_once_after_close_partial.
Print Assumptions c59_closes_at_most_once.
Print Assumptions c95_closed_exactly_once_partial.
Print Assumptions c73_close_returns.
Print Assumptions c96_writes_own_pipe.
Print Assumptions c74_kills_only_the_watched_child.
