(** Theorems for C131: runs whose audit callback may raise.  [cb p r]: in phase
    [p] the callback may return ([r = Ok tt]) or raise ([r = Err e]).  They hold
    for every callback, launch outcome, body, number of tasks, and schedule. *)
From Verif Require Import AsyncModel AsyncSpec AsyncProofs HarvestModel HarvestSpec HarvestProofs HarvestProofs2 AsyncInv
  RunnerModel RunnerSpec RunnerProofs RunnerProofs2 RunnerProofs3 RunnerProofs7 AuditModel AuditProofs AuditProofs2 RunTac RunnerProps.
Open Scope Z_scope.

(** A callback that always returns: the runs are those of RunnerModel. *)
Theorem c131_returning_callback : forall (cb : phase -> res unit -> Prop) o ext piped_stdin use_pty ob eb enc r w',
  (forall p v, cb p v <-> v = Ok tt) ->
  with_run_cb cb o ext piped_stdin use_pty ob eb enc (any_body o ext) fresh r w'
  <-> with_run o ext piped_stdin use_pty ob eb enc (any_body o ext) fresh r w'.
Proof.
  intros cb o ext ps up ob eb enc r w' H. split.
  - intros R. apply u_with_run in R; [|intros s v Q; now apply H in Q].
    destruct R as [(e & _ & (_ & Q) & _)|(r0 & R & [->|(e & f & _ & (_ & Q))])]; [apply H in Q; discriminate|exact R|apply H in Q; discriminate].
  - apply s_with_run. intros p. now apply H.
Qed.
Print Assumptions c131_returning_callback.

(** Whatever the callback does, a run that was entered leaves no process behind. *)
Theorem c131_entered_nothing_left : forall (cb : phase -> res unit -> Prop) o ext piped_stdin use_pty ob eb enc w0 rb w1 exc r w',
  aenter_cb cb o ext use_pty ob eb enc fresh (Ok tt) w0 ->
  any_body o ext w0 rb w1 ->
  aexit_cb cb o ext piped_stdin exc w1 r w' ->
  (exists s, In (LExit s) (events w')) \/ In (LSent 9) (events w').
Proof.
  intros cb o ext ps up ob eb enc w0 rb w1 exc r w' H0 H1 H2.
  assert (K : known (w_x (fresh))) by (repeat split; cbn; auto; discriminate).
  pose proof (g_aenter cb o ext up ob eb enc known (known_steady o ext) (fun x p => tame_known _ _ (tame_audit o x p)) _ _ _ K H0) as K0.
  pose proof (aenter_proc cb o ext up ob eb enc _ _ H0) as P0.
  pose proof (g_body o ext known (known_steady o ext) _ _ _ K0 H1) as K1.
  pose proof (g_body o ext has_proc (proc_steady o ext) _ _ _ P0 H1) as P1.
  destruct (aexit_gone _ _ _ _ _ _ _ _ H2 K1 P1) as (K2 & [G|G]); [left|right; exact G].
  destruct (x_exit (w_x w')) as [s|] eqn:E; [|congruence]. exists s. now apply K2.
Qed.
Print Assumptions c131_entered_nothing_left.

(** The callback raises when the start is reported: nothing is set up, nothing
    is launched, there is no report of the stop, and the exception is what comes out. *)
Theorem c131_start_raises : forall (cb : phase -> res unit -> Prop) o ext piped_stdin use_pty ob eb enc body r w',
  o_audit_callback o <> None -> (forall v, cb PStart v -> v <> Ok tt) ->
  with_run_cb cb o ext piped_stdin use_pty ob eb enc body fresh r w' ->
  (exists e, r = Err e /\ cb PStart (Err e)) /\ events w' = [LAudit PStart] /\ w_tasks w' = [] /\ w_hist w' = [].
Proof.
  intros cb o ext ps up ob eb enc body r w' A N H.
  assert (C : forall v w1, call_audit cb o PStart fresh v w1 -> cb PStart v /\ w1 = upd_x fresh (audit o PStart)).
  { intros v w1 Q. apply i_modx in Q. destruct Q as [-> Q]. split; [|reflexivity]. destruct (o_audit_callback o); [exact Q|congruence]. }
  destruct H as [([] & w1 & H & _)|(e & H & ->)].
  - destruct H as [([] & w2 & H & _)|(e & _ & Q)]; [|discriminate Q]. apply C in H as [H _]. now apply N in H.
  - destruct H as [([] & w2 & H & _)|(e1 & H & [= ->])]; [apply C in H as [H _]; now apply N in H|].
    apply C in H as [H ->]. split; [exists e1; now split|]. unfold events, upd_x, audit. cbn. destruct (o_audit_callback o); [|congruence]. auto.
Qed.
Print Assumptions c131_start_raises.

(** The callback raises when the stop is reported: that exception replaces
    whatever else the run would have ended with -- the failure of the body, a
    TimeoutError, or the suppression of a cancellation. *)
Theorem c131_stop_raises : forall (cb : phase -> res unit -> Prop) o ext piped_stdin exc w r w',
  o_audit_callback o <> None -> (forall v, cb (PStop None) v -> v <> Ok tt) ->
  aexit_cb cb o ext piped_stdin exc w r w' ->
  exists e, r = Err e /\ cb (PStop None) (Err e).
Proof.
  intros cb o ext ps exc w r w' A N H.
  assert (C : forall u v u', bindM stop_timer (fun _ => bindM (modx (fun x => set_inside false (audit o (PStop None) x))) (fun _ => callback cb o (PStop None))) u v u' -> cb (PStop None) v).
  { intros u v u' Q. apply i_modx, i_modx in Q. destruct Q as [_ Q]. destruct (o_audit_callback o); [exact Q|congruence]. }
  destruct H as [(b & w1 & (r1 & w2 & _ & [(H & _)|(e & _ & Q)]) & _)|(e & (r1 & w2 & _ & [(H & _)|(e1 & H & [= ->])]) & ->)]; try discriminate Q.
  - apply C in H. now apply N in H.
  - apply C in H. now apply N in H.
  - apply C in H. exists e1. now split.
Qed.
Print Assumptions c131_stop_raises.

(** A callback that returns whenever a signal is reported: the run does what it
    would do anyway -- the events are those of a run of RunnerModel -- and ends
    with the same outcome or with the exception of the callback. *)
Theorem c131_same_events : forall (cb : phase -> res unit -> Prop) o ext piped_stdin use_pty ob eb enc r w',
  (forall s v, cb (PSignal s) v -> v = Ok tt) ->
  with_run_cb cb o ext piped_stdin use_pty ob eb enc (any_body o ext) fresh r w' ->
  (events w' = [LAudit PStart] /\ exists e, r = Err e /\ cb PStart (Err e))
  \/ exists r0, with_run o ext piped_stdin use_pty ob eb enc (any_body o ext) fresh r0 w'
     /\ (r = r0 \/ exists e f, r = Err e /\ cb (PStop f) (Err e)).
Proof.
  intros cb o ext ps up ob eb enc r w' Q H. apply u_with_run in H; [|exact Q].
  destruct H as [(e & -> & (A & C) & ->)|(r0 & H & R)].
  - left. split; [|eauto]. unfold events, upd_x, audit. cbn. destruct (o_audit_callback o); [reflexivity|congruence].
  - right. exists r0. split; [exact H|]. destruct R as [R|(e & f & R & (_ & C))]; [now left|right; eauto].
Qed.
Print Assumptions c131_same_events.

(** Whatever the callback does: the start is reported first and once, the stop
    last and once, unless the callback raised when the start was reported. *)
Theorem c131_brackets : forall (cb : phase -> res unit -> Prop) o ext piped_stdin use_pty ob eb enc r w',
  o_audit_callback o <> None ->
  with_run_cb cb o ext piped_stdin use_pty ob eb enc (any_body o ext) fresh r w' ->
  (events w' = [LAudit PStart] /\ exists e, r = Err e /\ cb PStart (Err e))
  \/ exists l f, events w' = LAudit PStart :: l ++ [LAudit (PStop f)]
     /\ (forall p, In (LAudit p) l -> exists s, p = PSignal s).
Proof.
  intros cb o ext ps up ob eb enc r w' A H.
  assert (C : closed_log (w_x w') -> exists l f, events w' = LAudit PStart :: l ++ [LAudit (PStop f)] /\ (forall p, In (LAudit p) l -> exists s, p = PSignal s)).
  { intros (l & f & E & F). exists l, f. split; [exact E|]. intros p Q. rewrite Forall_forall in F. apply F in Q. destruct p; [destruct Q|eauto|destruct Q]. }
  destruct H as [([] & w1 & H1 & (rb & w2 & H2 & H3))|(e & H1 & ->)]; apply (aenter_brackets _ _ _ _ _ _ _ _ _ A) in H1.
  - destruct H1 as [(_ & O1)|(e & Q & _)]; [|discriminate Q]. right. apply C.
    pose proof (g_body o ext opened (opened_steady o ext) _ _ _ O1 H2) as O2.
    assert (X : exists exc re, aexit_cb cb o ext ps exc w2 re w').
    { destruct rb as [[]|e]; destruct H3 as [(b & w3 & H3 & H4)|(e2 & H3 & _)]; try (destruct b); try destruct H4 as [_ ->]; eauto. }
    destruct X as (exc & re & X). exact (aexit_brackets _ _ _ _ _ _ _ _ A X O2).
  - destruct H1 as [(Q & _)|(e1 & [= <-] & [K|K])]; [discriminate Q|right; exact (C K)|left]. destruct K as [K1 K2]. eauto.
Qed.
Print Assumptions c131_brackets.

(** C34 for callbacks that may raise: false. *)
Definition c131_full_claim := forall (cb : phase -> res unit -> Prop) o piped_stdin use_pty ob eb enc r w',
  with_run_cb cb o false piped_stdin use_pty ob eb enc (any_body o false) fresh r w' ->
  In LSpawn (events w') ->
  (exists s, In (LExit s) (events w')) \/ In (LSent 9) (events w').
(** The task is cancelled while the process is being launched; the callback
    raises when SIGTERM is reported and again when SIGKILL is: neither is sent,
    and the process is left running. *)
Definition bad_cb (p : phase) (v : res unit) : Prop := match p with PSignal _ => v = Err boom | _ => v = Ok tt end.
(** The callback's outcome where it is determined. *)
Ltac ask := split; [reflexivity|vm_compute; reflexivity].
Ltac join l := exists l; eexists; eexists; split; [vr|vm_compute; first [left; split; reflexivity|right; split; [reflexivity|split; [reflexivity|split; reflexivity]]]].
Lemma c131_left_running : exists w',
  with_run_cb bad_cb (ex_opts None) false false false None None [] (any_body (ex_opts None) false) fresh (Err boom) w'
  /\ events w' = [LAudit PStart; LSpawn; LCancel; LAudit (PSignal (Some 15)); LAudit (PSignal None); LAudit (PStop (Some boom))].
Proof.
  eexists. split.
  - unfold with_run_cb. eapply g_bind.
    + all: go. 1: ask. all: go. 1: apply setup_ok. all: go. 1: wait_by (@nil (@wev unit rxe)). all: go.
      1: wait_by [ev XSpawn; ev XCancel]. all: go. 1: join [fin 0 (TValue tt); RunnerProps.cb 0].
      all: go. 1: ask. all: go. 1: ask. all: go. 1: ask. all: go.
    + go.
  - reflexivity.
  Unshelve. exact TCancelled.
Qed.
Theorem c131_nothing_left_refuted : ~ c131_full_claim.
Proof.
  intros C. destruct c131_left_running as (w' & H & E). destruct (C _ _ _ _ _ _ _ _ _ H) as [(s & Q)|Q].
  - rewrite E. cbn. auto.
  - rewrite E in Q. cbn in Q. intuition discriminate.
  - rewrite E in Q. cbn in Q. intuition discriminate.
Qed.
Print Assumptions c131_nothing_left_refuted.

(** Missing: callbacks that raise when a signal is reported, in a run whose
    start fails (runs that were entered: c131_entered_nothing_left). *)
Theorem c131_nothing_left_partial : forall (cb : phase -> res unit -> Prop) o piped_stdin use_pty ob eb enc r w',
  (forall s v, cb (PSignal s) v -> v = Ok tt) ->
  with_run_cb cb o false piped_stdin use_pty ob eb enc (any_body o false) fresh r w' ->
  In LSpawn (events w') ->
  (exists s, In (LExit s) (events w')) \/ In (LSent 9) (events w').
Proof.
  intros cb o ps up ob eb enc r w' Q H I. apply c131_same_events in H; [|exact Q]. destruct H as [(E & _)|(r0 & H & _)].
  - rewrite E in I. destruct I as [I|[]]. discriminate.
  - eapply c34_nothing_left_running; eauto.
Qed.
Print Assumptions c131_nothing_left_partial.

(** ** Examples *)
(** A callback that raises when the end of a run that was entered is reported. *)
Definition stop_cb (p : phase) (v : res unit) : Prop := match p with PStop None => v = Err boom | _ => v = Ok tt end.
Lemma stop_entered : aenter_cb stop_cb (ex_opts None) false false None None [] fresh (Ok tt) (launched false).
Proof.
  all: go. 1: ask. all: go. 1: apply setup_ok. all: go. 1: wait_by (@nil (@wev unit rxe)). all: go. 1: wait_by [ev XSpawn; fin 0 (TValue tt); RunnerProps.cb 0].
  all: go. 1: exists 1%nat. all: go. 1: apply setup_ok. all: go.
Qed.
Example c131_example_stop : exists w',
  aenter_cb stop_cb (ex_opts None) false false None None [] fresh (Ok tt) (launched false)
  /\ aexit_cb stop_cb (ex_opts None) false false None (launched false) (Err boom) w'
  /\ events w' = [LAudit PStart; LSpawn; LExit 0; LCollect 0; LAudit (PStop None)]
  /\ with_run_cb stop_cb (ex_opts None) false false false None None [] (any_body (ex_opts None) false) fresh (Err boom) w'
  /\ (forall s v, stop_cb (PSignal s) v -> v = Ok tt) /\ (forall v, stop_cb (PStop None) v -> v <> Ok tt).
Proof.
  assert (H : exists w', aexit_cb stop_cb (ex_opts None) false false None (launched false) (Err boom) w'
    /\ events w' = [LAudit PStart; LSpawn; LExit 0; LCollect 0; LAudit (PStop None)]).
  { eexists. split; [|].
    - all: go. 1: wait_by normal_end. all: go. 1: ask. all: go.
    - reflexivity. }
  destruct H as (w' & H & E). exists w'. split; [exact stop_entered|]. split; [exact H|]. split; [exact E|]. split; [|split; cbn; [auto|intros v ->; discriminate]].
  unfold with_run_cb. eapply b_bind; [exact stop_entered|]. exists (Ok tt), (launched false).
  split; [apply bs_refl|]. eapply g_bind; [exact H|]. go.
Qed.
(** The task is cancelled inside the body, and the callback raises when SIGTERM
    is reported: the process is sent SIGKILL. *)
Definition sig_cb (p : phase) (v : res unit) : Prop := match p with PSignal (Some _) => v = Err boom | _ => v = Ok tt end.
Example c131_example_signal : exists w',
  aexit_cb sig_cb (ex_opts None) false false (Some CancelledError) (launched false) (Err boom) w'
  /\ events w' = [LAudit PStart; LSpawn; LAudit (PSignal (Some 15)); LAudit (PSignal None); LSignal None; LSent 9; LExit (-9); LCollect (-9); LAudit (PStop None)].
Proof.
  eexists. split; [|].
  - all: go. 1: ask. all: go. 1: ask. all: go. 1: wait_by [ev (XExit (-9)); ev XWatch; ev XCollect; fin 3 (TValue tt); RunnerProps.cb 3]. all: go. 1: ask. all: go.
  - reflexivity.
Qed.
(** A callback that raises at the start. *)
Definition start_bad (p : phase) (v : res unit) : Prop := match p with PStart => v = Err boom | _ => v = Ok tt end.
Example c131_example_start : exists w',
  with_run_cb start_bad (ex_opts None) false false false None None [] (any_body (ex_opts None) false) fresh (Err boom) w'
  /\ (forall v, start_bad PStart v -> v <> Ok tt).
Proof.
  eexists. split; [|intros v ->; discriminate]. unfold with_run_cb. eapply g_bind.
  - all: go. 1: ask. all: go.
  - go.
Qed.
(** A callback that always returns. *)
Example c131_example_returning : exists cb : phase -> res unit -> Prop, forall p v, cb p v <-> v = Ok tt.
Proof. exists (fun _ v => v = Ok tt). intros p v. tauto. Qed.
