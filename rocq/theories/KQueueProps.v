(** The kqueue child watcher: C58, C102, C103, C104, C105. *)
From Verif Require Import Base EPollModel EPollProofs KQueueModel KQueueSpec KQueueProofs KQueueProofs2 KQueueProofs3 KQueueProofs4 KQueueProofs5.
From Coq Require Import List ZArith Lia Bool Permutation.
Import ListNotations.
Local Open Scope nat_scope.

Section Props.
Context (ordered quick bad_cb : bool).
Notation kreach := (kreach ordered quick bad_cb).
Notation kstep := (kstep ordered quick bad_cb).
Notation quiet := (quiet ordered quick bad_cb).

(** *** C58: at most one call, with the status of the watched child *)
Theorem c58_kqueue_at_most_once s k :
  kreach s ->
  kn_calls k (k_log s) <= 1 /\ forall st, In (QLCall k st) (k_log s) -> In (QLExit (k_wproc s k) st) (k_log s).
Proof.
  intros R. destruct (reach_KAB _ _ _ _ R) as (A & B). split; [apply (b_once _ B)|].
  intros st L. destruct (b_log _ B _ _ L) as (_ & P). apply (ka_exit _ A). eauto.
Qed.

(** *** C102: the callback is not lost *)

(** While the watcher is open. *)
Theorem c102_exactly_once_while_open_partial s :
  kreach s -> quick = true -> bad_cb = false -> ~ In QLClosing (k_log s) ->
  kthread_stops ordered quick bad_cb s /\
  (quiet s -> forall k st, In (QLWatched k) (k_log s) -> In (QLExit (k_wproc s k) st) (k_log s) ->
     In (QLCall k st) (k_log s) /\ kn_calls k (k_log s) = 1).
Proof.
  intros R Qk BC NC. split; [apply kacc|]. intros Z k st W X. destruct (reach_KAB _ _ _ _ R) as (A & B).
  assert (Y : kn_calls k (k_log s) = 1); [|split; [eapply called_exact_k; eauto|auto]].
  pose proof (reach_KC _ _ _ _ R) as C. pose proof (reach_KD _ _ _ _ Qk R) as D.
  assert (NS : ~ stopped (k_pc s)). { intros S1. apply NC, (kc_closing _ _ C). destruct (kc_stop _ _ C BC S1) as [E|E]; rewrite E; discriminate. }
  destruct (quiet_thread _ _ _ _ R Z) as [P|(P & RD)]; [exfalso; apply NS; rewrite P; exact Logic.I|].
  destruct (quiet_watch _ _ _ _ k Qk R Z W) as [E|E]; auto.
  destruct (kd_ok _ D k E) as [Q|[Q|[Q|[Q|Q]]]]; auto; exfalso.
  - rewrite P in Q. destruct Q as [[]|[]].
  - unfold queue in Q. rewrite P, RD in Q. destruct Q.
  - destruct (b_note _ B _ Q) as (j & _ & _ & E2 & _). apply (ka_exit _ A) in X. destruct X as (n & [X|X]); congruence.
  - contradiction.
Qed.

(** When close() has returned: every child that was watched and had exited before
    close() was called.  Partial: kevent must report events in order. *)
Theorem c102_exactly_once_after_close_partial s k st :
  kreach s -> ordered = true -> quick = true -> bad_cb = false -> quiet s -> In QLClosed (k_log s) ->
  kbefore_closing (QLWatched k) (k_log s) -> kbefore_closing (QLExit (k_wproc s k) st) (k_log s) ->
  In (QLCall k st) (k_log s) /\ kn_calls k (k_log s) = 1.
Proof.
  intros R O Qk BC Z CL B1 B2. pose proof (proj1 (kbefore_in _ _ B2)) as X.
  assert (Y : kn_calls k (k_log s) = 1); [|split; [eapply called_exact_k; eauto|auto]].
  pose proof (reach_KC _ _ _ _ R) as C. apply (kc_closed _ _ C), (kc_done _ _ C) in CL.
  destruct (quiet_watch _ _ _ _ k Qk R Z (proj1 (kbefore_in _ _ B1))) as [E|E]; auto.
  destruct (reach_KE _ _ _ s O Qk BC R k E) as [Q|[Q|(Q & _)]]; auto.
  - split; eauto.
  - rewrite CL in Q. destruct Q as [[]|[]].
  - rewrite CL in Q. exfalso. apply Q. exact Logic.I.
Qed.

(** *** C103: close() comes to an end *)
Theorem c103_close_returns s :
  kreach s -> In QLClosing (k_log s) ->
  kthread_stops ordered quick bad_cb s /\
  (quiet s -> (forall s', kstep s s' -> k_close s' = k_close s) ->
     In QLClosed (k_log s) \/ (bad_cb = true /\ In QLCloseRaised (k_log s))).
Proof.
  intros R L. split; [apply kacc|]. intros Z N. pose proof (reach_KC _ _ _ _ R) as C. apply (kc_closing _ _ C) in L.
  destruct (k_close s) eqn:E; try congruence.
  - exfalso. destruct (k_open s) eqn:O.
    + discriminate (N _ (q_close_add _ _ _ s E O)).
    + discriminate (N _ (q_close_err _ _ _ s E O)).
  - exfalso. destruct (quiet_thread _ _ _ _ R Z) as [P|(P & RD)].
    + discriminate (N _ (q_close_join _ _ _ s E P)).
    + destruct (kc_wake _ _ C E) as [Q|Q]; rewrite P in Q; [destruct Q|rewrite RD in Q; destruct Q].
  - left. now apply (kc_closed _ _ C).
  - right. split; [apply (kc_raised2 _ _ C E)|now apply (kc_raised _ _ C)].
Qed.

(** *** C104: the kqueue descriptor *)
Theorem c104_kqueue_closed_once s :
  kreach s -> kn_free (k_log s) <= 1 /\ (In QLClosed (k_log s) -> kn_free (k_log s) = 1).
Proof.
  intros R. pose proof (reach_KC _ _ _ _ R) as C. rewrite (kc_free _ _ C). split; [destruct (k_pc s); lia|].
  intros L. apply (kc_closed _ _ C), (kc_done _ _ C) in L. now rewrite L.
Qed.

(** *** C105: a recycled pid can be watched again *)
Theorem c105_recycled_pid_partial s k :
  kreach s -> In (QLRejected k) (k_log s) ->
  exists j, j <> k /\ k_pid s j = k_pid s k /\ k_w s j = QRaised.
Proof.
  intros R. assert (G : In (QLRejected k) (k_log s) -> k_w s k = QRejected /\ exists j, j <> k /\ k_pid s j = k_pid s k /\ k_w s j = QRaised); [|intros L; apply (G L)].
  induction R as [s I|s s' R IH H]; [destruct I as (_ & _ & _ & _ & _ & _ & _ & _ & ->); intros []|].
  destruct (reach_KAB _ _ _ _ R) as (A & B). intros L.
  assert (X : In (QLRejected k) (k_log s) \/ (k_w s k = QCheck /\ k_dict s (k_pid s k) <> None /\ s' = q_log (QLRejected k) (q_w k QRejected s))).
  { clear -H L. inversion H; subst; cbn in *; auto; repeat (destruct L as [L|L]; [try discriminate|]); auto. injection L as ->. auto. }
  destruct X as [X|(W & D & ->)].
  - destruct (IH X) as (W & j & N & P & Wj).
    assert (Y : forall i x, k_w s i = x -> x = QRejected \/ x = QRaised -> k_w s' i = x /\ k_pid s' i = k_pid s i).
    { intros i x Wi Hx. split; [|apply (same_args _ _ _ _ _ _ H); destruct Hx; congruence].
      destruct (watch_step _ _ _ _ _ i H) as [(E & _)|(E & _)]; [congruence|]. unfold KQueueProofs2.wstep in E. rewrite Wi in E. destruct Hx; subst x; cbn in E; rewrite ?H0 in E; destruct E. }
    destruct (Y k _ W) as (-> & ->), (Y j _ Wj) as (W2 & P2); auto. split; auto. exists j. rewrite P2. auto.
  - cbn. rewrite fset_same. split; auto. destruct (k_dict s (k_pid s k)) as [j|] eqn:E; [|congruence].
    destruct (b_dict _ B _ _ E) as (P & Wj). assert (NJ : j <> k) by (intros ->; destruct Wj as [Q|[Q|[Q|Q]]]; congruence).
    exists j. split; auto. rewrite fset_other by auto. split; auto. destruct (k_w s j) eqn:Wx; auto; exfalso; try (destruct Wj as [Q|[Q|[Q|Q]]]; discriminate).
    all: apply NJ; apply (same_watch s j k (k_pid s k) A); try congruence; [apply (b_live _ B); [auto|congruence]|apply (b_nr _ B); rewrite W; exact Logic.I].
Qed.
End Props.
Print Assumptions c58_kqueue_at_most_once.
Print Assumptions c102_exactly_once_while_open_partial.
Print Assumptions c102_exactly_once_after_close_partial.
Print Assumptions c103_close_returns.
Print Assumptions c104_kqueue_closed_once.
Print Assumptions c105_recycled_pid_partial.

(** The full claims, which are false. *)
Definition c102_full_claim (ordered quick bad_cb : bool) : Prop :=
  forall s k st, kreach ordered quick bad_cb s -> quiet ordered quick bad_cb s ->
    (~ In QLClosing (k_log s) \/ kbefore_closing (QLWatched k) (k_log s) /\ kbefore_closing (QLExit (k_wproc s k) st) (k_log s)) ->
    In (QLWatched k) (k_log s) -> In (QLExit (k_wproc s k) st) (k_log s) -> In (QLCall k st) (k_log s).
Definition c105_full_claim : Prop :=
  forall ordered quick bad_cb s k, kreach ordered quick bad_cb s -> ~ In (QLRejected k) (k_log s).

(** *** Examples *)
Definition kq0 : kst := mk_kst (fun _ => QNone) (fun _ => None) (fun _ => false) [] true TkPoll (fun _ => 0) (fun _ => 0%Z) (fun _ => QIdle) DIdle [].
Lemma kq0_reach o q b : kreach o q b kq0.
Proof. apply kr_init. repeat split; auto. Qed.
Lemma run1 o q b s s' (G : Prop) : kreach o q b s -> kstep o q b s s' -> (kreach o q b s' -> G) -> G.
Proof. intros R H K. apply K. eapply kr_step; eauto. Qed.
Ltac side := try solve [reflexivity | discriminate | (cbn; lia) | (intros _; reflexivity) | (intros; cbn; tauto) | (cbn; intros; discriminate)].
Tactic Notation "nx" uconstr(c) := match goal with R : kreach _ _ _ _ |- _ => eapply (run1 _ _ _ _ _ _ R); [eapply c; side|clear R; intros R; cbv beta iota delta [kq0 q_proc q_dict q_note q_ready q_open q_pc q_close q_log q_w k_proc k_dict k_note k_ready k_open k_pc k_wproc k_pid k_w k_close k_log] in R] end.
Ltac rest := let s' := fresh in let H := fresh in intros s' H; inversion H; subst; clear H; cbn in *; try discriminate;
  try (split; [reflexivity|split; [intros kk [(nn & EE)|(nn & EE)]; destruct kk as [|[|kk]]; discriminate|intros pp nn ss EE; destruct pp as [|[|pp]]; discriminate]]);
  try (match goal with P : Permutation [] (?l ++ ?r) |- _ => apply Permutation_nil in P; destruct l; [congruence|discriminate] end).
(** A child is watched, exits and is reported. *)
Example ex_reported : forall b, exists s, kreach true true b s /\ k_log s = [QLCall 0 3; QLExit 0 3; QLWatched 0] /\ k_wproc s 0 = 0 /\ quiet true true b s.
Proof.
  intros b. pose proof (kq0_reach true true b) as R.
  nx (q_fork _ _ _ _ 0 7%Z). nx (q_watch _ _ _ _ 0 0 7%Z). nx (q_check _ _ _ _ 0). nx (q_set _ _ _ _ 0). nx (q_add _ _ _ _ 0 0).
  nx (q_die _ _ _ _ 0 7%Z 3%Z). nx (q_exit _ _ _ _ 0 7%Z 3%Z).
  nx (q_kevent _ _ _ _ [QProc 0] []). nx (q_loop _ _ _ _ (QProc 0) []). nx (q_pop _ _ _ _ 0 [] 7%Z 0).
  nx (q_wait _ _ _ _ 0 [] (Some 3%Z)). { apply (qw_zombie _ _ 0 3%Z). reflexivity. }
  nx (q_call _ _ _ _ 0 3%Z []). nx (q_loop_end _ _ _ _).
  eexists. split; [exact R|]. split; [reflexivity|]. split; [reflexivity|]. clear R. rest.
Qed.
(** A child that exits during watch_pid is reported by the polling task. *)
Example ex_late : exists s, kreach true true false s /\ k_log s = [QLCall 0 3; QLExit 0 3; QLWatched 0] /\ k_wproc s 0 = 0 /\ quiet true true false s.
Proof.
  pose proof (kq0_reach true true false) as R.
  nx (q_fork _ _ _ _ 0 7%Z). nx (q_watch _ _ _ _ 0 0 7%Z). nx (q_check _ _ _ _ 0). nx (q_set _ _ _ _ 0).
  nx (q_die _ _ _ _ 0 7%Z 3%Z). nx (q_add_esrch _ _ _ _ 0). { intros p. cbn. unfold fset. destruct p; discriminate. }
  nx (q_kpop _ _ _ _ 0). nx (q_kwait _ _ _ _ 0 None). { apply (qw_dying _ _ 0 3%Z). reflexivity. }
  nx (q_task _ _ _ _ 0). nx (q_exit _ _ _ _ 0 7%Z 3%Z). nx (q_poll _ _ _ _ 0 4 (Some 3%Z)). { apply (qw_zombie _ _ 0 3%Z). reflexivity. }
  nx (q_late _ _ _ _ 0 3%Z).
  eexists. split; [exact R|]. split; [reflexivity|]. split; [reflexivity|]. clear R. rest.
Qed.
(** The watcher is closed after a child exited and before it was reported. *)
Example ex_closed : exists s, kreach true true false s /\ k_log s = [QLClosed; QLFree; QLCall 0 3; QLClosing; QLExit 0 3; QLWatched 0]
  /\ k_wproc s 0 = 0 /\ quiet true true false s /\ kbefore_closing (QLWatched 0) (k_log s) /\ kbefore_closing (QLExit 0 3) (k_log s).
Proof.
  pose proof (kq0_reach true true false) as R.
  nx (q_fork _ _ _ _ 0 7%Z). nx (q_watch _ _ _ _ 0 0 7%Z). nx (q_check _ _ _ _ 0). nx (q_set _ _ _ _ 0). nx (q_add _ _ _ _ 0 0).
  nx (q_die _ _ _ _ 0 7%Z 3%Z). nx (q_exit _ _ _ _ 0 7%Z 3%Z). nx (q_close_start _ _ _ _). nx (q_close_add _ _ _ _).
  nx (q_kevent _ _ _ _ [QProc 0; QTimer] []). nx (q_loop _ _ _ _ (QProc 0) [QTimer]). nx (q_pop _ _ _ _ 0 [QTimer] 7%Z 0).
  nx (q_wait _ _ _ _ 0 [QTimer] (Some 3%Z)). { apply (qw_zombie _ _ 0 3%Z). reflexivity. }
  nx (q_call _ _ _ _ 0 3%Z [QTimer]). nx (q_loop _ _ _ _ QTimer []). nx (q_fin _ _ _ _). nx (q_close_join _ _ _ _).
  eexists. split; [exact R|]. split; [reflexivity|]. split; [reflexivity|]. split; [clear R; rest|].
  cbn. split; exists [QLClosed; QLFree; QLCall 0 3], [QLExit 0 3; QLWatched 0]; cbn; auto.
Qed.

(** A child that cannot be waited for by the time the second wait_pid (238-239)
    is made is never reported. *)
Theorem c102_slow_exit_refuted : ~ c102_full_claim true false false.
Proof.
  intros F. pose proof (kq0_reach true false false) as R.
  nx (q_fork _ _ _ _ 0 7%Z). nx (q_watch _ _ _ _ 0 0 7%Z). nx (q_check _ _ _ _ 0). nx (q_set _ _ _ _ 0). nx (q_add _ _ _ _ 0 0).
  nx (q_die _ _ _ _ 0 7%Z 3%Z).
  nx (q_kevent _ _ _ _ [QProc 0] []). nx (q_loop _ _ _ _ (QProc 0) []). nx (q_pop _ _ _ _ 0 [] 7%Z 0).
  nx (q_wait _ _ _ _ 0 [] None). { apply (qw_dying _ _ 0 3%Z). reflexivity. }
  nx (q_sleep _ _ _ _ 0 []). nx (q_wait2 _ _ _ _ 0 [] None). { apply (qw_dying _ _ 0 3%Z). reflexivity. }
  nx (q_loop_end _ _ _ _). nx (q_exit _ _ _ _ 0 7%Z 3%Z).
  assert (X : In (QLCall 0 3) [QLExit 0 3; QLWatched 0]); [|destruct X as [X|[X|[]]]; discriminate].
  eapply (F _ 0 3%Z R).
  - clear. rest.
  - left. cbn. intuition discriminate.
  - cbn. auto 10.
  - cbn. auto 10.
Qed.
(** A callback that raises ends the thread: other children are never reported. *)
Theorem c102_raising_callback_refuted : ~ c102_full_claim true true true.
Proof.
  intros F. pose proof (kq0_reach true true true) as R.
  nx (q_fork _ _ _ _ 0 7%Z). nx (q_fork _ _ _ _ 1 8%Z). { intros q. cbn. unfold fset. destruct q; cbn; [discriminate|auto]. }
  nx (q_watch _ _ _ _ 0 0 7%Z). nx (q_check _ _ _ _ 0). nx (q_set _ _ _ _ 0). nx (q_add _ _ _ _ 0 0).
  nx (q_watch _ _ _ _ 1 1 8%Z). { intros j. cbn. unfold fset. destruct j; cbn; congruence. }
  nx (q_check _ _ _ _ 1). nx (q_set _ _ _ _ 1). nx (q_add _ _ _ _ 1 1).
  nx (q_die _ _ _ _ 0 7%Z 3%Z). nx (q_exit _ _ _ _ 0 7%Z 3%Z). nx (q_die _ _ _ _ 1 8%Z 0%Z). nx (q_exit _ _ _ _ 1 8%Z 0%Z).
  nx (q_kevent _ _ _ _ [QProc 0; QProc 1] []). nx (q_loop _ _ _ _ (QProc 0) [QProc 1]). nx (q_pop _ _ _ _ 0 [QProc 1] 7%Z 0).
  nx (q_wait _ _ _ _ 0 [QProc 1] (Some 3%Z)). { apply (qw_zombie _ _ 0 3%Z). reflexivity. }
  nx (q_call_raises _ _ _ _ 0 3%Z [QProc 1]). nx (q_fin _ _ _ _).
  assert (X : In (QLCall 1 0) [QLFree; QLCall 0 3; QLExit 1 0; QLExit 0 3; QLWatched 1; QLWatched 0]); [|cbn in X; intuition discriminate].
  eapply (F _ 1 0%Z R).
  - clear. rest.
  - left. cbn. intuition discriminate.
  - cbn. auto 10.
  - cbn. auto 10.
Qed.
(** If kevent may report the wake-up event first, a child that had exited before
    close() is never reported. *)
Theorem c102_unordered_refuted : ~ c102_full_claim false true false.
Proof.
  intros F. pose proof (kq0_reach false true false) as R.
  nx (q_fork _ _ _ _ 0 7%Z). nx (q_watch _ _ _ _ 0 0 7%Z). nx (q_check _ _ _ _ 0). nx (q_set _ _ _ _ 0). nx (q_add _ _ _ _ 0 0).
  nx (q_die _ _ _ _ 0 7%Z 3%Z). nx (q_exit _ _ _ _ 0 7%Z 3%Z). nx (q_close_start _ _ _ _). nx (q_close_add _ _ _ _).
  nx (q_kevent _ _ _ _ [QTimer; QProc 0] []). { cbn. constructor. }
  nx (q_loop _ _ _ _ QTimer [QProc 0]). nx (q_fin _ _ _ _). nx (q_close_join _ _ _ _).
  assert (X : In (QLCall 0 3) [QLClosed; QLFree; QLClosing; QLExit 0 3; QLWatched 0]); [|cbn in X; intuition discriminate].
  eapply (F _ 0 3%Z R).
  - clear. rest.
  - right. cbn. split; exists [QLClosed; QLFree], [QLExit 0 3; QLWatched 0]; cbn; auto.
  - cbn. auto 10.
  - cbn. auto 10.
Qed.
(** watch_pid fails for a child (the kernel refuses the event); the entry stays in
    the table, and a later child with the same pid is rejected. *)
Theorem c105_refuted : ~ c105_full_claim.
Proof.
  intros F. pose proof (kq0_reach true true false) as R.
  nx (q_fork _ _ _ _ 0 7%Z). nx (q_watch _ _ _ _ 0 0 7%Z). nx (q_check _ _ _ _ 0). nx (q_set _ _ _ _ 0). nx (q_add_err _ _ _ _ 0).
  nx (q_die _ _ _ _ 0 7%Z 3%Z). nx (q_exit _ _ _ _ 0 7%Z 3%Z). nx (q_other _ _ _ _ 0 7%Z 3%Z).
  { intros j. cbn. unfold fset. destruct j; cbn; [auto|congruence]. }
  nx (q_fork _ _ _ _ 1 7%Z). { intros q. cbn. unfold fset. destruct q; cbn; auto. }
  nx (q_watch _ _ _ _ 1 1 7%Z). { intros j. cbn. unfold fset. destruct j; cbn; congruence. }
  nx (q_check_err _ _ _ _ 1).
  apply (F _ _ _ _ 1 R). cbn. auto.
Qed.
(** After a callback that raised, close() raises ValueError. *)
Example ex_close_raises : exists s, kreach true true true s /\ In QLCloseRaised (k_log s).
Proof.
  pose proof (kq0_reach true true true) as R.
  nx (q_fork _ _ _ _ 0 7%Z). nx (q_watch _ _ _ _ 0 0 7%Z). nx (q_check _ _ _ _ 0). nx (q_set _ _ _ _ 0). nx (q_add _ _ _ _ 0 0).
  nx (q_die _ _ _ _ 0 7%Z 3%Z). nx (q_exit _ _ _ _ 0 7%Z 3%Z).
  nx (q_kevent _ _ _ _ [QProc 0] []). nx (q_loop _ _ _ _ (QProc 0) []). nx (q_pop _ _ _ _ 0 [] 7%Z 0).
  nx (q_wait _ _ _ _ 0 [] (Some 3%Z)). { apply (qw_zombie _ _ 0 3%Z). reflexivity. }
  nx (q_call_raises _ _ _ _ 0 3%Z []). nx (q_fin _ _ _ _). nx (q_close_start _ _ _ _). nx (q_close_err _ _ _ _).
  eexists. split; [exact R|]. cbn. auto.
Qed.
Print Assumptions c102_slow_exit_refuted.
Print Assumptions c102_raising_callback_refuted.
Print Assumptions c102_unordered_refuted.
Print Assumptions c105_refuted.
