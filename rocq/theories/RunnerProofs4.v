From Verif Require Import AsyncModel AsyncSpec AsyncProofs HarvestModel HarvestSpec HarvestProofs HarvestProofs2 AsyncInv
  RunnerModel RunnerSpec RunnerProofs RunnerProofs2 RunnerProofs3.
Open Scope Z_scope.

Section R.
Context (o : opts) (ext piped_stdin use_pty : bool).
Notation world := (world rx rkind unit).
Notation M := (@M rx rkind unit).
Notation rstep := (rstep o).
Notation rfinish := (rfinish ext).
Notation harvest := (harvest rstep rfinish).
Notation kill_wait := (kill_wait o ext).
Notation kill := (kill o ext).
Notation wait := (wait o ext).
Notation close := (close o ext piped_stdin).
Notation finish := (finish o ext piped_stdin).

Record prel (w0 w : world) (l : list rev) (h : list (hev unit)) : Prop := {
  pr_log : x_log (w_x w) = x_log (w_x w0) ++ l;
  pr_hist : w_hist w = w_hist w0 ++ h;
  pr_marks : marks l = cancels h;
  pr_audit : o_audit_callback o <> None -> audits l = map PSignal (signals l);
  pr_proc : x_proc (w_x w0) = true -> x_proc (w_x w) = true;
  pr_rc : x_rc (w_x w0) <> None -> x_rc (w_x w) = x_rc (w_x w0);
  pr_exit : x_exit (w_x w0) <> None -> x_exit (w_x w) = x_exit (w_x w0);
  pr_timer : x_timer (w_x w) = true -> x_timer (w_x w0) = true;
  pr_timed : x_timer (w_x w0) = false -> x_timed_out (w_x w) = x_timed_out (w_x w0);
  pr_launching : x_launching (w_x w) = true -> x_launching (w_x w0) = true;
  pr_canc : x_cancelled (w_x w0) = true -> x_cancelled (w_x w) = true;
  pr_inside : x_inside (w_x w) = x_inside (w_x w0);
  pr_child : x_launching (w_x w0) = false -> x_child (w_x w) = true -> x_child (w_x w0) = true
}.
Definition J (w : world) : Prop := XI (w_x w) /\ TI ext w /\ (MK w /\ HI w) /\ TM w.
(** The invariant is kept and the world has developed regularly. *)
Definition reg (w w' : world) : Prop := (J w -> J w') /\ exists l h, prel w w' l h.

Lemma prel_refl w : prel w w [] [].
Proof. constructor; auto; now rewrite app_nil_r. Qed.
Lemma prel_trans w0 w1 w2 l1 h1 l2 h2 : prel w0 w1 l1 h1 -> prel w1 w2 l2 h2 -> prel w0 w2 (l1 ++ l2) (h1 ++ h2).
Proof.
  intros A B. destruct A as [a1 a2 a3 a4 a5 a6 a7 a8 a13 a9 a10 a11 a12], B as [b1 b2 b3 b4 b5 b6 b7 b8 b13 b9 b10 b11 b12].
  constructor; auto.
  - now rewrite b1, a1, app_assoc.
  - now rewrite b2, a2, app_assoc.
  - now rewrite marks_app, cancels_app, a3, b3.
  - intros Q. now rewrite audits_app, signals_app, map_app, a4, b4.
  - intros Q. rewrite b6; rewrite a6; auto.
  - intros Q. rewrite b7; rewrite a7; auto.
  - intros Q. rewrite b13; [now apply a13|]. destruct (x_timer (w_x w1)) eqn:Z; [|reflexivity]. rewrite (a8 eq_refl) in Q. discriminate.
  - congruence.
  - intros Q1 Q2. apply a12; [exact Q1|]. apply b12; [|exact Q2]. destruct (x_launching (w_x w1)); [|reflexivity].
    rewrite a9 in Q1; [discriminate|reflexivity].
Qed.
Lemma reg_refl w : reg w w.
Proof. split; [auto|]. exists [], []. apply prel_refl. Qed.
Lemma reg_trans w0 w1 w2 : reg w0 w1 -> reg w1 w2 -> reg w0 w2.
Proof. intros (A & l1 & h1 & B) (C & l2 & h2 & D). split; [auto|]. exists (l1 ++ l2), (h1 ++ h2). eapply prel_trans; eauto. Qed.
Lemma envrel_prel w w' l h : envrel o w w' l h -> prel w w' l h.
Proof.
  intros [E1 E2 E3 E4 E5 E7 E6]. destruct E1. constructor; auto. intros Q. now rewrite fr_canc.
Qed.
Lemma stable_J : stable rstep rfinish J.
Proof.
  apply stable_and; [apply stable_XI|]. apply stable_and; [apply stable_TI|]. apply stable_and; [|apply stable_TM].
  apply stable_and; [|apply stable_HI].
  constructor; unfold MK.
  - intros w ev w' c H E. pose proof (st_env _ _ _ (stable_envrel o ext w) w ev w' c) as Q.
    destruct Q as (l & h & [F Hh Mk _ _ _ _]); [exists [], []; apply envrel_refl|exact E|].
    rewrite (fr_log _ _ _ F), Hh, marks_app, cancels_app. lia.
  - intros w H. cbn. rewrite cancels_app. cbn. lia.
  - intros w i H. unfold req. destruct (task_done w i); [exact H|]. cbn. rewrite cancels_app. cbn. lia.
  - intros w k H. exact H.
Qed.
Lemma harvest_reg aws t cf w r w' : harvest aws t cf w r w' -> reg w w'.
Proof.
  intros H. split; [intros Q; exact (k_harvest _ _ _ stable_J _ _ _ _ _ _ Q H)|].
  apply harvest_envrel in H as (l & h & E). exists l, h. now apply envrel_prel.
Qed.

Definition regm {A} (m : M A) := forall w r w', m w r w' -> reg w w'.
Lemma r_bind {A B} (m : M A) (f : A -> M B) : regm m -> (forall a, regm (f a)) -> regm (bindM m f).
Proof. intros H1 H2 w r w' [(a & w1 & A1 & A2)|(e & A1 & _)]; [eapply reg_trans; [eapply H1; eauto|eapply H2; eauto]|eapply H1; eauto]. Qed.
Lemma r_try {A} (m : M A) h : regm m -> (forall e k, h e = Some k -> regm k) -> regm (tryM m h).
Proof.
  intros H1 H2 w r w' [(a & A1 & _)|(e & w1 & A1 & A2)]; [eapply H1; eauto|]. destruct (h e) as [k|] eqn:E.
  - eapply reg_trans; [eapply H1; eauto|eapply H2; eauto].
  - destruct A2 as [_ ->]. eapply H1; eauto.
Qed.
Lemma r_finally {A} (m : M A) f : regm m -> regm f -> regm (finallyM m f).
Proof. intros H1 H2 w r w' (r1 & w1 & A1 & [(A2 & _)|(e & A2 & _)]); (eapply reg_trans; [eapply H1; eauto|eapply H2; eauto]). Qed.
Lemma r_ret {A} (a : A) : regm (ret a).
Proof. intros w r w' [_ ->]. apply reg_refl. Qed.
Lemma r_raise {A} e : regm (raise (A := A) e).
Proof. intros w r w' [_ ->]. apply reg_refl. Qed.
Lemma r_getx {A} (f : rx -> A) : regm (getx f).
Proof. intros w r w' [_ ->]. apply reg_refl. Qed.
Lemma r_assert b : regm (assertM b).
Proof. destruct b; [apply r_ret|apply r_raise]. Qed.
Lemma r_harvest aws t cf : regm (harvest aws t cf).
Proof. intros w r w' H. eapply harvest_reg; eauto. Qed.

(** Changes to the Runner's own attributes. *)
Lemma TI_x w x' : TI ext w -> x_rc x' = x_rc (w_x w) -> x_launching x' = x_launching (w_x w) -> x_child x' = x_child (w_x w) ->
  x_proc x' = x_proc (w_x w) -> TI ext (mk_world (w_tasks w) x' (w_hist w)).
Proof. intros T A B C D i t N. specialize (T i t N). cbn. rewrite A, B, C, D. exact T. Qed.
Lemma r_stop_timer : regm (stop_timer).
Proof.
  intros w r w' [_ ->]. split.
  - intros (X & T & Mk & Tm). split; [now apply XI_timer|]. split; [apply TI_x; auto|]. split; [exact Mk|]. intros i t A B C. cbn in *. eauto.
  - exists [], []. constructor; cbn; rewrite ?app_nil_r; auto; discriminate.
Qed.
Lemma r_set_cancelled : regm set_cancelled.
Proof.
  intros w r w' [_ ->]. split.
  - intros (X & T & Mk & Tm). split; [now apply XI_timer, XI_canc|]. split; [apply TI_x; auto|]. split; [exact Mk|]. intros i t A B C. cbn in *. eauto.
  - exists [], []. constructor; cbn; rewrite ?app_nil_r; auto; discriminate.
Qed.
Lemma r_clear_tasks : regm clear_tasks.
Proof.
  intros w r w' [_ ->]. split.
  - intros (X & T & Mk & Tm). split; [now apply XI_tasks|]. split; [apply TI_x; auto|]. split; [exact Mk|]. intros i t A B C. cbn in *. eauto.
  - exists [], []. constructor; cbn; rewrite ?app_nil_r; auto; discriminate.
Qed.
Lemma signal_fields sig x : x_rc (signal_x o sig x) = x_rc x /\ x_launching (signal_x o sig x) = x_launching x
  /\ x_child (signal_x o sig x) = x_child x /\ x_proc (signal_x o sig x) = x_proc x /\ x_exit (signal_x o sig x) = x_exit x
  /\ x_timed_out (signal_x o sig x) = x_timed_out x /\ x_cancelled (signal_x o sig x) = x_cancelled x
  /\ x_tasks (signal_x o sig x) = x_tasks x.
Proof.
  unfold signal_x, popen_send, popen_poll, audit. destruct (o_audit_callback o), sig; cbn; destruct (x_exit x) eqn:E; cbn; rewrite ?E; auto 10.
Qed.
Lemma signal_upd sig w : x_rc (w_x w) = None -> reg w (upd_x w (signal_x o sig)).
Proof.
  intros N. destruct (signal_fields sig (w_x w)) as (A & B & C & D & E & _). split.
  - intros (X & T & Mk & Tm). split; [now apply XI_signal|]. split; [now apply TI_x|]. destruct Mk as [Mk HIw]. split; [split; [|exact HIw]|intros i t Q1 Q2 Q3; change (x_timer (signal_x o sig (w_x w)) = false); destruct (signal_frame o sig (w_x w)) as (l0 & F0 & _); eapply timer_false; eauto].
    unfold MK in *. cbn. destruct (signal_frame o sig (w_x w)) as (l & F & L). rewrite (fr_log _ _ _ F), marks_app, Mk.
    unfold audit_piece. destruct (o_audit_callback o), L as [->| ->]; cbn; lia.
  - destruct (signal_frame o sig (w_x w)) as (l & F & L).
    exists (audit_piece o (PSignal sig) ++ LSignal sig :: l), []. destruct F. constructor; cbn; auto; try congruence.
    + now rewrite app_nil_r.
    + unfold audit_piece. destruct (o_audit_callback o), L as [->| ->]; reflexivity.
    + unfold audit_piece. destruct (o_audit_callback o), L as [->| ->]; intros; try congruence; reflexivity.
Qed.
Lemma signal_run sig w r w' : signal o sig w r w' -> (x_proc (w_x w) = true /\ r = Ok tt /\ w' = upd_x w (signal_x o sig)) \/ (x_proc (w_x w) = false /\ r = Err AssertionError /\ w' = w).
Proof.
  unfold signal. intros H. destruct H as [([] & w1 & H1 & H2)|(e & H1 & ->)]; apply i_getx in H1.
  - destruct (x_proc (w_x w)); destruct H1 as [Q ->]; [|discriminate]. destruct H2 as [-> ->]. left. auto.
  - destruct (x_proc (w_x w)); destruct H1 as [Q ->]; [discriminate|]. injection Q as ->. right. auto.
Qed.
Lemma r_signal sig w r w' : x_rc (w_x w) = None -> signal o sig w r w' -> reg w w'.
Proof. intros N H. apply signal_run in H as [(_ & _ & ->)|(_ & _ & ->)]; [now apply signal_upd|apply reg_refl]. Qed.

Lemma r_poll w r w' : (exists e, In e (x_log (w_x w)) /\ meddled e) -> poll_wait_pid w r w' -> reg w w'
  /\ match r with Ok true => x_rc (w_x w') <> None | Ok false => w' = w | Err _ => False end.
Proof.
  intros MD H. unfold poll_wait_pid in H. apply i_getx in H. destruct (x_rc (w_x w)) eqn:N.
  - destruct H as [-> ->]. split; [apply reg_refl|congruence].
  - apply i_getx in H. unfold waitpid_status in H. destruct (x_exit (w_x w)) as [s|] eqn:E; [|destruct H as [-> ->]; split; [apply reg_refl|reflexivity]].
    apply i_modx in H. destruct H as [-> ->]. set (z := if x_reaped (w_x w) then UNKNOWN_EXIT_CODE else s) in *.
    split; [|cbn; discriminate]. split.
    + intros (X & T & Mk & Tm). split; [|split].
      * cbn. pose proof (xi_reaped _ X) as R. pose proof (xi_status _ X) as TT.
        destruct X. constructor; logs; auto; inq; xifin R TT; try congruence.
        -- intros z'. rewrite in_app_iff, <- xi_rc, N. cbn. split; [intros [= ->]; auto|intros [Q|[Q|[]]]; congruence].
        -- intros _. split; [congruence|]. right. now apply ex_snoc.
        -- intros z' [Q|Q]; [destruct (TT z') as [A|(A & B)]; auto; right; split; [exact A|now apply ex_snoc]|].
           injection Q as <-. unfold z. destruct (x_reaped (w_x w)); [right; split; [reflexivity|now apply ex_snoc]|left; exact E].
      * intros i t Ni. specialize (T i t Ni). cbn in *. destruct (t_kind t), (t_out t) as [[[]|e0|]|]; try exact T; try discriminate; (destruct T as [T1 T2]; split; [exact T1|]);
          first [intros _; discriminate|right; right; left; discriminate].
      * destruct Mk as [Mk HIw]. split; [split; [|exact HIw]|intros i t Q1 Q2 Q3; exact (Tm i t Q1 Q2 Q3)]. unfold MK in *. cbn. rewrite marks_app, Mk. cbn. lia.
    + exists [LCollect z], []. constructor; cbn; auto; try congruence; now rewrite app_nil_r.
Qed.

(** What is known after the process was killed, or found dead. *)
Definition has (w : world) (e : rev) := In e (x_log (w_x w)).
Lemma reg_has w w' e : reg w w' -> has w e -> has w' e.
Proof. intros (_ & l & h & P) H. unfold has. rewrite (pr_log _ _ _ _ P). apply in_or_app. now left. Qed.
Lemma reg_rc w w' : reg w w' -> x_rc (w_x w) <> None -> x_rc (w_x w') <> None.
Proof. intros (_ & l & h & P) H. rewrite (pr_rc _ _ _ _ P); exact H. Qed.
Lemma reg_exit w w' : reg w w' -> x_exit (w_x w) <> None -> x_exit (w_x w') <> None.
Proof. intros (_ & l & h & P) H. rewrite (pr_exit _ _ _ _ P); exact H. Qed.
Lemma reg_proc w w' : reg w w' -> x_proc (w_x w) = true -> x_proc (w_x w') = true.
Proof. intros (_ & l & h & P) H. exact (pr_proc _ _ _ _ P H). Qed.
Definition dead (w : world) := x_exit (w_x w) <> None \/ has w (LSent SIGKILL).
Lemma reg_dead w w' : reg w w' -> dead w -> dead w'.
Proof. intros R [H|H]; [left; eapply reg_exit; eauto|right; eapply reg_has; eauto]. Qed.
Lemma rc_dead w : J w -> x_rc (w_x w) <> None -> dead w.
Proof. intros (X & _) H. left. now apply (xi_rc_exit _ X). Qed.
Lemma signal_kill_dead w : dead (upd_x w (signal_x o None)).
Proof.
  unfold dead, has. cbn. unfold signal_x, popen_send, popen_poll. destruct (x_exit (log _ _)) eqn:E.
  - left. cbn in *. congruence.
  - right. cbn. rewrite !in_app_iff. cbn. auto.
Qed.
(** The main task was cancelled after the last resort. *)
Lemma disturbed_app l l2 : disturbed l -> disturbed (l ++ l2).
Proof. intros (a & b & -> & H). exists a, (b ++ l2). rewrite <- app_assoc. split; [reflexivity|]. rewrite marks_app. lia. Qed.
Lemma reg_disturbed w w' : reg w w' -> disturbed (x_log (w_x w)) -> disturbed (x_log (w_x w')).
Proof. intros (_ & l & h & P) H. rewrite (pr_log _ _ _ _ P). now apply disturbed_app. Qed.

(** Errors that harvest raises for the Runner's waiter. *)
Lemma harvest_waiter_err w e w' : harvest [AwCoro KWaiter] true false w (Err e) w' -> J w ->
  e = TimeoutError \/ e = cancel_failed \/ (e = CancelledError /\ exists l h, envrel o w w' l h /\ (marks l > 0)%nat).
Proof.
  intros H HJ. pose proof (k_harvest _ _ _ stable_J _ _ _ _ _ _ HJ H) as (_ & T' & _). pose proof (harvest_envrel _ _ _ _ _ _ _ _ H) as (l & h & E).
  destruct (harvest_facts _ _ _ _ _ _ _ _ H) as (w0 & rw & h1 & h2 & w1 & E0 & _ & F & R); [discriminate|].
  pose proof (harvest_hist _ _ _ _ _ _ _ _ _ _ E0 F) as HH.
  destruct rw as [[]|e'].
  - destruct R as [(Q & _)|(e' & [= <-] & p & i & q & Q & O & _)]; [discriminate|]. exfalso.
    assert (i = List.length (w_tasks w)). { destruct p as [|? [|]]; cbn in Q; [now injection Q|discriminate|discriminate]. } subst i.
    unfold task_out in O. destruct (nth_error (w_tasks w') (List.length (w_tasks w))) as [t|] eqn:Nt; [|discriminate].
    assert (K : t_kind t = KWaiter).
    { destruct H as [(ts & wa & H1 & H2)|(e' & H1 & _)].
      - cbn in H1. destruct H1 as [(i & wb & [[= ->] ->] & H1)|(e' & [Q2 _] & _)]; [|discriminate].
        destruct H1 as [(is & wc & [[= ->] ->] & [[= ->] ->])|(e' & [Q2 _] & _)]; [|discriminate].
        destruct (harvest_tasks_spec _ _ _ _ _ _ _ _ H2) as (rw & HW & _); [discriminate|].
        destruct (hw_facts_intro _ _ _ _ _ _ _ _ HW) as (g1 & g2 & wm & F2); [discriminate|].
        destruct (extends_trans _ _ _ _ _ (hf_e1 _ _ _ _ _ _ _ _ _ F2) (hf_e2 _ _ _ _ _ _ _ _ _ F2)) as (_ & EX & _).
        destruct (EX (List.length (w_tasks w)) (mk_task KWaiter None 0)) as (t' & N' & K' & _).
        { cbn. rewrite nth_error_app2 by reflexivity. now rewrite Nat.sub_diag. }
        rewrite Nt in N'. injection N' as <-. exact K'.
      - apply ensure_futures_spec in H1. destruct H1; discriminate. }
    specialize (T' _ t Nt). rewrite K, O in T'. exact T'.
  - injection R as ->. destruct (hf_errs _ _ _ _ _ _ _ _ _ F e' eq_refl) as [->|[->| ->]]; auto. right; right. split; [reflexivity|].
    exists l, h. split; [exact E|]. rewrite (er_marks _ _ _ _ _ E).
    assert (h = h1 ++ h2) as -> by (rewrite (er_hist _ _ _ _ _ E) in HH; now apply app_inv_head in HH).
    rewrite cancels_app. destruct (hf_canc _ _ _ _ _ _ _ _ _ F eq_refl) as [(Q & _)|(_ & Q)]; [apply cancels_In in Q; lia|lia].
Qed.

(** _kill_wait. *)
Definition kw_errors (e : exn) : Prop := e = CancelledError \/ e = cancel_failed \/ e = unable_to_kill.
Lemma kill_wait_spec w r w' : kill_wait w r w' -> J w -> x_proc (w_x w) = true ->
  reg w w' /\ dead w'
  /\ (ext = false -> r = Ok tt -> x_rc (w_x w') <> None)
  /\ (forall e, r = Err e -> kw_errors e /\ (e = CancelledError -> disturbed (x_log (w_x w')))).
Proof.
  intros H HJ PR. unfold RunnerModel.kill_wait in H. cbn [bindM] in H.
  destruct H as [([] & w1 & H1 & H)|(e & H1 & _)]; apply i_getx in H1; rewrite PR in H1; destruct H1 as [Q ->]; [clear Q|discriminate].
  apply i_getx in H. destruct (x_rc (w_x w)) eqn:N.
  - destruct H as [-> ->]. split; [apply reg_refl|]. assert (x_rc (w_x w) <> None) by congruence. split; [now apply rc_dead|]. split; [auto|discriminate].
  - set (wk := upd_x w (signal_x o None)) in *.
    assert (Rk : reg w wk) by now apply signal_upd.
    assert (Jk : J wk) by (apply Rk; exact HJ).
    assert (Dk : dead wk) by apply signal_kill_dead.
    assert (Tail : forall ra wa, bindM (signal o None) (fun _ => harvest [AwCoro KWaiter] true false) w ra wa -> harvest [AwCoro KWaiter] true false wk ra wa).
    { intros ra wa [([] & w1 & H1 & H2)|(e & H1 & ->)]; apply signal_run in H1 as [(_ & Q & Q2)|(Q & _)]; try congruence; subst w1; exact H2. }
    assert (MD : exists e, In e (x_log (w_x wk)) /\ meddled e).
    { exists (LSignal None). split; [|left; eauto]. change (w_x wk) with (signal_x o None (w_x w)). destruct (signal_frame o None (w_x w)) as (l & F & _).
      rewrite (fr_log _ _ _ F), !in_app_iff. cbn. auto. }
    destruct H as [([] & H1 & ->)|(e & w1 & H1 & H2)]; apply Tail in H1; pose proof (harvest_reg _ _ _ _ _ _ H1) as R1.
    + assert (R2 : reg w w') by (eapply reg_trans; eauto). split; [exact R2|]. split; [exact (reg_dead _ _ R1 Dk)|].
      split; [|discriminate]. intros E _. eapply harvest_waiter_ok; eauto. apply Jk.
    + destruct (harvest_waiter_err _ _ _ H1 Jk) as [->|[->|(-> & l & h & E & Mk)]].
      * assert (MD1 : exists e, In e (x_log (w_x w1)) /\ meddled e).
        { destruct MD as (e & A & B). exists e. split; [|exact B]. exact (reg_has _ _ _ R1 A). }
        destruct H2 as [(b & w2 & H2 & H3)|(e & H2 & ->)]; apply r_poll in H2 as [R2 P]; try exact MD1; [|destruct P].
        assert (R3 : reg w w2) by (eapply reg_trans; [exact Rk|eapply reg_trans; eauto]).
        assert (D3 : dead w2) by (exact (reg_dead _ _ R2 (reg_dead _ _ R1 Dk))).
        destruct b; destruct H3 as [-> ->].
        -- split; [exact R3|]. split; [exact D3|]. split; [auto|discriminate].
        -- split; [exact R3|]. split; [exact D3|]. split; [discriminate|]. intros e [= <-]. split; [right; right; reflexivity|discriminate].
      * destruct H2 as [-> ->]. split; [eapply reg_trans; eauto|]. split; [exact (reg_dead _ _ R1 Dk)|]. split; [discriminate|].
        intros e [= <-]. split; [right; left; reflexivity|discriminate].
      * destruct H2 as [-> ->]. split; [eapply reg_trans; eauto|]. split; [exact (reg_dead _ _ R1 Dk)|]. split; [discriminate|].
        intros e [= <-]. split; [left; reflexivity|]. intros _.
        destruct (signal_frame o None (w_x w)) as (ls & F & _).
        exists (x_log (w_x w) ++ audit_piece o (PSignal None)), (ls ++ l).
        rewrite (fr_log _ _ _ (er_frame _ _ _ _ _ E)). change (w_x wk) with (signal_x o None (w_x w)). rewrite (fr_log _ _ _ F).
        rewrite <- !app_assoc. split; [reflexivity|]. rewrite marks_app. lia.
Qed.

(** _kill. *)
Lemma reg_after w w' w'' (P : Prop) : reg w w' -> reg w' w'' -> reg w w''.
Proof. apply reg_trans. Qed.
Definition opt_harvest (ts : list nat) (t : bool) : M unit :=
  match ts with [] => ret tt | _ => harvest (map AwTask ts) t false end.
Lemma r_opt_harvest ts t : regm (opt_harvest ts t).
Proof. destruct ts; [apply r_ret|apply r_harvest]. Qed.
Definition kill_body : M unit :=
  bindM (bindM (getx x_rc) (fun rc => match rc with None => signal o (o_cancel_signal o) | Some _ => ret tt end)) (fun _ =>
  bindM (bindM (getx x_tasks) (fun ts => opt_harvest ts true)) (fun _ =>
  bindM (getx x_rc) (fun rc => match rc with None => harvest [AwCoro KWaiter] true false | Some _ => ret tt end))).
Lemma kill_body_spec w r w' : kill_body w r w' -> J w -> x_proc (w_x w) = true ->
  reg w w' /\ (ext = false -> r = Ok tt -> x_rc (w_x w') <> None)
  /\ exists w1, (x_rc (w_x w) <> None /\ w1 = w \/ x_rc (w_x w) = None /\ w1 = upd_x w (signal_x o (o_cancel_signal o))) /\ reg w1 w'.
Proof.
  intros H HJ PR. unfold kill_body in H.
  assert (S1 : exists w1, (x_rc (w_x w) <> None /\ w1 = w \/ x_rc (w_x w) = None /\ w1 = upd_x w (signal_x o (o_cancel_signal o)))
    /\ bindM (bindM (getx x_tasks) (fun ts => opt_harvest ts true)) (fun _ =>
       bindM (getx x_rc) (fun rc => match rc with None => harvest [AwCoro KWaiter] true false | Some _ => ret tt end)) w1 r w').
  { destruct H as [([] & w1 & H1 & H2)|(e & H1 & ->)]; apply i_getx in H1; destruct (x_rc (w_x w)) eqn:N.
    - destruct H1 as [_ ->]. exists w. split; [left; split; [congruence|reflexivity]|exact H2].
    - apply signal_run in H1 as [(_ & _ & ->)|(Q & _)]; [|congruence]. eexists. split; [right; split; reflexivity|exact H2].
    - destruct H1 as [Q _]. discriminate.
    - apply signal_run in H1 as [(_ & Q & _)|(Q & _)]; [discriminate|congruence]. }
  clear H. destruct S1 as (w1 & C & H).
  assert (R1 : reg w w1) by (destruct C as [(_ & ->)|(N & ->)]; [apply reg_refl|now apply signal_upd]).
  assert (R2 : reg w1 w').
  { revert H. generalize r at 1. intros r0 H. assert (Q : regm (bindM (bindM (getx x_tasks) (fun ts => opt_harvest ts true)) (fun _ =>
       bindM (getx x_rc) (fun rc => match rc with None => harvest [AwCoro KWaiter] true false | Some _ => ret tt end)))).
    { apply r_bind; [apply r_bind; [apply r_getx|intros; apply r_opt_harvest]|]. intros _. apply r_bind; [apply r_getx|].
      intros [c|]; [apply r_ret|apply r_harvest]. }
    eapply Q; eauto. }
  split; [eapply reg_trans; eauto|]. split; [|exists w1; auto].
  intros E ->. destruct H as [([] & w2 & H1 & H2)|(e & _ & Q)]; [|discriminate]. apply i_getx in H1.
  pose proof (r_opt_harvest _ _ _ _ _ H1) as R3. apply i_getx in H2. destruct (x_rc (w_x w2)) eqn:N.
  - destruct H2 as [_ ->]. congruence.
  - eapply harvest_waiter_ok; eauto. apply R3, R1, HJ.
Qed.
Lemma kill_spec w r w' : kill w r w' -> J w -> x_proc (w_x w) = true ->
  reg w w' /\ (ext = false -> dead w')
  /\ (ext = false -> x_rc (w_x w') <> None \/ disturbed (x_log (w_x w')) \/ r = Err cancel_failed \/ r = Err unable_to_kill)
  /\ (exists w1, (x_rc (w_x w) <> None /\ w1 = w \/ x_rc (w_x w) = None /\ w1 = upd_x w (signal_x o (o_cancel_signal o))) /\ reg w1 w').
Proof.
  intros H HJ PR. unfold RunnerModel.kill in H.
  destruct H as [([] & w1 & H1 & H)|(e & H1 & _)]; apply i_getx in H1; rewrite PR in H1; destruct H1 as [Q ->]; [clear Q|discriminate].
  fold (opt_harvest) in H. change (tryM kill_body (fun e => match e with
                 | CancelledError => Some (bindM set_cancelled (fun _ => kill_wait))
                 | TimeoutError => Some kill_wait
                 | _ => Some (bindM kill_wait (fun _ => raise e))
                 end) w r w') in H.
  destruct H as [([] & H & ->)|(e & w1 & H & H2)].
  - destruct (kill_body_spec _ _ _ H HJ PR) as (R & C & D). split; [exact R|].
    split; [intros E; apply rc_dead; [apply R, HJ|now apply C]|]. split; [intros E; left; now apply C|exact D].
  - destruct (kill_body_spec _ _ _ H HJ PR) as (R & _ & wa & Ca & Da).
    assert (J1 : J w1) by (apply R; exact HJ). assert (P1 : x_proc (w_x w1) = true) by exact (reg_proc _ _ R PR).
    assert (KW : exists wb rb, kill_wait wb rb w' /\ reg w1 wb /\ (forall e', rb = Err e' -> r = Err e')).
    { destruct e; try (apply i_then_raise in H2 as (rb & H2 & Q); exists w1, rb; split; [exact H2|]; split; [apply reg_refl|]; intros e' ->; exact Q).
      - exists w1, r. split; [exact H2|]. split; [apply reg_refl|auto].
      - destruct H2 as [([] & wb & H2 & H3)|(e & [Q _] & _)]; [|discriminate]. exists wb, r. split; [exact H3|]. split; [|auto].
        eapply r_set_cancelled; eauto. }
    destruct KW as (wb & rb & KW & Rb & Eb).
    destruct (kill_wait_spec _ _ _ KW) as (R3 & D3 & O3 & E3); [apply Rb; exact J1|exact (reg_proc _ _ Rb P1)|].
    split; [eapply reg_trans; [exact R|eapply reg_trans; eauto]|]. split; [auto|]. split.
    + intros E. destruct rb as [[]|e']; [left; auto|]. destruct (E3 e' eq_refl) as [K Dd].
      destruct K as [->|[->| ->]]; auto.
    + exists wa. split; [exact Ca|]. eapply reg_trans; [exact Da|eapply reg_trans; eauto].
Qed.
End R.
