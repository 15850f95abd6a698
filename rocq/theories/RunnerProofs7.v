From Verif Require Import AsyncModel AsyncSpec AsyncProofs HarvestModel HarvestSpec HarvestProofs HarvestProofs2 AsyncInv
  RunnerModel RunnerSpec RunnerProofs RunnerProofs2 RunnerProofs3 RunnerProofs4 RunnerProofs5 RunnerProofs6.
Open Scope Z_scope.

Section R.
Context (o : opts) (ext piped_stdin use_pty : bool) (out_bytes err_bytes : option bytes) (enc : text).
Notation world := (world rx rkind unit).
Notation M := (@M rx rkind unit).
Notation rstep := (rstep o).
Notation rfinish := (rfinish ext).
Notation kill_wait := (kill_wait o ext).
Notation kill := (kill o ext).
Notation wait := (wait o ext).
Notation close := (close o ext piped_stdin).
Notation finish := (finish o ext piped_stdin).
Notation aexit := (aexit o ext piped_stdin).
Notation J := (J ext).
Notation reg := (reg o ext).
Notation envrel := (envrel o).
Notation opt_harvest := (opt_harvest o ext).
Notation aenter := (aenter o ext use_pty out_bytes err_bytes enc).
Notation with_run := (with_run o ext piped_stdin use_pty out_bytes err_bytes enc).
Notation any_body := (any_body o ext).
Notation pre := (pre o ext).
Notation entered := (entered o).
Notation begun := (begun o).

(** The world in which the body starts. *)
Lemma entered_J w : pre begun w -> x_proc (w_x w) = true -> J (entered w).
Proof.
  intros P PR. pose proof (added_J o ext w KWaiter (pre_J _ _ _ _ P)) as (X & T & Mk & Tm). split; [|split; [|split]].
  - unfold RunnerProofs6.entered. cbn. destruct (o_timeout o); (apply XI_inside; [|intros _; exact PR]); [apply XI_timer|]; exact X.
  - unfold RunnerProofs6.entered. apply TI_x; cbn; auto; destruct (o_timeout o); reflexivity.
  - unfold RunnerProofs6.entered. destruct Mk as [Mk HIw]. split; [|exact HIw]. unfold MK in *. cbn. destruct (o_timeout o); exact Mk.
  - intros i t N K D. exfalso. unfold RunnerProofs6.entered in N. cbn in N. destruct (Nat.lt_ge_cases i (List.length (w_tasks w))) as [L|L].
    + rewrite nth_error_app1 in N by exact L. exact (pre_kinds _ _ _ _ P i t N K).
    + rewrite nth_error_app2 in N by exact L. destruct (i - _)%nat as [|n]; cbn in N; [injection N as <-; now elim D|destruct n; discriminate].
Qed.
Lemma entered_WI w : WI (entered w).
Proof.
  exists (List.length (w_tasks w)), (mk_task KWaiter None 0). unfold RunnerProofs6.entered. repeat split.
  - cbn. destruct (o_timeout o); cbn; apply in_or_app; right; now left.
  - cbn. rewrite nth_error_app2 by reflexivity. now rewrite Nat.sub_diag.
Qed.
Lemma entered_x w : x_log (w_x (entered w)) = x_log (w_x w) /\ x_proc (w_x (entered w)) = x_proc (w_x w) /\ x_rc (w_x (entered w)) = x_rc (w_x w)
  /\ x_cancelled (w_x (entered w)) = x_cancelled (w_x w) /\ x_timed_out (w_x (entered w)) = x_timed_out (w_x w)
  /\ x_exit (w_x (entered w)) = x_exit (w_x w).
Proof. unfold RunnerProofs6.entered. cbn. destruct (o_timeout o); auto 10. Qed.

(** The body. *)
Lemma env_step_reg (w : world) ev w' c : env_step rstep rfinish w ev = Some (w', c) -> reg w w' /\ exists l h, envrel w w' l h.
Proof.
  intros E. assert (Q : exists l h, envrel w w' l h).
  { eapply (st_env _ _ _ (stable_envrel o ext w)); [|exact E]. exists [], []. apply envrel_refl. }
  split; [|exact Q]. destruct Q as (l & h & Q). eapply envrel_reg; [|exact Q]. intros HJ. eapply (st_env _ _ _ (stable_J o ext)); eauto.
Qed.
Lemma added_reg (w : world) k : reg w (added w k).
Proof.
  split; [intros HJ; exact (added_J o ext w k HJ)|]. exists [], []. constructor; cbn; auto; now rewrite app_nil_r.
Qed.
Lemma env_step_WI (w : world) ev w' c : env_step rstep rfinish w ev = Some (w', c) -> WI w -> WI w'.
Proof.
  intros E (i & t & Hi & N & K & C). pose proof (env_step_reg _ _ _ _ E) as [_ (l & h & Q)].
  apply env_step_ext in E as (h2 & (_ & X & _) & NR & _). destruct (X i t N) as (t' & N' & K' & _ & C').
  exists i, t'. rewrite (fr_tasks _ _ _ (er_frame _ _ _ _ _ Q)). repeat split; auto; [congruence|]. rewrite C', C. cbn.
  destruct (reqs i h2) eqn:Z; [reflexivity|]. elim (NR i). apply reqs_In. lia.
Qed.
Lemma added_WI (w : world) k : WI w -> WI (added w k).
Proof.
  intros (i & t & Hi & N & K & C). exists i, t. repeat split; auto.
  - cbn. apply in_or_app. now left.
  - cbn. rewrite nth_error_app1; [exact N|]. apply nth_error_Some. congruence.
Qed.
Lemma body_facts w w' : body_steps o ext w w' -> reg w w' /\ (WI w -> WI w').
Proof.
  induction 1 as [w|w ev w1 c w2 E _ [R W]|w w1 w2 E _ [R W]].
  - split; [apply reg_refl|auto].
  - split; [eapply reg_trans; [apply (env_step_reg _ _ _ _ E)|exact R]|]. intros Q. apply W. eapply env_step_WI; eauto.
  - apply add_task_run in E as [_ ->]. split; [eapply reg_trans; [apply added_reg|exact R]|]. intros Q. apply W. now apply added_WI.
Qed.

(** A whole run. *)
Inductive run_case (body : M unit) (r : res unit) (w' : world) : Prop :=
| rc_failed : aenter_case o ext out_bytes err_bytes enc r w' -> (exists e, r = Err e) -> run_case body r w'
| rc_ran w0 w1 rb re : pre begun w0 -> x_proc (w_x w0) = true -> mk w0 = 0%nat -> body (entered w0) rb w1 ->
    aexit (match rb with Ok _ => None | Err e => Some e end) w1 re w' ->
    r = match re with Err e => Err e | Ok sup => match rb with Ok _ => Ok tt | Err e => if sup then Ok tt else Err e end end -> run_case body r w'.
Lemma with_run_cases body r w' : with_run body fresh r w' -> run_case body r w'.
Proof.
  intros [([] & w0 & H1 & (rb & w1 & H2 & H3))|(e & H1 & ->)].
  - apply aenter_cases in H1 as [wa P PR Mk -> _|e wa _ _ (e' & Q) _ _]; [|discriminate].
    destruct rb as [[]|eb].
    + destruct H3 as [(b & w2 & H3 & [-> ->])|(e & H3 & ->)].
      * apply (rc_ran _ _ _ wa w1 (Ok tt) (Ok b)); auto.
      * apply (rc_ran _ _ _ wa w1 (Ok tt) (Err e)); auto.
    + destruct H3 as [(b & w2 & H3 & H4)|(e & H3 & ->)].
      * apply (rc_ran _ _ _ wa w1 (Err eb) (Ok b)); auto; destruct b; destruct H4 as [-> ->]; auto.
      * apply (rc_ran _ _ _ wa w1 (Err eb) (Err e)); auto.
  - apply rc_failed; [eapply aenter_cases; exact H1|eauto].
Qed.

Lemma body_ready w0 rb w1 : pre begun w0 -> x_proc (w_x w0) = true -> any_body (entered w0) rb w1 ->
  J w1 /\ x_proc (w_x w1) = true /\ WI w1 /\ reg (entered w0) w1.
Proof.
  intros P PR H. apply body_facts in H as [R W]. split; [apply R; now apply entered_J|].
  split; [|split; [apply W, entered_WI|exact R]]. apply (reg_proc _ _ _ _ R). destruct (entered_x w0) as (_ & -> & _). exact PR.
Qed.

(** ** Audit events *)
Definition AS (w : world) : Prop := o_audit_callback o <> None -> exists l, x_log (w_x w) = LAudit PStart :: l /\ audits l = map PSignal (signals l).
Lemma reg_AS w w' : reg w w' -> AS w -> AS w'.
Proof.
  intros (_ & l & h & P) H A. destruct (H A) as (l0 & E & Q). exists (l0 ++ l). rewrite (pr_log _ _ _ _ _ P), E. split; [reflexivity|].
  now rewrite audits_app, signals_app, map_app, Q, (pr_audit _ _ _ _ _ P A).
Qed.
Lemma quiet_audit l : Forall quiet l -> audits l = [] /\ signals l = [].
Proof. induction 1 as [|e l Q _ [A B]]; [auto|]. destruct e; try destruct Q; auto. Qed.
Lemma pre_AS w : pre begun w -> AS w.
Proof.
  intros P A. destruct (pre_log _ _ _ _ P) as (l & E & Q). exists l. rewrite E. unfold RunnerProofs6.begun, audit. cbn.
  destruct (o_audit_callback o); [|congruence]. cbn. split; [reflexivity|]. destruct (quiet_audit _ Q) as [-> ->]. reflexivity.
Qed.
Lemma entered_AS w : pre begun w -> AS (entered w).
Proof. intros P A. destruct (pre_AS _ P A) as (l & E & Q). exists l. destruct (entered_x w) as (-> & _). auto. Qed.
Lemma start_case_AS r w' : start_case o ext begun r w' -> r <> Ok tt -> AS w'.
Proof.
  intros [w1 P PR Mk E Q|e w1 rk P Ee HK Q] N; [congruence|].
  assert (R2 : reg w1 (if is_cancelled e then cancelled_now w1 else w1)) by (destruct (is_cancelled e); [apply cancelled_now_reg|apply reg_refl]).
  destruct (x_proc (w_x w1)) eqn:PR.
  - eapply reg_AS; [|eapply pre_AS; exact P]. eapply reg_trans; [exact R2|].
    apply (kill_spec o ext _ _ _ HK); [apply R2, (pre_J _ _ _ _ P)|exact (reg_proc _ _ _ _ R2 PR)].
  - destruct HK as [_ ->]. eapply reg_AS; [exact R2|now apply pre_AS].
Qed.
Lemma stopped_AS w f (g : rx -> rx) : AS w -> o_audit_callback o <> None -> x_log (g (w_x w)) = x_log (w_x w) ++ [LAudit (PStop f)] ->
  exists l, x_log (g (w_x w)) = LAudit PStart :: l ++ [LAudit (PStop f)] /\ audits l = map PSignal (signals l).
Proof. intros H A E. destruct (H A) as (l & El & Q). exists l. rewrite E, El. auto. Qed.

(** How aexit ends. *)
Lemma aexit_world exc w r w' : aexit exc w r w' -> exists rf w1, finish exc w rf w1
  /\ (w' = stopped o w1 \/ (rf = Err CancelledError /\ w' = stopped o (cancelled_now w1))).
Proof.
  intros H. apply aexit_cases in H as [w1 b H1 -> _|w1 H1 -> _|w1 e H1 _ -> _]; eauto 6.
Qed.

Theorem audit_brackets r w' : o_audit_callback o <> None -> with_run any_body fresh r w' ->
  exists l f, x_log (w_x w') = LAudit PStart :: l ++ [LAudit (PStop f)] /\ audits l = map PSignal (signals l)
  /\ (f <> None -> exists e, r = Err e).
Proof.
  intros A H. apply with_run_cases in H as [EC (e0 & E0)|w0 w1 rb re P PR Mk HB HX RR].
  - destruct EC as [wa _ _ _ _ Q|e wa SC -> _ _ _]; [congruence|].
    assert (AW : AS wa) by (eapply start_case_AS; [exact SC|discriminate]). destruct (AW A) as (l & El & Q).
    exists l, (Some e). split; [|split; [exact Q|intros _; eauto]]. unfold failed_start, audit. cbn.
    destruct (o_audit_callback o); [|congruence]. cbn. now rewrite El.
  - destruct (body_ready _ _ _ P PR HB) as (J1 & PR1 & W1 & R1).
    assert (A1 : AS w1) by (eapply reg_AS; [exact R1|now apply entered_AS]).
    destruct (aexit_world _ _ _ _ HX) as (rf & w2 & HF & W). destruct (finish_reg _ _ _ _ _ _ _ HF J1 PR1) as [R2 _].
    assert (A2 : AS w2) by (eapply reg_AS; eauto). destruct (A2 A) as (l & El & Q). exists l, None.
    split; [|split; [exact Q|congruence]].
    destruct W as [->|(_ & ->)]; unfold stopped, audit; cbn; (destruct (o_audit_callback o); [|congruence]); cbn; now rewrite El.
Qed.

(** ** Nothing is left running *)
Lemma pre_dead w : pre begun w -> x_proc (w_x w) = false -> x_child (w_x w) = true -> dead w.
Proof.
  intros P PR CH. destruct (pre_J _ _ _ _ P) as (X & _). destruct (xi_launch _ X CH PR) as [Q|Q].
  - rewrite (pre_launch _ _ _ _ P) in Q. discriminate.
  - exact (xi_abort_killed _ X Q).
Qed.
Lemma start_case_dead e w' : ext = false -> start_case o ext begun (Err e) w' -> J w' /\ (x_child (w_x w') = true -> dead w').
Proof.
  intros E [w1 P PR Mk Ew Q|e1 w1 rk P Ee HK Q]; [discriminate|].
  assert (R2 : reg w1 (if is_cancelled e1 then cancelled_now w1 else w1)) by (destruct (is_cancelled e1); [apply cancelled_now_reg|apply reg_refl]).
  destruct (x_proc (w_x w1)) eqn:PR.
  - destruct (kill_spec o ext _ _ _ HK) as (R3 & D & _); [apply R2, (pre_J _ _ _ _ P)|exact (reg_proc _ _ _ _ R2 PR)|].
    split; [apply R3, R2, (pre_J _ _ _ _ P)|auto].
  - destruct HK as [_ ->]. split; [apply R2, (pre_J _ _ _ _ P)|]. intros CH. eapply reg_dead; [exact R2|]. apply pre_dead; auto.
    destruct (is_cancelled e1); exact CH.
Qed.
Lemma dead_events w : J w -> dead w -> (exists s, In (LExit s) (events w)) \/ In (LSent SIGKILL) (events w).
Proof.
  intros (X & _) [D|D]; [left|right; exact D]. destruct (x_exit (w_x w)) as [s|] eqn:E; [|congruence]. exists s. now apply (xi_exit _ X).
Qed.
Lemma failed_start_log w e : exists l, x_log (w_x (failed_start o w e)) = x_log (w_x w) ++ l /\ (forall a, In a l -> exists p, a = LAudit p)
  /\ w_x (failed_start o w e) = set_log (x_log (w_x w) ++ l) (set_timer false (w_x w)).
Proof.
  unfold failed_start, audit. cbn. destruct (o_audit_callback o); cbn.
  - exists [LAudit (PStop (Some e))]. split; [reflexivity|]. split; [intros a [<-|[]]; eauto|reflexivity].
  - exists []. split; [now rewrite app_nil_r|]. split; [intros a []|]. rewrite app_nil_r. destruct (w_x w); reflexivity.
Qed.
Lemma stopped_log w : exists l, x_log (w_x (stopped o w)) = x_log (w_x w) ++ l /\ (forall a, In a l -> exists p, a = LAudit p)
  /\ w_x (stopped o w) = set_inside false (set_log (x_log (w_x w) ++ l) (set_timer false (w_x w))).
Proof.
  unfold stopped, audit. cbn. destruct (o_audit_callback o); cbn.
  - exists [LAudit (PStop None)]. split; [reflexivity|]. split; [intros a [<-|[]]; eauto|reflexivity].
  - exists []. split; [now rewrite app_nil_r|]. split; [intros a []|]. rewrite app_nil_r. destruct (w_x w); reflexivity.
Qed.
Lemma failed_start_J w e : J w -> J (failed_start o w e).
Proof.
  intros (X & T & (Mk & HIw) & Tm). split; [|split; [|split; [split|]]].
  - unfold failed_start. cbn. apply XI_audit; [now apply XI_timer|discriminate].
  - unfold failed_start. apply TI_x; auto; cbn; unfold audit; destruct (o_audit_callback o); reflexivity.
  - unfold MK in *. destruct (failed_start_log w e) as (l & E & Q & _). rewrite E, marks_app.
    assert (Z : marks l = 0%nat) by (clear -Q; induction l as [|a l IH]; [reflexivity|]; destruct (Q a (or_introl eq_refl)) as (p & ->); cbn; apply IH; intros b Hb; apply Q; now right).
    rewrite Z. cbn. lia.
  - exact HIw.
  - intros i t Q1 Q2 Q3. unfold failed_start, audit. cbn. destruct (o_audit_callback o); reflexivity.
Qed.
Lemma stopped_J w : J w -> J (stopped o w).
Proof.
  intros (X & T & (Mk & HIw) & Tm). split; [|split; [|split; [split|]]].
  - unfold stopped. cbn. apply XI_inside; [|discriminate]. apply XI_audit; [now apply XI_timer|discriminate].
  - unfold stopped. apply TI_x; auto; cbn; unfold audit; destruct (o_audit_callback o); reflexivity.
  - unfold MK in *. destruct (stopped_log w) as (l & E & Q & _). rewrite E, marks_app.
    assert (Z : marks l = 0%nat) by (clear -Q; induction l as [|a l IH]; [reflexivity|]; destruct (Q a (or_introl eq_refl)) as (p & ->); cbn; apply IH; intros b Hb; apply Q; now right).
    rewrite Z. cbn. lia.
  - exact HIw.
  - intros i t Q1 Q2 Q3. unfold stopped, audit. cbn. destruct (o_audit_callback o); reflexivity.
Qed.
Lemma failed_start_x w e : x_child (w_x (failed_start o w e)) = x_child (w_x w) /\ x_exit (w_x (failed_start o w e)) = x_exit (w_x w)
  /\ x_rc (w_x (failed_start o w e)) = x_rc (w_x w) /\ x_proc (w_x (failed_start o w e)) = x_proc (w_x w)
  /\ x_cancelled (w_x (failed_start o w e)) = x_cancelled (w_x w) /\ x_lastsig (w_x (failed_start o w e)) = x_lastsig (w_x w)
  /\ x_timed_out (w_x (failed_start o w e)) = x_timed_out (w_x w).
Proof. destruct (failed_start_log w e) as (l & _ & _ & ->). cbn. auto 10. Qed.
Lemma stopped_x w : x_child (w_x (stopped o w)) = x_child (w_x w) /\ x_exit (w_x (stopped o w)) = x_exit (w_x w)
  /\ x_rc (w_x (stopped o w)) = x_rc (w_x w) /\ x_proc (w_x (stopped o w)) = x_proc (w_x w)
  /\ x_cancelled (w_x (stopped o w)) = x_cancelled (w_x w) /\ x_lastsig (w_x (stopped o w)) = x_lastsig (w_x w)
  /\ x_timed_out (w_x (stopped o w)) = x_timed_out (w_x w).
Proof. destruct (stopped_log w) as (l & _ & _ & ->). cbn. auto 10. Qed.

(** The invariant holds at the end of every run. *)
Lemma run_J r w' : with_run any_body fresh r w' -> J w'.
Proof.
  intros H. apply with_run_cases in H as [EC (e0 & E0)|w0 w1 rb re P PR Mk HB HX RR].
  - destruct EC as [wa _ _ _ _ Q|e wa SC -> _ _ _]; [congruence|]. apply failed_start_J.
    destruct SC as [w1 P PR Mk Ew Q|e1 w1 rk P Ee HK Q]; [discriminate|].
    assert (R2 : reg w1 (if is_cancelled e1 then cancelled_now w1 else w1)) by (destruct (is_cancelled e1); [apply cancelled_now_reg|apply reg_refl]).
    destruct (x_proc (w_x w1)) eqn:PR.
    + apply (kill_spec o ext _ _ _ HK); [apply R2, (pre_J _ _ _ _ P)|exact (reg_proc _ _ _ _ R2 PR)|apply R2, (pre_J _ _ _ _ P)].
    + destruct HK as [_ ->]. apply R2, (pre_J _ _ _ _ P).
  - destruct (body_ready _ _ _ P PR HB) as (J1 & PR1 & W1 & R1).
    destruct (aexit_world _ _ _ _ HX) as (rf & w2 & HF & W). destruct (finish_reg _ _ _ _ _ _ _ HF J1 PR1) as [R2 _].
    assert (J2 : J w2) by (apply R2; exact J1). destruct W as [->|(_ & ->)]; apply stopped_J; [exact J2|]. now apply cancelled_now_reg.
Qed.
Theorem nothing_left r w' : ext = false -> with_run any_body fresh r w' -> In LSpawn (events w') ->
  (exists s, In (LExit s) (events w')) \/ In (LSent SIGKILL) (events w').
Proof.
  intros E H SP. pose proof (run_J _ _ H) as HJ. apply dead_events; [exact HJ|].
  assert (CH : x_child (w_x w') = true) by (apply (xi_spawn _ (proj1 HJ)); exact SP).
  apply with_run_cases in H as [EC (e0 & E0)|w0 w1 rb re P PR Mk HB HX RR].
  - destruct EC as [wa _ _ _ _ Q|e wa SC -> _ _ _]; [congruence|].
    destruct (failed_start_x wa e) as (X1 & X2 & _). rewrite X1 in CH. destruct (start_case_dead _ _ E SC) as [Jw D].
    destruct (D CH) as [Q|Q]; [left; congruence|right]. unfold has. destruct (failed_start_log wa e) as (l & -> & _). apply in_or_app. now left.
  - destruct (body_ready _ _ _ P PR HB) as (J1 & PR1 & W1 & R1).
    destruct (aexit_world _ _ _ _ HX) as (rf & w2 & HF & W). destruct (finish_reg _ _ _ _ _ _ _ HF J1 PR1) as [R2 D].
    assert (DS : forall u, dead u -> dead (stopped o u)).
    { intros u [Q|Q]; [left; now rewrite (proj1 (proj2 (stopped_x u)))|right]. unfold has. destruct (stopped_log u) as (l & -> & _). apply in_or_app. now left. }
    destruct W as [->|(_ & ->)]; apply DS; [exact D|]. eapply reg_dead; [apply (cancelled_now_reg o ext)|exact D].
Qed.
End R.
