(** Theorems about the streams of a pseudo-terminal (C108-C112): they hold for
    every data, chunking, refusal and interleaving of the event loop, the
    program and the processes on the terminal. *)
From Verif Require Export PtyStreamProofs3.
Open Scope Z_scope.

(** ** Specification *)
(** [child_wrote], [reads_gave], [program_wrote], [terminal_took] and [closes]
    (PtyStreamProofs) read the log.  The event loop has nothing to do: *)
Definition nothing_to_read (s : ps) : Prop := sel_r s = true -> k_out s = [] /\ k_open s = true.
Definition loop_idle (s : ps) : Prop := queue s = [] /\ nothing_to_read s.

(** ** C108: the descriptor of the terminal is closed once *)
Theorem c108_at_most_once : forall s, reachable s -> (closes (p_log s) <= 1)%nat.
Proof.
  intros s R. pose proof (i_lost _ (inv_reachable _ R)) as L. destruct (_ && _) in L; lia.
Qed.
Print Assumptions c108_at_most_once.
(** Not before the program closes the streams, or the terminal refuses input. *)
Theorem c108_not_early : forall s, reachable s -> In PClosed (p_log s) -> In PClose (p_log s) \/ In PRefused (p_log s).
Proof.
  intros s R H. pose proof (inv_reachable _ R) as I. apply closes_in in H. pose proof (i_lost _ I) as L.
  destruct (w_closing s) eqn:W; [|cbn in L; lia]. destruct (i_why _ I W); auto.
Qed.
Print Assumptions c108_not_early.
(** After close(), as soon as the terminal has taken or refused what the program
    had written, and the loop has run its callbacks. *)
Theorem c108_closed : forall s, reachable s -> In PClose (p_log s) -> queue s = [] ->
  terminal_took (p_log s) = program_wrote (p_log s) \/ In PRefused (p_log s) -> closes (p_log s) = 1%nat.
Proof.
  intros s R C Q T. pose proof (inv_reachable _ R) as I. destruct (i_closed _ I C) as [W _].
  assert (B : w_buf s = []).
  { destruct (in_dec pev_dec PRefused (p_log s)) as [X|X]; [apply (i_refused _ I X)|]. destruct T as [T|T]; [|contradiction].
    destruct (win_reachable _ R) as [A _]. specialize (A X). rewrite <- T in A. rewrite <- (app_nil_r (terminal_took _)) in A at 2. now apply app_inv_head in A. }
  pose proof (i_lost _ I) as L. rewrite Q, W, B in L. exact L.
Qed.
Print Assumptions c108_closed.

(** ** C109: the loop never watches the number of a closed descriptor *)
Definition c109_full_claim := forall s, reachable s -> ~ In PForeign (p_log s).
(** Missing: runs in which the terminal has refused input. *)
Theorem c109_closed_number_partial : forall s, reachable s -> ~ In PRefused (p_log s) -> ~ In PForeign (p_log s) /\ (sel_r s = true \/ sel_w s = true -> closes (p_log s) = 0%nat).
Proof.
  intros s R N. pose proof (inv_reachable _ R) as I. split; [intros F; apply N, (i_foreign _ I F)|].
  intros Z. destruct (Nat.eq_dec (closes (p_log s)) 0) as [E|E]; [exact E|]. exfalso. pose proof (i_lost _ I) as L.
  destruct (w_closing s) eqn:W; [|cbn in L; lia]. destruct (w_buf s) eqn:B; [|cbn in L; lia].
  destruct (i_why _ I W) as [X|X]; [contradiction|]. destruct (i_closed _ I X) as [_ RC]. destruct Z as [Z|Z]; [destruct (i_selr _ I Z); congruence|]. apply (i_selw _ I) in Z. congruence.
Qed.
Print Assumptions c109_closed_number_partial.

(** ** C110: what is read is what the processes on the terminal wrote *)
Definition c110_full_claim := forall s, reachable s -> exists rest, child_wrote (p_log s) = reads_gave (p_log s) ++ rest.
(** Missing: runs in which the terminal has refused input. *)
Theorem c110_output_in_order_partial : forall s, reachable s -> ~ In PRefused (p_log s) -> exists rest, child_wrote (p_log s) = reads_gave (p_log s) ++ rest.
Proof. intros s R N. destruct (out_reachable _ R N) as [F _]. rewrite F. eauto. Qed.
Print Assumptions c110_output_in_order_partial.

(** ** C111: all output, and its end, is seen by the reader *)
(** Unless the program closes the streams or a read fails: when the loop has
    nothing to do and the program has read what was there, it has read all. *)
Definition c111_full_claim := forall s, reachable s -> ~ In PClose (p_log s) -> ~ In PBroken (p_log s) -> loop_idle s -> s_buf s = [] ->
  reads_gave (p_log s) = child_wrote (p_log s) /\ (In PHangup (p_log s) -> s_eof s = true).
(** Missing: runs in which the terminal has refused input. *)
Theorem c111_all_output_partial : forall s, reachable s -> ~ In PRefused (p_log s) -> ~ In PClose (p_log s) -> ~ In PBroken (p_log s) -> loop_idle s -> s_buf s = [] ->
  reads_gave (p_log s) = child_wrote (p_log s) /\ (In PHangup (p_log s) -> s_eof s = true).
Proof.
  intros s R N1 N2 N3 [Q NR] B. destruct (out_reachable _ R N1) as [F H]. destruct (fin_reachable _ R (conj N1 (conj N2 N3))) as [A1 A2 A3 A4 A5 A6 A7].
  assert (SP : s_paused s = false) by (destruct (s_paused s); [specialize (A5 eq_refl); rewrite B, size_nil in A5; unfold LIMIT in A5; lia|reflexivity]).
  rewrite F, B. cbn. destruct (r_closing s) eqn:RC.
  - destruct (A1 eq_refl) as (K1 & K2 & [E|(c & C & _)]); [|rewrite Q in C; destruct C]. rewrite K2, app_nil_r. auto.
  - assert (RP : r_paused s = false) by (destruct (r_paused s); [specialize (A4 eq_refl eq_refl); congruence|reflexivity]).
    specialize (A3 eq_refl). rewrite RP in A3. destruct (NR A3) as [K1 K2]. rewrite K1, app_nil_r. split; [reflexivity|]. intros X. apply H in X. congruence.
Qed.
Print Assumptions c111_all_output_partial.
(** A read that says "end of file" comes after all output, and after all
    processes have closed the terminal. *)
Theorem c111_end_is_the_end_partial : forall s, reachable s -> ~ In PRefused (p_log s) -> ~ In PClose (p_log s) -> ~ In PBroken (p_log s) -> In PEnd (p_log s) ->
  reads_gave (p_log s) = child_wrote (p_log s) /\ In PHangup (p_log s).
Proof.
  intros s R N1 N2 N3 E. destruct (out_reachable _ R N1) as [F H]. destruct (fin_reachable _ R (conj N1 (conj N2 N3))) as [A1 A2 A3 A4 A5 A6 A7].
  destruct (A7 E) as [SE SB]. destruct (A1 (A2 (or_introl SE))) as (K1 & K2 & _). rewrite F, SB, K2, app_nil_r. split; [reflexivity|]. apply H, K1.
Qed.
Print Assumptions c111_end_is_the_end_partial.
(** Reading never raises, unless reading from the terminal has failed. *)
Theorem c111_no_error_partial : forall s, reachable s -> ~ In PRefused (p_log s) -> ~ In PClose (p_log s) -> ~ In PBroken (p_log s) -> s_exc s = false.
Proof. intros s R N1 N2 N3. apply (e_exc _ (fin_reachable _ R (conj N1 (conj N2 N3)))). Qed.
Print Assumptions c111_no_error_partial.

(** ** C112: the terminal gets what the program wrote *)
(** In order and nothing twice; nothing is left out, except what has been
    written after close(), or after the terminal refused input. *)
Theorem c112_input_in_order : forall s, reachable s -> exists rest, program_wrote (p_log s) = terminal_took (p_log s) ++ rest.
Proof. intros s R. apply (win_reachable _ R). Qed.
Print Assumptions c112_input_in_order.
Theorem c112_all_input : forall s, reachable s -> ~ In PRefused (p_log s) -> sel_w s = false -> terminal_took (p_log s) = program_wrote (p_log s).
Proof.
  intros s R N W. destruct (win_reachable _ R) as [A _]. rewrite <- (A N). destruct (w_buf s) eqn:B; [now rewrite app_nil_r|].
  assert (sel_w s = true) by (apply (i_selw _ (inv_reachable _ R)); rewrite B; discriminate). congruence.
Qed.
Print Assumptions c112_all_input.

(** ** Runs *)
Lemma reach_to s s1 s2 : reachable s -> step s s1 -> s1 = s2 -> reachable s2.
Proof. intros R ST <-. eapply reach_step; eassumption. Qed.
Ltac run_eq := match goal with |- ?a = ?b => let v := eval vm_compute in a in unify b v; vm_cast_no_check (eq_refl v) end.
Ltac nx R t := eapply reach_to in R; [|t|run_eq].
(** A session: "hi" is sent in two pieces, the answer "ok" is read, the process
    ends, the program sees the end of the output and closes the streams. *)
Definition session : list pev := [PWrite [104; 105]; PTook [104]; PTook [105]; PChild [111; 107]; PGot [111; 107]; PHangup; PEnd; PClose; PClosed].
Lemma ex_session1 : exists s, reachable s /\ p_log s = firstn 7 session /\ loop_idle s /\ s_buf s = [] /\ sel_w s = false /\ s_eof s = true.
Proof.
  pose proof reach_start as R1.
  nx R1 ltac:(apply (st_write _ [104; 105] (WTook 1)); cbn; lia).
  nx R1 ltac:(apply (st_write_ready _ (WTook 1)); [reflexivity|cbn; lia]).
  nx R1 ltac:(apply (st_child _ [111; 107]); [reflexivity|discriminate]).
  nx R1 ltac:(eapply (st_read_ready _ (RData [111; 107])); [reflexivity|eapply (rd_data _ _ []); [reflexivity|reflexivity|discriminate]]).
  nx R1 ltac:(apply (st_read _ 16 false); [discriminate|left; discriminate]).
  nx R1 ltac:(apply st_hangup; reflexivity).
  nx R1 ltac:(eapply (st_read_ready _ (RFail EIO)); [reflexivity|apply rd_eio; reflexivity]).
  nx R1 ltac:(eapply st_callback; reflexivity).
  nx R1 ltac:(apply (st_read _ 16 false); [discriminate|auto]).
  eexists. split; [exact R1|]. repeat split; discriminate.
Qed.
Example c111_example : exists s, reachable s /\ ~ In PRefused (p_log s) /\ ~ In PClose (p_log s) /\ ~ In PBroken (p_log s) /\ loop_idle s /\ s_buf s = []
  /\ In PHangup (p_log s) /\ In PEnd (p_log s) /\ reads_gave (p_log s) = [111; 107].
Proof.
  destruct ex_session1 as (s & R & L & ID & B & _). exists s. rewrite L. cbn. split; [exact R|]. do 3 (split; [intuition discriminate|]). split; [exact ID|]. rewrite B. auto 12.
Qed.
Example c108_example : exists s, reachable s /\ p_log s = session /\ queue s = [] /\ terminal_took (p_log s) = program_wrote (p_log s).
Proof.
  pose proof reach_start as R1.
  nx R1 ltac:(apply (st_write _ [104; 105] (WTook 1)); cbn; lia).
  nx R1 ltac:(apply (st_write_ready _ (WTook 1)); [reflexivity|cbn; lia]).
  nx R1 ltac:(apply (st_child _ [111; 107]); [reflexivity|discriminate]).
  nx R1 ltac:(eapply (st_read_ready _ (RData [111; 107])); [reflexivity|eapply (rd_data _ _ []); [reflexivity|reflexivity|discriminate]]).
  nx R1 ltac:(apply (st_read _ 16 false); [discriminate|left; discriminate]).
  nx R1 ltac:(apply st_hangup; reflexivity).
  nx R1 ltac:(eapply (st_read_ready _ (RFail EIO)); [reflexivity|apply rd_eio; reflexivity]).
  nx R1 ltac:(eapply st_callback; reflexivity).
  nx R1 ltac:(apply (st_read _ 16 false); [discriminate|auto]).
  nx R1 ltac:(apply st_close).
  nx R1 ltac:(eapply st_callback; reflexivity).
  eexists. split; [exact R1|]. repeat split.
Qed.
(** close() while the terminal still has to take input: the descriptor stays
    open until it has. *)
Example c108_flush_example : exists s, reachable s /\ p_log s = [PWrite [104; 105]; PTook [104]; PClose; PTook [105]; PClosed] /\ queue s = [].
Proof.
  pose proof reach_start as R1.
  nx R1 ltac:(apply (st_write _ [104; 105] (WTook 1)); cbn; lia).
  nx R1 ltac:(apply st_close).
  nx R1 ltac:(eapply st_callback; reflexivity).
  nx R1 ltac:(apply (st_write_ready _ (WTook 1)); [reflexivity|cbn; lia]).
  eexists. split; [exact R1|]. split; reflexivity.
Qed.

(** The process writes "b" and exits; before the loop has read it, the program
    writes, and the terminal refuses.  The writer takes the shared descriptor
    out of the loop and closes it: the output is lost and the reader, who is
    never told, waits for ever. *)
Inductive later (s : ps) : ps -> Prop :=
| later_now : later s s
| later_step s1 s2 : later s s1 -> step s1 s2 -> later s s2.
Definition stuck (s : ps) : Prop :=
  k_open s = false /\ sel_r s = false /\ sel_w s = false /\ queue s = [] /\ s_buf s = [] /\ s_eof s = false /\ s_exc s = false /\ w_closing s = true /\ reads_gave (p_log s) = [] /\ ~ In PEnd (p_log s).
Lemma stuck_step s s' : stuck s -> step s s' -> ~ In PClose (p_log s') -> stuck s'.
Proof.
  intros (A & B & C & D & E & F & G & H & J & K) ST N. destruct ST as [s b OP X|s OP|s a s1 SR RD|s a SW PO|s c q Q|s n reused X Y|s b a PO|s]; try congruence.
  - destruct Y as [Y|[Y|Y]]; congruence.
  - unfold write. destruct b as [|z b]; lg; rewrite ?H; unfold stuck; lg; rewrite gave_app, J, in_log; repeat split; auto; intros [Z|Z]; (contradiction || discriminate).
  - exfalso. apply N. rewrite close_log. lg. ins.
Qed.
Lemma stuck_later s s' : stuck s -> later s s' -> ~ In PClose (p_log s') -> stuck s'.
Proof.
  intros H L. induction L as [|s1 s2 L IH ST]; [auto|]. intros N. eapply stuck_step; [apply IH; eapply step_keeps; eassumption|exact ST|exact N].
Qed.
Lemma ex_stuck : exists s, reachable s /\ stuck s /\ loop_idle s /\ p_log s = [PChild [98]; PHangup; PWrite [104]; PRefused; PClosed].
Proof.
  pose proof reach_start as R1.
  nx R1 ltac:(apply (st_child _ [98]); [reflexivity|discriminate]).
  nx R1 ltac:(apply st_hangup; reflexivity).
  nx R1 ltac:(apply (st_write _ [104] WFail); exact Logic.I).
  nx R1 ltac:(eapply st_callback; reflexivity).
  eexists. split; [exact R1|]. split; [|repeat split; cbn; discriminate]. unfold stuck. cbn. repeat split; try reflexivity. intuition discriminate.
Qed.
Theorem c111_waits_forever_refuted : ~ (forall s, reachable s -> In PHangup (p_log s) -> ~ In PClose (p_log s) -> ~ In PBroken (p_log s) ->
  exists s', later s s' /\ ~ In PClose (p_log s') /\ (reads_gave (p_log s') = child_wrote (p_log s') \/ In PEnd (p_log s'))).
Proof.
  intros C. destruct ex_stuck as (s & R & K & _ & L). destruct (C s R) as (s' & LA & N & Z); try (rewrite L; cbn; intuition discriminate).
  destruct (stuck_later _ _ K LA N) as (_ & _ & _ & _ & _ & _ & _ & _ & G & E). destruct Z as [Z|Z]; [|contradiction].
  assert (M : exists x, child_wrote (p_log s') = 98 :: x).
  { clear - LA L. induction LA as [|s1 s2 L1 IH ST]; [rewrite L; cbn; eauto|]. destruct IH as (x & IH). destruct (step_log _ _ ST) as (l & ->). rewrite child_app, IH. cbn. eauto. }
  destruct M as (x & M). congruence.
Qed.
Print Assumptions c111_waits_forever_refuted.
Theorem c111_refuted : ~ c111_full_claim.
Proof.
  intros C. destruct ex_stuck as (s & R & K & ID & L). destruct (C s R) as [_ X]; try (rewrite L; cbn; intuition discriminate); [exact ID|apply K|].
  rewrite L in X. specialize (X ltac:(cbn; auto)). destruct K as (_ & _ & _ & _ & _ & E & _). congruence.
Qed.
Print Assumptions c111_refuted.

(** More than 128 KiB are waiting to be read, so that the reader transport is
    paused; the terminal refuses input and the descriptor is closed; its number
    is used again; the next read makes the loop watch the other file, and the
    program gets its data. *)
Lemma ex_foreign d : 2 * LIMIT < size d -> exists s, reachable s /\ p_log s = [PChild d; PWrite [104]; PRefused; PClosed; PForeign; PGot d; PGot [1]].
Proof.
  intros BIG. assert (ND : d <> []) by (intros ->; rewrite size_nil in BIG; unfold LIMIT in BIG; lia).
  assert (R1 : reachable (mk_ps d true true true false false false [] false false false [] false [] [PChild d])).
  { eapply reach_to; [apply reach_start|apply (st_child _ d); [reflexivity|exact ND]|reflexivity]. }
  assert (R2 : reachable (mk_ps [] true true false false false true d false false true [] false [] [PChild d])).
  { eapply reach_to; [exact R1|eapply (st_read_ready _ (RData d)); [reflexivity|eapply (rd_data _ _ []); [reflexivity|symmetry; apply app_nil_r|exact ND]]|].
    cbn [read_ready]. unfold feed_data. lg. cbn [app negb andb]. cbv zeta. replace (2 * LIMIT <? size d) with true by (symmetry; apply Z.ltb_lt, BIG). reflexivity. }
  assert (R3 : reachable (mk_ps [] true true false false false true d false false true [] true [CbWriterLost] [PChild d; PWrite [104]; PRefused])).
  { eapply reach_to; [exact R2|apply (st_write _ [104] WFail); exact Logic.I|reflexivity]. }
  assert (R4 : reachable (mk_ps [] true false false false false true d false false true [] true [] [PChild d; PWrite [104]; PRefused; PClosed])).
  { eapply reach_to; [exact R3|eapply st_callback; reflexivity|reflexivity]. }
  assert (R5 : reachable (mk_ps [] true false true false false false [] false false false [] true [] [PChild d; PWrite [104]; PRefused; PClosed; PForeign; PGot d])).
  { eapply reach_to; [exact R4|apply (st_read _ (List.length d) true); [destruct d; [congruence|discriminate]|left; exact ND]|].
    unfold read, maybe_resume, resume_reading. lg. rewrite firstn_all, skipn_all. destruct d as [|z d]; [congruence|]. reflexivity. }
  clear - R5. rename R5 into R. revert R. set (l := [PChild d; _; _; _; _; _]). intros R.
  assert (R6 : reachable (mk_ps [] true false true false false false [1] false false false [] true [] l)).
  { eapply reach_to; [exact R|eapply (st_read_ready _ (RData [1]) _); [reflexivity|apply rd_foreign; reflexivity]|reflexivity]. }
  assert (R7 : reachable (mk_ps [] true false true false false false [] false false false [] true [] (l ++ [PGot [1]]))).
  { eapply reach_to; [exact R6|apply (st_read _ 1 true); [discriminate|left; discriminate]|reflexivity]. }
  eexists. split; [exact R7|reflexivity].
Qed.
Lemma big_size : 2 * LIMIT < size (repeat 0 (Z.to_nat 131073)).
Proof. unfold size. rewrite repeat_length, Z2Nat.id; [reflexivity|discriminate]. Qed.
Theorem c109_refuted : ~ c109_full_claim.
Proof. intros C. destruct (ex_foreign _ big_size) as (s & R & L). apply (C s R). rewrite L. cbn [In]. auto 12. Qed.
Print Assumptions c109_refuted.
Theorem c110_refuted : ~ c110_full_claim.
Proof.
  intros C. destruct (ex_foreign _ big_size) as (s & R & L). destruct (C s R) as (rest & E). rewrite L in E. cbn [child_wrote reads_gave] in E.
  apply (f_equal (@List.length _)) in E. rewrite !app_length in E. cbn [List.length] in E. lia.
Qed.
Print Assumptions c110_refuted.
