(** Theorems about `async with pipeline.prompt() as cli` (C88, C89). *)
From Verif Require Import AsyncSpec AsyncProofs HarvestModel HarvestSpec HarvestProofs HarvestProofs2 AsyncInv
  PipeRunnerModel PipeRunnerProofs PipeRunnerProofs2 CopySpec PipeIterModel PipeIterProofs ResultSpec.
From Verif Require ResultProps ResultProofs.
From Verif Require Import RunTac PipeRunnerProps PipeIterProps.
Open Scope nat_scope.

Lemma entered_ready n w' : n >= 2 -> aenter n (Ok tt) true pw0 (Ok tt) w' -> p_ready (w_x w') = true.
Proof.
  intros N H. destruct H as [(a & H & _)|(e & w1 & H & H')].
  - apply (start_spec n true _ _ N) in H as [(Q & _)|(_ & h & w1 & _ & _ & _ & [(_ & _ & _ & _ & ->)|(Q & _)])]; [discriminate|reflexivity|discriminate].
  - exfalso. destruct (is_Exception e || is_cancelled e); [|destruct H'; discriminate].
    apply b_inv in H' as [([] & u & _ & H')|(e' & _ & Q)]; [|discriminate]. apply b_inv in H' as [([] & u2 & _ & [Q _])|(e' & _ & Q)]; discriminate.
Qed.
Lemma body_same w w' : body_steps w w' -> same_px (w_x w) (w_x w').
Proof.
  intros H. assert (G : forall x0, same_px x0 (w_x w) -> same_px x0 (w_x w')); [|apply G, same_px_refl]. intros x0.
  induction H as [|w ev w1 c w2 E _ IH]; [auto|]. intros P. apply IH. exact (st_env _ _ _ (same_px_stable x0) _ _ _ _ P E).
Qed.
Lemma block_end_same n w0 w1 rb rc : n >= 2 -> aenter n (Ok tt) true pw0 (Ok tt) w0 -> body_steps w0 w1 -> pblock_end rb w1 rc -> rc = rb.
Proof.
  intros N H B E. destruct rb as [[]|e]; [|exact E]. destruct (body_same _ _ B) as (_ & _ & _ & P & _). rewrite (entered_ready _ _ N H) in P.
  cbn [pblock_end] in E. apply b_inv in E as [(b & w2 & [Q ->] & E)|(e & [Q _] & _)]; [|discriminate]. injection Q as ->. rewrite P in E. now destruct E.
Qed.
Lemma finish_cases w r : pprompt_finish w r w ->
  match p_results (w_x w) with None => r = Err AssertionError | Some os => r = convert_result_list (map entry os) (p_cancelled (w_x w)) end.
Proof.
  intros H. apply b_inv in H as [(rs & w1 & [Q ->] & H)|(e & [Q _] & _)]; [|discriminate]. injection Q as ->.
  destruct (p_results (w_x w)) as [os|]; [|now destruct H].
  apply b_inv in H as [(c & w1 & [Q ->] & H)|(e & [Q _] & _)]; [|discriminate]. injection Q as ->.
  destruct (convert_result_list _ _); now destruct H.
Qed.
(** How a session that was entered ends. *)
Lemma session_values n rb cr r w' : pprompt_session n (Ok tt) (Some rb) cr r w' -> forall j k, ~ ended true w' j (TValue (PRun k)).
Proof.
  intros H. assert (V : ok_values w') by (inversion H; subst; eapply values_after; eauto).
  intros j k (t & Nt & K & O). unfold ok_values in V. rewrite Forall_forall in V. exact (V t (nth_error_In _ _ Nt) j k K O).
Qed.
Lemma session_cases n rb cr r w' : n >= 2 -> pprompt_session n (Ok tt) (Some rb) cr r w' ->
  (exists os c, ended_as n w' os /\ (c = true -> rb = Err CancelledError \/ cancelled_in w') /\ (rb = Err CancelledError -> c = true)
    /\ match convert_result_list (map entry os) c with
       | Ok v => cr = Some v /\ r = match rb with Ok _ => Ok tt | Err e => if c then Ok tt else Err e end
       | Err e => cr = None /\ r = Err e
       end)
  \/ (cr = None /\ r = Err AssertionError /\ exists e, gave_up n w' e).
Proof.
  intros N H. inversion H as [|w0 rb0 w1 rc r0 w2 v H1 H2 H3 H4 H5|w0 rb0 w1 rc r0 w2 e H1 H2 H3 H4 H5]; subst;
    (pose proof (block_end_same _ _ _ _ _ N H1 H2 H3) as RC; subst rc);
    (destruct (leave_cases _ _ _ _ _ _ N H1 H2 H4) as (h' & E & _ & [(os & c & P1 & P2 & X1 & X2 & X3 & X4)|(P1 & e1 & X1 & X2)]));
    apply finish_cases in H5; rewrite P1 in H5; try rewrite P2 in H5.
  - left. exists os, c. split; [exact X1|]. split; [|split; [exact X3|]].
    + intros Q. destruct (X2 Q) as [?|I1]; [now left|]. right. unfold cancelled_in. rewrite (proj1 E), in_app_iff. auto.
    + rewrite <- H5. auto.
  - discriminate.
  - left. exists os, c. split; [exact X1|]. split; [|split; [exact X3|]].
    + intros Q. destruct (X2 Q) as [?|I1]; [now left|]. right. unfold cancelled_in. rewrite (proj1 E), in_app_iff. auto.
    + rewrite <- H5. auto.
  - right. injection H5 as ->. split; [reflexivity|]. split; [reflexivity|]. eauto.
Qed.

(** ** C88: cli.result after the block *)
(** Every command gave a result: cli.result is the pipeline's result, by the
    rule of C22, whatever the exit statuses are. *)
Theorem c88_result : forall n rb cr r w' os rs d, n >= 2 -> pprompt_session n (Ok tt) (Some rb) cr r w' ->
  (forall e, ~ gave_up n w' e) -> ended_as n w' os -> Forall2 carries (map entry os) rs ->
  exists v k, cr = Some v /\ key_of rs k /\ r_exit v = r_exit k /\ r_error v = r_error k
  /\ r_output v = r_output (List.last rs d) /\ r_encoding v = r_encoding (List.last rs d)
  /\ (r_cancelled v = true -> rb = Err CancelledError \/ cancelled_in w').
Proof.
  intros n rb cr r w' os rs d N H NG EA CR. destruct (session_cases _ _ _ _ _ N H) as [(os' & c & EA' & X1 & _ & X)|(_ & _ & e & G)]; [|destruct (NG e G)].
  rewrite (ended_as_fun _ _ _ _ EA' EA) in X.
  assert (NE : rs <> []).
  { intros ->. inversion CR as [Q|]. symmetry in Q. apply map_eq_nil in Q. subst os. unfold ended_as in EA. destruct n; [lia|inversion EA]. }
  destruct (ResultProps.c22_pipeline_result _ _ d c CR NE) as (k & K & Q). rewrite Q in X. destruct X as [-> _].
  eexists _, k. split; [reflexivity|]. split; [exact K|]. cbn. auto.
Qed.
Print Assumptions c88_result.
(** A command failed with another exception (it could not be launched, timed out,
    its input could not be written): the block raises the first of these in
    pipeline order, even if the body ended normally or with another exception,
    and there is no cli.result. *)
Theorem c88_command_failed : forall n rb cr r w' pre e post, n >= 2 -> pprompt_session n (Ok tt) (Some rb) cr r w' ->
  (forall e', ~ gave_up n w' e') -> ended_as n w' (pre ++ TFail e :: post) -> other_error e ->
  (forall o, In o pre -> has_result o \/ o = TCancelled) -> r = Err e /\ cr = None.
Proof.
  intros n rb cr r w' pre e post N H NG EA OE FST. destruct (session_cases _ _ _ _ _ N H) as [(os' & c & EA' & _ & _ & X)|(_ & _ & e' & G)]; [|destruct (NG e' G)].
  rewrite (ended_as_fun _ _ _ _ EA' EA), map_app in X. cbn [map entry] in X. rewrite ResultProps.c23_first_other_exception in X; [|exact OE|].
  - now destruct X.
  - intros e' Q OE'. apply in_map_iff in Q as (o & Q & Ho). destruct (FST o Ho) as [[(v & ->)|(v & ->)]| ->]; cbn in Q; try discriminate; injection Q as <-.
    + destruct OE' as [_ OE']. now apply (OE' v).
    + destruct OE' as [OE' _]. discriminate.
Qed.
Print Assumptions c88_command_failed.
(** shellous gave up while the commands were being stopped: the block raises
    AssertionError, which hides the reason. *)
Theorem c88_gave_up : forall n rb cr r w', n >= 2 -> pprompt_session n (Ok tt) (Some rb) cr r w' ->
  ~ (exists os, ended_as n w' os) -> cr = None /\ r = Err AssertionError /\ exists e, gave_up n w' e.
Proof. intros n rb cr r w' N H NE. destruct (session_cases _ _ _ _ _ N H) as [(os & c & EA & _)|X]; [destruct NE; eauto|exact X]. Qed.
Print Assumptions c88_gave_up.

(** ** Concrete sessions *)
Lemma close_ready w : p_ready (w_x w) = true -> pprompt_close w (Ok tt) w.
Proof. intros P. left. exists true, w. split; [split; [now rewrite P|reflexivity]|]. split; reflexivity. Qed.
Definition done0 (z : Z) (out : bytes) : result := {| r_exit := z; r_output := out; r_error := []; r_cancelled := false; r_encoding := [] |}.
Lemma ex_session : exists w', pprompt_session 3 (Ok tt) (Some (Ok tt)) (Some (done0 1 [120%Z])) (Ok tt) w'
  /\ ended_as 3 w' [TValue (PRes (done0 0 [])); TFail (ResultError (done0 1 [])); TValue (PRes (done0 0 [120%Z]))]
  /\ ~ cancelled_in w'.
Proof.
  eexists. split; [|].
  - eapply pp_result with (w1 := entered3) (rc := Ok tt); [apply ex_entered3|apply bs_refl|apply close_ready; reflexivity| |].
    + unfold pleave. all: go. 1: wait_by [pdone 2 (TValue (PRes (done0 0 []))); pdone 4 (TValue (PRes (done0 0 [120%Z]))); pdone 3 (TFail (ResultError (done0 1 []))); pcb 2; pcb 3; pcb 4]. all: go.
    + all: go.
  - split; [unfold ended_as; do 3 (constructor; [eexists; split; [reflexivity|split; reflexivity]|]); constructor|]. vm_compute; intuition discriminate.
Qed.
Lemma not_gave_up3 w' a b c : ended_as 3 w' [a; b; c] -> (forall e, In (TFail e) [a; b; c] -> e <> AssertionError /\ forall m, e <> RuntimeError m) ->
  forall e, ~ gave_up 3 w' e.
Proof.
  intros EA NF e G. unfold ended_as in EA. inversion EA as [|? ? ? ? A EA1]; subst. inversion EA1 as [|? ? ? ? B EA2]; subst. inversion EA2 as [|? ? ? ? C _]; subst.
  destruct G as [(j & J & (t & Nt & _ & O) & X)|(_ & j & J & X)].
  - assert (In (TFail e) [a; b; c]).
    { destruct j as [|[|[|j]]]; [| | |lia]; [destruct A as (t' & N' & _ & O')|destruct B as (t' & N' & _ & O')|destruct C as (t' & N' & _ & O')];
        rewrite Nt in N'; injection N' as <-; rewrite O in O'; injection O' as <-; cbn; auto. }
    destruct (NF e H) as [N1 N2]. destruct X as [X|(m & X)]; [auto|now apply (N2 m)].
  - destruct j as [|[|[|j]]]; [now apply (X a)|now apply (X b)|now apply (X c)|lia].
Qed.
Example c88_example : exists w', pprompt_session 3 (Ok tt) (Some (Ok tt)) (Some (done0 1 [120%Z])) (Ok tt) w'
  /\ (forall e, ~ gave_up 3 w' e)
  /\ ended_as 3 w' [TValue (PRes (done0 0 [])); TFail (ResultError (done0 1 [])); TValue (PRes (done0 0 [120%Z]))]
  /\ Forall2 carries (map entry [TValue (PRes (done0 0 [])); TFail (ResultError (done0 1 [])); TValue (PRes (done0 0 [120%Z]))])
       [done0 0 []; done0 1 []; done0 0 [120%Z]].
Proof.
  destruct ex_session as (w' & H & EA & _). exists w'. split; [exact H|]. split; [|split; [exact EA|]].
  - apply (not_gave_up3 _ _ _ _ EA). intros e [Q|[Q|[Q|[]]]]; try discriminate. injection Q as <-. split; [discriminate|intros m; discriminate].
  - cbn. constructor; [now left|]. constructor; [now right|]. constructor; [now left|constructor].
Qed.

(** ** C89: errors and cancellation in the block *)
(** The body's exception or cancellation is raised again after the block. *)
Definition c89_full_claim := forall n e cr r w', n >= 2 -> pprompt_session n (Ok tt) (Some (Err e)) cr r w' -> r = Err e.
(** What really happens, exhaustively: it is raised; or the task was cancelled (in
    the body or while the commands were being stopped) and nothing is raised; or
    the exception of a command, or an AssertionError, takes its place. *)
Theorem c89_outcome_partial : forall n e cr r w', n >= 2 -> pprompt_session n (Ok tt) (Some (Err e)) cr r w' ->
  (r = Err e /\ e <> CancelledError /\ cr <> None)
  \/ (r = Ok tt /\ (e = CancelledError \/ cancelled_in w') /\ exists v, cr = Some v /\ r_cancelled v = true)
  \/ (cr = None /\ ((exists e', r = Err e' /\ other_error e' /\ exists j, j < n /\ ended true w' j (TFail e')) \/ r = Err AssertionError)).
Proof.
  intros n e cr r w' N H. destruct (session_cases _ _ _ _ _ N H) as [(os & c & EA & X1 & X2 & X)|(X1 & X2 & _)]; [|right; right; auto].
  destruct (convert_result_list (map entry os) c) as [v|e'] eqn:CV.
  - destruct X as [-> ->]. destruct c.
    + right; left. split; [reflexivity|]. split; [destruct (X1 eq_refl) as [Q|Q]; [injection Q as ->; now left|now right]|]. exists v. split; [reflexivity|].
      unfold convert_result_list in CV. destruct (other_ex _); [|discriminate]. destruct (find_key _ _); [|discriminate]. destruct (get_result _); [|discriminate]. now injection CV as <-.
    + left. split; [reflexivity|]. split; [|discriminate]. intros ->. specialize (X2 eq_refl). discriminate.
  - right; right. destruct X as [-> ->]. split; [reflexivity|].
    unfold convert_result_list in CV. destruct (other_ex (map entry os)) as [|e1 l] eqn:OE.
    + right. f_equal.
      assert (FK : forall l acc e2, (l <> [] \/ acc <> None) -> find_key l acc = Err e2 -> e2 = AssertionError).
      { induction l as [|o l IH]; intros acc e2 NE; cbn [find_key].
        - destruct acc; [discriminate|]. intuition congruence.
        - destruct (get_result o) as [it|e3] eqn:GR; [|intros [= <-]; destruct o as [?|[]]; cbn in GR; congruence].
          destruct (_ && _); [discriminate|]. apply IH. right. discriminate. }
      destruct (find_key (map entry os) None) as [k|e2] eqn:K; [|injection CV as <-; eapply FK; [|exact K]].
      * destruct (get_result (List.last _ _)) as [la|e2] eqn:GR; [discriminate|]. injection CV as <-. destruct (List.last _ _) as [?|[]]; cbn in GR; congruence.
      * left. intros Q. apply map_eq_nil in Q. subst os. unfold ended_as in EA. destruct n; [lia|inversion EA].
    + injection CV as <-. assert (I1 : In e1 (other_ex (map entry os))) by (rewrite OE; now left). unfold other_ex in I1.
      apply in_flat_map in I1 as (o & Ho & I1). destruct o as [?|e2]; [destruct I1|]. destruct (is_Exception e2 && negb (is_ResultError e2)) eqn:B; [|destruct I1].
      destruct I1 as [-> |[]]. apply andb_true_iff in B as [B1 B2]. apply in_map_iff in Ho as (t & Q & Ht).
      destruct t as [[v|k]|e3|]; cbn in Q; try discriminate.
      * exfalso. assert (Z : forall l os, Forall2 (ended true w') l os -> In (TValue (PRun k)) os -> exists j, ended true w' j (TValue (PRun k))).
        { induction 1 as [|j o l0 os0 Hj _ IH]; cbn; [tauto|]. intros [-> |I1]; eauto. }
        destruct (Z _ _ EA Ht) as (j & EJ). exact (session_values _ _ _ _ _ H j k EJ).
      * injection Q as ->. left. exists e1. split; [reflexivity|]. split; [split; [exact B1|intros r Q; subst e1; discriminate]|].
        unfold ended_as in EA. assert (G : forall l os, Forall2 (ended true w') l os -> In (TFail e1) os -> exists j, In j l /\ ended true w' j (TFail e1)).
        { induction 1 as [|j o l0 os0 Hj _ IH]; cbn; [tauto|]. intros [-> |I1]; [eauto|]. destruct (IH I1) as (j' & A & B); eauto. }
        destruct (G _ _ EA Ht) as (j & Hj & EJ). apply in_seq in Hj. exists j. split; [lia|exact EJ].
      * injection Q as <-. discriminate.
Qed.
Print Assumptions c89_outcome_partial.

(** The body raised; meanwhile the second command could not be launched: only
    the launch error is seen. *)
Lemma ex_replaced : exists w', pprompt_session 3 (Ok tt) (Some (Err (OtherError 7))) None (Err FileNotFoundError) w'
  /\ ended_as 3 w' [TFail (ResultError killed); TFail FileNotFoundError; TFail (ResultError killed)] /\ ~ cancelled_in w'.
Proof.
  eexists. split; [|].
  - eapply pp_no_result with (w1 := entered3) (rc := Err (OtherError 7)); [apply ex_entered3|apply bs_refl|reflexivity| |].
    + unfold pleave. all: go. 1: wait_by [pdone 3 (TFail FileNotFoundError); pcb 3]. all: go.
      1: wait_by [pdone 2 (TFail (ResultError killed)); pdone 4 (TFail (ResultError killed)); pcb 2; pcb 4]. all: go.
    + all: go.
  - split; [unfold ended_as; do 3 (constructor; [eexists; split; [reflexivity|split; reflexivity]|]); constructor|]. vm_compute; intuition discriminate.
Qed.
Theorem c89_replaced_refuted : ~ c89_full_claim.
Proof. intro C. destruct ex_replaced as (w' & H & _). specialize (C 3 _ _ _ _ ltac:(lia) H). discriminate. Qed.
Print Assumptions c89_replaced_refuted.
Example c88_failed_example : exists w', pprompt_session 3 (Ok tt) (Some (Err (OtherError 7))) None (Err FileNotFoundError) w'
  /\ (forall e, ~ gave_up 3 w' e) /\ ended_as 3 w' ([TFail (ResultError killed)] ++ TFail FileNotFoundError :: [TFail (ResultError killed)])
  /\ other_error FileNotFoundError.
Proof.
  destruct ex_replaced as (w' & H & EA & _). exists w'. split; [exact H|]. split; [|split; [exact EA|split; [reflexivity|discriminate]]].
  apply (not_gave_up3 _ _ _ _ EA). intros e [Q|[Q|[Q|[]]]]; injection Q as <-; (split; [discriminate|intros m; discriminate]).
Qed.
(** The body is cancelled: the block ends normally. *)
Theorem c89_cancelled_swallowed : exists w' v, pprompt_session 3 (Ok tt) (Some (Err CancelledError)) (Some v) (Ok tt) w' /\ r_cancelled v = true
  /\ cancels (w_hist w') = 1 /\ ended_as 3 w' [TFail (ResultError killed); TFail (ResultError killed); TFail (ResultError killed)].
Proof.
  do 2 eexists. split; [|].
  - eapply pp_result with (rc := Err CancelledError); [apply ex_entered3|eapply (bs_env _ (EX tt)); [reflexivity|apply bs_refl]|reflexivity| |].
    + unfold pleave. all: go. 1: wait_by (ends3 (TFail (ResultError killed)) (TFail (ResultError killed)) (TFail (ResultError killed))). all: go.
    + all: go.
  - split; [reflexivity|]. split; [reflexivity|]. unfold ended_as. do 3 (constructor; [eexists; split; [reflexivity|split; reflexivity]|]). constructor.
Qed.
Print Assumptions c89_cancelled_swallowed.
