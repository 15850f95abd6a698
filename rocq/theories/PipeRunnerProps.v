(** Theorems about running a pipeline: C45, C69-C72.  They hold for every number
    of commands, every way the commands end, every body and every schedule of
    completions and cancellations. *)
From Verif Require Import AsyncSpec AsyncProofs HarvestModel HarvestSpec HarvestProofs HarvestProofs2 AsyncInv
  RunnerProps PipeRunnerModel PipeRunnerProofs PipeRunnerProofs2 RunTac.
Open Scope nat_scope.

(** ** Vocabulary *)
(** Tasks are numbered in the order of their creation: a capturing pipeline
    creates two futures first, then there is one task for each command. *)
Definition task_of (capturing : bool) (j : nat) : nat := (if capturing then 2 else 0) + j.
(** How command j ended, if it did. *)
Definition ended (capturing : bool) (w : world) (j : nat) (o : tout pval) : Prop :=
  exists t, nth_error (w_tasks w) (task_of capturing j) = Some t /\ t_kind t = KCmd j /\ t_out t = Some o.
Definition all_over (n : nat) (capturing : bool) (w : world) : Prop := forall j, j < n -> exists o, ended capturing w j o.

Lemma begun_nth n cap j : j < n -> nth_error (w_tasks (begun n cap)) (off cap + j) = Some (cmd_task j).
Proof.
  intros L. assert (M : nth_error (map cmd_task (seq 0 n)) j = Some (cmd_task j)).
  { apply map_nth_error. rewrite nth_error_nth' with (d := 0) by (now rewrite seq_length). now rewrite seq_nth. }
  destruct cap; exact M.
Qed.
Lemma ended_intro n cap h w j o : extends (begun n cap) h w -> j < n -> task_out w (off cap + j) = Some o -> ended cap w j o.
Proof.
  intros (_ & A & _) L T. destruct (A _ _ (begun_nth n cap j L)) as (t & N & K & _). exists t. split; [exact N|]. split; [exact K|].
  unfold task_out in T. now rewrite N in T.
Qed.
Lemma all_over_intro n cap h w : extends (begun n cap) h w -> (forall i, In i (seq (off cap) n) -> task_done w i = true) -> all_over n cap w.
Proof.
  intros E D j L. assert (T : task_done w (off cap + j) = true) by (apply D; apply in_seq; lia). unfold task_done in T.
  destruct (task_out w (off cap + j)) as [o|] eqn:TO; [|discriminate]. exists o. exact (ended_intro _ _ _ _ _ _ E L TO).
Qed.

(** ** C69 *)
Definition after (w w' : world) : list (hev pval) := skipn (List.length (w_hist w)) (w_hist w').
Lemma after_ext w h w' : extends w h w' -> after w w' = h.
Proof. intros (E & _). unfold after. rewrite E. rewrite skipn_app, skipn_all, Nat.sub_diag. reflexivity. Qed.
Lemma only_req_no (h : list (hev pval)) : only_req h -> cancels h = 0.
Proof. apply only_req_cancels. Qed.

Definition c69_full_claim := forall n capturing r w', n >= 2 ->
  with_pipe n (Ok tt) capturing any_body pw0 r w' -> r <> Err cancel_failed -> all_over n capturing w'.

(** Two commands, cancelled while waiting for them, and again while waiting for
    the cancelled commands: `async with` ends, the commands do not. *)
Definition pdone (i : nat) (o : tout pval) : @wev pval unit := WEnv (EDone i o).
Definition pcancel : @wev pval unit := WEnv (EX tt).
Definition pcb (i : nat) : @wev pval unit := WCallback i.
Definition res0 : result := {| r_exit := 0; r_output := []; r_error := []; r_cancelled := false; r_encoding := [] |}.
Definition ready2 (capturing : bool) : world :=
  mk_world (first_table 2 false) (set_ready (set_tasks [0; 1] px0)) [].
Lemma ex_enter : aenter 2 (Ok tt) false pw0 (Ok tt) (ready2 false).
Proof. all: go. Qed.
Lemma ex_orphans : exists w', with_pipe 2 (Ok tt) false any_body pw0 (Err InvalidStateError) w' /\ task_out w' 0 = None.
Proof.
  eexists. split; [|].
  - unfold with_pipe. eapply b_bind; [apply ex_enter|]. exists (Ok tt), (ready2 false). split; [apply bs_refl|].
    all: go. 1: wait_by [pcancel]. all: go. 1: wait_by [pcancel]. all: go. 1: wait_by [pcancel]. all: go.
  - reflexivity.
Qed.
Theorem c69_refuted : ~ c69_full_claim.
Proof.
  intros C. destruct ex_orphans as (w' & H & T). destruct (C 2 false _ _ ltac:(lia) H ltac:(discriminate) 0 ltac:(lia)) as (o & t & N & _ & O).
  unfold task_out in T. change (task_of false 0) with 0 in N. rewrite N in T. congruence.
Qed.
Print Assumptions c69_refuted.

(** Missing: more than one cancellation while the block waits for its commands. *)
Theorem c69_exit_partial : forall n capturing body_result exc w0 w1 r w', n >= 2 ->
  aenter n (Ok tt) capturing pw0 (Ok tt) w0 -> any_body w0 body_result w1 -> aexit exc w1 r w' ->
  cancels (after w1 w') <= 1 -> r <> Err cancel_failed -> all_over n capturing w'.
Proof.
  intros n cap rb exc w0 w1 r w' N H1 H2 H3 C NF. destruct (aenter_ok _ _ _ N H1) as (h & R & _).
  destruct (body_run _ _ _ _ H2 _ R) as (h' & R' & _). pose proof (ru_ext _ _ _ _ R') as E.
  destruct (aexit_spec _ _ _ _ _ _ _ N R' H3) as (h0 & h2 & E2 & OR & _ & _ & D & _).
  rewrite (after_ext _ _ _ E2), cancels_app, (only_req_no _ OR) in C. eapply all_over_intro; [exact (extends_trans _ _ _ _ _ E E2)|].
  apply D; [exact NF|left; lia].
Qed.
Print Assumptions c69_exit_partial.
(** The same when the block cannot be entered. *)
Theorem c69_enter_partial : forall n capturing e w', n >= 2 ->
  aenter n (Ok tt) capturing pw0 (Err e) w' -> cancels (w_hist w') <= 2 -> e <> cancel_failed -> all_over n capturing w'.
Proof.
  intros n cap e w' N H C NF. destruct (aenter_err _ _ _ _ N H) as (-> & h1 & h0 & h2 & E & IC & OR & _ & D & _).
  eapply all_over_intro; [exact E|]. apply D; [exact NF|]. pose proof (proj1 E) as HH. cbn in HH. rewrite HH, !cancels_app in C.
  apply cancels_In in IC. lia.
Qed.
Print Assumptions c69_enter_partial.
Theorem c69_no_orphans_partial : forall n capturing r w', n >= 2 ->
  with_pipe n (Ok tt) capturing any_body pw0 r w' ->
  cancels (w_hist w') <= 1 -> r <> Err cancel_failed -> all_over n capturing w'.
Proof.
  intros n cap r w' N H C NF. apply b_inv in H as [([] & w0 & H & rb & w1 & B & K)|(e & H & ->)].
  - assert (AE : exists exc ra, aexit exc w1 ra w' /\ (ra = Err cancel_failed -> r = Err cancel_failed)).
    { destruct rb as [u|e].
      - apply b_inv in K as [(b & w2 & K & [-> ->])|(e & K & ->)]; [exists None, (Ok b)|exists None, (Err e)]; (split; [exact K|congruence]).
      - apply b_inv in K as [(b & w2 & K & K2)|(e' & K & ->)].
        + exists (Some e), (Ok b). destruct b; destruct K2 as [-> ->]; (split; [exact K|discriminate]).
        + exists (Some e), (Err e'). split; [exact K|congruence]. }
    destruct AE as (exc & ra & AE & CF). apply (c69_exit_partial n cap rb exc w0 w1 ra w' N H B AE); [|intros Q; apply NF; auto].
    destruct (aenter_ok _ _ _ N H) as (h & R & _). destruct (body_run _ _ _ _ B _ R) as (h' & R' & _).
    destruct (aexit_spec _ _ _ _ _ _ _ N R' AE) as (h0 & h2 & E2 & _). rewrite (after_ext _ _ _ E2).
    rewrite (proj1 E2), cancels_app in C. lia.
  - apply (c69_enter_partial n cap e w' N H); [lia|congruence].
Qed.
Print Assumptions c69_no_orphans_partial.
(** Cancelled while it waits: both commands end, `await` raises CancelledError. *)
Definition cancelled_opts : opts := ex_opts None.
Definition killed : result := {| r_exit := -15; r_output := []; r_error := []; r_cancelled := true; r_encoding := [] |}.
Lemma ex_cancelled : exists w', run_pipeline 2 (Ok tt) cancelled_opts pw0 (Err CancelledError) w' /\ cancels (w_hist w') = 1
  /\ w_hist w' = [HCancel; HReq 0; HReq 1; HDone 1 (TFail (ResultError killed)); HDone 0 (TFail (ResultError killed))].
Proof.
  eexists. split; [|].
  - unfold run_pipeline, with_pipe. eapply b_bind.
    + eapply b_bind; [apply ex_enter|]. exists (Ok tt), (ready2 false). split; [go|].
      all: go. 1: wait_by [pcancel]. all: go. 1: wait_by [pdone 1 (TFail (ResultError killed)); pdone 0 (TFail (ResultError killed)); pcb 0; pcb 1]. all: go.
    + go.
  - split; reflexivity.
Qed.

(** ** C70: the pipes cannot be created *)
Definition c70_full_claim := forall n capturing e r w', is_Exception e = true ->
  aenter n (Err e) capturing pw0 r w' -> r = Err e.
(** What really happens, for every exception: another exception, from waiting
    for no tasks, takes its place (the real one is only its __context__). *)
Theorem c70_masked_partial : forall n capturing e r w', is_Exception e = true ->
  aenter n (Err e) capturing pw0 r w' ->
  r = Err (ValueError "Set of Tasks/Futures is empty.") /\ w_tasks w' = [] /\ p_closed (w_x w') = 1.
Proof. exact setup_failed. Qed.
Print Assumptions c70_masked_partial.
Theorem c70_refuted : ~ c70_full_claim.
Proof.
  intros C.
  assert (H : exists r w', aenter 2 (Err (OtherError 24)) false pw0 r w').
  { eexists (Err empty_set), _. all: go. refine (conj eq_refl eq_refl). all: go. }
  destruct H as (r & w' & H). pose proof (C 2 false (OtherError 24) r w' eq_refl H) as E.
  destruct (c70_masked_partial 2 false (OtherError 24) r w' eq_refl H) as (E2 & _). congruence.
Qed.
Print Assumptions c70_refuted.

(** ** C71: the value of `await pipeline` *)
(** The commands ended like this, in pipeline order. *)
Definition ended_like (n : nat) (w : world) (os : list (tout pval)) : Prop := Forall2 (ended false w) (seq 0 n) os.
Definition c71_full_claim := forall n o r w', n >= 2 -> run_pipeline n (Ok tt) o pw0 r w' ->
  cancels (w_hist w') = 0 -> forall os, ended_like n w' os -> r = pipe_run_result (map entry os) o false.

Lemma ended_like_intro n h w os P : extends (begun n false) h w -> Forall2 (fun i out => task_out w i = Some out /\ P out) (seq 0 n) os -> ended_like n w os.
Proof.
  intros E F. unfold ended_like.
  assert (G : forall l os, (forall j, In j l -> j < n) -> Forall2 (fun i out => task_out w i = Some out /\ P out) l os -> Forall2 (ended false w) l os).
  { clear F os. induction l as [|j l IH]; intros os L F; inversion F as [|? o ? os' [T _] F']; subst; constructor.
    - apply (ended_intro n false h w j o E); [apply L; now left|exact T].
    - apply IH; [intros k Hk; apply L; now right|exact F']. }
  apply G; [|exact F]. intros j Hj. apply in_seq in Hj. lia.
Qed.
Lemma ended_like_fun n w os os' : ended_like n w os -> ended_like n w os' -> os = os'.
Proof.
  unfold ended_like. generalize (seq 0 n). intros l F. revert os'. induction F as [|j o l os (t & N & _ & O) F IH]; intros os' F'; inversion F' as [|? o' ? os2 (t' & N' & _ & O') F2]; subst; [reflexivity|].
  f_equal; [congruence|auto].
Qed.

(** The second command fails with RuntimeError, the first with OSError: the
    second exception is raised. *)
Definition oops : exn := RuntimeError "oops".
Lemma ex_order : exists w', run_pipeline 2 (Ok tt) cancelled_opts pw0 (Err oops) w' /\ cancels (w_hist w') = 0 /\ ended_like 2 w' [TFail BrokenPipeError; TFail oops].
Proof.
  eexists. split; [|].
  - unfold run_pipeline, with_pipe. apply b_bind_err. eapply b_bind; [apply ex_enter|]. exists (Ok tt), (ready2 false). split; [go|].
    all: go. 1: wait_by [pdone 0 (TFail BrokenPipeError); pdone 1 (TFail oops); pcb 0; pcb 1]. all: go.
  - split; [reflexivity|]. unfold ended_like. constructor; [|constructor; [|constructor]]; (eexists; split; [reflexivity|split; reflexivity]).
Qed.
Theorem c71_refuted : ~ c71_full_claim.
Proof. intros C. destruct ex_order as (w' & H & NC & E). specialize (C 2 _ _ _ ltac:(lia) H NC _ E). discriminate C. Qed.
Print Assumptions c71_refuted.

(** [c] is PipeRunner._cancelled.  Missing: a command that fails with
    RuntimeError or AssertionError. *)
Theorem c71_value_partial : forall n o r w', n >= 2 -> run_pipeline n (Ok tt) o pw0 r w' ->
  (exists os c, ended_like n w' os /\ r = pipe_run_result (map entry os) o c
    /\ (c = true -> In HCancel (w_hist w'))
    /\ (forall ha hb, w_hist w' = ha ++ HCancel :: hb -> no_request ha -> c = true))
  \/ (exists j e, r = Err e /\ j < n /\ ended false w' j (TFail e) /\ (e = AssertionError \/ exists m, e = RuntimeError m))
  \/ r = Err cancel_failed \/ (r = Err InvalidStateError /\ cancels (w_hist w') >= 2).
Proof.
  intros n o r w' N H. destruct (run_pipeline_spec _ _ _ _ N H) as (h & E & R). assert (HH : w_hist w' = h) by (rewrite (proj1 E); reflexivity). rewrite HH.
  destruct R as [(os & c & F & -> & C1 & C2)|(e & -> & [-> |[(i & I & T & RR)|(-> & C)]])].
  - left. exists os, c. split; [exact (ended_like_intro _ _ _ _ _ E F)|]. auto.
  - right; right; left. reflexivity.
  - right; left. exists i, e. apply in_seq in I. split; [reflexivity|]. split; [lia|]. split; [apply (ended_intro n false h w' i _ E); [lia|exact T]|].
    destruct RR as [Q|(m & Q)]; injection Q as ->; [now left|right; eauto].
  - right; right; right. auto.
Qed.
Print Assumptions c71_value_partial.
(** Without cancellation: the value depends on how the commands ended, not on
    the order in which they ended. *)
Theorem c71_undisturbed_partial : forall n o r w', n >= 2 -> run_pipeline n (Ok tt) o pw0 r w' ->
  cancels (w_hist w') = 0 -> r <> Err cancel_failed ->
  (forall j m, j < n -> ~ ended false w' j (TFail (RuntimeError m)) /\ ~ ended false w' j (TFail AssertionError)) ->
  exists os, ended_like n w' os /\ r = pipe_run_result (map entry os) o false.
Proof.
  intros n o r w' N H NC NF G. destruct (c71_value_partial n o r w' N H) as [(os & c & L & -> & C & _)|[(j & e & _ & J & T & [-> |(m & ->)])|[Q|(_ & Q)]]].
  - exists os. split; [exact L|]. destruct c; [|reflexivity]. specialize (C eq_refl). apply cancels_In in C. lia.
  - destruct (proj2 (G j ""%string J) T).
  - destruct (proj1 (G j m J) T).
  - congruence.
  - lia.
Qed.
Print Assumptions c71_undisturbed_partial.
Lemma ex_enter3 : aenter 3 (Ok tt) false pw0 (Ok tt) (mk_world (first_table 3 false) (set_ready (set_tasks [0; 1; 2] px0)) []).
Proof. all: go. Qed.
Example c71_example : exists w', run_pipeline 3 (Ok tt) cancelled_opts pw0 (Ok res0) w' /\ cancels (w_hist w') = 0
  /\ (forall j m, j < 3 -> ~ ended false w' j (TFail (RuntimeError m)) /\ ~ ended false w' j (TFail AssertionError))
  /\ w_hist w' = [HDone 2 (TValue (PRes res0)); HDone 0 (TValue (PRes res0)); HDone 1 (TValue (PRes res0))].
Proof.
  eexists. split; [|].
  - unfold run_pipeline, with_pipe. eapply b_bind.
    + eapply b_bind; [apply ex_enter3|]. eexists (Ok tt), _. split; [go|].
      all: go. 1: wait_by [pdone 2 (TValue (PRes res0)); pdone 0 (TValue (PRes res0)); pdone 1 (TValue (PRes res0)); pcb 0; pcb 1; pcb 2]. all: go.
    + go.
  - split; [reflexivity|]. split; [|reflexivity]. intros j m L.
    split; intros (t & Nt & _ & O);
      destruct j as [|[|[|j]]]; try lia; injection Nt as <-; discriminate O.
Qed.

(** ** C72: cancelling the task that awaits a pipeline *)
Definition c72_full_claim := forall n o r w', n >= 2 -> run_pipeline n (Ok tt) o pw0 r w' -> o_catch_cancelled o = false ->
  cancels (w_hist w') = 1 -> r <> Err cancel_failed -> r = Err CancelledError.
(** A cancellation that arrives after another command has failed is forgotten:
    the failure is reported. *)
Definition failed1 : result := {| r_exit := 1; r_output := []; r_error := []; r_cancelled := false; r_encoding := [] |}.
Theorem c72_swallowed : exists w', run_pipeline 2 (Ok tt) cancelled_opts pw0 (Err (ResultError {| r_exit := 1; r_output := []; r_error := []; r_cancelled := false; r_encoding := [] |})) w'
  /\ cancels (w_hist w') = 1 /\ ended_like 2 w' [TFail (ResultError failed1); TFail (ResultError killed)].
Proof.
  eexists. split; [|].
  - unfold run_pipeline, with_pipe. eapply b_bind.
    + eapply b_bind; [apply ex_enter|]. exists (Ok tt), (ready2 false). split; [go|].
      all: go. 1: wait_by [pdone 0 (TFail (ResultError failed1)); pcb 0]. all: go. 1: wait_by [pcancel]. all: go.
      1: wait_by [pdone 1 (TFail (ResultError killed)); pcb 1]. all: go.
    + go.
  - split; [reflexivity|]. unfold ended_like. constructor; [|constructor; [|constructor]]; (eexists; split; [reflexivity|split; reflexivity]).
Qed.
Print Assumptions c72_swallowed.
Theorem c72_refuted : ~ c72_full_claim.
Proof. intros C. destruct c72_swallowed as (w' & H & NC & _). specialize (C 2 _ _ _ ltac:(lia) H eq_refl NC ltac:(discriminate)). discriminate C. Qed.
Print Assumptions c72_refuted.

Definition has_result (o : tout pval) : Prop := (exists r, o = TValue (PRes r)) \/ (exists r, o = TFail (ResultError r)).
Lemma convert_ok os c : os <> [] -> Forall has_result os -> exists r, convert_result_list (map entry os) c = Ok r /\ r_cancelled r = c.
Proof.
  intros NE F. unfold convert_result_list.
  assert (O : other_ex (map entry os) = []).
  { clear NE. induction F as [|o os [(r & ->)|(r & ->)] F IH]; [reflexivity| |]; cbn; exact IH. }
  rewrite O.
  assert (G : forall acc, os <> [] \/ acc <> None -> exists k, find_key (map entry os) acc = Ok k).
  { clear NE O. induction F as [|o os Hr F IH]; intros acc NE.
    - destruct acc; [cbn; eauto|]. destruct NE; congruence.
    - assert (Gr : exists r, get_result (entry o) = Ok r) by (destruct Hr as [(r & ->)|(r & ->)]; exists r; reflexivity).
      destruct Gr as (r & Gr). cbn [map find_key]. rewrite Gr. destruct (_ && _); [eauto|]. apply IH. right. discriminate. }
  destruct (G None (or_introl NE)) as (k & ->).
  assert (L : exists r, get_result (List.last (map entry os) (OExn (OtherError 0))) = Ok r).
  { clear O G. induction F as [|o os Hr F IH]; [congruence|]. destruct os as [|o' os].
    - destruct Hr as [(r & ->)|(r & ->)]; exists r; reflexivity.
    - apply IH. discriminate. }
  destruct L as (r & ->). eexists. split; reflexivity.
Qed.
(** Missing: commands that end without a Result, and a cancellation that arrives
    while the pipeline is already being stopped. *)
Theorem c72_cancelled_partial : forall n o r w' ha hb, n >= 2 -> run_pipeline n (Ok tt) o pw0 r w' ->
  w_hist w' = ha ++ HCancel :: hb -> no_request ha -> cancels (w_hist w') = 1 -> r <> Err cancel_failed ->
  (forall j out, j < n -> ended false w' j out -> has_result out) ->
  if o_catch_cancelled o then exists v, r = Err (ResultError v) /\ r_cancelled v = true else r = Err CancelledError.
Proof.
  intros n o r w' ha hb N H HH NR C NF G. destruct (c71_value_partial n o r w' N H) as [(os & c & L & -> & _ & Cc)|[(j & e & _ & J & T & X)|[Q|(_ & Q)]]]; [| |congruence|lia].
  - rewrite (Cc ha hb HH NR) in *.
    assert (F : Forall has_result os).
    { clear - L G. unfold ended_like in L. assert (LL : forall j, In j (seq 0 n) -> j < n) by (intros j Q; apply in_seq in Q; lia). revert L LL. generalize (seq 0 n). intros l L.
      induction L as [|j out l os E L IH]; intros LL; constructor; [apply (G j out); [apply LL; now left|exact E]|apply IH; intros k Q; apply LL; now right]. }
    assert (NE : os <> []) by (intros ->; unfold ended_like in L; destruct n as [|[|n]]; [lia..|inversion L]).
    destruct (convert_ok os true NE F) as (v & V & VC). unfold pipe_run_result. rewrite V. unfold check_result. cbn [andb negb].
    destruct (o_catch_cancelled o); cbn [negb orb]; [exists v; auto|reflexivity].
  - destruct (G j _ J T) as [(v & Q)|(v & Q)]; [discriminate|]. injection Q as ->. destruct X as [X|(m & X)]; discriminate.
Qed.
Print Assumptions c72_cancelled_partial.
Example c72_example : exists w' hb, run_pipeline 2 (Ok tt) cancelled_opts pw0 (Err CancelledError) w'
  /\ w_hist w' = [] ++ HCancel :: hb /\ cancels (w_hist w') = 1 /\ forall j out, j < 2 -> ended false w' j out -> has_result out.
Proof.
  destruct ex_cancelled as (w' & H & C & HH). exists w'. eexists. split; [exact H|]. split; [exact HH|]. split; [exact C|].
  intros j out J (t & Nt & _ & O). right. exists killed.
  destruct (run_pipeline_spec _ _ _ _ (le_n 2) H) as (h & E & _). assert (EH : h = w_hist w') by (rewrite (proj1 E); reflexivity). rewrite HH in EH. subst h.
  destruct E as (_ & E & _). destruct (E j (cmd_task j) (begun_nth 2 false j J)) as (t' & Nt' & _ & O' & _). change (task_of false j) with j in Nt. rewrite Nt in Nt'. injection Nt' as <-.
  rewrite O in O'. destruct j as [|[|j]]; [cbn in O'; congruence..|lia].
Qed.

(** ** C45: entering a pipeline with captured streams *)
(** When a command ends without having become ready -- it could not be
    launched -- entering should end, without being cancelled from outside. *)
Definition c45_full_claim := forall e, exists r w', aenter 2 (Ok tt) true pw0 r w'
  /\ ended true w' 0 (TFail e) /\ task_out w' 0 = None /\ ~ In HCancel (w_hist w').
(** It never ends, whatever happens: the future of a command that failed is
    never completed. *)
Theorem c45_hangs : forall n r w', n >= 2 -> aenter n (Ok tt) true pw0 r w' ->
  task_done w' 0 = false \/ task_done w' 1 = false -> In HCancel (w_hist w').
Proof.
  intros n r w' N H D. destruct r as [[]|e].
  - destruct (aenter_ok _ _ _ N H) as (h & _ & _ & T). destruct (T eq_refl) as [T1 T2]. destruct D; congruence.
  - destruct (aenter_err _ _ _ _ N H) as (_ & h1 & h0 & h2 & E & C & _). rewrite (proj1 E). apply in_or_app. right. apply in_or_app. now left.
Qed.
Print Assumptions c45_hangs.
Theorem c45_refuted : ~ c45_full_claim.
Proof. intros C. destruct (C boom) as (r & w' & H & _ & T & NC). apply NC, (c45_hangs 2 r w' (le_n 2) H). left. unfold task_done. now rewrite T. Qed.
Print Assumptions c45_refuted.
(** The future is really out of reach: once command j is over, no event sets it. *)
Theorem c45_failed_command_never_ready : forall (w : world) i t j o w' c, nth_error (w_tasks w) i = Some t -> t_kind t = KFut j ->
  In j (p_ended (w_x w)) -> env_step pstep pfinish w (EDone i o) = Some (w', c) -> False.
Proof.
  intros w i t j o w' c Nt K E S. cbn in S. rewrite Nt in S. destruct (t_out t); [discriminate|]. unfold pfinish in S. rewrite K in S.
  destruct o as [[v|k]|e|]; try discriminate. assert (X : existsb (Nat.eqb j) (p_ended (w_x w)) = true) by (apply existsb_exists; exists j; split; [exact E|apply Nat.eqb_refl]).
  rewrite X, andb_false_r in S. discriminate.
Qed.
Print Assumptions c45_failed_command_never_ready.
(** Both ends of the pipeline become ready: entering succeeds. *)
Theorem c45_ready_partial : forall n evs w s, n >= 2 ->
  wait_run pstep pfinish ALL_COMPLETED None (begun n true, mk_wst [0; 1] false false false) evs = Some (w, s) ->
  task_done w 0 = true -> task_done w 1 = true -> s_canc s = false ->
  exists w', aenter n (Ok tt) true pw0 (Ok tt) w' /\ w_hist w' = w_hist w /\ w_tasks w' = w_tasks w.
Proof. exact ready_enters. Qed.
Print Assumptions c45_ready_partial.
Example c45_example : exists w s, wait_run pstep pfinish ALL_COMPLETED None (begun 2 true, mk_wst [0; 1] false false false)
   [pdone 1 (TValue (PRun 1)); pdone 0 (TValue (PRun 0))] = Some (w, s) /\ task_done w 0 = true /\ task_done w 1 = true /\ s_canc s = false.
Proof. do 2 eexists. split; [reflexivity|]. repeat split. Qed.
