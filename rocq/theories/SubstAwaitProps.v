(** Theorems about `await cmd` with process substitution (C119, C120): they hold for
    every tree of substituted commands, every answer of the operating system and
    every schedule. *)
From Verif Require Import AsyncModel AsyncSpec AsyncProofs HarvestModel HarvestSpec HarvestProofs HarvestProofs2 AsyncInv
  RunnerModel RunnerSpec RunnerProofs RunnerProofs2 RunnerProofs3 RunnerProofs4 RunnerProofs5 RunnerProofs6 RunnerProofs7
  RunnerProofs8 RunnerProofs9 RunnerProofs10 RunnerProofs11 CopySpec CopyProofs CopyProofs2 Utf8Model AwaitModel AwaitProofs PipeAwaitModel PipeAwaitProofs PipeAwaitProofs2.
From Verif Require RunOptionsModel RouteSpec RouteProofs RouteProps.
From Verif Require Import RunTac RunnerProps AwaitProps PipeAwaitProps TasksProps SubstAwaitModel.
Open Scope Z_scope.

(** ** Specification *)
(** [t] is [u], or the run of a command substituted into [u], at any depth. *)
Inductive within : rtree -> rtree -> Prop :=
| wi_self t : within t t
| wi_sub t c a w subs s : In s subs -> within t s -> within t (RCmd c a w subs).
(** The command came to its end without an exception and its process ended with
    a code it accepts (the code is the one of the operating system unless
    somebody meddled with the process, C39). *)
Definition succeeded (t : rtree) : Prop :=
  match t with
  | RCmd c a w _ => (exists v, a = Ok v) /\ exists z, returncode (w_x w) = Some z /\ accepts (c_opts c) z
      /\ (In (LExit z) (events w) \/ exists e, In e (events w) /\ meddled e)
  | RPipe _ a => exists v, a = Ok v
  | RNever _ | RGoing _ => False
  end.
(** The substituted commands have been created with the public API (the option
    `_catch_cancelled` is set by shellous for pipelines only) and only shellous
    cancels the tasks of the runs. *)
Definition plain (t : rtree) : Prop := forall c a w subs, within (RCmd c a w subs) t -> o_catch_cancelled (c_opts c) = false /\ only_shellous_cancels w.

(** ** Proofs *)
Lemma plain_sub c a w subs s : plain (RCmd c a w subs) -> In s subs -> plain s.
Proof. intros P H c' a' w' subs' W. apply (P c' a' w' subs'). eapply wi_sub; eauto. Qed.

(** The run as a run of `async with`. *)
Lemma as_with_run o ps up ob eb enc w0 rx w' : aenter o false up ob eb enc fresh (Ok tt) w0 -> aexit o false ps None w0 rx w' ->
  exists r, with_run o false ps up ob eb enc (any_body o false) fresh r w'.
Proof.
  intros HE HX. exists (match rx with Ok _ => Ok tt | Err e => Err e end). eapply b_bind; [exact HE|]. exists (Ok tt), w0. split; [apply bs_refl|].
  destruct rx as [b|e].
  - left. exists b, w'. split; [exact HX|]. split; reflexivity.
  - right. exists e. split; [exact HX|reflexivity].
Qed.

(** One run that succeeds: its process, and its substituted commands. *)
Lemma ran_success dec R c next (sinks : RunOptionsModel.sink -> list Z) s hin hout herr wi w0 r w' subs a :
  let o := c_opts c in
  let ob := if RunOptionsModel.s_output_bytes s then Some (sinks ResultOut) else None in
  let eb := if RunOptionsModel.s_error_bytes s then Some (sinks ResultErr) else None in
  RunOptionsModel.start R c next = (s, Ok ((hin, hout, herr), wi)) ->
  aenter o false (match RunOptionsModel.s_pty s with Some _ => true | None => false end) ob eb (o_encoding o)
         (mk_world [] rx0 []) (Ok tt) w0 ->
  bindM (aexit o false (RunOptionsModel.is_pipe hin) None) (fun _ => run_result o ob eb (o_encoding o) true) w0 r w' ->
  (forall k t, nth_error subs k = Some t -> nth_error (x_tasks (w_x w0)) k = Some (S k)
       /\ exists tk, nth_error (w_tasks w') (S k) = Some tk /\ sub_end t tk) ->
  await_value dec o r = Ok a -> not_cancelled o a -> only_shellous_cancels w' ->
  succeeded (RCmd c (Ok a) w' subs) /\ forall t, In t subs -> match t with RCmd _ a _ _ | RPipe _ a => exists v, a = Ok v | _ => False end.
Proof.
  intros o ob eb ST HE HL SE EV NC OS.
  assert (V : exists v, r = Ok v /\ r_cancelled v = false).
  { destruct HL as [(b & wx & HX & HR)|(e & _ & Q)]; [|subst r; discriminate]. apply i_getx in HR.
    eapply value_cancelled with (c := returncode (w_x wx)) (ob := ob) (eb := eb) (enc := o_encoding o); [exact EV|exact NC|].
    destruct (runner_result _ _ _ _ _ _ _ _) eqn:Q; destruct HR as [-> ->]; eauto. }
  destruct V as (v & -> & VC).
  destruct (run_completes _ _ _ _ _ _ _ _ _ HE HL VC OS) as [DONE RR]. split.
  - split; [eauto|]. unfold runner_result in RR. destruct (returncode (w_x w')) as [z|] eqn:RC; [|discriminate]. exists z. split; [reflexivity|].
    split.
    { unfold check_result in RR. fold (codes_of o) in RR. cbn [andb orb] in RR. apply accepts_in. change (c_opts c) with o.
      destruct (container_in _ _) eqn:Q in RR; [exact Q|discriminate]. }
    destruct HL as [(b & wx & HX & HR)|(e & _ & Q)]; [|discriminate]. apply i_getx in HR.
    assert (W : w' = wx). { destruct (runner_result _ _ _ _ _ _ _ _) in HR; destruct HR; assumption. } subst wx.
    destruct (as_with_run _ _ _ _ _ _ _ _ _ HE HX) as (r0 & WR).
    destruct (run_J _ _ _ _ _ _ _ _ _ WR) as (XI & _).
    assert (PR : x_proc (w_x w') = true).
    { destruct (x_proc (w_x w')) eqn:PR; [reflexivity|]. exfalso. assert (XC : x_cancelled (w_x w') = true).
      { unfold returncode in RC. rewrite PR in RC. cbn in RC. destruct (x_cancelled (w_x w')); [reflexivity|discriminate]. }
      rewrite RC in HR. unfold runner_result, check_result in HR. rewrite XC in HR. destruct (_ && _) in HR; [destruct HR; discriminate|]. destruct (_ || _) in HR; destruct HR as [Q _]; [discriminate|].
      injection Q as ->. discriminate VC. }
    assert (SP : In LSpawn (events w')). { apply (xi_spawn _ XI). apply (xi_proc _ XI). exact PR. }
    assert (NA : ~ In LAbort (events w')). { intros A. apply (xi_abort _ XI) in A. destruct (xi_noabort _ XI PR). congruence. }
    destruct (c39_exit_code_partial _ _ _ _ _ _ _ _ _ _ WR SP NA RC) as [Q|(_ & Q & _)]; [now left|now right].
  - intros t Ht. apply In_nth_error in Ht as (k & Hk). destruct (SE k t Hk) as (NK & tk & NT & _ & E).
    destruct (DONE (S k)) as (u & U); [eapply nth_error_In; exact NK|]. unfold task_out in U. rewrite NT in U.
    destruct t as [c' a' w2 subs'|p a'|v'|v']; cbn in E.
    + destruct E as [E _]. rewrite U in E. exact E.
    + rewrite U in E. exact E.
    + destruct E as [E _]. congruence.
    + congruence.
Qed.

(** ** C119 *)
(** If `await cmd` gives a value, every substituted command, at any depth, has
    succeeded. *)
Lemma tree_success dec t : runs dec t -> plain t -> match t with RCmd _ a _ _ | RPipe _ a => exists v, a = Ok v | _ => False end ->
  forall t', within t' t -> succeeded t'.
Proof.
  intros H. induction H as [c e G|c pty e w' subs G HE HS IH SE|R c next rd sinks s hin hout herr wi w0 r w' subs o ob eb G ST HE HL CP HS IH SJ SE|p a|v|v];
    intros PL OK t' W; try (destruct OK as (v & OK)); try discriminate; try contradiction.
  - assert (NC : not_cancelled o v) by (left; apply (PL _ _ _ _ (wi_self _))).
    assert (OS : only_shellous_cancels w') by apply (PL _ _ _ _ (wi_self _)).
    destruct (ran_success dec R c next sinks s hin hout herr wi w0 r w' subs v ST HE HL SE OK NC OS) as [SU SUBS].
    inversion W as [|? ? ? ? ? s' Hin W']; subst.
    + fold o in SU. rewrite <- OK in SU. exact SU.
    + eapply IH; eauto using plain_sub. apply SUBS; assumption.
  - inversion W; subst. cbn. eauto.
Qed.
Theorem c119_success : forall dec c a w subs, runs dec (RCmd c (Ok a) w subs) -> plain (RCmd c (Ok a) w subs) ->
  forall t, within t (RCmd c (Ok a) w subs) -> succeeded t.
Proof. intros dec c a w subs H P. apply (tree_success dec _ H P). eauto. Qed.
Print Assumptions c119_success.
(** If one of them fails, so does `await cmd`. *)
Definition failed (t : rtree) : Prop := exists e, match t with RCmd _ a _ _ | RPipe _ a => a = Err e | RNever _ => True | RGoing _ => False end.
Theorem c119_failure_reported : forall dec c a w subs t, runs dec (RCmd c a w subs) -> plain (RCmd c a w subs) ->
  within t (RCmd c a w subs) -> failed t -> exists e, a = Err e.
Proof.
  intros dec c a w subs t H P W (e & F). destruct a as [a|e']; [|eauto]. pose proof (c119_success _ _ _ _ _ H P t W) as S'.
  destruct t; cbn in S', F; try contradiction.
  - destruct S' as [(v & Q) _]. congruence.
  - destruct S' as (v & Q). congruence.
Qed.
Print Assumptions c119_failure_reported.

(** Every run of a command is a run of `async with`, or was refused. *)
Lemma node_run dec c a w subs : runs dec (RCmd c a w subs) ->
  (exists ps up ob eb enc r, with_run (c_opts c) false ps up ob eb enc (any_body (c_opts c) false) fresh r w) \/ subs = [] /\ w = fresh.
Proof.
  intros H. remember (RCmd c a w subs) as t eqn:E. revert c a w subs E.
  destruct H as [c e G|c pty e w' subs G HE HS SE|R c next rd sinks s hin hout herr wi w0 r w' subs o ob eb G ST HE HL CP HS SJ SE|p a|v|v]; intros c1 a1 w1 subs1 [=]; subst.
  - now right.
  - left. exists false, pty, None, None, (o_encoding (c_opts c1)), (Err e). eapply b_bind_err. exact HE.
  - left. assert (AX : exists ra, aexit o false (RunOptionsModel.is_pipe hin) None w0 ra w1).
    { destruct HL as [(b & wx & HX & HR)|(e & HX & _)]; [|eauto]. apply i_getx in HR. exists (Ok b). destruct (runner_result _ _ _ _ _ _ _ _); destruct HR as [_ ->]; exact HX. }
    destruct AX as (ra & AX). destruct (as_with_run _ _ _ _ _ _ _ _ _ HE AX) as (r0 & WR). eauto 10.
Qed.
Lemma node_task dec c a w subs s : runs dec (RCmd c a w subs) -> In s subs ->
  runs dec s /\ exists k tk, nth_error (w_tasks w) k = Some tk /\ sub_end s tk.
Proof.
  intros H Hs. inversion H as [? ? G|? pty e ? ? G HE HS SE|R ? next rd sinks s0 hin hout herr wi w0 r ? ? o ob eb G ST HE HL CP HS SJ SE| | |]; subst.
  - destruct Hs.
  - split; [now apply HS|]. apply In_nth_error in Hs as (k & Hk). destruct (SE k s Hk) as (tk & N & E). eauto.
  - split; [now apply HS|]. apply In_nth_error in Hs as (k & Hk). destruct (SE k s Hk) as (_ & tk & N & E). eauto.
Qed.

(** ** C120 *)
(** No process is left running: whatever happens, the process of every
    substituted command that was started has exited or got SIGKILL (or the
    command is still going). *)
Theorem c120_processes : forall dec t c a w subs, runs dec t -> within (RCmd c a w subs) t -> In LSpawn (events w) ->
  (exists z, In (LExit z) (events w)) \/ In (LSent 9) (events w).
Proof.
  intros dec t c a w subs H W SP. revert H. remember (RCmd c a w subs) as n eqn:E. induction W as [t|t c' a' w' subs' s Hin W IH]; intros H; subst.
  - destruct (node_run _ _ _ _ _ H) as [(ps & up & ob & eb & enc & r & WR)|(_ & ->)]; [|destruct SP].
    eapply c34_nothing_left_running; eauto.
  - apply IH; [reflexivity|]. eapply node_task; eauto.
Qed.
Print Assumptions c120_processes.
(** A substituted command that is still going when the command is over has been
    cancelled. *)
Theorem c120_asked_partial : forall dec t c a w subs v, runs dec t -> within (RCmd c a w subs) t -> In (RGoing v) subs ->
  exists i, was_asked w i /\ ~ is_over w i.
Proof.
  intros dec t c a w subs v H W Hg. revert H. remember (RCmd c a w subs) as n eqn:E. induction W as [t|t c' a' w' subs' s Hin W IH]; intros H; subst.
  - destruct (node_task _ _ _ _ _ _ H Hg) as (_ & i & tk & N & KD & TO). exists i.
    assert (NO : ~ is_over w i). { intros (t' & oc & N' & O). congruence. } split; [|exact NO].
    destruct (node_run _ _ _ _ _ H) as [(ps & up & ob & eb & enc & r & WR)|(-> & _)]; [|destruct Hg].
    destruct (c117_asked_partial _ _ _ _ _ _ _ _ WR i) as [Q|[Q|(t' & N' & Q)]]; [|contradiction|exact Q|congruence].
    unfold a_task. apply nth_error_Some. congruence.
  - apply IH; [reflexivity|]. eapply node_task; eauto.
Qed.
Print Assumptions c120_asked_partial.
(** If every run was cancelled at most once and none of the waits of shellous
    ran out of time, no substituted command outlives the command. *)
Theorem c120_ended_partial : forall dec c a w subs, runs dec (RCmd c a w subs) ->
  (forall c' a' w' subs', within (RCmd c' a' w' subs') (RCmd c a w subs) -> (marks (events w') <= 1)%nat /\ ~ In HTimer (w_hist w')) ->
  forall v, ~ within (RGoing v) (RCmd c a w subs).
Proof.
  intros dec c a w subs H M v W. remember (RCmd c a w subs) as t eqn:E. remember (RGoing v) as g eqn:EG. revert c a w subs E M H.
  induction W as [t|t c' a' w' subs' s Hin W IH]; intros c a w subs E M H; subst; [discriminate|]. injection E as -> -> -> ->.
  destruct (node_task _ _ _ _ _ _ H Hin) as (HS & i & tk & N & KD & TO).
  destruct s as [c2 a2 w2 subs2|p2 a2|v2|v2].
  - eapply (IH eq_refl c2 a2 w2 subs2 eq_refl); [|exact HS]. intros c3 a3 w3 subs3 W3. eapply M. eapply wi_sub; eauto.
  - inversion W.
  - inversion W.
  - destruct (node_run _ _ _ _ _ H) as [(ps & up & ob & eb & enc & r & WR)|(-> & _)]; [|destruct Hin].
    destruct (M _ _ _ _ (wi_self _)) as [M1 M2].
    destruct (c117_ended_partial _ _ _ _ _ _ _ _ WR M1 M2 i) as (t' & oc & N' & O); [|congruence].
    unfold a_task. apply nth_error_Some. congruence.
Qed.
Print Assumptions c120_ended_partial.

(** ** Concrete runs: `sh("ls", sh("a"))`.  The process of "a" exits with code
    [z]; "ls" writes "hi". *)
Definition ex119_o : opts := RouteProps.ex_opts RouteProps.dflt RouteProps.dflt RouteProps.dflt PtyOff None.
Definition ex119_cmd : command := ([VStr [108; 115]; VCmd [VStr [97]] ex119_o], ex119_o).
Definition ex119_sub : command := Eval vm_compute in
  match RunOptionsModel.s_subcmds (fst (RunOptionsModel.start RouteProps.ex_world ex119_cmd 10)) with VCmd a o :: _ => (a, o) | _ => ([], ex119_o) end.
(** The launch with [n] copying (or substituted) tasks. *)
Definition launched_n (n : nat) : world rx rkind unit :=
  mk_world (mk_task KExec (Some (TValue tt)) 0 :: repeat (mk_task KIO None 0) n ++ [mk_task KWaiter None 0])
    (mk_rx [LSpawn] false false true true None false None None false false false None (seq 1 (S n)) true)
    [HDone 0 (TValue tt)].
Lemma ex_launched_n c n ob eb enc : (n = 2%nat /\ c = ex119_sub) \/ (n = 4%nat /\ c = ex119_cmd) -> aenter (c_opts c) false false ob eb enc fresh (Ok tt) (launched_n n).
Proof.
  intros [[-> ->]|[-> ->]].
  - all: go. 1: apply setup_ok. all: go. 1: wait_by (@nil (@wev unit rxe)). all: go. 1: wait_by [ev XSpawn; fin 0 (TValue tt); cb 0].
    all: go. 1: exists 2%nat. all: go. 1: apply setup_ok. all: go.
  - all: go. 1: apply setup_ok. all: go. 1: wait_by (@nil (@wev unit rxe)). all: go. 1: wait_by [ev XSpawn; fin 0 (TValue tt); cb 0].
    all: go. 1: exists 4%nat. all: go. 1: apply setup_ok. all: go.
Qed.
Definition ex119_res (z : Z) (out : bytes) : result := {| r_exit := z; r_output := out; r_error := []; r_cancelled := false; r_encoding := utf8_name |}.
Definition ex119_sinks (out : bytes) (s : RunOptionsModel.sink) : list Z := match s with ResultOut => out | _ => [] end.
Definition ex119_rd (out : list bytes) (s : RunOptionsModel.stream) : sreader :=
  {| sr_buf := []; sr_in := match s with RunOptionsModel.PStdout => out | _ => [] end; sr_end := EndEof |}.
Definition calm (w : world rx rkind unit) : Prop := only_shellous_cancels w /\ marks (events w) = 0%nat /\ ~ In HTimer (w_hist w) /\ In LSpawn (events w).
Ltac calm_os := intros i k H O; do 8 (destruct i as [|i]; [vm_compute in H; try discriminate H; injection H as <-; vm_compute in O; try discriminate O; discriminate|]); destruct i; discriminate.
Ltac calm_tac := split; [calm_os|vm_compute; intuition discriminate].

(** The substituted command. *)
Lemma ex119_sub_run z : z = 0 \/ z = 1 ->
  exists w', runs utf8 (RCmd ex119_sub (if z =? 0 then Ok (AText []) else Err (ResultError (ex119_res z []))) w' []) /\ calm w'.
Proof.
  intros CASES.
  assert (RUN : exists w', bindM (aexit (c_opts ex119_sub) false true None) (fun _ => run_result (c_opts ex119_sub) None (Some []) (o_encoding (c_opts ex119_sub)) true) (launched_n 2)
     (if z =? 0 then Ok (ex119_res 0 []) else Err (ResultError (ex119_res z []))) w'
     /\ task_out w' 1 = Some (TValue tt) /\ calm w').
  { destruct CASES as [-> | ->]; eexists; (split; [|]).
    - all: go. 1: wait_by [fin 2 (TValue tt); fin 1 (TValue tt); ev (XExit 0); ev XWatch; ev XCollect; fin 3 (TValue tt); cb 2; cb 1; cb 3]. all: go. 1: wait_by [fin 4 (TValue tt); cb 4]. all: go.
    - split; [reflexivity|]. calm_tac.
    - all: go. 1: wait_by [fin 2 (TValue tt); fin 1 (TValue tt); ev (XExit 1); ev XWatch; ev XCollect; fin 3 (TValue tt); cb 2; cb 1; cb 3]. all: go. 1: wait_by [fin 4 (TValue tt); cb 4]. all: go.
    - split; [reflexivity|]. calm_tac. }
  destruct RUN as (w' & H & T1 & CA). exists w'. split; [|exact CA].
  assert (ST : exists s hs wi, RunOptionsModel.start RouteProps.ex_world ex119_sub 20 = (s, Ok (hs, wi))
    /\ RunOptionsModel.s_output_bytes s = false /\ RunOptionsModel.s_error_bytes s = true /\ RunOptionsModel.s_pty s = None
    /\ RunOptionsModel.is_pipe (fst (fst hs)) = true /\ RunOptionsModel.s_subcmds s = []
    /\ RunOptionsModel.wi_tasks wi = [TCopy RunOptionsModel.PStderr ResultErr (Some 1024); RunOptionsModel.TWriteBytes [] RunOptionsModel.PStdin false]).
  { RouteProps.run_it (RunOptionsModel.start RouteProps.ex_world ex119_sub 20). vm_compute. repeat split. }
  destruct ST as (s & [[hin hout] herr] & wi & ST & OB & EB & PT & PI & SU & TK). cbn in PI.
  assert (V : (if z =? 0 then Ok (AText []) else Err (ResultError (ex119_res z []))) = await_value utf8 (c_opts ex119_sub) (if z =? 0 then Ok (ex119_res 0 []) else Err (ResultError (ex119_res z [])))).
  { destruct CASES as [-> | ->]; vm_compute; reflexivity. }
  rewrite V. eapply rn_ran with (sinks := ex119_sinks []) (rd := ex119_rd []) (hin := hin) (hout := hout) (herr := herr) (wi := wi) (w0 := launched_n 2); [reflexivity|exact ST| | | | | |].
  - rewrite OB, EB, PT. apply ex_launched_n. left; auto.
  - rewrite OB, EB, PI. exact H.
  - intros src dst lim Hin. rewrite TK in Hin. destruct Hin as [[= <- <- <-]|[[=]|[]]].
    exists 1%nat, [], None, None. split; [cbn; auto|]. split; [eapply ans_eof; reflexivity|]. split; [eapply cp_error_limit; vm_compute; reflexivity|rewrite T1; reflexivity].
  - intros t [].
  - rewrite SU. reflexivity.
  - intros [|k] t Hk; discriminate.
Qed.

(** The command, with its substituted command. *)
Lemma ex119_run z : z = 0 \/ z = 1 ->
  exists w ws, let sub := RCmd ex119_sub (if z =? 0 then Ok (AText []) else Err (ResultError (ex119_res z []))) ws [] in
  runs utf8 (RCmd ex119_cmd (if z =? 0 then Ok (AText [104; 105]) else Err (ResultError (ex119_res z []))) w [sub]) /\ calm w /\ calm ws.
Proof.
  intros CASES. destruct (ex119_sub_run z CASES) as (ws & HS & CS).
  set (out := if z =? 0 then [104; 105] else []).
  assert (RUN : exists w', bindM (aexit (c_opts ex119_cmd) false true None) (fun _ => run_result (c_opts ex119_cmd) (Some out) (Some []) (o_encoding (c_opts ex119_cmd)) true) (launched_n 4)
     (if z =? 0 then Ok (ex119_res 0 [104; 105]) else Err (ResultError (ex119_res z []))) w'
     /\ nth_error (w_tasks w') 1 = Some (mk_task KIO (Some (if z =? 0 then TValue tt else TFail (ResultError (ex119_res z [])))) 0)
     /\ ends_with (task_out w' 2) (if z =? 0 then None else Some CancelledError) /\ ends_with (task_out w' 3) (if z =? 0 then None else Some CancelledError) /\ calm w').
  { destruct CASES as [-> | ->]; eexists; (split; [|]).
    - all: go. 1: wait_by [fin 4 (TValue tt); fin 1 (TValue tt); fin 2 (TValue tt); fin 3 (TValue tt); ev (XExit 0); ev XWatch; ev XCollect; fin 5 (TValue tt); cb 4; cb 1; cb 2; cb 3; cb 5]. all: go. 1: wait_by [fin 6 (TValue tt); cb 6]. all: go.
    - split; [reflexivity|]. split; [reflexivity|]. split; [reflexivity|]. calm_tac.
    - all: go. 1: wait_by [fin 1 (TFail (ResultError (ex119_res 1 []))); cb 1]. all: go.
      1: wait_by [fin 2 TCancelled; fin 3 TCancelled; fin 4 TCancelled; fin 5 TCancelled; cb 2; cb 3; cb 4; cb 5]. all: go.
      1: wait_by [ev (XExit (-15)); ev XWatch; ev XCollect; fin 6 (TValue tt); cb 6]. all: go. 1: wait_by [fin 7 (TValue tt); cb 7]. all: go.
    - split; [reflexivity|]. split; [reflexivity|]. split; [reflexivity|]. calm_tac. }
  destruct RUN as (w' & H & T1 & T2 & T3 & CA). exists w', ws. cbv zeta. split; [|split; [exact CA|exact CS]].
  assert (ST : exists s hs wi, RunOptionsModel.start RouteProps.ex_world ex119_cmd 10 = (s, Ok (hs, wi))
    /\ RunOptionsModel.s_output_bytes s = true /\ RunOptionsModel.s_error_bytes s = true /\ RunOptionsModel.s_pty s = None
    /\ RunOptionsModel.is_pipe (fst (fst hs)) = true /\ RunOptionsModel.s_subcmds s = [VCmd (c_args ex119_sub) (c_opts ex119_sub)]
    /\ RunOptionsModel.wi_tasks wi = [TCopy RunOptionsModel.PStderr ResultErr (Some 1024); TCopy RunOptionsModel.PStdout ResultOut None; RunOptionsModel.TWriteBytes [] RunOptionsModel.PStdin false]).
  { RouteProps.run_it (RunOptionsModel.start RouteProps.ex_world ex119_cmd 10). vm_compute. repeat split. }
  destruct ST as (s & [[hin hout] herr] & wi & ST & OB & EB & PT & PI & SU & TK). cbn in PI.
  assert (V : (if z =? 0 then Ok (AText [104; 105]) else Err (ResultError (ex119_res z []))) = await_value utf8 (c_opts ex119_cmd) (if z =? 0 then Ok (ex119_res 0 [104; 105]) else Err (ResultError (ex119_res z [])))).
  { destruct CASES as [-> | ->]; vm_compute; reflexivity. }
  rewrite V.
  eapply rn_ran with (sinks := ex119_sinks out) (rd := fun s => if z =? 0 then ex119_rd [[104; 105]] s else {| sr_buf := []; sr_in := []; sr_end := EndCancel |})
    (hin := hin) (hout := hout) (herr := herr) (wi := wi) (w0 := launched_n 4); [reflexivity|exact ST| | | | | |].
  - rewrite OB, EB, PT. apply ex_launched_n. right; auto.
  - rewrite OB, EB, PI. exact H.
  - intros src dst lim Hin. rewrite TK in Hin. destruct Hin as [[= <- <- <-]|[[= <- <- <-]|[[=]|[]]]]; subst out; destruct CASES as [-> | ->]; cbn [Z.eqb Pos.eqb] in *.
    + exists 2%nat, [], None, None. split; [cbn; auto|]. split; [eapply ans_eof; reflexivity|]. split; [eapply cp_error_limit; vm_compute; reflexivity|exact T2].
    + exists 2%nat, [], (Some CancelledError), (Some CancelledError). split; [cbn; auto|]. split; [eapply ans_exc; reflexivity|]. split; [eapply cp_error_limit; vm_compute; reflexivity|exact T2].
    + exists 3%nat, [[104; 105]], None, None. split; [cbn; auto|]. split; [|split; [|exact T3]].
      * eapply ans_data; [reflexivity|discriminate|]. eapply ans_eof. reflexivity.
      * eapply cp_output. reflexivity.
    + exists 3%nat, [], (Some CancelledError), (Some CancelledError). split; [cbn; auto|]. split; [eapply ans_exc; reflexivity|]. split; [eapply cp_output; reflexivity|exact T3].
  - intros t [<-|[]]. exact HS.
  - rewrite SU. reflexivity.
  - intros [|k] t Hk; [injection Hk as <-|destruct k; discriminate]. split; [reflexivity|].
    eexists. split; [exact T1|]. split; [reflexivity|]. destruct CS as (_ & MK & _).
    assert (OU : outside (x_log (w_x ws)) = 0%nat).
    { clear -MK. unfold events in MK. induction (x_log (w_x ws)) as [|e l IH]; [reflexivity|]. destruct e; cbn in MK |- *; try discriminate; auto. }
    rewrite OU. destruct CASES as [-> | ->]; cbn; split; try lia; eauto. split; [reflexivity|discriminate].
Qed.
Lemma ex119_plain c a w c2 a2 w2 : calm w -> calm w2 -> o_catch_cancelled (c_opts c) = false -> o_catch_cancelled (c_opts c2) = false ->
  plain (RCmd c a w [RCmd c2 a2 w2 []]).
Proof.
  intros [A _] [B _] C D c' a' w' subs' W. inversion W as [|? ? ? ? ? s Hin W']; subst; [auto|]. destruct Hin as [<-|[]].
  inversion W' as [|? ? ? ? ? s Hin W'']; subst; [auto|destruct Hin].
Qed.
Example c119_example : exists w ws, let t := RCmd ex119_cmd (Ok (AText [104; 105])) w [RCmd ex119_sub (Ok (AText [])) ws []] in
  runs utf8 t /\ plain t
  /\ (forall c' a' w' subs', within (RCmd c' a' w' subs') t -> (marks (events w') <= 1)%nat /\ ~ In HTimer (w_hist w'))
  /\ In LSpawn (events ws).
Proof.
  destruct (ex119_run 0) as (w & ws & H & C & D); [now left|]. exists w, ws. cbv zeta. split; [exact H|]. split; [now apply ex119_plain|]. split; [|apply D].
  intros c' a' w' subs' W. destruct C as (_ & C1 & C2 & _). destruct D as (_ & D1 & D2 & _). inversion W as [|? ? ? ? ? s Hin W']; subst; [split; [lia|assumption]|].
  destruct Hin as [<-|[]]. inversion W' as [|? ? ? ? ? s Hin W'']; subst; [split; [lia|assumption]|destruct Hin].
Qed.
Example c119_failure_example : exists w ws e, let t := RCmd ex119_cmd (Err e) w [RCmd ex119_sub (Err e) ws []] in
  runs utf8 t /\ plain t /\ failed (RCmd ex119_sub (Err e) ws []) /\ e = ResultError (ex119_res 1 []).
Proof.
  destruct (ex119_run 1) as (w & ws & H & C & D); [now right|]. exists w, ws, (ResultError (ex119_res 1 [])). cbv zeta. split; [exact H|]. split; [now apply ex119_plain|].
  split; [eexists; reflexivity|reflexivity].
Qed.

(** C120 in full fails: the task awaiting the command is cancelled three times;
    the substituted command has not reacted yet to its own cancellation. *)
Lemma ex120_run : exists w e, runs utf8 (RCmd ex119_cmd (Err e) w [RGoing (VCmd (c_args ex119_sub) (c_opts ex119_sub))]) /\ only_shellous_cancels w.
Proof.
  assert (RUN : exists w' e, bindM (aexit (c_opts ex119_cmd) false true None) (fun _ => run_result (c_opts ex119_cmd) (Some []) (Some []) (o_encoding (c_opts ex119_cmd)) true) (launched_n 4)
     (Err e) w' /\ (exists n, nth_error (w_tasks w') 1 = Some (mk_task KIO None n))
     /\ ends_with (task_out w' 2) (Some CancelledError) /\ ends_with (task_out w' 3) (Some CancelledError) /\ only_shellous_cancels w').
  { eexists _, _. split.
    - all: go. 1: wait_by [ev XCancel]. all: go. 1: wait_by [ev XCancel]. all: go.  1: wait_by [ev XCancel]. all: go.
      1: wait_by [ev (XExit (-9)); ev XWatch; ev XCollect; fin 2 TCancelled; fin 3 TCancelled; fin 4 TCancelled; fin 5 TCancelled; fin 6 (TValue tt); cb 6]. all: go. 1: wait_by [fin 7 (TValue tt); cb 7]. all: go.

    - split; [eexists; reflexivity|]. split; [reflexivity|]. split; [reflexivity|]. calm_os. }
  destruct RUN as (w' & e & H & (n & T1) & T2 & T3 & OS). exists w', e. split; [|exact OS].
  assert (ST : exists s hs wi, RunOptionsModel.start RouteProps.ex_world ex119_cmd 10 = (s, Ok (hs, wi))
    /\ RunOptionsModel.s_output_bytes s = true /\ RunOptionsModel.s_error_bytes s = true /\ RunOptionsModel.s_pty s = None
    /\ RunOptionsModel.is_pipe (fst (fst hs)) = true /\ RunOptionsModel.s_subcmds s = [VCmd (c_args ex119_sub) (c_opts ex119_sub)]
    /\ RunOptionsModel.wi_tasks wi = [TCopy RunOptionsModel.PStderr ResultErr (Some 1024); TCopy RunOptionsModel.PStdout ResultOut None; RunOptionsModel.TWriteBytes [] RunOptionsModel.PStdin false]).
  { RouteProps.run_it (RunOptionsModel.start RouteProps.ex_world ex119_cmd 10). vm_compute. repeat split. }
  destruct ST as (s & [[hin hout] herr] & wi & ST & OB & EB & PT & PI & SU & TK). cbn in PI.
  change (@Err awaited e) with (await_value utf8 (c_opts ex119_cmd) (Err e)).
  eapply rn_ran with (sinks := ex119_sinks []) (rd := fun s => {| sr_buf := []; sr_in := []; sr_end := EndCancel |})
    (hin := hin) (hout := hout) (herr := herr) (wi := wi) (w0 := launched_n 4); [reflexivity|exact ST| | | | | |].
  - rewrite OB, EB, PT. apply ex_launched_n. right; auto.
  - rewrite OB, EB, PI. exact H.
  - intros src dst lim Hin. rewrite TK in Hin. destruct Hin as [[= <- <- <-]|[[= <- <- <-]|[[=]|[]]]].
    + exists 2%nat, [], (Some CancelledError), (Some CancelledError). split; [cbn; auto|]. split; [eapply ans_exc; reflexivity|]. split; [eapply cp_error_limit; vm_compute; reflexivity|exact T2].
    + exists 3%nat, [], (Some CancelledError), (Some CancelledError). split; [cbn; auto|]. split; [eapply ans_exc; reflexivity|]. split; [eapply cp_output; reflexivity|exact T3].
  - intros t [<-|[]]. constructor.
  - rewrite SU. reflexivity.
  - intros [|k] t Hk; [injection Hk as <-|destruct k; discriminate]. split; [reflexivity|].
    eexists. split; [exact T1|]. split; reflexivity.
Qed.
Definition c120_full_claim := forall dec c a w subs, runs dec (RCmd c a w subs) -> plain (RCmd c a w subs) -> forall v, ~ within (RGoing v) (RCmd c a w subs).
Theorem c120_refuted : ~ c120_full_claim.
Proof.
  intros C. destruct ex120_run as (w & e & H & OS). eapply C; [exact H| |eapply wi_sub; [now left|apply wi_self]].
  intros c' a' w' subs' W. inversion W as [|? ? ? ? ? s Hin W']; subst; [split; [reflexivity|exact OS]|]. destruct Hin as [<-|[]]. inversion W'.
Qed.
Print Assumptions c120_refuted.
