(** Theorems about `async for line in cmd` from the options to the lines (C133):
    they hold for every command, every answer of the operating system, every
    arrival of the data, every consumer and every schedule of exits, timeouts,
    signals and cancellations. *)
From Verif Require Import AsyncModel AsyncSpec AsyncProofs HarvestModel HarvestSpec HarvestProofs HarvestProofs2 AsyncInv
  RunnerModel RunnerSpec RunnerProofs RunnerProofs2 RunnerProofs3 RunnerProofs4 RunnerProofs5 RunnerProofs6 RunnerProofs7
  RunnerProofs8 RunnerProofs9 RunnerProofs10 RunnerProofs11 CopySpec CopyProofs CopyProofs2 Utf8Model IterModel IterProofs IterProofs2
  AwaitModel AwaitProofs IterCommandModel IterCommandProofs.
From Verif Require RunOptionsModel RouteSpec RouteProofs RouteProofs2 RouteProps IterProps AwaitProps.
From Verif Require Import RunTac RunnerProps.
Open Scope Z_scope.

(** ** Specification *)
(** The lines of [data], decoded. *)
Definition decoded_lines (dec : text -> bytes -> option text) (encoding : text) (lines : list bytes) (ls : list text) : Prop :=
  Forall2 (fun d t => dec encoding d = Some t) lines ls.

(** ** Proofs *)
Lemma capture_opts c c' : RunOptionsModel.cmd_aiter_preflight c = Ok c' -> o_output (c_opts c) = VRedirect DEFAULT ->
  o_encoding (c_opts c') = o_encoding (c_opts c) /\ o_error_append (c_opts c') = o_error_append (c_opts c)
  /\ o_error (c_opts c') = o_error (c_opts c) /\ o_output (c_opts c') = VRedirect CAPTURE /\ o_input (c_opts c') = o_input (c_opts c) /\ o_pty (c_opts c') = o_pty (c_opts c).
Proof.
  intros P E. unfold RunOptionsModel.cmd_aiter_preflight in P. rewrite E in P. change (eq_redirect (VRedirect DEFAULT) DEFAULT) with true in P. cbv iota in P.
  destruct (cmd_stdout c (VRedirect CAPTURE) false false) as [r|] eqn:E1; [|discriminate P]. cbn [bind] in P.
  assert (r = c') by (destruct (_ && _); congruence). subst r.
  unfold cmd_stdout, set_stdout, mk_command in E1. cbn [bind] in E1.
  repeat match type of E1 with context[if ?b then _ else _] => destruct b end; cbn [bind] in E1; try discriminate E1;
  destruct (c_args c) eqn:EA; inversion E1; subst; cbn; repeat split; reflexivity.
Qed.
Lemma capture_side c c' next : RunOptionsModel.cmd_aiter_preflight c = Ok c' -> o_output (c_opts c) = VRedirect DEFAULT ->
  RouteSpec.api_options (c_opts c) -> RouteSpec.old_fds next (c_opts c) -> RouteSpec.api_options (c_opts c') /\ RouteSpec.old_fds next (c_opts c').
Proof.
  intros P E A F. destruct (capture_opts _ _ P E) as (_ & _ & E1 & E2 & E3 & _). unfold RouteSpec.api_options, RouteSpec.old_fds in *.
  rewrite E1, E2, E3. destruct A as (A1 & A2 & _ & _ & A3), F as (F0 & F1 & _ & F2). repeat split; auto.
Qed.
Lemma caller_stream wi src : RouteSpec.reader wi src = RouteSpec.ToCaller RunOptionsModel.SOut -> RunOptionsModel.wi_stdout wi = Some src.
Proof.
  unfold RouteSpec.reader. destruct (RouteSpec.readers wi src) as [|d [|d2 l]] eqn:E; [discriminate| |discriminate]. intros ->.
  assert (I1 : In (RouteSpec.ToCaller RunOptionsModel.SOut) (RouteSpec.readers wi src)) by (rewrite E; now left). unfold RouteSpec.readers in I1.
  apply in_app_iff in I1 as [I1|I1].
  - apply in_flat_map in I1 as (t & It & I1). destruct t as [s' dst lim| |]; try destruct I1. destruct (RouteSpec.stream_eqb s' src); [|destruct I1].
    destruct I1 as [Q|[]]. destruct dst; discriminate.
  - apply in_app_iff in I1 as [I1|I1].
    + unfold RouteSpec.is_stream in I1. destruct (RunOptionsModel.wi_stdout wi) as [s'|]; [|destruct I1].
      destruct (RouteSpec.stream_eqb s' src) eqn:Q; [|destruct I1]. f_equal. destruct s', src; discriminate || reflexivity.
    + destruct (RouteSpec.is_stream _ _); [destruct I1 as [Q|[]]; discriminate|destruct I1].
Qed.
(** The stream that is iterated over is the child's standard output. *)
Lemma iterated_stream R c c' next s hin hout herr wi :
  RunOptionsModel.w_same_std R = false -> RouteSpec.api_options (c_opts c) -> RouteSpec.old_fds next (c_opts c) ->
  o_output (c_opts c) = VRedirect DEFAULT -> RunOptionsModel.cmd_aiter_preflight c = Ok c' ->
  RunOptionsModel.start R c' next = (s, Ok ((hin, hout, herr), wi)) ->
  exists out, AwaitProps.connected s RunOptionsModel.PStdout hout out /\ RunOptionsModel.iter_stream wi = Some out
    /\ RouteSpec.reader wi out = RouteSpec.ToCaller RunOptionsModel.SOut.
Proof.
  intros SS AO OF OUT P ST. destruct (RouteProofs2.iterate_default _ _ _ _ _ _ _ SS AO OF OUT P ST) as (I1 & _ & NO).
  destruct (AwaitProps.handle_reader _ _ _ _ _ _ NO) as (out & CO & RO); [reflexivity|discriminate|].
  exists out. split; [exact CO|]. split; [|exact RO]. rewrite I1. now apply caller_stream.
Qed.

Lemma pty_stdout R c s hs wi src pp : RunOptionsModel.wire R c s hs = Ok wi -> RunOptionsModel.wi_stdout wi = Some src ->
  RunOptionsModel.s_pty s = Some pp -> src = RunOptionsModel.PtyReader.
Proof.
  destruct hs as [[hin hout] herr]. unfold RunOptionsModel.wire. intros W WS SP. rewrite SP in W.
  destruct (_ || _); [discriminate|]. cbn [bind] in W.
  match type of W with bind ?e _ = _ => destruct e as [er|]; [|discriminate] end. cbn [bind] in W.
  match type of W with bind ?e _ = _ => destruct e as [inp|]; [|discriminate] end. cbn [bind] in W.
  injection W as <-. cbn in WS. destruct (RunOptionsModel.s_output_bytes s); [discriminate|].
  rewrite RouteProofs.output_sink_eq in WS. destruct (RouteProofs.is_object _); [discriminate|]. now injection WS as <-.
Qed.

(** ** C133 *)
(** With the default redirection of stdout the consumer gets the first lines of
    what the child writes to its standard output, decoded with the encoding of
    the command, in order and none twice, however the iteration ends; nobody
    else reads this stream. *)
Theorem c133_lines : forall dec R c next rd sinks ls r w',
  RunOptionsModel.w_same_std R = false -> RouteSpec.api_options (c_opts c) -> RouteSpec.old_fds next (c_opts c) ->
  o_output (c_opts c) = VRedirect DEFAULT ->
  iterate_command dec R c next rd sinks ls r w' ->
  ls = [] \/
  exists c' s hin hout herr wi out ds, RunOptionsModel.cmd_aiter_preflight c = Ok c'
  /\ RunOptionsModel.start R c' next = (s, Ok ((hin, hout, herr), wi))
  /\ AwaitProps.connected s RunOptionsModel.PStdout hout out /\ RouteSpec.reader wi out = RouteSpec.ToCaller RunOptionsModel.SOut
  /\ CopySpec.prefix ds (split_lines (sr_data (rd out))) /\ decoded_lines dec (o_encoding (c_opts c)) ds ls.
Proof.
  intros dec R c next rd sinks ls r w' SS AO OF OUT H.
  destruct H as [sinks e P|sinks c' pty e w' P H|sinks c' s hin hout herr wi w0 w1 ls rb r w' o ob eb P ST HE HB HL CP]; [now left|now left|right].
  destruct (iterated_stream _ _ _ _ _ _ _ _ _ SS AO OF OUT P ST) as (out & CO & IS & RO). rewrite IS in HB.
  destruct (IterProps.c77_lines_in_order dec o false (RunOptionsModel.is_pipe hin) (match RunOptionsModel.s_pty s with Some _ => true | None => false end) ob eb (o_encoding o) (rd out) ls (Some rb) r w') as (ds & PX & F).
  { eapply ite_entered; eauto. }
  exists c', s, hin, hout, herr, wi, out, ds. split; [exact P|]. split; [exact ST|]. split; [exact CO|]. split; [exact RO|]. split; [exact PX|].
  unfold decoded_lines. destruct (capture_opts _ _ P OUT) as (EN & _). rewrite <- EN. exact F.
Qed.
Print Assumptions c133_lines.

(** If the `async for` ends normally and the task was not cancelled and there
    was no timeout, the consumer got every line, and a sink for standard error
    holds all that the child wrote to it. *)
Theorem c133_complete : forall dec R c next rd sinks ls w',
  RunOptionsModel.w_same_std R = false -> RouteSpec.api_options (c_opts c) -> RouteSpec.old_fds next (c_opts c) ->
  o_output (c_opts c) = VRedirect DEFAULT -> (forall src, IterProps.plain_end (rd src)) ->
  iterate_command dec R c next rd sinks ls (Ok tt) w' ->
  marks (events w') = 0%nat -> only_shellous_cancels w' ->
  exists c' s hin hout herr wi out, RunOptionsModel.cmd_aiter_preflight c = Ok c'
  /\ RunOptionsModel.start R c' next = (s, Ok ((hin, hout, herr), wi))
  /\ AwaitProps.connected s RunOptionsModel.PStdout hout out
  /\ sr_end (rd out) = EndEof /\ decoded_lines dec (o_encoding (c_opts c)) (split_lines (sr_data (rd out))) ls
  /\ (forall v, o_error (c_opts c) = v -> RouteProofs.is_object v = true ->
      exists err, AwaitProps.connected s RunOptionsModel.PStderr herr err /\ sr_end (rd err) = EndEof
      /\ AwaitProps.holds dec (c_opts c) (o_error_append (c_opts c)) (Sink v) None (sr_data (rd err)) (sinks (Sink v))).
Proof.
  intros dec R c next rd sinks ls w' SS AO OF OUT PE H MK OS. remember (Ok tt) as ro eqn:ER. revert ER.
  destruct H as [sinks e P|sinks c' pty e w' P H|sinks c' s hin hout herr wi w0 w1 ls rb r w' o ob eb P ST HE HB HL CP]; intros ER; [discriminate|discriminate|subst r].
  destruct (iterated_stream _ _ _ _ _ _ _ _ _ SS AO OF OUT P ST) as (out & CO & IS & RO). rewrite IS in HB.
  destruct (capture_opts _ _ P OUT) as (EN & EA & EE & EO & EI & EP).
  exists c', s, hin, hout, herr, wi, out. split; [exact P|]. split; [exact ST|]. split; [exact CO|].
  destruct (IterProps.c97_complete_partial dec o (RunOptionsModel.is_pipe hin) (match RunOptionsModel.s_pty s with Some _ => true | None => false end)
     ob eb (o_encoding o) (rd out) ls (Some rb) w') as (E1 & F & _ & EB); [apply PE|eapply ite_entered; eauto|exact MK|].
  split; [exact E1|]. split; [unfold decoded_lines; rewrite <- EN; exact F|].
  intros v EV OBJ.
  destruct (capture_side _ _ next P OUT AO OF) as [AO' OF'].
  assert (NV : RouteSpec.observed_err s (hin, hout, herr) wi = RouteSpec.ToObject v).
  { rewrite (RouteProofs.observed_err_named R c' next s _ wi SS AO' OF'); [| |exact ST].
    - unfold RouteSpec.named_err, RouteSpec.follows_stdout. rewrite EE, EV. destruct v; try discriminate OBJ; reflexivity.
    - right; left. unfold RouteSpec.follows_stdout. rewrite EE, EV. destruct v; try discriminate OBJ; reflexivity. }
  assert (NO : RouteSpec.observed_out s (hin, hout, herr) wi = RouteSpec.ToCaller RunOptionsModel.SOut).
  { rewrite (RouteProofs.observed_out_named _ _ _ _ _ _ SS AO' OF' ST). unfold RouteSpec.named_out. rewrite EO. reflexivity. }
  destruct (AwaitProps.handle_reader _ _ _ _ _ _ NV) as (err & CE & RE); [reflexivity|rewrite NO; discriminate|].
  destruct (AwaitProps.reader_task _ _ _ RE) as (dst & lim & TE & DE); try discriminate. destruct dst as [| |v']; try discriminate. injection DE as <-.
  assert (ERR : err = RunOptionsModel.PStderr).
  { destruct CE as [[_ E]|(p & ch & SP & _ & E)]; [exact E|exfalso].
    pose proof (pty_stdout _ _ _ _ _ _ _ (AwaitProps.start_wire _ _ _ _ _ _ ST) (caller_stream _ _ RO) SP) as Q. subst out err. rewrite RE in RO. discriminate. }
  subst err. destruct (CP _ _ _ TE) as (i & ds & e & x & Hi & A & C & X).
  assert (RB : rb = Ok tt) by congruence. subst rb.
  destruct (leave_completes o (RunOptionsModel.is_pipe hin) _ ob eb (o_encoding o) w0 w1 w' HE) with (i := i) as (u & U); auto.
  { eapply iter_block_steps; exact HB. }
  rewrite U in X. cbn in X. subst x.
  destruct (AwaitProps.copies_complete _ _ _ _ _ _ _ _ _ A C) as [E2 HO].
  exists RunOptionsModel.PStderr. split; [exact CE|]. split; [exact E2|].
  cbn [append_of] in HO. replace (o_error_append o) with (o_error_append (c_opts c)) in HO by (symmetry; exact EA).
  unfold AwaitProps.holds in HO |- *. unfold o in HO. rewrite EN in HO. destruct v; exact HO.
Qed.
Print Assumptions c133_complete.

(** ** A concrete run *)
(** `async for line in cmd.stderr(buffer)`, the buffer holds "!"; the child
    writes "h", e-acute, newline, "b" in two pieces to its standard output and "x"
    to standard error.  Task 1 copies standard error, task 2 closes standard
    input. *)
Definition ex133_cmd : command := RouteProps.ex_cmd RouteProps.dflt RouteProps.dflt (VByteArray 7 [33]) PtyOff.
Definition ex133_rd (s : RunOptionsModel.stream) : sreader :=
  {| sr_buf := []; sr_in := match s with RunOptionsModel.PStdout => [[104; 195]; [169; 10; 98]] | RunOptionsModel.PStderr => [[120]] | _ => [] end; sr_end := EndEof |}.
Definition ex133_sinks (s : RunOptionsModel.sink) : list Z := match s with Sink (VByteArray _ _) => [120] | _ => [] end.
Definition ex133_c' : command := Eval vm_compute in match RunOptionsModel.cmd_aiter_preflight ex133_cmd with Ok c => c | Err _ => ex133_cmd end.
Definition launched2 : world rx rkind unit :=
  mk_world [mk_task KExec (Some (TValue tt)) 0; mk_task KIO None 0; mk_task KIO None 0; mk_task KWaiter None 0]
    (mk_rx [LSpawn] false false true true None false None None false false false None [1%nat; 2%nat; 3%nat] true)
    [HDone 0 (TValue tt)].
Lemma ex_launched2 ob eb enc : aenter (c_opts ex133_c') false false ob eb enc fresh (Ok tt) launched2.
Proof.
  all: go. 1: apply setup_ok. all: go.  1: wait_by (@nil (@wev unit rxe)). all: go. 1: wait_by [ev XSpawn; fin 0 (TValue tt); cb 0].
  all: go. 1: exists 2%nat. all: go. 1: apply setup_ok. all: go.
Qed.
Definition end2 : list (@wev unit rxe) :=
  [fin 2 (TValue tt); fin 1 (TValue tt); ev (XExit 0); ev XWatch; ev XCollect; fin 3 (TValue tt); cb 2; cb 1; cb 3].
Example c133_example : exists w',
  RunOptionsModel.w_same_std RouteProps.ex_world = false /\ RouteSpec.api_options (c_opts ex133_cmd) /\ RouteSpec.old_fds 10 (c_opts ex133_cmd)
  /\ o_output (c_opts ex133_cmd) = VRedirect DEFAULT /\ (forall src, IterProps.plain_end (ex133_rd src))
  /\ iterate_command AwaitProps.utf8 RouteProps.ex_world ex133_cmd 10 ex133_rd ex133_sinks [[104; 233; 10]; [98]] (Ok tt) w'
  /\ marks (events w') = 0%nat /\ only_shellous_cancels w'.
Proof.
  assert (RUN : exists w', leave_with (c_opts ex133_c') false true (Ok tt) launched2 (Ok tt) w'
     /\ task_out w' 1 = Some (TValue tt) /\ marks (events w') = 0%nat /\ only_shellous_cancels w').
  { eexists; split.
    - unfold leave_with. all: go. 1: wait_by end2. all: go. 1: wait_by [fin 4 (TValue tt); cb 4]. all: go.
    - split; [reflexivity|]. split; [reflexivity|]. intros i k H O. do 5 (destruct i as [|i]; [cbn in H; injection H as <-; cbn in O; discriminate|]). destruct i; discriminate. }
  destruct RUN as (w' & H & T1 & M & OS). exists w'.
  assert (ST : exists s hs wi, RunOptionsModel.start RouteProps.ex_world ex133_c' 10 = (s, Ok (hs, wi))
    /\ RunOptionsModel.s_output_bytes s = false /\ RunOptionsModel.s_error_bytes s = false /\ RunOptionsModel.s_pty s = None
    /\ RunOptionsModel.is_pipe (fst (fst hs)) = true /\ RunOptionsModel.iter_stream wi = Some RunOptionsModel.PStdout
    /\ RunOptionsModel.wi_tasks wi = [TCopy RunOptionsModel.PStderr (Sink (VByteArray 7 [33])) None; RunOptionsModel.TWriteBytes [] RunOptionsModel.PStdin false]).
  { RouteProps.run_it (RunOptionsModel.start RouteProps.ex_world ex133_c' 10). vm_compute. repeat split. }
  destruct ST as (s & [[hin hout] herr] & wi & ST & OB & EB & PT & PI & IS & TK). cbn in PI.
  split; [reflexivity|]. split; [repeat split; reflexivity|]. split; [repeat split; try lia; exact Logic.I|]. split; [reflexivity|].
  split; [intros src; now left|]. split; [|now split].
  eapply ic_ran with (c' := ex133_c') (hin := hin) (hout := hout) (herr := herr) (wi := wi) (w0 := launched2) (w1 := launched2) (rb := Ok tt); [reflexivity|exact ST| | | |].
  - rewrite OB, EB, PT. apply ex_launched2.
  - rewrite IS. cbn -[ex133_c' AwaitProps.utf8]. eapply it_line; [apply IterProps.suspended_none|reflexivity|discriminate|reflexivity|apply bs_refl|].
    eapply it_line; [apply IterProps.suspended_none|reflexivity|discriminate|reflexivity|apply bs_refl|].
    eapply it_eof; [apply IterProps.suspended_none|reflexivity].
  - rewrite PI. exact H.
  - intros src dst lim Hin. rewrite TK in Hin. destruct Hin as [[= <- <- <-]|[[=]|[]]].
    exists 1%nat, [[120]], None, None. split; [cbn; auto|]. split; [|split; [|rewrite T1; reflexivity]].
    + eapply ans_data; [reflexivity|discriminate|]. eapply ans_eof. reflexivity.
    + apply cp_bytearray. vm_compute. reflexivity.
Qed.
