(** Theorems about `async for line in pipeline` from the commands to the lines
    (C134): they hold for every number of commands, every answer of the operating
    system, every arrival of the data, every consumer and every schedule. *)
From Verif Require Import CopySpec CopyProofs AwaitModel PipeIterCommandModel.
From Verif Require RunOptionsModel RouteSpec RouteProofs RouteProofs2 RouteProps CommandSpec PipelineSpec PipelineProps IterProps IterCommandProps
  AwaitProps PipeAwaitProps PipeRunnerModel PipeIterModel PipeIterProps.
Open Scope Z_scope.

(** ** Proofs *)
(** The stream of a command whose stdout is captured is its standard output. *)
Lemma captured_stream R c next s hin hout herr wi :
  RunOptionsModel.w_same_std R = false -> RouteSpec.api_options (c_opts c) -> RouteSpec.old_fds next (c_opts c) ->
  o_output (c_opts c) = VRedirect CAPTURE ->
  RunOptionsModel.start R c next = (s, Ok ((hin, hout, herr), wi)) ->
  exists out, AwaitProps.connected s RunOptionsModel.PStdout hout out /\ RunOptionsModel.iter_stream wi = Some out
    /\ RouteSpec.reader wi out = RouteSpec.ToCaller RunOptionsModel.SOut.
Proof.
  intros SS AO OF OUT ST.
  assert (NO : RouteSpec.observed_out s (hin, hout, herr) wi = RouteSpec.ToCaller RunOptionsModel.SOut).
  { rewrite (RouteProofs.observed_out_named _ _ _ _ _ _ SS AO OF ST). unfold RouteSpec.named_out. rewrite OUT. reflexivity. }
  destruct (AwaitProps.handle_reader _ _ _ _ _ _ NO) as (out & CO & RO); [reflexivity|discriminate|].
  exists out. split; [exact CO|]. split; [|exact RO]. unfold RunOptionsModel.iter_stream. now rewrite (IterCommandProps.caller_stream _ _ RO).
Qed.
(** The last command of a pipeline that is iterated over. *)
Lemma last_member pipe r w cmds cmds1 fds cmds' o last l next :
  PipeAwaitProps.startable pipe r w cmds -> nth_error cmds (List.length cmds - 1) = Some l ->
  RouteSpec.api_options (c_opts l) -> r (List.length cmds - 2)%nat < next -> RouteSpec.old_fd next (o_error (c_opts l)) ->
  o_output (c_opts l) = VRedirect DEFAULT ->
  RunOptionsModel.pipe_aiter_preflight cmds = Ok cmds1 -> pipe_options cmds1 = Ok o -> setup_pipeline pipe cmds1 = (fds, Ok cmds') ->
  nth_error cmds' (List.length cmds1 - 1) = Some last ->
  List.length cmds1 = List.length cmds /\ o_encoding o = o_encoding (c_opts l)
  /\ o_output (c_opts last) = VRedirect CAPTURE /\ RouteSpec.api_options (c_opts last) /\ RouteSpec.old_fds next (c_opts last).
Proof.
  intros [N2 NA PI] LAST (AI1 & AI2 & AI3 & AI4 & AI5) RN OE OUT PF PO SP LL.
  apply PipeAwaitProps.nth_last in LAST as (pre & ->). rewrite RouteProofs2.preflight_pipeline in PF.
  destruct (RunOptionsModel.cmd_aiter_preflight l) as [l1|] eqn:P1; [|discriminate]. cbn [bind] in PF. injection PF as <-.
  destruct (IterCommandProps.capture_opts _ _ P1 OUT) as (EN & _ & EE & EO & EI & _).
  assert (EA : c_args l1 = c_args l).
  { unfold RunOptionsModel.cmd_aiter_preflight in P1. rewrite OUT in P1. change (eq_redirect (VRedirect DEFAULT) DEFAULT) with true in P1. cbv iota in P1.
    destruct (cmd_stdout l (VRedirect CAPTURE) false false) as [x|] eqn:E1; [|discriminate P1]. cbn [bind] in P1.
    assert (x = l1) by (destruct (_ && _); congruence). subst x. now apply RouteProofs2.cmd_stdout_ok in E1. }
  rewrite !app_length in *. cbn [List.length] in *. split; [reflexivity|].
  assert (OO : o = c_opts l1). { unfold pipe_options in PO. unfold last_cmd in PO. rewrite rev_app_distr in PO. cbn in PO. congruence. }
  subst o. split; [exact EN|].
  assert (NA1 : Forall (fun c => c_args c <> []) (pre ++ [l1])).
  { apply Forall_app in NA as [A B]. apply Forall_app. split; [exact A|]. inversion B; subst. constructor; [congruence|constructor]. }
  destruct (PipelineProps.c12_pipes_connect_neighbours pipe r w (pre ++ [l1])) as (out & SP' & _ & CN).
  - destruct pre; discriminate.
  - exact NA1.
  - rewrite app_length. exact PI.
  - rewrite SP in SP'. injection SP' as _ <-.
    destruct (CN (List.length pre) l1) as (o' & LO & _ & OI & _ & OU & _ & OER & _); [rewrite nth_error_app2, Nat.sub_diag by lia; reflexivity|].
    replace (List.length pre + 1 - 1)%nat with (List.length pre) in LL by lia. rewrite LO in LL. injection LL as <-. cbn [c_opts snd].
    rewrite app_length in OU. cbn [List.length] in OU. replace (S (List.length pre) =? List.length pre + 1)%nat with true in OU by (symmetry; apply Nat.eqb_eq; lia).
    replace (List.length pre =? 0)%nat with false in OI by (symmetry; apply Nat.eqb_neq; lia).
    destruct (PI (List.length pre - 1)%nat) as (_ & R0 & _); [lia|].
    replace (List.length pre + 1 - 2)%nat with (List.length pre - 1)%nat in RN by lia.
    split; [congruence|]. unfold RouteSpec.api_options, RouteSpec.old_fds. rewrite OI, OU, OER, EO, EE. cbn. split.
    + repeat split; auto. destruct (Z.eqb_spec (r (List.length pre - 1)%nat) (-2)); [lia|reflexivity].
    + repeat split; auto. lia.
Qed.

(** ** C134 *)
(** The consumer gets the first lines of what the last command writes to its
    standard output (redirected by default), decoded with its encoding, in order
    and none twice, however the iteration ends; nobody else reads this stream. *)
Theorem c134_lines : forall dec R pipe r w cmds next rd ls res wp l, PipeAwaitProps.startable pipe r w cmds ->
  nth_error cmds (List.length cmds - 1) = Some l ->
  RunOptionsModel.w_same_std R = false -> RouteSpec.api_options (c_opts l) ->
  r (List.length cmds - 2)%nat < next -> RouteSpec.old_fd next (o_error (c_opts l)) ->
  o_output (c_opts l) = VRedirect DEFAULT ->
  iterate_pipeline dec R pipe cmds next rd ls res wp ->
  ls = [] \/
  exists cmds1 fds cmds' last s hin hout herr wi out ds,
  RunOptionsModel.pipe_aiter_preflight cmds = Ok cmds1 /\ setup_pipeline pipe cmds1 = (fds, Ok cmds')
  /\ nth_error cmds' (List.length cmds - 1) = Some last
  /\ RunOptionsModel.start R last next = (s, Ok ((hin, hout, herr), wi))
  /\ AwaitProps.connected s RunOptionsModel.PStdout hout out /\ RouteSpec.reader wi out = RouteSpec.ToCaller RunOptionsModel.SOut
  /\ CopySpec.prefix ds (split_lines (sr_data (rd out))) /\ IterCommandProps.decoded_lines dec (o_encoding (c_opts l)) ds ls.
Proof.
  intros dec R pipe r w cmds next rd ls res wp l ST LAST SS AO RN OE OUT H.
  destruct H as [e P|cmds1 e wp P H|cmds1 fds cmds' o last s [[hin hout] herr] wi ls rb res wp P PO SP LL RS IT]; [now left|now left|right].
  destruct (last_member _ _ _ _ _ _ _ _ _ _ _ ST LAST AO RN OE OUT P PO SP LL) as (LE & EN & LO & LA & LF).
  destruct (captured_stream _ _ _ _ _ _ _ _ SS LA LF LO RS) as (out & CO & IS & RO). rewrite IS in IT.
  destruct (PipeIterProps.c84_lines_in_order _ _ _ _ _ _ _ _ _ IT) as (ds & PX & F).
  exists cmds1, fds, cmds', last, s, hin, hout, herr, wi, out, ds. rewrite LE in LL. unfold IterCommandProps.decoded_lines. rewrite <- EN. auto 10.
Qed.
Print Assumptions c134_lines.

(** If the `async for` ends normally and the task was not cancelled, the consumer
    got every line. *)
Theorem c134_complete : forall dec R pipe r w cmds next rd ls wp l, PipeAwaitProps.startable pipe r w cmds ->
  nth_error cmds (List.length cmds - 1) = Some l ->
  RunOptionsModel.w_same_std R = false -> RouteSpec.api_options (c_opts l) ->
  r (List.length cmds - 2)%nat < next -> RouteSpec.old_fd next (o_error (c_opts l)) ->
  o_output (c_opts l) = VRedirect DEFAULT -> (forall src, IterProps.plain_end (rd src)) ->
  iterate_pipeline dec R pipe cmds next rd ls (Ok tt) wp -> ~ PipeIterProps.cancelled_in wp ->
  exists cmds1 fds cmds' last s hin hout herr wi out,
  RunOptionsModel.pipe_aiter_preflight cmds = Ok cmds1 /\ setup_pipeline pipe cmds1 = (fds, Ok cmds')
  /\ nth_error cmds' (List.length cmds - 1) = Some last
  /\ RunOptionsModel.start R last next = (s, Ok ((hin, hout, herr), wi))
  /\ AwaitProps.connected s RunOptionsModel.PStdout hout out
  /\ sr_end (rd out) = EndEof
  /\ IterCommandProps.decoded_lines dec (o_encoding (c_opts l)) (split_lines (sr_data (rd out))) ls.
Proof.
  intros dec R pipe r w cmds next rd ls wp l ST LAST SS AO RN OE OUT PE H NC. remember (Ok tt) as res eqn:ER. revert ER.
  destruct H as [e P|cmds1 e wp P H|cmds1 fds cmds' o last s [[hin hout] herr] wi ls rb res wp P PO SP LL RS IT]; intros ER; [discriminate|discriminate|subst res].
  destruct (last_member _ _ _ _ _ _ _ _ _ _ _ ST LAST AO RN OE OUT P PO SP LL) as (LE & EN & LO & LA & LF).
  destruct (captured_stream _ _ _ _ _ _ _ _ SS LA LF LO RS) as (out & CO & IS & RO). rewrite IS in IT.
  destruct (PipeIterProps.c98_complete_partial _ _ _ _ _ _ _ (eq_ind_r (fun n => (n >= 2)%nat) (PipeAwaitProps.st_two _ _ _ _ ST) LE) (PE out) IT NC) as (EE & F & _).
  exists cmds1, fds, cmds', last, s, hin, hout, herr, wi, out. rewrite LE in LL. unfold IterCommandProps.decoded_lines. rewrite <- EN. auto 10.
Qed.
Print Assumptions c134_complete.

(** ** A concrete run: three commands, redirected by default. *)
Definition ex134_cmds : pipeline := [RouteProps.ex_cmd RouteProps.dflt RouteProps.dflt RouteProps.dflt PtyOff; RouteProps.ex_cmd RouteProps.dflt RouteProps.dflt RouteProps.dflt PtyOff; RouteProps.ex_cmd RouteProps.dflt RouteProps.dflt RouteProps.dflt PtyOff].
Definition ex134_pipe (j : nat) : option (Z * Z) := Some (10 + 2 * Z.of_nat j, 11 + 2 * Z.of_nat j).
Definition ex134_rd (s : RunOptionsModel.stream) : sreader := match s with RunOptionsModel.PStdout => PipeIterProps.ex_reader | _ => {| sr_buf := []; sr_in := []; sr_end := EndEof |} end.
Example c134_example : exists wp l, PipeAwaitProps.startable ex134_pipe (fun j => 10 + 2 * Z.of_nat j) (fun j => 11 + 2 * Z.of_nat j) ex134_cmds
  /\ nth_error ex134_cmds 2 = Some l /\ RunOptionsModel.w_same_std RouteProps.ex_world = false /\ RouteSpec.api_options (c_opts l)
  /\ RouteSpec.old_fd 20 (o_error (c_opts l)) /\ o_output (c_opts l) = VRedirect DEFAULT /\ (forall src, IterProps.plain_end (ex134_rd src))
  /\ iterate_pipeline AwaitProps.utf8 RouteProps.ex_world ex134_pipe ex134_cmds 20 ex134_rd [[104; 233; 10]; [98]] (Ok tt) wp
  /\ ~ PipeIterProps.cancelled_in wp.
Proof.
  assert (PF : exists c1 o f c2 la s hs wi, RunOptionsModel.pipe_aiter_preflight ex134_cmds = Ok c1 /\ pipe_options c1 = Ok o /\ o_encoding o = utf8_name /\ List.length c1 = 3%nat
     /\ setup_pipeline ex134_pipe c1 = (f, Ok c2) /\ nth_error c2 2 = Some la
     /\ RunOptionsModel.start RouteProps.ex_world la 20 = (s, Ok (hs, wi)) /\ RunOptionsModel.iter_stream wi = Some RunOptionsModel.PStdout).
  { do 8 eexists. split; [vm_compute; reflexivity|]. split; [vm_compute; reflexivity|]. split; [vm_compute; reflexivity|]. split; [reflexivity|].
    split; [vm_compute; reflexivity|]. split; [cbn; reflexivity|]. split; vm_compute; reflexivity. }
  destruct PF as (c1 & o & f & c2 & la & s & hs & wi & P & PO & EN & LE & SP & LL & RS & IS).
  destruct (PipeIterProps.ex_normal3_in AwaitProps.utf8 o) as (wp & H & NC & _); [rewrite EN; reflexivity|rewrite EN; reflexivity|].
  exists wp. eexists. split; [|split; [reflexivity|]].
  - constructor; [cbn; lia|repeat constructor; discriminate|]. intros j Lj. split; [reflexivity|lia].
  - split; [reflexivity|]. split; [repeat split; reflexivity|]. split; [exact Logic.I|]. split; [reflexivity|].
    split; [intros [| | | |]; now left|]. split; [|exact NC].
    eapply ip_ran with (last := la); [exact P|exact PO|exact SP|rewrite LE; exact LL|exact RS|]. rewrite IS, LE. exact H.
Qed.
