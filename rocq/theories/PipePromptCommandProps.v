(** Theorems about `pipeline.prompt()` from the commands to the operations (C136). *)
From Verif Require Import Base CommandModel PipelineModel PromptSpec PromptProofs PipePromptCommandModel EncodingSpec.
From Verif Require RunOptionsModel RouteSpec RouteProofs RouteProofs2 RouteProps CommandSpec PipelineProofs PipelineProps AwaitProps PipeAwaitProps PromptProps PromptProps3 PromptWriteProps
  PromptCommandProps.
Open Scope Z_scope.

(** ** Proofs *)
Lemma stdin_captured c c' : cmd_stdin c (VRedirect CAPTURE) false = Ok c' ->
  o_input (c_opts c') = VRedirect CAPTURE /\ o_error (c_opts c') = o_error (c_opts c) /\ c_args c' = c_args c /\ c_args c <> [].
Proof.
  unfold cmd_stdin, set_stdin, mk_command. destruct (c_args c) as [|x l] eqn:EA; cbn; intros H; [discriminate H|]. injection H as <-. repeat split; cbn; auto; discriminate.
Qed.
Lemma stdout_captured c c' : cmd_stdout c (VRedirect CAPTURE) false false = Ok c' ->
  o_output (c_opts c') = VRedirect CAPTURE /\ o_error (c_opts c') = o_error (c_opts c) /\ o_encoding (c_opts c') = o_encoding (c_opts c)
  /\ c_args c' = c_args c /\ c_args c <> [].
Proof.
  unfold cmd_stdout, set_stdout, mk_command. destruct (c_args c) as [|x l] eqn:EA; cbn; intros H; [discriminate H|]. injection H as <-. repeat split; cbn; auto; discriminate.
Qed.
Lemma prompt_shape f mid l : c_args f <> [] -> c_args l <> [] -> exists f' l',
  pipe_prompt_options (f :: mid ++ [l]) = Ok (f' :: mid ++ [l'])
  /\ cmd_stdin f (VRedirect CAPTURE) false = Ok f' /\ cmd_stdout l (VRedirect CAPTURE) false false = Ok l'.
Proof.
  intros AF AL.
  assert (F : exists f', cmd_stdin f (VRedirect CAPTURE) false = Ok f') by (unfold cmd_stdin, set_stdin, mk_command; destruct (c_args f); [congruence|cbn; eauto]).
  assert (L : exists l', cmd_stdout l (VRedirect CAPTURE) false false = Ok l') by (unfold cmd_stdout, set_stdout, mk_command; destruct (c_args l); [congruence|cbn; eauto]).
  destruct F as (f' & F), L as (l' & L). exists f', l'. split; [|auto]. unfold pipe_prompt_options, pipe_stdin. cbn [first_cmd bind tl]. rewrite F. cbn [bind mk_pipeline].
  change (f' :: mid ++ [l]) with ((f' :: mid) ++ [l]). rewrite PipelineProofs.pipe_stdout_snoc, L. reflexivity.
Qed.
Lemma two_ends (cmds : pipeline) f l : (2 <= List.length cmds)%nat -> nth_error cmds 0 = Some f -> nth_error cmds (List.length cmds - 1) = Some l ->
  exists mid, cmds = f :: mid ++ [l].
Proof.
  intros N F L. apply PipeAwaitProps.nth_last in L as ([|f0 mid] & ->); [cbn in N; lia|]. cbn in F. injection F as ->. exists mid. reflexivity.
Qed.
Lemma last_options (pre : list CommandModel.command) l : pipe_options (pre ++ [l]) = Ok (c_opts l).
Proof. unfold pipe_options, last_cmd. rewrite rev_app_distr. reflexivity. Qed.

Definition pipe_ends_ok (Rf Rl : RunOptionsModel.world) (r w : nat -> Z) (n : nat) (f l : CommandModel.command) (nf nl : Z) : Prop :=
  RunOptionsModel.w_same_std Rf = false /\ RunOptionsModel.w_same_std Rl = false
  /\ CommandSpec.is_none (o_error (c_opts f)) = false /\ CommandSpec.is_none (o_error (c_opts l)) = false
  /\ w 0%nat < nf /\ r (n - 2)%nat < nl
  /\ RouteSpec.old_fd nf (o_error (c_opts f)) /\ RouteSpec.old_fd nl (o_error (c_opts l)).

Lemma pipe_streams_spec Rf Rl pipe r w cmds f0 l0 nf nl p fds cmds' f l sf sl hin hx hy ix hout hz wf wl :
  PipeAwaitProps.startable pipe r w cmds -> nth_error cmds 0 = Some f0 -> nth_error cmds (List.length cmds - 1) = Some l0 ->
  pipe_ends_ok Rf Rl r w (List.length cmds) f0 l0 nf nl ->
  pipe_prompt_options cmds = Ok p -> setup_pipeline pipe p = (fds, Ok cmds') ->
  nth_error cmds' 0 = Some f -> nth_error cmds' (List.length cmds' - 1) = Some l ->
  RunOptionsModel.start Rf f nf = (sf, Ok ((hin, hx, hy), wf)) -> RunOptionsModel.start Rl l nl = (sl, Ok ((ix, hout, hz), wl)) ->
  pipe_options p = Ok (c_opts (last p f)) /\ o_encoding (c_opts (last p f)) = o_encoding (c_opts l0)
  /\ exists win wout, pipe_prompt_streams wf wl = Ok (win, wout)
    /\ PromptCommandProps.feeds sf hin win /\ RouteSpec.writer wf win = RouteSpec.FromCaller
    /\ AwaitProps.connected sl RunOptionsModel.PStdout hout wout /\ RouteSpec.reader wl wout = RouteSpec.ToCaller RunOptionsModel.SOut.
Proof.
  intros [N2 NA PI] F0 L0 (SF & SL & NF & NL & WN & RN & OF & OL) PO SP F L STF STL.
  destruct (two_ends _ _ _ N2 F0 L0) as (mid & ->).
  assert (AF : c_args f0 <> []) by (inversion NA; auto).
  assert (AL : c_args l0 <> []). { inversion NA as [|? ? _ NA1]; subst. apply Forall_app in NA1 as [_ NA1]. inversion NA1; auto. }
  destruct (prompt_shape f0 mid l0 AF AL) as (f1 & l1 & PO' & EF & EL). rewrite PO in PO'. injection PO' as ->.
  destruct (stdin_captured _ _ EF) as (FI & FE & FA & _), (stdout_captured _ _ EL) as (LO & LE & LN & LA & _).
  change (f1 :: mid ++ [l1]) with ((f1 :: mid) ++ [l1]). rewrite last_options, last_last. split; [reflexivity|]. split; [exact LN|].
  assert (NA1 : Forall (fun c => c_args c <> []) (f1 :: mid ++ [l1])).
  { inversion NA as [|? ? A NA1]; subst. apply Forall_app in NA1 as [B C]. constructor; [congruence|]. apply Forall_app. split; [exact B|]. constructor; [congruence|constructor]. }
  cbn [List.length] in *. rewrite app_length in *. cbn [List.length] in *.
  destruct (PipelineProps.c12_pipes_connect_neighbours pipe r w (f1 :: mid ++ [l1])) as (out & SP' & LEN & CN).
  { discriminate. } { exact NA1. } { cbn [List.length]. rewrite app_length. exact PI. }
  rewrite SP in SP'. injection SP' as _ <-. cbn [List.length] in LEN. rewrite app_length in LEN. cbn [List.length] in LEN. rewrite LEN in L.
  destruct (CN 0%nat f1 eq_refl) as (of & FO & _ & OI & _ & OU & _ & OER & _). rewrite F in FO. injection FO as ->. cbn [Nat.eqb] in OI.
  cbn [List.length] in OU. rewrite app_length in OU. cbn [List.length] in OU.
  replace (1 =? S (List.length mid + 1))%nat with false in OU by (symmetry; apply Nat.eqb_neq; lia).
  replace (S (List.length mid + 1) - 1)%nat with (S (List.length mid)) in * by lia.
  destruct (CN (S (List.length mid)) l1) as (ol & FO & _ & OI2 & _ & OU2 & _ & OER2 & _).
  { cbn [nth_error]. rewrite nth_error_app2, Nat.sub_diag by lia. reflexivity. }
  rewrite L in FO. injection FO as ->. cbn [List.length] in OU2. rewrite app_length in OU2. cbn [List.length] in OU2.
  replace (S (S (List.length mid)) =? S (List.length mid + 1))%nat with true in OU2 by (symmetry; apply Nat.eqb_eq; lia).
  replace (S (List.length mid) =? 0)%nat with false in OI2 by (symmetry; apply Nat.eqb_neq; lia).
  replace (S (List.length mid + 1) - 2)%nat with (S (List.length mid) - 1)%nat in RN by lia.
  destruct (PI 0%nat) as (_ & _ & W0); [lia|]. destruct (PI (S (List.length mid) - 1)%nat) as (_ & R0 & _); [lia|].
  assert (A1 : RouteSpec.api_options of /\ RouteSpec.old_fds nf of).
  { unfold RouteSpec.api_options, RouteSpec.old_fds. rewrite OI, OU, OER, FI, FE. cbn. repeat split; auto; try lia.
    all: destruct (Z.eqb_spec (w 0%nat) (-2)); [lia|reflexivity]. }
  assert (A2 : RouteSpec.api_options ol /\ RouteSpec.old_fds nl ol).
  { unfold RouteSpec.api_options, RouteSpec.old_fds. rewrite OI2, OU2, OER2, LO, LE. cbn. repeat split; auto; try lia.
    all: destruct (Z.eqb_spec (r (List.length mid - 0)%nat) (-2)) as [Q|Q]; [cbn in R0; lia|reflexivity]. }
  assert (ON := RouteProofs.observed_in_named _ (c_args f1, of) _ _ _ _ SF (proj1 A1) (proj2 A1) STF). cbn [c_opts snd] in ON. unfold RouteSpec.named_in in ON. rewrite OI, FI in ON.
  assert (OO := RouteProofs.observed_out_named _ (c_args l1, ol) _ _ _ _ SL (proj1 A2) (proj2 A2) STL). cbn [c_opts snd] in OO. unfold RouteSpec.named_out in OO. rewrite OU2, LO in OO. cbn [RouteSpec.named] in OO.
  destruct (PromptCommandProps.handle_writer _ _ _ _ _ ON) as (win & W1 & W2). unfold RouteSpec.observed_out in OO.
  destruct (AwaitProps.handle_reader _ _ _ _ _ _ OO) as (wout & R1 & R2); [reflexivity|discriminate|].
  exists win, wout. unfold pipe_prompt_streams. rewrite (PromptCommandProps.caller_stdin _ _ W2), (PromptCommandProps.caller_stdout _ _ R2). auto 10.
Qed.

(** ** C136 *)
(** What a prompt session of a pipeline writes goes to the standard input of the
    first command, to which nobody else writes; what it reads comes from the
    standard output of the last command, which nobody else reads. *)
Definition talks_to_ends (Rf Rl : RunOptionsModel.world) (pipe : nat -> option (Z * Z)) (cmds : pipeline) (nf nl : Z) (wout : RunOptionsModel.stream) : Prop :=
  exists p fds cmds' f l sf sl hin hx hy ix hout hz wf wl win,
  pipe_prompt_options cmds = Ok p /\ setup_pipeline pipe p = (fds, Ok cmds') /\ List.length cmds' = List.length cmds
  /\ nth_error cmds' 0 = Some f /\ nth_error cmds' (List.length cmds - 1) = Some l
  /\ RunOptionsModel.start Rf f nf = (sf, Ok ((hin, hx, hy), wf)) /\ RunOptionsModel.start Rl l nl = (sl, Ok ((ix, hout, hz), wl))
  /\ RunOptionsModel.wi_stdin wf = Some win /\ PromptCommandProps.feeds sf hin win /\ RouteSpec.writer wf win = RouteSpec.FromCaller
  /\ RunOptionsModel.wi_stdout wl = Some wout /\ AwaitProps.connected sl RunOptionsModel.PStdout hout wout
  /\ RouteSpec.reader wl wout = RouteSpec.ToCaller RunOptionsModel.SOut.

Lemma same_length pipe r w cmds p fds cmds' : PipeAwaitProps.startable pipe r w cmds -> pipe_prompt_options cmds = Ok p ->
  setup_pipeline pipe p = (fds, Ok cmds') -> List.length cmds' = List.length cmds.
Proof.
  intros [N2 NA PI] PO SP. destruct cmds as [|f0 cmds]; [cbn in N2; lia|].
  destruct (exists_last (l := cmds)) as (mid & l0 & ->); [intros ->; cbn in N2; lia|].
  assert (AF : c_args f0 <> []) by (inversion NA; auto).
  assert (AL : c_args l0 <> []). { inversion NA as [|? ? _ NA1]; subst. apply Forall_app in NA1 as [_ NA1]. inversion NA1; auto. }
  destruct (prompt_shape f0 mid l0 AF AL) as (f1 & l1 & PO' & EF & EL). rewrite PO in PO'. injection PO' as ->.
  destruct (stdin_captured _ _ EF) as (_ & _ & FA & _), (stdout_captured _ _ EL) as (_ & _ & _ & LA & _).
  assert (NA1 : Forall (fun c => c_args c <> []) (f1 :: mid ++ [l1])).
  { inversion NA as [|? ? A NA1]; subst. apply Forall_app in NA1 as [B C]. constructor; [congruence|]. apply Forall_app. split; [exact B|]. constructor; [congruence|constructor]. }
  destruct (PipelineProps.c12_pipes_connect_neighbours pipe r w (f1 :: mid ++ [l1])) as (out & SP' & LEN & _).
  { discriminate. } { exact NA1. } { cbn [List.length] in *. rewrite app_length in *. exact PI. }
  rewrite SP in SP'. injection SP' as _ <-. rewrite LEN. cbn [List.length]. rewrite !app_length. reflexivity.
Qed.

Theorem c136_streams : forall Rf Rl pipe r w cmds nf nl rd a res f l,
  PipeAwaitProps.startable pipe r w cmds -> nth_error cmds 0 = Some f -> nth_error cmds (List.length cmds - 1) = Some l ->
  pipe_ends_ok Rf Rl r w (List.length cmds) f l nf nl ->
  pipe_prompt_start Rf Rl pipe cmds nf nl rd a res ->
  match res with
  | Ok (cfg, w0) => exists wout k e, talks_to_ends Rf Rl pipe cmds nf nl wout
      /\ parse_encoding (o_encoding (c_opts l)) = Some (k, e)
      /\ cfg = {| c_default := a_default a; c_timeout := a_timeout a; c_chunk := a_chunk a; c_log := a_log a;
                  c_pty_eof := None; c_codec := k; c_errors := e |}
      /\ w0 = prompt_world (a_normalize a) (rd wout) None
  | Err e => parse_encoding (o_encoding (c_opts l)) = None
  end.
Proof.
  intros Rf Rl pipe r w cmds nf nl rd a res f0 l0 ST F0 L0 OKS H.
  destruct H as [e PO|p fds e PO SP|p fds cmds' f l sf sl [[h1 h2] h3] [[h4 h5] h6] wf wl e PO SP F L STF STL PS
    |p fds cmds' f l sf sl [[h1 h2] h3] [[h4 h5] h6] wf wl st o PO SP F L STF STL PS OO PE
    |p fds cmds' f l sf sl [[h1 h2] h3] [[h4 h5] h6] wf wl win wout o k e PO SP F L STF STL PS OO PE].
  - exfalso. destruct ST as [N2 NA PI]. destruct (two_ends _ _ _ N2 F0 L0) as (mid & ->).
    assert (AF : c_args f0 <> []) by (inversion NA; auto).
    assert (AL : c_args l0 <> []). { inversion NA as [|? ? _ NA1]; subst. apply Forall_app in NA1 as [_ NA1]. inversion NA1; auto. }
    destruct (prompt_shape f0 mid l0 AF AL) as (f1 & l1 & PO' & _). congruence.
  - exfalso. destruct ST as [N2 NA PI]. destruct (two_ends _ _ _ N2 F0 L0) as (mid & ->).
    assert (AF : c_args f0 <> []) by (inversion NA; auto).
    assert (AL : c_args l0 <> []). { inversion NA as [|? ? _ NA1]; subst. apply Forall_app in NA1 as [_ NA1]. inversion NA1; auto. }
    destruct (prompt_shape f0 mid l0 AF AL) as (f1 & l1 & PO' & EF & EL). rewrite PO in PO'. injection PO' as ->.
    destruct (stdin_captured _ _ EF) as (_ & _ & FA & _), (stdout_captured _ _ EL) as (_ & _ & _ & LA & _).
    assert (NA1 : Forall (fun c => c_args c <> []) (f1 :: mid ++ [l1])).
    { inversion NA as [|? ? A NA1]; subst. apply Forall_app in NA1 as [B C]. constructor; [congruence|]. apply Forall_app. split; [exact B|]. constructor; [congruence|constructor]. }
    destruct (PipelineProps.c12_pipes_connect_neighbours pipe r w (f1 :: mid ++ [l1])) as (out & SP' & _ & _).
    { discriminate. } { exact NA1. } { cbn [List.length] in *. rewrite app_length in *. exact PI. }
    congruence.
  - destruct (pipe_streams_spec _ _ _ _ _ _ _ _ _ _ _ _ _ _ _ _ _ _ _ _ _ _ _ _ _ ST F0 L0 OKS PO SP F L STF STL) as (_ & _ & win & wout & Q & _). congruence.
  - destruct (pipe_streams_spec _ _ _ _ _ _ _ _ _ _ _ _ _ _ _ _ _ _ _ _ _ _ _ _ _ ST F0 L0 OKS PO SP F L STF STL) as (A & B & _). congruence.
  - destruct (pipe_streams_spec _ _ _ _ _ _ _ _ _ _ _ _ _ _ _ _ _ _ _ _ _ _ _ _ _ ST F0 L0 OKS PO SP F L STF STL) as (A & B & win' & wout' & Q & W1 & W2 & R1 & R2).
    rewrite PS in Q. injection Q as <- <-. exists wout, k, e. split; [|split; [congruence|split; reflexivity]].
    pose proof (same_length _ _ _ _ _ _ _ ST PO SP) as LEN. rewrite LEN in L.
    exists p, fds, cmds', f, l, sf, sl, h1, h2, h3, h4, h5, h6, wf, wl, win.
    rewrite (PromptCommandProps.caller_stdin _ _ W2), (PromptCommandProps.caller_stdout _ _ R2). auto 20.
Qed.
Print Assumptions c136_streams.

(** What the operations hand out is, in order, none twice and none left out, what
    the last command writes to its standard output, decoded with its encoding (with
    the exception of C46). *)
Theorem c136_reads : forall Rf Rl pipe r w cmds nf nl rd a cfg w0 tr w' f l,
  PipeAwaitProps.startable pipe r w cmds -> nth_error cmds 0 = Some f -> nth_error cmds (List.length cmds - 1) = Some l ->
  pipe_ends_ok Rf Rl r w (List.length cmds) f l nf nl ->
  (0 < a_chunk a)%nat -> (forall p, a_default a = Some p -> sane p) ->
  pipe_prompt_start Rf Rl pipe cmds nf nl rd a (Ok (cfg, w0)) -> clean_session cfg w0 tr w' -> (forall x, In x tr -> sane_op (fst x)) ->
  exists wout, talks_to_ends Rf Rl pipe cmds nf nl wout
  /\ forall t F, decode_bytes (rd wout) (o_encoding (c_opts l)) = Some t -> (if a_normalize a then normalized t F else F = t) ->
     exists ts F', Forall2 (fun x t => handed_out cfg (fst x) (snd x) t) tr ts /\ F = List.concat ts ++ F' /\ remaining cfg w' F'.
Proof.
  intros Rf Rl pipe r w cmds nf nl rd a cfg w0 tr w' f l ST F0 L0 OKS CH DF H CS SO.
  apply (c136_streams _ _ _ _ _ _ _ _ _ _ _ _ _ ST F0 L0 OKS) in H as (wout & k & e & T & PE & EC & EW).
  exists wout. split; [exact T|]. intros t F D N. rewrite EW in CS.
  assert (G : good_settings cfg) by (rewrite EC; split; [exact CH|exact DF]).
  apply (PromptProps.c46_nothing_lost_partial cfg _ _ _ _ _ F G CS SO). apply PromptProps3.c50_text_of_the_output.
  exists t. split; [|exact N]. unfold decode_bytes in D. rewrite PE in D. rewrite EC. exact D.
Qed.
Print Assumptions c136_reads.

(** What the first command gets on its standard input is what the operations say,
    in their order, encoded with the encoding of the last command; close() closes
    it, also if the first command has a terminal. *)
Theorem c136_writes : forall Rf Rl pipe r w cmds nf nl rd a cfg w0 tr w' f l,
  PipeAwaitProps.startable pipe r w cmds -> nth_error cmds 0 = Some f -> nth_error cmds (List.length cmds - 1) = Some l ->
  pipe_ends_ok Rf Rl r w (List.length cmds) f l nf nl ->
  pipe_prompt_start Rf Rl pipe cmds nf nl rd a (Ok (cfg, w0)) -> session cfg w0 tr w' ->
  (exists wout, talks_to_ends Rf Rl pipe cmds nf nl wout) /\ c_pty_eof cfg = None
  /\ (forall t, encode (c_codec cfg) (c_errors cfg) t = encode_bytes t (o_encoding (c_opts l)))
  /\ exists ls, PromptWriteProps.inputs (p_sent (w_x w')) = List.concat ls
     /\ Forall2 (fun x i => PromptWriteProps.input_of cfg (fst x) (snd x) i) tr ls.
Proof.
  intros Rf Rl pipe r w cmds nf nl rd a cfg w0 tr w' f l ST F0 L0 OKS H CS.
  apply (c136_streams _ _ _ _ _ _ _ _ _ _ _ _ _ ST F0 L0 OKS) in H as (wout & k & e & T & PE & EC & EW).
  split; [exists wout; exact T|]. split; [rewrite EC; reflexivity|]. split; [intros t; unfold encode_bytes; rewrite PE, EC; reflexivity|].
  destruct (PromptWriteProps.c90_writes _ _ _ _ CS) as (x & ls & E & I1 & F). rewrite EW in E. cbn [prompt_world w_x p_sent app] in E.
  exists ls. rewrite E. auto.
Qed.
Print Assumptions c136_writes.

(** ** A concrete session: three commands; the last one writes "a$b". *)
Definition ex136_cmds : pipeline := [RouteProps.ex_cmd (VBytes [1]) RouteProps.dflt RouteProps.dflt PtyOff;
  RouteProps.ex_cmd RouteProps.dflt RouteProps.dflt RouteProps.dflt PtyOff; RouteProps.ex_cmd RouteProps.dflt (VRedirect DEVNULL) RouteProps.dflt PtyOff].
Definition ex136_pipe (j : nat) : option (Z * Z) := Some (10 + 2 * Z.of_nat j, 11 + 2 * Z.of_nat j).
Example c136_example : exists f l cfg w0 tr w',
  PipeAwaitProps.startable ex136_pipe (fun j => 10 + 2 * Z.of_nat j) (fun j => 11 + 2 * Z.of_nat j) ex136_cmds
  /\ nth_error ex136_cmds 0 = Some f /\ nth_error ex136_cmds 2 = Some l
  /\ pipe_ends_ok RouteProps.ex_world RouteProps.ex_world (fun j => 10 + 2 * Z.of_nat j) (fun j => 11 + 2 * Z.of_nat j) 3 f l 20 20
  /\ pipe_prompt_start RouteProps.ex_world RouteProps.ex_world ex136_pipe ex136_cmds 20 20 PromptCommandProps.ex135_rd PromptCommandProps.ex135_args (Ok (cfg, w0))
  /\ clean_session cfg w0 tr w' /\ List.length tr = 2%nat
  /\ decode_bytes (PromptCommandProps.ex135_rd RunOptionsModel.PStdout) (o_encoding (c_opts l)) = Some [97; 36; 98].
Proof.
  destruct PromptProps.c46_applies as (tr & w' & CS & L).
  assert (PF : exists p fds c2 f l sf sl hf hl wf wl win o k e, pipe_prompt_options ex136_cmds = Ok p /\ setup_pipeline ex136_pipe p = (fds, Ok c2)
     /\ nth_error c2 0 = Some f /\ nth_error c2 (List.length c2 - 1) = Some l
     /\ RunOptionsModel.start RouteProps.ex_world f 20 = (sf, Ok (hf, wf)) /\ RunOptionsModel.start RouteProps.ex_world l 20 = (sl, Ok (hl, wl))
     /\ pipe_prompt_streams wf wl = Ok (win, RunOptionsModel.PStdout) /\ pipe_options p = Ok o /\ parse_encoding (o_encoding o) = Some (k, e)
     /\ pipe_prompt_settings PromptCommandProps.ex135_args k e = PromptProps.conf).
  { do 15 eexists. split; [vm_compute; reflexivity|]. split; [vm_compute; reflexivity|]. split; [cbn; reflexivity|]. split; [cbn; reflexivity|].
    split; [vm_compute; reflexivity|]. split; [vm_compute; reflexivity|]. split; [vm_compute; reflexivity|]. split; [vm_compute; reflexivity|].
    split; [vm_compute; reflexivity|]. reflexivity. }
  destruct PF as (p & fds & c2 & f & l & sf & sl & hf & hl & wf & wl & win & o & k & e & PO & SP & F & LL & STF & STL & PS & OO & PE & EC).
  eexists _, _, PromptProps.conf, PromptProps.start, tr, w'. split; [|split; [reflexivity|split; [reflexivity|split; [|split; [|split; [exact CS|split; [exact L|vm_compute; reflexivity]]]]]]].
  - constructor; [cbn; lia|repeat constructor; discriminate|]. intros j Lj. split; [reflexivity|lia].
  - repeat split; cbn; lia || exact Logic.I.
  - pose proof (pps_started RouteProps.ex_world RouteProps.ex_world ex136_pipe ex136_cmds 20 20 PromptCommandProps.ex135_rd PromptCommandProps.ex135_args
      p fds c2 f l sf sl hf hl wf wl win RunOptionsModel.PStdout o k e PO SP F LL STF STL PS OO PE) as H.
    rewrite EC in H. exact H.
Qed.
