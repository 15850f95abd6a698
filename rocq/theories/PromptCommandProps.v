(** Theorems about `cmd.prompt()` from the options to the operations (C135). *)
From Verif Require Import Base CommandModel PromptSpec PromptProofs PromptCommandModel EncodingSpec.
From Verif Require RunOptionsModel RouteSpec RouteProofs RouteProps AwaitProps PromptProps PromptProps3 PromptWriteProps.
Open Scope Z_scope.

(** The stream with which shellous feeds the handle that the child got as its
    standard input: the pipe, or the terminal. *)
Definition feeds (s : RunOptionsModel.rst) (h : RunOptionsModel.handle) (dst : RunOptionsModel.stream) : Prop :=
  (h = RunOptionsModel.HInt (-1) /\ dst = RunOptionsModel.PStdin)
  \/ (exists p child, RunOptionsModel.s_pty s = Some (p, child) /\ h = RunOptionsModel.HInt child /\ dst = RunOptionsModel.PtyWriter).

(** ** Proofs *)
Lemma options_captured c c' : prompt_options c = Ok c' ->
  o_input (c_opts c') = VRedirect CAPTURE /\ o_output (c_opts c') = VRedirect CAPTURE /\ o_error (c_opts c') = o_error (c_opts c)
  /\ o_encoding (c_opts c') = o_encoding (c_opts c) /\ o_pty (c_opts c') = o_pty (c_opts c) /\ c_args c' = c_args c.
Proof.
  unfold prompt_options, cmd_stdin, cmd_stdout, set_stdin, set_stdout, mk_command. intros H. destruct (c_args c) as [|x l] eqn:EA; [cbn in H; discriminate H|].
  cbn in H. injection H as <-. repeat split; cbn; auto.
Qed.
Lemma options_accepted c : c_args c <> [] -> exists c', prompt_options c = Ok c'.
Proof.
  unfold prompt_options, cmd_stdin, cmd_stdout, set_stdin, set_stdout, mk_command. intros H. destruct (c_args c) as [|x l] eqn:EA; [congruence|].
  cbn. eauto.
Qed.
Lemma caller_stdin wi dst : RouteSpec.writer wi dst = RouteSpec.FromCaller -> RunOptionsModel.wi_stdin wi = Some dst.
Proof.
  unfold RouteSpec.writer. destruct (RouteSpec.writers wi dst) as [|d [|d2 l]] eqn:E; [discriminate| |discriminate]. intros ->.
  assert (I1 : In RouteSpec.FromCaller (RouteSpec.writers wi dst)) by (rewrite E; now left). unfold RouteSpec.writers in I1.
  apply in_app_iff in I1 as [I1|I1].
  - apply in_flat_map in I1 as (t & It & I1). destruct t as [s' d lim|b s' x|v s' x]; try destruct I1; destruct (RouteSpec.stream_eqb s' dst); try destruct I1; try discriminate; try contradiction.
  - unfold RouteSpec.is_stream in I1. destruct (RunOptionsModel.wi_stdin wi) as [s'|]; [|destruct I1].
    destruct (RouteSpec.stream_eqb s' dst) eqn:Q; [|destruct I1]. f_equal. destruct s', dst; discriminate || reflexivity.
Qed.
Lemma caller_stdout wi src : RouteSpec.reader wi src = RouteSpec.ToCaller RunOptionsModel.SOut -> RunOptionsModel.wi_stdout wi = Some src.
Proof.
  unfold RouteSpec.reader. destruct (RouteSpec.readers wi src) as [|d [|d2 l]] eqn:E; [discriminate| |discriminate]. intros ->.
  assert (I1 : In (RouteSpec.ToCaller RunOptionsModel.SOut) (RouteSpec.readers wi src)) by (rewrite E; now left). unfold RouteSpec.readers in I1.
  apply in_app_iff in I1 as [I1|I1].
  - apply in_flat_map in I1 as (t & It & I1). destruct t as [s' dst lim| |]; try destruct I1. destruct (RouteSpec.stream_eqb s' src); [|destruct I1].
    destruct I1 as [Q|[]]. destruct dst; discriminate.
  - apply in_app_iff in I1 as [I1|I1].
    + unfold RouteSpec.is_stream in I1. destruct (RunOptionsModel.wi_stdout wi) as [s'|]; [|destruct I1].
      destruct (RouteSpec.stream_eqb s' src) eqn:Q; [|destruct I1]. f_equal. destruct s', src; discriminate || reflexivity.
    + destruct (RouteSpec.is_stream _ _); [destruct I1 as [Q|[]]; discriminate|destruct I1].
Qed.
Lemma handle_writer s hin hout herr wi : RouteSpec.observed_in s (hin, hout, herr) wi = RouteSpec.FromCaller ->
  exists dst, feeds s hin dst /\ RouteSpec.writer wi dst = RouteSpec.FromCaller.
Proof.
  unfold RouteSpec.observed_in. intros H. destruct hin as [z|[]|p [app|] q|f]; try discriminate.
  destruct (Z.eqb_spec z (-1)) as [->|N1]; [exists RunOptionsModel.PStdin; split; [left; auto|exact H]|].
  destruct (z =? -3); [discriminate|].
  destruct (RunOptionsModel.s_pty s) as [[p ch]|] eqn:P; [|discriminate].
  destruct (Z.eqb_spec z ch) as [->|N2]; [|discriminate]. exists RunOptionsModel.PtyWriter. split; [right; eauto|exact H].
Qed.
Lemma streams_spec R c c' next s hin hout herr wi :
  RunOptionsModel.w_same_std R = false -> CommandSpec.is_none (o_error (c_opts c)) = false -> 0 <= next -> RouteSpec.old_fd next (o_error (c_opts c)) ->
  prompt_options c = Ok c' -> RunOptionsModel.start R c' next = (s, Ok ((hin, hout, herr), wi)) ->
  exists win wout, prompt_streams wi = Ok (win, wout)
    /\ feeds s hin win /\ RouteSpec.writer wi win = RouteSpec.FromCaller
    /\ AwaitProps.connected s RunOptionsModel.PStdout hout wout /\ RouteSpec.reader wi wout = RouteSpec.ToCaller RunOptionsModel.SOut.
Proof.
  intros SS AE NN OE P ST. destruct (options_captured _ _ P) as (EI & EO & EE & _).
  assert (A : RouteSpec.api_options (c_opts c')) by (unfold RouteSpec.api_options; rewrite EI, EO, EE; repeat split; auto).
  assert (F : RouteSpec.old_fds next (c_opts c')) by (unfold RouteSpec.old_fds; rewrite EI, EO, EE; repeat split; auto).
  assert (OI := RouteProofs.observed_in_named _ _ _ _ _ _ SS A F ST). assert (OO := RouteProofs.observed_out_named _ _ _ _ _ _ SS A F ST).
  unfold RouteSpec.named_in in OI. rewrite EI in OI. unfold RouteSpec.named_out in OO. rewrite EO in OO. cbn [RouteSpec.named] in OO.
  destruct (handle_writer _ _ _ _ _ OI) as (win & W1 & W2). unfold RouteSpec.observed_out in OO.
  destruct (AwaitProps.handle_reader _ _ _ _ _ _ OO) as (wout & R1 & R2); [reflexivity|discriminate|].
  exists win, wout. unfold prompt_streams. rewrite (caller_stdin _ _ W2), (caller_stdout _ _ R2). auto 10.
Qed.

(** ** C135 *)
(** Whatever redirections the command has, prompt() is not refused ... *)
Theorem c135_accepted : forall c, c_args c <> [] -> exists c', prompt_options c = Ok c' /\ c_args c' = c_args c.
Proof. intros c N. destruct (options_accepted c N) as (c' & P). exists c'. split; [exact P|]. now destruct (options_captured _ _ P) as (_ & _ & _ & _ & _ & E). Qed.
Print Assumptions c135_accepted.

(** ... and if the process is started, and its encoding is known, there is a
    Prompt (no assertion fails): what it reads comes from the child's standard
    output, which nobody else reads; what it writes goes to the child's standard
    input, to which nobody else writes. *)
Definition talks_to_child (R : RunOptionsModel.world) (c : CommandModel.command) (next : Z) (pty : bool) (wout : RunOptionsModel.stream) : Prop :=
  exists c' s hin hout herr wi win,
  prompt_options c = Ok c' /\ RunOptionsModel.start R c' next = (s, Ok ((hin, hout, herr), wi))
  /\ RunOptionsModel.wi_stdin wi = Some win /\ feeds s hin win /\ RouteSpec.writer wi win = RouteSpec.FromCaller
  /\ RunOptionsModel.wi_stdout wi = Some wout /\ AwaitProps.connected s RunOptionsModel.PStdout hout wout
  /\ RouteSpec.reader wi wout = RouteSpec.ToCaller RunOptionsModel.SOut
  /\ (RunOptionsModel.s_pty s <> None <-> pty = true).
Theorem c135_streams : forall R c next rd a r,
  RunOptionsModel.w_same_std R = false -> CommandSpec.is_none (o_error (c_opts c)) = false -> 0 <= next -> RouteSpec.old_fd next (o_error (c_opts c)) ->
  prompt_start R c next rd a r ->
  match r with
  | Ok (cfg, w0) => exists pty wout k e, talks_to_child R c next pty wout
      /\ parse_encoding (o_encoding (c_opts c)) = Some (k, e)
      /\ cfg = {| c_default := a_default a; c_timeout := a_timeout a; c_chunk := a_chunk a; c_log := a_log a;
                  c_pty_eof := if pty then Some (a_eof a) else None; c_codec := k; c_errors := e |}
      /\ w0 = prompt_world (a_normalize a) (rd wout) (if pty then Some (a_echo a) else None)
  | Err e =>
      prompt_options c = Err e
      \/ (exists c' s, prompt_options c = Ok c' /\ RunOptionsModel.start R c' next = (s, Err e))
      \/ parse_encoding (o_encoding (c_opts c)) = None
  end.
Proof.
  intros R c next rd a r SS AE NN OE H.
  destruct H as [e P|c' s e P ST|c' s [[hin hout] herr] wi e P ST PS|c' s [[hin hout] herr] wi st P ST PS PE|c' s [[hin hout] herr] wi win wout k e P ST PS PE].
  - left. exact P.
  - right; left. eauto.
  - destruct (streams_spec _ _ _ _ _ _ _ _ _ SS AE NN OE P ST) as (win & wout & Q & _). congruence.
  - right; right. destruct (options_captured _ _ P) as (_ & _ & _ & E & _). congruence.
  - destruct (streams_spec _ _ _ _ _ _ _ _ _ SS AE NN OE P ST) as (win' & wout' & Q & W1 & W2 & R1 & R2). rewrite PS in Q. injection Q as <- <-.
    destruct (options_captured _ _ P) as (_ & _ & _ & E & _).
    exists (match RunOptionsModel.s_pty s with Some _ => true | None => false end), wout, k, e. split; [|split; [congruence|]].
    + exists c', s, hin, hout, herr, wi, win. rewrite (caller_stdin _ _ W2), (caller_stdout _ _ R2). repeat split; auto.
      * destruct (RunOptionsModel.s_pty s); congruence.
      * destruct (RunOptionsModel.s_pty s); congruence.
    + unfold prompt_settings. destruct (RunOptionsModel.s_pty s); auto.
Qed.
Print Assumptions c135_streams.

(** What the operations hand out is, in order, none twice and none left out, what
    the child writes to its standard output, decoded with the command's encoding
    (with the exception of C46). *)
Theorem c135_reads : forall R c next rd a cfg w0 tr w',
  RunOptionsModel.w_same_std R = false -> CommandSpec.is_none (o_error (c_opts c)) = false -> 0 <= next -> RouteSpec.old_fd next (o_error (c_opts c)) ->
  (0 < a_chunk a)%nat -> (forall p, a_default a = Some p -> sane p) ->
  prompt_start R c next rd a (Ok (cfg, w0)) -> clean_session cfg w0 tr w' -> (forall x, In x tr -> sane_op (fst x)) ->
  exists pty wout, talks_to_child R c next pty wout
  /\ forall t F, decode_bytes (rd wout) (o_encoding (c_opts c)) = Some t -> (if a_normalize a then normalized t F else F = t) ->
     exists ts F', Forall2 (fun x t => handed_out cfg (fst x) (snd x) t) tr ts /\ F = List.concat ts ++ F' /\ remaining cfg w' F'.
Proof.
  intros R c next rd a cfg w0 tr w' SS AE NN OE CH DF H CS SO. apply (c135_streams _ _ _ _ _ _ SS AE NN OE) in H as (pty & wout & k & e & T & PE & EC & EW).
  exists pty, wout. split; [exact T|]. intros t F D N. rewrite EW in CS.
  assert (G : good_settings cfg) by (rewrite EC; split; [exact CH|exact DF]).
  apply (PromptProps.c46_nothing_lost_partial cfg _ _ _ _ _ F G CS SO). apply PromptProps3.c50_text_of_the_output.
  exists t. split; [|exact N]. unfold decode_bytes in D. rewrite PE in D. rewrite EC. exact D.
Qed.
Print Assumptions c135_reads.

(** What the child gets on its standard input is what the operations say, in
    their order, encoded with the command's encoding. *)
Theorem c135_writes : forall R c next rd a cfg w0 tr w',
  RunOptionsModel.w_same_std R = false -> CommandSpec.is_none (o_error (c_opts c)) = false -> 0 <= next -> RouteSpec.old_fd next (o_error (c_opts c)) ->
  prompt_start R c next rd a (Ok (cfg, w0)) -> session cfg w0 tr w' ->
  (exists pty wout, talks_to_child R c next pty wout /\ c_pty_eof cfg = if pty then Some (a_eof a) else None)
  /\ (forall t, encode (c_codec cfg) (c_errors cfg) t = encode_bytes t (o_encoding (c_opts c)))
  /\ exists ls, PromptWriteProps.inputs (p_sent (w_x w')) = List.concat ls
     /\ Forall2 (fun x i => PromptWriteProps.input_of cfg (fst x) (snd x) i) tr ls.
Proof.
  intros R c next rd a cfg w0 tr w' SS AE NN OE H CS. apply (c135_streams _ _ _ _ _ _ SS AE NN OE) in H as (pty & wout & k & e & T & PE & EC & EW).
  split; [exists pty, wout; rewrite EC; auto|]. split; [intros t; unfold encode_bytes; rewrite PE, EC; reflexivity|].
  destruct (PromptWriteProps.c90_writes _ _ _ _ CS) as (l & ls & E & I1 & F). rewrite EW in E. cbn [prompt_world w_x p_sent app] in E.
  exists ls. rewrite E. auto.
Qed.
Print Assumptions c135_writes.

(** ** A concrete session: stdin was given as bytes and stdout as DEVNULL; the
    child writes "a$b", and the caller gets "a" and "$", and then what is pending. *)
Definition ex135_cmd : CommandModel.command := RouteProps.ex_cmd (VBytes [1]) (VRedirect DEVNULL) RouteProps.dflt PtyOff.
Definition ex135_rd (s : RunOptionsModel.stream) : bytes := match s with RunOptionsModel.PStdout => [97; 36; 98] | _ => [] end.
Definition ex135_args : prompt_args := {| a_default := None; a_timeout := None; a_chunk := 1024; a_log := true; a_normalize := false; a_eof := [4]; a_echo := true |}.
Example c135_example : exists cfg w0 tr w',
  RunOptionsModel.w_same_std RouteProps.ex_world = false /\ CommandSpec.is_none (o_error (c_opts ex135_cmd)) = false
  /\ RouteSpec.old_fd 10 (o_error (c_opts ex135_cmd)) /\ (0 < a_chunk ex135_args)%nat
  /\ prompt_start RouteProps.ex_world ex135_cmd 10 ex135_rd ex135_args (Ok (cfg, w0))
  /\ clean_session cfg w0 tr w' /\ List.length tr = 2%nat
  /\ decode_bytes (ex135_rd RunOptionsModel.PStdout) (o_encoding (c_opts ex135_cmd)) = Some [97; 36; 98].
Proof.
  destruct PromptProps.c46_applies as (tr & w' & CS & L).
  assert (PF : exists c1 s h wi win k e, prompt_options ex135_cmd = Ok c1 /\ RunOptionsModel.start RouteProps.ex_world c1 10 = (s, Ok (h, wi))
     /\ prompt_streams wi = Ok (win, RunOptionsModel.PStdout) /\ parse_encoding (o_encoding (c_opts c1)) = Some (k, e)
     /\ prompt_settings ex135_args (RunOptionsModel.s_pty s) k e = PromptProps.conf /\ RunOptionsModel.s_pty s = None).
  { do 7 eexists. split; [vm_compute; reflexivity|]. split; [vm_compute; reflexivity|]. split; [vm_compute; reflexivity|]. split; [vm_compute; reflexivity|]. split; reflexivity. }
  destruct PF as (c1 & s & h & wi & win & k & e & P & ST & PS & PE & EC & PT).
  exists PromptProps.conf, PromptProps.start, tr, w'. split; [reflexivity|]. split; [reflexivity|]. split; [exact Logic.I|]. split; [cbn; lia|].
  split; [|split; [exact CS|]; split; [exact L|vm_compute; reflexivity]].
  pose proof (ps_started RouteProps.ex_world ex135_cmd 10 ex135_rd ex135_args c1 s h wi win RunOptionsModel.PStdout k e P ST PS PE) as H.
  rewrite EC, PT in H. exact H.
Qed.
