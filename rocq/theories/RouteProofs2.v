(** Further proofs for C13-C16: iteration and refusal of double captures. *)
From Verif Require Import RunOptionsModel RouteSpec RouteProofs PipelineModel PipelineSpec PipelineProofs.
Open Scope Z_scope.

Lemma from_default_explicit v fd p : v <> VRedirect DEFAULT -> from_default v fd p = v.
Proof. destruct v; try reflexivity. destruct r; try reflexivity; congruence. Qed.
Lemma from_default_never v fd p : from_default v fd p <> VRedirect DEFAULT.
Proof. destruct v; try discriminate. destruct r, fd, p; discriminate. Qed.

Lemma defaults_observed w c next s hs wi : w_same_std w = false -> api_options (c_opts c) ->
  old_fds next (c_opts c) -> start w c next = (s, Ok (hs, wi)) ->
  (o_input (c_opts c) = VRedirect DEFAULT ->
     observed_in s hs wi = match o_pty (c_opts c) with PtyOff => FromBytes [] | _ => FromCaller end)
  /\ (o_output (c_opts c) = VRedirect DEFAULT -> observed_out s hs wi = ToResultOutput)
  /\ (o_error (c_opts c) = VRedirect DEFAULT -> o_pty (c_opts c) = PtyOff ->
        observed_err s hs wi = ToResultError (o_error_limit (c_opts c)))
  /\ (o_error (c_opts c) = VRedirect DEFAULT -> o_pty (c_opts c) <> PtyOff ->
        read_by_shellous (observed_out s hs wi) = true ->
        observed_err s hs wi = observed_out s hs wi).
Proof.
  intros Hw Ha Ho H. repeat split.
  - intro E. rewrite (observed_in_named w c next s hs wi) by assumption. unfold named_in. rewrite E. reflexivity.
  - intro E. rewrite (observed_out_named w c next s hs wi) by assumption. unfold named_out. rewrite E. reflexivity.
  - intros E P. rewrite (observed_err_named w c next s hs wi) by auto. unfold named_err, follows_stdout. rewrite E, P. reflexivity.
  - intros E P. rewrite (observed_out_named w c next s hs wi) by assumption. intro R.
    rewrite (observed_err_named w c next s hs wi) by auto. unfold named_err, follows_stdout. rewrite E.
    destruct (o_pty (c_opts c)); [congruence| |]; cbn [is_stdout orb]; destruct (named_out (c_opts c)); try reflexivity; discriminate R.
Qed.

Lemma guard_iff c f : run_command_guard c f =
  if negb f && (eq_redirect (o_output (c_opts c)) CAPTURE && eq_redirect (o_error (c_opts c)) CAPTURE)
  then Some (ValueError "multiple capture requires 'async with'") else None.
Proof.
  unfold run_command_guard, is_multiple_capture. destruct f; [reflexivity|]. cbn [negb andb].
  assert (X : forall v fd p, fd <> SIn -> eq_redirect (from_default v fd p) CAPTURE = eq_redirect v CAPTURE).
  { intros v fd p Hfd. destruct v; try reflexivity. destruct r, fd, p; try reflexivity; congruence. }
  rewrite !X by discriminate. reflexivity.
Qed.

Lemma reader_caller wi s : reader wi s = ToCaller SOut -> wi_stdout wi <> None.
Proof.
  unfold reader, readers. intros H E. rewrite E in H. cbn [is_stream app] in H.
  set (l := flat_map _ (wi_tasks wi)) in H.
  assert (Hl : forall d, In d l -> match d with ToCaller _ => False | _ => True end).
  { subst l. intros d Hd. apply in_flat_map in Hd. destruct Hd as (t & _ & Hd).
    destruct t; try contradiction. destruct (stream_eqb src s); [|contradiction].
    destruct Hd as [<-|[]]. destruct dst; exact I. }
  destruct (is_stream (wi_stderr wi) s).
  - destruct l as [|d [|d2 r]]; cbn in H; try discriminate H.
  - rewrite app_nil_r in H. destruct l as [|d [|d2 r]]; cbn in H; try discriminate H.
    subst d. apply (Hl (ToCaller SOut)). left. reflexivity.
Qed.

Lemma observed_caller_stdout s hs wi : observed_out s hs wi = ToCaller SOut -> wi_stdout wi <> None.
Proof.
  unfold observed_out. destruct hs as [[a b] d]. unfold handle_dest. intro H.
  destruct b; try discriminate H.
  - repeat match type of H with
           | (if ?b then _ else _) = _ => destruct b
           | match ?x with _ => _ end = _ => destruct x
           | (let (_, _) := ?x in _) = _ => destruct x
           end; try discriminate H; eapply reader_caller; eauto.
  - destruct mode_append; discriminate H.
Qed.

Lemma cmd_stdout_ok c v ap cl r : cmd_stdout c v ap cl = Ok r -> 
  o_output (c_opts r) = v /\ o_error (c_opts r) = o_error (c_opts c) /\ o_input (c_opts r) = o_input (c_opts c)
  /\ o_pty (c_opts r) = o_pty (c_opts c) /\ c_args r = c_args c.
Proof.
  unfold cmd_stdout, set_stdout, mk_command. intro H.
  destruct v; cbn [bind] in H; repeat match type of H with context[if ?b then _ else _] => destruct b end; cbn [bind] in H; try discriminate H;
  destruct (c_args c) eqn:EA; inversion H; subst; cbn; repeat split; reflexivity.
Qed.
Lemma cmd_stderr_ok c v ap cl r : cmd_stderr c v ap cl = Ok r -> 
  o_error (c_opts r) = v /\ o_output (c_opts r) = o_output (c_opts c) /\ o_input (c_opts r) = o_input (c_opts c)
  /\ o_pty (c_opts r) = o_pty (c_opts c) /\ c_args r = c_args c.
Proof.
  unfold cmd_stderr, set_stderr, mk_command. intro H.
  destruct v; cbn [bind] in H; repeat match type of H with context[if ?b then _ else _] => destruct b end; cbn [bind] in H; try discriminate H;
  destruct (c_args c) eqn:EA; inversion H; subst; cbn; repeat split; reflexivity.
Qed.

(** Iterating over a command whose output was not set reads its stdout. *)
Lemma iterate_default w c r next s hs wi : w_same_std w = false -> api_options (c_opts c) -> old_fds next (c_opts c) ->
  o_output (c_opts c) = VRedirect DEFAULT ->
  cmd_aiter_preflight c = Ok r -> start w r next = (s, Ok (hs, wi)) ->
  iter_stream wi = wi_stdout wi /\ wi_stdout wi <> None /\ observed_out s hs wi = ToCaller SOut.
Proof.
  intros Hw Ha Ho E P H. unfold cmd_aiter_preflight in P. rewrite E in P.
  change (eq_redirect (VRedirect DEFAULT) DEFAULT) with true in P. cbv iota in P.
  destruct (cmd_stdout c (VRedirect CAPTURE) false false) as [r'|] eqn:E1; [|discriminate P]. cbn [bind] in P.
  assert (r' = r) by (destruct (eq_redirect (o_output (c_opts r')) CAPTURE && eq_redirect (o_error (c_opts r')) CAPTURE); congruence). subst r'.
  apply cmd_stdout_ok in E1. destruct E1 as (E1 & E2 & E3 & E4 & E5).
  assert (Ha' : api_options (c_opts r)).
  { unfold api_options in *. rewrite E1, E2, E3. intuition. }
  assert (Ho' : old_fds next (c_opts r)).
  { unfold old_fds in *. rewrite E1, E2, E3. unfold old_fd at 2. intuition. }
  pose proof (observed_out_named _ _ _ _ _ _ Hw Ha' Ho' H) as Hn.
  unfold named_out in Hn. rewrite E1 in Hn. cbn in Hn.
  pose proof (observed_caller_stdout _ _ _ Hn) as Hs.
  repeat split; auto. unfold iter_stream. destruct (wi_stdout wi); congruence.
Qed.

(** stdout=DEVNULL, stderr=STDOUT without a pty iterates over stderr. *)
Lemma iterate_stderr_only w c r next s hs wi : w_same_std w = false -> api_options (c_opts c) -> old_fds next (c_opts c) ->
  o_output (c_opts c) = VRedirect DEVNULL -> o_error (c_opts c) = VRedirect STDOUT -> o_pty (c_opts c) = PtyOff ->
  cmd_aiter_preflight c = Ok r -> start w r next = (s, Ok (hs, wi)) ->
  iter_stream wi = wi_stderr wi /\ wi_stderr wi <> None /\ observed_err s hs wi = ToCaller SErr /\ observed_out s hs wi = ToNull.
Proof.
  intros Hw Ha Ho E EE EP P H. unfold cmd_aiter_preflight in P. rewrite E, EE in P.
  change (eq_redirect (VRedirect DEVNULL) DEFAULT) with false in P. 
  change (eq_redirect (VRedirect DEVNULL) DEVNULL && eq_redirect (VRedirect STDOUT) STDOUT) with true in P. cbv iota in P.
  destruct (cmd_stderr c (VRedirect CAPTURE) false false) as [r'|] eqn:E1; [|discriminate P]. cbn [bind] in P.
  assert (r' = r) by (destruct (eq_redirect (o_output (c_opts r')) CAPTURE && eq_redirect (o_error (c_opts r')) CAPTURE); congruence). subst r'.
  apply cmd_stderr_ok in E1. destruct E1 as (E1 & E2 & E3 & E4 & E5). rewrite E in E2. rewrite EP in E4.
  assert (Ha' : api_options (c_opts r)).
  { unfold api_options in *. rewrite E1, E2, E3. intuition. }
  assert (Ho' : old_fds next (c_opts r)).
  { unfold old_fds in *. rewrite E1, E2, E3. unfold old_fd at 2 3. intuition. }
  pose proof (observed_out_named _ _ _ _ _ _ Hw Ha' Ho' H) as Hn.
  pose proof (observed_err_named _ _ _ _ _ _ Hw Ha' Ho' (or_introl E4) H) as He.
  unfold named_out in Hn. rewrite E2 in Hn. unfold named_err, follows_stdout in He. rewrite E1 in He. cbn in Hn, He.
  assert (WN : wi_stdout wi = None).
  { destruct (start_ok _ _ _ _ _ _ Hw H) as (hin & hout & herr & ib & s0 & _ & R & W). destruct R.
    destruct (s_pty s) as [[pa ch]|] eqn:ES.
    - destruct rd_hs as (X & _). congruence.
    - destruct rd_hs as (_ & ->). destruct (wire_inv _ _ _ _ _ _ _ W) as (pin & pout & er & ou & inp & A & B & C & D & F & G).
      rewrite ES in A. destruct A as (_ & ->). subst wi. cbn [wi_stdout].
      unfold out_value in rd_out. rewrite E2 in rd_out. cbn in rd_out. destruct rd_out as (-> & _). cbn in D. subst ou. reflexivity. }
  assert (WE : wi_stderr wi <> None).
  { intro X. unfold observed_err in He. destruct hs as [[a b] d]. unfold handle_dest in He.
    assert (RD : forall st, reader wi st <> ToCaller SErr).
    { intros st. unfold reader, readers. rewrite WN, X. cbn [is_stream app]. rewrite app_nil_r.
      set (l := flat_map _ (wi_tasks wi)).
      assert (Hl : forall d, In d l -> match d with ToCaller _ => False | _ => True end).
      { subst l. intros d0 Hd. apply in_flat_map in Hd. destruct Hd as (t & _ & Hd).
        destruct t; try contradiction. destruct (stream_eqb src st); [|contradiction].
        destruct Hd as [<-|[]]. destruct dst; exact I. }
      destruct l as [|d0 [|d2 rr]]; try discriminate. intro; subst d0. apply (Hl (ToCaller SErr)). left. reflexivity. }
    rewrite Hn in He. destruct d; try discriminate He.
    - repeat match type of He with
           | (if ?b then _ else _) = _ => destruct b
           | match ?x with _ => _ end = _ => destruct x
           | (let (_, _) := ?x in _) = _ => destruct x
           end; try discriminate He; eapply RD; eassumption.
    - destruct mode_append; discriminate He. }
  repeat split; auto. unfold iter_stream. rewrite WN. reflexivity.
Qed.

(** Preflight: the whole table. *)
Lemma preflight_refuses c : c_args c <> [] ->
  (exists m, cmd_aiter_preflight c = Err (RuntimeError m)) <->
  ((eq_redirect (o_output (c_opts c)) CAPTURE = true \/ eq_redirect (o_output (c_opts c)) DEFAULT = true)
    /\ eq_redirect (o_error (c_opts c)) CAPTURE = true).
Proof.
  intro Hne. unfold cmd_aiter_preflight.
  assert (XX : forall v r1 r2, r1 <> r2 -> eq_redirect v r1 = true -> eq_redirect v r2 = false).
  { intros v r1 r2 Hr H. destruct v; try discriminate H; cbn in *; apply Z.eqb_eq in H; apply Z.eqb_neq; rewrite H;
    intro K; apply Hr; destruct r1, r2; cbn in K; congruence. }
  destruct (eq_redirect (o_output (c_opts c)) DEFAULT) eqn:ED.
  - destruct (cmd_stdout c (VRedirect CAPTURE) false false) as [r|e] eqn:E1.
    + apply cmd_stdout_ok in E1. destruct E1 as (E1 & E2 & _). cbn [bind]. rewrite E1, E2. cbn [eq_redirect andb].
      rewrite Z.eqb_refl. cbn [andb]. destruct (eq_redirect (o_error (c_opts c)) CAPTURE).
      * split; eauto.
      * split; [intros [m H]; discriminate H|intuition discriminate].
    + exfalso. unfold cmd_stdout, set_stdout, mk_command in E1. cbn in E1. destruct (c_args c); [congruence|discriminate E1].
  - destruct (eq_redirect (o_output (c_opts c)) DEVNULL && eq_redirect (o_error (c_opts c)) STDOUT) eqn:EB.
    + apply andb_true_iff in EB. destruct EB as (B1 & B2).
      destruct (cmd_stderr c (VRedirect CAPTURE) false false) as [r|e] eqn:E1.
      * apply cmd_stderr_ok in E1. destruct E1 as (E1 & E2 & _). cbn [bind]. rewrite E1, E2.
        rewrite (XX _ DEVNULL CAPTURE) by (congruence || discriminate). cbn [andb].
        split; [intros [m H]; discriminate H|intros [[H|H] _]; discriminate H].
      * exfalso. unfold cmd_stderr, set_stderr, mk_command in E1. cbn in E1. destruct (c_args c); [congruence|discriminate E1].
    + cbn [bind]. destruct (eq_redirect (o_output (c_opts c)) CAPTURE); cbn [andb].
      * destruct (eq_redirect (o_error (c_opts c)) CAPTURE); [split; eauto|].
        split; [intros [m H]; discriminate H|intuition discriminate].
      * split; [intros [m H]; discriminate H|intuition discriminate].
Qed.

Lemma preflight_pipeline (pre : list command) c : 
  pipe_aiter_preflight (pre ++ [c]) = bind (cmd_aiter_preflight c) (fun c' => Ok (pre ++ [c'])).
Proof.
  unfold pipe_aiter_preflight, pipe_options, cmd_aiter_preflight.
  rewrite last_cmd_app. cbn [bind].
  destruct (eq_redirect (o_output (c_opts c)) DEFAULT).
  - rewrite pipe_stdout_snoc. destruct (cmd_stdout c (VRedirect CAPTURE) false false); [|reflexivity]. cbn [bind].
    rewrite last_cmd_app. cbn [bind]. destruct (_ && _); reflexivity.
  - destruct (eq_redirect (o_output (c_opts c)) DEVNULL && eq_redirect (o_error (c_opts c)) STDOUT).
    + rewrite pipe_stderr_snoc. destruct (cmd_stderr c (VRedirect CAPTURE) false false); [|reflexivity]. cbn [bind].
      rewrite last_cmd_app. cbn [bind]. destruct (_ && _); reflexivity.
    + cbn [bind]. rewrite last_cmd_app. cbn [bind]. destruct (_ && _); reflexivity.
Qed.

(** A supported output is always delivered somewhere. *)
Lemma named_delivered o : api_options o -> supported_output (o_output o) -> supported_output (o_error o) ->
  (named_out o <> Unread /\ named_out o <> Contended) /\ (named_err o <> Unread /\ named_err o <> Contended).
Proof.
  intros (_ & _ & _ & A & _) H1 H2.
  assert (O : named_out o <> Unread /\ named_out o <> Contended).
  { unfold named_out. destruct H1; cbn; try (split; discriminate).
    - destruct (z =? -3), (z =? -1); split; discriminate.
    - destruct r; cbn in A; try discriminate A; split; discriminate. }
  split; [exact O|]. unfold named_err. destruct (follows_stdout o) eqn:EF.
  - destruct (named_out o); try (split; congruence || discriminate); try (destruct O; congruence).
    destruct (is_stdout (o_error o)); split; discriminate.
  - unfold follows_stdout in EF. apply orb_false_iff in EF. destruct EF as (E1 & _).
    destruct H2; cbn in E1 |- *; try (split; discriminate).
    + destruct (z =? -3), (z =? -1); split; discriminate.
    + destruct r; try discriminate E1; split; discriminate.
Qed.
