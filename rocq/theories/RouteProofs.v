From Verif Require Import PipelineModel RunOptionsModel RouteSpec.
Open Scope Z_scope.

Lemma mbind_ok {A B} (m : M A) (f : A -> M B) s s' b :
  mbind m f s = (s', Ok b) -> exists a s1, m s = (s1, Ok a) /\ f a s1 = (s', Ok b).
Proof.
  unfold mbind. destruct (m s) as [s1 [a|e]] eqn:E; [eauto|discriminate].
Qed.

(** The attributes that matter for routing. *)
Record same_attrs (s s' : rst) : Prop := {
  sa_ob : s_output_bytes s' = s_output_bytes s;
  sa_eb : s_error_bytes s' = s_error_bytes s;
  sa_so : s_stderr_only s' = s_stderr_only s;
  sa_pty : s_pty s' = s_pty s;
  sa_ib : s_input_bytes s' = s_input_bytes s;
  sa_next : s_next s <= s_next s'
}.
Lemma same_refl s : same_attrs s s.
Proof. split; try reflexivity; lia. Qed.
Lemma same_trans a b c : same_attrs a b -> same_attrs b c -> same_attrs a c.
Proof. intros [] []; split; try congruence; lia. Qed.

Lemma sys_check_same w e s s' r : sys_check w e s = (s', r) -> same_attrs s s'.
Proof. unfold sys_check. intro H; inversion H; subst. split; try reflexivity; cbn; lia. Qed.
Lemma sys_open_same w s s' r : sys_open w s = (s', r) -> same_attrs s s'.
Proof. unfold sys_open. destruct (w_ok w (s_sys s)); intro H; inversion H; subst; split; try reflexivity; cbn; lia. Qed.
Lemma sys_pair_same w s s' r : sys_pair w s = (s', r) -> same_attrs s s'.
Proof. unfold sys_pair. destruct (w_ok w (s_sys s)); intro H; inversion H; subst; split; try reflexivity; cbn; lia. Qed.
Lemma sys_pair_ok w s s' p : sys_pair w s = (s', Ok p) -> s_next s <= fst p /\ s_next s <= snd p.
Proof. unfold sys_pair. destruct (w_ok w (s_sys s)); intro H; inversion H; subst; cbn; lia. Qed.

Lemma procsub_loop_same w args : forall s s' r, procsub_loop w args s = (s', r) -> same_attrs s s'.
Proof.
  induction args as [|a args IH]; intros s s' r H; cbn [procsub_loop] in H.
  - inversion H; subst. apply same_refl.
  - destruct (is_substitution a).
    + unfold mbind at 1 in H. destruct (sys_pair w s) as [s1 [[rf wf]|e]] eqn:E1.
      * apply sys_pair_same in E1.
        destruct (if is_writable a then sub_stdin a rf else sub_stdout a wf) as [sub|e].
        -- unfold mbind in H. cbn [modify] in H.
           destruct (procsub_loop w args (add_subcmd s1 sub)) as [s2 [x|e]] eqn:E2; inversion H; subst;
             apply IH in E2; (eapply same_trans; [exact E1|]); destruct E2; split; assumption.
        -- inversion H; subst. exact E1.
      * inversion H; subst. apply sys_pair_same in E1. exact E1.
    + unfold mbind in H. destruct (procsub_loop w args s) as [s1 [x|e]] eqn:E; inversion H; subst; eauto.
Qed.

Lemma procsub_same w c s s' r : setup_process_substitution w c s = (s', r) -> same_attrs s s'.
Proof.
  unfold setup_process_substitution. unfold mbind at 1.
  destruct (procsub_loop w (c_args c) s) as [s1 [x|e]] eqn:E; intro H.
  - apply procsub_loop_same in E. unfold mbind, modify in H.
    destruct (w_bsd w).
    + destruct (sys_check w _ _) as [s2 [[]|e]] eqn:E2 in H; inversion H; subst; apply sys_check_same in E2;
        (eapply same_trans; [exact E|]); destruct E2; split; assumption.
    + inversion H; subst. destruct E; split; assumption.
  - inversion H; subst. apply procsub_loop_same in E. exact E.
Qed.

(** setup_input does not touch the attributes (the input bytes are returned). *)
Lemma setup_input_same w v cl enc s s' r : setup_input w v cl enc s = (s', r) -> same_attrs s s'.
Proof.
  intro H. destruct v; cbn [setup_input] in H;
    try (inversion H; subst; apply same_refl);
    try (unfold mbind, modify in H; inversion H; subst; destruct cl; split; try reflexivity; cbn; lia).
  - destruct (w_encode w enc s0); inversion H; subst; apply same_refl.
  - unfold mbind at 1 in H. destruct (sys_open w s) as [s1 [x|e]] eqn:E; apply sys_open_same in E.
    + unfold mbind, modify in H. inversion H; subst. destruct E; split; assumption.
    + inversion H; subst. exact E.
  - destruct r0; try (inversion H; subst; apply same_refl);
      unfold mbind, modify in H; inversion H; subst; destruct cl; split; try reflexivity; cbn; lia.
Qed.

(** What setup_output does, without the stderr-only special case. *)
Definition out_handle (v : value) (append : bool) (which : std) (h : handle) : Prop :=
  match v with
  | VPath _ | VPathLike _ => exists fd, h = HOpen v (Some append) fd
  | VRedirect BUFFER | VRedirect CAPTURE => h = HInt (-1)
  | VRedirect INHERIT => h = HSys which
  | VRedirect r => h = HInt (redirect_int r) /\ r <> DEFAULT
  | VInt z => h = HInt z
  | VStringIO _ _ | VBytesIO _ _ | VByteArray _ _ | VLogger _ | VStreamWriter _ => h = HInt (-1)
  | VFile _ => h = HClient v
  | _ => False
  end.
Definition is_buffer (v : value) : bool := match v with VRedirect BUFFER => true | _ => false end.

Lemma setup_output_ok w v ap cl which s s' h : w_same_std w = false -> which <> SIn ->
  s_stderr_only s && (match which with SErr => true | _ => false end) = false ->
  setup_output w v ap cl which s = (s', Ok h) ->
  out_handle v ap which h
  /\ s_output_bytes s' = (match which with SOut => is_buffer v | _ => false end) || s_output_bytes s
  /\ s_error_bytes s' = (match which with SErr => is_buffer v | _ => false end) || s_error_bytes s
  /\ s_stderr_only s' = s_stderr_only s /\ s_pty s' = s_pty s /\ s_input_bytes s' = s_input_bytes s
  /\ s_next s <= s_next s'.
Proof.
  intros Hw Hn Hs H.
  assert (Hs' : s_stderr_only s && (match which with SErr => true | _ => w_same_std w end) = false).
  { destruct which; rewrite ?Hw; assumption. }
  assert (Hsys : (match which with SOut => true | _ => w_same_std w end) = match which with SOut => true | _ => false end).
  { destruct which; [contradiction|reflexivity|exact Hw]. }
  unfold setup_output in H. cbv zeta in H.
  destruct v; cbv beta in H; try rewrite Hs', ?Hsys in H; clear Hs Hs' Hsys; try discriminate H;
    try (inversion H; subst; cbn; destruct which; try contradiction; repeat split; try reflexivity; lia).
  - unfold mbind at 1 in H. destruct (sys_open w s) as [s1 [x|e]] eqn:E; [|discriminate H]. apply sys_open_same in E.
    unfold mbind, modify in H. inversion H; subst. destruct E. cbn. split; [eauto|].
    rewrite sa_ob0, sa_eb0, sa_so0, sa_pty0, sa_ib0. destruct which; repeat split; try reflexivity; assumption.
  - unfold mbind at 1 in H. destruct (sys_open w s) as [s1 [x|e]] eqn:E; [|discriminate H]. apply sys_open_same in E.
    unfold mbind, modify in H. inversion H; subst. destruct E. cbn. split; [eauto|].
    rewrite sa_ob0, sa_eb0, sa_so0, sa_pty0, sa_ib0. destruct which; repeat split; try reflexivity; assumption.
  - inversion H; subst. cbn. destruct cl, which; try contradiction; cbn; repeat split; try reflexivity; lia.
  - destruct r; destruct which; try contradiction; inversion H; subst; cbn; destruct cl; cbn;
      repeat split; try reflexivity; try discriminate; lia.
Qed.

Lemma setup_output_special w v ap cl s s' h :
  s_stderr_only s = true -> eq_redirect v STDOUT = true ->
  setup_output w v ap cl SErr s = (s', Ok h) -> h = HInt (-1) /\ s' = set_bufs s true (s_error_bytes s).
Proof.
  intros Hs Hv H. unfold setup_output in H. cbv zeta in H.
  destruct v; try discriminate Hv; cbv beta in H; rewrite Hs, Hv in H; cbn [andb] in H; inversion H; subst; split; reflexivity.
Qed.

Lemma from_default_stdout v p : eq_redirect v STDOUT = true -> from_default v SErr p = v.
Proof. destruct v; try discriminate; [reflexivity|]. destruct r; try discriminate; reflexivity. Qed.
Lemma from_default_devnull v p : eq_redirect v DEVNULL = true -> from_default v SOut p = v.
Proof. destruct v; try discriminate; [reflexivity|]. destruct r; try discriminate; reflexivity. Qed.

Definition stderr_only (o : opts) : bool := eq_redirect (o_output o) DEVNULL && eq_redirect (o_error o) STDOUT.
Definition err_value (o : opts) : value := from_default (o_error o) SErr (o_pty o).
Definition out_value (o : opts) : value := from_default (o_output o) SOut (o_pty o).

Definition err_handle (o : opts) (h : handle) : Prop :=
  if stderr_only o then h = HInt (-1) else out_handle (err_value o) (o_error_append o) SErr h.

(** The result of setup_redirects. *)
Record redirected (w : world) (c : command) (s0 s : rst) (hs : handle * handle * handle)
  (hin hout herr : handle) (ib : option bytes) : Prop := {
  rd_out : out_handle (out_value (c_opts c)) (o_output_append (c_opts c)) SOut hout;
  rd_err : err_handle (c_opts c) herr;
  rd_in : exists si si', setup_input w (from_default (o_input (c_opts c)) SIn (o_pty (c_opts c)))
                     (o_input_close (c_opts c)) (o_encoding (c_opts c)) si = (si', Ok (hin, ib));
  rd_ib : s_input_bytes s = ib;
  rd_ob : s_output_bytes s = is_buffer (out_value (c_opts c)) || stderr_only (c_opts c);
  rd_eb : s_error_bytes s = negb (stderr_only (c_opts c)) && is_buffer (err_value (c_opts c));
  rd_so : s_stderr_only s = stderr_only (c_opts c);
  rd_hs : match s_pty s with
          | None => o_pty (c_opts c) = PtyOff /\ hs = (hin, hout, herr)
          | Some (_, child) => o_pty (c_opts c) <> PtyOff /\ s_next s0 <= child
              /\ hs = (if is_pipe hin then HInt child else hin, if is_pipe hout then HInt child else hout,
                       if is_stdout_const herr then HInt child else herr)
          end
}.

Definition clean (s : rst) : Prop :=
  s_output_bytes s = false /\ s_error_bytes s = false /\ s_stderr_only s = false /\ s_pty s = None.

Lemma setup_pty1_ok w hin hout herr p s s' hs : setup_pty1 w hin hout herr p s = (s', Ok hs) ->
  exists par child, s_pty s' = Some (par, child) /\ s_next s <= child
  /\ s_output_bytes s' = s_output_bytes s /\ s_error_bytes s' = s_error_bytes s
  /\ s_stderr_only s' = s_stderr_only s
  /\ hs = (if is_pipe hin then HInt child else hin, if is_pipe hout then HInt child else hout,
           if is_stdout_const herr then HInt child else herr).
Proof.
  unfold setup_pty1. intro H. apply mbind_ok in H. destruct H as ([par child] & s1 & E1 & H).
  unfold open_pty in E1. apply mbind_ok in E1. destruct E1 as (pc & s2 & E2 & E1).
  pose proof (sys_pair_same _ _ _ _ E2) as S2. apply sys_pair_ok in E2.
  apply mbind_ok in E1. destruct E1 as ([] & s3 & E3 & E1).
  assert (S3 : same_attrs s2 s3).
  { destruct p; try (inversion E3; subst; apply same_refl). eapply sys_check_same; eauto. }
  apply mbind_ok in E1. destruct E1 as ([] & s4 & E4 & E1). apply sys_check_same in E4.
  inversion E1; subst. cbn [fst snd] in *.
  assert (S14 : same_attrs s s1) by (eapply same_trans; [exact S2|]; eapply same_trans; eassumption).
  apply mbind_ok in H. destruct H as ([] & s5 & E5 & H). inversion E5; subst.
  apply mbind_ok in H. destruct H as ([] & s6 & E6 & H).
  assert (S6 : same_attrs (set_pty s1 (par, child)) s6).
  { destruct (w_bsd w); inversion E6; subst; [apply same_refl|]. split; try reflexivity; cbn; lia. }
  apply mbind_ok in H. destruct H as ([] & s7 & E7 & H). apply sys_check_same in E7.
  inversion H; subst. exists par, child.
  destruct S14, S6, E7. cbn in *. repeat split; try congruence; try lia.
Qed.

Lemma setup_redirects_ok w c s0 s hs : w_same_std w = false -> clean s0 ->
  setup_redirects w c s0 = (s, Ok hs) -> exists hin hout herr ib, redirected w c s0 s hs hin hout herr ib.
Proof.
  intros Hw (C1 & C2 & C3 & C4) H. unfold setup_redirects in H.
  apply mbind_ok in H. destruct H as ([hin ib] & s1 & E1 & H). pose proof (setup_input_same _ _ _ _ _ _ _ E1) as S1.
  apply mbind_ok in H. destruct H as ([] & s2 & E2 & H).
  assert (Eso : s_stderr_only s2 = stderr_only (c_opts c) /\ s_output_bytes s2 = false /\ s_error_bytes s2 = false
                /\ s_pty s2 = None /\ s_next s0 <= s_next s2).
  { destruct S1. fold (stderr_only (c_opts c)) in E2. destruct (stderr_only (c_opts c)); inversion E2; subst; cbn;
      repeat split; congruence || lia. }
  destruct Eso as (So & Ob & Eb & Pt & Nx).
  apply mbind_ok in H. destruct H as (hout & s3 & E3 & H).
  apply setup_output_ok in E3; [|assumption|discriminate|apply andb_false_r].
  destruct E3 as (Ho & O1 & O2 & O3 & O4 & O5 & O6).
  apply mbind_ok in H. destruct H as (herr & s4 & E4 & H).
  assert (HE : err_handle (c_opts c) herr
     /\ s_output_bytes s4 = is_buffer (out_value (c_opts c)) || stderr_only (c_opts c)
     /\ s_error_bytes s4 = negb (stderr_only (c_opts c)) && is_buffer (err_value (c_opts c))
     /\ s_stderr_only s4 = stderr_only (c_opts c) /\ s_pty s4 = None /\ s_next s0 <= s_next s4).
  { unfold err_handle. destruct (stderr_only (c_opts c)) eqn:ESO.
    - assert (HX := ESO). unfold stderr_only in HX. apply andb_true_iff in HX. destruct HX as [HX1 HX2].
      rewrite (from_default_stdout _ _ HX2) in E4.
      apply setup_output_special in E4; [|congruence|exact HX2]. destruct E4 as [-> ->]. cbn.
      rewrite orb_true_r. repeat split; try congruence; try lia.
      rewrite O2, Eb. reflexivity.
    - apply setup_output_ok in E4; [|assumption|discriminate|rewrite O3, So; reflexivity].
      destruct E4 as (He & P1 & P2 & P3 & P4 & P5 & P6). unfold out_value, err_value in *.
      rewrite P1, P2, O1, O2, Ob, Eb, orb_false_r. cbn. rewrite !orb_false_r.
      repeat split; try congruence; lia. }
  destruct HE as (He & Q1 & Q2 & Q3 & Q4 & Q5).
  apply mbind_ok in H. destruct H as (hs' & s5 & E5 & H).
  apply mbind_ok in H. destruct H as ([] & s6 & E6 & H). inversion E6; subst s6. inversion H; subst hs' s. clear E6 H.
  exists hin, hout, herr, ib.
  assert (HP : s_output_bytes s5 = s_output_bytes s4 /\ s_error_bytes s5 = s_error_bytes s4
     /\ s_stderr_only s5 = s_stderr_only s4
     /\ match s_pty s5 with
          | None => o_pty (c_opts c) = PtyOff /\ hs = (hin, hout, herr)
          | Some (_, child) => o_pty (c_opts c) <> PtyOff /\ s_next s0 <= child
              /\ hs = (if is_pipe hin then HInt child else hin, if is_pipe hout then HInt child else hout,
                       if is_stdout_const herr then HInt child else herr)
          end).
  { destruct (o_pty (c_opts c)) eqn:EP.
    - inversion E5; subst. rewrite Q4. repeat split.
    - destruct (o_preexec_fn (c_opts c)); [discriminate E5|]. apply setup_pty1_ok in E5.
      destruct E5 as (par & ch & -> & F1 & F2 & F3 & F4 & F5). repeat split; try assumption; try discriminate. lia.
    - destruct (o_preexec_fn (c_opts c)); [discriminate E5|]. apply setup_pty1_ok in E5.
      destruct E5 as (par & ch & -> & F1 & F2 & F3 & F4 & F5). repeat split; try assumption; try discriminate. lia. }
  destruct HP as (R1 & R2 & R3 & R4).
  split; cbn; try assumption; try congruence; eauto.
Qed.

Lemma setup_pass_fds_same c s s' r : setup_pass_fds c s = (s', r) -> same_attrs s s'.
Proof.
  unfold setup_pass_fds. destruct (o_pass_fds (c_opts c)).
  - destruct (s_close_fds s); intro H; inversion H; subst; [apply same_refl|split; try reflexivity; cbn; lia].
  - destruct (o_pass_fds_close (c_opts c)); intro H; inversion H; subst; split; try reflexivity; cbn; lia.
Qed.

Lemma clean_init next : clean (init_rst next).
Proof. repeat split. Qed.

Lemma start_ok w c next s hs wi : w_same_std w = false ->
  start w c next = (s, Ok (hs, wi)) ->
  exists hin hout herr ib s0, next <= s_next s0 /\ redirected w c s0 s hs hin hout herr ib /\ wire w c s hs = Ok wi.
Proof.
  intros Hw H. unfold start in H.
  destruct (enter w c (init_rst next)) as [se [[args hs']|e]] eqn:E; [|discriminate H].
  unfold enter in E. destruct (enter_body w c (init_rst next)) as [sb [x|e]] eqn:EB; [|discriminate E].
  inversion E; subst sb x. clear E.
  unfold enter_body in EB. apply mbind_ok in EB. destruct EB as (args0 & s1 & E1 & EB).
  assert (S1 : same_attrs (init_rst next) s1).
  { destruct (uses_process_substitution c); [eapply procsub_same; eauto|inversion E1; subst; apply same_refl]. }
  apply mbind_ok in EB. destruct EB as (hs0 & s2 & E2 & EB).
  apply setup_redirects_ok in E2; [|assumption|].
  2:{ destruct S1. unfold clean. cbn in *. repeat split; congruence. }
  apply mbind_ok in EB. destruct EB as ([] & s3 & E3 & EB). apply setup_pass_fds_same in E3.
  assert (HH : se = s3 /\ hs' = hs0).
  { destruct args0 as [|exe rest]; [discriminate EB|]. destruct (w_no_dirname w exe).
    - destruct (w_which w (c_opts c) exe); [|discriminate EB]. inversion EB; subst; auto.
    - inversion EB; subst; auto. }
  destruct HH as [-> ->]. cbn [bind] in H.
  destruct (wire w c (exit_ false s3) hs0) as [wi'|e] eqn:EW; [|discriminate H].
  cbn [bind] in H. inversion H; subst. clear H.
  destruct E2 as (hin & hout & herr & ib & R). exists hin, hout, herr, ib, s1.
  split; [destruct S1; cbn in *; lia|]. split; [|exact EW].
  assert (S4 : same_attrs s2 (exit_ false s3)).
  { destruct E3. split; cbn; assumption. }
  destruct S4, R. split; try assumption; try congruence.
  rewrite sa_pty0. assumption.
Qed.

(** * Readers and writers of a wiring *)
Definition copy_dests (s : stream) (ts : list task) : list dest :=
  flat_map (fun t => match t with
                     | TCopy s' d lim =>
                         if stream_eqb s' s then
                           [match d with ResultOut => ToResultOutput | ResultErr => ToResultError lim | Sink v => ToObject v end]
                         else []
                     | _ => []
                     end) ts.
Definition write_srcs (s : stream) (ts : list task) : list source :=
  flat_map (fun t => match t with
                     | TWriteBytes b s' _ => if stream_eqb s' s then [FromBytes b] else []
                     | TWriteReader v s' _ => if stream_eqb s' s then [FromReader v] else []
                     | _ => []
                     end) ts.
Lemma copy_dests_app s a b : copy_dests s (a ++ b) = copy_dests s a ++ copy_dests s b.
Proof. apply flat_map_app. Qed.
Lemma write_srcs_app s a b : write_srcs s (a ++ b) = write_srcs s a ++ write_srcs s b.
Proof. apply flat_map_app. Qed.

Lemma input_source_shape w p ib o pt ts so : input_source w p ib o pt = Ok (ts, so) ->
  (forall s, copy_dests s ts = []) /\ (so = None \/ so = Some p)
  /\ (forall s, stream_eqb p s = false -> write_srcs s ts = []).
Proof.
  unfold input_source. intro H.
  assert (HB : forall b, Ok ([TWriteBytes b p pt], @None stream) = Ok (ts, so) ->
     (forall s, copy_dests s ts = []) /\ (so = None \/ so = Some p)
     /\ (forall s, stream_eqb p s = false -> write_srcs s ts = [])).
  { intros b E; inversion E; subst. split; [reflexivity|]. split; [auto|]. intros s Hs. cbn. rewrite Hs. reflexivity. }
  assert (HN : Ok (@nil task, Some p) = Ok (ts, so) ->
     (forall s, copy_dests s ts = []) /\ (so = None \/ so = Some p)
     /\ (forall s, stream_eqb p s = false -> write_srcs s ts = [])).
  { intros E; inversion E; subst. split; [reflexivity|]. split; [auto|]. reflexivity. }
  destruct ib as [b|]; [apply (HB b H)|].
  destruct (o_input o); try (apply (HN H)); try (eapply HB; exact H).
  - destruct (w_encode w (o_encoding o) s) as [b|]; [apply (HB b H)|discriminate H].
  - inversion H; subst. split; [reflexivity|]. split; [auto|]. intros s Hs. cbn. rewrite Hs. reflexivity.
Qed.

Lemma output_sink_shape p v : 
  match v with
  | VStringIO _ _ | VBytesIO _ _ | VByteArray _ _ | VLogger _ | VStreamWriter _ => output_sink p v = ([TCopy p (Sink v) None], None)
  | _ => output_sink p v = ([], Some p)
  end.
Proof. destruct v; reflexivity. Qed.
Definition is_object (v : value) : bool :=
  match v with VStringIO _ _ | VBytesIO _ _ | VByteArray _ _ | VLogger _ | VStreamWriter _ => true | _ => false end.
Lemma output_sink_eq p v : output_sink p v = if is_object v then ([TCopy p (Sink v) None], None) else ([], Some p).
Proof. destruct v; reflexivity. Qed.

Lemma wire_inv w c s hin hout herr wi : wire w c s (hin, hout, herr) = Ok wi ->
  exists pin pout er ou inp,
    (match s_pty s with
     | None => pin = pipe_stream hin PStdin /\ pout = pipe_stream hout PStdout
     | Some _ => is_pipe hin = false /\ is_pipe hout = false /\ pin = Some PtyWriter /\ pout = Some PtyReader
     end)
    /\ er = (match pipe_stream herr PStderr with
             | None => ([], None)
             | Some e => if s_error_bytes s then ([TCopy e ResultErr (o_error_limit (c_opts c))], None)
                         else if s_stderr_only s then ([TCopy e ResultOut None], None)
                         else output_sink e (o_error (c_opts c))
             end)
    /\ (is_pipe herr = true -> s_error_bytes s = false -> s_stderr_only s = true -> pout = None)
    /\ ou = (match pout with
             | None => ([], None)
             | Some p => if s_output_bytes s then ([TCopy p ResultOut None], None) else output_sink p (o_output (c_opts c))
             end)
    /\ match pin with
       | None => inp = ([], None)
       | Some p => input_source w p (s_input_bytes s) (c_opts c) (match s_pty s with Some _ => true | None => false end) = Ok inp
       end
    /\ wi = {| wi_tasks := fst er ++ fst ou ++ fst inp; wi_stdin := snd inp; wi_stdout := snd ou; wi_stderr := snd er |}.
Proof.
  unfold wire. intro H.
  destruct (match s_pty s with
        | None => Ok (pipe_stream hin PStdin, pipe_stream hout PStdout)
        | Some _ => if is_pipe hin || is_pipe hout then Err AssertionError else Ok (Some PtyWriter, Some PtyReader)
        end) as [[pin pout]|e] eqn:E1; [|discriminate H].
  cbn [bind] in H.
  match type of H with bind ?m _ = _ => destruct m as [er|e] eqn:E2; [|discriminate H] end.
  cbn [bind] in H.
  match type of H with bind ?m _ = _ => destruct m as [inp|e] eqn:E3; [|discriminate H] end.
  cbn [bind] in H. inversion H; subst wi. clear H.
  exists pin, pout, er.
  exists (match pout with
             | None => ([], None)
             | Some p => if s_output_bytes s then ([TCopy p ResultOut None], None) else output_sink p (o_output (c_opts c))
             end), inp.
  split.
  { destruct (s_pty s) as [pc|].
    - destruct (is_pipe hin), (is_pipe hout); cbn in E1; try discriminate E1. inversion E1; subst. repeat split.
    - inversion E1; subst. split; reflexivity. }
  split.
  { destruct (pipe_stream herr PStderr); [|congruence].
    destruct (s_error_bytes s); [congruence|]. destruct (s_stderr_only s); [|congruence].
    destruct pout; [discriminate E2|]. destruct (s_output_bytes s); [congruence|discriminate E2]. }
  split.
  { intros Hp He Hs. unfold pipe_stream in E2. rewrite Hp, He, Hs in E2. destruct pout; [discriminate E2|reflexivity]. }
  split; [reflexivity|]. split; [|reflexivity].
  destruct pin; [exact E3|congruence].
Qed.

Lemma stream_eqb_refl s : stream_eqb s s = true.
Proof. destruct s; reflexivity. Qed.

Definition out_stream_dest (ob : bool) (v : value) : dest :=
  if ob then ToResultOutput else if is_object v then ToObject v else ToCaller SOut.
Definition err_stream_dest (eb so : bool) (limit : option Z) (v : value) : dest :=
  if eb then ToResultError limit else if so then ToResultOutput else if is_object v then ToObject v else ToCaller SErr.

Lemma readers_out w c s hin hout herr wi p : wire w c s (hin, hout, herr) = Ok wi ->
  (match s_pty s with None => is_pipe hout = true /\ p = PStdout | Some _ => p = PtyReader end) ->
  readers wi p = [out_stream_dest (s_output_bytes s) (o_output (c_opts c))].
Proof.
  intros H Hp. apply wire_inv in H.
  destruct H as (pin & pout & er & ou & inp & HP & -> & _ & -> & HI & ->).
  assert (HPout : pout = Some p /\ p <> PStderr /\ stream_eqb PStderr p = false).
  { destruct (s_pty s).
    - destruct HP as (_ & _ & _ & ->). subst p. repeat split; discriminate.
    - destruct HP as [_ ->]. destruct Hp as [Hp ->]. unfold pipe_stream. rewrite Hp. repeat split; discriminate. }
  destruct HPout as (-> & Hne & Hse).
  unfold readers. cbn [wi_tasks wi_stdout wi_stderr]. fold (copy_dests p).
  change (flat_map _ ?x) with (copy_dests p x).
  rewrite !copy_dests_app.
  assert (Hinp : copy_dests p (fst inp) = []).
  { destruct pin as [q|]; [|subst inp; reflexivity]. destruct inp as [ts so].
    apply input_source_shape in HI. apply HI. }
  rewrite Hinp, app_nil_r.
  assert (Her : copy_dests p (fst (match pipe_stream herr PStderr with
             | None => ([], None)
             | Some e => if s_error_bytes s then ([TCopy e ResultErr (o_error_limit (c_opts c))], None)
                         else if s_stderr_only s then ([TCopy e ResultOut None], None)
                         else output_sink e (o_error (c_opts c))
             end)) = []
     /\ is_stream (snd (match pipe_stream herr PStderr with
             | None => ([], None)
             | Some e => if s_error_bytes s then ([TCopy e ResultErr (o_error_limit (c_opts c))], None)
                         else if s_stderr_only s then ([TCopy e ResultOut None], None)
                         else output_sink e (o_error (c_opts c))
             end)) p = false).
  { unfold pipe_stream. destruct (is_pipe herr); [|split; reflexivity].
    rewrite output_sink_eq.
    destruct (s_error_bytes s), (s_stderr_only s), (is_object (o_error (c_opts c)));
      destruct p; try congruence; split; reflexivity. }
  destruct Her as [-> ->]. cbn [app]. rewrite app_nil_r.
  unfold out_stream_dest. rewrite output_sink_eq.
  destruct (s_output_bytes s), (is_object (o_output (c_opts c))); destruct p; reflexivity.
Qed.

Lemma readers_err w c s hin hout herr wi : wire w c s (hin, hout, herr) = Ok wi ->
  is_pipe herr = true ->
  readers wi PStderr = [err_stream_dest (s_error_bytes s) (s_stderr_only s) (o_error_limit (c_opts c)) (o_error (c_opts c))].
Proof.
  intros H He. apply wire_inv in H.
  destruct H as (pin & pout & er & ou & inp & HP & -> & _ & -> & HI & ->).
  unfold pipe_stream. rewrite He.
  unfold readers. cbn [wi_tasks wi_stdout wi_stderr].
  change (flat_map _ ?x) with (copy_dests PStderr x).
  rewrite !copy_dests_app.
  assert (Hinp : copy_dests PStderr (fst inp) = []).
  { destruct pin as [q|]; [|subst inp; reflexivity]. destruct inp as [ts so].
    apply input_source_shape in HI. apply HI. }
  rewrite Hinp, app_nil_r.
  assert (Hou : copy_dests PStderr (fst (match pout with
             | None => ([], None)
             | Some p => if s_output_bytes s then ([TCopy p ResultOut None], None) else output_sink p (o_output (c_opts c))
             end)) = []
     /\ is_stream (snd (match pout with
             | None => ([], None)
             | Some p => if s_output_bytes s then ([TCopy p ResultOut None], None) else output_sink p (o_output (c_opts c))
             end)) PStderr = false).
  { assert (Hp : pout = None \/ exists p, pout = Some p /\ stream_eqb p PStderr = false).
    { destruct (s_pty s).
      - destruct HP as (_ & _ & _ & ->). right. eauto.
      - destruct HP as [_ ->]. unfold pipe_stream. destruct (is_pipe hout); [right; eauto|left; reflexivity]. }
    destruct Hp as [->|(p & -> & Hp)]; [split; reflexivity|].
    rewrite output_sink_eq. destruct (s_output_bytes s), (is_object (o_output (c_opts c))); destruct p; try discriminate Hp; split; reflexivity. }
  destruct Hou as [-> ->]. rewrite app_nil_r. cbn [app].
  unfold err_stream_dest. rewrite output_sink_eq.
  destruct (s_error_bytes s), (s_stderr_only s), (is_object (o_error (c_opts c))); reflexivity.
Qed.

(** * Output routing *)
Lemma out_stream_named o : out_handle (out_value o) (o_output_append o) SOut (HInt (-1)) ->
  stderr_only o = false ->
  out_stream_dest (is_buffer (out_value o) || stderr_only o) (o_output o) = named_out o.
Proof.
  unfold named_out, out_value, out_stream_dest. intros H ->. rewrite orb_false_r.
  destruct (o_output o); cbn in *; try contradiction; try reflexivity; try discriminate H;
    try solve [destruct H; discriminate]; try solve [inversion H; subst; reflexivity].
  destruct r; cbn in *; try reflexivity; try discriminate H; try (destruct H; discriminate);
  destruct (pty_bool (o_pty o)); reflexivity.
Qed.

Lemma reader_of wi s d : readers wi s = [d] -> reader wi s = d.
Proof. unfold reader. intros ->. reflexivity. Qed.

Lemma is_stdout_eq v : is_stdout v = eq_redirect v STDOUT.
Proof. destruct v; try reflexivity. destruct r; reflexivity. Qed.


Lemma is_pipe_eq h : is_pipe h = true -> h = HInt (-1).
Proof. destruct h; try discriminate. cbn. intro H. apply Z.eqb_eq in H. subst. reflexivity. Qed.

Lemma out_pipe_not_only o : out_handle (out_value o) (o_output_append o) SOut (HInt (-1)) -> stderr_only o = false.
Proof.
  unfold out_value, stderr_only. destruct (o_output o); cbn; try reflexivity.
  - intro H. inversion H. reflexivity.
  - destruct r; cbn; try reflexivity. intros [H _]. discriminate.
Qed.

(** Handles that are not pipes say where they go by themselves. *)
Lemma out_handle_named o h wi pty own sd : out_handle (out_value o) (o_output_append o) SOut h -> is_pipe h = false ->
  is_stdout (o_output o) = false ->
  (forall z, o_output o = VInt z -> match pty with Some (_, child) => z <> child | None => True end) ->
  handle_dest wi pty own sd h = named_out o.
Proof.
  unfold named_out, out_value. intros H Hp Hs Hf.
  destruct (o_output o) eqn:E; cbn [from_default out_handle] in H; try contradiction;
    try (subst h; discriminate Hp); try (subst h; reflexivity).
  - destruct H as [fd ->]. reflexivity.
  - destruct H as [fd ->]. reflexivity.
  - subst h. cbn in *. unfold PIPE in Hp. rewrite Hp, Hs.
    destruct (z =? -3) eqn:Z3; [reflexivity|]. destruct pty as [[par child]|]; [|reflexivity].
    specialize (Hf z eq_refl). rewrite (proj2 (Z.eqb_neq z child) Hf). reflexivity.
  - destruct r; cbn in *; try (subst h; discriminate Hp); try discriminate Hs.
    + destruct H as [-> _]. reflexivity.
    + subst h. reflexivity.
Qed.

(** stdout goes where the options say. *)
Lemma observed_out_named w c next s hs wi : w_same_std w = false -> api_options (c_opts c) ->
  old_fds next (c_opts c) ->
  start w c next = (s, Ok (hs, wi)) -> observed_out s hs wi = named_out (c_opts c).
Proof.
  intros Hw (_ & _ & A3 & A4 & _) (Hnn & _ & Old & _) H. apply start_ok in H; [|assumption].
  destruct H as (hin & hout & herr & ib & s0 & Hn & R & W). destruct R.
  destruct (s_pty s) as [[par child]|] eqn:EP.
  - destruct rd_hs0 as (Hp & Hc & ->). unfold observed_out. rewrite EP.
    destruct (is_pipe hout) eqn:Eh.
    + apply is_pipe_eq in Eh. subst hout.
      assert (Hrd : reader wi PtyReader = named_out (c_opts c)).
      { apply reader_of. erewrite readers_out; [|exact W|rewrite EP; reflexivity].
        rewrite rd_ob0. rewrite out_stream_named by (assumption || now apply out_pipe_not_only). reflexivity. }
      cbn [handle_dest]. rewrite Z.eqb_refl, Hrd.
      rewrite (proj2 (Z.eqb_neq child (-1))), (proj2 (Z.eqb_neq child (-2))), (proj2 (Z.eqb_neq child (-3))) by lia.
      reflexivity.
    + eapply out_handle_named; eauto.
      intros z Ez. rewrite Ez in Old. cbn in Old. lia.
  - destruct rd_hs0 as (Hp & ->). unfold observed_out. rewrite EP.
    destruct (is_pipe hout) eqn:Eh.
    + pose proof Eh as Eh'. apply is_pipe_eq in Eh. subst hout. cbn [handle_dest Z.eqb].
      apply reader_of. erewrite readers_out; [|exact W|rewrite EP; split; [reflexivity|reflexivity]].
      rewrite rd_ob0. rewrite out_stream_named by (assumption || now apply out_pipe_not_only). reflexivity.
    + eapply out_handle_named; eauto.
Qed.

(** stderr *)
Lemma err_stream_named o : err_handle o (HInt (-1)) -> 
  err_stream_dest (negb (stderr_only o) && is_buffer (err_value o)) (stderr_only o) (o_error_limit o) (o_error o) = named_err o.
Proof.
  unfold err_handle, err_stream_dest, named_err. destruct (stderr_only o) eqn:ES; cbn [negb andb].
  - intros _. unfold stderr_only in ES. apply andb_true_iff in ES. destruct ES as [E1 E2].
    unfold follows_stdout. rewrite is_stdout_eq, E2. cbn [orb].
    unfold named_out. destruct (o_output o); try discriminate E1.
    + cbn in *. rewrite E1. reflexivity.
    + destruct r; try discriminate E1. reflexivity.
  - unfold err_value, follows_stdout. intro H.
    destruct (o_error o) eqn:E; cbn in *; try contradiction; try discriminate H; try reflexivity;
    try solve [destruct H; discriminate]; try solve [inversion H; subst; reflexivity].
    destruct r; cbn in *; try reflexivity; try discriminate H; try (destruct H; discriminate);
      destruct (o_pty o); cbn in *; try reflexivity; destruct H; discriminate.
Qed.

Lemma err_handle_named o h wi pty own sd : out_handle (err_value o) (o_error_append o) SErr h -> is_pipe h = false ->
  is_stdout_const h = false ->
  (forall z, o_error o = VInt z -> match pty with Some (_, child) => z <> child | None => True end) ->
  follows_stdout o = false /\ handle_dest wi pty own sd h = named (o_error o) (o_error_append o) SErr (o_error_limit o).
Proof.
  unfold err_value, follows_stdout. intros H Hp Hs Hf.
  destruct (o_error o) eqn:E; cbn [from_default out_handle] in H; try contradiction;
    try (subst h; discriminate Hp); try (subst h; split; reflexivity).
  - destruct H as [fd ->]. split; reflexivity.
  - destruct H as [fd ->]. split; reflexivity.
  - subst h. cbn in *. unfold PIPE in Hp. rewrite Hp, Hs. split; [reflexivity|].
    destruct (z =? -3) eqn:Z3; [reflexivity|]. destruct pty as [[par child]|]; [|reflexivity].
    specialize (Hf z eq_refl). rewrite (proj2 (Z.eqb_neq z child) Hf). reflexivity.
  - destruct r; cbn in *; try (subst h; discriminate Hp).
    + destruct H as [-> _]. discriminate Hs.
    + destruct H as [-> _]. split; reflexivity.
    + subst h. split; reflexivity.
    + destruct (o_pty o); cbn in *; try (subst h; discriminate Hp); destruct H as [-> _]; discriminate Hs.
Qed.

Lemma is_stdout_const_eq h : is_stdout_const h = true -> h = HInt (-2).
Proof. destruct h; try discriminate. cbn. intro H. apply Z.eqb_eq in H. subst. reflexivity. Qed.

Lemma err_stdout_follows o : stderr_only o = false -> out_handle (err_value o) (o_error_append o) SErr (HInt (-2)) ->
  follows_stdout o = true /\ (is_stdout (o_error o) = true -> named_out o <> ToNull).
Proof.
  unfold err_value, follows_stdout, stderr_only. intros HS H. split.
  - destruct (o_error o) eqn:E; cbn in H; try contradiction; try discriminate H;
      try (destruct H; discriminate).
    + inversion H; subst. reflexivity.
    + destruct r; cbn in *; try reflexivity; try discriminate H; try (destruct H; discriminate).
      destruct (o_pty o); cbn in *; try discriminate H; reflexivity.
  - intros Hi HN. rewrite is_stdout_eq in Hi. rewrite Hi, andb_true_r in HS.
    unfold named_out in HN. destruct (o_output o); try discriminate HN; cbn in *.
    + destruct (z =? -3); [discriminate HS|]. destruct (z =? -1); discriminate HN.
    + destruct r; try discriminate HN; discriminate HS.
Qed.

Lemma observed_err_named w c next s hs wi : w_same_std w = false -> api_options (c_opts c) ->
  old_fds next (c_opts c) ->
  (o_pty (c_opts c) = PtyOff \/ follows_stdout (c_opts c) = false \/ read_by_shellous (named_out (c_opts c)) = true) ->
  start w c next = (s, Ok (hs, wi)) -> observed_err s hs wi = named_err (c_opts c).
Proof.
  intros Hw Hapi Hold Hcond H. pose proof (observed_out_named _ _ _ _ _ _ Hw Hapi Hold H) as HOut.
  destruct Hapi as (_ & _ & A3 & A4 & A5). destruct Hold as (Hnn & _ & OldO & OldE).
  apply start_ok in H; [|assumption].
  destruct H as (hin & hout & herr & ib & s0 & Hn & R & W). destruct R.
  assert (Hpipe : is_pipe herr = true -> readers wi PStderr = [named_err (c_opts c)]).
  { intro Hp. destruct hs as [[h1 h2] h3].
    assert (Hh3 : is_pipe h3 = true).
    { destruct (s_pty s) as [[par child]|].
      - destruct rd_hs0 as (_ & _ & E). inversion E; subst. apply is_pipe_eq in Hp. subst herr. reflexivity.
      - destruct rd_hs0 as (_ & E). inversion E; subst. exact Hp. }
    erewrite readers_err; [|exact W|exact Hh3]. f_equal. rewrite rd_eb0, rd_so0.
    apply err_stream_named. apply is_pipe_eq in Hp. subst herr. exact rd_err0. }
  destruct (is_pipe herr) eqn:Eh.
  - apply is_pipe_eq in Eh. subst herr. specialize (Hpipe eq_refl).
    destruct (s_pty s) as [[par child]|] eqn:EP.
    + destruct rd_hs0 as (Hp & Hc & ->). unfold observed_err. cbn [is_stdout_const Z.eqb handle_dest].
      apply reader_of. exact Hpipe.
    + destruct rd_hs0 as (Hp & ->). unfold observed_err. cbn [handle_dest Z.eqb]. apply reader_of. exact Hpipe.
  - assert (Hso : stderr_only (c_opts c) = false).
    { unfold err_handle in rd_err0. destruct (stderr_only (c_opts c)); [subst herr; discriminate Eh|reflexivity]. }
    unfold err_handle in rd_err0. rewrite Hso in rd_err0.
    destruct (is_stdout_const herr) eqn:Es.
    + apply is_stdout_const_eq in Es. subst herr.
      destruct (err_stdout_follows _ Hso rd_err0) as [HF HN].
      assert (HNE : named_err (c_opts c) = named_out (c_opts c)).
      { unfold named_err. rewrite HF. destruct (named_out (c_opts c)) eqn:ENO; try reflexivity.
        destruct (is_stdout (o_error (c_opts c))); [|reflexivity]. exfalso. apply HN; reflexivity. }
      rewrite HNE.
      destruct (s_pty s) as [[par child]|] eqn:EP.
      * destruct rd_hs0 as (Hp & Hc & ->). cbn [is_stdout_const Z.eqb] in *.
        assert (HR : read_by_shellous (named_out (c_opts c)) = true).
        { destruct Hcond as [?|[?|?]]; congruence. }
        assert (Hpo : is_pipe hout = true).
        { destruct (is_pipe hout) eqn:Epo; [reflexivity|].
          rewrite <- (out_handle_named (c_opts c) hout wi None PStdout Unread rd_out0 Epo A4) in HR by (intros; exact I).
          destruct hout; cbn in *; unfold PIPE in Epo; try rewrite Epo in HR; try discriminate HR.
          - destruct (z =? -2); [discriminate HR|]. destruct (z =? -3); discriminate HR.
          - destruct mode_append; discriminate HR. }
        rewrite <- HOut. unfold observed_out, observed_err. rewrite Hpo. rewrite EP. cbn [handle_dest].
        rewrite Z.eqb_refl.
        rewrite (proj2 (Z.eqb_neq child (-1))), (proj2 (Z.eqb_neq child (-2))), (proj2 (Z.eqb_neq child (-3))) by lia.
        reflexivity.
      * destruct rd_hs0 as (Hp & ->). unfold observed_err. cbn [handle_dest Z.eqb]. exact HOut.
    + destruct (s_pty s) as [[par child]|] eqn:EP.
      * destruct rd_hs0 as (Hp & Hc & ->). unfold observed_err. rewrite EP. 
        destruct (err_handle_named (c_opts c) herr wi (Some (par, child)) PStderr
                    (observed_out s (if is_pipe hin then HInt child else hin, if is_pipe hout then HInt child else hout, herr) wi)
                    rd_err0 Eh Es) as [HF HD].
        { intros z Ez. rewrite Ez in OldE. cbn in OldE. lia. }
        rewrite HD. unfold named_err. rewrite HF. reflexivity.
      * destruct rd_hs0 as (Hp & ->). unfold observed_err. rewrite EP.
        destruct (err_handle_named (c_opts c) herr wi None PStderr
                    (observed_out s (hin, hout, herr) wi) rd_err0 Eh Es) as [HF HD]; [intros; exact I|].
        rewrite HD. unfold named_err. rewrite HF. reflexivity.
Qed.

(** * Input routing *)
Lemma no_writes_sink s p v : write_srcs s (fst (output_sink p v)) = [].
Proof. destruct v; reflexivity. Qed.

Lemma writers_in w c s hin hout herr wi p : wire w c s (hin, hout, herr) = Ok wi ->
  (match s_pty s with None => is_pipe hin = true /\ p = PStdin | Some _ => p = PtyWriter end) ->
  exists inp, input_source w p (s_input_bytes s) (c_opts c) (match s_pty s with Some _ => true | None => false end) = Ok inp
    /\ writers wi p = write_srcs p (fst inp) ++ (if is_stream (snd inp) p then [FromCaller] else []).
Proof.
  intros H Hp. apply wire_inv in H.
  destruct H as (pin & pout & er & ou & inp & HP & -> & _ & -> & HI & ->).
  assert (HPin : pin = Some p).
  { destruct (s_pty s).
    - destruct HP as (_ & _ & -> & _). congruence.
    - destruct HP as [-> _]. destruct Hp as [Hp ->]. unfold pipe_stream. rewrite Hp. reflexivity. }
  subst pin. exists inp. split; [exact HI|].
  unfold writers. cbn [wi_tasks wi_stdin].
  change (flat_map _ ?x) with (write_srcs p x). rewrite !write_srcs_app.
  assert (E1 : write_srcs p (fst (match pipe_stream herr PStderr with
             | None => ([], None)
             | Some e => if s_error_bytes s then ([TCopy e ResultErr (o_error_limit (c_opts c))], None)
                         else if s_stderr_only s then ([TCopy e ResultOut None], None)
                         else output_sink e (o_error (c_opts c))
             end)) = []).
  { destruct (pipe_stream herr PStderr); [|reflexivity]. destruct (s_error_bytes s); [reflexivity|].
    destruct (s_stderr_only s); [reflexivity|apply no_writes_sink]. }
  assert (E2 : write_srcs p (fst (match pout with
             | None => ([], None)
             | Some p => if s_output_bytes s then ([TCopy p ResultOut None], None) else output_sink p (o_output (c_opts c))
             end)) = []).
  { destruct pout; [|reflexivity]. destruct (s_output_bytes s); [reflexivity|apply no_writes_sink]. }
  rewrite E1, E2. reflexivity.
Qed.

(** What setup_input returns. *)
Definition in_handle (w : world) (v : value) (enc : text) (hin : handle) (ib : option bytes) : Prop :=
  match v with
  | VBytes b | VByteArray _ b => hin = HInt (-1) /\ ib = Some b
  | VStr t => hin = HInt (-1) /\ ib = w_encode w enc t /\ ib <> None
  | VPath _ => ib = None /\ exists fd, hin = HOpen v None fd
  | VRedirect INHERIT => hin = HSys SIn /\ ib = None
  | VRedirect CAPTURE => hin = HInt (-1) /\ ib = None
  | VRedirect STDOUT => hin = HInt (-2) /\ ib = None
  | VRedirect DEVNULL => hin = HInt (-3) /\ ib = None
  | VInt z => hin = HInt z /\ ib = None
  | VStreamReader _ | VBytesIO _ _ | VStringIO _ _ => hin = HInt (-1) /\ ib = None
  | _ => False
  end.
Lemma setup_input_ok w v cl enc s s' hin ib : setup_input w v cl enc s = (s', Ok (hin, ib)) -> in_handle w v enc hin ib.
Proof.
  intro H. destruct v; cbn [setup_input] in H; try discriminate H;
    try (inversion H; subst; split; reflexivity);
    try (unfold mbind, modify in H; inversion H; subst; split; reflexivity).
  - cbn. destruct (w_encode w enc s0); inversion H; subst. repeat split; discriminate.
  - apply mbind_ok in H. destruct H as (fd & s1 & _ & H). unfold mbind, modify in H. inversion H; subst. cbn. eauto.
  - destruct r; try discriminate H; try (inversion H; subst; split; reflexivity);
      unfold mbind, modify in H; inversion H; subst; split; reflexivity.
Qed.

Lemma writer_of wi s d : writers wi s = [d] -> writer wi s = d.
Proof. unfold writer. intros ->. reflexivity. Qed.

Lemma source_pipe w o p hin ib pt inp :
  in_handle w (from_default (o_input o) SIn (o_pty o)) (o_encoding o) hin ib -> hin = HInt (-1) ->
  is_none (o_input o) = false ->
  input_source w p ib o pt = Ok inp ->
  write_srcs p (fst inp) ++ (if is_stream (snd inp) p then [FromCaller] else []) = [named_in (w_encode w) o].
Proof.
  intros H Hh Hn HI.
  assert (HB : forall b pt', write_srcs p (fst ([TWriteBytes b p pt'], @None stream)) ++
     (if is_stream (snd ([TWriteBytes b p pt'], @None stream)) p then [FromCaller] else []) = [FromBytes b]).
  { intros. destruct p; reflexivity. }
  assert (HC : write_srcs p (fst (@nil task, Some p)) ++ (if is_stream (snd (@nil task, Some p)) p then [FromCaller] else []) = [FromCaller]).
  { destruct p; reflexivity. }
  unfold named_in. unfold input_source in HI.
  destruct (o_input o) eqn:EI; cbn [from_default in_handle] in H; try contradiction;
    try (destruct H as [_ ->]; inversion HI; subst inp; apply HB).
  - destruct H as (_ & -> & Hne). destruct (w_encode w (o_encoding o) s) as [b|] eqn:EE; [|congruence].
    inversion HI; subst. apply HB.
  - destruct H as (_ & fd & E). congruence.
  - destruct H as (_ & ->). destruct (w_encode w (o_encoding o) s) as [b|] eqn:EE; [|discriminate HI].
    inversion HI; subst. apply HB.
  - destruct H as (E & ->). rewrite Hh in E. inversion E; subst z. inversion HI; subst. exact HC.
  - destruct r; cbn in H; try contradiction.
    + destruct H as [H _]. congruence.
    + destruct H as [H _]. congruence.
    + destruct H as (_ & ->). inversion HI; subst. exact HC.
    + destruct H as [H _]. congruence.
    + destruct (o_pty o); cbn in H; destruct H as (_ & ->); inversion HI; subst; apply HB || exact HC.
  - destruct H as (_ & ->). inversion HI; subst. destruct p; reflexivity.
Qed.

Lemma observed_in_named w c next s hs wi : w_same_std w = false -> api_options (c_opts c) ->
  old_fds next (c_opts c) ->
  start w c next = (s, Ok (hs, wi)) -> observed_in s hs wi = named_in (w_encode w) (c_opts c).
Proof.
  intros Hw (A1 & A2 & _) (Hnn & Old & _) H. apply start_ok in H; [|assumption].
  destruct H as (hin & hout & herr & ib & s0 & Hn & R & W). destruct R.
  destruct rd_in0 as (si & si' & EI). apply setup_input_ok in EI.
  destruct (is_pipe hin) eqn:Eh.
  - apply is_pipe_eq in Eh. subst hin.
    destruct (s_pty s) as [[par child]|] eqn:EP.
    + destruct rd_hs0 as (Hp & Hc & ->). unfold observed_in. rewrite EP. cbn [is_pipe PIPE Z.eqb].
      rewrite Z.eqb_refl.
      rewrite (proj2 (Z.eqb_neq child (-1))), (proj2 (Z.eqb_neq child (-3))) by lia.
      apply writer_of.
      destruct (writers_in _ _ _ _ _ _ _ PtyWriter W) as (inp & HI & ->); [rewrite EP; reflexivity|].
      rewrite rd_ib0 in HI. eapply source_pipe; eauto.
    + destruct rd_hs0 as (Hp & ->). unfold observed_in. cbn [Z.eqb].
      apply writer_of.
      destruct (writers_in _ _ _ _ _ _ _ PStdin W) as (inp & HI & ->); [rewrite EP; split; reflexivity|].
      rewrite rd_ib0 in HI. eapply source_pipe; eauto.
  - assert (Hh : fst (fst hs) = hin).
    { destruct (s_pty s) as [[par child]|]; [destruct rd_hs0 as (_ & _ & ->)|destruct rd_hs0 as (_ & ->)];
        reflexivity. }
    destruct hs as [[h1 h2] h3]. cbn in Hh. subst h1. unfold observed_in, named_in.
    destruct (o_input (c_opts c)) eqn:EO; cbn [from_default in_handle] in EI; try contradiction;
      try (destruct EI as [-> _]; discriminate Eh).
    + destruct EI as (_ & fd & ->). reflexivity.
    + destruct EI as [-> _]. cbn in Eh. unfold PIPE in Eh. rewrite Eh.
      destruct (z =? -3); [reflexivity|]. destruct (s_pty s) as [[par child]|]; [|reflexivity].
      destruct rd_hs0 as (_ & Hc & _). cbn in Old. rewrite (proj2 (Z.eqb_neq z child)) by lia. reflexivity.
    + destruct r; try discriminate A2; cbn in EI; try contradiction; try (destruct EI as [-> _]; try discriminate Eh; reflexivity).
      destruct (o_pty (c_opts c)); cbn in EI; destruct EI as [-> _]; discriminate Eh.
Qed.

(** * Failures: which exceptions can come out of start *)
Lemma mbind_err {A B} (m : M A) (f : A -> M B) s s' e :
  mbind m f s = (s', Err e) -> m s = (s', Err e) \/ exists a s1, m s = (s1, Ok a) /\ f a s1 = (s', Err e).
Proof. unfold mbind. destruct (m s) as [s1 [a|e1]] eqn:E; intro H; [right; eauto|left; congruence]. Qed.

Lemma sys_open_noassert w s s' : sys_open w s <> (s', Err AssertionError).
Proof. unfold sys_open. destruct (w_ok w (s_sys s)); congruence. Qed.
Lemma sys_pair_noassert w s s' : sys_pair w s <> (s', Err AssertionError).
Proof. unfold sys_pair. destruct (w_ok w (s_sys s)); congruence. Qed.
Lemma sys_check_noassert w e s s' : e <> AssertionError -> sys_check w e s <> (s', Err AssertionError).
Proof. unfold sys_check. destruct (w_ok w (s_sys s)); congruence. Qed.

Lemma cmd_noassert c fd cl : cmd_stdin c (VInt fd) cl <> Err AssertionError /\ cmd_stdout c (VInt fd) false cl <> Err AssertionError.
Proof.
  unfold cmd_stdin, cmd_stdout, set_stdin, set_stdout.
  destruct (eq_redirect (VInt fd) STDOUT); cbn [bind]; [split; discriminate|].
  unfold mk_command. destruct (c_args c); split; discriminate.
Qed.
Lemma mk_pipeline_noassert p : mk_pipeline p <> Err AssertionError.
Proof. destruct p; discriminate. Qed.
Lemma sub_noassert v fd : sub_stdin v fd <> Err AssertionError /\ sub_stdout v fd <> Err AssertionError.
Proof.
  split.
  - destruct v; cbn; try discriminate.
    + unfold as_cmd_value. destruct (cmd_noassert (args, o) fd true) as [H _].
      destruct (cmd_stdin (args, o) (VInt fd) true); cbn; congruence.
    + unfold as_pipe_value, pipe_stdin. destruct (first_cmd cmds) as [c|e] eqn:E; cbn [bind].
      * destruct (cmd_noassert c fd true) as [H _].
        destruct (cmd_stdin c (VInt fd) true); cbn; congruence.
      * destruct cmds; inversion E; subst; discriminate.
  - destruct v; cbn; try discriminate.
    + unfold as_cmd_value. destruct (cmd_noassert (args, o) fd true) as [_ H].
      destruct (cmd_stdout (args, o) (VInt fd) false true); cbn; congruence.
    + unfold as_pipe_value, pipe_stdout. destruct (last_cmd cmds) as [c|e] eqn:E; cbn [bind].
      * destruct (cmd_noassert c fd true) as [_ H].
        destruct (cmd_stdout c (VInt fd) false true); cbn [bind]; [|congruence].
        pose proof (mk_pipeline_noassert (but_last cmds ++ [a])).
        destruct (mk_pipeline (but_last cmds ++ [a])); cbn; congruence.
      * unfold last_cmd in E. destruct (@rev command cmds); inversion E; subst; discriminate.
Qed.

Lemma procsub_loop_noassert w args : forall s s', procsub_loop w args s <> (s', Err AssertionError).
Proof.
  induction args as [|a args IH]; intros s s' H; cbn [procsub_loop] in H; [discriminate H|].
  destruct (is_substitution a).
  - apply mbind_err in H. destruct H as [H|([rf wf] & s1 & _ & H)]; [apply sys_pair_noassert in H; exact H|].
    destruct (if is_writable a then sub_stdin a rf else sub_stdout a wf) as [sub|e] eqn:E.
    + apply mbind_err in H. destruct H as [H|([] & s2 & _ & H)]; [discriminate H|].
      apply mbind_err in H. destruct H as [H|(r & s3 & _ & H)]; [eapply IH; eauto|discriminate H].
    + inversion H; subst. destruct (sub_noassert a rf) as [N1 _]. destruct (sub_noassert a wf) as [_ N2].
      destruct (is_writable a); congruence.
  - apply mbind_err in H. destruct H as [H|(r & s1 & _ & H)]; [eapply IH; eauto|discriminate H].
Qed.

Lemma procsub_noassert w c s s' : setup_process_substitution w c s <> (s', Err AssertionError).
Proof.
  unfold setup_process_substitution. intro H.
  apply mbind_err in H. destruct H as [H|(r & s1 & _ & H)]; [eapply procsub_loop_noassert; eauto|].
  apply mbind_err in H. destruct H as [H|([] & s2 & _ & H)]; [discriminate H|].
  apply mbind_err in H. destruct H as [H|([] & s3 & _ & H)]; [|discriminate H].
  destruct (w_bsd w); [|discriminate H]. eapply sys_check_noassert; [|exact H]. discriminate.
Qed.

Lemma setup_input_noassert w v p cl enc s s' : is_none v = false ->
  setup_input w (from_default v SIn p) cl enc s <> (s', Err AssertionError).
Proof.
  intros Hv H. destruct v; try discriminate Hv; cbn [from_default setup_input] in H; try discriminate H.
  - destruct (w_encode w enc s0); discriminate H.
  - apply mbind_err in H. destruct H as [H|(fd & s1 & _ & H)]; [apply sys_open_noassert in H; exact H|].
    unfold mbind, modify in H. discriminate H.
  - destruct r; try discriminate H. destruct (pty_bool p); discriminate H.
Qed.

Lemma setup_output_noassert w v ap cl which p s s' : w_same_std w = false -> which <> SIn -> is_none v = false ->
  s_stderr_only s && (match which with SErr => true | _ => false end) = false \/ eq_redirect v STDOUT = true ->
  setup_output w (from_default v which p) ap cl which s <> (s', Err AssertionError).
Proof.
  intros Hw Hn Hv Hs H.
  assert (Hnd : from_default v which p <> VRedirect DEFAULT).
  { destruct v; try discriminate. destruct r; try discriminate. destruct which; [contradiction| |]; cbn; destruct (pty_bool p); discriminate. }
  assert (Hnn : from_default v which p <> VNone).
  { destruct v; try discriminate. destruct r; try discriminate. destruct which; [contradiction| |]; cbn; destruct (pty_bool p); discriminate. }
  assert (Hso : eq_redirect v STDOUT = true -> eq_redirect (from_default v which p) STDOUT = true).
  { destruct v; try discriminate; [auto|]. destruct r; try discriminate; auto. }
  remember (from_default v which p) as u eqn:Eu. clear Eu.
  assert (Hs' : s_stderr_only s && (match which with SErr => true | _ => w_same_std w end) = false \/ eq_redirect u STDOUT = true).
  { destruct Hs as [Hs|Hs]; [left; destruct which; rewrite ?Hw; assumption|right; auto]. }
  clear Hs Hso. unfold setup_output in H. cbv zeta in H.
  assert (HX : forall u0 (s1 : rst) (r : rst * res handle),
    u0 = u -> snd r <> Err AssertionError ->
    (if s_stderr_only s && (match which with SErr => true | _ => w_same_std w end)
     then if eq_redirect u0 STDOUT then (set_bufs s true (s_error_bytes s), Ok (HInt PIPE)) else (s, Err AssertionError)
     else r) <> (s1, Err AssertionError)).
  { intros u0 s1 r -> Hr. destruct (s_stderr_only s && match which with SErr => true | _ => w_same_std w end).
    - destruct Hs' as [?|E]; [discriminate|]. rewrite E. discriminate.
    - intro E. rewrite E in Hr. apply Hr. reflexivity. }
  destruct u; try congruence; try (apply (HX _ _ _ eq_refl) in H; [exact H|discriminate]).
  - apply mbind_err in H. destruct H as [H|(fd & s1 & _ & H)]; [apply sys_open_noassert in H; exact H|].
    unfold mbind, modify in H. discriminate H.
  - apply mbind_err in H. destruct H as [H|(fd & s1 & _ & H)]; [apply sys_open_noassert in H; exact H|].
    unfold mbind, modify in H. discriminate H.
  - apply (HX _ _ _ eq_refl) in H; [exact H|]. destruct r; try discriminate; try congruence.
    destruct (match which with SOut => true | _ => w_same_std w end); discriminate.
Qed.

Lemma setup_pty1_noassert w a b d p s s' : setup_pty1 w a b d p s <> (s', Err AssertionError).
Proof.
  unfold setup_pty1, open_pty. intro H.
  apply mbind_err in H. destruct H as [H|(pc & s1 & _ & H)].
  - apply mbind_err in H. destruct H as [H|(pc & s1 & _ & H)]; [apply sys_pair_noassert in H; exact H|].
    apply mbind_err in H. destruct H as [H|([] & s2 & _ & H)].
    + destruct p; try discriminate H. eapply sys_check_noassert; [|exact H]; discriminate.
    + apply mbind_err in H. destruct H as [H|([] & s3 & _ & H)]; [|discriminate H].
      eapply sys_check_noassert; [|exact H]; discriminate.
  - apply mbind_err in H. destruct H as [H|([] & s2 & _ & H)]; [discriminate H|].
    apply mbind_err in H. destruct H as [H|([] & s3 & _ & H)]; [destruct (w_bsd w); discriminate H|].
    apply mbind_err in H. destruct H as [H|([] & s4 & _ & H)]; [|discriminate H].
    eapply sys_check_noassert; [|exact H]; discriminate.
Qed.

Lemma input_source_noassert w p ib o pt : input_source w p ib o pt <> Err AssertionError.
Proof.
  unfold input_source. destruct ib; [discriminate|]. destruct (o_input o); try discriminate.
  destruct (w_encode w (o_encoding o) s); discriminate.
Qed.

Lemma setup_redirects_noassert w c s s' : w_same_std w = false -> api_options (c_opts c) -> clean s ->
  setup_redirects w c s = (s', Err AssertionError) ->
  o_pty (c_opts c) <> PtyOff /\ o_preexec_fn (c_opts c) <> None.
Proof.
  intros Hw (A1 & _ & A3 & _ & A5) (C1 & C2 & C3 & C4) H. unfold setup_redirects in H.
  apply mbind_err in H. destruct H as [H|([hin ib] & s1 & E1 & H)]; [apply setup_input_noassert in H; [contradiction|exact A1]|].
  apply setup_input_same in E1.
  apply mbind_err in H. destruct H as [H|([] & s2 & E2 & H)].
  { destruct (eq_redirect _ DEVNULL && _); discriminate H. }
  fold (stderr_only (c_opts c)) in E2.
  assert (So : s_stderr_only s2 = stderr_only (c_opts c)).
  { destruct E1. destruct (stderr_only (c_opts c)); inversion E2; subst; [reflexivity|congruence]. }
  apply mbind_err in H. destruct H as [H|(hout & s3 & E3 & H)].
  { exfalso. apply setup_output_noassert in H; auto; [discriminate|]. left. apply andb_false_r. }
  apply setup_output_ok in E3; [|assumption|discriminate|apply andb_false_r].
  destruct E3 as (_ & _ & _ & So3 & _).
  apply mbind_err in H. destruct H as [H|(herr & s4 & E4 & H)].
  { exfalso. apply setup_output_noassert in H; auto; [discriminate|]. rewrite So3, So, andb_true_r.
    unfold stderr_only. destruct (eq_redirect (o_error (c_opts c)) STDOUT); [auto|left; apply andb_false_r]. }
  apply mbind_err in H. destruct H as [H|(hs & s5 & E5 & H)].
  - destruct (o_pty (c_opts c)); [discriminate H| |].
    + destruct (o_preexec_fn (c_opts c)); [split; discriminate|].
      exfalso. eapply setup_pty1_noassert; eauto.
    + destruct (o_preexec_fn (c_opts c)); [split; discriminate|].
      exfalso. eapply setup_pty1_noassert; eauto.
  - unfold mbind, modify in H. discriminate H.
Qed.

Lemma start_noassert w c next s : w_same_std w = false -> api_options (c_opts c) -> old_fds next (c_opts c) ->
  start w c next = (s, Err AssertionError) ->
  o_pty (c_opts c) <> PtyOff
  /\ (o_preexec_fn (c_opts c) <> None
      \/ (eq_redirect (o_output (c_opts c)) DEVNULL = true /\ eq_redirect (o_error (c_opts c)) STDOUT = true)).
Proof.
  intros Hw Hapi (Hnn & _) H. unfold start in H.
  destruct (enter w c (init_rst next)) as [se [[args hs']|e]] eqn:E.
  - unfold enter in E. destruct (enter_body w c (init_rst next)) as [sb [x|e]] eqn:EB; [|discriminate E].
    inversion E; subst sb x. clear E.
    unfold enter_body in EB. apply mbind_ok in EB. destruct EB as (args0 & s1 & E1 & EB).
    assert (S1 : same_attrs (init_rst next) s1).
    { destruct (uses_process_substitution c); [eapply procsub_same; eauto|inversion E1; subst; apply same_refl]. }
    apply mbind_ok in EB. destruct EB as (hs0 & s2 & E2 & EB).
    apply setup_redirects_ok in E2; [|assumption|].
    2:{ destruct S1. unfold clean. cbn in *. repeat split; congruence. }
    apply mbind_ok in EB. destruct EB as ([] & s3 & E3 & EB). apply setup_pass_fds_same in E3.
    assert (HH : se = s3 /\ hs' = hs0).
    { destruct args0 as [|exe rest]; [discriminate EB|]. destruct (w_no_dirname w exe).
      - destruct (w_which w (c_opts c) exe); [|discriminate EB]. inversion EB; subst; auto.
      - inversion EB; subst; auto. }
    destruct HH as [-> ->].
    assert (HW : wire w c (exit_ false s3) hs0 = Err AssertionError).
    { destruct (wire w c (exit_ false s3) hs0); cbn in H; congruence. }
    clear H.
    destruct E2 as (hin & hout & herr & ib & R). destruct R.
    destruct E3. assert (Hx : s_pty (exit_ false s3) = s_pty s2) by (cbn; congruence).
    assert (Hob : s_output_bytes (exit_ false s3) = s_output_bytes s2) by (cbn; congruence).
    assert (Heb : s_error_bytes (exit_ false s3) = s_error_bytes s2) by (cbn; congruence).
    assert (Hso : s_stderr_only (exit_ false s3) = s_stderr_only s2) by (cbn; congruence).
    destruct hs0 as [[h1 h2] h3]. unfold wire in HW. rewrite Hx, Hob, Heb, Hso in HW.
    destruct (s_pty s2) as [[par child]|] eqn:EP.
    + destruct rd_hs0 as (Hp & Hc & Eh). inversion Eh; subst h1 h2 h3. clear Eh. split; [exact Hp|]. right.
      assert (Hch : is_pipe (HInt child) = false).
      { cbn. apply Z.eqb_neq. destruct S1. cbn in sa_next1. unfold PIPE. lia. }
      assert (P1 : is_pipe (if is_pipe hin then HInt child else hin) = false) by (destruct (is_pipe hin) eqn:?; assumption).
      assert (P2 : is_pipe (if is_pipe hout then HInt child else hout) = false) by (destruct (is_pipe hout) eqn:?; assumption).
      rewrite P1, P2 in HW. cbn [orb bind] in HW.
      destruct (stderr_only (c_opts c)) eqn:ESO.
      * unfold stderr_only in ESO. apply andb_true_iff in ESO. exact ESO.
      * exfalso. rewrite rd_so0 in HW.
        match type of HW with bind ?m _ = _ => assert (HM : exists x, m = Ok x) end.
        { destruct (pipe_stream _ PStderr); [|eauto]. destruct (s_error_bytes s2); eauto. }
        destruct HM as [x HM]. rewrite HM in HW. cbn [bind] in HW.
        match type of HW with bind ?m _ = _ => destruct m eqn:EI; [discriminate HW|] end.
        cbn in HW. inversion HW; subst. apply input_source_noassert in EI. exact EI.
    + exfalso. destruct rd_hs0 as (Hp & Eh). inversion Eh; subst h1 h2 h3. cbn [bind] in HW.
      match type of HW with bind ?m _ = _ => assert (HM : exists x, m = Ok x) end.
      { destruct (pipe_stream herr PStderr); [|eauto]. destruct (s_error_bytes s2); [eauto|].
        destruct (s_stderr_only s2) eqn:ESO; [|eauto].
        rewrite rd_ob0. rewrite <- rd_so0, orb_true_r.
        unfold pipe_stream. destruct (is_pipe hout) eqn:Eh2; [|eauto].
        apply is_pipe_eq in Eh2. subst hout. apply out_pipe_not_only in rd_out0. congruence. }
      destruct HM as [x HM]. rewrite HM in HW. cbn [bind] in HW.
      match type of HW with bind ?m _ = _ => destruct m eqn:EI; [discriminate HW|] end.
      cbn in HW. inversion HW; subst.
      destruct (pipe_stream hin PStdin); [|discriminate EI]. apply input_source_noassert in EI. exact EI.
  - inversion H; subst se e. clear H. unfold enter in E.
    destruct (enter_body w c (init_rst next)) as [sb [x|e]] eqn:EB; [discriminate E|].
    assert (e = AssertionError) by congruence. subst e. clear E.
    unfold enter_body in EB. apply mbind_err in EB. destruct EB as [EB|(args0 & s1 & E1 & EB)].
    { exfalso. destruct (uses_process_substitution c); [eapply procsub_noassert; eauto|discriminate EB]. }
    assert (S1 : same_attrs (init_rst next) s1).
    { destruct (uses_process_substitution c); [eapply procsub_same; eauto|inversion E1; subst; apply same_refl]. }
    apply mbind_err in EB. destruct EB as [EB|(hs & s2 & _ & EB)].
    + apply setup_redirects_noassert in EB; [|assumption|assumption|].
      * destruct EB; auto.
      * destruct S1. unfold clean. cbn in *. repeat split; congruence.
    + exfalso. apply mbind_err in EB. destruct EB as [EB|([] & s3 & _ & EB)].
      * unfold setup_pass_fds in EB. destruct (o_pass_fds (c_opts c)); [discriminate EB|].
        destruct (o_pass_fds_close (c_opts c)); discriminate EB.
      * destruct args0; [discriminate EB|]. destruct (w_no_dirname w v); [|discriminate EB].
        destruct (w_which w (c_opts c) v); discriminate EB.
Qed.

(** * Supported redirections launch *)
From Verif Require Import CommandProofs PipelineSpec PipelineProofs.

Lemma sub_ok v fd : is_substitution v = true -> well_formed v -> 0 <= fd ->
  (exists u, sub_stdin v fd = Ok u) /\ (exists u, sub_stdout v fd = Ok u).
Proof.
  intros Hs Wf Hfd. destruct v; try discriminate Hs; unfold well_formed in Wf; cbn [commands_of] in Wf; destruct Wf as [Wn Wa].
  - inversion Wa as [|? ? Ha _]; subst. cbn [sub_stdin sub_stdout].
    destruct (fd_upd_stdin (args, o) fd true Ha) as (c1 & E1 & _); [lia|].
    destruct (fd_upd_stdout (args, o) fd false true Ha) as (c2 & E2 & _); [lia|].
    rewrite E1, E2. split; eexists; reflexivity.
  - cbn [sub_stdin sub_stdout]. split.
    + destruct cmds as [|c p]; [exfalso; apply Wn; reflexivity|]. inversion Wa as [|? ? Ha _]; subst.
      rewrite pipe_stdin_cons. destruct (fd_upd_stdin c fd true Ha) as (c1 & E1 & _); [lia|].
      rewrite E1. eexists; reflexivity.
    + destruct (snoc_cases cmds) as [->|(pre & c & ->)]; [exfalso; apply Wn; reflexivity|].
      apply Forall_app in Wa. destruct Wa as [_ Wc]. inversion Wc as [|? ? Ha _]; subst.
      rewrite pipe_stdout_snoc. destruct (fd_upd_stdout c fd false true Ha) as (c1 & E1 & _); [lia|].
      rewrite E1. eexists; reflexivity.
Qed.

Lemma sys_open_succeeds w s : (forall n, w_ok w n = true) -> exists s' fd, sys_open w s = (s', Ok fd).
Proof. intro H. unfold sys_open. rewrite H. eauto. Qed.
Lemma sys_pair_succeeds w s : (forall n, w_ok w n = true) ->
  exists s', sys_pair w s = (s', Ok (s_next s, s_next s + 1)) /\ s_next s <= s_next s'.
Proof. intro H. unfold sys_pair. rewrite H. eexists. split; [reflexivity|]. cbn. lia. Qed.
Lemma sys_check_succeeds w e s : (forall n, w_ok w n = true) -> exists s', sys_check w e s = (s', Ok tt).
Proof. intro H. unfold sys_check. rewrite H. eauto. Qed.

Lemma procsub_loop_succeeds w args : (forall n, w_ok w n = true) -> Forall well_formed args -> forall s, 0 <= s_next s ->
  exists s' r, procsub_loop w args s = (s', Ok r) /\ List.length (fst r) = List.length args.
Proof.
  intros Hok HF. induction HF as [|a args Ha HF IH]; intros s Hs; cbn [procsub_loop].
  - exists s, ([], []). split; reflexivity.
  - destruct (is_substitution a) eqn:Ea.
    + destruct (sys_pair_succeeds w s Hok) as (s1 & E1 & L1). unfold mbind at 1. rewrite E1.
      destruct (sub_ok a (s_next s) Ea Ha Hs) as ((u & Eu) & _).
      destruct (sub_ok a (s_next s + 1) Ea Ha) as (_ & (v & Ev)); [lia|].
      assert (HE : exists sub, (if is_writable a then sub_stdin a (s_next s) else sub_stdout a (s_next s + 1)) = Ok sub).
      { destruct (is_writable a); eauto. }
      destruct HE as [sub ->]. unfold mbind at 1. cbn [modify].
      destruct (IH (add_subcmd s1 sub)) as (s2 & r & E2 & L2); [cbn; lia|].
      unfold mbind. rewrite E2. do 2 eexists. split; [reflexivity|]. cbn. congruence.
    + destruct (IH s Hs) as (s2 & r & E2 & L2). unfold mbind. rewrite E2.
      do 2 eexists. split; [reflexivity|]. cbn. congruence.
Qed.

Lemma procsub_succeeds w c s : (forall n, w_ok w n = true) -> Forall well_formed (c_args c) -> 0 <= s_next s ->
  exists s' r, setup_process_substitution w c s = (s', Ok r) /\ List.length r = List.length (c_args c).
Proof.
  intros Hok HF Hs. unfold setup_process_substitution.
  destruct (procsub_loop_succeeds w (c_args c) Hok HF s Hs) as (s1 & r & E & L).
  unfold mbind at 1. rewrite E. unfold mbind at 1. cbn [modify].
  destruct (w_bsd w).
  - match goal with |- context [mbind _ _ ?s2] => destruct (sys_check_succeeds w (RuntimeError "Missing /dev/fd") s2 Hok) as (s3 & E3) end.
    unfold mbind. rewrite E3. do 2 eexists. split; [reflexivity|assumption].
  - do 2 eexists. split; [reflexivity|assumption].
Qed.

Lemma setup_input_succeeds w c v cl enc p s : cooperative w c -> supported_input v ->
  exists s' r, setup_input w (from_default v SIn p) cl enc s = (s', Ok r).
Proof.
  intros Hc Hv. destruct Hc. destruct Hv; cbn [from_default setup_input]; try (do 2 eexists; reflexivity).
  - destruct (w_encode w enc s0) eqn:E; [do 2 eexists; reflexivity|]. exfalso. eapply co_encode; eauto.
  - destruct (sys_open_succeeds w s co_sys) as (s' & fd & E). unfold mbind at 1. rewrite E. do 2 eexists; reflexivity.
  - destruct (pty_bool p); do 2 eexists; reflexivity.
Qed.

Lemma setup_output_succeeds w c v ap cl which p s : cooperative w c -> w_same_std w = false -> which <> SIn ->
  supported_output v ->
  s_stderr_only s && (match which with SErr => true | _ => false end) = false \/ eq_redirect v STDOUT = true ->
  exists s' h, setup_output w (from_default v which p) ap cl which s = (s', Ok h).
Proof.
  intros Hc Hw Hn Hv Hs. destruct Hc.
  destruct (setup_output w (from_default v which p) ap cl which s) as [s' [h|e]] eqn:E; [eauto|].
  exfalso.
  assert (He : e = AssertionError).
  { assert (HP : forall (vv : value) s1, mbind (sys_open w)
       (fun fd : Z => mbind (modify (fun s0 => add_open s0 [IFile fd])) (fun _ => ret (HOpen vv (Some ap) fd))) s = (s1, Err e) -> False).
    { intros vv s1 HH. unfold mbind at 1 in HH. destruct (sys_open_succeeds w s co_sys) as (s2 & fd & E2). rewrite E2 in HH.
      unfold mbind, modify in HH. discriminate HH. }
    assert (HX : forall u0 (b1 b2 : bool) (x y : rst) (r : rst * res handle), (forall e', snd r = Err e' -> e' = AssertionError) ->
       (if b1 then if eq_redirect u0 STDOUT then (x, Ok (HInt PIPE)) else (y, Err AssertionError) else r) = (s', Err e) -> e = AssertionError).
    { intros u0 b1 b2 x y r Hr HH. destruct b1; [destruct (eq_redirect u0 STDOUT); congruence|]. apply Hr. rewrite HH. reflexivity. }
    unfold setup_output in E. destruct Hv; cbn [from_default] in E; try (exfalso; eapply HP; exact E);
      try (eapply HX in E; [exact E| exact true|intros e' He'; discriminate He']).
    destruct which; [contradiction| |]; destruct r; cbn [from_default] in E; try destruct (pty_bool p);
    (eapply HX in E; [exact E|exact true|intros e' He'; cbn in He';
       repeat match type of He' with context [if ?b then _ else _] => destruct b end; cbn in He'; congruence]). }
  subst e. apply setup_output_noassert in E; auto. destruct Hv; reflexivity.
Qed.

Lemma wire_errors w c s hs e : wire w c s hs = Err e -> e = AssertionError \/ e = UnicodeError.
Proof.
  destruct hs as [[h1 h2] h3]. unfold wire. intro H.
  match type of H with bind ?m _ = _ => destruct m as [io|e1] eqn:E1 end.
  - cbn [bind] in H. destruct io as [pin pout].
    match type of H with bind ?m _ = _ => destruct m as [er|e2] eqn:E2 end.
    + cbn [bind] in H. match type of H with bind ?m _ = _ => destruct m as [inp|e3] eqn:E3 end; [discriminate H|].
      cbn in H. inversion H; subst. destruct pin; [|discriminate E3]. unfold input_source in E3.
      destruct (s_input_bytes s); [discriminate E3|]. destruct (o_input (c_opts c)); try discriminate E3.
      destruct (w_encode w (o_encoding (c_opts c)) s1); [discriminate E3|]. inversion E3; auto.
    + cbn in H. inversion H; subst. destruct (pipe_stream h3 PStderr); [|discriminate E2].
      destruct (s_error_bytes s); [discriminate E2|]. destruct (s_stderr_only s); [|discriminate E2].
      destruct pout; [inversion E2; auto|]. destruct (s_output_bytes s); [discriminate E2|inversion E2; auto].
  - cbn in H. inversion H; subst. destruct (s_pty s); [|discriminate E1].
    destruct (is_pipe h1 || is_pipe h2); [inversion E1; auto|discriminate E1].
Qed.

Lemma setup_redirects_succeeds w c s : cooperative w c -> w_same_std w = false -> clean s -> 
  supported_input (o_input (c_opts c)) -> supported_output (o_output (c_opts c)) -> supported_output (o_error (c_opts c)) ->
  (o_pty (c_opts c) = PtyOff \/ o_preexec_fn (c_opts c) = None) ->
  exists s' hs, setup_redirects w c s = (s', Ok hs).
Proof.
  intros Hc Hw (C1 & C2 & C3 & C4) Hi Ho He Hp. unfold setup_redirects.
  destruct (setup_input_succeeds w c _ (o_input_close (c_opts c)) (o_encoding (c_opts c)) (o_pty (c_opts c)) s Hc Hi) as (s1 & i & E1).
  unfold mbind at 1. rewrite E1. apply setup_input_same in E1.
  fold (stderr_only (c_opts c)).
  assert (E2 : exists s2, (if stderr_only (c_opts c) then modify set_stderr_only else ret tt) s1 = (s2, Ok tt)
                /\ s_stderr_only s2 = stderr_only (c_opts c)).
  { destruct E1. destruct (stderr_only (c_opts c)); eexists; split; try reflexivity. congruence. }
  destruct E2 as (s2 & E2 & So). unfold mbind at 1. rewrite E2.
  destruct (setup_output_succeeds w c (o_output (c_opts c)) (o_output_append (c_opts c)) (o_output_close (c_opts c)) SOut (o_pty (c_opts c)) s2)
    as (s3 & hout & E3); auto; [discriminate|left; apply andb_false_r|].
  unfold mbind at 1. rewrite E3.
  apply setup_output_ok in E3; [|assumption|discriminate|apply andb_false_r].
  destruct E3 as (_ & _ & _ & So3 & _).
  destruct (setup_output_succeeds w c (o_error (c_opts c)) (o_error_append (c_opts c)) (o_error_close (c_opts c)) SErr (o_pty (c_opts c)) s3)
    as (s4 & herr & E4); auto; [discriminate| |].
  { rewrite So3, So, andb_true_r. unfold stderr_only.
    destruct (eq_redirect (o_error (c_opts c)) STDOUT); [auto|left; apply andb_false_r]. }
  unfold mbind at 1. rewrite E4.
  assert (E5 : exists s5 hs, (match o_pty (c_opts c) with
              | PtyOff => ret (fst i, hout, herr)
              | p => match o_preexec_fn (c_opts c) with Some _ => raise AssertionError | None => setup_pty1 w (fst i) hout herr p end
              end) s4 = (s5, Ok hs)).
  { assert (HP : forall p, exists s5 hs, setup_pty1 w (fst i) hout herr p s4 = (s5, Ok hs)).
    { intro p. destruct Hc. unfold setup_pty1, open_pty. unfold mbind at 1.
      unfold mbind at 1. destruct (sys_pair_succeeds w s4 co_sys) as (s5 & -> & _).
      unfold mbind at 1.
      assert (Ef : exists s6, (match p with PtyFunc _ => sys_check w (OtherError 1) | _ => ret tt end) s5 = (s6, Ok tt)).
      { destruct p; try (eexists; reflexivity). apply sys_check_succeeds; assumption. }
      destruct Ef as (s6 & ->). unfold mbind at 1. destruct (sys_check_succeeds w OSError s6 co_sys) as (s7 & ->).
      cbn [ret]. unfold mbind at 1. cbn [modify]. unfold mbind at 1.
      match goal with |- context [(if w_bsd w then _ else _) ?st] =>
        assert (Eg : exists s8, (if w_bsd w then ret tt else modify (fun s => add_open s [IChild (snd (s_next s4, s_next s4 + 1))])) st = (s8, Ok tt)) by (destruct (w_bsd w); eexists; reflexivity) end.
      destruct Eg as (s8 & ->). unfold mbind. destruct (sys_check_succeeds w OSError s8 co_sys) as (s9 & ->).
      do 2 eexists. reflexivity. }
    destruct Hp as [Hp|Hp]; rewrite Hp; [do 2 eexists; reflexivity|].
    destruct (o_pty (c_opts c)); [do 2 eexists; reflexivity|apply HP|apply HP]. }
  destruct E5 as (s5 & hs & E5). unfold mbind at 1. rewrite E5. do 2 eexists. reflexivity.
Qed.

Lemma start_succeeds w c next : cooperative w c -> w_same_std w = false ->
  c_args c <> [] -> Forall well_formed (c_args c) -> api_options (c_opts c) -> old_fds next (c_opts c) ->
  supported_input (o_input (c_opts c)) -> supported_output (o_output (c_opts c)) -> supported_output (o_error (c_opts c)) ->
  (o_pty (c_opts c) = PtyOff \/ (o_preexec_fn (c_opts c) = None /\ stderr_only (c_opts c) = false)) ->
  exists s hs wi, start w c next = (s, Ok (hs, wi)).
Proof.
  intros Hc Hw Hne HF Hapi Hold Hi Ho He Hp.
  destruct (start w c next) as [s [[hs wi]|e]] eqn:ES; [eauto|]. exfalso.
  assert (Hx : e = AssertionError).
  { unfold start in ES.
    assert (EN : exists se a h, enter w c (init_rst next) = (se, Ok (a, h))).
    { unfold enter, enter_body.
      assert (E1 : exists s1 args, (if uses_process_substitution c then setup_process_substitution w c else ret (c_args c)) (init_rst next) = (s1, Ok args)
                 /\ args <> []).
      { destruct (uses_process_substitution c).
        - destruct Hold as (Hnn & _). destruct Hc.
          destruct (procsub_succeeds w c (init_rst next) co_sys HF Hnn) as (s1 & r & E1 & L1).
          exists s1, r. split; [exact E1|]. intros ->. destruct (c_args c); [congruence|discriminate L1].
        - do 2 eexists. split; [reflexivity|assumption]. }
      destruct E1 as (s1 & args & E1 & Hargs). unfold mbind at 1. rewrite E1.
      assert (S1 : same_attrs (init_rst next) s1).
      { destruct (uses_process_substitution c); [eapply procsub_same; eauto|inversion E1; subst; apply same_refl]. }
      destruct (setup_redirects_succeeds w c s1) as (s2 & hs & E2); auto.
      { destruct S1. unfold clean. cbn in *. repeat split; congruence. }
      { destruct Hp as [Hp|[Hp _]]; auto. }
      unfold mbind at 1. rewrite E2. unfold mbind.
      destruct (setup_pass_fds c s2) as [s3 [[]|e3]] eqn:E3.
      2:{ exfalso. unfold setup_pass_fds in E3. destruct (o_pass_fds (c_opts c)); [discriminate E3|].
          destruct (o_pass_fds_close (c_opts c)); discriminate E3. }
      destruct args as [|exe rest]; [congruence|].
      destruct (w_no_dirname w exe); [|do 3 eexists; reflexivity].
      destruct Hc. destruct (w_which w (c_opts c) exe) eqn:EWh; [do 3 eexists; reflexivity|].
      exfalso. eapply co_which; eauto. }
    destruct EN as (se & a & h & EN). rewrite EN in ES.
    destruct (wire w c (exit_ false se) h) as [wi|e0] eqn:EW; cbn in ES; [discriminate ES|].
    assert (e0 = e) by congruence. subst e0.
    destruct (wire_errors _ _ _ _ _ EW) as [|HU]; [assumption|]. subst e.
    exfalso. destruct Hc. unfold wire in EW. destruct h as [[h1 h2] h3].
    match type of EW with bind ?m _ = _ => destruct m as [io|e1] eqn:E1 end.
    - cbn [bind] in EW. destruct io as [pin pout].
      match type of EW with bind ?m _ = _ => destruct m as [er|e2] eqn:E2 end.
      + cbn [bind] in EW. match type of EW with bind ?m _ = _ => destruct m as [inp|e3] eqn:E3 end; [discriminate EW|].
        cbn in EW. inversion EW; subst. destruct pin; [|discriminate E3]. unfold input_source in E3.
        destruct (s_input_bytes (exit_ false se)); [discriminate E3|]. destruct (o_input (c_opts c)); try discriminate E3.
        match type of E3 with context[w_encode w ?e ?t] => destruct (w_encode w e t) eqn:EE end; [discriminate E3|]. eapply co_encode; eauto.
      + cbn in EW. inversion EW; subst. destruct (pipe_stream h3 PStderr); [|discriminate E2].
        destruct (s_error_bytes (exit_ false se)); [discriminate E2|]. destruct (s_stderr_only (exit_ false se)); [|discriminate E2].
        destruct pout; [discriminate E2|]. destruct (s_output_bytes (exit_ false se)); discriminate E2.
    - cbn in EW. inversion EW; subst. destruct (s_pty (exit_ false se)); [|discriminate E1].
      destruct (is_pipe h1 || is_pipe h2); discriminate E1. }
  subst e. apply start_noassert in ES; [|assumption|assumption|assumption].
  destruct ES as (NP & [NE|[N1 N2]]); destruct Hp as [Hp|[Hp1 Hp2]]; try contradiction.
  unfold stderr_only in Hp2. rewrite N1, N2 in Hp2. discriminate Hp2.
Qed.
