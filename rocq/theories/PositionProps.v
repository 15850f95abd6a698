(** C67, the other half: which sinks are positioned, and how.  CopyProps shows
    what set_position followed by the copy leaves in a sink; here: starting a
    command calls it for the objects named by the options, with the append flag
    given with them, and for nothing else. *)
From Verif Require Import PipelineModel RunOptionsModel RouteSpec RouteProofs.
Open Scope Z_scope.

(** The values of an output option that have a position or contents. *)
Definition positioned_kind (v : value) : bool :=
  match v with
  | VByteArray _ _ | VStringIO _ _ | VBytesIO _ _ | VLogger _ | VStreamWriter _ | VFile _ => true
  | _ => false
  end.
Definition positions (o : opts) : list (value * bool) :=
  (if positioned_kind (o_output o) then [(o_output o, o_output_append o)] else [])
  ++ (if positioned_kind (o_error o) then [(o_error o, o_error_append o)] else []).

Definition keeps_pos {A} (m : M A) : Prop := forall s s' r, m s = (s', r) -> s_positioned s' = s_positioned s.
Lemma kp_ret {A} (a : A) : keeps_pos (ret a).
Proof. intros s s' r H. inversion H; reflexivity. Qed.
Lemma kp_raise {A} e : keeps_pos (@raise A e).
Proof. intros s s' r H. inversion H; reflexivity. Qed.
Lemma kp_modify f : (forall s, s_positioned (f s) = s_positioned s) -> keeps_pos (modify f).
Proof. intros F s s' r H. inversion H; subst. apply F. Qed.
Lemma kp_bind {A B} (m : M A) (f : A -> M B) : keeps_pos m -> (forall a, keeps_pos (f a)) -> keeps_pos (mbind m f).
Proof.
  intros Hm Hf s s' r H. unfold mbind in H. destruct (m s) as [s1 [a|e]] eqn:E.
  - rewrite (Hf a _ _ _ H). eapply Hm; exact E.
  - inversion H; subst. eapply Hm; exact E.
Qed.
Lemma kp_check w e : keeps_pos (sys_check w e).
Proof. intros s s' r H. inversion H; reflexivity. Qed.
Lemma kp_open w : keeps_pos (sys_open w).
Proof. intros s s' r H. unfold sys_open in H. destruct (w_ok w (s_sys s)); inversion H; reflexivity. Qed.
Lemma kp_pair w : keeps_pos (sys_pair w).
Proof. intros s s' r H. unfold sys_pair in H. destruct (w_ok w (s_sys s)); inversion H; reflexivity. Qed.
Ltac kp := repeat first [apply kp_bind; [|intros ?] | apply kp_ret | apply kp_raise | apply kp_check | apply kp_open | apply kp_pair
  | apply kp_modify; intros ?; reflexivity ].

Lemma kp_loop w args : keeps_pos (procsub_loop w args).
Proof.
  induction args as [|a args IH]; cbn [procsub_loop]; [apply kp_ret|]. destruct (is_substitution a).
  - apply kp_bind; [apply kp_pair|intros [rf wf]]. destruct (if is_writable a then sub_stdin a rf else sub_stdout a wf); kp. exact IH.
  - kp. exact IH.
Qed.
Lemma kp_subst w c : keeps_pos (setup_process_substitution w c).
Proof. unfold setup_process_substitution. apply kp_bind; [apply kp_loop|intros r]. kp. destruct (w_bsd w); kp. Qed.
Lemma kp_input w v close enc : keeps_pos (setup_input w v close enc).
Proof.
  unfold setup_input. destruct v; kp; try (apply kp_modify; intros s; destruct close; reflexivity).
  - destruct (w_encode w enc _); kp.
  - destruct r; kp; apply kp_modify; intros s; destruct close; reflexivity.
Qed.
Lemma kp_pty1 w a b c p : keeps_pos (setup_pty1 w a b c p).
Proof. unfold setup_pty1, open_pty. kp. all: try (destruct p; kp). all: destruct (w_bsd w); kp. Qed.
Lemma kp_fds c : keeps_pos (setup_pass_fds c).
Proof.
  intros s s' r H. unfold setup_pass_fds in H. destruct (o_pass_fds (c_opts c)).
  - destruct (s_close_fds s); inversion H; reflexivity.
  - destruct (o_pass_fds_close (c_opts c)); inversion H; reflexivity.
Qed.

Lemma output_positions w v ap close which s s' h : setup_output w v ap close which s = (s', Ok h) ->
  s_positioned s' = s_positioned s ++ (if positioned_kind v then [(v, ap)] else []).
Proof.
  unfold setup_output. intros H.
  destruct v; cbn [positioned_kind]; rewrite ?app_nil_r; revert H;
    destruct (s_stderr_only s && match which with SErr => true | _ => w_same_std w end);
    cbn [andb]; try discriminate.
  all: try (destruct (eq_redirect _ _); try discriminate).
  all: try (intros H; inversion H; subst; reflexivity).
  all: try (intros H; apply mbind_ok in H as (fd & s1 & E & H); apply kp_open in E; inversion H; subst; exact E).
  all: try (destruct close; intros H; inversion H; subst; reflexivity).
  all: try match goal with r : redirect |- _ => destruct r; try discriminate end.
  all: try (intros H; inversion H; subst; reflexivity).
  all: try (destruct close; intros H; inversion H; subst; reflexivity).
  all: try (destruct which; try (destruct (w_same_std w)); intros H; inversion H; subst; reflexivity).
Qed.

Lemma from_default_kind v f p : positioned_kind (from_default v f p) = positioned_kind v
  /\ (positioned_kind v = true -> from_default v f p = v).
Proof. destruct v; try (split; reflexivity). destruct r, f; cbn; destruct (pty_bool p); split; try reflexivity; discriminate. Qed.

Theorem c67_sinks_positioned :
  forall w c next s hs wi, start w c next = (s, Ok (hs, wi)) -> s_positioned s = positions (c_opts c).
Proof.
  intros w c next s hs wi H. unfold start in H.
  destruct (enter w c (init_rst next)) as [se [[args hs']|e]] eqn:E; [|discriminate H].
  unfold enter in E. destruct (enter_body w c (init_rst next)) as [sb [x|e]] eqn:EB; [|discriminate E].
  inversion E; subst sb x. clear E. inversion H; subst s. clear H. cbn [exit_ set_log_open s_positioned].
  unfold enter_body in EB. apply mbind_ok in EB as (args0 & s1 & E1 & EB).
  assert (P1 : s_positioned s1 = []).
  { destruct (uses_process_substitution c); [apply kp_subst in E1; exact E1|inversion E1; reflexivity]. }
  apply mbind_ok in EB as (hs0 & s2 & E2 & EB). apply mbind_ok in EB as ([] & s3 & E3 & EB). apply kp_fds in E3.
  assert (Es : s_positioned se = s_positioned s2).
  { rewrite <- E3. destruct args0 as [|exe rest]; [discriminate EB|]. destruct (w_no_dirname w exe).
    - destruct (w_which w (c_opts c) exe); [|discriminate EB]. inversion EB; reflexivity.
    - inversion EB; reflexivity. }
  rewrite Es. clear - P1 E2. unfold setup_redirects in E2.
  apply mbind_ok in E2 as (i & sa & Ea & E2). apply kp_input in Ea.
  apply mbind_ok in E2 as ([] & sb & Eb & E2).
  assert (Pb : s_positioned sb = s_positioned sa).
  { destruct (eq_redirect _ _ && eq_redirect _ _); inversion Eb; reflexivity. }
  apply mbind_ok in E2 as (ho & sc & Ec & E2). apply output_positions in Ec.
  apply mbind_ok in E2 as (he & sd & Ed & E2). apply output_positions in Ed.
  apply mbind_ok in E2 as (hs1 & sf & Ef & E2). apply mbind_ok in E2 as ([] & sg & Eg & E2). inversion E2; subst. inversion Eg; subst. cbn [set_input_bytes s_positioned].
  assert (Pf : s_positioned sf = s_positioned sd).
  { destruct (o_pty (c_opts c)); [inversion Ef; reflexivity| |]; (destruct (o_preexec_fn (c_opts c)); [discriminate Ef|]); eapply kp_pty1; exact Ef. }
  rewrite Pf, Ed, Ec, Pb, Ea, P1. unfold positions. cbn [app].
  destruct (from_default_kind (o_output (c_opts c)) SOut (o_pty (c_opts c))) as [K1 K2].
  destruct (from_default_kind (o_error (c_opts c)) SErr (o_pty (c_opts c))) as [K3 K4]. rewrite K1, K3.
  destruct (positioned_kind (o_output (c_opts c))); [rewrite K2 by reflexivity|];
    (destruct (positioned_kind (o_error (c_opts c))); [rewrite K4 by reflexivity|]); reflexivity.
Qed.
Print Assumptions c67_sinks_positioned.

From Verif Require Import RouteProps.
(** Standard output appended to a StringIO, standard error written over a
    bytearray; and a command whose output goes to a path positions nothing. *)
Definition ex_positioned (o e : value) : command := ([VStr [108; 115]],
  let x := ex_opts dflt o e PtyOff None in
  {| o_path := None; o_env := None; o_inherit_env := true; o_input := o_input x; o_input_close := false;
     o_output := o; o_output_append := true; o_output_close := false;
     o_error := e; o_error_append := false; o_error_close := false;
     o_error_limit := Some 1024; o_encoding := utf8_name; o_return_result := false;
     o_catch_cancelled := false; o_exit_codes := None; o_timeout := None;
     o_cancel_timeout := 3; o_cancel_signal := Some 15; o_alt_name := None;
     o_pass_fds := []; o_pass_fds_close := false; o_writable := false;
     o_start_new_session := false; o_preexec_fn := None; o_pty := PtyOff;
     o_close_fds := true; o_audit_callback := None; o_coerce_arg := None |}).
Definition positioned_of {A} (r : rst * res A) : option (list (value * bool)) :=
  match r with (s, Ok _) => Some (s_positioned s) | _ => None end.
Example c67_sinks_example :
  positioned_of (start ex_world (ex_positioned (VStringIO 1 []) (VByteArray 2 [])) 10)
    = Some [(VStringIO 1 [], true); (VByteArray 2 [], false)]
  /\ positioned_of (start ex_world (ex_positioned (VPath [120]) dflt) 10) = Some [].
Proof. vm_compute. split; reflexivity. Qed.
