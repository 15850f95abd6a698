(** C42, C43: descriptors passed with close=True, and descriptors opened by the
    setup of a command. *)
From Verif Require Import RunOptionsModel FdSpec FdProofs.
Open Scope Z_scope.

(** * C42 *)

(** The number of times a client's descriptor is closed, for every outcome.
    Pipelines used as arguments must not mention it (see the refutation). *)
Theorem c42_close_count : forall w c next failed fd,
  0 <= fd < next ->
  (forall a, In a (c_args c) -> is_pipeline a = true -> ~ mentions a fd) ->
  closes fd (run_fds w c next failed)
  = (occ fd (closable (c_opts c)) + (if setup_ok w c next && failed then occ fd (flat_map sub_closable (c_args c)) else 0))%nat.
Proof.
  intros w c next failed fd F NM. unfold run_fds, setup_ok, enter. destruct (enter_body w c (init_rst next)) as [s r] eqn:E.
  destruct r as [x|e]; cbn [snd].
  - apply enter_delta in E as (L & It & Sb & D & A & _); [|cbn; lia]. destruct (A fd F NM) as (A1 & A2 & A3).
    pose proof (d_log _ _ _ _ _ D) as DL. pose proof (d_open _ _ _ _ _ D) as DO. pose proof (d_subs _ _ _ _ _ D) as DS. cbn in DL, DO, DS.
    unfold exit_. rewrite DO, DS, DL. assert (C : closes fd (close_fds It (map Opened L)) = occ fd (closable (c_opts c))).
    { rewrite close_fds_ints by (try exact A3; lia). rewrite closes_opened. lia. }
    destruct failed; cbn [set_log_open s_log andb]; [rewrite closes_cleanups by lia|]; lia.
  - cbn [set_log_open s_log andb]. apply plain_enter in E as (L & E). cbn in E. rewrite E, closes_cleanup, closes_opened by lia. unfold sub_occ. cbn. unfold c_opts. lia.
Qed.
Print Assumptions c42_close_count.
(** ... in particular: exactly once if passed with close=True, never otherwise. *)
Theorem c42_own_descriptors : forall w c next failed fd,
  0 <= fd < next ->
  (forall a, In a (c_args c) -> ~ mentions a fd) ->
  (occ fd (closable (c_opts c)) = 1%nat -> closes fd (run_fds w c next failed) = 1%nat)
  /\ (~ In fd (closable (c_opts c)) -> closes fd (run_fds w c next failed) = 0%nat).
Proof.
  intros w c next failed fd F NM. rewrite c42_close_count by auto.
  assert (Z0 : occ fd (flat_map sub_closable (c_args c)) = 0%nat).
  { clear -NM. induction (c_args c) as [|x l IH]; [reflexivity|]. cbn. rewrite occ_app, sub_closable_nomention by (apply NM; now left). apply IH. intros a I. apply NM. now right. }
  rewrite Z0. split; intros H; [|rewrite (occ_In _ _ H)]; destruct (_ && _); lia.
Qed.
Print Assumptions c42_own_descriptors.

(** The objects of the client that the options of a command say to close: its
    file-like and file objects given with close=True. *)
Definition closed_object (close : bool) (v : value) : list value :=
  match close, v with
  | true, VStringIO _ _ => [v]
  | true, VBytesIO _ _ => [v]
  | true, VFile _ => [v]
  | _, _ => []
  end.
Definition closable_objects (o : opts) : list value :=
  closed_object (o_input_close o) (o_input o) ++ closed_object (o_output_close o) (o_output o)
  ++ closed_object (o_error_close o) (o_error o).
Definition object_of (i : item) : list value := match i with IClient v => [v] | _ => [] end.

(** Giving up a command closes each of these objects once, in the order stdin,
    stdout, stderr, and no other object. *)
Theorem c42_client_objects : forall o, flat_map object_of (cleanup_items o) = closable_objects o.
Proof.
  intros o. unfold cleanup_items, closable_objects. rewrite !flat_map_app.
  assert (P : flat_map object_of (if o_pass_fds_close o then map IFd (o_pass_fds o) else []) = []).
  { destruct (o_pass_fds_close o); [|reflexivity]. induction (o_pass_fds o) as [|z l IH]; [reflexivity|exact IH]. }
  rewrite P, app_nil_r. f_equal; [|f_equal]; unfold add_close, closed_object;
    match goal with |- context [if ?b then _ else _] => destruct b end; try reflexivity;
    match goal with |- context [match ?v with VInt _ => _ | _ => _ end] => destruct v; reflexivity end.
Qed.
Print Assumptions c42_client_objects.
Example c42_client_example :
  flat_map object_of (cleanup_items (match set_stdin default_options (VBytesIO 3 []) true with Ok o => o | _ => default_options end)) = [VBytesIO 3 []].
Proof. reflexivity. Qed.

(** A command that is not launched, including the commands in its arguments,
    should close all descriptors passed with close=True. *)
Definition c42_full_claim : Prop :=
  forall w c next fd, 0 <= fd < next ->
  (forall a, In a (c_args c) -> is_pipeline a = false) ->
  occ fd (closable (c_opts c) ++ flat_map sub_closable (c_args c)) = 1%nat ->
  closes fd (run_fds w c next true) = 1%nat.
Definition plain_world (found : bool) : world := {|
  w_ok := fun _ => true; w_same_std := false; w_bsd := false; w_encode := fun _ t => Some t;
  w_no_dirname := fun _ => true; w_which := fun _ v => if found then Some v else None; w_dev_fd := fun fd => [fd] |}.
Definition nested (o : opts) : command := ([VStr [1]; VCmd [VStr [2]] o], default_options).
Definition with_input (o : opts) (fd : Z) : opts := match set_stdin o (VInt fd) true with Ok o' => o' | Err _ => o end.
(** cmd("nonexistent", cmd("cat").stdin(fd, close=True)) leaks fd: when the
    executable is not found, only the outer command is cleaned up. *)
Theorem c42_refuted : ~ c42_full_claim.
Proof.
  intros H. specialize (H (plain_world false) (nested (with_input default_options 7)) 20 7 ltac:(lia)).
  specialize (H ltac:(intros a [<-|[<-|[]]]; reflexivity) eq_refl). discriminate H.
Qed.
Print Assumptions c42_refuted.
(** The same with a pipeline as argument, even if the launch itself fails:
    only the last command of the pipeline is looked at. *)
Theorem c42_pipeline_argument_leaks :
  exists w c next fd, 0 <= fd < next /\ setup_ok w c next = true
  /\ (exists p o, In (VPipe p) (c_args c) /\ In ([VStr [2]], o) p /\ In fd (closable o)) /\ closes fd (run_fds w c next true) = 0%nat.
Proof.
  exists (plain_world true), ([VStr [1]; VPipe [([VStr [2]], with_input default_options 7); ([VStr [3]], default_options)]], default_options), 20, 7.
  split; [lia|]. split; [reflexivity|]. split; [|reflexivity]. do 2 eexists. split; [right; left; reflexivity|]. split; [left; reflexivity|]. left. reflexivity.
Qed.
Print Assumptions c42_pipeline_argument_leaks.

(** Standard input 7, standard output 8 and pass_fds 9, all with close=True:
    launched, not launched, and not found. *)
Definition three : command := ([VStr [1]], {|
  o_path := None; o_env := None; o_inherit_env := true; o_input := VInt 7; o_input_close := true; o_output := VInt 8;
  o_output_append := false; o_output_close := true; o_error := VInt 10; o_error_append := false; o_error_close := false;
  o_error_limit := None; o_encoding := []; o_return_result := false; o_catch_cancelled := false; o_exit_codes := None; o_timeout := None;
  o_cancel_timeout := o_cancel_timeout default_options; o_cancel_signal := o_cancel_signal default_options; o_alt_name := None; o_pass_fds := [9]; o_pass_fds_close := true;
  o_writable := false; o_start_new_session := false; o_preexec_fn := None; o_pty := PtyOff; o_close_fds := true;
  o_audit_callback := None; o_coerce_arg := None |}).
Example c42_example :
  (forall a, In a (c_args three) -> ~ mentions a 7)
  /\ occ 7 (closable (c_opts three)) = 1%nat
  /\ run_fds (plain_world true) three 20 false = [Closed 7; Closed 8; Closed 9]
  /\ run_fds (plain_world true) three 20 true = [Closed 7; Closed 8; Closed 9]
  /\ run_fds (plain_world false) three 20 false = [Closed 7; Closed 8; Closed 9].
Proof. split; [intros a [<-|[]] (o & E & _); discriminate E|]. repeat split. Qed.

(** * C43 *)

(** The descriptors named in the options existed before. *)
Definition client_fds_old (c : command) (next : Z) : Prop :=
  (forall z, In z (closable (c_opts c)) -> z < next) /\ (forall a z, In a (c_args c) -> mentions a z -> z < next).
Definition fully_closed (next : Z) (log : list fdev) : Prop := forall fd, next <= fd -> closes fd log = opens fd log.

(** If a command is not launched, everything opened for it is closed. *)
Definition c43_full_claim : Prop :=
  forall w c next, 0 <= next -> client_fds_old c next -> fully_closed next (run_fds w c next true).
(** Command not found with a process substitution: the pipe leaks. *)
Theorem c43_refuted : ~ c43_full_claim.
Proof.
  intros H. specialize (H (plain_world false) (nested default_options) 20 ltac:(lia)).
  assert (C : client_fds_old (nested default_options) 20).
  { split; [intros z []|]. intros a z [<-|[<-|[]]] (o & E & I); [discriminate E|]. injection E as <-. destruct I. }
  specialize (H C 20 ltac:(lia)). discriminate H.
Qed.
Print Assumptions c43_refuted.
(** Launch fails with pty: the parent descriptor leaks. *)
Definition with_pty : command := ([VStr [1]], {|
  o_path := None; o_env := None; o_inherit_env := true; o_input := VRedirect DEFAULT; o_input_close := false; o_output := VRedirect DEFAULT;
  o_output_append := false; o_output_close := false; o_error := VRedirect DEFAULT; o_error_append := false; o_error_close := false;
  o_error_limit := None; o_encoding := []; o_return_result := false; o_catch_cancelled := false; o_exit_codes := None; o_timeout := None;
  o_cancel_timeout := o_cancel_timeout default_options; o_cancel_signal := o_cancel_signal default_options; o_alt_name := None; o_pass_fds := []; o_pass_fds_close := false;
  o_writable := false; o_start_new_session := false; o_preexec_fn := None; o_pty := PtyOn; o_close_fds := true;
  o_audit_callback := None; o_coerce_arg := None |}).
Theorem c43_pty_parent_leaks : run_fds (plain_world true) with_pty 20 true = [Opened 20; Opened 21; Closed 21].
Proof. reflexivity. Qed.
Print Assumptions c43_pty_parent_leaks.

(** Setting up succeeded but the launch fails (or is cancelled): everything is
    closed, exactly once, unless a pty or a writable pipeline is involved. *)
Theorem c43_failed_launch_partial : forall w c next,
  0 <= next -> client_fds_old c next -> setup_ok w c next = true ->
  o_pty (c_opts c) = PtyOff -> (forall a, In a (c_args c) -> is_pipeline a && is_writable a = false) ->
  fully_closed next (run_fds w c next true) /\ (forall fd, (opens fd (run_fds w c next true) <= 1)%nat).
Proof.
  intros w c next P [CF1 CF2] SO PO NW. unfold run_fds, setup_ok, enter in *. destruct (enter_body w c (init_rst next)) as [s r] eqn:E.
  destruct r as [x|e]; [|discriminate SO]. clear SO.
  apply enter_delta in E as (L & It & Sb & D & _ & B); [|cbn; lia]. cbn [init_rst s_next] in B.
  pose proof (d_log _ _ _ _ _ D) as DL. pose proof (d_open _ _ _ _ _ D) as DO. pose proof (d_subs _ _ _ _ _ D) as DS. cbn in DL, DO, DS.
  pose proof (fun fd => occ_nodup fd L (d_nodup _ _ _ _ _ D)) as N.
  unfold exit_. rewrite DO, DS, DL. cbn [set_log_open s_log].
  assert (OP : forall fd, opens fd (fold_left (fun l sub => cleanup sub l) Sb (close_fds It (map Opened L))) = occ fd L).
  { intros fd. rewrite opens_cleanups, opens_close_fds. apply opens_opened. }
  split; [|intros fd; rewrite OP; apply N]. intros fd F. rewrite OP.
  assert (MM : forall a, In a (c_args c) -> ~ mentions a fd /\ writable_pipeline a = false).
  { intros a I. split; [|now apply NW]. intros M. apply (CF2 a fd I) in M. lia. }
  specialize (B fd F PO MM). rewrite (occ_In fd (closable (c_opts c))) in B by (intros Q; apply CF1 in Q; lia).
  specialize (N fd). rewrite closes_cleanups by lia.
  destruct (Nat.eq_dec (cnt fd It + cntf fd It) 1) as [Q|Q].
  - rewrite close_fds_file; [|lia|apply closes_opened|exact Q]. lia.
  - rewrite close_fds_none by lia. rewrite closes_opened. lia.
Qed.
Print Assumptions c43_failed_launch_partial.
(** A successful launch: what stays open in the parent is exactly what the
    substitutions will close when they run (their close=True redirections). *)
Theorem c43_successful_launch_partial : forall w c next s x,
  0 <= next -> client_fds_old c next -> enter w c (init_rst next) = (s, Ok x) ->
  o_pty (c_opts c) = PtyOff -> (forall a, In a (c_args c) -> is_pipeline a && is_writable a = false) ->
  forall fd, next <= fd ->
  (closes fd (s_log (exit_ false s)) + occ fd (flat_map (fun v => match value_options v with Some o => closable o | None => [] end) (s_subcmds s))
   = opens fd (s_log (exit_ false s)))%nat.
Proof.
  intros w c next s x P [CF1 CF2] E PO NW fd F. unfold enter in E. destruct (enter_body w c (init_rst next)) as [s0 r] eqn:E0.
  destruct r as [x0|e]; [|discriminate E]. injection E as <- <-.
  apply enter_delta in E0 as (L & It & Sb & D & _ & B); [|cbn; lia]. cbn [init_rst s_next] in B.
  pose proof (d_log _ _ _ _ _ D) as DL. pose proof (d_open _ _ _ _ _ D) as DO. pose proof (d_subs _ _ _ _ _ D) as DS. cbn in DL, DO, DS.
  pose proof (occ_nodup fd L (d_nodup _ _ _ _ _ D)) as N.
  unfold exit_. rewrite DO, DS, DL. cbn [set_log_open s_log].
  rewrite opens_close_fds, opens_opened.
  assert (SS : occ fd (flat_map (fun v => match value_options v with Some o => closable o | None => [] end) Sb) = subs_occ fd Sb).
  { clear. induction Sb as [|v l IH]; [reflexivity|]. cbn. rewrite occ_app, IH. unfold sub_occ. destruct (value_options v); reflexivity. }
  rewrite SS.
  assert (MM : forall a, In a (c_args c) -> ~ mentions a fd /\ writable_pipeline a = false).
  { intros a I. split; [|now apply NW]. intros M. apply (CF2 a fd I) in M. lia. }
  specialize (B fd F PO MM). rewrite (occ_In fd (closable (c_opts c))) in B by (intros Q; apply CF1 in Q; lia).
  destruct (Nat.eq_dec (cnt fd It + cntf fd It) 1) as [Q|Q].
  - rewrite close_fds_file; [|lia|apply closes_opened|exact Q]. lia.
  - rewrite close_fds_none by lia. rewrite closes_opened. lia.
Qed.
Print Assumptions c43_successful_launch_partial.
(** Nothing is opened by a command without substitutions, pty and files. *)
Definition no_path (v : value) : Prop := match v with VPath _ | VPathLike _ => False | _ => True end.
Theorem c43_nothing_opened_partial : forall w c next failed fd,
  uses_process_substitution c = false -> o_pty (c_opts c) = PtyOff ->
  no_path (o_input (c_opts c)) -> no_path (o_output (c_opts c)) -> no_path (o_error (c_opts c)) ->
  opens fd (run_fds w c next failed) = 0%nat.
Proof.
  intros w c next failed fd U PO N1 N2 N3. unfold run_fds, enter. destruct (enter_body w c (init_rst next)) as [s r] eqn:E.
  assert (O : opens fd (s_log s) = 0%nat) by (rewrite (quiet_enter w c U PO N1 N2 N3 _ _ _ E); reflexivity).
  destruct r as [x|e]; [|cbn [set_log_open s_log]; unfold cleanup; destruct (value_options _); rewrite ?opens_close_fds; exact O].
  unfold exit_. cbn [set_log_open s_log]. destruct failed; rewrite ?opens_cleanups, opens_close_fds; exact O.
Qed.
Print Assumptions c43_nothing_opened_partial.

(** A file for stdout and a process substitution; the launch fails: three
    descriptors opened, three closed. *)
Definition with_file : command :=
  ([VStr [1]; VCmd [VStr [2]] default_options], match set_stdout default_options (VPath [9]) false false with Ok o => o | Err _ => default_options end).
Example c43_example :
  setup_ok (plain_world true) with_file 20 = true
  /\ client_fds_old with_file 20
  /\ run_fds (plain_world true) with_file 20 true = [Opened 20; Opened 21; Opened 22; Closed 20; Closed 22; Closed 21].
Proof.
  split; [reflexivity|]. split; [|reflexivity]. split; [intros z []|]. intros a z [<-|[<-|[]]] (o & E & I); [discriminate E|]. injection E as <-. destruct I.
Qed.
