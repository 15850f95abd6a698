(** Theorems about process substitution (C118): what the process and the
    substituted commands get, for every argument list. *)
From Verif Require Import PipelineModel PipelineProofs RunOptionsModel RouteProofs CommandSpec CommandProofs FdSpec FdProofs SubstSpec.
From Verif Require RouteProps.
Open Scope Z_scope.

(** ** Proofs *)
Lemma cmd_stdin_one a o z o1 : cmd_stdin (a, o) (VInt z) true = Ok o1 -> exists o', o1 = (a, o') /\ one_update (UStdin (VInt z) true) o o'.
Proof.
  unfold cmd_stdin. cbn [c_opts c_args fst snd]. destruct (negb (is_stdout (VInt z))) eqn:V.
  - destruct (set_stdin_ok o (VInt z) true V) as (o' & -> & H & Q). cbn [bind]. unfold mk_command. destruct a; [discriminate|]. intros [= <-]. exists o'. split; [reflexivity|]. split; [exact H|]. apply Q.
  - destruct (set_stdin_err o (VInt z) true V) as (e & ->). discriminate.
Qed.
Lemma cmd_stdout_one a o z o1 : cmd_stdout (a, o) (VInt z) false true = Ok o1 -> exists o', o1 = (a, o') /\ one_update (UStdout (VInt z) false true) o o'.
Proof.
  unfold cmd_stdout. cbn [c_opts c_args fst snd]. destruct (negb (is_stdout (VInt z))) eqn:V.
  - destruct (set_stdout_ok o (VInt z) false true V) as (o' & -> & H & Q). cbn [bind]. unfold mk_command. destruct a; [discriminate|]. intros [= <-]. exists o'. split; [reflexivity|]. split; [exact H|]. apply Q.
  - destruct (set_stdout_err o (VInt z) false true V) as (e & ->). discriminate.
Qed.
Lemma sub_stdin_redirected v z v' : sub_stdin v z = Ok v' -> redirected (UStdin (VInt z) true) v v'.
Proof.
  destruct v as [| | | | | | | | | | | | | | | | | | | | | |a o|p]; try discriminate; cbn [sub_stdin].
  - unfold as_cmd_value. destruct (cmd_stdin (a, o) (VInt z) true) as [c|] eqn:E; [|discriminate]. apply cmd_stdin_one in E as (o' & -> & H). intros [= <-]. now constructor.
  - destruct p as [|[a o] p]; [discriminate|]. unfold as_pipe_value. rewrite pipe_stdin_cons. destruct (cmd_stdin (a, o) (VInt z) true) as [c|] eqn:E; [|discriminate].
    apply cmd_stdin_one in E as (o' & -> & H). intros [= <-]. now constructor.
Qed.
Lemma sub_stdout_redirected v z v' : sub_stdout v z = Ok v' -> redirected (UStdout (VInt z) false true) v v'.
Proof.
  destruct v as [| | | | | | | | | | | | | | | | | | | | | |a o|p]; try discriminate; cbn [sub_stdout].
  - unfold as_cmd_value. destruct (cmd_stdout (a, o) (VInt z) false true) as [c|] eqn:E; [|discriminate]. apply cmd_stdout_one in E as (o' & -> & H). intros [= <-]. now constructor.
  - destruct (snoc_cases p) as [->|(pre & [a o] & ->)]; [discriminate|]. unfold as_pipe_value. rewrite pipe_stdout_snoc. destruct (cmd_stdout (a, o) (VInt z) false true) as [c|] eqn:E; [|discriminate].
    apply cmd_stdout_one in E as (o' & -> & H). intros [= <-]. now constructor.
Qed.

Lemma writable_wants v : is_writable v = true <-> wants_input v.
Proof.
  destruct v as [| | | | | | | | | | | | | | | | | | | | | |a o|p]; cbn; try (split; [discriminate|intros []]); [reflexivity|].
  destruct p as [|c0 p]; [cbn; split; [discriminate|intros (c & [] & _)]|].
  destruct (snoc_cases (c0 :: p)) as [Q|(pre & cn & E)]; [discriminate|]. rewrite E, last_cmd_app, <- E. cbn [first_cmd]. rewrite orb_true_iff. split.
  - intros [W|W]; [exists cn|exists c0]; (split; [|split; [exact W|]]); [rewrite E; apply in_or_app; right; now left|right; eauto|now left|left; eauto].
  - intros (c & _ & W & [(l & Q)|(l & Q)]); [right|left].
    + injection Q as -> _. exact W.
    + rewrite E in Q. apply app_inj_tail in Q as [_ ->]. exact W.
Qed.
Lemma procsub_spec w args : forall s s' r, procsub_loop w args s = (s', Ok r) ->
  exists js, substituted (w_dev_fd w) args (fst r) js (snd r)
  /\ s_subcmds s' = s_subcmds s ++ map j_sub js
  /\ NoDup (ends js) /\ (forall z, In z (ends js) -> s_next s <= z < s_next s') /\ s_next s <= s_next s'.
Proof.
  induction args as [|a args IH]; intros s s' r H; cbn [procsub_loop] in H.
  { injection H as <- <-. exists []. split; [constructor|]. split; [now rewrite app_nil_r|]. split; [constructor|]. split; [intros z []|lia]. }
  destruct (is_substitution a) eqn:IS.
  - apply mbind_ok in H as (rw & s1 & H1 & H). unfold sys_pair in H1. destruct (w_ok w (s_sys s)); [|discriminate]. injection H1 as <- <-. cbv beta iota zeta in H.
    remember (if is_writable a then sub_stdin a (s_next s) else sub_stdout a (s_next s + 1)) as q eqn:Q. destruct q as [sub|]; [|discriminate H].
    apply mbind_ok in H as ([] & s2 & H2 & H). injection H2 as <-. apply mbind_ok in H as (r' & s3 & H3 & H). injection H as <- <-.
    apply IH in H3 as (js & SU & SC & ND & FR & LE). cbn in SC, FR, LE.
    exists (mk_joint (s_next s) (s_next s + 1) sub :: js). split; [|split; [|split; [|split]]].
    + cbn [fst snd]. apply su_sub; [destruct a; try discriminate; exact Logic.I| |exact SU].
      destruct (is_writable a) eqn:W.
      * left. split; [now apply writable_wants|]. split; [reflexivity|]. cbn. apply sub_stdin_redirected. now symmetry.
      * right. split; [rewrite <- writable_wants; congruence|]. split; [reflexivity|]. cbn. apply sub_stdout_redirected. now symmetry.
    + rewrite SC, <- app_assoc. reflexivity.
    + cbn. constructor; [intros [Z|Z]; [lia|apply FR in Z; lia]|]. constructor; [intros Z; apply FR in Z; lia|exact ND].
    + cbn. intros z [<-|[<-|Z]]; [lia|lia|apply FR in Z; lia].
    + lia.
  - apply mbind_ok in H as (r' & s3 & H3 & H). injection H as <- <-. apply IH in H3 as (js & SU & SC & ND & FR & LE).
    exists js. split; [|auto]. cbn [fst snd]. apply su_plain; [|exact SU]. destruct a; try discriminate; intros [].
Qed.

(** The rest of the setup does not touch the substituted commands and the
    keyword arguments. *)
Definition quiet {A} (m : M A) : Prop := forall s s' r, m s = (s', r) -> s_subcmds s' = s_subcmds s /\ s_pass_fds s' = s_pass_fds s /\ s_close_fds s' = s_close_fds s /\ incl (s_open s) (s_open s').
Lemma q_bind {A B} (m : M A) (f : A -> M B) : quiet m -> (forall a, quiet (f a)) -> quiet (mbind m f).
Proof.
  intros H1 H2 s s' r. unfold mbind. destruct (m s) as [s1 [a|e]] eqn:E; intros H.
  - destruct (H1 _ _ _ E) as (A1 & A2 & A3 & A4). destruct (H2 _ _ _ _ H) as (B1 & B2 & B3 & B4). repeat split; try congruence. intros x Hx; auto.
  - injection H as <- <-. eapply H1; eauto.
Qed.
Lemma q_ret {A} (a : A) : quiet (ret a). Proof. intros s s' r [= <- <-]. repeat split; apply incl_refl. Qed.
Lemma q_raise {A} e : quiet (@raise A e). Proof. intros s s' r [= <- <-]. repeat split; apply incl_refl. Qed.
Lemma q_modify f : (forall s, s_subcmds (f s) = s_subcmds s /\ s_pass_fds (f s) = s_pass_fds s /\ s_close_fds (f s) = s_close_fds s /\ incl (s_open s) (s_open (f s))) -> quiet (modify f).
Proof. intros H s s' r [= <- <-]. apply H. Qed.
Lemma q_check w e : quiet (sys_check w e). Proof. intros s s' r [= <- <-]. repeat split; apply incl_refl. Qed.
Lemma q_open w : quiet (sys_open w). Proof. intros s s' r. unfold sys_open. destruct (w_ok w (s_sys s)); intros [= <- <-]; repeat split; apply incl_refl. Qed.
Lemma q_pair w : quiet (sys_pair w). Proof. intros s s' r. unfold sys_pair. destruct (w_ok w (s_sys s)); intros [= <- <-]; repeat split; apply incl_refl. Qed.
Ltac qd := repeat split; first [apply incl_refl|apply incl_appl, incl_refl|reflexivity].
Ltac qq := repeat first [apply q_ret|apply q_raise|apply q_check|apply q_open|apply q_pair|(apply q_bind; [|intro])
  |(apply q_modify; intro; first [solve [qd]|repeat match goal with |- context [if ?b then _ else _] => destruct b end; solve [qd]])].
Lemma q_input w v cl enc : quiet (setup_input w v cl enc).
Proof. destruct v; cbn; qq. - destruct (w_encode w enc s); qq. - destruct r; qq. Qed.
Lemma q_output w v ap cl wh : quiet (setup_output w v ap cl wh).
Proof.
  unfold setup_output. destruct v eqn:EV; try solve [qq];
    (intros s1 s2 rr H; destruct (_ && _); [destruct (eq_redirect _ _)|]);
    repeat match type of H with context [match ?x with _ => _ end] => destruct x end;
    try (injection H as <- <-; solve [qd]).
Qed.
Lemma q_redirects w c : quiet (setup_redirects w c).
Proof.
  unfold setup_redirects. apply q_bind; [apply q_input|]. intros i. apply q_bind; [destruct (_ && _); qq|]. intros _.
  apply q_bind; [apply q_output|]. intros h1. apply q_bind; [apply q_output|]. intros h2. apply q_bind; [|intros; qq].
  assert (P : quiet (setup_pty1 w (fst i) h1 h2 (o_pty (c_opts c)))).
  { unfold setup_pty1, open_pty. apply q_bind; [apply q_bind; [qq|]; intros; apply q_bind; [destruct (o_pty (c_opts c)); qq|intros; qq]|].
    intros pc. apply q_bind; [qq|]. intros _. apply q_bind; [destruct (w_bsd w); qq|]. intros; qq. }
  destruct (o_pty (c_opts c)); [qq| |]; (destruct (o_preexec_fn (c_opts c)); [qq|exact P]).
Qed.

Lemma no_subst args : existsb is_substitution args = false -> forall path, substituted path args args [] [].
Proof.
  intros H path. induction args as [|a args IH]; [constructor|]. cbn in H. apply orb_false_iff in H as [H1 H2].
  apply su_plain; [destruct a; try discriminate; intros []|auto].
Qed.
Lemma subst_some path args args' js fds : substituted path args args' js fds -> existsb is_substitution args = true -> js <> [].
Proof. induction 1 as [|a args args' js fds N S IH|a args args' j js fd fds Y S]; cbn; [discriminate| |discriminate]. destruct a; cbn; auto; now elim N. Qed.

Lemma closes_in z l : 0 <= z -> forall log, In (IFd z) l -> In (Closed z) (close_fds l log).
Proof.
  intros P. assert (K : forall l log, In (Closed z) log -> In (Closed z) (close_fds l log)).
  { clear l. induction l as [|i l IH]; intros log H; [exact H|]. cbn. apply IH. destruct i; cbn; [destruct (0 <=? z0)|destruct (existsb _ _)|destruct (existsb _ _)|]; rewrite ?in_app_iff; auto. }
  induction l as [|i l IH]; intros log []; [|cbn; now apply IH]. subst i. cbn. apply K. destruct (Z.leb_spec 0 z); [|lia]. apply in_or_app. right. now left.
Qed.
Lemma subst_ends path args args' js fds : substituted path args args' js fds -> forall z, In z fds -> In z (ends js).
Proof.
  induction 1 as [|a args args' js fds N S IH|a args args' j js fd fds Y RP S IH]; intros z Hz; [destruct Hz|auto|].
  cbn. destruct Hz as [<-|Hz]; [|auto]. destruct RP as [(_ & -> & _)|(_ & -> & _)]; auto.
Qed.

(** ** C118 *)
(** Each command among the arguments gets a pipe of its own, made of new
    descriptors: the process gets the name of one end and inherits it, the
    command runs with its stdin or stdout on the other end, which it closes;
    nothing else about it changes.  Shellous closes its own copies of the first
    once the process is launched.  Everything else on the command line stays as
    and where it is, except that the program is looked up in PATH. *)
Theorem c118_substitution : forall R c next s args' hs,
  enter R c (init_rst next) = (s, Ok (args', hs)) ->
  exists exe exe' rest js fds,
  substituted (w_dev_fd R) (c_args c) (exe :: rest) js fds /\ args' = exe' :: rest
  /\ (if w_no_dirname R exe then w_which R (c_opts c) exe = Some exe' else exe' = exe)
  /\ s_subcmds s = map j_sub js
  /\ NoDup (ends js) /\ (forall z, In z (ends js) -> next <= z)
  /\ (js <> [] -> s_pass_fds s = Some (fds ++ o_pass_fds (c_opts c)) /\ s_close_fds s = Some true)
  /\ (0 <= next -> forall z, In z fds -> In (Closed z) (s_log (exit_ false s))).
Proof.
  intros R c next s args' hs H. unfold enter in H. destruct (enter_body R c (init_rst next)) as [s0 [x|e]] eqn:E; [|discriminate]. injection H as -> ->.
  unfold enter_body in E. apply mbind_ok in E as (args & s1 & H1 & E). apply mbind_ok in E as (hs' & s2 & H2 & E). apply mbind_ok in E as ([] & s3 & H3 & E).
  assert (Q : exists exe exe' rest, args = exe :: rest /\ args' = exe' :: rest /\ (if w_no_dirname R exe then w_which R (c_opts c) exe = Some exe' else exe' = exe) /\ s3 = s).
  { destruct args as [|exe rest]; [discriminate E|]. destruct (w_no_dirname R exe) eqn:D.
    - destruct (w_which R (c_opts c) exe) as [f|] eqn:W; [|discriminate E]. injection E as <- <- _. exists exe, f, rest. rewrite D. auto.
    - injection E as <- <- _. exists exe, exe, rest. rewrite D. auto. }
  destruct Q as (exe & exe' & rest & -> & -> & EX & ->). clear E.
  destruct (q_redirects _ _ _ _ _ H2) as (A1 & A2 & A3 & A4).
  assert (P3 : (s_subcmds s = s_subcmds s2 /\ incl (s_open s2) (s_open s)) /\ (s_close_fds s2 = Some true -> forall l, s_pass_fds s2 = Some l -> s_pass_fds s = Some (l ++ o_pass_fds (c_opts c)) /\ s_close_fds s = Some true)).
  { unfold setup_pass_fds in H3. destruct (o_pass_fds (c_opts c)) as [|p ps] eqn:PF.
    - destruct (s_close_fds s2) eqn:CF; injection H3 as <-; (split; [split; [reflexivity|apply incl_refl]|]); intros CT l LL; [rewrite app_nil_r; split; [exact LL|congruence]|discriminate].
    - injection H3 as <-. split; [destruct (o_pass_fds_close _); (split; [reflexivity|]); [apply incl_appl, incl_refl|apply incl_refl]|]. intros _ l LL. rewrite LL. destruct (o_pass_fds_close _); cbn; auto. }
  destruct P3 as [[P3 P5] P4]. exists exe, exe', rest.
  destruct (uses_process_substitution c) eqn:U.
  - unfold setup_process_substitution in H1. apply mbind_ok in H1 as (r0 & t1 & T1 & H1). apply mbind_ok in H1 as ([] & t2 & T2 & H1).
    apply mbind_ok in H1 as ([] & t3 & T3 & H1). injection H1 as <- ER. injection T2 as <-.
    apply procsub_spec in T1 as (js & SU & SC & ND & FR & _). cbn in SC, FR.
    assert (K : s_subcmds t3 = s_subcmds t1 /\ s_pass_fds t3 = Some (snd r0) /\ s_close_fds t3 = Some true /\ incl (map IFd (snd r0)) (s_open t3)).
    { destruct (w_bsd R); [|injection T3 as <-; cbn; repeat split; apply incl_appr, incl_refl]. apply q_check in T3 as (K1 & K2 & K3 & K4). cbn in *. repeat split; auto. eapply incl_tran; [apply incl_appr, incl_refl|exact K4]. }
    destruct K as (K1 & K2 & K3 & K4). exists js, (snd r0). rewrite ER in SU. split; [exact SU|]. split; [reflexivity|]. split; [exact EX|].
    split; [congruence|]. split; [exact ND|]. split; [intros z Z; apply FR in Z; lia|]. split; [intros _; apply P4; congruence|].
    intros P z Z. cbn. apply closes_in; [|apply P5, A4, K4, in_map; exact Z]. apply (subst_ends _ _ _ _ _ SU) in Z. apply FR in Z. lia.
  - injection H1 as <- H1. exists [], []. split; [rewrite <- H1; now apply no_subst|]. split; [reflexivity|]. split; [exact EX|]. split; [rewrite P3, A1; reflexivity|].
    split; [constructor|]. split; [intros z []|]. split; [congruence|intros _ z []].
Qed.
Print Assumptions c118_substitution.
(** `sh("ls", "-l", sh("a"), sh("b").writable)`-like command lines: a reader, a
    writer and a pipeline. *)
Definition ex118_w : opts := let o := RouteProps.ex_opts RouteProps.dflt RouteProps.dflt RouteProps.dflt PtyOff None in {|
  o_path := o_path o; o_env := o_env o; o_inherit_env := true; o_input := o_input o; o_input_close := false;
  o_output := o_output o; o_output_append := false; o_output_close := false;
  o_error := o_error o; o_error_append := false; o_error_close := false;
  o_error_limit := Some 1024; o_encoding := o_encoding o; o_return_result := false;
  o_catch_cancelled := false; o_exit_codes := None; o_timeout := None;
  o_cancel_timeout := 3; o_cancel_signal := Some 15; o_alt_name := None;
  o_pass_fds := [7]; o_pass_fds_close := false; o_writable := true;
  o_start_new_session := false; o_preexec_fn := None; o_pty := PtyOff;
  o_close_fds := true; o_audit_callback := None; o_coerce_arg := None |}.
Definition ex118_o : opts := RouteProps.ex_opts RouteProps.dflt RouteProps.dflt RouteProps.dflt PtyOff None.
Definition ex118_cmd : command :=
  ([VStr [108; 115]; VCmd [VStr [97]] ex118_o; VStr [45; 108]; VCmd [VStr [98]] ex118_w; VPipe [([VStr [99]], ex118_o); ([VStr [100]], ex118_o)]], ex118_w).
Example c118_example : exists s hs,
  enter RouteProps.ex_world ex118_cmd (init_rst 10)
  = (s, Ok ([VStr [108; 115]; VStr [10]; VStr [45; 108]; VStr [13]; VStr [14]], hs))
  /\ s_pass_fds s = Some [10; 13; 14; 7] /\ List.length (s_subcmds s) = 3%nat.
Proof. eexists _, _. split; [vm_compute; reflexivity|]. split; reflexivity. Qed.
