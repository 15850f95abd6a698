(** Theorems about `await pipeline` from the commands to the value (C106, C107):
    they hold for every number of commands, every answer of the operating system,
    every arrival of the data and every schedule of exits, timeouts, signals and
    cancellations, in every member and in the pipeline. *)
From Verif Require Import AsyncModel AsyncSpec AsyncProofs HarvestModel HarvestSpec HarvestProofs HarvestProofs2 AsyncInv
  RunnerModel RunnerSpec RunnerProofs CopySpec AwaitModel AwaitProofs PipeAwaitModel PipeAwaitProofs PipeAwaitProofs2.
From Verif Require RunOptionsModel RouteSpec PipeRunnerModel PipeReqProofs PipeRunnerProofs2 PipelineSpec PipelineProps CommandSpec PipeRunnerProps RouteProps.
From Verif Require Import RunTac RunnerProps AwaitProps.
Open Scope Z_scope.

(** ** Specification *)
(** The exit codes a command accepts (exit_codes option; an empty or missing
    container means only 0). *)
Definition accepts (o : opts) (z : Z) : Prop :=
  match o_exit_codes o with
  | Some (CSet (c :: l)) => In z (c :: l)
  | Some (CRange lo hi) => if lo <? hi then lo <= z < hi else z = 0
  | _ => z = 0
  end.
(** Command [j] of the pipeline ended by itself with exit code [z]. *)
Definition ended_by_itself (wp : pworld) (j : nat) (z : Z) : Prop :=
  exists t r, nth_error (w_tasks wp) j = Some t /\ t_out t = Some (TValue (PRes r)) /\ r_cancelled r = false /\ r_exit r = z.
(** [cmds] can be started as a pipeline with the pipes (r 0, w 0), (r 1, w 1), ... *)
Record startable (pipe : nat -> option (Z * Z)) (r w : nat -> Z) (cmds : pipeline) : Prop := {
  st_two : (2 <= List.length cmds)%nat;
  st_args : Forall (fun c => c_args c <> []) cmds;
  st_pipe : forall j, (j < List.length cmds - 1)%nat -> pipe j = Some (r j, w j) /\ 0 <= r j /\ 0 <= w j }.

(** C106: if `await pipeline` gives a value, every command has ended by itself
    with an exit code it accepts. *)
Definition c106_full_claim := forall dec R pipe r w cmds next rd sinks v wp ws, startable pipe r w cmds ->
  (forall j, only_shellous_cancels (ws j)) ->
  await_pipeline dec R pipe cmds next rd sinks (Ok v) wp ws ->
  forall j c, nth_error cmds j = Some c -> exists z, ended_by_itself wp j z /\ accepts (c_opts c) z.

(** ** Proofs *)
Lemma accepts_in o z : container_in z (codes_of o) = true <-> accepts o z.
Proof.
  unfold codes_of, accepts. destruct (o_exit_codes o) as [[[|c l]|lo hi]|]; cbn; rewrite ?orb_false_r, ?Z.eqb_eq; try reflexivity.
  - rewrite orb_true_iff, Z.eqb_eq, existsb_exists. split.
    + intros [->|(y & Hy & Q)]; [now left|]. apply Z.eqb_eq in Q. subst y. now right.
    + intros [->|Hy]; [now left|]. right. exists z. split; [exact Hy|apply Z.eqb_refl].
  - destruct (Z.ltb_spec lo hi); cbn; rewrite ?orb_false_r, ?Z.eqb_eq; [lia|reflexivity].
Qed.
Lemma member_same r w n j o o' : CommandSpec.follows_history (PipelineSpec.member_updates r w n j) o o' ->
  o_exit_codes o' = o_exit_codes o /\ o_encoding o' = o_encoding o /\ o_timeout o' = o_timeout o /\ o_pty o' = o_pty o.
Proof.
  intros F. rewrite (CommandSpec.fh_exit_codes _ _ _ F), (CommandSpec.fh_encoding _ _ _ F), (CommandSpec.fh_timeout _ _ _ F), (CommandSpec.fh_pty _ _ _ F).
  unfold PipelineSpec.member_updates. destruct (j =? 0)%nat, (S j =? n)%nat; repeat split; reflexivity.
Qed.
Lemma Forall2_nth {A B} (P : A -> B -> Prop) l l' : Forall2 P l l' -> forall j a, nth_error l j = Some a -> exists b, nth_error l' j = Some b /\ P a b.
Proof. induction 1 as [|a b l l' H F IH]; intros [|j] x Q; try discriminate; [injection Q as <-; exists b; auto|cbn in *; eauto]. Qed.
Lemma Forall2_len {A B} (P : A -> B -> Prop) l l' : Forall2 P l l' -> List.length l = List.length l'.
Proof. induction 1; cbn; congruence. Qed.
Lemma seq_nth_error n j : (j < n)%nat -> nth_error (seq 0 n) j = Some j.
Proof. intros L. rewrite nth_error_nth' with (d := 0%nat) by (now rewrite seq_length). now rewrite seq_nth. Qed.

Lemma nth_last {A} (l : list A) x : nth_error l (List.length l - 1) = Some x -> exists l0, l = l0 ++ [x].
Proof.
  intros H. destruct (exists_last (l := l)) as (l0 & y & ->); [intros ->; discriminate|]. exists l0. rewrite app_length in H. cbn in H. rewrite Nat.add_sub, nth_error_app2, Nat.sub_diag in H by lia.
  cbn in H. now injection H as ->.
Qed.

(** What the members of a pipeline that returned a result did. *)
Lemma pipeline_members dec R pipe r w cmds next rd sinks v wp ws l : startable pipe r w cmds ->
  nth_error cmds (List.length cmds - 1) = Some l ->
  (forall c, In c cmds -> accepts (c_opts c) 0) -> (forall z, accepts (c_opts l) z -> z = 0) ->
  (forall j, (j < List.length cmds)%nat -> ~ In LExpired (events (ws j))) ->
  await_pipeline dec R pipe cmds next rd sinks (Ok v) wp ws ->
  exists fds cmds' res, setup_pipeline pipe cmds = (fds, Ok cmds')
  /\ await_value dec (c_opts l) (Ok res) = Ok v /\ r_exit res = 0 /\ r_cancelled res = false
  /\ (forall j c, nth_error cmds j = Some c -> exists c' t x, nth_error cmds' j = Some c' /\ c_args c' = c_args c
       /\ CommandSpec.follows_history (PipelineSpec.member_updates r w (List.length cmds) j) (c_opts c) (c_opts c')
       /\ nth_error (w_tasks wp) j = Some t /\ t_out t = Some (TValue (PRes x)) /\ r_cancelled x = false /\ r_exit x = 0
       /\ await_command dec (R j) c' (next j) (rd j) (sinks j) (Ok (AResult x)) (ws j)
       /\ (S j = List.length cmds -> r_output res = r_output x /\ r_encoding res = r_encoding x)).
Proof.
  intros ST LAST A0 AL NX (fds & cmds' & o & rr & SP & PO & RP & V & MEM).
  destruct ST as [N2 NA PI].
  assert (NE : cmds <> []) by (intros ->; cbn in N2; lia).
  destruct (PipelineProps.c12_pipes_connect_neighbours pipe r w cmds NE NA PI) as (out & SP' & LO & OUT).
  rewrite SP in SP'. injection SP' as -> <-.
  assert (OL : o = c_opts l).
  { unfold pipe_options in PO. apply nth_last in LAST as (l0 & ->). unfold last_cmd in PO. rewrite rev_app_distr in PO. cbn in PO. congruence. }
  subst o.
  destruct rr as [res|e]; [|discriminate V].
  destruct (PipeRunnerProofs2.run_pipeline_spec _ _ _ _ N2 RP) as (h & E & [(os & c & F & PR & _)|(e & Q & _)]); [|discriminate].
  pose proof (PipeReqProofs.pipeline_requests _ _ _ _ N2 RP) as REQ.
  symmetry in PR. unfold pipe_run_result in PR. destruct (convert_result_list _ c) as [res0|e] eqn:CV; [|discriminate].
  unfold check_result in PR. destruct c; [cbn in PR; destruct (o_catch_cancelled (c_opts l)); discriminate|]. cbn [andb orb negb] in PR.
  fold (codes_of (c_opts l)) in PR. destruct (container_in _ _) eqn:CI in PR; [|discriminate]. injection PR as ->.
  apply accepts_in in CI. apply AL in CI.
  unfold convert_result_list in CV. destruct (other_ex _) eqn:OE; [|discriminate]. destruct (find_key _ None) as [key|] eqn:FK; [|discriminate].
  destruct (get_result (List.last _ _)) as [la|] eqn:GL; [|discriminate]. injection CV as <-. cbn in CI.
  pose proof (find_key_zero _ _ _ FK CI ltac:(discriminate)) as KEY.
  (* each member *)
  assert (EACH : forall j c0, nth_error cmds j = Some c0 -> exists c' t ot x, nth_error cmds' j = Some c' /\ c_args c' = c_args c0
     /\ CommandSpec.follows_history (PipelineSpec.member_updates r w (List.length cmds) j) (c_opts c0) (c_opts c') /\ o_catch_cancelled (c_opts c') = true
     /\ nth_error (w_tasks wp) j = Some t /\ t_out t = Some ot /\ nth_error os j = Some ot /\ get_result (PipeRunnerModel.entry ot) = Ok x /\ (r_cancelled x = false -> r_exit x = 0)).
  { intros j c0 C0. assert (Lj : (j < List.length cmds)%nat) by (apply nth_error_Some; congruence). destruct (OUT j c0 C0) as (o' & CO & FH & _ & _ & _ & _ & _ & _ & CC).
    destruct (Forall2_nth _ _ _ F j j (seq_nth_error _ _ Lj)) as (ot & Oj & TO & _). unfold task_out in TO. destruct (nth_error (w_tasks wp) j) as [t|] eqn:Nt; [|discriminate].
    destruct (KEY (PipeRunnerModel.entry ot)) as (x & GX & ZX). { apply in_map. eapply nth_error_In; eauto. }
    exists (c_args c0, o'), t, ot, x. auto 10. }
  assert (TOUT : forall j t x, (j < List.length cmds)%nat -> nth_error (w_tasks wp) j = Some t -> t_creq t = 0%nat -> t_out t = Some (TFail (ResultError x)) -> False).
  { intros j t x Lj Nt CR TO. destruct (nth_error cmds j) as [c0|] eqn:C0; [|apply nth_error_None in C0; lia].
    destruct (EACH j c0 C0) as (c' & t' & ot & x' & C' & _ & FH & CC & Nt' & TO' & _ & GX & ZX). rewrite Nt in Nt'. injection Nt' as <-. rewrite TO in TO'. injection TO' as <-.
    cbn in GX. injection GX as <-. destruct (MEM j c' t C' Nt) as [(Q & _)|(a & AW & ME & OWN & OU)]; [congruence|]. rewrite TO in ME. destruct ME as [-> _].
    destruct (member_error _ _ _ _ _ _ _ _ AW OWN (NX j Lj)) as [RC NI]; [lia|]. specialize (ZX RC). rewrite ZX in NI.
    destruct (member_same _ _ _ _ _ _ FH) as (EC & _). assert (A1 : accepts (c_opts c') 0). { unfold accepts. rewrite EC. apply A0. eapply nth_error_In; eauto. }
    apply accepts_in in A1. congruence. }
  assert (NOREQ : forall j t, (j < List.length cmds)%nat -> nth_error (w_tasks wp) j = Some t -> t_creq t = 0%nat).
  { intros j t Lj Nt. destruct (Nat.eq_dec (t_creq t) 0) as [Z|NZ]; [exact Z|]. exfalso. destruct (REQ j t Lj Nt NZ) as (k & tk & e & Lk & Nk & Ok' & Ck).
    destruct (nth_error cmds k) as [c0|] eqn:C0; [|apply nth_error_None in C0; lia].
    destruct (EACH k c0 C0) as (c' & t' & ot & x' & _ & _ & _ & _ & Nt' & TO' & _ & GX & _). rewrite Nk in Nt'. injection Nt' as <-. rewrite Ok' in TO'. injection TO' as <-.
    cbn in GX. destruct e; try discriminate. eapply (TOUT k tk); eauto. }
  eexists _, cmds', {| r_exit := r_exit key; r_output := r_output la; r_error := r_error key; r_cancelled := false; r_encoding := r_encoding la |}.
  split; [exact SP|]. split; [now symmetry|]. split; [exact CI|]. split; [reflexivity|].
  intros j c0 C0. destruct (EACH j c0 C0) as (c' & t & ot & x & C' & CA & FH & CC & Nt & TO & Oj & GX & ZX).
  assert (Lj : (j < List.length cmds)%nat) by (apply nth_error_Some; congruence).
  assert (OT : ot = TValue (PRes x)).
  { destruct ot as [[r0|k]|e|]; cbn in GX; try discriminate; [congruence|]. destruct e; try discriminate. exfalso. eapply (TOUT j t); eauto. }
  subst ot. destruct (MEM j c' t C' Nt) as [(Q & _)|(a & AW & ME & OWN & OU)]; [congruence|]. rewrite TO in ME. subst a.
  destruct (member_value _ _ _ _ _ _ _ _ AW CC (NX j Lj)) as [RC _].
  exists c', t, x. split; [exact C'|]. split; [exact CA|]. split; [exact FH|]. split; [exact Nt|]. split; [exact TO|]. split; [exact RC|]. split; [auto|]. split; [exact AW|].
  intros SJ. assert (LA : List.last (map PipeRunnerModel.entry os) (OExn (OtherError 0)) = ORes x).
  { assert (LE : List.length os = List.length cmds) by (apply Forall2_len in F; rewrite seq_length in F; congruence).
    destruct (nth_last os (TValue (PRes x))) as (l0 & ->); [rewrite LE; replace (List.length cmds - 1)%nat with j by lia; exact Oj|].
    rewrite map_app. cbn. now rewrite last_last. }
  rewrite LA in GL. injection GL as <-. auto.
Qed.

(** ** C106 *)
(** Missing from the full claim: runs in which a timer expired, commands that do
    not accept 0, and pipelines whose last command accepts other codes.  The
    value is then everything the last command wrote to its standard output. *)
Theorem c106_complete_partial : forall dec R pipe r w cmds next rd sinks v wp ws l, startable pipe r w cmds ->
  let n := List.length cmds in
  nth_error cmds (n - 1) = Some l ->
  (forall c, In c cmds -> accepts (c_opts c) 0) -> (forall z, accepts (c_opts l) z -> z = 0) ->
  (forall j, (j < n)%nat -> ~ In LExpired (events (ws j))) -> only_shellous_cancels (ws (n - 1)%nat) ->
  await_pipeline dec R pipe cmds next rd sinks (Ok v) wp ws ->
  (forall j, (j < n)%nat -> ended_by_itself wp j 0)
  /\ (RunOptionsModel.w_same_std (R (n - 1)%nat) = false -> RouteSpec.api_options (c_opts l) ->
      r (n - 2)%nat < next (n - 1)%nat -> RouteSpec.old_fd (next (n - 1)%nat) (o_error (c_opts l)) ->
      o_output (c_opts l) = VRedirect DEFAULT \/ o_output (c_opts l) = VRedirect BUFFER ->
      exists fds cmds' l' s hin hout herr wi out, setup_pipeline pipe cmds = (fds, Ok cmds') /\ nth_error cmds' (n - 1) = Some l'
      /\ RunOptionsModel.start (R (n - 1)%nat) l' (next (n - 1)%nat) = (s, Ok ((hin, hout, herr), wi))
      /\ connected s RunOptionsModel.PStdout hout out /\ sr_end (rd (n - 1)%nat out) = EndEof
      /\ match v with
         | AText t => o_return_result (c_opts l) = false /\ dec (o_encoding (c_opts l)) (sr_data (rd (n - 1)%nat out)) = Some t
         | AResult x => o_return_result (c_opts l) = true /\ r_output x = sr_data (rd (n - 1)%nat out) /\ r_exit x = 0 /\ r_cancelled x = false
             /\ r_encoding x = o_encoding (c_opts l)
         end).
Proof.
  intros dec R pipe r w cmds next rd sinks v wp ws l ST n LAST A0 AL NX OS H.
  destruct (pipeline_members _ _ _ _ _ _ _ _ _ _ _ _ _ ST LAST A0 AL NX H) as (fds & cmds' & res & SP & V & EX & CN & MEM).
  split.
  - intros j Lj. destruct (nth_error cmds j) as [c|] eqn:C; [|apply nth_error_None in C; fold n in C; lia].
    destruct (MEM j c C) as (c' & t & x & _ & _ & _ & Nt & TO & RC & RX & _). exists t, x. auto.
  - intros SS (AI1 & AI2 & AI3 & AI4 & AI5) RN OE OUT.
    destruct (MEM (n - 1)%nat l LAST) as (l' & t & x & L' & _ & FH & Nt & TO & RC & RX & AW & LX).
    assert (N2 := st_two _ _ _ _ ST). fold n in N2. destruct (LX ltac:(fold n; lia)) as [RO RE].
    destruct (PipelineProps.c12_pipes_connect_neighbours pipe r w cmds) as (out' & SP' & _ & CN'); [intros Q; subst n; rewrite Q in N2; cbn in N2; lia|apply ST|apply ST|].
    rewrite SP in SP'. injection SP' as Qf <-. destruct (CN' _ _ LAST) as (o' & LO & _ & OI & _ & OO & _ & OER & RR & CCx). rewrite L' in LO. injection LO as ->. cbn [c_opts snd] in *.
    fold n in OI, OO. replace (n - 1 =? 0)%nat with false in OI by (symmetry; apply Nat.eqb_neq; lia). replace (S (n - 1) =? n)%nat with true in OO by (symmetry; apply Nat.eqb_eq; lia).
    replace (n - 1 - 1)%nat with (n - 2)%nat in OI by lia.
    destruct (st_pipe _ _ _ _ ST (n - 2)%nat) as (_ & R0 & _); [fold n; lia|].
    destruct (member_same _ _ _ _ _ _ FH) as (_ & EN & _). cbn [c_opts snd] in EN.
    destruct (c83_value dec (R (n - 1)%nat) (c_args l, o') (next (n - 1)%nat) (rd (n - 1)%nat) (sinks (n - 1)%nat) (AResult x) (ws (n - 1)%nat)) as (s & hin & hout & herr & wi & out & S1 & S2 & S3 & _ & S4 & S5 & _).
    + exact SS.
    + cbn. unfold RouteSpec.api_options. rewrite OI, OO, OER. cbn. repeat split; auto. destruct (Z.eqb_spec (r (n - 2)%nat) (-2)); [lia|reflexivity].
    + cbn. unfold RouteSpec.old_fds. rewrite OI, OO, OER. split; [lia|]. split; [exact RN|]. split; [|exact OE]. destruct OUT as [-> | ->]; exact Logic.I.
    + cbn. rewrite OO. exact OUT.
    + exact AW.
    + right. exists x. auto.
    + exact OS.
    + exists fds, cmds', (c_args l, o'), s, hin, hout, herr, wi, out. split; [exact SP|]. split; [exact L'|]. split; [exact S1|]. split; [exact S2|]. split; [exact S3|].
      cbn [c_opts snd] in S5. cbn in V. destruct (o_return_result (c_opts l)).
      * injection V as <-. split; [reflexivity|]. rewrite RO, RE, S4. split; [reflexivity|]. split; [exact EX|]. split; [exact CN|]. congruence.
      * unfold result_output in V. rewrite RO, RE, S4, S5 in V. cbn [c_opts snd] in V. rewrite EN in V. destruct (dec _ _) eqn:D; [|discriminate]. injection V as <-. auto.
Qed.
Print Assumptions c106_complete_partial.

(** ** Concrete runs *)
(** `a | b`: [a] reads nothing, both write no errors; [t] is the timeout of [b]. *)
Definition ex106_opts (i : value) (t : option Z) : opts := {|
  o_path := None; o_env := None; o_inherit_env := true;
  o_input := i; o_input_close := false;
  o_output := VRedirect DEFAULT; o_output_append := false; o_output_close := false;
  o_error := VRedirect DEVNULL; o_error_append := false; o_error_close := false;
  o_error_limit := Some 1024; o_encoding := utf8_name; o_return_result := false;
  o_catch_cancelled := false; o_exit_codes := None; o_timeout := t;
  o_cancel_timeout := 3; o_cancel_signal := Some 15; o_alt_name := None;
  o_pass_fds := []; o_pass_fds_close := false; o_writable := false;
  o_start_new_session := false; o_preexec_fn := None; o_pty := PtyOff; o_close_fds := true;
  o_audit_callback := None; o_coerce_arg := None |}.
Definition ex106_cmds (t : option Z) : pipeline := [([VStr [97]], ex106_opts (VRedirect DEVNULL) None); ([VStr [98]], ex106_opts (VRedirect DEFAULT) t)].
Definition ex106_pipe (j : nat) : option (Z * Z) := Some (10, 11).
(** The commands with the pipe attached. *)
Definition ex106_member (t : option Z) (j : nat) : command :=
  match snd (setup_pipeline ex106_pipe (ex106_cmds t)) with Ok l => nth j l ([], ex106_opts VNone None) | Err _ => ([], ex106_opts VNone None) end.
Lemma ex106_setup t : setup_pipeline ex106_pipe (ex106_cmds t) = ([10; 11], Ok [ex106_member t 0; ex106_member t 1]).
Proof. reflexivity. Qed.
Definition ex106_rd (e : ending) (j : nat) (s : RunOptionsModel.stream) : sreader := {| sr_buf := []; sr_in := [[104; 105]]; sr_end := e |}.
Definition ex106_sinks (j : nat) (s : RunOptionsModel.sink) : list Z := match s with ResultOut => [104; 105] | _ => [] end.
Definition ex106_launched (io timer : bool) : world rx rkind unit :=
  mk_world (mk_task KExec (Some (TValue tt)) 0 :: (if io then [mk_task KIO None 0] else []) ++ [mk_task KWaiter None 0])
    (mk_rx [LSpawn] false false true true None false None None false timer false None (if io then [1%nat; 2%nat] else [1%nat]) true)
    [HDone 0 (TValue tt)].
Lemma ex106_launch t j ob eb enc : (j < 2)%nat -> aenter (c_opts (ex106_member t j)) false false ob eb enc fresh (Ok tt) (ex106_launched (j =? 1)%nat ((j =? 1)%nat && match t with Some _ => true | None => false end)).
Proof.
  intros L. destruct j as [|[|j]]; [| |lia]; destruct t.
  - all: go. 1: apply setup_ok. all: go.  1: wait_by (@nil (@wev unit rxe)). all: go. 1: wait_by [ev XSpawn; fin 0 (TValue tt); cb 0]. all: go. 1: exists 0%nat. all: go. 1: apply setup_ok. all: go.
  - all: go. 1: apply setup_ok. all: go.  1: wait_by (@nil (@wev unit rxe)). all: go. 1: wait_by [ev XSpawn; fin 0 (TValue tt); cb 0]. all: go. 1: exists 0%nat. all: go. 1: apply setup_ok. all: go.
  - all: go. 1: apply setup_ok. all: go.  1: wait_by (@nil (@wev unit rxe)). all: go. 1: wait_by [ev XSpawn; fin 0 (TValue tt); cb 0]. all: go. 1: exists 1%nat. all: go. 1: apply setup_ok. all: go.
  - all: go. 1: apply setup_ok. all: go.  1: wait_by (@nil (@wev unit rxe)). all: go. 1: wait_by [ev XSpawn; fin 0 (TValue tt); cb 0]. all: go. 1: exists 1%nat. all: go. 1: apply setup_ok. all: go.
Qed.
Definition ex106_res (z : Z) (out : bytes) (c : bool) : result := {| r_exit := z; r_output := out; r_error := []; r_cancelled := c; r_encoding := utf8_name |}.
(** [a] exits with 0. *)
Lemma ex106_a t : exists w', await_command utf8 RouteProps.ex_world (ex106_member t 0) 20 (ex106_rd EndEof 0) (ex106_sinks 0) (Ok (AResult (ex106_res 0 [] false))) w'
  /\ events w' = [LSpawn; LExit 0; LCollect 0] /\ only_shellous_cancels w'.
Proof.
  assert (RUN : exists w', bindM (aexit (c_opts (ex106_member t 0)) false false None) (fun _ => run_result (c_opts (ex106_member t 0)) None None utf8_name true) (ex106_launched false false) (Ok (ex106_res 0 [] false)) w'
     /\ events w' = [LSpawn; LExit 0; LCollect 0] /\ only_shellous_cancels w').
  { eexists. split; [|split].
    - all: go. 1: wait_by [ev (XExit 0); ev XWatch; ev XCollect; fin 1 (TValue tt); cb 1]. all: go.
    - reflexivity.
    - intros i k H O. do 3 (destruct i as [|i]; [cbn in H; try discriminate; injection H as <-; cbn in O; discriminate|]). destruct i; discriminate. }
  destruct RUN as (w' & H & E & OS). exists w'. split; [|auto].
  assert (ST : exists s hs wi, RunOptionsModel.start RouteProps.ex_world (ex106_member t 0) 20 = (s, Ok (hs, wi))
    /\ RunOptionsModel.s_output_bytes s = false /\ RunOptionsModel.s_error_bytes s = false /\ RunOptionsModel.s_pty s = None
    /\ RunOptionsModel.is_pipe (fst (fst hs)) = false /\ RunOptionsModel.wi_tasks wi = []).
  { RouteProps.run_it (RunOptionsModel.start RouteProps.ex_world (ex106_member t 0) 20). vm_compute. repeat split. }
  destruct ST as (s & [[hin hout] herr] & wi & ST & OB & EB & PT & PI & TK). cbn in PI.
  change (Ok (AResult (ex106_res 0 [] false))) with (await_value utf8 (c_opts (ex106_member t 0)) (Ok (ex106_res 0 [] false))).
  eapply aw_ran with (hin := hin) (hout := hout) (herr := herr) (wi := wi) (w0 := ex106_launched false false); [reflexivity|exact ST| | |].
  - rewrite OB, EB, PT. apply (ex106_launch t 0). lia.
  - rewrite OB, EB, PI. exact H.
  - intros src dst lim Hin. rewrite TK in Hin. destruct Hin.
Qed.
(** [b] writes "hi"; it ends by itself, or its timer expires. *)
Definition timed (t : option Z) : bool := match t with Some _ => true | None => false end.
Lemma ex106_b_run t e x r w' : (e = EndEof /\ x = None) \/ (e = EndCancel /\ x = Some CancelledError) ->
  bindM (aexit (c_opts (ex106_member t 1)) false false None) (fun _ => run_result (c_opts (ex106_member t 1)) (Some [104; 105]) None utf8_name true) (ex106_launched true (timed t)) r w' ->
  ends_with (task_out w' 1) x ->
  await_command utf8 RouteProps.ex_world (ex106_member t 1) 20 (ex106_rd e 1) (ex106_sinks 1) (await_value utf8 (c_opts (ex106_member t 1)) r) w'.
Proof.
  intros CASES H T1.
  assert (ST : exists s hs wi, RunOptionsModel.start RouteProps.ex_world (ex106_member t 1) 20 = (s, Ok (hs, wi))
    /\ RunOptionsModel.s_output_bytes s = true /\ RunOptionsModel.s_error_bytes s = false /\ RunOptionsModel.s_pty s = None
    /\ RunOptionsModel.is_pipe (fst (fst hs)) = false /\ RunOptionsModel.wi_tasks wi = [TCopy RunOptionsModel.PStdout ResultOut None]).
  { RouteProps.run_it (RunOptionsModel.start RouteProps.ex_world (ex106_member t 1) 20). vm_compute. repeat split. }
  destruct ST as (s & [[hin hout] herr] & wi & ST & OB & EB & PT & PI & TK). cbn in PI.
  eapply aw_ran with (hin := hin) (hout := hout) (herr := herr) (wi := wi) (w0 := ex106_launched true (timed t)); [reflexivity|exact ST| | |].
  - rewrite OB, EB, PT. apply (ex106_launch t 1). lia.
  - rewrite OB, EB, PI. exact H.
  - intros src dst lim Hin. rewrite TK in Hin. destruct Hin as [[= <- <- <-]|[]].
    exists 1%nat. destruct CASES as [[-> ->]|[-> ->]].
    + exists [[104; 105]], None, None. split; [cbn; auto|]. split; [|split; [|exact T1]].
      * eapply ans_data; [reflexivity|discriminate|]. eapply ans_eof. reflexivity.
      * eapply cp_output. reflexivity.
    + exists [[104; 105]], (Some CancelledError), (Some CancelledError). split; [cbn; auto|]. split; [|split; [|exact T1]].
      * eapply ans_data; [reflexivity|discriminate|]. eapply ans_exc. reflexivity.
      * eapply cp_output. reflexivity.
Qed.
Lemma ex106_b : exists w', await_command utf8 RouteProps.ex_world (ex106_member None 1) 20 (ex106_rd EndEof 1) (ex106_sinks 1) (Ok (AResult (ex106_res 0 [104; 105] false))) w'
  /\ events w' = [LSpawn; LExit 0; LCollect 0] /\ only_shellous_cancels w'.
Proof.
  assert (RUN : exists w', bindM (aexit (c_opts (ex106_member None 1)) false false None) (fun _ => run_result (c_opts (ex106_member None 1)) (Some [104; 105]) None utf8_name true) (ex106_launched true false) (Ok (ex106_res 0 [104; 105] false)) w'
     /\ events w' = [LSpawn; LExit 0; LCollect 0] /\ only_shellous_cancels w' /\ task_out w' 1 = Some (TValue tt)).
  { eexists. split; [|split; [|split]].
    - all: go. 1: wait_by [fin 1 (TValue tt); ev (XExit 0); ev XWatch; ev XCollect; fin 2 (TValue tt); cb 1; cb 2]. all: go.
    - reflexivity.
    - intros i k H O. do 4 (destruct i as [|i]; [cbn in H; try discriminate; injection H as <-; cbn in O; discriminate|]). destruct i; discriminate.
    - reflexivity. }
  destruct RUN as (w' & H & E & OS & T). exists w'. split; [|auto]. apply (ex106_b_run None EndEof None _ _) in H; [exact H|now left|now rewrite T].
Qed.
Lemma ex106_b_timeout : exists w', await_command utf8 RouteProps.ex_world (ex106_member (Some 1) 1) 20 (ex106_rd EndCancel 1) (ex106_sinks 1) (Err (ResultError (ex106_res (-15) [104; 105] true))) w'
  /\ events w' = [LSpawn; LExpired; LSignal (Some 15); LSent 15; LExit (-15); LCollect (-15)] /\ only_shellous_cancels w'
  /\ own_result_error (c_opts (ex106_member (Some 1) 1)) (Err (ResultError (ex106_res (-15) [104; 105] true))) w'.
Proof.
  assert (RUN : exists w', bindM (aexit (c_opts (ex106_member (Some 1) 1)) false false None) (fun _ => run_result (c_opts (ex106_member (Some 1) 1)) (Some [104; 105]) None utf8_name true) (ex106_launched true true) (Err (ResultError (ex106_res (-15) [104; 105] true))) w'
     /\ events w' = [LSpawn; LExpired; LSignal (Some 15); LSent 15; LExit (-15); LCollect (-15)] /\ only_shellous_cancels w' /\ task_out w' 1 = Some TCancelled
     /\ own_result_error (c_opts (ex106_member (Some 1) 1)) (Err (ResultError (ex106_res (-15) [104; 105] true))) w').
  { eexists. split; [|split; [|split; [|split]]].
    - all: go. 1: wait_by [ev XTimer]. all: go. 1: wait_by [fin 1 TCancelled; fin 2 TCancelled; cb 1; cb 2]. all: go.
      1: wait_by [ev (XExit (-15)); ev XWatch; ev XCollect; fin 3 (TValue tt); cb 3]. all: go.
    - reflexivity.
    - intros i k H O. do 4 (destruct i as [|i]; [cbn in H; try discriminate; injection H as <-; cbn in O; try discriminate; discriminate|]). destruct i; discriminate.
    - reflexivity.
    - intros v [= <-]. exists (Some [104; 105]), None. reflexivity. }
  destruct RUN as (w' & H & E & OS & T & OW). exists w'. split; [|auto]. apply (ex106_b_run (Some 1) EndCancel (Some CancelledError) _ _) in H; [exact H|now right|now rewrite T].
Qed.
(** The pipeline: both members end, [a] first. *)
Definition ex106_end (timeout : bool) : tout PipeRunnerModel.pval :=
  if timeout then TFail (ResultError (ex106_res (-15) [104; 105] true)) else TValue (PRes (ex106_res 0 [104; 105] false)).
Lemma ex106_pipeline t b :
  exists wp, PipeRunnerModel.run_pipeline 2 (Ok tt) (ex106_opts (VRedirect DEFAULT) t) PipeRunnerModel.pw0 (Ok (ex106_res 0 [104; 105] false)) wp
  /\ w_tasks wp = [mk_task (PipeRunnerModel.KCmd 0) (Some (TValue (PRes (ex106_res 0 [] false)))) 0; mk_task (PipeRunnerModel.KCmd 1) (Some (ex106_end b)) 0].
Proof.
  destruct b; eexists; (split; [|]).
  - unfold PipeRunnerModel.run_pipeline, PipeRunnerModel.with_pipe. eapply b_bind.
    + eapply b_bind; [apply PipeRunnerProps.ex_enter|]. eexists (Ok tt), (PipeRunnerProps.ready2 false). split; [go|].
      all: go. 1: wait_by [PipeRunnerProps.pdone 0 (TValue (PRes (ex106_res 0 [] false))); PipeRunnerProps.pdone 1 (ex106_end true); PipeRunnerProps.pcb 0; PipeRunnerProps.pcb 1]. all: go.
    + go.
  - reflexivity.
  - unfold PipeRunnerModel.run_pipeline, PipeRunnerModel.with_pipe. eapply b_bind.
    + eapply b_bind; [apply PipeRunnerProps.ex_enter|]. eexists (Ok tt), (PipeRunnerProps.ready2 false). split; [go|].
      all: go. 1: wait_by [PipeRunnerProps.pdone 0 (TValue (PRes (ex106_res 0 [] false))); PipeRunnerProps.pdone 1 (ex106_end false); PipeRunnerProps.pcb 0; PipeRunnerProps.pcb 1]. all: go.
    + go.
  - reflexivity.
Qed.
Lemma ex106_startable t : startable ex106_pipe (fun _ => 10) (fun _ => 11) (ex106_cmds t).
Proof. split; [cbn; lia|repeat constructor; discriminate|]. intros j _. repeat split; discriminate. Qed.
Lemma ex106_run (b : bool) : let t := if b then Some 1 else None in
  exists wp wa wb, await_pipeline utf8 (fun _ => RouteProps.ex_world) ex106_pipe (ex106_cmds t) (fun _ => 20)
     (fun j => ex106_rd (if b then match j with O => EndEof | _ => EndCancel end else EndEof) j) ex106_sinks (Ok (AText [104; 105])) wp (fun j => match j with O => wa | _ => wb end)
  /\ only_shellous_cancels wa /\ only_shellous_cancels wb /\ events wa = [LSpawn; LExit 0; LCollect 0]
  /\ (if b then In LExpired (events wb) else ~ In LExpired (events wb))
  /\ nth_error (w_tasks wp) 1 = Some (mk_task (PipeRunnerModel.KCmd 1) (Some (ex106_end b)) 0).
Proof.
  intros t. destruct (ex106_pipeline t b) as (wp & HP & TP). destruct (ex106_a t) as (wa & HA & EA & OA).
  assert (HB : exists wb ab, await_command utf8 RouteProps.ex_world (ex106_member t 1) 20 (ex106_rd (if b then EndCancel else EndEof) 1) (ex106_sinks 1) ab wb
     /\ (if b then In LExpired (events wb) else ~ In LExpired (events wb)) /\ outside (events wb) = 0%nat /\ only_shellous_cancels wb
     /\ own_result_error (c_opts (ex106_member t 1)) ab wb /\ ab = (if b then Err (ResultError (ex106_res (-15) [104; 105] true)) else Ok (AResult (ex106_res 0 [104; 105] false)))).
  { destruct b.
    - destruct ex106_b_timeout as (wb & H & E & OS & OW). eexists wb, _. split; [exact H|]. rewrite E. split; [cbn; auto|]. auto.
    - destruct ex106_b as (wb & H & E & OS). eexists wb, _. split; [exact H|]. rewrite E. split; [cbn; intuition discriminate|]. split; [reflexivity|]. split; [exact OS|]. split; [intros v [=]|reflexivity]. }
  destruct HB as (wb & ab & HB & XB & UB & OSB & OWB & AB). exists wp, wa, wb. split; [|rewrite TP; auto 10].
  eexists _, _, _, _. split; [apply ex106_setup|]. split; [reflexivity|]. split; [exact HP|]. split; [reflexivity|].
  intros j c k C K. right. rewrite TP in K. destruct j as [|[|j]]; cbn in C, K; [| |destruct j; discriminate]; injection C as <-; injection K as <-.
  - exists (Ok (AResult (ex106_res 0 [] false))). split; [destruct b; exact HA|]. split; [reflexivity|]. split; [intros v [=]|]. unfold events in EA. rewrite EA. cbn. lia.
  - exists ab. split; [destruct b; exact HB|]. split; [|split; [exact OWB|unfold events in UB; rewrite UB; cbn; lia]]. subst ab. destruct b; [split; [reflexivity|discriminate]|reflexivity].
Qed.
(** `(a | b).set(timeout=1)`: [b] is killed when its timer expires, after it has
    written a part of its output; the value is this part, and no exception. *)
Theorem c106_refuted : ~ c106_full_claim.
Proof.
  intros C. destruct (ex106_run true) as (wp & wa & wb & H & OA & OB & _ & _ & TB).
  refine (_ (C _ _ _ _ _ _ _ _ _ _ _ _ (ex106_startable (Some 1)) _ H 1%nat ([VStr [98]], ex106_opts (VRedirect DEFAULT) (Some 1)) eq_refl)).
  - intros (z & (k & r & N & T & _) & _). rewrite TB in N. injection N as <-. discriminate T.
  - intros [|j]; assumption.
Qed.
Print Assumptions c106_refuted.
Example c106_example : exists wp ws, startable ex106_pipe (fun _ => 10) (fun _ => 11) (ex106_cmds None)
  /\ await_pipeline utf8 (fun _ => RouteProps.ex_world) ex106_pipe (ex106_cmds None) (fun _ => 20) (ex106_rd EndEof) ex106_sinks (Ok (AText [104; 105])) wp ws
  /\ (forall j, (j < 2)%nat -> ~ In LExpired (events (ws j))) /\ (forall j, only_shellous_cancels (ws j))
  /\ (forall c, In c (ex106_cmds None) -> accepts (c_opts c) 0) /\ (forall z, accepts (ex106_opts (VRedirect DEFAULT) None) z -> z = 0)
  /\ RouteSpec.api_options (ex106_opts (VRedirect DEFAULT) None).
Proof.
  destruct (ex106_run false) as (wp & wa & wb & H & OA & OB & EA & EB & TB). exists wp. eexists. split; [apply ex106_startable|]. split; [exact H|].
  split. { intros [|j] _; [rewrite EA; cbn; intuition discriminate|exact EB]. } split; [intros [|j]; assumption|].
  split. { intros c [<-|[<-|[]]]; reflexivity. } split; [intros z Q; exact Q|repeat split; reflexivity].
Qed.

(** ** C107 *)
(** README 449, command.py 551-556: a command or pipeline that does not finish
    within its timeout raises TimeoutError. *)
Definition c107_full_claim := forall dec R pipe r w cmds next rd sinks v wp ws j, startable pipe r w cmds ->
  (forall j, only_shellous_cancels (ws j)) ->
  await_pipeline dec R pipe cmds next rd sinks v wp ws -> (j < List.length cmds)%nat -> In LExpired (events (ws j)) -> exists e, v = Err e.
Theorem c107_refuted : ~ c107_full_claim.
Proof.
  intros C. destruct (ex106_run true) as (wp & wa & wb & H & OA & OB & _ & X & _).
  refine (_ (C _ _ _ _ _ _ _ _ _ _ _ _ 1%nat (ex106_startable (Some 1)) _ H _ X)).
  - intros (e & E). discriminate E.
  - intros [|j]; assumption.
  - cbn. lia.
Qed.
Print Assumptions c107_refuted.
(** What command [j] left behind: a result, or a ResultError with a result. *)
Definition command_result (wp : pworld) (j : nat) (x : result) : Prop :=
  exists t, nth_error (w_tasks wp) j = Some t /\ (t_out t = Some (TValue (PRes x)) \/ t_out t = Some (TFail (ResultError x))).
Lemma find_key_cancelled l : forall acc key la, find_key l acc = Ok key -> (forall a, acc = Some a -> r_cancelled a = true) ->
  (forall y v, In y l -> get_result y = Ok v -> r_cancelled v = true) -> forall d, get_result (List.last l d) = Ok la -> l <> [] -> key = la.
Proof.
  induction l as [|y l IH]; intros acc key la E A C d L NE; [congruence|]. cbn [find_key] in E. cbv zeta in E. destruct (get_result y) as [v|] eqn:G; [|discriminate].
  assert (CV : r_cancelled v = true) by (eapply C; [now left|exact G]).
  assert (K : compare_result acc v = v).
  { destruct acc as [a|]; [|reflexivity]. unfold compare_result. rewrite (A a eq_refl), CV. cbn. destruct (r_exit a =? 0); reflexivity. }
  rewrite K, CV in E. cbn in E. destruct l as [|z l].
  - cbn in E. injection E as <-. cbn in L. congruence.
  - eapply IH; [exact E|intros a [= <-]; exact CV|intros; eapply C; [right; eassumption|eassumption]|exact L|discriminate].
Qed.
(** Missing: pipelines in which some command has finished before the timeout
    (see c107_refuted), or whose last command accepts the exit code it was
    killed with; and that the exception is TimeoutError. *)
Theorem c107_nobody_finished_partial : forall dec R pipe r w cmds next rd sinks v wp ws l, startable pipe r w cmds ->
  let n := List.length cmds in
  nth_error cmds (n - 1) = Some l ->
  await_pipeline dec R pipe cmds next rd sinks v wp ws ->
  (forall j x, (j < n)%nat -> command_result wp j x -> r_cancelled x = true) ->
  (forall x, command_result wp (n - 1)%nat x -> ~ accepts (c_opts l) (r_exit x)) ->
  exists e, v = Err e.
Proof.
  intros dec R pipe r w cmds next rd sinks v wp ws l ST n LAST (fds & cmds' & o & rr & SP & PO & RP & V & _) C NA.
  pose proof (st_two _ _ _ _ ST) as N2. fold n in N2.
  assert (OL : o = c_opts l).
  { unfold pipe_options in PO. apply nth_last in LAST as (l0 & ->). unfold last_cmd in PO. rewrite rev_app_distr in PO. cbn in PO. congruence. }
  subst o. destruct rr as [res|e]; [|exists e; exact V]. exfalso.
  destruct (PipeRunnerProofs2.run_pipeline_spec _ _ _ _ N2 RP) as (h & E & [(os & c & F & PR & _)|(e & Q & _)]); [|discriminate].
  assert (LE : List.length os = n) by (apply Forall2_len in F; rewrite seq_length in F; symmetry; exact F).
  assert (EV : forall j ot x, nth_error os j = Some ot -> get_result (PipeRunnerModel.entry ot) = Ok x -> command_result wp j x).
  { intros j ot x Oj G. assert (Lj : (j < n)%nat) by (rewrite <- LE; apply nth_error_Some; congruence).
    destruct (Forall2_nth _ _ _ F j j (seq_nth_error _ _ Lj)) as (ot' & Oj' & TO & _). rewrite Oj in Oj'. injection Oj' as <-.
    unfold task_out in TO. destruct (nth_error (w_tasks wp) j) as [t|] eqn:Nt; [|discriminate]. exists t. split; [exact Nt|].
    destruct ot as [[r0|k]|e|]; cbn in G; try discriminate; [injection G as ->; now left|]. destruct e; try discriminate. injection G as ->. now right. }
  symmetry in PR. unfold pipe_run_result in PR. destruct (convert_result_list _ c) as [res0|e] eqn:CV; [|discriminate].
  unfold check_result in PR. destruct c; [cbn in PR; destruct (o_catch_cancelled (c_opts l)); discriminate|]. cbn [andb orb negb] in PR.
  fold (codes_of (c_opts l)) in PR. destruct (container_in _ _) eqn:CI in PR; [|discriminate].
  apply accepts_in in CI. unfold convert_result_list in CV. destruct (other_ex _) eqn:OE; [|discriminate]. destruct (find_key _ None) as [key|] eqn:FK; [|discriminate].
  destruct (get_result (List.last _ _)) as [la|] eqn:GL; [|discriminate]. injection CV as <-. cbn in CI.
  destruct (nth_error os (n - 1)) as [ot|] eqn:On; [|apply nth_error_None in On; lia].
  assert (K : key = la).
  { eapply find_key_cancelled; [exact FK|discriminate| |exact GL|]; [|intros Q; apply map_eq_nil in Q; subst os; cbn in LE; lia].
    intros y v0 Hy G. apply in_map_iff in Hy as (ot' & <- & Hi). apply In_nth_error in Hi as (j & Hj). eapply (C j); [|eapply EV; eassumption]. rewrite <- LE. apply nth_error_Some. congruence. }
  apply (NA la).
  - eapply EV; [exact On|]. rewrite <- LE in On. apply nth_last in On as (l0 & ->). rewrite map_app in GL. cbn in GL. rewrite last_last in GL. exact GL.
  - subst key. exact CI.
Qed.
Print Assumptions c107_nobody_finished_partial.
(** `(a | b).set(timeout=1)`, and [a] is still running when the timer of [b]
    expires: it is cancelled and ends with the same signal. *)
Lemma ex107_a t : exists w', await_command utf8 RouteProps.ex_world (ex106_member t 0) 20 (ex106_rd EndEof 0) (ex106_sinks 0) (Err (ResultError (ex106_res (-15) [] true))) w'
  /\ outside (events w') = 1%nat /\ own_result_error (c_opts (ex106_member t 0)) (Err (ResultError (ex106_res (-15) [] true))) w'.
Proof.
  assert (RUN : exists w', bindM (aexit (c_opts (ex106_member t 0)) false false None) (fun _ => run_result (c_opts (ex106_member t 0)) None None utf8_name true) (ex106_launched false false) (Err (ResultError (ex106_res (-15) [] true))) w'
     /\ outside (events w') = 1%nat /\ own_result_error (c_opts (ex106_member t 0)) (Err (ResultError (ex106_res (-15) [] true))) w').
  { eexists. split; [|split].
    - all: go. 1: wait_by [ev XCancel]. all: go. 1: wait_by [fin 1 TCancelled; cb 1]. all: go.
      1: wait_by [ev (XExit (-15)); ev XWatch; ev XCollect; fin 2 (TValue tt); cb 2]. all: go.
    - reflexivity.
    - intros v [= <-]. exists None, None. reflexivity. }
  destruct RUN as (w' & H & E & OW). exists w'. split; [|auto].
  assert (ST : exists s hs wi, RunOptionsModel.start RouteProps.ex_world (ex106_member t 0) 20 = (s, Ok (hs, wi))
    /\ RunOptionsModel.s_output_bytes s = false /\ RunOptionsModel.s_error_bytes s = false /\ RunOptionsModel.s_pty s = None
    /\ RunOptionsModel.is_pipe (fst (fst hs)) = false /\ RunOptionsModel.wi_tasks wi = []).
  { RouteProps.run_it (RunOptionsModel.start RouteProps.ex_world (ex106_member t 0) 20). vm_compute. repeat split. }
  destruct ST as (s & [[hin hout] herr] & wi & ST & OB & EB & PT & PI & TK). cbn in PI.
  change (Err (ResultError (ex106_res (-15) [] true))) with (await_value utf8 (c_opts (ex106_member t 0)) (Err (ResultError (ex106_res (-15) [] true)))).
  eapply aw_ran with (hin := hin) (hout := hout) (herr := herr) (wi := wi) (w0 := ex106_launched false false); [reflexivity|exact ST| | |].
  - rewrite OB, EB, PT. apply (ex106_launch t 0). lia.
  - rewrite OB, EB, PI. exact H.
  - intros src dst lim Hin. rewrite TK in Hin. destruct Hin.
Qed.
Lemma ex107_pipeline t : exists wp, PipeRunnerModel.run_pipeline 2 (Ok tt) (ex106_opts (VRedirect DEFAULT) t) PipeRunnerModel.pw0 (Err (ResultError (ex106_res (-15) [104; 105] false))) wp
  /\ w_tasks wp = [mk_task (PipeRunnerModel.KCmd 0) (Some (TFail (ResultError (ex106_res (-15) [] true)))) 1; mk_task (PipeRunnerModel.KCmd 1) (Some (ex106_end true)) 0].
Proof.
  eexists; (split; [|]).
  - unfold PipeRunnerModel.run_pipeline, PipeRunnerModel.with_pipe. eapply b_bind.
    + eapply b_bind; [apply PipeRunnerProps.ex_enter|]. eexists (Ok tt), (PipeRunnerProps.ready2 false). split; [go|].
      all: go. 1: wait_by [PipeRunnerProps.pdone 1 (ex106_end true); PipeRunnerProps.pcb 1]. all: go.
      1: wait_by [PipeRunnerProps.pdone 0 (TFail (ResultError (ex106_res (-15) [] true))); PipeRunnerProps.pcb 0]. all: go.
    + go.
  - reflexivity.
Qed.
Example c107_example : exists wp ws v,
  await_pipeline utf8 (fun _ => RouteProps.ex_world) ex106_pipe (ex106_cmds (Some 1)) (fun _ => 20)
     (fun j => ex106_rd (match j with O => EndEof | _ => EndCancel end) j) ex106_sinks v wp ws
  /\ In LExpired (events (ws 1%nat)) /\ (forall j x, (j < 2)%nat -> command_result wp j x -> r_cancelled x = true)
  /\ (forall x, command_result wp 1 x -> ~ accepts (ex106_opts (VRedirect DEFAULT) (Some 1)) (r_exit x))
  /\ v = Err (ResultError (ex106_res (-15) [104; 105] false)).
Proof.
  destruct (ex107_pipeline (Some 1)) as (wp & HP & TP). destruct (ex107_a (Some 1)) as (wa & HA & UA & OA). destruct ex106_b_timeout as (wb & HB & EB & OS & OW).
  exists wp, (fun j => match j with O => wa | _ => wb end), (Err (ResultError (ex106_res (-15) [104; 105] false))). split.
  { eexists _, _, _, _. split; [apply ex106_setup|]. split; [reflexivity|]. split; [exact HP|]. split; [reflexivity|].
    intros j c k C K. right. rewrite TP in K. destruct j as [|[|j]]; cbn in C, K; [| |destruct j; discriminate]; injection C as <-; injection K as <-.
    - exists (Err (ResultError (ex106_res (-15) [] true))). split; [exact HA|]. split; [split; [reflexivity|discriminate]|]. split; [exact OA|]. unfold events in UA. rewrite UA. cbn. lia.
    - exists (Err (ResultError (ex106_res (-15) [104; 105] true))). split; [exact HB|]. split; [split; [reflexivity|discriminate]|]. split; [exact OW|]. unfold events in EB. rewrite EB. cbn. lia. }
  split; [rewrite EB; cbn; auto|]. split; [|split; [|reflexivity]].
  - intros [|[|j]] x Lj (t & N & O); [| |lia]; rewrite TP in N; cbn in N; injection N as <-; cbn in O; destruct O as [O|O]; try discriminate; injection O as <-; reflexivity.
  - intros x (t & N & O). rewrite TP in N. cbn in N. injection N as <-. cbn in O. destruct O as [O|O]; try discriminate. injection O as <-. cbn. discriminate.
Qed.
