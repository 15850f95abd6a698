From Verif Require Import PipelineModel PipelineSpec CommandProofs.
Open Scope Z_scope.

Lemma mk_pipeline_ok p q : mk_pipeline p = Ok q <-> p = q /\ p <> [].
Proof.
  destruct p; cbn; split.
  - discriminate.
  - intros [_ H]; congruence.
  - intro H; inversion H; subst; split; [reflexivity|discriminate].
  - intros [-> _]; reflexivity.
Qed.

Lemma to_op_as_pipe p : p <> [] -> to_op (as_pipe_value (mk_pipeline p)) = Ret (VPipe p).
Proof. destruct p; [congruence|reflexivity]. Qed.

Lemma or_commands a b ca cb :
  commands_of a = Some ca -> commands_of b = Some cb -> well_formed a -> well_formed b ->
  py_or a b = Ok (VPipe (ca ++ cb)).
Proof.
  intros Ha Hb Wa Wb. unfold well_formed in *. rewrite Ha in Wa. rewrite Hb in Wb.
  destruct Wa as [Wa _], Wb as [Wb _].
  assert (N : ca ++ cb <> []) by (destruct ca; [congruence|discriminate]).
  destruct a as [ | | | | | | | | | | | | | | | | | | | | | |aa ao|ap]; try discriminate Ha; inversion Ha; subst ca;
  destruct b as [ | | | | | | | | | | | | | | | | | | | | | |ba bo|bp]; try discriminate Hb; inversion Hb; subst cb;
  unfold py_or.
  - reflexivity.
  - unfold cmd_or, pipe_or, pipe_add_pipe. cbn [is_stdout_type mk_pipeline bind].
    rewrite to_op_as_pipe by exact N. reflexivity.
  - unfold pipe_or, pipe_add_cmd. rewrite to_op_as_pipe by exact N. reflexivity.
  - unfold pipe_or, pipe_add_pipe. rewrite to_op_as_pipe by exact N. reflexivity.
Qed.

Lemma well_formed_app ca cb :
  (ca <> [] /\ Forall (fun c => c_args c <> []) ca) -> (cb <> [] /\ Forall (fun c => c_args c <> []) cb) ->
  well_formed (VPipe (ca ++ cb)).
Proof.
  intros [N1 F1] [N2 F2]. unfold well_formed. cbn [commands_of]. split.
  - destruct ca; [congruence|discriminate].
  - apply Forall_app; auto.
Qed.

Lemma or_assoc_commands a b c ca cb cc :
  commands_of a = Some ca -> commands_of b = Some cb -> commands_of c = Some cc ->
  well_formed a -> well_formed b -> well_formed c ->
  bind (py_or a b) (fun ab => py_or ab c) = Ok (VPipe (ca ++ cb ++ cc))
  /\ bind (py_or b c) (fun bc => py_or a bc) = Ok (VPipe (ca ++ cb ++ cc)).
Proof.
  intros Ha Hb Hc Wa Wb Wc.
  assert (Wa' := Wa). assert (Wb' := Wb). assert (Wc' := Wc).
  unfold well_formed in Wa', Wb', Wc'. rewrite Ha in Wa'. rewrite Hb in Wb'. rewrite Hc in Wc'.
  rewrite (or_commands a b ca cb), (or_commands b c cb cc) by assumption. cbn [bind].
  split.
  - rewrite (or_commands (VPipe (ca ++ cb)) c (ca ++ cb) cc) by (auto using well_formed_app).
    now rewrite <- app_assoc.
  - rewrite (or_commands a (VPipe (cb ++ cc)) ca (cb ++ cc)) by (auto using well_formed_app). reflexivity.
Qed.

(** Ends of a pipeline *)
Lemma last_cmd_app pre c : last_cmd (pre ++ [c]) = Ok c.
Proof. unfold last_cmd. rewrite rev_app_distr. reflexivity. Qed.
Lemma but_last_app pre (c : command) : but_last (pre ++ [c]) = pre.
Proof. unfold but_last. apply removelast_last. Qed.
Lemma mk_pipeline_snoc pre (c : command) : mk_pipeline (pre ++ [c]) = Ok (pre ++ [c]).
Proof. destruct pre; reflexivity. Qed.
Lemma snoc_cases {A} (l : list A) : l = [] \/ exists pre x, l = pre ++ [x].
Proof. destruct l as [|a l] using rev_ind; [left; reflexivity | right; eauto]. Qed.

Lemma pipe_stdout_snoc pre c v ap cl :
  pipe_stdout (pre ++ [c]) v ap cl = bind (cmd_stdout c v ap cl) (fun c' => Ok (pre ++ [c'])).
Proof.
  unfold pipe_stdout. rewrite last_cmd_app. cbn [bind]. destruct (cmd_stdout c v ap cl); cbn [bind]; [|reflexivity].
  rewrite but_last_app, mk_pipeline_snoc. reflexivity.
Qed.
Lemma pipe_stderr_snoc pre c v ap cl :
  pipe_stderr (pre ++ [c]) v ap cl = bind (cmd_stderr c v ap cl) (fun c' => Ok (pre ++ [c'])).
Proof.
  unfold pipe_stderr. rewrite last_cmd_app. cbn [bind]. destruct (cmd_stderr c v ap cl); cbn [bind]; [|reflexivity].
  rewrite but_last_app, mk_pipeline_snoc. reflexivity.
Qed.
Lemma pipe_set_snoc pre c k :
  pipe_set (pre ++ [c]) k = bind (cmd_set c k) (fun c' => Ok (pre ++ [c'])).
Proof.
  unfold pipe_set. rewrite last_cmd_app. cbn [bind]. destruct (cmd_set c k); cbn [bind]; [|reflexivity].
  rewrite but_last_app, mk_pipeline_snoc. reflexivity.
Qed.
Lemma pipe_stdin_cons c rest v cl :
  pipe_stdin (c :: rest) v cl = bind (cmd_stdin c v cl) (fun c' => Ok (c' :: rest)).
Proof. unfold pipe_stdin. cbn [first_cmd bind]. destruct (cmd_stdin c v cl); reflexivity. Qed.

Lemma ends_lemma :
  forall (c0 : command) (mid : list command) (cn : command) v ap cl k,
  pipe_stdin (c0 :: mid) v cl = bind (apply_upd c0 (UStdin v cl)) (fun c => Ok (c :: mid))
  /\ pipe_stdout (mid ++ [cn]) v ap cl = bind (apply_upd cn (UStdout v ap cl)) (fun c => Ok (mid ++ [c]))
  /\ pipe_stderr (mid ++ [cn]) v ap cl = bind (apply_upd cn (UStderr v ap cl)) (fun c => Ok (mid ++ [c]))
  /\ pipe_set (mid ++ [cn]) k = bind (apply_upd cn (USet k)) (fun c => Ok (mid ++ [c])).
Proof.
  intros. cbn [apply_upd]. rewrite pipe_stdin_cons, pipe_stdout_snoc, pipe_stderr_snoc, pipe_set_snoc.
  repeat split.
Qed.

Lemma input_operand_iff v : input_operand v <-> is_stdin_type v = true.
Proof. split; [intros []; reflexivity | destruct v; intro H; try discriminate H; constructor]. Qed.
Lemma output_operand_iff v : output_operand v <-> is_stdout_type v = true.
Proof. split; [intros []; reflexivity | destruct v; intro H; try discriminate H; constructor]. Qed.

(** The operators on a non-command operand, as one function of the operand. *)
Lemma or_right_value a y ca : commands_of a = Some ca -> commands_of y = None -> well_formed a ->
  exists pre c, ca = pre ++ [c] /\
  (output_operand y ->
     py_or a y = bind (apply_upd c (UStdout y false false))
       (fun c' => Ok (match a with VCmd _ _ => VCmd (c_args c') (c_opts c') | _ => VPipe (pre ++ [c']) end))) /\
  (~ output_operand y -> exists m, py_or a y = Err (TypeError m)) /\
  (output_operand y ->
     py_rshift a y = bind (apply_upd c (UStdout y true false))
       (fun c' => Ok (match a with VCmd _ _ => VCmd (c_args c') (c_opts c') | _ => VPipe (pre ++ [c']) end))) /\
  (~ output_operand y -> exists m, py_rshift a y = Err (TypeError m)).
Proof.
  intros Ha Hy Wa. unfold well_formed in Wa. rewrite Ha in Wa. destruct Wa as [Wn _].
  setoid_rewrite output_operand_iff. cbn [apply_upd].
  destruct a as [ | | | | | | | | | | | | | | | | | | | | | |aa ao|ap]; try discriminate Ha; inversion Ha; subst ca.
  - exists [], (aa, ao). split; [reflexivity|].
    unfold py_or, py_rshift, cmd_or, cmd_rshift.
    destruct (is_stdout_type y) eqn:E.
    + split; [|split; [congruence|split; [|congruence]]]; intros _.
      * unfold as_cmd_value. destruct (cmd_stdout (aa, ao) y false false); reflexivity.
      * unfold as_cmd_value. destruct (cmd_stdout (aa, ao) y true false); reflexivity.
    + split; [discriminate|]. split; [|split; [discriminate|]]; intros _.
      * cbn [mk_pipeline bind]. destruct y; try discriminate Hy; try discriminate E; eexists; reflexivity.
      * eexists; reflexivity.
  - destruct (snoc_cases ap) as [->|(pre & c & ->)]; [exfalso; apply Wn; reflexivity|].
    exists pre, c. split; [reflexivity|].
    unfold py_or, py_rshift, pipe_or, pipe_rshift.
    destruct (is_stdout_type y) eqn:E.
    + split; [|split; [congruence|split; [|congruence]]]; intros _.
      * rewrite pipe_stdout_snoc. unfold as_pipe_value.
        destruct (cmd_stdout c y false false); cbn [bind to_op]; destruct y; try discriminate Hy; try discriminate E; reflexivity.
      * rewrite pipe_stdout_snoc. unfold as_pipe_value.
        destruct (cmd_stdout c y true false); reflexivity.
    + split; [discriminate|]. split; [|split; [discriminate|]]; intros _;
      destruct y; try discriminate Hy; try discriminate E; eexists; reflexivity.
Qed.

Lemma or_left_value a x ca : commands_of a = Some ca -> commands_of x = None -> well_formed a ->
  exists c rest, ca = c :: rest /\
  (input_operand x ->
     py_or x a = bind (apply_upd c (UStdin x false))
       (fun c' => Ok (match a with VCmd _ _ => VCmd (c_args c') (c_opts c') | _ => VPipe (c' :: rest) end))) /\
  (~ input_operand x -> exists m, py_or x a = Err (TypeError m)).
Proof.
  intros Ha Hx Wa. unfold well_formed in Wa. rewrite Ha in Wa. destruct Wa as [Wn _].
  setoid_rewrite input_operand_iff. cbn [apply_upd].
  assert (Hl : py_or x a = match reflected a x with
                           | Ret v => Ok v | Raise e => Err e | NotImplemented => Err unsupported_operand end).
  { unfold py_or. destruct x; try reflexivity; discriminate Hx. }
  rewrite Hl.
  destruct a as [ | | | | | | | | | | | | | | | | | | | | | |aa ao|ap]; try discriminate Ha; inversion Ha; subst ca.
  - exists (aa, ao), []. split; [reflexivity|]. cbn [reflected]. unfold cmd_ror.
    destruct (is_stdin_type x).
    + split; [|congruence]. intros _. unfold as_cmd_value.
      destruct (cmd_stdin (aa, ao) x false); reflexivity.
    + split; [discriminate|]. intros _. eexists; reflexivity.
  - destruct ap as [|c rest]; [exfalso; apply Wn; reflexivity|]. exists c, rest. split; [reflexivity|].
    cbn [reflected]. unfold pipe_ror. destruct (is_stdin_type x).
    + split; [|congruence]. intros _. unfold as_pipe_value. rewrite pipe_stdin_cons.
      destruct (cmd_stdin c x false); reflexivity.
    + split; [discriminate|]. intros _. eexists; reflexivity.
Qed.

(** Argument lists are preserved by updates. *)
Lemma apply_upd_args c u c' : c_args c <> [] -> apply_upd c u = Ok c' -> c_args c' = c_args c.
Proof.
  intros Hc H. destruct (valid_upd u) eqn:V.
  - destruct (apply_upd_ok c u Hc V) as (o' & E & _). rewrite E in H. inversion H. reflexivity.
  - destruct (apply_upd_err c u V) as (e & E). congruence.
Qed.

(** (a | b) | y  =  a | (b | y) for every y, and likewise with >>. *)
Lemma or_assoc_right a b y ca cb : commands_of a = Some ca -> commands_of b = Some cb ->
  well_formed a -> well_formed b -> commands_of y = None ->
  same_outcome (bind (py_or a b) (fun ab => py_or ab y)) (bind (py_or b y) (fun bd => py_or a bd))
  /\ same_outcome (bind (py_or a b) (fun ab => py_rshift ab y)) (bind (py_rshift b y) (fun bd => py_or a bd)).
Proof.
  intros Ha Hb Wa Wb Hy. rewrite (or_commands a b ca cb) by assumption. cbn [bind].
  assert (Wa' := Wa). assert (Wb' := Wb). unfold well_formed in Wa', Wb'. rewrite Ha in Wa'. rewrite Hb in Wb'.
  assert (Wab : well_formed (VPipe (ca ++ cb))) by (apply well_formed_app; assumption).
  destruct (or_right_value (VPipe (ca ++ cb)) y (ca ++ cb) eq_refl Hy Wab) as (pre & c & E & H1 & H2 & H3 & H4).
  destruct (or_right_value b y cb Hb Hy Wb) as (preb & cl & Eb & B1 & B2 & B3 & B4).
  assert (Ep : pre = ca ++ preb /\ c = cl).
  { subst cb. rewrite app_assoc in E. apply app_inj_tail in E. destruct E; auto. }
  destruct Ep as [-> ->].
  assert (Hfin : forall c', c_args c' = c_args cl ->
     py_or a (match b with VCmd _ _ => VCmd (c_args c') (c_opts c') | _ => VPipe (preb ++ [c']) end)
     = Ok (VPipe ((ca ++ preb) ++ [c']))).
  { intros c' Hargs. destruct Wb' as [_ Fb]. subst cb. apply Forall_app in Fb. destruct Fb as [Fp Fc].
    inversion Fc as [|? ? Hc1 _]; subst.
    destruct b as [ | | | | | | | | | | | | | | | | | | | | | |ba bo|bp]; try discriminate Hb.
    - assert (preb = []) by (destruct preb as [|? [|? ?]]; inversion Hb; reflexivity). subst preb.
      rewrite (or_commands a _ ca [(c_args c', c_opts c')]); auto.
      + rewrite app_nil_r. destruct c'; reflexivity.
      + unfold well_formed. cbn [commands_of]. split; [discriminate|]. constructor; [|constructor].
        cbn [c_args fst]. unfold c_args in *. congruence.
    - rewrite (or_commands a _ ca (preb ++ [c'])); auto.
      + rewrite app_assoc. reflexivity.
      + unfold well_formed. cbn [commands_of]. split; [destruct preb; discriminate|].
        apply Forall_app. split; [assumption|]. constructor; [congruence|constructor]. }
  assert (Hcl : c_args cl <> []).
  { destruct Wb' as [_ Fb]. subst cb. apply Forall_app in Fb. destruct Fb as [_ Fc]. inversion Fc; assumption. }
  assert (Hdec : output_operand y \/ ~ output_operand y).
  { rewrite output_operand_iff. destruct (is_stdout_type y); [left|right]; congruence. }
  destruct Hdec as [HO|HN].
  - rewrite (H1 HO), (B1 HO), (H3 HO), (B3 HO). split.
    + destruct (apply_upd cl (UStdout y false false)) as [c'|e] eqn:EU; cbn [bind same_outcome]; [|exact I].
      rewrite Hfin by (eapply apply_upd_args; eauto). reflexivity.
    + destruct (apply_upd cl (UStdout y true false)) as [c'|e] eqn:EU; cbn [bind same_outcome]; [|exact I].
      rewrite Hfin by (eapply apply_upd_args; eauto). reflexivity.
  - destruct (H2 HN) as [m2 ->], (B2 HN) as [m1 ->], (H4 HN) as [m4 ->], (B4 HN) as [m3 ->]. split; exact I.
Qed.

(** x | (a | b)  =  (x | a) | b for every x. *)
Lemma or_assoc_left a b x ca cb : commands_of a = Some ca -> commands_of b = Some cb ->
  well_formed a -> well_formed b -> commands_of x = None ->
  same_outcome (bind (py_or a b) (fun ab => py_or x ab)) (bind (py_or x a) (fun xa => py_or xa b)).
Proof.
  intros Ha Hb Wa Wb Hx. rewrite (or_commands a b ca cb) by assumption. cbn [bind].
  assert (Wa' := Wa). assert (Wb' := Wb). unfold well_formed in Wa', Wb'. rewrite Ha in Wa'. rewrite Hb in Wb'.
  assert (Wab : well_formed (VPipe (ca ++ cb))) by (apply well_formed_app; assumption).
  destruct (or_left_value (VPipe (ca ++ cb)) x (ca ++ cb) eq_refl Hx Wab) as (c & rest & E & H1 & H2).
  destruct (or_left_value a x ca Ha Hx Wa) as (c0 & resta & Ea & A1 & A2).
  subst ca. cbn [app] in E. inversion E; subst c rest.
  destruct Wa' as [_ Fa]. inversion Fa as [|? ? Hc0 Fr]; subst.
  assert (Hdec : input_operand x \/ ~ input_operand x).
  { rewrite input_operand_iff. destruct (is_stdin_type x); [left|right]; congruence. }
  destruct Hdec as [HI|HN].
  - rewrite (H1 HI), (A1 HI).
    destruct (apply_upd c0 (UStdin x false)) as [c'|e] eqn:EU; cbn [bind same_outcome]; [|exact I].
    pose proof (apply_upd_args _ _ _ Hc0 EU) as Hargs.
    destruct a as [ | | | | | | | | | | | | | | | | | | | | | |aa ao|ap]; try discriminate Ha.
    + assert (resta = []) by (inversion Ha; reflexivity). subst resta.
      rewrite (or_commands _ b [(c_args c', c_opts c')] cb); auto.
      * destruct c'; reflexivity.
      * unfold well_formed. cbn [commands_of]. split; [discriminate|]. constructor; [|constructor].
        cbn [c_args fst]. unfold c_args in *. congruence.
    + rewrite (or_commands _ b (c' :: resta) cb); auto.
      * unfold well_formed. cbn [commands_of]. split; [discriminate|]. constructor; [congruence|assumption].
  - destruct (H2 HN) as [m2 ->], (A2 HN) as [m1 ->]. exact I.
Qed.

(** * _setup_pipeline *)
Lemma nth_list_set {A} (l : list A) i x j :
  nth_error (list_set l i x) j =
  if (j =? i)%nat then match nth_error l i with Some _ => Some x | None => None end else nth_error l j.
Proof.
  revert i j; induction l as [|y l IH]; intros i j.
  - cbn [list_set]. destruct i, j; cbn; try reflexivity; destruct (_ =? _)%nat; reflexivity.
  - destruct i as [|i], j as [|j]; cbn [list_set nth_error Nat.eqb]; try reflexivity. apply IH.
Qed.
Lemma list_set_length {A} (l : list A) i x : List.length (list_set l i x) = List.length l.
Proof. revert i; induction l as [|y l IH]; intros [|i]; cbn; auto. Qed.

Lemma apply_upds_app c us vs : apply_upds c (us ++ vs) = bind (apply_upds c us) (fun c' => apply_upds c' vs).
Proof.
  revert c; induction us as [|u us IH]; intro c; cbn [app apply_upds]; [reflexivity|].
  destruct (apply_upd c u); cbn [bind]; [apply IH|reflexivity].
Qed.

Definition link_updates (r w : nat -> Z) (i todo j : nat) : list upd :=
  (if (i <? j)%nat && (j <=? i + todo)%nat then [UStdin (VInt (r (j - 1)%nat)) true] else [])
  ++ (if (i <=? j)%nat && (j <? i + todo)%nat then [UStdout (VInt (w j)) false true] else []).

Definition pipe_fds (r w : nat -> Z) (i n : nat) : list Z :=
  flat_map (fun j => [r j; w j]) (seq i n).

Definition all_args (cmds : list command) : Prop := Forall (fun c => c_args c <> []) cmds.

Lemma all_args_set cmds i c : all_args cmds -> c_args c <> [] -> all_args (list_set cmds i c).
Proof.
  unfold all_args. intros H Hc. revert i; induction H as [|x l Hx Hl IH]; intros [|i]; cbn; constructor; auto.
Qed.

Lemma fd_upd_stdin c fd cl : c_args c <> [] -> fd <> -2 ->
  exists c', cmd_stdin c (VInt fd) cl = Ok c' /\ c_args c' = c_args c /\ apply_upd c (UStdin (VInt fd) cl) = Ok c'.
Proof.
  intros Hc Hf. assert (V : valid_upd (UStdin (VInt fd) cl) = true).
  { cbn. rewrite (proj2 (Z.eqb_neq fd (-2)) Hf). reflexivity. }
  destruct (apply_upd_ok c _ Hc V) as (o' & E & _). exists (c_args c, o').
  split; [exact E|]. split; [reflexivity|exact E].
Qed.
Lemma fd_upd_stdout c fd ap cl : c_args c <> [] -> fd <> -2 ->
  exists c', cmd_stdout c (VInt fd) ap cl = Ok c' /\ c_args c' = c_args c
    /\ apply_upd c (UStdout (VInt fd) ap cl) = Ok c'.
Proof.
  intros Hc Hf. assert (V : valid_upd (UStdout (VInt fd) ap cl) = true).
  { cbn. rewrite (proj2 (Z.eqb_neq fd (-2)) Hf). reflexivity. }
  destruct (apply_upd_ok c _ Hc V) as (o' & E & _). exists (c_args c, o').
  split; [exact E|]. split; [reflexivity|exact E].
Qed.

Lemma stitch_ok pipe r w : forall todo i cmds fds,
  all_args cmds -> (i + todo < List.length cmds)%nat ->
  (forall j, (i <= j < i + todo)%nat -> pipe j = Some (r j, w j) /\ r j <> -2 /\ w j <> -2) ->
  exists out, stitch pipe todo i cmds fds = (fds ++ pipe_fds r w i todo, Ok out)
    /\ List.length out = List.length cmds
    /\ all_args out
    /\ forall j c, nth_error cmds j = Some c ->
         exists c', nth_error out j = Some c' /\ apply_upds c (link_updates r w i todo j) = Ok c'.
Proof.
  induction todo as [|todo IH]; intros i cmds fds Hall Hlen Hpipe.
  - exists cmds. cbn [stitch pipe_fds seq flat_map]. rewrite app_nil_r.
    split; [reflexivity|]. split; [reflexivity|]. split; [assumption|].
    intros j c Hj. exists c. split; [assumption|]. unfold link_updates.
    replace ((i <? j)%nat && (j <=? i + 0)%nat) with false by
      (symmetry; apply andb_false_iff; destruct (Nat.ltb_spec i j); [right; apply Nat.leb_gt; lia|left; reflexivity]).
    replace ((i <=? j)%nat && (j <? i + 0)%nat) with false by
      (symmetry; apply andb_false_iff; destruct (Nat.leb_spec i j); [right; apply Nat.ltb_ge; lia|left; reflexivity]).
    reflexivity.
  - cbn [stitch]. destruct (Hpipe i) as (Hp & Hr & Hw); [lia|]. rewrite Hp.
    assert (Hi : exists ci, nth_error cmds i = Some ci).
    { destruct (nth_error cmds i) eqn:E; [eauto|]. apply nth_error_None in E. lia. }
    destruct Hi as [ci Hci].
    assert (Hj : exists cj, nth_error cmds (S i) = Some cj).
    { destruct (nth_error cmds (S i)) eqn:E; [eauto|]. apply nth_error_None in E. lia. }
    destruct Hj as [cj Hcj].
    assert (Aci : c_args ci <> []) by (eapply Forall_forall in Hall; [exact Hall | eapply nth_error_In; eauto]).
    assert (Acj : c_args cj <> []) by (eapply Forall_forall in Hall; [exact Hall | eapply nth_error_In; eauto]).
    unfold list_get. rewrite Hci. cbn [bind].
    destruct (fd_upd_stdout ci (w i) false true Aci Hw) as (ci' & Eci & Arg_i & Ui). rewrite Eci. cbn [bind].
    rewrite nth_list_set. rewrite (proj2 (Nat.eqb_neq (S i) i)) by lia. rewrite Hcj. cbn [bind].
    destruct (fd_upd_stdin cj (r i) true Acj Hr) as (cj' & Ecj & Arg_j & Uj). rewrite Ecj. cbn [bind].
    set (cmds' := list_set (list_set cmds i ci') (S i) cj').
    destruct (IH (S i) cmds' (fds ++ [r i; w i])) as (out & E1 & E2 & E3 & E4).
    + unfold cmds'. apply all_args_set; [apply all_args_set|]; congruence || assumption.
    + unfold cmds'. rewrite !list_set_length. lia.
    + intros j Hj. apply Hpipe. lia.
    + exists out. rewrite E1. unfold pipe_fds. cbn [seq flat_map]. rewrite <- app_assoc.
      split; [reflexivity|]. unfold cmds' in E2. rewrite !list_set_length in E2.
      split; [assumption|]. split; [assumption|].
      intros j c Hc.
      assert (Hn : nth_error cmds' j =
        if (j =? S i)%nat then Some cj' else if (j =? i)%nat then Some ci' else nth_error cmds j).
      { unfold cmds'. rewrite !nth_list_set.
        rewrite (proj2 (Nat.eqb_neq (S i) i)) by lia. rewrite Hcj, Hci. reflexivity. }
      destruct (Nat.eqb_spec j i) as [->|Hji].
      * rewrite Hci in Hc. inversion Hc; subst c.
        rewrite (proj2 (Nat.eqb_neq i (S i))) in Hn by lia.
        destruct (E4 i ci' Hn) as (c' & N' & U'). exists c'. split; [assumption|].
        unfold link_updates in *.
        rewrite Nat.ltb_irrefl. cbn [andb app].
        rewrite Nat.leb_refl. rewrite (proj2 (Nat.ltb_lt i (i + S todo))) by lia. cbn [andb].
        rewrite (proj2 (Nat.ltb_ge (S i) i)) in U' by lia. cbn [andb app] in U'.
        rewrite (proj2 (Nat.leb_gt (S i) i)) in U' by lia. cbn [andb app] in U'.
        cbn [apply_upds] in U'. inversion U'; subst c'.
        cbn [apply_upds]. rewrite Ui. reflexivity.
      * destruct (Nat.eqb_spec j (S i)) as [->|Hjs].
        -- rewrite Hcj in Hc. inversion Hc; subst c.
           destruct (E4 (S i) cj' Hn) as (c' & N' & U'). exists c'. split; [assumption|].
           unfold link_updates in *.
           rewrite (proj2 (Nat.ltb_lt i (S i))) by lia.
           rewrite (proj2 (Nat.leb_le (S i) (i + S todo))) by lia. cbn [andb].
           rewrite Nat.ltb_irrefl in U'. cbn [andb app] in U'.
           rewrite (proj2 (Nat.leb_le i (S i))) by lia.
           rewrite Nat.leb_refl in U'. cbn [andb] in *.
           replace (S i <? i + S todo)%nat with (S i <? S i + todo)%nat by (f_equal; lia).
           cbn [app apply_upds]. replace (S i - 1)%nat with i by lia. rewrite Uj. cbn [bind]. exact U'.
        -- destruct (E4 j c) as (c' & N' & U').
           { rewrite Hn. assumption. }
           exists c'. split; [assumption|]. rewrite <- U'. f_equal. unfold link_updates.
           f_equal.
           ++ replace ((S i <? j)%nat && (j <=? S i + todo)%nat) with ((i <? j)%nat && (j <=? i + S todo)%nat); [reflexivity|].
              destruct (Nat.ltb_spec i j), (Nat.ltb_spec (S i) j), (Nat.leb_spec j (i + S todo)), (Nat.leb_spec j (S i + todo)); cbn; lia || reflexivity.
           ++ replace ((S i <=? j)%nat && (j <? S i + todo)%nat) with ((i <=? j)%nat && (j <? i + S todo)%nat); [reflexivity|].
              destruct (Nat.leb_spec i j), (Nat.leb_spec (S i) j), (Nat.ltb_spec j (i + S todo)), (Nat.ltb_spec j (S i + todo)); cbn; lia || reflexivity.
Qed.

Lemma set_all_ok cmds : all_args cmds -> exists out, set_all cmds = Ok out
  /\ List.length out = List.length cmds
  /\ forall j c, nth_error cmds j = Some c ->
       exists c', nth_error out j = Some c' /\ apply_upd c (USet pipe_member_kwds) = Ok c'.
Proof.
  induction 1 as [|c cmds Hc Hl IH]; cbn [set_all].
  - exists []. split; [reflexivity|]. split; [reflexivity|]. intros [|j] c H; discriminate.
  - destruct (apply_upd_ok c (USet pipe_member_kwds) Hc eq_refl) as (o' & E & _).
    change (cmd_set c kwds_pipe) with (apply_upd c (USet pipe_member_kwds)). rewrite E. cbn [bind].
    destruct IH as (out & -> & HL & HN). cbn [bind]. eexists. split; [reflexivity|].
    split; [cbn; congruence|]. intros [|j] c0 H; cbn [nth_error] in *.
    + inversion H; subst. eauto.
    + apply HN. assumption.
Qed.

Lemma setup_pipeline_ok pipe r w cmds :
  all_args cmds -> cmds <> [] ->
  (forall j, (j < List.length cmds - 1)%nat -> pipe j = Some (r j, w j) /\ r j <> -2 /\ w j <> -2) ->
  exists out, setup_pipeline pipe cmds = (pipe_fds r w 0 (List.length cmds - 1), Ok out)
    /\ List.length out = List.length cmds
    /\ forall j c, nth_error cmds j = Some c ->
         exists c', nth_error out j = Some c' /\ apply_upds c (member_updates r w (List.length cmds) j) = Ok c'.
Proof.
  intros Hall Hne Hpipe. unfold setup_pipeline.
  assert (Hlen : (0 < List.length cmds)%nat) by (destruct cmds; [congruence|cbn; lia]).
  destruct (stitch_ok pipe r w (List.length cmds - 1) 0 cmds []) as (out & E1 & E2 & E3 & E4);
    [assumption|lia|intros; apply Hpipe; lia|].
  rewrite E1. cbn [bind app].
  destruct (set_all_ok out E3) as (out' & S1 & S2 & S3). rewrite S1.
  exists out'. split; [reflexivity|]. split; [congruence|].
  intros j c Hc. destruct (E4 j c Hc) as (c1 & N1 & U1). destruct (S3 j c1 N1) as (c2 & N2 & U2).
  exists c2. split; [assumption|].
  assert (Hj : (j < List.length cmds)%nat) by (apply nth_error_Some; congruence).
  replace (member_updates r w (List.length cmds) j)
     with (link_updates r w 0 (List.length cmds - 1) j ++ [USet pipe_member_kwds]).
  - rewrite apply_upds_app, U1. cbn [bind apply_upds]. rewrite U2. reflexivity.
  - unfold link_updates, member_updates. rewrite <- app_assoc. f_equal; [|f_equal].
    + destruct (Nat.eqb_spec j 0) as [->|Hn]; [reflexivity|].
      rewrite (proj2 (Nat.ltb_lt 0 j)) by lia. rewrite (proj2 (Nat.leb_le j (0 + (List.length cmds - 1)))) by lia.
      reflexivity.
    + destruct (Nat.eqb_spec (S j) (List.length cmds)) as [He|Hn].
      * rewrite (proj2 (Nat.ltb_ge j (0 + (List.length cmds - 1)))) by lia. reflexivity.
      * rewrite (proj2 (Nat.ltb_lt j (0 + (List.length cmds - 1)))) by lia. reflexivity.
Qed.

Lemma stitch_fail pipe r w k : forall todo i cmds fds,
  all_args cmds -> (i + todo < List.length cmds)%nat -> (i <= k < i + todo)%nat ->
  (forall j, (i <= j < k)%nat -> pipe j = Some (r j, w j) /\ r j <> -2 /\ w j <> -2) ->
  pipe k = None ->
  stitch pipe todo i cmds fds = (fds ++ pipe_fds r w i (k - i), Err OSError).
Proof.
  induction todo as [|todo IH]; intros i cmds fds Hall Hlen Hk Hpipe Hf; [lia|].
  cbn [stitch]. destruct (Nat.eq_dec i k) as [->|Hne].
  - rewrite Hf, Nat.sub_diag. cbn. now rewrite app_nil_r.
  - destruct (Hpipe i) as (Hp & Hr & Hw); [lia|]. rewrite Hp.
    assert (Hi : exists ci, nth_error cmds i = Some ci).
    { destruct (nth_error cmds i) eqn:E; [eauto|]. apply nth_error_None in E. lia. }
    destruct Hi as [ci Hci].
    assert (Hj : exists cj, nth_error cmds (S i) = Some cj).
    { destruct (nth_error cmds (S i)) eqn:E; [eauto|]. apply nth_error_None in E. lia. }
    destruct Hj as [cj Hcj].
    assert (Aci : c_args ci <> []) by (eapply Forall_forall in Hall; [exact Hall | eapply nth_error_In; eauto]).
    assert (Acj : c_args cj <> []) by (eapply Forall_forall in Hall; [exact Hall | eapply nth_error_In; eauto]).
    unfold list_get. rewrite Hci. cbn [bind].
    destruct (fd_upd_stdout ci (w i) false true Aci Hw) as (ci' & Eci & Arg_i & _). rewrite Eci. cbn [bind].
    rewrite nth_list_set. rewrite (proj2 (Nat.eqb_neq (S i) i)) by lia. rewrite Hcj. cbn [bind].
    destruct (fd_upd_stdin cj (r i) true Acj Hr) as (cj' & Ecj & Arg_j & _). rewrite Ecj. cbn [bind].
    rewrite IH; [| |rewrite !list_set_length; lia|lia|intros; apply Hpipe; lia|assumption].
    + replace (k - i)%nat with (S (k - S i)) by lia. unfold pipe_fds. cbn [seq flat_map].
      rewrite <- app_assoc. reflexivity.
    + apply all_args_set; [apply all_args_set|]; congruence || assumption.
Qed.

Lemma setup_pipeline_fail pipe r w cmds k :
  all_args cmds -> (k < List.length cmds - 1)%nat ->
  (forall j, (j < k)%nat -> pipe j = Some (r j, w j) /\ r j <> -2 /\ w j <> -2) ->
  pipe k = None ->
  setup_pipeline pipe cmds = (pipe_fds r w 0 k, Err OSError).
Proof.
  intros Hall Hk Hpipe Hf. unfold setup_pipeline.
  rewrite (stitch_fail pipe r w k); [|assumption|lia|lia|intros; apply Hpipe; lia|assumption].
  rewrite Nat.sub_0_r. reflexivity.
Qed.

Lemma c12_pipes_connect_neighbours_lemma :
  forall pipe r w cmds,
  cmds <> [] -> Forall (fun c => c_args c <> []) cmds ->
  (forall j, (j < List.length cmds - 1)%nat -> pipe j = Some (r j, w j) /\ 0 <= r j /\ 0 <= w j) ->
  exists out,
    setup_pipeline pipe cmds = (flat_map (fun j => [r j; w j]) (seq 0 (List.length cmds - 1)), Ok out)
    /\ List.length out = List.length cmds
    /\ forall j c, nth_error cmds j = Some c ->
       exists o', nth_error out j = Some (c_args c, o')
         /\ follows_history (member_updates r w (List.length cmds) j) (c_opts c) o'
         /\ o_input o' = (if (j =? 0)%nat then o_input (c_opts c) else VInt (r (j - 1)%nat))
         /\ o_input_close o' = (if (j =? 0)%nat then o_input_close (c_opts c) else true)
         /\ o_output o' = (if (S j =? List.length cmds)%nat then o_output (c_opts c) else VInt (w j))
         /\ o_output_close o' = (if (S j =? List.length cmds)%nat then o_output_close (c_opts c) else true)
         /\ o_error o' = o_error (c_opts c)
         /\ o_return_result o' = true /\ o_catch_cancelled o' = true.
Proof.
  intros pipe r w cmds Hne Hall Hpipe.
  destruct (setup_pipeline_ok pipe r w cmds Hall Hne) as (out & E & L & H).
  { intros j Hj. destruct (Hpipe j Hj) as (? & ? & ?). repeat split; [assumption|lia|lia]. }
  exists out. split; [exact E|]. split; [exact L|]. intros j c Hj.
  destruct (H j c Hj) as (c' & N & U).
  assert (Ac : c_args c <> []) by (eapply Forall_forall in Hall; [exact Hall|eapply nth_error_In; eauto]).
  assert (Hlt : (j < List.length cmds)%nat) by (apply nth_error_Some; congruence).
  destruct (apply_upds_history (member_updates r w (List.length cmds) j) c Ac) as [H1 _].
  destruct H1 as (o' & E' & F).
  { unfold member_updates.
    destruct (Nat.eqb_spec j 0); destruct (Nat.eqb_spec (S j) (List.length cmds)); cbn;
    try reflexivity;
    repeat (match goal with |- context [?x =? -2] =>
       let H := fresh in assert (H : 0 <= x) by (apply Hpipe; lia);
       rewrite (proj2 (Z.eqb_neq x (-2))) by lia end; cbn); reflexivity. }
  rewrite U in E'. inversion E'; subst c'. exists o'. split; [exact N|]. split; [exact F|].
  rewrite (fh_input _ _ _ F), (fh_input_close _ _ _ F), (fh_output _ _ _ F), (fh_output_close _ _ _ F), (fh_error _ _ _ F), (fh_return_result _ _ _ F), (fh_catch_cancelled _ _ _ F).
  unfold member_updates.
  destruct (Nat.eqb_spec j 0); destruct (Nat.eqb_spec (S j) (List.length cmds)); cbn; repeat split.
Qed.

Lemma c11_invalid_redirections_lemma :
  (forall c cl ap v, is_none v = true ->
     (exists m, cmd_stdin c v cl = Err (TypeError m)) /\ (exists m, cmd_stdout c v ap cl = Err (TypeError m))
     /\ (exists m, cmd_stderr c v ap cl = Err (TypeError m)))
  /\ (forall c cl ap v, is_stdout v = true ->
     (exists m, cmd_stdin c v cl = Err (ValueError m)) /\ (exists m, cmd_stdout c v ap cl = Err (ValueError m)))
  /\ (forall l r, well_formed l -> well_formed r -> (commands_of l <> None \/ commands_of r <> None) ->
      forall v, py_or l r = Ok v ->
      (commands_of l <> None \/ (input_operand l /\ is_stdout l = false))
      /\ (commands_of r <> None \/ (output_operand r /\ is_stdout r = false)))
  /\ (forall l r v, well_formed l -> commands_of l <> None -> py_rshift l r = Ok v ->
      output_operand r /\ is_stdout r = false)
  /\ (forall l s, commands_of l <> None -> well_formed l ->
      (exists m, py_or l (VStr s) = Err (TypeError m)) /\ (exists m, py_rshift l (VStr s) = Err (TypeError m))
      /\ (exists m, py_or l (VBytes s) = Err (TypeError m)) /\ (exists m, py_rshift l (VBytes s) = Err (TypeError m))).
Proof.
  split; [|split; [|split; [|split]]].
  - intros c cl ap v Hv. destruct v; try discriminate Hv. cbn. split; [|split]; eexists; reflexivity.
  - intros c cl ap v Hv. unfold cmd_stdin, cmd_stdout, set_stdin, set_stdout.
    destruct v; try discriminate Hv; cbn in *; try (destruct r; try discriminate Hv); cbn;
      try (rewrite Hv; cbn); split; eexists; reflexivity.
  - intros l r Wl Wr Hlr v Hv.
    destruct (commands_of l) as [cl|] eqn:El.
    + split; [left; discriminate|]. destruct (commands_of r) as [cr|] eqn:Er; [left; discriminate|right].
      destruct (or_right_value l r cl El Er Wl) as (pre & c & -> & H1 & H2 & _).
      assert (HO : output_operand r).
      { destruct (is_stdout_type r) eqn:E; [now apply output_operand_iff|].
        destruct H2 as [m Hm]; [rewrite output_operand_iff; congruence|]. congruence. }
      split; [exact HO|]. rewrite (H1 HO) in Hv.
      destruct (is_stdout r) eqn:ES; [|reflexivity].
      destruct (apply_upd_err c (UStdout r false false)) as [e He].
      { cbn. rewrite ES. apply andb_false_r. }
      rewrite He in Hv. discriminate Hv.
    + destruct Hlr as [Hlr|Hlr]; [congruence|].
      destruct (commands_of r) as [cr|] eqn:Er; [|congruence].
      split; [right|left; discriminate].
      destruct (or_left_value r l cr Er El Wr) as (c & rest & -> & H1 & H2).
      assert (HO : input_operand l).
      { destruct (is_stdin_type l) eqn:E; [now apply input_operand_iff|].
        destruct H2 as [m Hm]; [rewrite input_operand_iff; congruence|]. congruence. }
      split; [exact HO|]. rewrite (H1 HO) in Hv.
      destruct (is_stdout l) eqn:ES; [|reflexivity].
      destruct (apply_upd_err c (UStdin l false)) as [e He].
      { cbn. rewrite ES. apply andb_false_r. }
      rewrite He in Hv. discriminate Hv.
  - intros l r v Wl Hl Hv.
    destruct (commands_of l) as [cl|] eqn:El; [|congruence].
    destruct (commands_of r) as [cr|] eqn:Er.
    + exfalso. destruct r; try discriminate Er; destruct l; try discriminate El; discriminate Hv.
    + destruct (or_right_value l r cl El Er Wl) as (pre & c & -> & _ & _ & H1 & H2).
      assert (HO : output_operand r).
      { destruct (is_stdout_type r) eqn:E; [now apply output_operand_iff|].
        destruct H2 as [m Hm]; [rewrite output_operand_iff; congruence|]. congruence. }
      split; [exact HO|]. rewrite (H1 HO) in Hv.
      destruct (is_stdout r) eqn:ES; [|reflexivity].
      destruct (apply_upd_err c (UStdout r true false)) as [e He].
      { cbn. rewrite ES. apply andb_false_r. }
      rewrite He in Hv. discriminate Hv.
  - intros l s Hl Wl. destruct (commands_of l) as [cl|] eqn:El; [|congruence].
    destruct (or_right_value l (VStr s) cl El eq_refl Wl) as (? & ? & _ & _ & H1 & _ & H2).
    destruct (or_right_value l (VBytes s) cl El eq_refl Wl) as (? & ? & _ & _ & H3 & _ & H4).
    split; [apply H1; intro H; inversion H|]. split; [apply H2; intro H; inversion H|].
    split; [apply H3; intro H; inversion H|apply H4; intro H; inversion H].
Qed.
