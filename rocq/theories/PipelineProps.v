(** Theorems for C09-C12 (pipelines and redirection operators). *)
From Verif Require Import PipelineModel PipelineSpec PipelineProofs.
Open Scope Z_scope.

Definition ex_c (n : Z) : value := VCmd [VStr [n]] default_options.

(** C09: grouping of | between commands/pipelines does not matter; the result
    lists the commands in order. *)
Theorem c09_pipeline_associative :
  forall a b c ca cb cc,
  commands_of a = Some ca -> commands_of b = Some cb -> commands_of c = Some cc ->
  well_formed a -> well_formed b -> well_formed c ->
  bind (py_or a b) (fun ab => py_or ab c) = Ok (VPipe (ca ++ cb ++ cc))
  /\ bind (py_or b c) (fun bc => py_or a bc) = Ok (VPipe (ca ++ cb ++ cc)).
Proof. exact or_assoc_commands. Qed.
Print Assumptions c09_pipeline_associative.

Example c09_example :
  well_formed (ex_c 1) /\ well_formed (VPipe [([VStr [2]], default_options); ([VStr [3]], default_options)])
  /\ py_or (ex_c 1) (VPipe [([VStr [2]], default_options); ([VStr [3]], default_options)])
     = Ok (VPipe [([VStr [1]], default_options); ([VStr [2]], default_options); ([VStr [3]], default_options)]).
Proof. repeat split; try discriminate; repeat constructor; discriminate. Qed.

(** C10: which command of a pipeline a redirection changes ... *)
Theorem c10_redirections_bind_to_ends :
  forall (c0 : command) (mid : list command) (cn : command) v ap cl k,
  pipe_stdin (c0 :: mid) v cl = bind (apply_upd c0 (UStdin v cl)) (fun c => Ok (c :: mid))
  /\ pipe_stdout (mid ++ [cn]) v ap cl = bind (apply_upd cn (UStdout v ap cl)) (fun c => Ok (mid ++ [c]))
  /\ pipe_stderr (mid ++ [cn]) v ap cl = bind (apply_upd cn (UStderr v ap cl)) (fun c => Ok (mid ++ [c]))
  /\ pipe_set (mid ++ [cn]) k = bind (apply_upd cn (USet k)) (fun c => Ok (mid ++ [c])).
Proof. exact ends_lemma. Qed.
Print Assumptions c10_redirections_bind_to_ends.

(** ... also for the properties `result` and `writable`, which change nothing
    else; a pipeline cannot be called with arguments. *)
Definition modified (o o' : opts) (return_result writable : bool) (codes : option container) : Prop :=
  o_return_result o' = return_result /\ o_writable o' = writable /\ o_exit_codes o' = codes
  /\ o_path o' = o_path o /\ o_env o' = o_env o /\ o_inherit_env o' = o_inherit_env o
  /\ o_input o' = o_input o /\ o_input_close o' = o_input_close o
  /\ o_output o' = o_output o /\ o_output_append o' = o_output_append o /\ o_output_close o' = o_output_close o
  /\ o_error o' = o_error o /\ o_error_append o' = o_error_append o /\ o_error_close o' = o_error_close o
  /\ o_error_limit o' = o_error_limit o /\ o_encoding o' = o_encoding o /\ o_catch_cancelled o' = o_catch_cancelled o
  /\ o_timeout o' = o_timeout o /\ o_cancel_timeout o' = o_cancel_timeout o /\ o_cancel_signal o' = o_cancel_signal o
  /\ o_alt_name o' = o_alt_name o /\ o_pass_fds o' = o_pass_fds o /\ o_pass_fds_close o' = o_pass_fds_close o
  /\ o_start_new_session o' = o_start_new_session o /\ o_preexec_fn o' = o_preexec_fn o /\ o_pty o' = o_pty o
  /\ o_close_fds o' = o_close_fds o /\ o_audit_callback o' = o_audit_callback o /\ o_coerce_arg o' = o_coerce_arg o.
Theorem c10_result_and_writable :
  forall (pre : list command) (c : command), c_args c <> [] ->
  (exists o', pipe_result (pre ++ [c]) = Ok (pre ++ [(c_args c, o')]) /\ cmd_result c = Ok (c_args c, o')
     /\ modified (c_opts c) o' true (o_writable (c_opts c)) (Some (CRange (-255) 256)))
  /\ (exists o', pipe_writable (pre ++ [c]) = Ok (pre ++ [(c_args c, o')]) /\ cmd_writable c = Ok (c_args c, o')
     /\ modified (c_opts c) o' (o_return_result (c_opts c)) true (o_exit_codes (c_opts c)))
  /\ pipe_options (pre ++ [c]) = Ok (c_opts c)
  /\ pipe_call (pre ++ [c]) [] = Ok (pre ++ [c])
  /\ (forall x args, exists m, pipe_call (pre ++ [c]) (x :: args) = Err (TypeError m)).
Proof.
  intros pre [args o] N. cbn [c_args c_opts fst snd] in *. destruct args as [|a args]; [congruence|].
  assert (L : forall c0, last_cmd (pre ++ [c0]) = Ok c0) by (intros; unfold last_cmd; rewrite rev_app_distr; reflexivity).
  assert (M : forall c0, mk_pipeline (pre ++ [c0]) = Ok (pre ++ [c0])) by (intros; destruct pre; reflexivity).
  assert (B : forall c0, but_last (pre ++ [c0]) = pre) by (intros; unfold but_last; apply removelast_last).
  unfold pipe_result, pipe_writable, pipe_options, pipe_set, cmd_result, cmd_writable, cmd_set. rewrite !L, B. cbn [bind].
  split; [|split; [|split; [reflexivity|split; [reflexivity|intros; eexists; reflexivity]]]].
  - eexists. cbn [bind ctx_set kwds_result k_encoding c_args c_opts fst snd mk_command]. rewrite M. cbn [bind].
    split; [reflexivity|]. split; [reflexivity|]. unfold modified, options_set. cbn. repeat split.
  - eexists. cbn [bind ctx_set kwds_writable k_encoding c_args c_opts fst snd mk_command]. rewrite M. cbn [bind].
    split; [reflexivity|]. split; [reflexivity|]. unfold modified, options_set. cbn. repeat split.
Qed.
Print Assumptions c10_result_and_writable.
(** ... for the operators: [a | y], [a >> y] and [x | a] for any operand that
    is not itself a command or pipeline. *)
Theorem c10_output_operators :
  forall a y ca, commands_of a = Some ca -> commands_of y = None -> well_formed a ->
  exists pre c, ca = pre ++ [c] /\
  (output_operand y ->
     py_or a y = bind (apply_upd c (UStdout y false false))
       (fun c' => Ok (match a with VCmd _ _ => VCmd (c_args c') (c_opts c') | _ => VPipe (pre ++ [c']) end))) /\
  (~ output_operand y -> exists m, py_or a y = Err (TypeError m)) /\
  (output_operand y ->
     py_rshift a y = bind (apply_upd c (UStdout y true false))
       (fun c' => Ok (match a with VCmd _ _ => VCmd (c_args c') (c_opts c') | _ => VPipe (pre ++ [c']) end))) /\
  (~ output_operand y -> exists m, py_rshift a y = Err (TypeError m)).
Proof. exact or_right_value. Qed.
Print Assumptions c10_output_operators.

Theorem c10_input_operator :
  forall a x ca, commands_of a = Some ca -> commands_of x = None -> well_formed a ->
  exists c rest, ca = c :: rest /\
  (input_operand x ->
     py_or x a = bind (apply_upd c (UStdin x false))
       (fun c' => Ok (match a with VCmd _ _ => VCmd (c_args c') (c_opts c') | _ => VPipe (c' :: rest) end))) /\
  (~ input_operand x -> exists m, py_or x a = Err (TypeError m)).
Proof. exact or_left_value. Qed.
Print Assumptions c10_input_operator.

(** ... and grouping: (a|b)|y = a|(b|y), (a|b)>>y = a|(b>>y), x|(a|b) = (x|a)|b. *)
Theorem c10_grouping_output :
  forall a b y ca cb, commands_of a = Some ca -> commands_of b = Some cb ->
  well_formed a -> well_formed b -> commands_of y = None ->
  same_outcome (bind (py_or a b) (fun ab => py_or ab y)) (bind (py_or b y) (fun bd => py_or a bd))
  /\ same_outcome (bind (py_or a b) (fun ab => py_rshift ab y)) (bind (py_rshift b y) (fun bd => py_or a bd)).
Proof. exact or_assoc_right. Qed.
Print Assumptions c10_grouping_output.

Theorem c10_grouping_input :
  forall a b x ca cb, commands_of a = Some ca -> commands_of b = Some cb ->
  well_formed a -> well_formed b -> commands_of x = None ->
  same_outcome (bind (py_or a b) (fun ab => py_or x ab)) (bind (py_or x a) (fun xa => py_or xa b)).
Proof. exact or_assoc_left. Qed.
Print Assumptions c10_grouping_input.

Example c10_example :
  exists o, bind (py_or (ex_c 1) (ex_c 2)) (fun ab => py_rshift ab (VPath [9]))
     = Ok (VPipe [([VStr [1]], default_options); ([VStr [2]], o)])
  /\ o_output o = VPath [9] /\ o_output_append o = true
  /\ bind (py_or (ex_c 1) (ex_c 2)) (fun ab => py_rshift ab (VPath [9]))
     = bind (py_rshift (ex_c 2) (VPath [9])) (fun bd => py_or (ex_c 1) bd).
Proof. eexists. repeat split. Qed.

(** C11: rejected redirections. *)
Theorem c11_invalid_redirections :
  (forall c cl ap v, is_none v = true ->
     (exists m, cmd_stdin c v cl = Err (TypeError m)) /\ (exists m, cmd_stdout c v ap cl = Err (TypeError m))
     /\ (exists m, cmd_stderr c v ap cl = Err (TypeError m)))
  /\ (forall c cl ap v, is_stdout v = true ->
     (exists m, cmd_stdin c v cl = Err (ValueError m)) /\ (exists m, cmd_stdout c v ap cl = Err (ValueError m)))
  /\ (forall l r, well_formed l -> well_formed r -> (commands_of l <> None \/ commands_of r <> None) ->
      forall v, py_or l r = Ok v ->
      (commands_of l <> None \/ (input_operand l /\ is_stdout l = false))
      /\ (commands_of r <> None \/ (output_operand r /\ is_stdout r = false)))
  /\ (forall l r v, well_formed l -> commands_of l <> None -> py_rshift l r = Ok v ->
      output_operand r /\ is_stdout r = false)
  /\ (forall l s, commands_of l <> None -> well_formed l ->
      (exists m, py_or l (VStr s) = Err (TypeError m)) /\ (exists m, py_rshift l (VStr s) = Err (TypeError m))
      /\ (exists m, py_or l (VBytes s) = Err (TypeError m)) /\ (exists m, py_rshift l (VBytes s) = Err (TypeError m))).
Proof. exact c11_invalid_redirections_lemma. Qed.
Print Assumptions c11_invalid_redirections.

Example c11_example :
  (exists v, py_or (VStr [5]) (ex_c 1) = Ok v) /\ (exists v, py_rshift (ex_c 1) (VInt 7) = Ok v)
  /\ (exists m, py_or (ex_c 1) (VInt (-2)) = Err (ValueError m))
  /\ (exists m, py_or (ex_c 1) VNone = Err (TypeError m))
  /\ (exists m, py_or VNone (ex_c 1) = Err (TypeError m)).
Proof. repeat split; eexists; reflexivity. Qed.

(** C12: what starting a pipeline does to each of its commands, given the
    descriptors [r j], [w j] that the j-th os.pipe() call returns. *)
Theorem c12_pipes_connect_neighbours :
  forall pipe r w cmds,
  cmds <> [] -> Forall (fun c => c_args c <> []) cmds ->
  (forall j, (j < List.length cmds - 1)%nat -> pipe j = Some (r j, w j) /\ 0 <= r j /\ 0 <= w j) ->
  exists out,
    setup_pipeline pipe cmds = (flat_map (fun j => [r j; w j]) (seq 0 (List.length cmds - 1)), Ok out)
    /\ List.length out = List.length cmds
    /\ forall j c, nth_error cmds j = Some c ->
       exists o', nth_error out j = Some (c_args c, o')
         /\ follows_history (member_updates r w (List.length cmds) j) (c_opts c) o'
         /\ o_input o' = (if (j =? 0)%nat then o_input (c_opts c) else VInt (r (j - 1)%nat))
         /\ o_input_close o' = (if (j =? 0)%nat then o_input_close (c_opts c) else true)
         /\ o_output o' = (if (S j =? List.length cmds)%nat then o_output (c_opts c) else VInt (w j))
         /\ o_output_close o' = (if (S j =? List.length cmds)%nat then o_output_close (c_opts c) else true)
         /\ o_error o' = o_error (c_opts c)
         /\ o_return_result o' = true /\ o_catch_cancelled o' = true.
Proof. exact c12_pipes_connect_neighbours_lemma. Qed.
Print Assumptions c12_pipes_connect_neighbours.

(** If the k-th os.pipe() fails, the pipes made before it (and only those)
    are recorded for closing. *)
Theorem c12_pipe_creation_fails :
  forall pipe r w cmds k,
  Forall (fun c => c_args c <> []) cmds -> (k < List.length cmds - 1)%nat ->
  (forall j, (j < k)%nat -> pipe j = Some (r j, w j) /\ r j <> -2 /\ w j <> -2) ->
  pipe k = None ->
  setup_pipeline pipe cmds = (flat_map (fun j => [r j; w j]) (seq 0 k), Err OSError).
Proof. exact setup_pipeline_fail. Qed.
Print Assumptions c12_pipe_creation_fails.

Example c12_example :
  let cmds := [([VStr [1]], default_options); ([VStr [2]], default_options); ([VStr [3]], default_options)] in
  exists o1 o2 o3,
  setup_pipeline (fun j => Some (10 + 2 * Z.of_nat j, 11 + 2 * Z.of_nat j)) cmds
  = ([10; 11; 12; 13], Ok [([VStr [1]], o1); ([VStr [2]], o2); ([VStr [3]], o3)])
  /\ o_output o1 = VInt 11 /\ o_input o2 = VInt 10 /\ o_output o2 = VInt 13 /\ o_input o3 = VInt 12
  /\ setup_pipeline (fun j => if (j =? 1)%nat then None else Some (10, 11)) cmds = ([10; 11], Err OSError).
Proof. do 3 eexists. repeat split. Qed.
