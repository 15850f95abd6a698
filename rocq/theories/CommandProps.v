(** Properties C01-C08 and C65. *)
From Verif Require Import CommandModel CommandSpec CommandProofs.
Open Scope Z_scope.

(** C01: a command built from any arguments holds exactly the contributions of
    the leaves of those arguments, in order. *)
Theorem c01_arguments_flatten :
  forall pystr St (cf : nat -> value -> St -> St * res value) ctx args (st st' : St) c,
  o_coerce_arg ctx = None ->
  (ctx_call pystr St cf ctx args st = (st', Ok c) <->
   st' = st
   /\ Forall (fun v => refused v = None) (flat_map leaves args)
   /\ flat_map leaves args <> []
   /\ c = (map (contribution pystr) (flat_map leaves args), ctx)).
Proof. exact ctx_call_ok. Qed.
Print Assumptions c01_arguments_flatten.

Example c01_example :
  ctx_call (fun _ => [63]) unit (fun _ v st => (st, Ok v)) default_options
    [VStr [101]; VSeq KList [VSeq KTuple [VInt 7; VBytes [1]]; VSeq KTuple []; VByteArray 0 [2]]; VStringIO 1 [9]] tt
  = (tt, Ok ([VStr [101]; VStr [63]; VBytes [1]; VBytes [2]; VStr [9]], default_options)).
Proof. reflexivity. Qed.

(** C02: TypeError, naming the type of the first refused leaf, exactly when
    there is a refused leaf. *)
Theorem c02_unsupported_arguments_rejected :
  forall pystr St (cf : nat -> value -> St -> St * res value) ctx args (st st' : St) m,
  o_coerce_arg ctx = None ->
  (ctx_call pystr St cf ctx args st = (st', Err (TypeError m)) <->
   st' = st /\ exists pre bad post, flat_map leaves args = pre ++ bad :: post
     /\ Forall (fun v => refused v = None) pre /\ refused bad = Some m).
Proof. exact ctx_call_type_error. Qed.
Print Assumptions c02_unsupported_arguments_rejected.

Example c02_example :
  ctx_call (fun _ => []) unit (fun _ v st => (st, Ok v)) default_options
    [VStr [101]; VSeq KList [VSeq KTuple [VInt 7; VMapping "dict"]; VNone]] tt
  = (tt, Err (TypeError "dict")).
Proof. reflexivity. Qed.

(** C03: with a coerce_arg function [f], which may have effects on a state and
    may raise: success means f was called once on each top-level argument in
    order (and on nothing else) and the rest is as without coerce_arg; failure
    means f was called once on each argument of a prefix. *)
Theorem c03_coerce_arg_once_per_argument :
  forall pystr St (cf : nat -> value -> St -> St * res value) f args (st st' : St),
  (forall out,
     coerce pystr St cf (Some f) args st = (st', Ok out) <->
     exists args', call_each (cf f) args st = (st', Ok args')
       /\ coerce pystr St cf None args' st' = (st', Ok out))
  /\ (forall e,
     coerce pystr St cf (Some f) args st = (st', Err e) ->
     exists pre rest args', args = pre ++ rest
       /\ ((call_each (cf f) pre st = (st', Err e) /\ args' = [])
           \/ (call_each (cf f) pre st = (st', Ok args')
               /\ coerce pystr St cf None args' st' = (st', Err e)))).
Proof. exact c03_coerce_arg_once_per_argument_lemma. Qed.
Print Assumptions c03_coerce_arg_once_per_argument.

(** The state counts calls; the function turns a mapping into a list holding
    another mapping-free value. *)
Example c03_example :
  coerce (fun _ => []) nat
    (fun _ v n => (S n, Ok (match v with VMapping _ => VSeq KList [VStr [1]; VStr [2]] | _ => v end)))
    (Some 0%nat) [VStr [9]; VMapping "dict"; VSeq KList [VStr [3]; VStr [4]]] 0%nat
  = (3%nat, Ok [VStr [9]; VStr [1]; VStr [2]; VStr [3]; VStr [4]]).
Proof. reflexivity. Qed.

(** C04: partial application. *)
Theorem c04_partial_application :
  forall pystr St (cf : nat -> value -> St -> St * res value) ctx a b (st st1 : St) c,
  ctx_call pystr St cf ctx a st = (st1, Ok c) ->
  cmd_call pystr St cf c b st1 = ctx_call pystr St cf ctx (a ++ b) st.
Proof. exact call_call. Qed.
Print Assumptions c04_partial_application.

Theorem c04_call_without_arguments :
  forall pystr St (cf : nat -> value -> St -> St * res value) c (st : St),
  cmd_call pystr St cf c [] st = (st, Ok c).
Proof. reflexivity. Qed.
Print Assumptions c04_call_without_arguments.

(** No sequence of API calls yields a command without a program name. *)
Theorem c04_never_empty :
  forall pystr St (cf : nat -> value -> St -> St * res value) ctx a b us (st st1 st2 : St) c c' c'',
  ctx_call pystr St cf ctx a st = (st1, Ok c) ->
  apply_upds c us = Ok c' ->
  cmd_call pystr St cf c' b st1 = (st2, Ok c'') ->
  c_args c <> [] /\ c_args c' = c_args c /\ c_args c'' <> [].
Proof. exact c04_never_empty_lemma. Qed.
Print Assumptions c04_never_empty.

Example c04_example :
  exists c, ctx_call (fun _ => []) unit (fun _ v st => (st, Ok v)) default_options [VStr [1]] tt = (tt, Ok c)
  /\ apply_upds c [USet no_kwds; UEnv [([65], [66])]] <> Err AssertionError
  /\ cmd_call (fun _ => []) unit (fun _ v st => (st, Ok v)) c [VStr [2]] tt
     = (tt, Ok ([VStr [1]; VStr [2]], default_options)).
Proof. eexists; split; [reflexivity|]. split; [discriminate|reflexivity]. Qed.

(** C05: any history of stdin/stdout/stderr/env/set calls succeeds exactly when
    every single call is valid, never changes the arguments, and each option
    then has the value given by the last call that mentioned it. *)
Theorem c05_options_follow_history :
  forall us c, c_args c <> [] ->
  (forallb valid_upd us = true ->
     exists o', apply_upds c us = Ok (c_args c, o') /\ follows_history us (c_opts c) o')
  /\ (forallb valid_upd us = false -> exists e, apply_upds c us = Err e).
Proof. exact apply_upds_history. Qed.
Print Assumptions c05_options_follow_history.

(** C05, with the documented defaults: what a command made with the default
    options holds after any successful history. *)
Theorem c05_defaults :
  forall us args c', args <> [] -> apply_upds (args, default_options) us = Ok c' ->
  let o := c_opts c' in
  c_args c' = args
  /\ o_path o = latest (of_set k_path) us None
  /\ o_inherit_env o = latest (of_set k_inherit_env) us true
  /\ o_input o = latest (of_stdin (fun v _ => v)) us (VRedirect DEFAULT)
  /\ o_input_close o = latest (of_stdin (fun _ c => c)) us false
  /\ o_output o = latest (of_stdout (fun v _ _ => v)) us (VRedirect DEFAULT)
  /\ o_output_append o = latest (of_stdout (fun _ a _ => a)) us false
  /\ o_output_close o = latest (of_stdout (fun _ _ c => c)) us false
  /\ o_error o = latest (of_stderr (fun v _ _ => v)) us (VRedirect DEFAULT)
  /\ o_error_append o = latest (of_stderr (fun _ a _ => a)) us false
  /\ o_error_close o = latest (of_stderr (fun _ _ c => c)) us false
  /\ o_error_limit o = latest (of_set k_error_limit) us (Some 1024)
  /\ o_encoding o = latest (of_set k_encoding) us [117; 116; 102; 45; 56] (* "utf-8" *)
  /\ o_return_result o = latest (of_set k_return_result) us false
  /\ o_catch_cancelled o = latest (of_set k_catch_cancelled) us false
  /\ o_exit_codes o = latest (of_set k_exit_codes) us None
  /\ o_timeout o = latest (of_set k_timeout) us None
  /\ o_cancel_timeout o = latest (of_set k_cancel_timeout) us 3
  /\ o_cancel_signal o = latest (of_set k_cancel_signal) us (Some 15) (* SIGTERM *)
  /\ o_alt_name o = latest (of_set k_alt_name) us None
  /\ o_pass_fds o = latest (of_set k_pass_fds) us []
  /\ o_pass_fds_close o = latest (of_set k_pass_fds_close) us false
  /\ o_writable o = latest (of_set k_writable) us false
  /\ o_start_new_session o = latest (of_set k_start_new_session) us false
  /\ o_preexec_fn o = latest (of_set k_preexec_fn) us None
  /\ o_pty o = latest (of_set k_pty) us PtyOff
  /\ o_close_fds o = latest (of_set k_close_fds) us true
  /\ o_audit_callback o = latest (of_set k_audit_callback) us None
  /\ o_coerce_arg o = latest (of_set k_coerce_arg) us None
  /\ (forall k, own_var o k = var_after us k None).
Proof.
  intros us args c' Ha E. pose proof (apply_upds_env us (args, default_options) c' Ha) as V.
  specialize (V Logic.I E). destruct (c05_options_follow_history us (args, default_options) Ha) as [A B].
  destruct (forallb valid_upd us).
  - destruct (A eq_refl) as (o' & E' & [? ? ? ? ? ? ? ? ? ? ? ? ? ? ? ? ? ? ? ? ? ? ? ? ? ? ? ?]).
    rewrite E' in E. injection E as <-. cbn [c_opts c_args fst snd] in *. repeat split; try assumption. apply V.
  - destruct (B eq_refl) as (e & E'). rewrite E' in E. discriminate E.
Qed.
Print Assumptions c05_defaults.

Example c05_example :
  exists o', apply_upds ([VStr [1]], default_options)
     [USet kwds_result; UStdout (VPath [7]) true false; UStdout (VRedirect DEVNULL) false false; USet kwds_writable]
     = Ok ([VStr [1]], o')
  /\ o_output o' = VRedirect DEVNULL /\ o_return_result o' = true /\ o_writable o' = true
  /\ o_output_append o' = false.
Proof. eexists. repeat split. Qed.

(** C06: own variables after a history. *)
Theorem c06_env_history :
  forall us c c', c_args c <> [] -> wf_env (c_opts c) -> apply_upds c us = Ok c' ->
  wf_env (c_opts c')
  /\ forall k, own_var (c_opts c') k = var_after us k (own_var (c_opts c) k).
Proof. exact apply_upds_env. Qed.
Print Assumptions c06_env_history.

Definition kwds_env (d : envdict) : kwds := {|
  k_path := None; k_env := Some d; k_inherit_env := None; k_encoding := None;
  k_return_result := None; k_catch_cancelled := None; k_exit_codes := None; k_timeout := None;
  k_cancel_timeout := None; k_cancel_signal := None; k_alt_name := None; k_pass_fds := None;
  k_pass_fds_close := None; k_writable := None; k_start_new_session := None; k_preexec_fn := None;
  k_pty := None; k_close_fds := None; k_audit_callback := None; k_coerce_arg := None;
  k_error_limit := None |}.

Example c06_example :
  wf_env default_options /\
  exists o', apply_upds ([VStr [1]], default_options)
     [UEnv [([65], [1]); ([66], [2])]; USet (kwds_env [([67], [3])]); UEnv [([65], [4])]]
     = Ok ([VStr [1]], o')
  /\ own_var o' [65] = Some [4] /\ own_var o' [66] = None /\ own_var o' [67] = Some [3].
Proof. split; [exact I|]. eexists. repeat split. Qed.

(** C07: what the child sees, for every command built from the default
    options by any history of updates. *)
Theorem c07_child_environment :
  forall us args c' environ k, args <> [] ->
  apply_upds (args, default_options) us = Ok c' ->
  env_get (child_env (c_opts c') environ) k =
  match var_after us k None with
  | Some v => Some v
  | None => if latest (of_set k_inherit_env) us true then env_get environ k else None
  end.
Proof. exact c07_child_environment_lemma. Qed.
Print Assumptions c07_child_environment.

Example c07_example :
  exists c', apply_upds ([VStr [1]], default_options) [UEnv [([65], [1])]] = Ok c'
  /\ env_get (child_env (c_opts c') [([65], [9]); ([66], [8])]) [65] = Some [1]
  /\ env_get (child_env (c_opts c') [([65], [9]); ([66], [8])]) [66] = Some [8].
Proof. eexists. repeat split. Qed.

(** C08 is false of the code: two commands made by `env(A=..).env(B=..)` and
    `env(B=..).env(A=..)` are equal but hash the item tuples in insertion
    order, so their hashes differ for every tuple hash that separates the two
    tuples. *)
Theorem c08_equal_hash_equal_refuted :
  exists c1 c2 e1 e2,
    apply_upds ([VStr [1]], default_options) [UEnv [([65], [1])]; UEnv [([66], [2])]] = Ok c1
    /\ apply_upds ([VStr [1]], default_options) [UEnv [([66], [2])]; UEnv [([65], [1])]] = Ok c2
    /\ o_env (c_opts c1) = Some e1 /\ o_env (c_opts c2) = Some e2
    /\ env_eqb e1 e2 = true
    /\ (forall hash_tuple : list (text * text) -> Z,
          hash_tuple [([65], [1]); ([66], [2])] <> hash_tuple [([66], [2]); ([65], [1])] ->
          env_hash hash_tuple e1 <> env_hash hash_tuple e2).
Proof. do 4 eexists. repeat split. intros h H. exact H. Qed.
Print Assumptions c08_equal_hash_equal_refuted.

(** What holds: environment equality is extensional, and equal environments
    whose variables were inserted in the same order hash equally.  Missing:
    equality with a different insertion order. *)
Theorem c08_equal_hash_partial :
  forall a b (hash_tuple : list (text * text) -> Z), NoDup (keys a) -> NoDup (keys b) ->
  (env_eqb a b = true <-> forall k, env_get a k = env_get b k)
  /\ (env_eqb a b = true -> keys a = keys b -> env_hash hash_tuple a = env_hash hash_tuple b).
Proof. exact c08_equal_hash_partial_lemma. Qed.
Print Assumptions c08_equal_hash_partial.

Example c08_example : env_eqb [([65], [1]); ([66], [2])] [([65], [1]); ([66], [2])] = true.
Proof. reflexivity. Qed.

(** C65: the command's display name. *)
Theorem c65_name :
  forall pystr c, c_args c <> [] ->
  exists a0 rest, c_args c = a0 :: rest /\
  let text_of := match a0 with VStr s => s | _ => pystr a0 end in (* str(a0) *)
  match o_alt_name (c_opts c) with
  | Some (x :: r) => cmd_name pystr c = Ok (x :: r)
  | _ => exists n, cmd_name pystr c = Ok n /\
     ((List.length (text_of) <= 31)%nat /\ n = text_of
      \/ exists pre last31, text_of = pre ++ last31 /\ pre <> [] /\ List.length last31 = 31%nat
         /\ n = [46; 46; 46] ++ last31)
  end.
Proof. exact cmd_name_spec. Qed.
Print Assumptions c65_name.

Example c65_example :
  cmd_name (fun _ => []) ([VStr (repeat 97 40)], default_options) = Ok ([46; 46; 46] ++ repeat 97 31).
Proof. reflexivity. Qed.
