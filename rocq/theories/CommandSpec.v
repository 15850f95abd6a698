(** Specification vocabulary for properties C01-C08 and C65, written from the
    English statements.  It uses the data types of the model but none of its
    functions. *)
From Verif Require Export CommandModel.
Open Scope Z_scope.

(** The leaves of an argument, left to right: sequences are opened at every
    depth, everything else is a leaf. *)
Fixpoint leaves (v : value) : list value :=
  match v with
  | VSeq _ items => flat_map leaves items
  | _ => [v]
  end.

(** Name of the type of a leaf that must be refused. *)
Definition refused (v : value) : option string :=
  match v with
  | VMapping n => Some n
  | VSet n => Some n
  | VGenerator n => Some n
  | VRange => Some "range"%string
  | VNone => Some "NoneType"%string
  | VEllipsis => Some "ellipsis"%string
  | _ => None
  end.

(** What an accepted leaf contributes to the command line ([pystr] is str()). *)
Definition contribution (pystr : value -> text) (v : value) : value :=
  match v with
  | VStr _ | VBytes _ | VPath _ | VPathLike _ | VCmd _ _ | VPipe _ => v
  | VByteArray _ b | VMemoryView b | VBytesIO _ b => VBytes b
  | VStringIO _ s => VStr s
  | _ => VStr (pystr v)
  end.

(** Calling a stateful function on each element in turn, stopping at the first
    exception. *)
Fixpoint call_each {St} (f : value -> St -> St * res value) (l : list value) (st : St)
  : St * res (list value) :=
  match l with
  | [] => (st, Ok [])
  | x :: l' =>
      match f x st with
      | (st1, Err e) => (st1, Err e)
      | (st1, Ok y) =>
          match call_each f l' st1 with
          | (st2, Err e) => (st2, Err e)
          | (st2, Ok ys) => (st2, Ok (y :: ys))
          end
      end
  end.

Definition is_none (v : value) : bool := match v with VNone => true | _ => false end.
(** [v == sh.STDOUT], also true of the integer -2. *)
Definition is_stdout (v : value) : bool :=
  match v with VRedirect STDOUT => true | VInt z => z =? -2 | _ => false end.

Definition valid_upd (u : upd) : bool :=
  match u with
  | UStdin v _ => negb (is_none v) && negb (is_stdout v)
  | UStdout v _ _ => negb (is_none v) && negb (is_stdout v)
  | UStderr v _ _ => negb (is_none v)
  | UEnv _ => true
  | USet k => match k_encoding k with Some [] => false | _ => true end
  end.

(** The latest value given by a history for one aspect, else the initial one. *)
Definition latest {A} (aspect : upd -> option A) (us : list upd) (init : A) : A :=
  match flat_map (fun u => match aspect u with Some a => [a] | None => [] end) (rev us) with
  | a :: _ => a
  | [] => init
  end.
Definition of_set {A} (f : kwds -> option A) (u : upd) : option A :=
  match u with USet k => f k | _ => None end.
Definition of_stdin {A} (f : value -> bool -> A) (u : upd) : option A :=
  match u with UStdin v c => Some (f v c) | _ => None end.
Definition of_stdout {A} (f : value -> bool -> bool -> A) (u : upd) : option A :=
  match u with UStdout v a c => Some (f v a c) | _ => None end.
Definition of_stderr {A} (f : value -> bool -> bool -> A) (u : upd) : option A :=
  match u with UStderr v a c => Some (f v a c) | _ => None end.

(** All options except the environment after a history of updates. *)
Record follows_history (us : list upd) (o o' : opts) : Prop := {
  fh_path : o_path o' = latest (of_set k_path) us (o_path o);
  fh_inherit_env : o_inherit_env o' = latest (of_set k_inherit_env) us (o_inherit_env o);
  fh_input : o_input o' = latest (of_stdin (fun v _ => v)) us (o_input o);
  fh_input_close : o_input_close o' = latest (of_stdin (fun _ c => c)) us (o_input_close o);
  fh_output : o_output o' = latest (of_stdout (fun v _ _ => v)) us (o_output o);
  fh_output_append : o_output_append o' = latest (of_stdout (fun _ a _ => a)) us (o_output_append o);
  fh_output_close : o_output_close o' = latest (of_stdout (fun _ _ c => c)) us (o_output_close o);
  fh_error : o_error o' = latest (of_stderr (fun v _ _ => v)) us (o_error o);
  fh_error_append : o_error_append o' = latest (of_stderr (fun _ a _ => a)) us (o_error_append o);
  fh_error_close : o_error_close o' = latest (of_stderr (fun _ _ c => c)) us (o_error_close o);
  fh_error_limit : o_error_limit o' = latest (of_set k_error_limit) us (o_error_limit o);
  fh_encoding : o_encoding o' = latest (of_set k_encoding) us (o_encoding o);
  fh_return_result : o_return_result o' = latest (of_set k_return_result) us (o_return_result o);
  fh_catch_cancelled : o_catch_cancelled o' = latest (of_set k_catch_cancelled) us (o_catch_cancelled o);
  fh_exit_codes : o_exit_codes o' = latest (of_set k_exit_codes) us (o_exit_codes o);
  fh_timeout : o_timeout o' = latest (of_set k_timeout) us (o_timeout o);
  fh_cancel_timeout : o_cancel_timeout o' = latest (of_set k_cancel_timeout) us (o_cancel_timeout o);
  fh_cancel_signal : o_cancel_signal o' = latest (of_set k_cancel_signal) us (o_cancel_signal o);
  fh_alt_name : o_alt_name o' = latest (of_set k_alt_name) us (o_alt_name o);
  fh_pass_fds : o_pass_fds o' = latest (of_set k_pass_fds) us (o_pass_fds o);
  fh_pass_fds_close : o_pass_fds_close o' = latest (of_set k_pass_fds_close) us (o_pass_fds_close o);
  fh_writable : o_writable o' = latest (of_set k_writable) us (o_writable o);
  fh_start_new_session : o_start_new_session o' = latest (of_set k_start_new_session) us (o_start_new_session o);
  fh_preexec_fn : o_preexec_fn o' = latest (of_set k_preexec_fn) us (o_preexec_fn o);
  fh_pty : o_pty o' = latest (of_set k_pty) us (o_pty o);
  fh_close_fds : o_close_fds o' = latest (of_set k_close_fds) us (o_close_fds o);
  fh_audit_callback : o_audit_callback o' = latest (of_set k_audit_callback) us (o_audit_callback o);
  fh_coerce_arg : o_coerce_arg o' = latest (of_set k_coerce_arg) us (o_coerce_arg o)
}.

(** Value of variable [k] in one dictionary display (the last binding wins). *)
Definition binding (d : list (text * text)) (k : text) : option text :=
  match filter (fun kv => text_eqb (fst kv) k) (rev d) with
  | (_, v) :: _ => Some v
  | [] => None
  end.

(** Value of variable [k] after a history, given its value before: the newest
    update that says something about [k] decides; set(env=d) says something
    about every variable. *)
Definition env_aspect (k : text) (u : upd) : option (option text) :=
  match u with
  | UEnv d => match binding d k with Some v => Some (Some v) | None => None end
  | USet kw => match k_env kw with Some d => Some (binding d k) | None => None end
  | _ => None
  end.
Definition var_after (us : list upd) (k : text) (before : option text) : option text :=
  latest (env_aspect k) us before.

(** The command's own value of a variable (no entry: the variable is unset). *)
Definition own_var (o : opts) (k : text) : option text :=
  match o_env o with None => None | Some e => env_get e k end.

(** A Python dict has no duplicate keys. *)
Definition keys (d : envdict) := map fst d.
Definition wf_env (o : opts) : Prop := match o_env o with None => True | Some e => NoDup (keys e) end.

