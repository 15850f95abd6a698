(** Model of shellous/command.py (Options, CmdContext, Command, coerce) and of
    EnvironmentDict in shellous/util.py.

    Simplifications, common to the whole file:
    - Python objects with identity (bytearray, StringIO, files, loggers, ...)
      are a constructor with an object number; two values are the same object
      when the numbers agree.
    - Callables (coerce_arg, audit_callback, preexec_fn, pty adapter) are
      numbers; where one is called, its behaviour is a parameter.
    - [str(x)] of objects that are not strings is a parameter [pystr].
    - Floats (timeouts) are integers (ticks).
    - One-shot iterables accepted by [coerce] (reversed, enumerate, zip) are
      the finite list of items they yield. *)
From Verif Require Export Base.
Open Scope Z_scope.

(** redirect.py 25-33: class Redirect(IntEnum). *)
Inductive redirect := STDOUT | DEVNULL | CAPTURE | INHERIT | BUFFER | DEFAULT.
Definition redirect_int (r : redirect) : Z :=
  match r with
  | STDOUT => -2 | DEVNULL => -3 | CAPTURE => -10 | INHERIT => -11
  | BUFFER => -12 | DEFAULT => -20
  end.

(** util.py 189-221: EnvironmentDict._data, a Python dict: key order is
    insertion order. *)
Definition envdict := list (text * text).

(** dict item assignment: keeps the position of an existing key. *)
Fixpoint env_put (d : envdict) (k v : text) : envdict :=
  match d with
  | [] => [(k, v)]
  | (k', v') :: d' => if text_eqb k k' then (k', v) :: d' else (k', v') :: env_put d' k v
  end.
Fixpoint env_get (d : envdict) (k : text) : option text :=
  match d with
  | [] => None
  | (k', v') :: d' => if text_eqb k k' then Some v' else env_get d' k
  end.
(** dict.update *)
Definition env_update (d : envdict) (u : envdict) : envdict :=
  fold_left (fun acc kv => env_put acc (fst kv) (snd kv)) u d.

(** command.py 142: exit_codes: Optional[Container[int]] — a set or a range. *)
Inductive container := CSet (l : list Z) | CRange (lo hi : Z).
(** command.py 172: pty: Callable or bool. *)
Inductive ptyopt := PtyOff | PtyOn | PtyFunc (f : nat).

(** command.py 93-182: class Options. [V] is the type of redirection values.
    Simplification: pass_fds is a list (the code also accepts any iterable). *)
Record options (V : Type) := mk_options {
  o_path : option text;
  o_env : option envdict;
  o_inherit_env : bool;
  o_input : V;
  o_input_close : bool;
  o_output : V;
  o_output_append : bool;
  o_output_close : bool;
  o_error : V;
  o_error_append : bool;
  o_error_close : bool;
  o_error_limit : option Z;
  o_encoding : text;
  o_return_result : bool;
  o_catch_cancelled : bool;
  o_exit_codes : option container;
  o_timeout : option Z;
  o_cancel_timeout : Z;
  o_cancel_signal : option Z;
  o_alt_name : option text;
  o_pass_fds : list Z;
  o_pass_fds_close : bool;
  o_writable : bool;
  o_start_new_session : bool;
  o_preexec_fn : option nat;
  o_pty : ptyopt;
  o_close_fds : bool;
  o_audit_callback : option nat;
  o_coerce_arg : option nat
}.
Arguments mk_options {V}.
Arguments o_path {V} _. Arguments o_env {V} _. Arguments o_inherit_env {V} _.
Arguments o_input {V} _. Arguments o_input_close {V} _. Arguments o_output {V} _.
Arguments o_output_append {V} _. Arguments o_output_close {V} _. Arguments o_error {V} _.
Arguments o_error_append {V} _. Arguments o_error_close {V} _. Arguments o_error_limit {V} _.
Arguments o_encoding {V} _. Arguments o_return_result {V} _. Arguments o_catch_cancelled {V} _.
Arguments o_exit_codes {V} _. Arguments o_timeout {V} _. Arguments o_cancel_timeout {V} _.
Arguments o_cancel_signal {V} _. Arguments o_alt_name {V} _. Arguments o_pass_fds {V} _.
Arguments o_pass_fds_close {V} _. Arguments o_writable {V} _. Arguments o_start_new_session {V} _.
Arguments o_preexec_fn {V} _. Arguments o_pty {V} _. Arguments o_close_fds {V} _.
Arguments o_audit_callback {V} _. Arguments o_coerce_arg {V} _.

(** The types that [coerce] flattens (command.py 818). *)
Inductive seqkind := KList | KTuple | KReversed | KEnumerate | KZip.

(** The universe of Python values that the modelled code distinguishes.
    The [string] of VMapping/VSet/VGenerator is the type's name. *)
Inductive value :=
| VStr (s : text)
| VBytes (b : bytes)
| VPath (p : text)                    (* pathlib.Path *)
| VPathLike (obj : nat)               (* other os.PathLike *)
| VByteArray (obj : nat) (b : bytes)
| VMemoryView (b : bytes)
| VStringIO (obj : nat) (s : text)
| VBytesIO (obj : nat) (b : bytes)
| VFile (obj : nat)                   (* other io.IOBase *)
| VInt (z : Z)
| VRedirect (r : redirect)            (* IntEnum: also an int *)
| VLogger (obj : nat)
| VStreamReader (obj : nat)
| VStreamWriter (obj : nat)
| VSeq (k : seqkind) (items : list value)
| VMapping (tname : string)
| VSet (tname : string)
| VGenerator (tname : string)
| VRange
| VNone
| VEllipsis
| VObj (obj : nat)                    (* anything else *)
| VCmd (args : list value) (o : options value)
| VPipe (cmds : list (list value * options value)).

(** command.py 401-424: class Command. *)
Definition opts := options value.
Definition command := (list value * opts)%type.
Definition c_args (c : command) : list value := fst c.
Definition c_opts (c : command) : opts := snd c.

(** command.py 426-429: Command(args, options) with __post_init__. *)
Definition mk_command (args : list value) (o : opts) : res command :=
  match args with
  | [] => Err (ValueError "Command must include program name")
  | _ => Ok (args, o)
  end.

(** command.py 97-182: default field values. 15 = SIGTERM; 1024 = redirect.py 69;
    "utf-8"; cancel_timeout 3.0. *)
Definition utf8_name : text := [117; 116; 102; 45; 56].
Definition default_options : opts := {|
  o_path := None; o_env := None; o_inherit_env := true;
  o_input := VRedirect DEFAULT; o_input_close := false;
  o_output := VRedirect DEFAULT; o_output_append := false; o_output_close := false;
  o_error := VRedirect DEFAULT; o_error_append := false; o_error_close := false;
  o_error_limit := Some 1024; o_encoding := utf8_name; o_return_result := false;
  o_catch_cancelled := false; o_exit_codes := None; o_timeout := None;
  o_cancel_timeout := 3; o_cancel_signal := Some 15; o_alt_name := None;
  o_pass_fds := []; o_pass_fds_close := false; o_writable := false;
  o_start_new_session := false; o_preexec_fn := None; o_pty := PtyOff;
  o_close_fds := true; o_audit_callback := None; o_coerce_arg := None |}.

(** [x == Redirect.r] (IntEnum equality: an equal plain int compares equal). *)
Definition eq_redirect (v : value) (r : redirect) : bool :=
  match v with
  | VInt z => z =? redirect_int r
  | VRedirect r' => redirect_int r' =? redirect_int r
  | _ => false
  end.

(** command.py 195-207: Options.set_stdin. *)
Definition set_stdin (o : opts) (input_ : value) (close : bool) : res opts :=
  match input_ with
  | VNone => Err (TypeError "invalid stdin")
  | _ =>
    if eq_redirect input_ STDOUT then Err (ValueError "STDOUT is only supported by stderr")
    else Ok {|
      o_path := o_path o; o_env := o_env o; o_inherit_env := o_inherit_env o;
      o_input := input_; o_input_close := close;
      o_output := o_output o; o_output_append := o_output_append o; o_output_close := o_output_close o;
      o_error := o_error o; o_error_append := o_error_append o; o_error_close := o_error_close o;
      o_error_limit := o_error_limit o; o_encoding := o_encoding o; o_return_result := o_return_result o;
      o_catch_cancelled := o_catch_cancelled o; o_exit_codes := o_exit_codes o; o_timeout := o_timeout o;
      o_cancel_timeout := o_cancel_timeout o; o_cancel_signal := o_cancel_signal o; o_alt_name := o_alt_name o;
      o_pass_fds := o_pass_fds o; o_pass_fds_close := o_pass_fds_close o; o_writable := o_writable o;
      o_start_new_session := o_start_new_session o; o_preexec_fn := o_preexec_fn o; o_pty := o_pty o;
      o_close_fds := o_close_fds o; o_audit_callback := o_audit_callback o; o_coerce_arg := o_coerce_arg o |}
  end.

(** command.py 209-222: Options.set_stdout. *)
Definition set_stdout (o : opts) (output : value) (append close : bool) : res opts :=
  match output with
  | VNone => Err (TypeError "invalid stdout")
  | _ =>
    if eq_redirect output STDOUT then Err (ValueError "STDOUT is only supported by stderr")
    else Ok {|
      o_path := o_path o; o_env := o_env o; o_inherit_env := o_inherit_env o;
      o_input := o_input o; o_input_close := o_input_close o;
      o_output := output; o_output_append := append; o_output_close := close;
      o_error := o_error o; o_error_append := o_error_append o; o_error_close := o_error_close o;
      o_error_limit := o_error_limit o; o_encoding := o_encoding o; o_return_result := o_return_result o;
      o_catch_cancelled := o_catch_cancelled o; o_exit_codes := o_exit_codes o; o_timeout := o_timeout o;
      o_cancel_timeout := o_cancel_timeout o; o_cancel_signal := o_cancel_signal o; o_alt_name := o_alt_name o;
      o_pass_fds := o_pass_fds o; o_pass_fds_close := o_pass_fds_close o; o_writable := o_writable o;
      o_start_new_session := o_start_new_session o; o_preexec_fn := o_preexec_fn o; o_pty := o_pty o;
      o_close_fds := o_close_fds o; o_audit_callback := o_audit_callback o; o_coerce_arg := o_coerce_arg o |}
  end.

(** command.py 224-234: Options.set_stderr (STDOUT is allowed here). *)
Definition set_stderr (o : opts) (error : value) (append close : bool) : res opts :=
  match error with
  | VNone => Err (TypeError "invalid stderr")
  | _ => Ok {|
      o_path := o_path o; o_env := o_env o; o_inherit_env := o_inherit_env o;
      o_input := o_input o; o_input_close := o_input_close o;
      o_output := o_output o; o_output_append := o_output_append o; o_output_close := o_output_close o;
      o_error := error; o_error_append := append; o_error_close := close;
      o_error_limit := o_error_limit o; o_encoding := o_encoding o; o_return_result := o_return_result o;
      o_catch_cancelled := o_catch_cancelled o; o_exit_codes := o_exit_codes o; o_timeout := o_timeout o;
      o_cancel_timeout := o_cancel_timeout o; o_cancel_signal := o_cancel_signal o; o_alt_name := o_alt_name o;
      o_pass_fds := o_pass_fds o; o_pass_fds_close := o_pass_fds_close o; o_writable := o_writable o;
      o_start_new_session := o_start_new_session o; o_preexec_fn := o_preexec_fn o; o_pty := o_pty o;
      o_close_fds := o_close_fds o; o_audit_callback := o_audit_callback o; o_coerce_arg := o_coerce_arg o |}
  end.

(** dataclasses.replace(self, env=...) *)
Definition with_env (o : opts) (e : option envdict) : opts := {|
      o_path := o_path o; o_env := e; o_inherit_env := o_inherit_env o;
      o_input := o_input o; o_input_close := o_input_close o;
      o_output := o_output o; o_output_append := o_output_append o; o_output_close := o_output_close o;
      o_error := o_error o; o_error_append := o_error_append o; o_error_close := o_error_close o;
      o_error_limit := o_error_limit o; o_encoding := o_encoding o; o_return_result := o_return_result o;
      o_catch_cancelled := o_catch_cancelled o; o_exit_codes := o_exit_codes o; o_timeout := o_timeout o;
      o_cancel_timeout := o_cancel_timeout o; o_cancel_signal := o_cancel_signal o; o_alt_name := o_alt_name o;
      o_pass_fds := o_pass_fds o; o_pass_fds_close := o_pass_fds_close o; o_writable := o_writable o;
      o_start_new_session := o_start_new_session o; o_preexec_fn := o_preexec_fn o; o_pty := o_pty o;
      o_close_fds := o_close_fds o; o_audit_callback := o_audit_callback o; o_coerce_arg := o_coerce_arg o |}.

(** util.py 194-199: EnvironmentDict.__init__(base, updates). Simplification:
    keys and values of [updates] are already the texts coerce_env (util.py
    47-49) makes of them. *)
Definition mk_env (base : option envdict) (updates : envdict) : envdict :=
  match base with
  | None => env_update [] updates
  | Some d => env_update d updates
  end.

(** command.py 236-239: Options.add_env. *)
Definition add_env (o : opts) (updates : envdict) : opts :=
  with_env o (Some (mk_env (o_env o) updates)).

(** Keyword arguments of Command.set / CmdContext.set (command.py 484-508):
    [None] is _UNSET.  Only these 21 fields can be set. *)
Record kwds := mk_kwds {
  k_path : option (option text);
  k_env : option envdict;
  k_inherit_env : option bool;
  k_encoding : option text;
  k_return_result : option bool;
  k_catch_cancelled : option bool;
  k_exit_codes : option (option container);
  k_timeout : option (option Z);
  k_cancel_timeout : option Z;
  k_cancel_signal : option (option Z);
  k_alt_name : option (option text);
  k_pass_fds : option (list Z);
  k_pass_fds_close : option bool;
  k_writable : option bool;
  k_start_new_session : option bool;
  k_preexec_fn : option (option nat);
  k_pty : option ptyopt;
  k_close_fds : option bool;
  k_audit_callback : option (option nat);
  k_coerce_arg : option (option nat);
  k_error_limit : option (option Z)
}.

Definition no_kwds : kwds := {|
  k_path := None; k_env := None; k_inherit_env := None; k_encoding := None;
  k_return_result := None; k_catch_cancelled := None; k_exit_codes := None; k_timeout := None;
  k_cancel_timeout := None; k_cancel_signal := None; k_alt_name := None; k_pass_fds := None;
  k_pass_fds_close := None; k_writable := None; k_start_new_session := None; k_preexec_fn := None;
  k_pty := None; k_close_fds := None; k_audit_callback := None; k_coerce_arg := None;
  k_error_limit := None |}.

Definition keep {A} (k : option A) (old : A) : A :=
  match k with Some v => v | None => old end.

(** command.py 241-254: Options.set. *)
Definition options_set (o : opts) (k : kwds) : opts := {|
  o_path := keep (k_path k) (o_path o);
  o_env := match k_env k with
           | None => o_env o
           | Some [] => None                         (* falsy: command.py 250-253 *)
           | Some (kv :: r) => Some (mk_env None (kv :: r))
           end;
  o_inherit_env := keep (k_inherit_env k) (o_inherit_env o);
  o_input := o_input o; o_input_close := o_input_close o;
  o_output := o_output o; o_output_append := o_output_append o; o_output_close := o_output_close o;
  o_error := o_error o; o_error_append := o_error_append o; o_error_close := o_error_close o;
  o_error_limit := keep (k_error_limit k) (o_error_limit o);
  o_encoding := keep (k_encoding k) (o_encoding o);
  o_return_result := keep (k_return_result k) (o_return_result o);
  o_catch_cancelled := keep (k_catch_cancelled k) (o_catch_cancelled o);
  o_exit_codes := keep (k_exit_codes k) (o_exit_codes o);
  o_timeout := keep (k_timeout k) (o_timeout o);
  o_cancel_timeout := keep (k_cancel_timeout k) (o_cancel_timeout o);
  o_cancel_signal := keep (k_cancel_signal k) (o_cancel_signal o);
  o_alt_name := keep (k_alt_name k) (o_alt_name o);
  o_pass_fds := keep (k_pass_fds k) (o_pass_fds o);
  o_pass_fds_close := keep (k_pass_fds_close k) (o_pass_fds_close o);
  o_writable := keep (k_writable k) (o_writable o);
  o_start_new_session := keep (k_start_new_session k) (o_start_new_session o);
  o_preexec_fn := keep (k_preexec_fn k) (o_preexec_fn o);
  o_pty := keep (k_pty k) (o_pty o);
  o_close_fds := keep (k_close_fds k) (o_close_fds o);
  o_audit_callback := keep (k_audit_callback k) (o_audit_callback o);
  o_coerce_arg := keep (k_coerce_arg k) (o_coerce_arg o) |}.

(** command.py 365-369 and 645-649: the check on [encoding] made by
    CmdContext.set and Command.set, then Options.set. *)
Definition ctx_set (o : opts) (k : kwds) : res opts :=
  match k_encoding k with
  | Some [] => Err (TypeError "invalid encoding")
  | _ => Ok (options_set o k)
  end.

(** command.py 184-193: Options.runtime_env; [None] means "inherit as is",
    i.e. create_subprocess_exec uses os.environ. [environ] is os.environ. *)
Definition runtime_env (o : opts) (environ : envdict) : option envdict :=
  if o_inherit_env o then
    match o_env o with
    | None | Some [] => None
    | Some e => Some (env_update environ e)
    end
  else
    match o_env o with
    | None | Some [] => Some []
    | Some e => Some e
    end.

(** What the child process sees: env=None makes it inherit os.environ
    (subprocess.Popen documentation). *)
Definition child_env (o : opts) (environ : envdict) : envdict :=
  match runtime_env o environ with None => environ | Some e => e end.

Section Coerce.
  (** [str(x)] for objects that are not strings, bytes, paths, ... *)
  Variable pystr : value -> text.
  (** Behaviour of coerce_arg callables: they may read and change a state
      [St] (anything the Python function can observe), return or raise. *)
  Variable St : Type.
  Variable call_fn : nat -> value -> St -> St * res value.

  (** command.py 801-837: coerce(args, None).  [coerce_one] is one iteration
      of the for loop; the recursive call of line 820 is [coerce_items]. *)
  Fixpoint coerce_one (arg : value) : res (list value) :=
    match arg with
    | VStr _ | VBytes _ | VPath _ | VPathLike _ | VCmd _ _ | VPipe _ => Ok [arg]
    | VByteArray _ b => Ok [VBytes b]
    | VMemoryView b => Ok [VBytes b]
    | VStringIO _ s => Ok [VStr s]
    | VBytesIO _ b => Ok [VBytes b]
    | VSeq _ items =>
        (fix coerce_items (l : list value) : res (list value) :=
           match l with
           | [] => Ok []
           | x :: l' =>
               bind (coerce_one x) (fun a =>
               bind (coerce_items l') (fun b => Ok (a ++ b)))
           end) items
    | VMapping n | VSet n | VGenerator n => Err (TypeError n)
    | VRange => Err (TypeError "range")
    | VNone => Err (TypeError "NoneType")
    | VEllipsis => Err (TypeError "ellipsis")
    | VFile _ | VInt _ | VRedirect _ | VLogger _ | VStreamReader _ | VStreamWriter _ | VObj _ =>
        Ok [VStr (pystr arg)]
    end.

  (** command.py 801-837 at top level, with the optional coerce_arg applied
      to each argument first (809-810). *)
  Fixpoint coerce (coerce_arg : option nat) (args : list value) (st : St) : St * res (list value) :=
    match args with
    | [] => (st, Ok [])
    | arg :: rest =>
        let (st1, r) := match coerce_arg with Some f => call_fn f arg st | None => (st, Ok arg) end in
        match r with
        | Err e => (st1, Err e)
        | Ok arg' =>
            match coerce_one arg' with
            | Err e => (st1, Err e)
            | Ok a =>
                let (st2, r2) := coerce coerce_arg rest st1 in
                (st2, bind r2 (fun b => Ok (a ++ b)))
            end
        end
    end.

  (** command.py 371-373: CmdContext.__call__. A context is its options. *)
  Definition ctx_call (ctx : opts) (args : list value) (st : St) : St * res command :=
    let (st1, r) := coerce (o_coerce_arg ctx) args st in
    (st1, bind r (fun a => mk_command a ctx)).

  (** command.py 738-743: Command.__call__. *)
  Definition cmd_call (c : command) (args : list value) (st : St) : St * res command :=
    match args with
    | [] => (st, Ok c)
    | _ => let (st1, r) := coerce (o_coerce_arg (c_opts c)) args st in
           (st1, bind r (fun a => mk_command (c_args c ++ a) (c_opts c)))
    end.

  (** command.py 431-443: Command.name. 46 = "."; [str(args[0])] is the
      string itself for str and [pystr] otherwise. *)
  Definition arg_str (v : value) : text :=
    match v with VStr s => s | _ => pystr v end.
  Definition dots : text := [46; 46; 46].
  Definition cmd_name (c : command) : res text :=
    match o_alt_name (c_opts c) with
    | Some (x :: r) => Ok (x :: r)
    | _ =>
      match c_args c with
      | [] => Err (OtherError 0)   (* IndexError; excluded by mk_command *)
      | a0 :: _ =>
          let name := arg_str a0 in
          if (31 <? List.length name)%nat
          then Ok (dots ++ skipn (List.length name - 31) name)
          else Ok name
      end
    end.
End Coerce.

(** command.py 445-448, 450-459, 461-470, 472-482, 649: methods of Command
    built from the Options methods. *)
Definition cmd_stdin (c : command) (v : value) (close : bool) : res command :=
  bind (set_stdin (c_opts c) v close) (fun o => mk_command (c_args c) o).
Definition cmd_stdout (c : command) (v : value) (append close : bool) : res command :=
  bind (set_stdout (c_opts c) v append close) (fun o => mk_command (c_args c) o).
Definition cmd_stderr (c : command) (v : value) (append close : bool) : res command :=
  bind (set_stderr (c_opts c) v append close) (fun o => mk_command (c_args c) o).
Definition cmd_env (c : command) (u : envdict) : res command :=
  mk_command (c_args c) (add_env (c_opts c) u).
Definition cmd_set (c : command) (k : kwds) : res command :=
  bind (ctx_set (c_opts c) k) (fun o => mk_command (c_args c) o).

(** command.py 787-790: writable and result. *)
Definition kwds_writable : kwds := {|
  k_path := None; k_env := None; k_inherit_env := None; k_encoding := None;
  k_return_result := None; k_catch_cancelled := None; k_exit_codes := None; k_timeout := None;
  k_cancel_timeout := None; k_cancel_signal := None; k_alt_name := None; k_pass_fds := None;
  k_pass_fds_close := None; k_writable := Some true; k_start_new_session := None; k_preexec_fn := None;
  k_pty := None; k_close_fds := None; k_audit_callback := None; k_coerce_arg := None;
  k_error_limit := None |}.
Definition kwds_result : kwds := {|
  k_path := None; k_env := None; k_inherit_env := None; k_encoding := None;
  k_return_result := Some true; k_catch_cancelled := None;
  k_exit_codes := Some (Some (CRange (-255) 256)); k_timeout := None;
  k_cancel_timeout := None; k_cancel_signal := None; k_alt_name := None; k_pass_fds := None;
  k_pass_fds_close := None; k_writable := None; k_start_new_session := None; k_preexec_fn := None;
  k_pty := None; k_close_fds := None; k_audit_callback := None; k_coerce_arg := None;
  k_error_limit := None |}.
Definition cmd_writable (c : command) := cmd_set c kwds_writable.
Definition cmd_result (c : command) := cmd_set c kwds_result.

(** util.py 213-218: EnvironmentDict.__eq__ on two EnvironmentDicts: Python
    dict equality (same keys, same values, any order). *)
Definition env_subset (a b : envdict) : bool :=
  forallb (fun kv => match env_get b (fst kv) with
                     | Some v => text_eqb v (snd kv) | None => false end) a.
Definition env_eqb (a b : envdict) : bool :=
  (List.length a =? List.length b)%nat && env_subset a b.

(** util.py 210-211: EnvironmentDict.__hash__: the hash of the tuple of items
    in insertion order; [hash_tuple] is Python's hash on such tuples. *)
Definition env_hash (hash_tuple : list (text * text) -> Z) (a : envdict) : Z := hash_tuple a.

(** A history of fluent updates on a command. *)
Inductive upd :=
| UStdin (v : value) (close : bool)
| UStdout (v : value) (append close : bool)
| UStderr (v : value) (append close : bool)
| UEnv (u : envdict)
| USet (k : kwds).

(** Each constructor is the method call of the same name. *)
Definition apply_upd (c : command) (u : upd) : res command :=
  match u with
  | UStdin v cl => cmd_stdin c v cl
  | UStdout v ap cl => cmd_stdout c v ap cl
  | UStderr v ap cl => cmd_stderr c v ap cl
  | UEnv e => cmd_env c e
  | USet k => cmd_set c k
  end.
Fixpoint apply_upds (c : command) (us : list upd) : res command :=
  match us with [] => Ok c | u :: r => bind (apply_upd c u) (fun c' => apply_upds c' r) end.

