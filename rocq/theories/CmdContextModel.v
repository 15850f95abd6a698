(** Model of CmdContext's configuring methods (shellous/command.py 299-384) and
    of program lookup: Options.which (266-270), CmdContext.find_command
    (386-398), the part of _RunOptions.__enter__ that uses it (runner.py
    112-119) and the library functions they call: shutil.which,
    posixpath.split/join and os.get_exec_path of Python 3.12 on POSIX, and the
    choice of the file to execute in subprocess.Popen._execute_child.
    A context is its options (command.py 296). *)
From Verif Require Export CommandModel.
Open Scope Z_scope.

(** * Configuring a context *)

(** command.py 299-307 *)
Definition cx_stdin (ctx : opts) (v : value) (close : bool) : res opts := set_stdin ctx v close.
(** command.py 309-318 *)
Definition cx_stdout (ctx : opts) (v : value) (append close : bool) : res opts :=
  set_stdout ctx v append close.
(** command.py 320-329 *)
Definition cx_stderr (ctx : opts) (v : value) (append close : bool) : res opts :=
  set_stderr ctx v append close.
(** command.py 331-334 *)
Definition cx_env (ctx : opts) (u : envdict) : res opts := Ok (add_env ctx u).
(** command.py 336-369 *)
Definition cx_set (ctx : opts) (k : kwds) : res opts := ctx_set ctx k.
(** command.py 375-384: the property [result] *)
Definition cx_result (ctx : opts) : res opts := cx_set ctx kwds_result.

(** One call, and a chain of calls, on a context. *)
Definition cx_upd (ctx : opts) (u : upd) : res opts :=
  match u with
  | UStdin v cl => cx_stdin ctx v cl
  | UStdout v ap cl => cx_stdout ctx v ap cl
  | UStderr v ap cl => cx_stderr ctx v ap cl
  | UEnv e => cx_env ctx e
  | USet k => cx_set ctx k
  end.
Fixpoint cx_upds (ctx : opts) (us : list upd) : res opts :=
  match us with [] => Ok ctx | u :: r => bind (cx_upd ctx u) (fun ctx' => cx_upds ctx' r) end.

(** * Program lookup *)

Definition slash : Z := 47.
Definition colon : Z := 58.

(** posixpath.py 104-106: p[:i], p[i:] for i = p.rfind("/") + 1 *)
Fixpoint split_last (p : text) : text * text :=
  match p with
  | [] => ([], [])
  | c :: r =>
      let (h, t) := split_last r in
      match h with
      | [] => if c =? slash then ([c], t) else ([], c :: t)
      | _ => (c :: h, t)
      end
  end.
Fixpoint lstrip (p : text) : text :=
  match p with [] => [] | c :: r => if c =? slash then lstrip r else p end.
(** posixpath.py 100-109: split. [head.rstrip("/")] unless it is all slashes. *)
Definition path_split (p : text) : text * text :=
  let (h, t) := split_last p in
  (if forallb (Z.eqb slash) h then h else rev (lstrip (rev h)), t).
(** posixpath.py 179-187 *)
Definition dirname (p : text) : text := fst (path_split p).

(** posixpath.py 71-92: join of two components *)
Definition path_join (a b : text) : text :=
  match b with
  | c :: _ =>
      if c =? slash then b
      else match rev a with
           | [] => b
           | l :: _ => if l =? slash then a ++ b else a ++ slash :: b
           end
  | [] => match rev a with
          | [] => b
          | l :: _ => if l =? slash then a ++ b else a ++ slash :: b
          end
  end.

(** str.split(":") *)
Fixpoint split_colon (p : text) : list text :=
  match p with
  | [] => [[]]
  | c :: r =>
      if c =? colon then [] :: split_colon r
      else match split_colon r with
           | x :: xs => (c :: x) :: xs
           | [] => [[c]]
           end
  end.

(** What the lookup reads of the machine: [access f] is shutil._access_check
    (shutil.py 1510-1512): f exists, may be executed and is not a directory.
    [cs_path] is os.confstr("CS_PATH"), [defpath] is os.defpath. *)
Record machine := {
  access : text -> bool;
  cs_path : text;
  defpath : text
}.

(** shutil.py 1596-1605 with files = [cmd]; normcase is the identity. *)
Fixpoint which_loop (m : machine) (cmd : text) (seen dirs : list text) : option text :=
  match dirs with
  | [] => None
  | dir :: r =>
      if existsb (text_eqb dir) seen then which_loop m cmd seen r
      else let name := path_join dir cmd in
           if access m name then Some name else which_loop m cmd (dir :: seen) r
  end.

Definition path_var : text := [80; 65; 84; 72].   (* "PATH" *)

(** shutil.py 1525-1605 for a str command on POSIX; [path] is the keyword
    argument and [environ] is os.environ. Names and paths given as bytes
    (fsencode/fsdecode) are not modelled. *)
Definition shutil_which (m : machine) (environ : envdict) (cmd : text) (path : option text)
  : option text :=
  let (dir, file) := path_split cmd in
  match dir with
  | _ :: _ => which_loop m file [] [dir]
  | [] =>
      let path1 := match path with
                   | Some p => p
                   | None => match env_get environ path_var with Some p => p | None => cs_path m end
                   end in
      match path1 with
      | [] => None
      | _ => which_loop m file [] (split_colon path1)
      end
  end.

(** command.py 266-270: Options.which *)
Definition options_which (m : machine) (environ : envdict) (o : opts) (name : text) : option text :=
  shutil_which m environ name (o_path o).

(** command.py 386-398: CmdContext.find_command. The result is the string that
    is given to pathlib.Path. *)
Definition find_command (m : machine) (environ : envdict) (ctx : opts) (name : text) : option text :=
  match options_which m environ ctx name with
  | None | Some [] => None
  | Some r => Some r
  end.

(** runner.py 112-119: the program that is given to create_subprocess_exec *)
Definition resolve (m : machine) (environ : envdict) (o : opts) (executable : text) : res text :=
  match dirname executable with
  | [] => match options_which m environ o executable with
          | None => Err FileNotFoundError
          | Some f => Ok f
          end
  | _ => Ok executable
  end.

(** os.py 625-666: get_exec_path(env) for a str PATH; [None] is os.environ. *)
Definition get_exec_path (m : machine) (environ : envdict) (env : option envdict) : list text :=
  let e := match env with None => environ | Some e => e end in
  split_colon (match env_get e path_var with Some p => p | None => defpath m end).

(** subprocess.py 1875-1882: the files that the new process tries to execute,
    in this order, when the program is [executable]. *)
Definition executable_list (m : machine) (environ : envdict) (env : option envdict) (executable : text)
  : list text :=
  match dirname executable with
  | [] => map (fun dir => path_join dir executable) (get_exec_path m environ env)
  | _ => [executable]
  end.

(** The files tried when a command with options [o] and program [name] is run;
    its environment is the env argument of create_subprocess_exec (runner.py
    236, command.py 184-193). *)
Definition files_tried (m : machine) (environ : envdict) (o : opts) (name : text) : res (list text) :=
  bind (resolve m environ o name) (fun exe =>
  Ok (executable_list m environ (runtime_env o environ) exe)).
