(** Model of the option pass_fds when it is any iterable (command.py 157-161:
    `pass_fds: Iterable[int]`), over the whole life of a command: runner.py
    241-254 (_setup_pass_fds), 100-139 (when it is reached and when the
    descriptors are closed), 1258-1276 (_cleanup), util.py close_fds.

    RunOptionsModel takes pass_fds to be a list.  Here it is a Python object: a
    container starts a new iteration every time, an iterator (a generator, map,
    filter, ...) is used up by the first one.

    Simplifications: only the descriptors of pass_fds are followed; close_fds
    logs and ignores the OSError of a descriptor that is not open. *)
From Verif Require Export Base.
Open Scope Z_scope.

(** The object given as pass_fds: a container with these elements, or an
    iterator, whose remaining elements are in the heap. *)
Inductive iterable := Container (l : list Z) | Iterator (id : nat).
Definition heap := nat -> list Z.
Definition set_heap (h : heap) (id : nat) (l : list Z) : heap := fun j => if Nat.eqb j id then l else h j.
(** list.extend(obj), runner.py 249, 251, 1273: the elements, and the heap
    after the iteration. *)
Definition extend (h : heap) (o : iterable) : list Z * heap :=
  match o with
  | Container l => (l, h)
  | Iterator id => (h id, set_heap h id [])
  end.
(** bool(obj), runner.py 245: an empty container is false; an iterator has no
    length and is always true. *)
Definition truth (o : iterable) : bool := match o with Container [] => false | _ => true end.

(** runner.py 241-254: _setup_pass_fds.  [subst]: kwd_args["pass_fds"] before
    (process substitution); [ckw]: kwd_args["close_fds"] before; [copt]:
    options.close_fds.  Gives kwd_args["pass_fds"], kwd_args["close_fds"], what
    is added to open_fds, and the heap. *)
Definition setup_pass_fds (o : iterable) (close copt : bool) (subst : option (list Z)) (ckw : option bool) (h : heap)
  : option (list Z) * option bool * list Z * heap :=
  if truth o then
    let (l, h1) := extend h o in
    let kw := (match subst with Some s => s | None => [] end) ++ l in
    if close then let (l2, h2) := extend h1 o in (Some kw, Some true, l2, h2)
    else (Some kw, Some true, [], h1)
  else (subst, match ckw with Some b => Some b | None => Some copt end, [], h).
(** runner.py 1272-1273: the part of _cleanup that concerns pass_fds. *)
Definition cleanup (o : iterable) (close : bool) (h : heap) : list Z * heap :=
  if close then extend h o else ([], h).

(** How a run goes: it fails before runner.py 110 (or in a pipeline before the
    command is reached, runner.py 977); it fails after it, because there is no
    such program (112-119); or create_subprocess_exec is called (and may itself
    fail; either way __exit__ closes open_fds, 129-136). *)
Inductive outcome := FailsBefore | NotFound | Exec.
Record effect := mk_effect {
  passed : option (list Z);   (* the pass_fds argument of create_subprocess_exec *)
  closed : list Z }.          (* os.close calls of the parent *)
Definition run (o : iterable) (close copt : bool) (subst : option (list Z)) (how : outcome) (h : heap) : effect * heap :=
  match how with
  | FailsBefore => let (l, h') := cleanup o close h in (mk_effect None l, h')
  | NotFound =>
      let '(_, _, _, h1) := setup_pass_fds o close copt subst None h in
      let (l, h2) := cleanup o close h1 in (mk_effect None l, h2)
  | Exec =>
      let '(kw, _, open, h1) := setup_pass_fds o close copt subst None h in
      (mk_effect kw open, h1)
  end.
(** The same command object is run again and again. *)
Fixpoint history (o : iterable) (close copt : bool) (subst : option (list Z)) (hows : list outcome) (h : heap) : list effect :=
  match hows with
  | [] => []
  | how :: hows => let (e, h') := run o close copt subst how h in e :: history o close copt subst hows h'
  end.
