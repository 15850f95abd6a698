(** Model of pty_util.py 258-295 (_IGNORE_CHILD_PROCESS, _patch_child_watcher,
    set_ignore_child_watcher) as used by runner.py 733-744 (_subprocess_exec):
    on BSD-derived systems the child watcher of asyncio must not wait for the
    child of a pty, because shellous polls for it (runner.py 547-559).

    Each launch is a task of its own (util.py 141-150, uninterrupted) and so has
    its own copy of the context variable.  One transition is one statement;
    launches may run in the event loops of several threads.  A thread changes to
    another task only at an await; asyncio (unix_events.py 206-241 of Python
    3.12) reaches add_child_handler without one.

    Simplification: a watcher object is a number; is_active() is true. *)
From Verif Require Export Base.

(** What starts a child: a Runner with a pty on BSD; any other Runner; or code
    of the application that calls asyncio.create_subprocess_exec itself. *)
Inductive launcher := BsdPty | OtherRun | Application.
(** Where a launch is. *)
Inductive pc :=
| Ready                (* not begun (its task has not been started) *)
| Got (w : nat)        (* _patch_child_watcher: has called get_child_watcher *)
| Flagged (w : nat)    (* has set _shellous_patched *)
| Saved (w : nat) (n : nat) (* has read watcher.add_child_handler: n layers *)
| Setting              (* about to set the context variable *)
| Launching            (* about to call create_subprocess_exec *)
| Waiting              (* in create_subprocess_exec, waits for the pipes *)
| Leaving              (* about to reset the context variable *)
| Over.
Record st := mk_st {
  at_ : nat -> pc;
  ignore : nat -> bool;      (* _IGNORE_CHILD_PROCESS, in the context of each task *)
  watcher : nat;             (* asyncio.get_child_watcher() *)
  patched : nat -> bool;     (* hasattr(watcher, "_shellous_patched") *)
  layers : nat -> nat;       (* how often add_child_handler has been wrapped *)
  spawned : list nat;        (* launches whose child exists *)
  registered : list nat }.   (* calls of the original add_child_handler *)
Definition start : st := mk_st (fun _ => Ready) (fun _ => false) 0 (fun _ => false) (fun _ => 0%nat) [] [].
Definition upd {A} (f : nat -> A) (i : nat) (x : A) : nat -> A := fun j => if Nat.eqb j i then x else f j.
Definition goto (i : nat) (p : pc) (s : st) : st :=
  mk_st (upd (at_ s) i p) (ignore s) (watcher s) (patched s) (layers s) (spawned s) (registered s).
Definition set_ignore (i : nat) (b : bool) (s : st) : st :=
  mk_st (at_ s) (upd (ignore s) i b) (watcher s) (patched s) (layers s) (spawned s) (registered s).
Definition set_watcher (w : nat) (s : st) : st :=
  mk_st (at_ s) (ignore s) w (patched s) (layers s) (spawned s) (registered s).
Definition set_patched (w : nat) (s : st) : st :=
  mk_st (at_ s) (ignore s) (watcher s) (upd (patched s) w true) (layers s) (spawned s) (registered s).
Definition set_layers (w n : nat) (s : st) : st :=
  mk_st (at_ s) (ignore s) (watcher s) (patched s) (upd (layers s) w n) (spawned s) (registered s).
(** watcher.add_child_handler of watcher [w], called by launch [i]: each layer
    is pty_util.py 277-279, the innermost is the original. *)
Definition add_child_handler (i w : nat) (s : st) : st :=
  let reached := match layers s w with O => true | S _ => negb (ignore s i) end in
  mk_st (at_ s) (ignore s) (watcher s) (patched s) (layers s) (i :: spawned s)
        (if reached then i :: registered s else registered s).

(** The argument of set_ignore_child_watcher (runner.py 738-740), and the value
    of the variable after the block (pty_util.py 293-294); the application has
    no such block. *)
Definition is_bsd_pty (l : launcher) : bool := match l with BsdPty => true | _ => false end.
Definition reset (l : launcher) (old : bool) : bool := match l with Application => old | _ => false end.

(** The statements of launch [i]. *)
Inductive lstep (who : nat -> launcher) (i : nat) (s : st) : st -> Prop :=
  (* pty_util.py 287-288, 263-267 *)
| l_patch : at_ s i = Ready -> who i = BsdPty -> lstep who i s (goto i (Got (watcher s)) s)
| l_no_patch : at_ s i = Ready -> who i = OtherRun -> lstep who i s (goto i Setting s)
| l_app : at_ s i = Ready -> who i = Application -> lstep who i s (goto i Launching s)
  (* 269-272 *)
| l_already w : at_ s i = Got w -> patched s w = true -> lstep who i s (goto i Setting s)
| l_flag w : at_ s i = Got w -> patched s w = false -> lstep who i s (goto i (Flagged w) (set_patched w s))
  (* 274 *)
| l_save w : at_ s i = Flagged w -> lstep who i s (goto i (Saved w (layers s w)) s)
  (* 281 *)
| l_wrap w n : at_ s i = Saved w n -> lstep who i s (goto i Setting (set_layers w (S n) s))
  (* 290 *)
| l_set : at_ s i = Setting -> lstep who i s (goto i Launching (set_ignore i (is_bsd_pty (who i)) s))
  (* runner.py 741-744: the program cannot be started *)
| l_fail : at_ s i = Launching -> lstep who i s (goto i Leaving s)
| l_spawn : at_ s i = Launching -> lstep who i s (goto i Waiting (add_child_handler i (watcher s) s))
| l_connected : at_ s i = Waiting -> lstep who i s (goto i Leaving s)
  (* pty_util.py 293-294: finally *)
| l_leave : at_ s i = Leaving -> lstep who i s (goto i Over (set_ignore i (reset (who i) (ignore s i)) s)).

(** Between two awaits of its task. *)
Definition busy (p : pc) : Prop := match p with Ready | Waiting | Over => False | _ => True end.
Inductive step (who : nat -> launcher) (thread : nat -> nat) (s : st) : st -> Prop :=
| s_launch i s' : (forall j, j <> i -> thread j = thread i -> ~ busy (at_ s j)) -> lstep who i s s' -> step who thread s s'
  (* asyncio.set_child_watcher, called in the main thread (0) *)
| s_watcher w : (forall j, thread j = 0%nat -> ~ busy (at_ s j)) -> step who thread s (set_watcher w s).
Inductive reachable (who : nat -> launcher) (thread : nat -> nat) : st -> Prop :=
| r_start : reachable who thread start
| r_step s s' : reachable who thread s -> step who thread s s' -> reachable who thread s'.
