(** Model of util.py 59-74 (close_fds) and pty_util.py 33-48 (ChildFd), with
    closing calls that may fail.

    Simplifications: log_timer (log.py 187-204) and LOGGER.warning have no
    effect; a set is iterated in the order of the list given here. *)
From Verif Require Export Base.
Open Scope Z_scope.

(** An element of the argument: an int or an object with a close() method. *)
Inductive fobj := FInt (z : Z) | FObj (id : nat).
(** What is called. *)
Inductive call := OsClose (z : Z) | ObjClose (id : nat).
(** util.py 72-73: only lists and sets are cleared. *)
Inductive container := AList (l : list fobj) | ASet (l : list fobj) | AnIterable (l : list fobj).
Definition elements (c : container) : list fobj := match c with AList l | ASet l | AnIterable l => l end.

(** The behaviour of the operating system and of the objects: does os.close
    fail with an OSError; does obj.close() raise? *)
Record closing := { os_close_fails : Z -> bool; obj_close_raises : nat -> option exn }.

(** util.py 62-71: the loop. *)
Fixpoint close_loop (b : closing) (l : list fobj) : list call * res unit :=
  match l with
  | [] => ([], Ok tt)
  | FInt z :: l' =>
      if 0 <=? z then
        (* try: os.close(obj)  except OSError: log *)
        let outcome : res unit := if os_close_fails b z then Err OSError else Ok tt in
        match outcome with
        | Ok _ | Err OSError => let (calls, r) := close_loop b l' in (OsClose z :: calls, r)
        | Err e => ([OsClose z], Err e)
        end
      else close_loop b l'
  | FObj id :: l' =>
      match obj_close_raises b id with
      | None => let (calls, r) := close_loop b l' in (ObjClose id :: calls, r)
      | Some e => ([ObjClose id], Err e)
      end
  end.
(** util.py 59-74: calls made, outcome, and the container afterwards. *)
Definition close_fds (b : closing) (c : container) : list call * res unit * container :=
  let (calls, r) := close_loop b (elements c) in
  (calls, r, match c with AList _ => AList [] | ASet _ => ASet [] | AnIterable l => AnIterable l end).

(** pty_util.py 42-48: ChildFd.close: the new value of child_fd and the calls. *)
Definition child_close (b : closing) (child_fd : Z) : Z * list call :=
  if 0 <=? child_fd then (-1, fst (fst (close_fds b (AList [FInt child_fd])))) else (child_fd, []).
Fixpoint child_close_n (b : closing) (n : nat) (child_fd : Z) : list call :=
  match n with
  | O => []
  | S n' => let (fd', calls) := child_close b child_fd in calls ++ child_close_n b n' fd'
  end.
