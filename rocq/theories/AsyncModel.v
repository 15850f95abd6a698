(** Model of the parts of CPython's asyncio that shellous awaits on:
    asyncio.wait, Task.cancel, sleep(0), shield, awaiting a task
    (Lib/asyncio/tasks.py of Python 3.12; the line numbers below refer to it).

    One task -- the task that runs the shellous code being modelled, called the
    main task -- is described by a program in the relational monad [M]; the
    other tasks, the event loop, the operating system and the callers of
    cancel() are the environment.  While the main task is suspended the
    environment performs an arbitrary finite list of events, one at a time, and
    then the event loop resumes the main task; nothing else happens while the
    main task runs (asyncio is cooperative).

    Simplifications:
    - [X] is the state outside the task table that the environment may change
      (for the Runner: the process, the timer, ...), [xstep] its events; an
      event may request the cancellation of the main task.
    - the values of clocks are not modelled: a timer that is armed may fire at
      any moment, and a callback that is ready may run at any moment.
    - asyncio.wait returns sets; they are lists in the order of the argument.
    - GeneratorExit thrown into a suspended coroutine (coro.close()) is not
      modelled. *)
From Verif Require Export Base.

(** What a finished asyncio task holds: a value, an exception, or cancelled. *)
Inductive tout (V : Type) := TValue (v : V) | TFail (e : exn) | TCancelled.
Arguments TValue {V} _. Arguments TFail {V} _. Arguments TCancelled {V}.

(** Observable history of a run. *)
Inductive hev (V : Type) :=
| HDone (i : nat) (o : tout V)      (* task i finished *)
| HReq (i : nat)                    (* the modelled code called cancel() on task i *)
| HCancel                           (* somebody called cancel() on the main task *)
| HTimer.                           (* the timeout of an asyncio.wait expired *)
Arguments HDone {V} _ _. Arguments HReq {V} _. Arguments HCancel {V}. Arguments HTimer {V}.

Record task (K V : Type) := mk_task { t_kind : K; t_out : option (tout V); t_creq : nat }.
Arguments mk_task {K V} _ _ _. Arguments t_kind {K V} _. Arguments t_out {K V} _. Arguments t_creq {K V} _.

(** The world: the task table (task ids are positions), the rest, the history. *)
Record world (X K V : Type) := mk_world { w_tasks : list (task K V); w_x : X; w_hist : list (hev V) }.
Arguments mk_world {X K V} _ _ _. Arguments w_tasks {X K V} _. Arguments w_x {X K V} _. Arguments w_hist {X K V} _.

Fixpoint upd_nth {A} (l : list A) (i : nat) (f : A -> A) : list A :=
  match l, i with
  | [], _ => []
  | a :: l', O => f a :: l'
  | a :: l', S j => a :: upd_nth l' j f
  end.

Inductive wmode := ALL_COMPLETED | FIRST_EXCEPTION.

Section Async.
Context {X K V XE : Type}.
(** Environment event on [X]; [true] means it calls cancel() on the main task. *)
Context (xstep : X -> XE -> option (X * bool)).
(** Whether a task of this kind can finish this way now, and what its last step
    does to the rest of the world. *)
Context (finish : X -> task K V -> tout V -> option X).

Notation world := (world X K V).
Notation task := (task K V).

(** A Python computation: from a world to a value or exception and a world. *)
Definition M (A : Type) := world -> res A -> world -> Prop.
Definition ret {A} (a : A) : M A := fun w r w' => r = Ok a /\ w' = w.
Definition raise {A} (e : exn) : M A := fun w r w' => r = Err e /\ w' = w.
Definition bindM {A B} (m : M A) (f : A -> M B) : M B := fun w r w' =>
  (exists a w1, m w (Ok a) w1 /\ f a w1 r w') \/ (exists e, m w (Err e) w' /\ r = Err e).
(** try: m  except (as selected by h): ... *)
Definition tryM {A} (m : M A) (h : exn -> option (M A)) : M A := fun w r w' =>
  (exists a, m w (Ok a) w' /\ r = Ok a)
  \/ (exists e w1, m w (Err e) w1 /\ match h e with
                                     | Some k => k w1 r w'
                                     | None => r = Err e /\ w' = w1 end).
(** try: m  finally: f  (an exception of f replaces the one of m). *)
Definition finallyM {A} (m : M A) (f : M unit) : M A := fun w r w' =>
  exists r1 w1, m w r1 w1 /\ ((f w1 (Ok tt) w' /\ r = r1) \/ (exists e, f w1 (Err e) w' /\ r = Err e)).
Definition getM : M world := fun w r w' => r = Ok w /\ w' = w.
Definition modM (f : world -> world) : M unit := fun w r w' => r = Ok tt /\ w' = f w.
Definition getx {A} (f : X -> A) : M A := fun w r w' => r = Ok (f (w_x w)) /\ w' = w.
Definition modx (f : X -> X) : M unit :=
  modM (fun w => mk_world (w_tasks w) (f (w_x w)) (w_hist w)).
Definition assertM (b : bool) : M unit := if b then ret tt else raise AssertionError.
Fixpoint for_ {A} (l : list A) (f : A -> M unit) : M unit :=
  match l with [] => ret tt | a :: l' => bindM (f a) (fun _ => for_ l' f) end.

Definition task_out (w : world) (i : nat) : option (tout V) :=
  match nth_error (w_tasks w) i with Some t => t_out t | None => None end.
Definition task_done (w : world) (i : nat) : bool :=
  match task_out w i with Some _ => true | None => false end.
Definition out_failed (o : option (tout V)) : bool := match o with Some (TFail _) => true | _ => false end.

(** asyncio.create_task / ensure_future of a coroutine (tasks.py 404-425). *)
Definition spawn (k : K) : M nat := fun w r w' =>
  r = Ok (List.length (w_tasks w))
  /\ w' = mk_world (w_tasks w ++ [mk_task k None 0]) (w_x w) (w_hist w).

(** tasks.py 210-250: Task.cancel() on another task: a request that the task
    may obey or not; nothing happens if it is done. *)
Definition req (w : world) (i : nat) : world :=
  if task_done w i then w
  else mk_world (upd_nth (w_tasks w) i (fun t => mk_task (t_kind t) (t_out t) (S (t_creq t))))
                (w_x w) (w_hist w ++ [HReq i]).
Definition cancel_task (i : nat) : M unit := modM (fun w => req w i).

(** One event of the environment. *)
Inductive eev := EDone (i : nat) (o : tout V) | EX (e : XE).
Definition env_step (w : world) (ev : eev) : option (world * bool) :=
  match ev with
  | EDone i o =>
      match nth_error (w_tasks w) i with
      | Some t =>
          match t_out t with
          | None =>
              match finish (w_x w) t o with
              | Some x' => Some (mk_world (upd_nth (w_tasks w) i (fun t => mk_task (t_kind t) (Some o) (t_creq t)))
                                          x' (w_hist w ++ [HDone i o]), false)
              | None => None
              end
          | Some _ => None
          end
      | None => None
      end
  | EX e =>
      match xstep (w_x w) e with
      | Some (x', c) => Some (mk_world (w_tasks w) x' (w_hist w ++ (if c then [HCancel] else [])), c)
      | None => None
      end
  end.

(** tasks.py 522-560: the state of a suspended asyncio._wait: done-callbacks
    that have not run yet (its length is [counter]), the timeout handle, the
    waiter future, and whether CancelledError will be thrown on resumption. *)
Record wst := mk_wst { s_cbs : list nat; s_armed : bool; s_fired : bool; s_canc : bool }.
Inductive wev := WEnv (e : eev) | WCallback (i : nat) | WTimer.

Definition wait_step (mode : wmode) (target : option nat) (c : world * wst) (ev : wev) : option (world * wst) :=
  let (w, s) := c in
  match ev with
  | WEnv e =>
      match env_step w e with
      | Some (w', false) => Some (w', s)
      | Some (w', true) =>
          (* tasks.py 210-250 on the main task: the future it waits for is
             cancelled -- for a task (await task) that is a cancel request --
             or, if that future is already done, _must_cancel is set. *)
          match target with
          | Some i => if task_done w' i then Some (w', mk_wst (s_cbs s) (s_armed s) (s_fired s) true)
                      else Some (req w' i, s)
          | None => Some (w', mk_wst (s_cbs s) (s_armed s) (s_fired s) true)
          end
      | None => None
      end
  | WCallback i =>
      (* tasks.py 534-545: _on_completion *)
      if existsb (Nat.eqb i) (s_cbs s) && task_done w i then
        let cbs := remove Nat.eq_dec i (s_cbs s) in
        let trigger := match cbs with [] => true | _ => false end
                       || (match mode with FIRST_EXCEPTION => out_failed (task_out w i) | ALL_COMPLETED => false end) in
        if trigger then Some (w, mk_wst cbs false true (s_canc s))
        else Some (w, mk_wst cbs (s_armed s) (s_fired s) (s_canc s))
      else None
  | WTimer =>
      (* tasks.py 467-469: _release_waiter *)
      if s_armed s && negb (s_fired s) && negb (s_canc s) then
        Some (mk_world (w_tasks w) (w_x w) (w_hist w ++ [HTimer]), mk_wst (s_cbs s) false true (s_canc s))
      else None
  end.
Fixpoint wait_run (mode : wmode) (target : option nat) (c : world * wst) (evs : list wev) : option (world * wst) :=
  match evs with
  | [] => Some c
  | ev :: evs' => match wait_step mode target c ev with Some c' => wait_run mode target c' evs' | None => None end
  end.

(** tasks.py 435-464, 522-560: asyncio.wait. *)
Definition await_wait (fs : list nat) (timeout : bool) (mode : wmode) : M (list nat * list nat) := fun w r w' =>
  match fs with
  | [] => r = Err (ValueError "Set of Tasks/Futures is empty.") /\ w' = w
  | _ => exists evs s,
      wait_run mode None (w, mk_wst (nodup Nat.eq_dec fs) timeout false false) evs = Some (w', s)
      /\ ((s_canc s = true /\ r = Err CancelledError)
          \/ (s_canc s = false /\ s_fired s = true
              /\ r = Ok (filter (task_done w') (nodup Nat.eq_dec fs),
                         filter (fun i => negb (task_done w' i)) (nodup Nat.eq_dec fs))))
  end.

(** tasks.py 653-657: asyncio.sleep(0): one trip through the event loop. *)
Definition await_yield : M unit := fun w r w' =>
  exists evs s, wait_run ALL_COMPLETED None (w, mk_wst [] false true false) evs = Some (w', s)
  /\ r = (if s_canc s then Err CancelledError else Ok tt).

(** The result of a finished task, as [task.result()] or [await task] gives it. *)
Definition task_result (o : tout V) : res V :=
  match o with TValue v => Ok v | TFail e => Err e | TCancelled => Err CancelledError end.

(** Awaiting a task: cancelling the main task cancels that task. *)
Definition await_task (i : nat) : M V := fun w r w' =>
  match task_out w i with
  | Some o => r = task_result o /\ w' = w
  | None => exists evs s o, wait_run ALL_COMPLETED (Some i) (w, mk_wst [i] false false false) evs = Some (w', s)
      /\ ((s_canc s = true /\ r = Err CancelledError)
          \/ (s_canc s = false /\ s_fired s = true /\ task_out w' i = Some o /\ r = task_result o))
  end.

(** tasks.py 865-945: awaiting asyncio.shield(task): cancelling the main task
    does not touch the task. *)
Definition await_shield (i : nat) : M V := fun w r w' =>
  match task_out w i with
  | Some o => r = task_result o /\ w' = w
  | None => exists evs s o, wait_run ALL_COMPLETED None (w, mk_wst [i] false false false) evs = Some (w', s)
      /\ ((s_canc s = true /\ r = Err CancelledError)
          \/ (s_canc s = false /\ s_fired s = true /\ task_out w' i = Some o /\ r = task_result o))
  end.

End Async.
