(** Model of shellous/harvest.py on top of AsyncModel.

    Simplifications: logging and [trustee] are dropped; timeouts are a boolean
    (is there a timeout?), the timer may expire at any time; the values of
    clocks are not modelled; [ex] in `if ex:` is taken to be truthy; the
    GeneratorExit branch of harvest_wait is not modelled (see AsyncModel). *)
From Verif Require Export AsyncModel.

Section Harvest.
Context {X K V XE : Type}.
Context (xstep : X -> XE -> option (X * bool)).
Context (finish : X -> task K V -> tout V -> option X).
Notation world := (world X K V).
Notation M := (@M X K V).
Local Notation await_wait := (await_wait xstep finish).

(** An argument of harvest: a task, or a coroutine that becomes a new task. *)
Inductive awaitable := AwTask (i : nat) | AwCoro (k : K).
Fixpoint ensure_futures (aws : list awaitable) : M (list nat) :=
  match aws with
  | [] => ret []
  | a :: aws' =>
      bindM (match a with AwTask i => ret i | AwCoro k => spawn k end) (fun i =>
      bindM (ensure_futures aws') (fun is => ret (i :: is)))
  end.

(** harvest.py 217-224: _consume_exceptions: only the assertion has an effect. *)
Definition consume_exceptions (tasks : list nat) : M unit :=
  for_ tasks (fun i => bindM getM (fun w => assertM (task_done w i))).

Definition cancel_failed : exn := RuntimeError "Harvest._cancel_waiter failed".

(** harvest.py 179-201: _cancel_waiter. *)
Definition cancel_waiter (tasks : list nat) : M unit :=
  bindM (await_wait tasks true ALL_COMPLETED) (fun dp =>
  match snd dp with
  | [] => ret tt
  | pending => bindM (for_ pending cancel_task) (fun _ => raise cancel_failed)
  end).

(** harvest.py 158-176: _cancel_wait. *)
Definition cancel_wait (tasks : list nat) (cancel_finish : bool) : M unit :=
  tryM (bindM (if cancel_finish then ret tt else for_ tasks cancel_task) (fun _ => cancel_waiter tasks))
       (fun e => match e with CancelledError => Some (cancel_waiter tasks) | _ => None end).

(** harvest.py 123-131: the test for a timeout. *)
Definition time_expired (w : world) (done pending : list nat) : bool :=
  match done, pending with
  | [], _ => true
  | _, [] => false
  | _, _ => negb (existsb (fun i => out_failed (task_out w i)) done)
  end.

(** harvest.py 91-155: harvest_wait. *)
Definition harvest_wait (tasks : list nat) (timeout cancel_finish : bool) : M unit :=
  bindM
    (tryM (bindM (await_wait tasks timeout FIRST_EXCEPTION) (fun dp =>
           bindM getM (fun w => ret (dp, time_expired w (fst dp) (snd dp)))))
          (fun e => match e with
                    | CancelledError =>
                        Some (bindM (cancel_wait tasks cancel_finish) (fun _ =>
                              bindM (consume_exceptions tasks) (fun _ => raise CancelledError)))
                    | _ => None
                    end))
    (fun dpt =>
      bindM (match snd (fst dpt) with [] => ret tt | pending => cancel_wait pending false end) (fun _ =>
      bindM getM (fun w =>
      bindM (assertM (forallb (task_done w) tasks)) (fun _ =>
      if snd dpt then bindM (consume_exceptions tasks) (fun _ => raise TimeoutError) else ret tt)))).

(** task.result() on the task table; InvalidStateError when it is not done. *)
Definition get_task_result (i : nat) : M V :=
  bindM getM (fun w => match task_out w i with
                       | Some o => match task_result o with Ok v => ret v | Err e => raise e end
                       | None => raise InvalidStateError end).

(** harvest.py 11-48: harvest, after ensure_future. *)
Definition harvest_tasks (tasks : list nat) (timeout cancel_finish : bool) : M unit :=
  bindM (harvest_wait tasks timeout cancel_finish) (fun _ =>
  bindM (consume_exceptions tasks) (fun _ =>
  for_ tasks (fun i => bindM getM (fun w =>
    match task_out w i with
    | Some TCancelled => ret tt
    | _ => bindM (get_task_result i) (fun _ => ret tt)
    end)))).
Definition harvest (aws : list awaitable) (timeout cancel_finish : bool) : M unit :=
  bindM (ensure_futures aws) (fun tasks => harvest_tasks tasks timeout cancel_finish).

(** harvest.py 204-214: _to_result. *)
Definition to_result (i : nat) : M (tout V) :=
  bindM getM (fun w =>
  match task_out w i with
  | None => raise InvalidStateError             (* task.exception() of a pending task *)
  | Some (TFail (RuntimeError m)) => raise (RuntimeError m)
  | Some (TFail AssertionError) => raise AssertionError
  | Some o => ret o
  end).
Fixpoint to_results (tasks : list nat) : M (list (tout V)) :=
  match tasks with
  | [] => ret []
  | i :: tasks' => bindM (to_result i) (fun o => bindM (to_results tasks') (fun os => ret (o :: os)))
  end.

(** harvest.py 51-79: harvest_results; the list holds the value, exception or
    CancelledError of each task. *)
Definition harvest_results_tasks (tasks : list nat) (timeout : bool) : M (bool * list (tout V)) :=
  bindM (tryM (bindM (harvest_wait tasks timeout false) (fun _ => ret false))
              (fun e => match e with CancelledError => Some (ret true) | _ => None end))
        (fun cancelled => bindM (to_results tasks) (fun os => ret (cancelled, os))).
Definition harvest_results (aws : list awaitable) (timeout : bool) : M (bool * list (tout V)) :=
  bindM (ensure_futures aws) (fun tasks => harvest_results_tasks tasks timeout).
End Harvest.
Arguments AwTask {K} _. Arguments AwCoro {K} _.
