(** Model of log.py 45-154 (log_method) and 207-233 (log_thread).

    A coroutine or async generator is a machine that is resumed with inputs and
    answers with outputs, as in PEP 492 and PEP 525; the machine is the body of
    the function.  Logger calls are recorded in a list of events; they do not
    raise (logging.Handler.handleError), but the arguments that are computed
    before the call may: the f-strings of log.py 96 ([pre]) and 109 ([post]).

    Simplifications: values are numbers; functools.wraps' attributes are left
    out; aclose() is the input [IThrow GeneratorExit]. *)
From Verif Require Export Base.

(** How a suspended function is resumed.  At an await: by the event loop with a
    result or an exception.  At a yield, or not started: __anext__, asend,
    athrow. *)
Inductive inp :=
| IResume (v : nat) | IThrowIn (e : exn)
| INext | ISend (v : nat) | IThrow (e : exn).
Inductive out (S : Type) :=
| OAwait (x : nat) (s : S)       (* waits for the future x *)
| OYield (v : nat) (s : S)       (* async generator: yields v *)
| OReturn (v : nat)              (* return v / end of the generator *)
| ORaise (e : exn).
Arguments OAwait {S} _ _. Arguments OYield {S} _ _. Arguments OReturn {S} _. Arguments ORaise {S} _.

(** The body of a function: what it does from its start to the first
    suspension, and from each suspension on. *)
Record body (S : Type) := mk_body { b_first : out S; b_step : S -> inp -> out S }.
Arguments mk_body {S} _ _. Arguments b_first {S} _. Arguments b_step {S} _ _ _.

(** A coroutine or async generator object. *)
Inductive obj (S : Type) := New | Susp (s : S) | Fin.
Arguments New {S}. Arguments Susp {S} _. Arguments Fin {S}.

Inductive obs := AAwait (x : nat) | AYield (v : nat) | AReturn (v : nat) | ARaise (e : exn).
Definition see {S} (o : out S) : obs :=
  match o with OAwait x _ => AAwait x | OYield v _ => AYield v | OReturn v => AReturn v | ORaise e => ARaise e end.
Definition after {S} (o : out S) : obj S :=
  match o with OAwait _ s => Susp s | OYield _ s => Susp s | _ => Fin end.
(** The interpreter: throwing into an object that was not started raises
    without running the body; sending a value to it is a TypeError; a finished
    object cannot be used again. *)
Definition resume {S} (b : body S) (o : obj S) (i : inp) : obs * obj S :=
  match o with
  | New => match i with
           | IThrow e | IThrowIn e => (ARaise e, Fin)
           | ISend _ => (ARaise (TypeError "can't send non-None value to a just-started async generator"), New)
           | INext | IResume _ => (see (b_first b), after (b_first b))
           end
  | Susp s => (see (b_step b s i), after (b_step b s i))
  | Fin => (ARaise (RuntimeError "cannot reuse already awaited coroutine"), Fin)
  end.
(** What the caller sees for a sequence of inputs. *)
Fixpoint trace {S} (b : body S) (o : obj S) (l : list inp) : list obs :=
  match l with
  | [] => []
  | i :: l => let (a, o') := resume b o i in a :: trace b o' l
  end.

(** ** Coroutines: log.py 93-120 (_method_wrapper), 140-152 (_function_wrapper) *)

(** Which method: the name decides what is added to the log (95-98, 108-111). *)
Inductive kind := KAenter | KAexit | KMethod | KFunction.
(** 107-118, 145-150: finally. *)
Definition fin_out {S} (k : kind) (post : option exn) (o : out S) : out S :=
  match k, post with KAexit, Some e => ORaise e | _, _ => o end.
(** [return await func(...)]: suspensions are passed on, an end runs the
    finally block. *)
Definition relay {S} (k : kind) (post : option exn) (o : out S) : out S :=
  match o with
  | OAwait x s => OAwait x s
  | OYield v s => OYield v s
  | OReturn v => fin_out k post (OReturn v)
  | ORaise e => fin_out k post (ORaise e)
  end.
Definition wrap_coro {S} (k : kind) (pre post : option exn) (b : body S) : body S :=
  mk_body
    (match k, pre with KAenter, Some e => ORaise e | _, _ => relay k post (b_first b) end)
    (fun s i => relay k post (b_step b s i)).

(** ** Async generators: log.py 71-89 (_asyncgen_wrapper), 122-137
    (_asyncgen_function_wrapper): [async for i in func(): yield i] *)
Inductive gst (S : Type) := GAwait (s : S) | GYield (s : S).
Arguments GAwait {S} _. Arguments GYield {S} _.
Definition grelay {S} (o : out S) : out (gst S) :=
  match o with
  | OAwait x s => OAwait x (GAwait s)
  | OYield v s => OYield v (GYield s)
  | OReturn v => OReturn v
  | ORaise e => ORaise e
  end.
Definition wrap_gen {S} (b : body S) : body (gst S) :=
  mk_body (grelay (b_first b))
    (fun g i =>
      match g with
      | GAwait s => grelay (b_step b s i)
      | GYield s =>
          match i with
          (* the wrapper's own yield: a sent value is dropped *)
          | INext | ISend _ => grelay (b_step b s INext)
          (* an exception is raised in the wrapper *)
          | IThrow e => ORaise e
          | _ => grelay (b_step b s i)
          end
      end).

(** log.py 61-62, 154: the decorator; with [enabled] false it returns the
    function itself. *)
Definition log_method_coro {S} (enabled : bool) (k : kind) (pre post : option exn) (b : body S) : body S :=
  if enabled then wrap_coro k pre post b else b.

(** ** redirect.py 284-288 (read_lines), the async generator that shellous
    decorates: waits for a line (0 stands for end of file), yields it decoded. *)
Inductive rl := RLAwait | RLYield.
Definition read_lines_body (decode : nat -> res nat) : body rl :=
  mk_body (OAwait 0 RLAwait)
    (fun s i =>
      match s, i with
      | RLAwait, IResume 0 => OReturn 0
      | RLAwait, IResume v => match decode v with Ok t => OYield t RLYield | Err e => ORaise e end
      | RLAwait, IThrowIn e => ORaise e
      | RLYield, (IThrow e | IThrowIn e) => ORaise e
      | RLYield, _ => OAwait 0 RLAwait
      | RLAwait, (IThrow e) => ORaise e
      | RLAwait, _ => OAwait 0 RLAwait
      end).

(** ** log.py 207-233 (log_thread): outcome of the thread function and events *)
Inductive tlog := TStarting | TError | TStopping.
Definition log_thread_call {A} (enabled : bool) (r : res A) : list tlog * res A :=
  if enabled then
    match r with
    | Ok v => ([TStarting; TStopping], Ok v)
    | Err e => (TStarting :: (if is_Exception e then [TError] else []) ++ [TStopping], Err e)
    end
  else ([], r).
