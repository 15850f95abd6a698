(** Model of the life cycle of class PipeRunner (shellous/runner.py 991-1242),
    on top of AsyncModel and HarvestModel.

    The main task runs `await pipeline` (run_pipeline) or
    `async with pipeline as run: body`.  The tasks of the table are the command
    tasks (Runner.run_command) and the two ready-futures of _setup_capturing.

    Simplifications:
    - a command task may end in any way at any time (its inside is RunnerModel);
      it sets its ready-future, if it has one, at any time before it ends;
    - asyncio.gather of two futures (Lib/asyncio/tasks.py 731-862) is asyncio.wait
      for both: the futures never hold an exception; if the main task is
      cancelled CancelledError is raised;
    - _setup_pipeline (PipelineModel) is given by its outcome; the streams are a
      flag. *)
From Verif Require Export ResultModel HarvestModel.
Open Scope Z_scope.

Inductive pkind := KCmd (j : nat) | KFut (j : nat).
(** What a task holds: the Result of a command, or the Runner in a future. *)
Inductive pval := PRes (r : result) | PRun (j : nat).

Record px := mk_px {
  p_ended : list nat;                     (* commands whose task is over *)
  p_tasks : list nat;                     (* self._tasks *)
  p_cancelled : bool;                     (* self._cancelled *)
  p_results : option (list (tout pval));  (* self._results *)
  p_ready : bool;                         (* self.stdin, stdout, stderr are set *)
  p_closed : nat                          (* calls of close_fds(open_fds), runner.py 1156 *)
}.
Definition px0 : px := mk_px [] [] false None false 0.
Definition set_tasks v x := mk_px (p_ended x) v (p_cancelled x) (p_results x) (p_ready x) (p_closed x).
Definition set_pcancelled x := mk_px (p_ended x) (p_tasks x) true (p_results x) (p_ready x) (p_closed x).
Definition set_results v x := mk_px (p_ended x) (p_tasks x) (p_cancelled x) (Some v) (p_ready x) (p_closed x).
Definition set_ready x := mk_px (p_ended x) (p_tasks x) (p_cancelled x) (p_results x) true (p_closed x).
Definition closed_again x := mk_px (p_ended x) (p_tasks x) (p_cancelled x) (p_results x) (p_ready x) (S (p_closed x)).
Definition set_ended v x := mk_px v (p_tasks x) (p_cancelled x) (p_results x) (p_ready x) (p_closed x).

(** The only other event: somebody cancels the main task. *)
Definition pstep (x : px) (e : unit) : option (px * bool) := Some (x, true).
(** runner.py 968-989: run_command sets its future from inside its `async with`
    block, so before its own task ends. *)
Definition pfinish (x : px) (t : task pkind pval) (o : tout pval) : option px :=
  match t_kind t, o with
  | KCmd j, TValue (PRes _) | KCmd j, TFail _ | KCmd j, TCancelled => Some (set_ended (j :: p_ended x) x)
  | KCmd _, TValue (PRun _) => None
  | KFut j, TValue (PRun k) => if Nat.eqb j k && negb (existsb (Nat.eqb j) (p_ended x)) then Some x else None
  | KFut _, _ => None
  end.

Notation world := (world px pkind pval).
Notation M := (@M px pkind pval).
Notation harvest_results := (harvest_results pstep pfinish).
Notation await_wait := (await_wait pstep pfinish).
Notation "m1 ;; m2" := (bindM m1 (fun _ => m2)) (at level 100, right associativity).

Definition is_cancelled (e : exn) : bool := match e with CancelledError => true | _ => false end.
Definition when (b : bool) (m : M unit) : M unit := if b then m else ret tt.

(** runner.py 1063-1072: add_task. *)
Definition add_task (k : pkind) : M unit :=
  bindM (spawn k) (fun i => modx (fun x => set_tasks (p_tasks x ++ [i]) x)).

(** runner.py 1075-1088: _wait. *)
Definition wait (kill : bool) : M unit :=
  bindM (getx p_results) (fun r => assertM (match r with None => true | Some _ => false end)) ;;
  bindM (getx p_tasks) (fun ts =>
  when kill (for_ ts cancel_task) ;;
  bindM (harvest_results (map AwTask ts) false) (fun cr =>
  modx (set_results (snd cr)) ;;
  when (fst cr) (modx set_pcancelled) ;;
  modx (set_tasks []))).

(** runner.py 1180-1208: _setup_capturing; [n] is the number of commands. *)
Definition setup_capturing (n : nat) : M unit :=
  bindM (spawn (KFut 0)) (fun first_fut =>
  bindM (spawn (KFut (n - 1))) (fun last_fut =>
  add_task (KCmd 0) ;;
  for_ (seq 1 (n - 2)) (fun j => add_task (KCmd j)) ;;
  add_task (KCmd (n - 1)) ;;
  await_wait [first_fut; last_fut] false ALL_COMPLETED ;;
  ret tt)).

(** runner.py 1130-1157: _start; [setup] is the outcome of _setup_pipeline. *)
Definition start (n : nat) (setup : res unit) (capturing : bool) : M unit :=
  tryM (bindM (match setup with Ok _ => ret tt | Err e => raise e end) (fun _ =>
        (if capturing then setup_capturing n else for_ (seq 0 n) (fun j => add_task (KCmd j))) ;;
        modx set_ready))
       (fun e => Some (modx closed_again ;; raise e)).

(** runner.py 1090-1101: __aenter__. *)
Definition aenter (n : nat) (setup : res unit) (capturing : bool) : M unit :=
  tryM (start n setup capturing)
       (fun e => if is_Exception e || is_cancelled e
                 then Some (when (is_cancelled e) (modx set_pcancelled) ;; wait true ;; raise e)
                 else None).

(** runner.py 1116-1128: _finish. *)
Definition finish (exc : option exn) : M bool :=
  match exc with
  | Some e => when (is_cancelled e) (modx set_pcancelled) ;; wait true ;; getx p_cancelled
  | None => wait false ;; ret false
  end.
(** runner.py 1103-1114: __aexit__. *)
Definition aexit (exc : option exn) : M bool :=
  tryM (finish exc) (fun e => if is_cancelled e then Some (modx set_pcancelled ;; ret false) else None).

(** The body of the `async with`: it may wait and end in any way. *)
Inductive body_steps : world -> world -> Prop :=
| bs_refl w : body_steps w w
| bs_env w ev w1 c w2 : env_step pstep pfinish w ev = Some (w1, c) -> body_steps w1 w2 -> body_steps w w2.
Definition any_body : M unit := fun w r w' => body_steps w w'.
(** `async with PipeRunner(...): body` (the language's rules for `with`). *)
Definition with_pipe (n : nat) (setup : res unit) (capturing : bool) (body : M unit) : M unit :=
  aenter n setup capturing ;;
  fun w r w' => exists rb w1, body w rb w1 /\
    match rb with
    | Ok _ => (aexit None ;; ret tt) w1 r w'
    | Err e => bindM (aexit (Some e)) (fun b => if b then ret tt else raise e) w1 r w'
    end.

(** An entry of self._results (harvest.py 204-214). *)
Definition entry (o : tout pval) : outcome :=
  match o with
  | TValue (PRes r) => ORes r
  | TValue (PRun _) => OExn (OtherError 0)
  | TFail e => OExn e
  | TCancelled => OExn CancelledError
  end.
(** runner.py 1053-1061: result(). *)
Definition presult (o : opts) : M result :=
  bindM (getx p_results) (fun rs =>
  match rs with
  | None => raise AssertionError
  | Some l => bindM (getx p_cancelled) (fun c =>
      match pipe_run_result (map entry l) o c with Ok r => ret r | Err e => raise e end)
  end).
(** runner.py 1232-1242: run_pipeline, up to the choice of the value
    (ResultModel.await_value); [o] are the options of the last command. *)
Definition run_pipeline (n : nat) (setup : res unit) (o : opts) : M result :=
  with_pipe n setup false (ret tt) ;; presult o.

(** Nothing has happened yet. *)
Definition pw0 : world := mk_world [] px0 [].
