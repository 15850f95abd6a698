(** Model of shellous/result.py and of the methods of runner.py that turn a
    finished run into a value or an exception.

    Simplifications: [encoding] is kept as text and decoding of the output is
    a parameter ([dec], see Utf8Model for UTF-8). *)
From Verif Require Export CommandModel PipelineModel.
Open Scope Z_scope.

(** One entry of the list from [harvest_results]: a Result or an exception
    object (possibly a ResultError). *)
Inductive outcome := ORes (r : result) | OExn (e : exn).

(** result.py 44-47: Result.output. *)
Definition result_output (dec : text -> bytes -> option text) (r : result) : res text :=
  match dec (r_encoding r) (r_output r) with Some t => Ok t | None => Err UnicodeError end.

(** result.py 54-59: Result.exit_signal; [known] are the numbers in the
    enumeration signal.Signals of the platform ([signal.Signals(n)] raises
    ValueError for other numbers). *)
Definition exit_signal (known : list Z) (r : result) : res (option Z) :=
  if r_exit r >=? 0 then Ok None
  else if existsb (Z.eqb (- r_exit r)) known then Ok (Some (- r_exit r))
  else Err (ValueError "is not a valid Signals").
(** signal.Signals on Linux: 1..31, SIGRTMIN = 34 and SIGRTMAX = 64. *)
Definition linux_signals : list Z :=
  [1;2;3;4;5;6;7;8;9;10;11;12;13;14;15;16;17;18;19;20;21;22;23;24;25;26;27;28;29;30;31;34;64].

(** result.py 61-63: Result.__bool__. *)
Definition result_bool (r : result) : bool := r_exit r =? 0.

(** result.py 144-148: _get_result. *)
Definition get_result (o : outcome) : res result :=
  match o with
  | OExn (ResultError r) => Ok r
  | ORes r => Ok r
  | OExn _ => Err AssertionError
  end.

(** Python's comparison of a pair of booleans, (a1,a2) >= (b1,b2). *)
Definition pair_ge (a b : bool * bool) : bool :=
  let n (p : bool) := if p then 1 else 0 in
  if n (fst a) =? n (fst b) then n (snd a) >=? n (snd b) else n (fst a) >=? n (fst b).

(** result.py 134-141: _compare_result (the second component of [item_key]
    looks at [acc], as in the code). *)
Definition compare_result (acc : option result) (item : result) : result :=
  match acc with
  | None => item
  | Some a =>
      let acc_key := (negb (r_cancelled a), negb (r_exit a =? 0)) in
      let item_key := (negb (r_cancelled item), negb (r_exit a =? 0)) in
      if pair_ge item_key acc_key then item else a
  end.

(** result.py 117-131: _find_key_result. *)
Fixpoint find_key (l : list outcome) (acc : option result) : res result :=
  match l with
  | [] => match acc with Some a => Ok a | None => Err (RuntimeError "empty result") end
  | o :: l' =>
      match get_result o with
      | Ok item =>
          let a := compare_result acc item in
          if negb (r_cancelled a) && negb (r_exit a =? 0) then Ok a
          else find_key l' (Some a)
      | Err e => Err e
      end
  end.

(** result.py 72-80: the other exceptions, in order. *)
Definition other_ex (l : list outcome) : list exn :=
  flat_map (fun o => match o with
    | OExn e => if is_Exception e && negb (is_ResultError e) then [e] else []
    | ORes _ => [] end) l.

(** result.py 66-95: convert_result_list ([result_list[-1]] is only evaluated
    after _find_key_result has refused an empty list). *)
Definition convert_result_list (l : list outcome) (cancelled : bool) : res result :=
  match other_ex l with
  | e :: _ => Err e
  | [] =>
      match find_key l None with
      | Ok key =>
          match get_result (List.last l (OExn (OtherError 0))) with
          | Ok la => Ok {| r_exit := r_exit key; r_output := r_output la; r_error := r_error key;
                             r_cancelled := cancelled; r_encoding := r_encoding la |}
          | Err e => Err e
          end
      | Err e => Err e
      end
  end.

(** Python truth of a set or range, and the [in] operator. *)
Definition container_truth (c : container) : bool :=
  match c with CSet [] => false | CSet _ => true | CRange lo hi => lo <? hi end.
Definition container_in (z : Z) (c : container) : bool :=
  match c with CSet l => existsb (Z.eqb z) l | CRange lo hi => (lo <=? z) && (z <? hi) end.

(** result.py 98-114: check_result. *)
Definition check_result (r : result) (o : opts) (cancelled timed_out : bool) : res result :=
  if cancelled && negb (o_catch_cancelled o) then Err CancelledError
  else
    let codes := match o_exit_codes o with
                 | Some c => if container_truth c then c else CSet [0]
                 | None => CSet [0]
                 end in
    if (cancelled && negb timed_out) || negb (container_in (r_exit r) codes) then Err (ResultError r)
    else Ok r.

(** runner.py 477-499: Runner.result(); [code] is Runner.returncode. *)
Definition runner_result (code : option Z) (out err : option bytes) (enc : text) (o : opts)
           (cancelled timed_out check : bool) : res result :=
  match code with
  | None => Err (TypeError "Runner.result(): Process has not exited")
  | Some z =>
      let r := {| r_exit := z; r_output := match out with Some b => b | None => [] end;
                  r_error := match err with Some b => b | None => [] end;
                  r_cancelled := cancelled; r_encoding := enc |} in
      if check then check_result r o cancelled timed_out else Ok r
  end.

(** runner.py 1053-1061: PipeRunner.result(check=True); [o] are the options of
    the last command. *)
Definition pipe_run_result (l : list outcome) (o : opts) (cancelled : bool) : res result :=
  match convert_result_list l cancelled with
  | Ok r => check_result r o cancelled false
  | other => other
  end.

(** runner.py 985-988 and 1238-1241: what awaiting a command or pipeline gives
    once [result()] has been computed: the Result itself, or its output as text. *)
Inductive awaited := AResult (r : result) | AText (t : text).
Definition await_value (dec : text -> bytes -> option text) (o : opts) (x : res result) : res awaited :=
  match x with
  | Ok r => if o_return_result o then Ok (AResult r)
             else match result_output dec r with
                  | Ok t => Ok (AText t) | Err e => Err e
                  end
  | Err e => Err e
  end.
(** The entry of a member command in the pipeline's result list: the value or
    exception of its task (runner.py 1176 sets _return_result; harvest.py
    200-212 _to_result, for exceptions it does not re-raise). *)
Definition task_outcome (x : res result) : outcome :=
  match x with Ok r => ORes r | Err e => OExn e end.
