(** Model of class Prompt (shellous/prompt.py 23-614), on top of AsyncModel,
    HarvestModel, EncodingModel and RegexModel.

    The main task is the one that uses the Prompt, one operation at a time.  The
    tasks of the table are the coroutines given to harvest_results:
    _read_to_pattern, _read_some and _drain.

    The co-process: [p_src] is everything it will still write to its standard
    output before closing it, [p_buf] what the StreamReader has received and
    nobody has read.  How much arrives when is up to the environment.  (For an
    interactive co-process, whose output depends on what it is sent, take the
    output of the execution considered: the theorems hold for every [p_src].)

    Simplifications:
    - the encodings are those of EncodingModel ([c_codec] and [c_errors] are what
      parse_encoding makes of the encoding option);
    - StreamReader.read (Lib/asyncio/streams.py 679-716): takes at most
      chunk_size bytes of the buffer; waits only if it is empty; a reader that is
      cancelled while waiting takes nothing;
    - the readers are cancelled only by Prompt's own code (their tasks are not
      reachable by anybody else);  a reading task that is asked to cancel may
      still read in the model (never match), which asyncio excludes;
    - stdout.read itself does not raise, and nobody else reads stdout;
    - timeouts: only whether there is one (AsyncModel);
    - logging: only that of _log_send and _wait_no_echo, with SHELLOUS_TRACE
      "prompt" enabled. *)
From Verif Require Export EncodingModel RegexModel HarvestModel.
Open Scope Z_scope.

(** What a reading coroutine does: search for a pattern, or just read. *)
Inductive reader := RPattern (p : pattern) | RSome.
Inductive rkind := KReadPattern (id : nat) | KReadSome (id : nat) | KDrain (id : nat).
Inductive rval := VMatch (out m : text) | VNone.

(** Observable effects on the co-process' input, and log lines. *)
Inductive sendev :=
| SPoll (echo : bool)                   (* the echo mode was read *)
| SWrite (d : bytes)                    (* stdin.write *)
| SClose                                (* stdin.close *)
| SLogWait                              (* "wait: no_echo" *)
| SLogHidden                            (* "send: [[HIDDEN]]" *)
| SLogData (n : nat) (shown : bytes).   (* "send: [n B] ..." *)

Record px := mk_px {
  p_pending : text;                     (* self._pending *)
  p_eof : bool;                         (* self._at_eof *)
  p_dec : idec;                         (* self._decoder *)
  p_buf : bytes;                        (* received by stdout, not read *)
  p_src : bytes;                        (* not yet received *)
  p_feof : bool;                        (* stdout.feed_eof() was called *)
  p_active : option (nat * reader);     (* the coroutine that reads stdout *)
  p_next : nat;                         (* fresh names for them *)
  p_drain : option (option exn);        (* stdin.drain(): blocks, returns, raises *)
  p_echo : option bool;                 (* terminal echo mode; None: no pty *)
  p_sent : list sendev
}.
Definition set_pending v x := mk_px v (p_eof x) (p_dec x) (p_buf x) (p_src x) (p_feof x) (p_active x) (p_next x) (p_drain x) (p_echo x) (p_sent x).
Definition set_active v x := mk_px (p_pending x) (p_eof x) (p_dec x) (p_buf x) (p_src x) (p_feof x) v (p_next x) (p_drain x) (p_echo x) (p_sent x).
Definition add_sent v x := mk_px (p_pending x) (p_eof x) (p_dec x) (p_buf x) (p_src x) (p_feof x) (p_active x) (p_next x) (p_drain x) (p_echo x) (p_sent x ++ v).

(** The settings of a Prompt (prompt.py 64-92); [c_chunk] is _chunk_size > 0. *)
Record settings := { c_default : option pattern; c_timeout : option Z; c_chunk : nat; c_log : bool; c_pty_eof : option bytes;
  c_codec : codec; c_errors : errors (* runner.options.encoding *) }.

Section Prompt.
Context (cfg : settings).

(** chunk = await stdout.read(self._chunk_size), at_eof, self._decoder.decode;
    None: it has to wait.  The decoded data, or UnicodeDecodeError (the chunk is
    gone, the decoder unchanged). *)
Definition read_chunk (x : px) : option (px * option text) :=
  let chunk := firstn (c_chunk cfg) (p_buf x) in
  match p_buf x, p_feof x with
  | [], false => None
  | _, _ =>
      let eof := match chunk with [] => true | _ => false end in
      let x1 dec := mk_px (p_pending x) eof dec (skipn (c_chunk cfg) (p_buf x)) (p_src x) (p_feof x) (p_active x) (p_next x) (p_drain x) (p_echo x) (p_sent x) in
      match idec_decode (c_codec cfg) (c_errors cfg) (p_dec x) chunk eof with
      | None => Some (x1 (p_dec x), None)
      | Some (data, dec) => Some (x1 dec, Some data)
      end
  end.

(** prompt.py 472-495: _search_pending. *)
Definition search_pending (p : pattern) (x : px) : option (px * (text * text)) :=
  match p (p_pending x) with
  | Some (s, e) => Some (set_pending (skipn e (p_pending x)) x, (firstn s (p_pending x), firstn (e - s) (skipn s (p_pending x))))
  | None => None
  end.

(** prompt.py 442-470: one round of the loop in _read_to_pattern: go on, or the
    coroutine ends. *)
Definition pattern_round (p : pattern) (x : px) : option (px * option (tout rval)) :=
  match read_chunk x with
  | None => None
  | Some (x1, None) => Some (x1, Some (TFail UnicodeError))
  | Some (x1, Some data) =>
      match data, p_eof x1 with
      | [], false => Some (x1, None)
      | _, _ =>
          let x2 := set_pending (p_pending x1 ++ data) x1 in
          match search_pending p x2 with
          | Some (x3, (o, m)) => Some (x3, Some (TValue (VMatch o m)))
          | None => Some (x2, if p_eof x1 then Some (TFail EOFError) else None)
          end
      end
  end.
(** prompt.py 521-538: one round of the loop in _read_some. *)
Definition some_round (x : px) : option (px * option (tout rval)) :=
  match read_chunk x with
  | None => None
  | Some (x1, None) => Some (x1, Some (TFail UnicodeError))
  | Some (x1, Some data) =>
      Some (set_pending (p_pending x1 ++ data) x1, if p_eof x1 then Some (TValue VNone) else None)
  end.
Definition round (r : reader) (x : px) : option (px * option (tout rval)) :=
  match r with RPattern p => pattern_round p x | RSome => some_round x end.

(** The environment.  [PDrain]: whether stdin.drain() would wait, return or raise
    changes; a broken pipe stays broken.  [PReaderDone]: the reading task inside _drain ends (at the
    end of file or with an exception nobody looks at). *)
Inductive pev := PFeed (n : nat) | PFeedEof | PRead | PReaderDone | PDrain (d : option (option exn)) | PEcho (b : bool) | PCancel.
Definition pstep (x : px) (e : pev) : option (px * bool) :=
  match e with
  | PFeed n =>
      if p_feof x then None
      else Some (mk_px (p_pending x) (p_eof x) (p_dec x) (p_buf x ++ firstn n (p_src x)) (skipn n (p_src x)) (p_feof x) (p_active x) (p_next x) (p_drain x) (p_echo x) (p_sent x), false)
  | PFeedEof =>
      match p_src x with
      | [] => Some (mk_px (p_pending x) (p_eof x) (p_dec x) (p_buf x) [] true (p_active x) (p_next x) (p_drain x) (p_echo x) (p_sent x), false)
      | _ => None
      end
  | PRead =>
      match p_active x with
      | Some (_, r) => if p_eof x then None
                       else match round r x with Some (x', None) => Some (x', false) | _ => None end
      | None => None
      end
  | PReaderDone =>
      match p_active x with
      | Some (_, RSome) =>
          if p_eof x then Some (set_active None x, false)
          else match round RSome x with Some (x', Some _) => Some (set_active None x', false) | _ => None end
      | _ => None
      end
  | PDrain d =>
      match p_drain x with
      | Some (Some _) => None
      | _ => Some (mk_px (p_pending x) (p_eof x) (p_dec x) (p_buf x) (p_src x) (p_feof x) (p_active x) (p_next x) d (p_echo x) (p_sent x), false)
      end
  | PEcho b =>
      match p_echo x with
      | Some _ => Some (mk_px (p_pending x) (p_eof x) (p_dec x) (p_buf x) (p_src x) (p_feof x) (p_active x) (p_next x) (p_drain x) (Some b) (p_sent x), false)
      | None => None
      end
  | PCancel => Some (x, true)
  end.

Definition is_active (x : px) (id : nat) : bool := match p_active x with Some (i, _) => Nat.eqb i id | None => false end.
Definition deactivate (id : nat) (x : px) : px := if is_active x id then set_active None x else x.
(** The exceptions stdin.drain() is taken to raise. *)
Definition same_error (a b : exn) : bool :=
  match a, b with
  | BrokenPipeError, BrokenPipeError | ConnectionResetError, ConnectionResetError | OSError, OSError => true
  | _, _ => false
  end.
(** How the coroutines end.  A coroutine that was asked to cancel gets
    CancelledError at its next step. *)
Definition pfinish (x : px) (t : task rkind rval) (o : tout rval) : option px :=
  match t_kind t with
  | KReadPattern id | KReadSome id =>
      match t_creq t, o with
      | S _, TCancelled => Some (deactivate id x)
      | O, TCancelled | S _, _ => None
      | O, _ =>
          if is_active x id then
            match p_active x with
            | Some (_, r) =>
                if p_eof x then None else
                match round r x, o with
                | Some (x', Some (TValue (VMatch a b))), TValue (VMatch a' b') =>
                    if list_eq_dec Z.eq_dec a a' then if list_eq_dec Z.eq_dec b b' then Some (set_active None x') else None else None
                | Some (x', Some (TValue VNone)), TValue VNone => Some (set_active None x')
                | Some (x', Some (TFail UnicodeError)), TFail UnicodeError => Some (set_active None x')
                | Some (x', Some (TFail EOFError)), TFail EOFError => Some (set_active None x')
                | _, _ => None
                end
            | None => None
            end
          else None
      end
  (* prompt.py 497-508: _drain: when stream.drain() is over, a reader that is
     not done is cancelled and awaited, which raises CancelledError. *)
  | KDrain id =>
      match t_creq t, o with
      | S _, TCancelled => Some (deactivate id x)
      | S _, _ => None
      | O, TCancelled => match p_drain x with Some _ => if is_active x id then Some (deactivate id x) else None | None => None end
      | O, TValue VNone => match p_drain x with Some None => if is_active x id then None else Some x | _ => None end
      | O, TFail e => match p_drain x with
                      | Some (Some e') => if is_active x id then None else if same_error e e' then Some x else None
                      | _ => None end
      | O, TValue (VMatch _ _) => None
      end
  end.

Notation world := (world px rkind rval).
Notation M := (@M px rkind rval).
Notation harvest_results := (harvest_results pstep pfinish).
Notation await_yield := (await_yield pstep pfinish).
Local Notation "m1 ;; m2" := (bindM m1 (fun _ => m2)) (at level 100, right associativity).

(** A new coroutine that will read stdout. *)
Definition new_reader (r : reader) : M nat :=
  bindM (getx p_next) (fun id =>
  modx (fun x => mk_px (p_pending x) (p_eof x) (p_dec x) (p_buf x) (p_src x) (p_feof x) (Some (id, r)) (S id) (p_drain x) (p_echo x) (p_sent x)) ;;
  ret id).
(** `timeout or self._default_timeout`: is there a timeout? *)
Definition has_timeout (t : option Z) : bool :=
  match t with
  | Some z => if z =? 0 then match c_timeout cfg with Some _ => true | None => false end else true
  | None => match c_timeout cfg with Some _ => true | None => false end
  end.
(** `if cancelled: raise CancelledError`, `if isinstance(ex, Exception): raise ex`
    (prompt.py 202-205, 325-328, 345-348); the rest of the function gets the
    value, or an exception object that is not an Exception. *)
Definition check_results (cr : bool * list (tout rval)) : M (tout rval) :=
  if fst cr then raise CancelledError
  else match snd cr with
       | [TFail e] => if is_Exception e then raise e else ret (TFail e)
       | [o] => ret o
       | _ => raise (ValueError "unpack")
       end.

(** prompt.py 207-330: expect; [p] is the compiled pattern argument. *)
Definition expect (p : option pattern) (timeout : option Z) : M (text * text) :=
  match (match p with Some q => Some q | None => c_default cfg end) with
  | None => raise (TypeError "prompt is required when default prompt is not set")
  | Some q =>
      bindM getM (fun w =>
      match (match p_pending (w_x w) with [] => None | _ => search_pending q (w_x w) end) with
      | Some (x', om) => modx (fun _ => x') ;; ret om
      | None =>
          if p_eof (w_x w) then raise EOFError
          else bindM (new_reader (RPattern q)) (fun id =>
               bindM (harvest_results [AwCoro (KReadPattern id)] (has_timeout timeout)) (fun cr =>
               bindM (check_results cr) (fun o =>
               match o with
               | TValue (VMatch a b) => ret (a, b)
               | _ => raise (TypeError "cannot unpack")   (* an exception object or None is returned *)
               end)))
      end)
  end.

(** prompt.py 353-362: read_pending. *)
Definition read_pending : M text :=
  bindM (getx p_pending) (fun t => modx (set_pending []) ;; ret t).

(** prompt.py 332-351: read_all. *)
Definition read_all (timeout : option Z) : M text :=
  bindM (getx p_eof) (fun eof =>
  (if eof then ret tt
   else bindM (new_reader RSome) (fun id =>
        bindM (harvest_results [AwCoro (KReadSome id)] (has_timeout timeout)) (fun cr =>
        check_results cr ;; ret tt))) ;;
  read_pending).

(** prompt.py 104-114: the echo property. *)
Definition echo_on (x : px) : bool := match p_echo x with Some b => b | None => false end.
(** prompt.py 540-550: _wait_no_echo; [n] polls are left. *)
Fixpoint poll_echo (n : nat) : M unit :=
  match n with
  | O => raise (RuntimeError "Timed out: Terminal echo mode remains enabled.")
  | S n' =>
      bindM (getx echo_on) (fun e =>
      modx (add_sent [SPoll e]) ;;
      if e then await_yield ;; poll_echo n' else ret tt)
  end.
Definition wait_no_echo : M unit :=
  (if c_log cfg then modx (add_sent [SLogWait]) else ret tt) ;; poll_echo (4 * 30).

(** prompt.py 552-574: _log_send. *)
Definition log_limit : nat := 2000.
Definition log_limit_end : nat := 30.
Definition log_send (d : bytes) (no_echo : bool) : M unit :=
  modx (add_sent [if no_echo then SLogHidden
                  else SLogData (List.length d)
                         (if (log_limit <? List.length d)%nat
                          then firstn (log_limit - log_limit_end) d ++ skipn (List.length d - log_limit_end) d
                          else d)]).

(** prompt.py 147-205: send; [text] is bytes or str, [ending] the end argument
    with None as "". *)
Definition send_data (txt : bytes + text) (ending : text) : option bytes :=
  match txt with
  | inl b => match encode (c_codec cfg) (c_errors cfg) ending with Some e => Some (b ++ e) | None => None end
  | inr t => encode (c_codec cfg) (c_errors cfg) (t ++ ending)
  end.
Definition send (txt : bytes + text) (ending : text) (no_echo : bool) (timeout : option Z) : M unit :=
  (if no_echo then wait_no_echo else ret tt) ;;
  match send_data txt ending with
  | None => raise UnicodeError
  | Some d =>
      modx (add_sent [SWrite d]) ;;
      (if c_log cfg then log_send d no_echo else ret tt) ;;
      bindM (new_reader RSome) (fun id =>
      bindM (harvest_results [AwCoro (KDrain id)] (has_timeout timeout)) (fun cr =>
      check_results cr ;; ret tt))
  end.

(** prompt.py 364-397: command. *)
Definition command (txt : text) (ending : text) (no_echo : bool) (p : option pattern) (timeout : option Z) (allow_eof : bool) : M text :=
  bindM (getx p_eof) (fun eof =>
  if eof then raise EOFError
  else send (inr txt) ending no_echo timeout ;;
       tryM (bindM (expect p timeout) (fun om => ret (fst om)))
            (fun e => match e with
                      | EOFError => Some (if allow_eof then read_pending else raise EOFError)
                      | _ => None
                      end)).

(** prompt.py 399-414: close. *)
Definition close : M unit :=
  match c_pty_eof cfg with
  | Some (b :: e) => modx (add_sent [SWrite ((b :: e) ++ (b :: e))])
  | _ => modx (add_sent [SClose])
  end.
End Prompt.

(** A new Prompt on a co-process that will write [src]. *)
Definition prompt_world (normalize : bool) (src : bytes) (echo : option bool) : world px rkind rval :=
  mk_world [] (mk_px [] false (make_idec normalize) [] src false None 0 None echo []) [].
