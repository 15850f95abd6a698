(** Model of the copying coroutines of redirect.py (115-288), of
    _set_position (runner.py 1288-1299) and of the parts of asyncio's
    StreamReader they use (Python 3.11 asyncio/streams.py 499-578, 630-669,
    693-720; asyncio itself is not part of /repo and is trusted to behave like
    this).

    Simplifications:
    - A StreamReader is its buffer, the groups of bytes that will arrive, one
      group per moment at which the reading coroutine looks at the buffer
      (groups may be empty), and how the stream ends.
    - Flow control (pause_reading) is omitted: it only affects arrival times.
    - StringIO performs no newline translation (its default). *)
From Verif Require Export Base.
Open Scope Z_scope.

(** * asyncio.StreamReader *)
Inductive ending :=
| EndEof                 (* feed_eof() *)
| EndExc (e : exn)       (* set_exception(): a reading error *)
| EndCancel.             (* the reading task is cancelled while it waits *)
Record sreader := { sr_buf : bytes; sr_in : list bytes; sr_end : ending }.
Definition sr_data (r : sreader) : bytes := sr_buf r ++ List.concat (sr_in r).

(** redirect.py 17; default limit of asyncio streams (streams.py 24) *)
Definition CHUNK_SIZE : nat := Z.to_nat 8192.
Definition LIMIT : nat := Z.to_nat 65536.

(** streams.py 712-720: wait until the buffer is not empty, or EOF. *)
Fixpoint wait_data (buf : bytes) (ins : list bytes) (e : ending) : (bytes * list bytes) + res bytes :=
  match buf with
  | _ :: _ => inl (buf, ins)
  | [] => match ins with
          | g :: ins' => wait_data g ins' e
          | [] => inr (match e with EndEof => Ok [] | EndExc x => Err x | EndCancel => Err CancelledError end)
          end
  end.
(** streams.py 671-720: StreamReader.read(n), n > 0. *)
Definition sread (n : nat) (r : sreader) : res bytes * sreader :=
  match sr_in r, sr_end r with
  | [], EndExc x => (Err x, r)                     (* line 693 *)
  | ins, e =>
      let buf := sr_buf r ++ hd [] ins in
      match wait_data buf (tl ins) e with
      | inl (b, ins') => (Ok (firstn n b), {| sr_buf := skipn n b; sr_in := ins'; sr_end := e |})
      | inr x => (x, {| sr_buf := []; sr_in := []; sr_end := e |})
      end
  end.

(** streams.py 549-578, 630-669: readline() with its limit. *)
Fixpoint find_nl (b : bytes) : option nat :=
  match b with
  | [] => None
  | x :: r => if x =? 10 then Some 0%nat else match find_nl r with Some n => Some (S n) | None => None end
  end.
Fixpoint until_nl (limit : nat) (buf : bytes) (ins : list bytes) (e : ending) : res bytes * sreader :=
  match find_nl buf with
  | Some i =>
      if (limit <? i)%nat
      then (Err (ValueError "Separator is found, but chunk is longer than limit"),
            {| sr_buf := skipn (S i) buf; sr_in := ins; sr_end := e |})
      else (Ok (firstn (S i) buf), {| sr_buf := skipn (S i) buf; sr_in := ins; sr_end := e |})
  | None =>
      if (limit <? List.length buf)%nat
      then (Err (ValueError "Separator is not found, and chunk exceed the limit"),
            {| sr_buf := []; sr_in := ins; sr_end := e |})
      else match ins with
           | g :: ins' => until_nl limit (buf ++ g) ins' e
           | [] => match e with
                   | EndEof => (Ok buf, {| sr_buf := []; sr_in := []; sr_end := e |})
                   | EndExc x => (Err x, {| sr_buf := buf; sr_in := []; sr_end := e |})
                   | EndCancel => (Err CancelledError, {| sr_buf := buf; sr_in := []; sr_end := e |})
                   end
           end
  end.
Definition sreadline (limit : nat) (r : sreader) : res bytes * sreader :=
  match sr_in r, sr_end r with
  | [], EndExc x => (Err x, r)
  | ins, e => until_nl limit (sr_buf r ++ hd [] ins) (tl ins) e
  end.

(** What successive calls of [rd] return, up to the empty answer (end of file)
    or an exception: the control structure of every loop below,
    "while True: data = await source.read(n); if not data: break" and
    "async for line in source". *)
Inductive answers (rd : sreader -> res bytes * sreader) : sreader -> list bytes -> option exn -> Prop :=
| ans_eof r r' : rd r = (Ok [], r') -> answers rd r [] None
| ans_exc r r' e : rd r = (Err e, r') -> answers rd r [] (Some e)
| ans_data r r' d ds e : rd r = (Ok d, r') -> d <> [] -> answers rd r' ds e -> answers rd r (d :: ds) e.

(** * Sinks *)
(** io.BytesIO / io.StringIO: contents and position; write at the position. *)
Record mem := { m_data : list Z; m_pos : nat }.
Definition mem_write (m : mem) (d : list Z) : mem := {|
  m_data := firstn (m_pos m) (m_data m) ++ repeat 0 (m_pos m - List.length (m_data m))
            ++ d ++ skipn (m_pos m + List.length d) (m_data m);
  m_pos := m_pos m + List.length d |}.

(** runner.py 1288-1299: _set_position *)
Definition set_position_mem (append : bool) (m : mem) : mem :=
  if append then {| m_data := m_data m; m_pos := List.length (m_data m) |}
  else {| m_data := []; m_pos := 0 |}.
Definition set_position_bytearray (append : bool) (b : bytes) : bytes := if append then b else [].

(** * Copying. Each function takes the answers of the source (chunks and the
    exception that ended them, if any) and the sink, and gives the sink and
    the exception that leaves the coroutine. *)

(** redirect.py 223-231: copy_bytesio *)
Fixpoint copy_bytesio (ds : list bytes) (e : option exn) (m : mem) : mem * option exn :=
  match ds with
  | [] => (m, e)
  | d :: ds' => copy_bytesio ds' e (mem_write m d)
  end.
(** redirect.py 234-242: copy_bytearray *)
Fixpoint copy_bytearray (ds : list bytes) (e : option exn) (b : bytes) : bytes * option exn :=
  match ds with
  | [] => (b, e)
  | d :: ds' => copy_bytearray ds' e (b ++ d)
  end.
(** redirect.py 245-268: copy_bytearray_limit; also counts the reads made. *)
Fixpoint discard (ds : list bytes) (e : option exn) : option exn * nat :=
  match ds with [] => (e, 1%nat) | _ :: ds' => let (x, n) := discard ds' e in (x, S n) end.
Fixpoint copy_limit_loop (ds : list bytes) (e : option exn) (limit : nat) (b : bytes) : bytes * option exn * nat :=
  match ds with
  | [] => (b, e, 1%nat)
  | d :: ds' =>
      let b' := b ++ d in
      if (limit <? List.length b')%nat
      then let (x, n) := discard ds' e in (firstn limit b', x, S n)
      else let '(b2, x, n) := copy_limit_loop ds' e limit b' in (b2, x, S n)
  end.
Definition copy_bytearray_limit (ds : list bytes) (e : option exn) (limit : Z) (b : bytes) : bytes * option exn * nat :=
  if limit <? 0 then (b, Some AssertionError, 0%nat) else copy_limit_loop ds e (Z.to_nat limit) b.

(** redirect.py 190-208: copy_stringio. [dec] is decode_bytes(_, encoding). *)
Fixpoint collect (ds : list bytes) (buf : bytes) : bytes :=
  match ds with [] => buf | d :: ds' => collect ds' (buf ++ d) end.
Definition copy_stringio (dec : bytes -> option text) (ds : list bytes) (e : option exn) (m : mem) : mem * option exn :=
  match dec (collect ds []) with       (* in the finally block *)
  | Some t => (mem_write m t, e)
  | None => (m, Some UnicodeError)
  end.

(** redirect.py 283-287: read_lines; the lines yielded and how it ends. *)
Fixpoint read_lines (dec : bytes -> option text) (ds : list bytes) (e : option exn) : list text * option exn :=
  match ds with
  | [] => ([], e)
  | d :: ds' => match dec d with
                | None => ([], Some UnicodeError)
                | Some t => let (l, x) := read_lines dec ds' e in (t :: l, x)
                end
  end.
(** redirect.py 211-220: copy_logger; the messages logged. str.rstrip() *)
Fixpoint rstrip (space : Z -> bool) (t : text) : text :=
  match t with
  | [] => []
  | x :: r => match rstrip space r with
              | [] => if space x then [] else [x]
              | r' => x :: r'
              end
  end.
Fixpoint copy_logger (space : Z -> bool) (dec : bytes -> option text) (ds : list bytes) (e : option exn) : list text * option exn :=
  match ds with
  | [] => ([], e)
  | d :: ds' => match dec d with
                | None => ([], Some UnicodeError)
                | Some t => let (l, x) := copy_logger space dec ds' e in (rstrip space t :: l, x)
                end
  end.

(** * Writers *)
Inductive wevent := Write (b : bytes) | Close | WaitClosed.
(** [drain k]: outcome of the k-th drain; None is success. *)
Definition drains := nat -> option exn.
Definition broken (e : exn) : bool := match e with BrokenPipeError | ConnectionResetError => true | _ => false end.

(** redirect.py 271-280: copy_streamwriter *)
Fixpoint copy_streamwriter (dr : drains) (closed : option exn) (k : nat) (ds : list bytes) (e : option exn) : list wevent * option exn :=
  match ds with
  | [] => match e with
          | Some x => ([], Some x)
          | None => ([Close; WaitClosed], closed)
          end
  | d :: ds' => match dr k with
                | Some x => ([Write d], Some x)
                | None => let (l, x) := copy_streamwriter dr closed (S k) ds' e in (Write d :: l, x)
                end
  end.

(** redirect.py 116-123: _drain *)
Definition safe_drain (dr : drains) (k : nat) : option exn :=
  match dr k with Some x => if broken x then None else Some x | None => None end.
Definition ends_nl (b : bytes) : bool := match rev b with x :: _ => x =? 10 | [] => false end.

(** redirect.py 126-157: write_stream. [eof]: None for a pipe, Some [] for a pty
    not in canonical mode, Some c for one that is. *)
Definition write_stream (dr : drains) (closing : bool) (input : bytes) (eof : option bytes) : list wevent * option exn :=
  let finish (k : nat) :=
    match eof with
    | None => ([Close], None)
    | Some [] => ([], None)
    | Some c => ([Write (if ends_nl input then c else c ++ c)], safe_drain dr k)
    end in
  match input with
  | [] => finish 0%nat
  | _ => if closing then ([], Some BrokenPipeError)
         else match safe_drain dr 0 with
              | Some x => ([Write input], Some x)
              | None => let (l, x) := finish 1%nat in (Write input :: l, x)
              end
  end.

(** redirect.py 160-187: write_reader: the loop returns what it wrote,
    ends_with_newline, the number of drains and an exception that escapes. *)
Fixpoint write_reader_loop (dr : drains) (k : nat) (nl : bool) (ds : list bytes) (e : option exn) : list wevent * bool * nat * option exn :=
  match ds with
  | [] => ([], nl, k, match e with Some x => if broken x then None else Some x | None => None end)
  | d :: ds' =>
      match dr k with
      | Some x => ([Write d], ends_nl d, S k, if broken x then None else Some x)
      | None => let '(l, nl', k', x) := write_reader_loop dr (S k) (ends_nl d) ds' e in (Write d :: l, nl', k', x)
      end
  end.
Definition write_reader (dr : drains) (ds : list bytes) (e : option exn) (eof : option bytes) : list wevent * option exn :=
  let '(l, nl, k, x) := write_reader_loop dr 0 true ds e in
  match x with
  | Some _ => (l, x)
  | None =>
      match eof with
      | None => (l ++ [Close], None)
      | Some [] => (l, None)
      | Some c => (l ++ [Write (if nl then c else c ++ c)], safe_drain dr k)
      end
  end.
