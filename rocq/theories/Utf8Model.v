(** Model of text encoding as used by util.py 36-44 (encode_bytes,
    decode_bytes) and prompt.py 600-607 (_make_decoder) for encoding "utf-8"
    with the strict error handler (the default of Options.encoding,
    command.py 136), and of io.IncrementalNewlineDecoder(translate=True).
    CPython's codec is not part of /repo; the model follows its documented
    behaviour (Unicode table 3-7; codecs.BufferedIncrementalDecoder). *)
From Verif Require Export Base.
Open Scope Z_scope.

Definition in_range (lo hi x : Z) : bool := (lo <=? x) && (x <=? hi).

(** str.encode("utf-8") of one code point; surrogates cannot be encoded. *)
Definition encode_cp (c : Z) : option bytes :=
  if in_range 0 127 c then Some [c]
  else if in_range 128 2047 c then Some [192 + c / 64; 128 + c mod 64]
  else if in_range 55296 57343 c then None
  else if in_range 2048 65535 c then Some [224 + c / 4096; 128 + (c / 64) mod 64; 128 + c mod 64]
  else if in_range 65536 1114111 c
       then Some [240 + c / 262144; 128 + (c / 4096) mod 64; 128 + (c / 64) mod 64; 128 + c mod 64]
  else None.
Fixpoint utf8_encode (t : text) : option bytes :=
  match t with
  | [] => Some []
  | c :: r => match encode_cp c, utf8_encode r with Some a, Some b => Some (a ++ b) | _, _ => None end
  end.

(** Decoding one character at the front: it, or need more bytes, or invalid. *)
Inductive dstep := DChar (c : Z) (rest : bytes) | DMore | DBad.
Definition cont (x : Z) : bool := in_range 128 191 x.
(** allowed range of the second byte after lead byte b *)
Definition second_ok (b x : Z) : bool :=
  if b =? 224 then in_range 160 191 x
  else if b =? 237 then in_range 128 159 x
  else if b =? 240 then in_range 144 191 x
  else if b =? 244 then in_range 128 143 x
  else cont x.
Definition decode_step (d : bytes) : dstep :=
  match d with
  | [] => DMore
  | b :: r =>
      if in_range 0 127 b then DChar b r
      else if in_range 194 223 b then
        match r with
        | [] => DMore
        | x :: r1 => if second_ok b x then DChar ((b - 192) * 64 + (x - 128)) r1 else DBad
        end
      else if in_range 224 239 b then
        match r with
        | [] => DMore
        | [x] => if second_ok b x then DMore else DBad
        | x :: y :: r2 => if second_ok b x && cont y
                          then DChar ((b - 224) * 4096 + (x - 128) * 64 + (y - 128)) r2 else DBad
        end
      else if in_range 240 244 b then
        match r with
        | [] => DMore
        | [x] => if second_ok b x then DMore else DBad
        | [x; y] => if second_ok b x && cont y then DMore else DBad
        | x :: y :: z :: r3 => if second_ok b x && cont y && cont z
                               then DChar ((b - 240) * 262144 + (x - 128) * 4096 + (y - 128) * 64 + (z - 128)) r3 else DBad
        end
      else DBad
  end.

(** The first two bytes of an encoded surrogate: ill-formed, but CPython waits
    for the third one before it says so (unicodeobject.c,
    unicode_decode_utf8: "Truncated surrogate code in range D800-DFFF"). *)
Definition cut_surrogate (d : bytes) : bool :=
  match d with [b; x] => (b =? 237) && in_range 160 191 x | _ => false end.

(** codecs.utf_8_decode(data, "strict", final): the text and the bytes not
    consumed; None is UnicodeDecodeError. *)
Fixpoint utf8_loop (fuel : nat) (d : bytes) (final : bool) : option (text * bytes) :=
  match d, fuel with
  | [], _ => Some ([], [])
  | _, O => None
  | _, S f =>
      match decode_step d with
      | DChar c r => match utf8_loop f r final with Some (t, rest) => Some (c :: t, rest) | None => None end
      | DMore => if final then None else Some ([], d)
      | DBad => if negb final && cut_surrogate d then Some ([], d) else None
      end
  end.
Definition utf8_decode_part (d : bytes) (final : bool) : option (text * bytes) := utf8_loop (List.length d) d final.

(** util.py 36-39: decode_bytes(data, "utf-8") *)
Definition utf8_decode (d : bytes) : option text :=
  match utf8_decode_part d true with Some (t, _) => Some t | None => None end.

(** codecs.BufferedIncrementalDecoder.decode(input, final); the state is the
    buffer of bytes not yet decoded. *)
Definition utf8_inc (buf input : bytes) (final : bool) : option (text * bytes) := utf8_decode_part (buf ++ input) final.

(** io.IncrementalNewlineDecoder(decoder, translate=True).decode: the state is
    the pending-CR flag; input is what the inner decoder returned.
    (Modules/_io/textio.c: _PyIncrementalNewlineDecoder_decode.) *)
Fixpoint nl_replace (t : text) : text :=        (* "\r\n" -> "\n", "\r" -> "\n" *)
  match t with
  | 13 :: (10 :: r) as t' => 10 :: nl_replace r
  | 13 :: r => 10 :: nl_replace r
  | x :: r => x :: nl_replace r
  | [] => []
  end.
Definition ends_cr (t : text) : bool := match rev t with x :: _ => x =? 13 | [] => false end.
Definition nl_inc (pendingcr : bool) (out : text) (final : bool) : text * bool :=
  let t := if pendingcr && (match out with [] => final | _ => true end) then 13 :: out else out in
  let p := if pendingcr && (match out with [] => final | _ => true end) then false else pendingcr in
  if ends_cr t && negb final then (nl_replace (removelast t), true) else (nl_replace t, p).

(** prompt.py 600-607: the decoder a Prompt uses. *)
Record decoder := { d_buf : bytes; d_cr : bool; d_normalize : bool }.
Definition make_decoder (normalize : bool) : decoder := {| d_buf := []; d_cr := false; d_normalize := normalize |}.
Definition decoder_decode (d : decoder) (input : bytes) (final : bool) : option (text * decoder) :=
  match utf8_inc (d_buf d) input final with
  | None => None
  | Some (t, buf) =>
      if d_normalize d then
        let (t', cr) := nl_inc (d_cr d) t final in
        Some (t', {| d_buf := buf; d_cr := cr; d_normalize := true |})
      else Some (t, {| d_buf := buf; d_cr := d_cr d; d_normalize := false |})
  end.
