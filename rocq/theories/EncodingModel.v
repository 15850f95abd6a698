(** Model of the encoding option beyond its default (command.py 532-534:
    "utf-8 replace" and so on): util.py 37-44 (decode_bytes, encode_bytes) and
    prompt.py 600-607 (_make_decoder) for the codecs utf-8, latin-1, ascii and
    utf-16-le with the error handlers strict, replace, ignore and
    surrogateescape.  CPython's codecs are not part of /repo; the model follows
    Objects/unicodeobject.c (one call of the error handler per ill-formed
    sequence), Python/codecs.c (the handlers) and
    codecs.BufferedIncrementalDecoder.  Names of codecs and handlers are
    recognised only in the spelling above. *)
From Verif Require Export Utf8Model.
Open Scope Z_scope.

Inductive codec := Utf8 | Latin1 | Ascii | Utf16le.
Inductive errors := Strict | Replace | Ignore | SurrogateEscape.

(** str.split(maxsplit=1) on ASCII white space. *)
Definition is_space (c : Z) : bool := (c =? 32) || in_range 9 13 c || in_range 28 31 c.
Fixpoint lstrip_ws (t : text) : text :=
  match t with c :: r => if is_space c then lstrip_ws r else t | [] => [] end.
Fixpoint take_word (t : text) : text * text :=
  match t with
  | c :: r => if is_space c then ([], t) else let (a, b) := take_word r in (c :: a, b)
  | [] => ([], [])
  end.
Definition split1 (t : text) : list text :=
  match lstrip_ws t with
  | [] => []
  | t1 => let (a, b) := take_word t1 in
          match lstrip_ws b with [] => [a] | rest => [a; rest] end
  end.

(** The names. *)
Fixpoint of_string (s : string) : text :=
  match s with EmptyString => [] | String c r => Z.of_nat (Ascii.nat_of_ascii c) :: of_string r end.
Definition codec_named (t : text) : option codec :=
  if text_eqb t (of_string "utf-8") then Some Utf8
  else if text_eqb t (of_string "latin-1") then Some Latin1
  else if text_eqb t (of_string "ascii") then Some Ascii
  else if text_eqb t (of_string "utf-16-le") then Some Utf16le
  else None.
Definition errors_named (t : text) : option errors :=
  if text_eqb t (of_string "strict") then Some Strict
  else if text_eqb t (of_string "replace") then Some Replace
  else if text_eqb t (of_string "ignore") then Some Ignore
  else if text_eqb t (of_string "surrogateescape") then Some SurrogateEscape
  else None.
(** encoding.split(maxsplit=1) as arguments of bytes.decode, str.encode and the
    incremental decoder: codec and handler, whose defaults are utf-8 and strict
    (util.py 39, 44, prompt.py 602-604; an empty list is an IndexError in the
    latter).  None is a LookupError (CPython looks an unknown handler up only
    when it needs it). *)
Definition parse_encoding (t : text) : option (codec * errors) :=
  match split1 t with
  | [] => Some (Utf8, Strict)
  | [k] => match codec_named k with Some c => Some (c, Strict) | None => None end
  | k :: e :: _ => match codec_named k, errors_named e with Some c, Some h => Some (c, h) | _, _ => None end
  end.

(** * Decoding *)

(** At the front of the data: a character, not enough data, or an ill-formed
    sequence [seg]. *)
Inductive estep := SChar (c : Z) (rest : bytes) | SMore | SBad (seg rest : bytes).

(** unicodeobject.c, unicode_decode_utf8: endinpos - startinpos *)
Definition bad_len (d : bytes) : nat :=
  match d with
  | b :: x :: r =>
      if in_range 224 239 b then (if second_ok b x then 2 else 1)
      else if in_range 240 244 b then
        (if second_ok b x then match r with y :: _ => if cont y then 3 else 2 | [] => 2 end else 1)
      else 1
  | _ => 1
  end%nat.
Definition utf8_step (d : bytes) : estep :=
  match decode_step d with
  | DChar c r => SChar c r
  | DMore => SMore
  | DBad => SBad (firstn (bad_len d) d) (skipn (bad_len d) d)
  end.
(** UTF-16: a code unit from its two bytes, a character from its two surrogates. *)
Definition unit16 (lo hi : Z) : Z := lo + 256 * hi.
Definition pair16 (u v : Z) : Z := 65536 + (u - 55296) * 1024 + (v - 56320).
Definition high16 (c : Z) : Z := 55296 + (c - 65536) / 1024.
Definition low16 (c : Z) : Z := 56320 + (c - 65536) mod 1024.
Definition bytes16 (u : Z) : bytes := [u mod 256; u / 256].
(** unicodeobject.c, PyUnicode_DecodeUTF16Stateful *)
Definition utf16_step (d : bytes) : estep :=
  match d with
  | lo :: hi :: r =>
      let u := unit16 lo hi in
      if in_range 55296 56319 u then
        match r with
        | lo2 :: hi2 :: r2 =>
            let v := unit16 lo2 hi2 in
            if in_range 56320 57343 v
            then SChar (pair16 u v) r2
            else SBad [lo; hi] r
        | _ => SMore
        end
      else if in_range 56320 57343 u then SBad [lo; hi] r
      else SChar u r
  | _ => SMore
  end.
Definition step (k : codec) (d : bytes) : estep :=
  match k with
  | Utf8 => utf8_step d
  | Latin1 => match d with b :: r => SChar b r | [] => SMore end
  | Ascii => match d with b :: r => if in_range 0 127 b then SChar b r else SBad [b] r | [] => SMore end
  | Utf16le => utf16_step d
  end.

(** Python/codecs.c: the handlers on an ill-formed sequence: the replacement
    and the bytes that decoding goes on with; None raises UnicodeDecodeError. *)
Fixpoint high_bytes (n : nat) (d : bytes) : bytes :=
  match n, d with
  | S m, b :: r => if 128 <=? b then b :: high_bytes m r else []
  | _, _ => []
  end.
Definition handle (e : errors) (seg : bytes) : option (text * bytes) :=
  match e with
  | Strict => None
  | Replace => Some ([65533], [])
  | Ignore => Some ([], [])
  | SurrogateEscape =>
      match high_bytes 4 seg with
      | [] => None
      | hs => Some (map (fun b => 56320 + b) hs, skipn (List.length hs) seg)
      end
  end.

(** Ill-formed data that the decoder keeps until more arrives. *)
Definition kept (k : codec) (d : bytes) (final : bool) : bool :=
  match k with Utf8 => negb final && cut_surrogate d | _ => false end.

(** The text of [d], and the bytes not consumed (only if not final). *)
Fixpoint dec_loop (k : codec) (e : errors) (fuel : nat) (d : bytes) (final : bool) : option (text * bytes) :=
  let go f t0 d1 :=
    match dec_loop k e f d1 final with Some (t, rest) => Some (t0 ++ t, rest) | None => None end in
  match d, fuel with
  | [], _ => Some ([], [])
  | _, O => None
  | _, S f =>
      match step k d with
      | SChar c r => go f [c] r
      | SMore => if final
                 then match handle e d with Some (t0, back) => go f t0 back | None => None end
                 else Some ([], d)
      | SBad seg r =>
          if kept k d final then Some ([], d)
          else match handle e seg with Some (t0, back) => go f t0 (back ++ r) | None => None end
      end
  end.
Definition dec_part (k : codec) (e : errors) (d : bytes) (final : bool) := dec_loop k e (List.length d) d final.

(** bytes.decode(codec, errors) *)
Definition decode (k : codec) (e : errors) (d : bytes) : option text :=
  match dec_part k e d true with Some (t, _) => Some t | None => None end.

(** codecs.getincrementaldecoder(codec)(errors), in an
    io.IncrementalNewlineDecoder if newlines are normalised. *)
Record idec := { i_buf : bytes; i_cr : bool; i_normalize : bool }.
Definition make_idec (normalize : bool) : idec := {| i_buf := []; i_cr := false; i_normalize := normalize |}.
Definition idec_decode (k : codec) (e : errors) (d : idec) (input : bytes) (final : bool) : option (text * idec) :=
  match dec_part k e (i_buf d ++ input) final with
  | None => None
  | Some (t, buf) =>
      if i_normalize d then
        let (t', cr) := nl_inc (i_cr d) t final in
        Some (t', {| i_buf := buf; i_cr := cr; i_normalize := true |})
      else Some (t, {| i_buf := buf; i_cr := i_cr d; i_normalize := false |})
  end.

(** * Encoding *)

(** The bytes of one character; None: it has none in this codec. *)
Definition raw (k : codec) (c : Z) : option bytes :=
  match k with
  | Utf8 => encode_cp c
  | Latin1 => if in_range 0 255 c then Some [c] else None
  | Ascii => if in_range 0 127 c then Some [c] else None
  | Utf16le =>
      if in_range 55296 57343 c then None
      else if in_range 0 65535 c then Some (bytes16 c)
      else if in_range 65536 1114111 c then Some (bytes16 (high16 c) ++ bytes16 (low16 c))
      else None
  end.
(** The handlers when encoding (utf-16 refuses the single byte of
    surrogateescape). *)
Definition encode_one (k : codec) (e : errors) (c : Z) : option bytes :=
  match raw k c with
  | Some b => Some b
  | None =>
      match e with
      | Strict => None
      | Replace => raw k 63
      | Ignore => Some []
      | SurrogateEscape =>
          match k with
          | Utf16le => None
          | _ => if in_range 56448 56575 c then Some [c - 56320] else None
          end
      end
  end.
(** str.encode(codec, errors) *)
Fixpoint encode (k : codec) (e : errors) (t : text) : option bytes :=
  match t with
  | [] => Some []
  | c :: r => match encode_one k e c, encode k e r with Some a, Some b => Some (a ++ b) | _, _ => None end
  end.

(** util.py 37-44 with the encoding option [enc] *)
Definition decode_bytes (d : bytes) (enc : text) : option text :=
  match parse_encoding enc with Some (k, e) => decode k e d | None => None end.
Definition encode_bytes (t : text) (enc : text) : option bytes :=
  match parse_encoding enc with Some (k, e) => encode k e t | None => None end.
