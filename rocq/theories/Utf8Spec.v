(** Specification vocabulary for C51, C52. *)
From Verif Require Export Utf8Model.
Open Scope Z_scope.

(** Feeding a decoder chunk by chunk, as Prompt does (prompt.py 426-470,
    510-538): every chunk with final=False, then b"" with final=True. *)
Fixpoint feed (d : decoder) (chunks : list bytes) : option (text * decoder) :=
  match chunks with
  | [] => Some ([], d)
  | c :: r => match decoder_decode d c false with
              | None => None
              | Some (t, d') => match feed d' r with None => None | Some (t', d'') => Some (t ++ t', d'') end
              end
  end.
Definition feed_all (normalize : bool) (chunks : list bytes) : option text :=
  match feed (make_decoder normalize) chunks with
  | None => None
  | Some (t, d) => match decoder_decode d [] true with None => None | Some (t', _) => Some (t ++ t') end
  end.

(** Newline normalisation: CR LF and a CR not followed by LF become LF, every
    other character stays. *)
Inductive normalized : text -> text -> Prop :=
| n_nil : normalized [] []
| n_crlf a b : normalized a b -> normalized (13 :: 10 :: a) (10 :: b)
| n_cr a b : normalized a b -> hd_error a <> Some 10 -> normalized (13 :: a) (10 :: b)
| n_other x a b : x <> 13 -> normalized a b -> normalized (x :: a) (x :: b).

(** A character that is cut short: nothing but the missing bytes can make it
    decodable.  Or the first two bytes of an encoded surrogate, which nothing
    can make decodable (CPython waits for the third byte all the same). *)
Definition incomplete (rest : bytes) : Prop :=
  rest = [] \/ (exists c b more, encode_cp c = Some b /\ b = rest ++ more /\ more <> [])
  \/ exists x, rest = [237; x] /\ 160 <= x <= 191.
