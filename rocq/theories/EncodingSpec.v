(** Specification vocabulary for C123-C126. *)
From Verif Require Export EncodingModel Utf8Spec.
Open Scope Z_scope.

(** Feeding an incremental decoder as Prompt does (prompt.py 426-470, 510-538):
    every chunk with final=False, then b"" with final=True. *)
Fixpoint ifeed (k : codec) (e : errors) (d : idec) (chunks : list bytes) : option (text * idec) :=
  match chunks with
  | [] => Some ([], d)
  | c :: r => match idec_decode k e d c false with
              | None => None
              | Some (t, d') => match ifeed k e d' r with None => None | Some (t', d'') => Some (t ++ t', d'') end
              end
  end.
Definition ifeed_all (k : codec) (e : errors) (normalize : bool) (chunks : list bytes) : option text :=
  match ifeed k e (make_idec normalize) chunks with
  | None => None
  | Some (t, d) => match idec_decode k e d [] true with None => None | Some (t', _) => Some (t ++ t') end
  end.

(** [p] is the beginning of the bytes of some character. *)
Definition begins_char (k : codec) (p : bytes) : Prop := exists c b more, raw k c = Some b /\ b = p ++ more.

(** The ill-formed sequence at the front of seg ++ r is [seg]: no character is
    there, and [seg] is the longest beginning of a character, or one byte if
    there is none (Unicode standard, 3.9: "maximal subpart"). *)
Definition bad_at (k : codec) (seg r : bytes) : Prop :=
  seg <> []
  /\ (forall c b rest, raw k c = Some b -> seg ++ r <> b ++ rest)
  /\ (List.length seg = 1%nat \/ begins_char k seg)
  /\ (forall p q, seg ++ r = p ++ q -> (List.length seg < List.length p)%nat -> ~ begins_char k p).

(** The bytes are characters and ill-formed sequences; the text has the former
    as they are and [repl seg] for each of the latter. *)
Inductive decoded (k : codec) (repl : bytes -> text) : bytes -> text -> Prop :=
| d_nil : decoded k repl [] []
| d_char c b r t : raw k c = Some b -> decoded k repl r t -> decoded k repl (b ++ r) (c :: t)
| d_bad seg r t : bad_at k seg r -> decoded k repl r t -> decoded k repl (seg ++ r) (repl seg ++ t).

Definition replacement (e : errors) (seg : bytes) : text :=
  match e with
  | Strict => []                                   (* not used *)
  | Replace => [65533]                             (* U+FFFD *)
  | Ignore => []
  | SurrogateEscape => map (fun b => 56320 + b) seg (* U+DC80 .. U+DCFF *)
  end.

Definition is_bytes (d : bytes) : Prop := Forall (fun b => 0 <= b <= 255) d.

(** Handlers that always have an answer. *)
Definition total (k : codec) (e : errors) : Prop :=
  e = Replace \/ e = Ignore \/ (k <> Utf16le /\ e = SurrogateEscape).

(** A list of lines without its empty strings. *)
Definition drop_empty (ts : list text) : list text := filter (fun t => match t with [] => false | _ => true end) ts.

(** The text of each line, put together. *)
Fixpoint concat_opt (l : list (option text)) : option text :=
  match l with
  | [] => Some []
  | a :: r => match a, concat_opt r with Some x, Some y => Some (x ++ y) | _, _ => None end
  end.
