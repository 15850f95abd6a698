(** Model of _regex_compile_exact (shellous/prompt.py 610-614): re.escape and
    the fragment of Python's regular expressions it produces: branches of
    literal characters separated by "|".  re is not part of /repo; the model
    follows Lib/re/__init__.py 253-263 (_special_chars_map, escape) and
    Lib/re/_parser.py (Tokenizer, _parse_sub, _parse, _escape) of Python 3.12. *)
From Verif Require Export Base.
Open Scope Z_scope.

(** A compiled pattern: pattern.search(text) gives the start and the end of the
    match.  Any function is allowed; a re.Pattern is one. *)
Definition pattern := text -> option (nat * nat).

(** _special_chars_map = {i: '\\' + chr(i) for i in b'()[]{}?*+-|^$\\.&~# \t\n\r\v\f'} *)
Definition special_chars : list Z :=
  [40; 41; 91; 93; 123; 125; 63; 42; 43; 45; 124; 94; 36; 92; 46; 38; 126; 35; 32; 9; 10; 13; 11; 12].
Definition is_special (c : Z) : bool := existsb (Z.eqb c) special_chars.
(** re.escape *)
Definition re_escape (s : text) : text := flat_map (fun c => if is_special c then [92; c] else [c]) s.

(** _parser.py 24: SPECIAL_CHARS = ".\\[{()*+?^$|"; these have a meaning when they
    are not escaped ("\\" and "|" are handled apart). *)
Definition meta_chars : list Z := [46; 91; 123; 40; 41; 42; 43; 63; 94; 36].
Definition is_meta (c : Z) : bool := existsb (Z.eqb c) meta_chars.
(** A backslash before a digit or an ASCII letter is not a literal (_escape). *)
Definition is_alnum (c : Z) : bool :=
  ((48 <=? c) && (c <=? 57)) || ((65 <=? c) && (c <=? 90)) || ((97 <=? c) && (c <=? 122)).
(** Parsing: the list of branches; None is a pattern outside this fragment
    (an unterminated branch is returned as the head of the list). *)
Fixpoint re_parse (p : text) : option (list text) :=
  match p with
  | [] => Some [[]]
  | c :: p' =>
      if c =? 92 then
        match p' with
        | [] => None
        | e :: p'' => if is_alnum e then None
                      else match re_parse p'' with Some (b :: bs) => Some ((e :: b) :: bs) | _ => None end
        end
      else if c =? 124 then
        match re_parse p' with Some bs => Some ([] :: bs) | None => None end
      else if is_meta c then None
      else match re_parse p' with Some (b :: bs) => Some ((c :: b) :: bs) | _ => None end
  end.

(** Matching: the first branch that matches at the leftmost position. *)
Fixpoint is_prefix (s t : text) : bool :=
  match s, t with
  | [], _ => true
  | a :: s', b :: t' => (a =? b) && is_prefix s' t'
  | _ :: _, [] => false
  end.
Definition match_at (bs : list text) (t : text) : option text := find (fun s => is_prefix s t) bs.
Fixpoint search_from (bs : list text) (pos : nat) (t : text) : option (nat * nat) :=
  match match_at bs t with
  | Some s => Some (pos, (pos + List.length s)%nat)
  | None => match t with [] => None | _ :: t' => search_from bs (S pos) t' end
  end.
Definition re_compile (p : text) : option pattern :=
  match re_parse p with Some bs => Some (search_from bs 0) | None => None end.

(** "|".join(l) *)
Fixpoint join_bar (l : list text) : text :=
  match l with [] => [] | [s] => s | s :: l' => s ++ 124 :: join_bar l' end.

(** prompt.py 610-614: _regex_compile_exact; None: outside the fragment. *)
Definition compile_exact_str (s : text) : option pattern := re_compile (re_escape s).
Definition compile_exact_list (l : list text) : option pattern := re_compile (join_bar (map re_escape l)).
