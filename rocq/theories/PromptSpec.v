(** Specification vocabulary for C46-C50, C53, C54. *)
From Verif Require Export PromptModel.
Open Scope Z_scope.
Notation world := (world px rkind rval).
Notation M := (@M px rkind rval).

(** s occurs in t, starting after n characters. *)
Definition occurs_at (s t : text) (n : nat) : Prop := exists a b, t = a ++ s ++ b /\ List.length a = n.
(** The first occurrence of s in t. *)
Definition first_at (s t : text) (n : nat) : Prop := occurs_at s t n /\ forall k, (k < n)%nat -> ~ occurs_at s t k.
(** The leftmost occurrence of one of the strings l in t; if several of them
    occur there, the one that comes first in the list. *)
Definition leftmost_of (l : list text) (t : text) (n : nat) (s : text) : Prop :=
  occurs_at s t n /\ (forall s' k, In s' l -> (k < n)%nat -> ~ occurs_at s' t k)
  /\ exists l1 l2, l = l1 ++ s :: l2 /\ forall s', In s' l1 -> ~ occurs_at s' t n.

(** pattern.search() reports a part of the text it was given. *)
Definition sane (p : pattern) : Prop := forall t s e, p t = Some (s, e) -> (s <= e <= List.length t)%nat.

(** All the text that the user of the Prompt has not been given yet: what is
    pending, and what the rest of the output decodes to.  (There is none if the
    output cannot be decoded.) *)
Definition remaining (cfg : settings) (w : world) (t : text) : Prop :=
  exists rest d, idec_decode (c_codec cfg) (c_errors cfg) (p_dec (w_x w)) (p_buf (w_x w) ++ p_src (w_x w)) true = Some (rest, d)
                 /\ t = p_pending (w_x w) ++ rest.

(** Nothing but the environment acts: the user's task waits for something else. *)
Inductive idle (cfg : settings) : world -> world -> Prop :=
| idle_refl w : idle cfg w w
| idle_step w ev w1 c w2 : env_step (pstep cfg) (pfinish cfg) w ev = Some (w1, c) -> idle cfg w1 w2 -> idle cfg w w2.

(** The operations on a Prompt. *)
Inductive op :=
| OExpect (p : option pattern) (timeout : option Z)
| OReadAll (timeout : option Z)
| OReadPending
| OSend (txt : bytes + text) (ending : text) (no_echo : bool) (timeout : option Z)
| OCommand (txt ending : text) (no_echo : bool) (p : option pattern) (timeout : option Z) (allow_eof : bool)
| OClose.
(** What it returns: (output, match), or a text. *)
Inductive answer := AMatch (out m : text) | AText (t : text) | ANone.
Definition run_op (cfg : settings) (o : op) : M answer :=
  match o with
  | OExpect p tmo => bindM (expect cfg p tmo) (fun om => ret (AMatch (fst om) (snd om)))
  | OReadAll tmo => bindM (read_all cfg tmo) (fun t => ret (AText t))
  | OReadPending => bindM read_pending (fun t => ret (AText t))
  | OSend txt e n tmo => bindM (send cfg txt e n tmo) (fun _ => ret ANone)
  | OCommand txt e n p tmo a => bindM (command cfg txt e n p tmo a) (fun t => ret (AText t))
  | OClose => bindM (close cfg) (fun _ => ret ANone)
  end.
Definition op_pattern (o : op) : option pattern :=
  match o with OExpect p _ | OCommand _ _ _ p _ _ => p | _ => None end.

(** The pattern an operation looks for. *)
Definition used_pattern (cfg : settings) (p : option pattern) : option pattern :=
  match p with Some q => Some q | None => c_default cfg end.
(** [p] was found: [m] after [out]. *)
Definition reported (p : pattern) (out m : text) : Prop :=
  exists rest, p (out ++ m ++ rest) = Some (List.length out, (List.length out + List.length m)%nat).

(** The text an operation handed out: its answer.  command() gives the output
    before the prompt and drops the prompt it found, the text [m]. *)
Definition handed_out (cfg : settings) (o : op) (r : res answer) (t : text) : Prop :=
  match o, r with
  | _, Ok (AMatch out m) => t = out ++ m
  | OCommand _ _ _ p _ allow_eof, Ok (AText out) =>
      (allow_eof = true /\ t = out)
      \/ exists q m, used_pattern cfg p = Some q /\ reported q out m /\ t = out ++ m
  | _, Ok (AText out) => t = out
  | _, Ok ANone => t = []
  | _, Err _ => t = []
  end.

(** A sequence of operations, one after the other, with any pauses. *)
Inductive session (cfg : settings) : world -> list (op * res answer) -> world -> Prop :=
| se_nil w w1 : idle cfg w w1 -> session cfg w [] w1
| se_cons w w1 o r w2 tr w' : idle cfg w w1 -> run_op cfg o w1 r w2 -> session cfg w2 tr w' -> session cfg w ((o, r) :: tr) w'.

(** A Prompt can be configured and used. *)
Definition good_settings (cfg : settings) : Prop := (0 < c_chunk cfg)%nat /\ forall p, c_default cfg = Some p -> sane p.

(** The background task of this call found the prompt and consumed the text up
    to its end: [out] and the prompt [m] itself. *)
Definition found_in_call (w w' : world) (out m : text) : Prop :=
  exists i, (List.length (w_tasks w) <= i)%nat /\ task_out w' i = Some (TValue (VMatch out m)).

(** The patterns the user passes behave like regular expressions. *)
Definition sane_op (o : op) : Prop := forall q, op_pattern o = Some q -> sane q.

(** A session in which no operation was cancelled after its background task had
    found the prompt, and before the operation could return it. *)
Inductive clean_session (cfg : settings) : world -> list (op * res answer) -> world -> Prop :=
| cl_nil w w1 : idle cfg w w1 -> clean_session cfg w [] w1
| cl_cons w w1 o r w2 tr w' : idle cfg w w1 -> run_op cfg o w1 r w2 ->
    ~ (r = Err CancelledError /\ exists out m, found_in_call w1 w2 out m) -> clean_session cfg w2 tr w' -> clean_session cfg w ((o, r) :: tr) w'.

(** A Prompt that is being used: any operations have been done on it, and its
    output can be decoded. *)
Definition in_use (cfg : settings) (w : world) : Prop :=
  exists n src echo tr F, good_settings cfg /\ session cfg (prompt_world n src echo) tr w /\ remaining cfg (prompt_world n src echo) F
  /\ forall x, In x tr -> sane_op (fst x).
