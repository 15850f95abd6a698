(** Common definitions: byte strings, texts, Python exceptions as values. *)
From Coq Require Export List ZArith Lia Bool Arith String.
Export ListNotations.
Open Scope list_scope.

(** A [bytes] object is a list of integers (0..255); a [str] is a list of
    Unicode code points.  Simplification: ranges are not enforced by the type. *)
Definition bytes := list Z.
Definition text  := list Z.

(** result.py 25-42: class Result; [encoding] is kept as text. *)
Record result := mk_result {
  r_exit : Z;
  r_output : bytes;
  r_error : bytes;
  r_cancelled : bool;
  r_encoding : text
}.

(** Python exceptions that the modelled code raises or handles.  [TypeError]
    carries the text of the message where the code distinguishes it. *)
Inductive exn :=
| TypeError (msg : string)
| ValueError (msg : string)
| AssertionError
| RuntimeError (msg : string)
| FileNotFoundError
| OSError
| BrokenPipeError
| ConnectionResetError
| UnicodeError
| EOFError
| TimeoutError
| CancelledError
| KeyError
| InvalidStateError
| ProcessLookupError
| GeneratorExit
| ResultError (r : result)            (* result.py 13-19 *)
| OtherError (n : nat).

(** [isinstance(ex, Exception)]: everything except the BaseException-only
    classes (CancelledError derives from BaseException since Python 3.8). *)
Definition is_Exception (e : exn) : bool :=
  match e with CancelledError | GeneratorExit => false | _ => true end.

Definition is_ResultError (e : exn) : bool := match e with ResultError _ => true | _ => false end.

(** Result of a Python call: a value or a raised exception. *)
Inductive res (A : Type) := Ok (a : A) | Err (e : exn).
Arguments Ok {A} _.
Arguments Err {A} _.

Definition bind {A B} (m : res A) (f : A -> res B) : res B :=
  match m with Ok a => f a | Err e => Err e end.

(** Decidable equality on texts. *)
Fixpoint text_eqb (a b : text) : bool :=
  match a, b with
  | [], [] => true
  | x :: a', y :: b' => (x =? y)%Z && text_eqb a' b'
  | _, _ => false
  end.

Lemma text_eqb_eq a b : text_eqb a b = true <-> a = b.
Proof.
  revert b; induction a as [|x a IH]; intros [|y b]; simpl; split; try congruence; try easy.
  - intro H. apply andb_true_iff in H. destruct H as [H1 H2].
    apply Z.eqb_eq in H1. apply IH in H2. congruence.
  - intro H. inversion H; subst. rewrite Z.eqb_refl. simpl. now apply IH.
Qed.

Lemma text_eqb_refl a : text_eqb a a = true.
Proof. now apply text_eqb_eq. Qed.

Lemma text_eqb_neq a b : text_eqb a b = false <-> a <> b.
Proof.
  split.
  - intros H E. apply text_eqb_eq in E. congruence.
  - intro H. destruct (text_eqb a b) eqn:E; [|reflexivity]. apply text_eqb_eq in E. contradiction.
Qed.
