(** Specification vocabulary for C22-C25 and C68, independent of the model's
    scanning functions. *)
From Verif Require Import ResultModel.
Open Scope Z_scope.

(** The entry carries a result (a command that ran to its end). *)
Definition carries (o : outcome) (r : result) : Prop := o = ORes r \/ o = OExn (ResultError r).
(** An error other than a non-zero exit (and not a BaseException such as
    CancelledError). *)
Definition other_error (e : exn) : Prop := is_Exception e = true /\ forall r, e <> ResultError r.
(** The command failed on its own account. *)
Definition failed (r : result) : Prop := r_cancelled r = false /\ r_exit r <> 0.

(** [r] is the result whose exit status a pipeline should report. *)
Inductive key_of (rs : list result) : result -> Prop :=
| key_first_failed pre r post :
    rs = pre ++ r :: post -> failed r -> (forall x, In x pre -> ~ failed x) -> key_of rs r
| key_last_uncancelled pre r post :
    rs = pre ++ r :: post -> r_cancelled r = false -> (forall x, In x rs -> ~ failed x) ->
    (forall x, In x post -> r_cancelled x = true) -> key_of rs r
| key_all_cancelled pre r :
    rs = pre ++ [r] -> (forall x, In x rs -> r_cancelled x = true) -> key_of rs r.

(** The exit statuses a command accepts: those in [exit_codes]; only 0 when the
    option is not set or is empty. *)
Definition accepted (o : opts) (code : Z) : Prop :=
  match o_exit_codes o with
  | Some (CSet (x :: l)) => In code (x :: l)
  | Some (CRange lo hi) => if lo <? hi then lo <= code < hi else code = 0
  | _ => code = 0
  end.
