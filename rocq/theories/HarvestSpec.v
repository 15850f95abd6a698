(** Specification vocabulary for C26-C32. *)
From Verif Require Import AsyncModel AsyncSpec HarvestModel.

Section Spec.
Context {X K V : Type}.
Notation world := (world X K V).

(** The tasks harvest looks after: the given tasks, and one new task -- with
    the next free numbers -- for each coroutine. *)
Fixpoint numbering (n : nat) (aws : list (@awaitable K)) : list nat :=
  match aws with
  | [] => []
  | AwTask i :: aws' => i :: numbering n aws'
  | AwCoro _ :: aws' => n :: numbering (S n) aws'
  end.
Definition managed (w : world) (aws : list (@awaitable K)) : list nat := numbering (List.length (w_tasks w)) aws.

(** e is the exception of the first managed task, in argument order, that failed. *)
Definition first_failure (w : world) (tasks : list nat) (e : exn) : Prop :=
  exists pre i post, tasks = pre ++ i :: post /\ task_out w i = Some (TFail e)
  /\ forall j e', In j pre -> task_out w j <> Some (TFail e').

(** Task j failed before harvest was called or in this stretch of history. *)
Definition failed_by (w : world) (h : list (hev V)) (j : nat) : Prop :=
  exists e, task_out w j = Some (TFail e) \/ done_in j h = Some (TFail e).
(** Task j finished before harvest was called or in this stretch of history. *)
Definition finished_by (w : world) (h : list (hev V)) (j : nat) : Prop :=
  exists o, task_out w j = Some o \/ done_in j h = Some o.
Definition no_request (h : list (hev V)) : Prop := forall i, ~ In (HReq i) h.
End Spec.
