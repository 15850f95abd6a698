(** How a world may develop: [extends w h w'] says that the history [h] leads
    from the task table of [w] to that of [w']. *)
From Verif Require Import AsyncModel.

Section Spec.
Context {X K V : Type}.
Notation world := (world X K V).

(** How task i finished in this stretch of history, if it did. *)
Fixpoint done_in (i : nat) (h : list (hev V)) : option (tout V) :=
  match h with
  | [] => None
  | HDone j o :: h' => if Nat.eqb i j then Some o else done_in i h'
  | _ :: h' => done_in i h'
  end.
(** Number of cancel requests to task i, and to the main task. *)
Fixpoint reqs (i : nat) (h : list (hev V)) : nat :=
  match h with
  | [] => 0
  | HReq j :: h' => (if Nat.eqb i j then 1 else 0) + reqs i h'
  | _ :: h' => reqs i h'
  end.
Fixpoint cancels (h : list (hev V)) : nat :=
  match h with [] => 0 | HCancel :: h' => S (cancels h') | _ :: h' => cancels h' end.

Definition extends (w : world) (h : list (hev V)) (w' : world) : Prop :=
  w_hist w' = w_hist w ++ h
  /\ (forall i t, nth_error (w_tasks w) i = Some t ->
      exists t', nth_error (w_tasks w') i = Some t' /\ t_kind t' = t_kind t
      /\ t_out t' = (match t_out t with Some o => Some o | None => done_in i h end)
      /\ t_creq t' = (t_creq t + reqs i h)%nat)
  /\ (forall i o, In (HDone i o) h -> task_out w' i = Some o /\ task_out w i = None).
End Spec.
