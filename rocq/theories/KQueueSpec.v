(** Words for the properties of the kqueue watcher (C58, C102-C105). *)
From Verif Require Import Base EPollModel KQueueModel.
From Coq Require Import List ZArith Lia Bool.
Import ListNotations.
Local Open Scope nat_scope.

(** How often the callback of watch k was called, by the log of what happened. *)
Definition is_call (k : nat) (e : qlev) : bool := match e with QLCall j _ => j =? k | _ => false end.
Definition kn_calls (k : nat) (l : list qlev) : nat := List.length (filter (is_call k) l).
(** How often the kqueue descriptor was closed. *)
Definition is_free (e : qlev) : bool := match e with QLFree => true | _ => false end.
Definition kn_free (l : list qlev) : nat := List.length (filter is_free l).
(** The event [e] happened before close() was called (the log has the latest first). *)
Definition kbefore_closing (e : qlev) (log : list qlev) : Prop := exists a b, log = a ++ QLClosing :: b /\ In e b.

(** Nothing that goes on by itself can go on: no step of the watching thread, no
    step of a polling task, and no child is between its exit and the moment at
    which it can be waited for. *)
Definition quiet (ordered quick bad_cb : bool) (s : kst) : Prop :=
  forall s', kstep ordered quick bad_cb s s' ->
    k_pc s' = k_pc s /\
    (forall k, (exists n, k_w s k = QPoll n) \/ (exists st, k_w s k = QLate st) -> k_w s' k = k_w s k) /\
    (forall p n st, k_proc s p = QDying n st -> k_proc s' p = QDying n st).
(** The watching thread cannot run forever from here without anything new happening. *)
Definition kthread_stops (ordered quick bad_cb : bool) (s : kst) : Prop :=
  Acc (fun y x => kstep ordered quick bad_cb x y /\ k_pc y <> k_pc x) s.
