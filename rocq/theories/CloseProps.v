(** C57: close_fds. *)
From Verif Require Import FdModel.
Open Scope Z_scope.

(** ** Specification: the calls that close everything, in order. *)
Definition to_close (x : fobj) : list call :=
  match x with FInt z => if 0 <=? z then [OsClose z] else [] | FObj id => [ObjClose id] end.
Definition everything (l : list fobj) : list call := flat_map to_close l.
Definition raises (b : closing) (x : fobj) : option exn := match x with FObj id => obj_close_raises b id | FInt _ => None end.
Definition emptied (c : container) : Prop :=
  match c with AList l | ASet l => l = [] | AnIterable _ => True end.

(** What the container holds, in the order of iteration. *)
Definition given (c : container) : list fobj := match c with AList l => l | ASet l => l | AnIterable l => l end.

(** The full claim. *)
Definition c57_full_claim : Prop :=
  forall b c, fst (fst (close_fds b c)) = everything (given c) /\ emptied (snd (close_fds b c)).

(** A file object whose close() raises (for example ENOSPC when its buffer is
    flushed) stops the loop; the rest is dropped from the list unclosed. *)
Theorem c57_refuted : ~ c57_full_claim.
Proof.
  intros H. destruct (H {| os_close_fails := fun _ => false; obj_close_raises := fun _ => Some OSError |} (AList [FObj 0; FInt 7])) as [E _].
  discriminate E.
Qed.
Print Assumptions c57_refuted.

Lemma close_loop_calm b l : Forall (fun x => raises b x = None) l -> close_loop b l = (everything l, Ok tt).
Proof.
  induction 1 as [|x l Hx Hl IH]; [reflexivity|]. destruct x as [z|id]; cbn.
  - destruct (0 <=? z); [|exact IH]. destruct (os_close_fails b z); rewrite IH; reflexivity.
  - cbn in Hx. rewrite Hx, IH. reflexivity.
Qed.
(** Whatever os.close does, as long as no file object's close() raises:
    everything is closed exactly once, in order, and nothing is raised. *)
Theorem c57_partial : forall b c, Forall (fun x => raises b x = None) (given c) ->
  fst (fst (close_fds b c)) = everything (given c) /\ snd (fst (close_fds b c)) = Ok tt /\ emptied (snd (close_fds b c)).
Proof. intros b c H. change (given c) with (elements c) in *. unfold close_fds. rewrite (close_loop_calm b _ H). destruct c; cbn; auto. Qed.
Print Assumptions c57_partial.
(** In general: the loop ends at the first object that raises, with its
    exception; a list or set is emptied in any case. *)
Theorem c57_stops_at_first_raise : forall b c,
  emptied (snd (close_fds b c))
  /\ forall l1 x l2 e, given c = l1 ++ x :: l2 -> Forall (fun y => raises b y = None) l1 -> raises b x = Some e ->
     fst (fst (close_fds b c)) = everything (l1 ++ [x]) /\ snd (fst (close_fds b c)) = Err e.
Proof.
  intros b c. split; [unfold close_fds; destruct (close_loop b (elements c)), c; cbn; auto|].
  intros l1 x l2 e E A R. change (given c) with (elements c) in *. assert (L : close_loop b (elements c) = (everything (l1 ++ [x]), Err e)).
  { rewrite E. clear E. induction A as [|y l1 Hy A IH]; cbn.
    - destruct x as [z|id]; [discriminate R|]. cbn in R. now rewrite R.
    - destruct y as [z|id]; cbn in *.
      + destruct (0 <=? z); [|exact IH]. destruct (os_close_fails b z); rewrite IH; reflexivity.
      + rewrite Hy, IH. reflexivity. }
  unfold close_fds. rewrite L. split; reflexivity.
Qed.
Print Assumptions c57_stops_at_first_raise.
(** No number of calls closes a pty's child descriptor twice. *)
Theorem c57_child_closed_once : forall b n fd, child_close_n b n fd = (match n with O => [] | S _ => if 0 <=? fd then [OsClose fd] else [] end).
Proof.
  intros b n fd. assert (N : forall m fd', fd' < 0 -> child_close_n b m fd' = []).
  { induction m as [|m IH]; intros fd' P; [reflexivity|]. cbn. unfold child_close. assert (E : (0 <=? fd') = false) by lia. rewrite E. cbn. apply IH. exact P. }
  destruct n as [|n]; [reflexivity|]. cbn. unfold child_close. destruct (0 <=? fd) eqn:E; [|cbn; apply N; lia].
  unfold close_fds. cbn. rewrite E. destruct (os_close_fails b fd); cbn; rewrite N by lia; reflexivity.
Qed.
Print Assumptions c57_child_closed_once.

Example c57_example :
  let b := {| os_close_fails := fun z => z =? 5; obj_close_raises := fun id => if (id =? 2)%nat then Some OSError else None |} in
  close_fds b (AList [FInt 5; FInt (-3); FObj 1; FInt 6]) = ([OsClose 5; ObjClose 1; OsClose 6], Ok tt, AList [])
  /\ close_fds b (AList [FInt 5; FObj 2; FInt 6]) = ([OsClose 5; ObjClose 2], Err OSError, AList []).
Proof. split; reflexivity. Qed.
