(** C56: a launch completes although the task is cancelled. *)
From Verif Require Import AsyncModel AsyncSpec AsyncProofs HarvestModel AsyncInv RunnerModel RunnerProofs6
  UninterruptedProofs RunnerProps RunTac.
Open Scope Z_scope.

(** * Specification
    [w_hist] is the history: [HCancel] says that somebody called cancel() on
    the task that runs the command, [HReq i] that the modelled code called
    cancel() on task [i], [HDone i r] that task [i] ended with [r].  The launch
    is the task that [uninterrupted] creates; it gets the next free number. *)
Definition launch_id (w : world rx rkind unit) : nat := List.length (w_tasks w).
(** How often the task is cancelled in a stretch of history. *)
Definition n_cancels (h : list (hev unit)) : nat :=
  count_occ (fun a b : bool => Bool.bool_dec a b) (map (fun e => match e with HCancel => true | _ => false end) h) true.

(** Everything the English sentence asks for: the launch is never asked to
    cancel, it has ended (with a value or an error of its own) when
    [uninterrupted] returns or raises, and if the task was cancelled in the
    meantime CancelledError is raised. *)
Definition c56_full_claim : Prop := forall o w r w',
  uninterrupted o false KExec w r w' ->
  exists h q, w_hist w' = w_hist w ++ h
    /\ ~ In (HReq (launch_id w)) h
    /\ task_out w' (launch_id w) = Some q /\ q <> TCancelled
    /\ (In HCancel h -> r = Err CancelledError).

Lemma n_cancels_eq h : n_cancels h = cancels_in h.
Proof.
  unfold n_cancels, cancels_in. induction h as [|e h IH]; auto. destruct e; cbn in *; auto.
Qed.

(** With at most one cancellation: the launch runs undisturbed to its own end;
    then its result is returned, or, if the task was cancelled, CancelledError
    is raised -- except that an error of the launch takes its place. *)
Theorem c56_launch_completes_partial : forall o w r w',
  uninterrupted o false KExec w r w' ->
  exists h, w_hist w' = w_hist w ++ h /\
  ((n_cancels h <= 1)%nat ->
   (forall j, ~ In (HReq j) h)
   /\ ((task_out w' (launch_id w) = Some (TValue tt)
        /\ r = if n_cancels h then Ok tt else Err CancelledError)
       \/ (exists e, task_out w' (launch_id w) = Some (TFail e) /\ r = Err e))).
Proof.
  intros o w r w' H. destruct (uninterrupted_hist o false KExec w r w' H) as (h & Hh & A).
  exists h. split; [exact Hh|]. rewrite n_cancels_eq. intros L. destruct (A L) as (N & q & Oq & R0 & R1). split; [exact N|].
  pose proof (uninterrupted_not_cancelled o false w r w' h eq_refl H Hh N (uninterrupted_kind o false w r w' H)) as NC.
  fold (launch_id w) in *. rewrite Oq in NC |- *. destruct q as [[]|e|]; [left|right|congruence].
  - split; auto. destruct (cancels_in h) as [|[|]] eqn:Z; [apply R0; auto|apply R1; auto|lia].
  - exists e. split; auto. destruct (cancels_in h) as [|[|]] eqn:Z; [apply R0; auto|apply R1; auto|lia].
Qed.
Print Assumptions c56_launch_completes_partial.

(** However often it is cancelled: when [uninterrupted] ends, the launch has
    ended; it returns normally only if the launch succeeded. *)
Theorem c56_launch_ended_partial : forall o ext w r w',
  uninterrupted o ext KExec w r w' ->
  exists q, task_out w' (launch_id w) = Some q /\ (r = Ok tt -> q = TValue tt)
    /\ (forall e, r = Err e -> e = CancelledError \/ q = TFail e).
Proof.
  intros o ext w r w'. apply uninterrupted_ended.
Qed.
Print Assumptions c56_launch_ended_partial.

(** ** Concrete runs: a Runner about to launch *)
Definition launching : world rx rkind unit :=
  mk_world [] (mk_rx [LAudit PStart] true false false false None false None None false false false None [] true) [].

(** Resume a suspended [await task] by these events. *)
Ltac task_by l :=
  exists l; eexists; eexists; split; [vr|vm_compute; first [left; split; reflexivity|right; split; [reflexivity|split; [reflexivity|split; reflexivity]]]].

(** The main task is cancelled while it waits. *)
Ltac cancelled_by l := exists l; eexists; exists (@TCancelled unit); split; [vr|vm_compute; left; split; reflexivity].

(** Cancelled once, while the child is being spawned: the launch completes. *)
Definition once_hist : list (hev unit) := [HCancel; HDone 0 (TValue tt)].
Example c56_once : exists w',
  uninterrupted (ex_opts None) false KExec launching (Err CancelledError) w'
  /\ w_hist w' = once_hist /\ x_proc (w_x w') = true.
Proof.
  eexists. split; [|].
  - all: go. 1: cancelled_by [ev XCancel]. all: go. 1: task_by [ev XSpawn; fin 0 (TValue tt); cb 0]. all: go.
  - split; reflexivity.
Qed.

(** Cancelled twice, the second time while awaiting the launch: the launch is
    asked to cancel, and here it is cancelled before there is a child. *)
Example c56_twice : exists w',
  uninterrupted (ex_opts None) false KExec launching (Err CancelledError) w'
  /\ w_hist w' = [HCancel; HCancel; HReq 0; HDone 0 TCancelled].
Proof.
  eexists. split; [|].
  - all: go. 1: cancelled_by [ev XCancel]. all: go. 1: task_by [ev XCancel; fin 0 TCancelled; cb 0]. all: go.
  - reflexivity.
Qed.

(** So the full claim does not hold for every number of cancellations. *)
Theorem c56_full_claim_refuted : ~ c56_full_claim.
Proof.
  intros C. destruct c56_twice as (w' & H & E). destruct (C _ _ _ _ H) as (h & q & Hh & N & _).
  rewrite E in Hh. cbn in Hh. subst h. apply N. cbn. auto.
Qed.
Print Assumptions c56_full_claim_refuted.

(** A cancellation during the launch and a launch that then fails: the error
    of the launch is raised and the cancellation is lost. *)
Example c56_cancel_lost : exists w',
  uninterrupted (ex_opts None) false KExec launching (Err boom) w'
  /\ w_hist w' = [HCancel; HDone 0 (TFail boom)].
Proof.
  eexists. split; [|].
  - all: go. 1: cancelled_by [ev XCancel]. all: go. 1: task_by [fin 0 (TFail boom); cb 0]. all: go.
  - reflexivity.
Qed.
