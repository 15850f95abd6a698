(** Theorems for C26-C32 (harvest).  They hold for every environment: every
    number of tasks, every order of completion, timeout and cancellation. *)
From Verif Require Import AsyncModel AsyncSpec AsyncProofs HarvestModel HarvestSpec HarvestProofs HarvestProofs2.

(** An environment for examples: any task may finish any time; the only other
    event cancels the main task. *)
Definition xs0 (x : unit) (e : unit) : option (unit * bool) := Some (tt, true).
Definition cf0 (x : unit) (t : task unit nat) (o : tout nat) : option unit := Some tt.
Definition two : world unit unit nat := mk_world [mk_task tt None 0; mk_task tt None 0] tt [].
Definition three : world unit unit nat := mk_world [mk_task tt None 0; mk_task tt None 0; mk_task tt None 0] tt [].
Definition boom : exn := OtherError 1.
Definition done (i : nat) (o : tout nat) : @wev nat unit := WEnv (EDone i o).
Definition cancelled_now : @wev nat unit := WEnv (EX tt).
Definition callback (i : nat) : @wev nat unit := WCallback i.

(** ** C26 *)
Definition c26_full_claim := forall X K V XE (xstep : X -> XE -> option (X * bool)) (finish : X -> task K V -> tout V -> option X)
  aws tmo cf w r w', harvest xstep finish aws tmo cf w r w' ->
  r <> Err cancel_failed -> forall i, In i (managed w aws) -> task_done w' i = true.

(** Two cancellations of harvest while it waits for the siblings of a failed
    task leave those siblings running (harvest.py 163-169 retries only once). *)
Theorem c26_two_cancels_refuted : ~ c26_full_claim.
Proof.
  intro C.
  pose (w' := mk_world [mk_task tt (Some (TFail boom)) 0; mk_task tt None 1] tt
                       [HDone 0 (TFail boom); HReq 1; HCancel; HCancel] : world unit unit nat).
  assert (R : harvest xs0 cf0 [AwTask 0; AwTask 1] false false two (Err CancelledError) w').
  { eapply b_bind. { eapply b_bind; [split; reflexivity|]. eapply b_bind; [eapply b_bind; [split; reflexivity|]; eapply b_bind; split; reflexivity|].
      split; reflexivity. }
    apply b_bind_err. eapply b_bind.
    - apply b_try. eapply b_bind.
      + eapply b_wait with (evs := [done 0 (TFail boom); callback 0]); [discriminate|reflexivity|]. cbn. split; reflexivity.
      + eapply b_bind; split; reflexivity.
    - cbn. apply b_bind_err. eapply b_try_err with (e := CancelledError); [|reflexivity|].
      + eapply b_bind; [eapply b_bind; split; reflexivity|]. apply b_bind_err.
        eapply b_wait with (evs := [cancelled_now]); [discriminate|reflexivity|]. reflexivity.
      + apply b_bind_err. eapply b_wait with (evs := [cancelled_now]); [discriminate|reflexivity|]. reflexivity. }
  specialize (C _ _ _ _ _ _ _ _ _ _ _ _ R ltac:(discriminate) 1). cbn in C. discriminate C. auto.
Qed.
Print Assumptions c26_two_cancels_refuted.

(** Missing: two or more cancellations of harvest itself. *)
Theorem c26_nothing_left_running_partial :
  forall X K V XE (xstep : X -> XE -> option (X * bool)) (finish : X -> task K V -> tout V -> option X) aws tmo cf w r w' h,
  harvest xstep finish aws tmo cf w r w' -> w_hist w' = w_hist w ++ h ->
  r <> Err cancel_failed -> (cancels h <= 1)%nat ->
  forall i, In i (managed w aws) -> task_done w' i = true.
Proof.
  intros X K V XE xstep finish aws tmo cf w r w' h H Hh NR C i Hi.
  assert (Hne : aws <> []) by (intros ->; destruct Hi).
  destruct (harvest_facts _ _ _ _ _ _ _ _ H Hne) as (w0 & rw & h1 & h2 & w1 & E0 & O & F & R).
  pose proof (harvest_hist _ _ _ _ _ _ _ _ _ _ E0 F) as Hq. rewrite Hh in Hq. apply app_inv_head in Hq. subst h.
  rewrite cancels_app in C. destruct rw as [[]|e]; [now apply (hf_ok _ _ _ _ _ _ _ _ _ F)|].
  subst r. destruct (hf_errs _ _ _ _ _ _ _ _ _ F e eq_refl) as [->|[->| ->]]; [| |congruence].
  - destruct (hf_to _ _ _ _ _ _ _ _ _ F eq_refl) as (_ & _ & _ & AD & _). auto.
  - destruct (hf_canc _ _ _ _ _ _ _ _ _ F eq_refl) as [(_ & [AD|Q])|(_ & Q)]; [auto|lia|lia].
Qed.
Print Assumptions c26_nothing_left_running_partial.

(** ... two cancellations are survived if the first one is what ends the wait. *)
Theorem c26_cancelled_twice_partial :
  forall X K V XE (xstep : X -> XE -> option (X * bool)) (finish : X -> task K V -> tout V -> option X) aws tmo cf w r w' ha hb,
  harvest xstep finish aws tmo cf w r w' -> w_hist w' = w_hist w ++ ha ++ HCancel :: hb -> no_request ha ->
  r <> Err cancel_failed -> (cancels (ha ++ HCancel :: hb) <= 2)%nat ->
  forall i, In i (managed w aws) -> task_done w' i = true.
Proof.
  intros X K V XE xstep finish aws tmo cf w r w' ha hb H Hh NRq NR C i Hi.
  assert (Hne : aws <> []) by (intros ->; destruct Hi).
  destruct (harvest_facts _ _ _ _ _ _ _ _ H Hne) as (w0 & rw & h1 & h2 & w1 & E0 & O & F & R).
  pose proof (harvest_hist _ _ _ _ _ _ _ _ _ _ E0 F) as Hq. rewrite Hh in Hq. apply app_inv_head in Hq.
  rewrite Hq, cancels_app in C. destruct rw as [[]|e]; [now apply (hf_ok _ _ _ _ _ _ _ _ _ F)|].
  subst r. destruct (hf_errs _ _ _ _ _ _ _ _ _ F e eq_refl) as [->|[->| ->]]; [| |congruence].
  - destruct (hf_to _ _ _ _ _ _ _ _ _ F eq_refl) as (_ & _ & _ & AD & _). auto.
  - destruct (hf_canc _ _ _ _ _ _ _ _ _ F eq_refl) as [(Q & [AD|Q2])|(NC & Q)]; [auto| |].
    + apply cancels_In in Q. lia.
    + (* the cancel lies in h1 after all *)
      exfalso. destruct (hf_first _ _ _ _ _ _ _ _ _ F NC) as [->|(k & h' & ->)].
      * cbn in Q. lia.
      * clear - Hq NRq NC. revert h1 Hq NC. induction ha as [|e ha IH]; intros h1 Hq NC.
        -- destruct h1 as [|e1 h1]; cbn in Hq; [discriminate|]. injection Hq as <- _. apply NC. now left.
        -- destruct h1 as [|e1 h1]; cbn in Hq; injection Hq as E1 E2.
           ++ apply (NRq k). left. exact E1.
           ++ apply (IH (fun i Hin => NRq i (or_intror Hin)) h1 E2). intro Q. apply NC. now right.
Qed.
Print Assumptions c26_cancelled_twice_partial.

(** When the documented RuntimeError is raised, the cancel timeout has expired
    and every task left over has been asked to cancel (twice, unless
    cancel_finish). *)
Theorem c26_runtime_error :
  forall X K V XE (xstep : X -> XE -> option (X * bool)) (finish : X -> task K V -> tout V -> option X) aws tmo cf w w' h,
  harvest xstep finish aws tmo cf w (Err cancel_failed) w' -> aws <> [] -> w_hist w' = w_hist w ++ h ->
  first_failure w' (managed w aws) cancel_failed
  \/ (In HTimer h /\ forall i, In i (managed w aws) -> task_done w' i = false -> (reqs i h >= (if cf then 1 else 2))%nat).
Proof.
  intros X K V XE xstep finish aws tmo cf w w' h H Hne Hh.
  destruct (harvest_facts _ _ _ _ _ _ _ _ H Hne) as (w0 & rw & h1 & h2 & w1 & E0 & O & F & R).
  pose proof (harvest_hist _ _ _ _ _ _ _ _ _ _ E0 F) as Hq. rewrite Hh in Hq. apply app_inv_head in Hq. subst h.
  destruct rw as [[]|e]; [destruct R as [(Q & _)|(e & [= <-] & Q)]; [discriminate|now left]|].
  injection R as <-. destruct (hf_fail _ _ _ _ _ _ _ _ _ F eq_refl) as (A & _ & B). right.
  split; [apply in_or_app; now right|]. intros i Hi Di. rewrite reqs_app. specialize (B i Hi Di). lia.
Qed.
Print Assumptions c26_runtime_error.

(** harvest_results leaves nothing running either (one cancellation). *)
Theorem c26_results_partial :
  forall X K V XE (xstep : X -> XE -> option (X * bool)) (finish : X -> task K V -> tout V -> option X) aws tmo w r w' h,
  harvest_results xstep finish aws tmo w r w' -> w_hist w' = w_hist w ++ h ->
  r <> Err cancel_failed -> (cancels h <= 1)%nat ->
  forall i, In i (managed w aws) -> task_done w' i = true.
Proof.
  intros X K V XE xstep finish aws tmo w r w' h H Hh NR C i Hi.
  assert (Hne : aws <> []) by (intros ->; destruct Hi).
  destruct (harvest_results_facts _ _ _ _ _ _ _ H Hne) as (w0 & rw & h1 & h2 & w1 & E0 & O & F & R).
  pose proof (harvest_hist _ _ _ _ _ _ _ _ _ _ E0 F) as Hq. rewrite Hh in Hq. apply app_inv_head in Hq. subst h.
  rewrite cancels_app in C. destruct rw as [[]|e]; [now apply (hf_ok _ _ _ _ _ _ _ _ _ F)|].
  destruct (hf_errs _ _ _ _ _ _ _ _ _ F e eq_refl) as [->|[->| ->]].
  - destruct (hf_to _ _ _ _ _ _ _ _ _ F eq_refl) as (_ & _ & _ & AD & _). auto.
  - destruct (hf_canc _ _ _ _ _ _ _ _ _ F eq_refl) as [(_ & [AD|Q])|(_ & Q)]; [auto|lia|lia].
  - cbn in R. congruence.
Qed.
Print Assumptions c26_results_partial.

(** harvest does not hang once its tasks are done: whatever state the wait is
    in, the callbacks that are ready lead to its resumption. *)
Theorem c26_wakes_up :
  forall X K V XE (xstep : X -> XE -> option (X * bool)) (finish : X -> task K V -> tout V -> option X) mode (w : world X K V) s,
  NoDup (s_cbs s) -> s_cbs s <> [] -> (forall i, In i (s_cbs s) -> task_done w i = true) ->
  exists evs s', wait_run xstep finish mode None (w, s) evs = Some (w, s') /\ s_fired s' = true
  /\ Forall (fun ev => exists i, ev = WCallback i) evs.
Proof.
  intros X K V XE xstep finish mode w s A B C.
  destruct (wait_progress xstep finish mode w _ s eq_refl A B C) as (evs & w' & s' & D & E & F & ->). eauto.
Qed.
Print Assumptions c26_wakes_up.

(** ** C27 *)
Definition c27_full_claim := forall X K V XE (xstep : X -> XE -> option (X * bool)) (finish : X -> task K V -> tout V -> option X)
  aws tmo cf w r w' ha hb i e, harvest xstep finish aws tmo cf w r w' ->
  (forall j, In j (managed w aws) -> task_out w j = None) ->
  w_hist w' = w_hist w ++ ha ++ HDone i (TFail e) :: hb -> In i (managed w aws) ->
  (forall j e', In j (managed w aws) -> ~ In (HDone j (TFail e')) ha) -> ~ In HCancel ha -> ~ In HTimer ha ->
  cancels hb = 0%nat -> ~ In HTimer hb -> r = Err e.

(** harvest raises the first exception in argument order: a sibling that fails
    because it is being cancelled hides the exception that came first. *)
Theorem c27_argument_order_refuted : ~ c27_full_claim.
Proof.
  intro C.
  pose (w' := mk_world [mk_task tt (Some (TFail BrokenPipeError)) 1; mk_task tt (Some (TFail boom)) 0] tt
                       [HDone 1 (TFail boom); HReq 0; HDone 0 (TFail BrokenPipeError)] : world unit unit nat).
  assert (R : harvest xs0 cf0 [AwTask 0; AwTask 1] false false two (Err BrokenPipeError) w').
  { eapply b_bind. { eapply b_bind; [split; reflexivity|]. eapply b_bind; [eapply b_bind; [split; reflexivity|]; eapply b_bind; split; reflexivity|].
      split; reflexivity. }
    eapply b_bind.
    - eapply b_bind.
      + apply b_try. eapply b_bind.
        * eapply b_wait with (evs := [done 1 (TFail boom); callback 1]); [discriminate|reflexivity|]. cbn. split; reflexivity.
        * eapply b_bind; split; reflexivity.
      + cbn. eapply b_bind.
        * apply b_try. eapply b_bind; [eapply b_bind; split; reflexivity|].
          eapply b_bind; [eapply b_wait with (evs := [done 0 (TFail BrokenPipeError); callback 0]); [discriminate|reflexivity|]; cbn; split; reflexivity|].
          split; reflexivity.
        * eapply b_bind; [split; reflexivity|]. eapply b_bind; [split; reflexivity|]. split; reflexivity.
    - eapply b_bind.
      + eapply b_bind; [eapply b_bind; [split; reflexivity|]; split; reflexivity|].
        eapply b_bind; [eapply b_bind; [split; reflexivity|]; split; reflexivity|]. split; reflexivity.
      + apply b_bind_err. eapply b_bind; [split; reflexivity|]. cbn. apply b_bind_err. eapply b_bind; [split; reflexivity|]. cbn. split; reflexivity. }
  specialize (C _ _ _ _ _ _ _ _ _ _ _ _ [] [HReq 0; HDone 0 (TFail BrokenPipeError)] 1 boom R). cbn in C.
  assert (Q : @Err unit BrokenPipeError = Err boom); [apply C; auto|discriminate].
  - intros j [<-|[<-|[]]]; reflexivity.
  - intros [Q|[Q|[]]]; discriminate.
Qed.
Print Assumptions c27_argument_order_refuted.

(** What does hold: harvest raises the exception of the first failed task in
    argument order, or reports a timeout, its own cancellation or the
    RuntimeError; it returns normally only if no task failed. *)
Theorem c27_which_exception_partial :
  forall X K V XE (xstep : X -> XE -> option (X * bool)) (finish : X -> task K V -> tout V -> option X) aws tmo cf w r w',
  harvest xstep finish aws tmo cf w r w' -> aws <> [] ->
  match r with
  | Ok _ => forall i, In i (managed w aws) -> task_done w' i = true /\ forall e, task_out w' i <> Some (TFail e)
  | Err e => first_failure w' (managed w aws) e \/ e = TimeoutError \/ e = CancelledError \/ e = cancel_failed
  end.
Proof.
  intros X K V XE xstep finish aws tmo cf w r w' H Hne.
  destruct (harvest_facts _ _ _ _ _ _ _ _ H Hne) as (w0 & rw & h1 & h2 & w1 & E0 & O & F & R).
  destruct rw as [[]|e].
  - destruct (hf_ok _ _ _ _ _ _ _ _ _ F eq_refl) as [AD _]. destruct R as [(-> & Q)|(e & -> & Q)]; [|now left].
    intros i Hi. split; [now apply AD|]. intros e. now apply Q.
  - subst r. right. apply (hf_errs _ _ _ _ _ _ _ _ _ F e eq_refl).
Qed.
Print Assumptions c27_which_exception_partial.

(** In particular, if only one task failed and nothing timed out or was
    cancelled, its exception is the one raised. *)
Theorem c27_single_failure :
  forall X K V XE (xstep : X -> XE -> option (X * bool)) (finish : X -> task K V -> tout V -> option X) aws tmo cf w r w' h i e,
  harvest xstep finish aws tmo cf w r w' -> w_hist w' = w_hist w ++ h ->
  In i (managed w aws) -> task_out w' i = Some (TFail e) ->
  (forall j e', In j (managed w aws) -> task_out w' j = Some (TFail e') -> e' = e) ->
  ~ In HTimer h -> ~ In HCancel h -> r = Err e.
Proof.
  intros X K V XE xstep finish aws tmo cf w r w' h i e H Hh Hi Fi U NT NC.
  assert (Hne : aws <> []) by (intros ->; destruct Hi).
  destruct (harvest_facts _ _ _ _ _ _ _ _ H Hne) as (w0 & rw & h1 & h2 & w1 & E0 & O & F & R).
  pose proof (harvest_hist _ _ _ _ _ _ _ _ _ _ E0 F) as Hq. rewrite Hh in Hq. apply app_inv_head in Hq. subst h.
  destruct rw as [[]|e0].
  - destruct R as [(_ & Q)|(e1 & -> & pre & k & post & Em & Fk & _)]; [exfalso; now apply (Q i e)|].
    f_equal. apply (U k e1); [rewrite Em; apply in_or_app; right; now left|exact Fk].
  - exfalso. destruct (hf_errs _ _ _ _ _ _ _ _ _ F e0 eq_refl) as [->|[->| ->]].
    + destruct (hf_to _ _ _ _ _ _ _ _ _ F eq_refl) as (_ & Q & _). apply NT. apply in_or_app. now left.
    + destruct (hf_canc _ _ _ _ _ _ _ _ _ F eq_refl) as [(Q & _)|(_ & Q)]; apply NC; apply in_or_app; [now left|right].
      apply cancels_In. lia.
    + destruct (hf_fail _ _ _ _ _ _ _ _ _ F eq_refl) as (Q & _). apply NT. apply in_or_app. now right.
Qed.
Print Assumptions c27_single_failure.

(** ** C28 *)
Lemma done_of_out {X K V} (w w1 : world X K V) h1 i :
  task_out w1 i = match task_out w i with Some o => Some o | None => done_in i h1 end ->
  (task_done w1 i = true <-> finished_by w h1 i) /\ (out_failed (task_out w1 i) = true <-> failed_by w h1 i /\ task_done w1 i = true /\ out_failed (task_out w1 i) = true).
Proof.
  intros E. unfold task_done. rewrite E. split.
  - unfold finished_by. destruct (task_out w i) as [o|]; [split; [exists o; auto|reflexivity]|].
    destruct (done_in i h1) as [o|] eqn:D; [split; [exists o; auto|reflexivity]|]. split; [discriminate|]. intros (o & [Q|Q]); discriminate.
  - split; [|tauto]. intros Q. split; [|split; [|exact Q]].
    + unfold failed_by. destruct (task_out w i) as [[v|e|]|]; try discriminate; [exists e; auto|].
      destruct (done_in i h1) as [[v|e|]|]; try discriminate. exists e; auto.
    + destruct (task_out w i); [reflexivity|]. destruct (done_in i h1); [reflexivity|discriminate].
Qed.
Lemma failed_of_out {X K V} (w w1 : world X K V) h1 i :
  task_out w1 i = match task_out w i with Some o => Some o | None => done_in i h1 end ->
  (forall o, task_out w i = Some o -> done_in i h1 = None) ->
  failed_by w h1 i -> out_failed (task_out w1 i) = true.
Proof.
  intros E N (e & [Q|Q]); rewrite E.
  - now rewrite Q.
  - destruct (task_out w i) as [o|] eqn:O; [rewrite (N o eq_refl) in Q; discriminate|]. now rewrite Q.
Qed.

(** Every managed task finishes by itself before harvest interferes, or is asked
    to cancel; harvest interferes only after a failure, a timeout or its own
    cancellation; and it only cancels its own tasks, while they run. *)
Theorem c28_siblings_are_cancelled :
  forall X K V XE (xstep : X -> XE -> option (X * bool)) (finish : X -> task K V -> tout V -> option X) aws tmo w r w' h,
  harvest xstep finish aws tmo false w r w' -> aws <> [] -> w_hist w' = w_hist w ++ h ->
  (forall i, In (AwTask i) aws -> nth_error (w_tasks w) i <> None) ->
  exists h1 h2, h = h1 ++ h2 /\ no_request h1
  /\ (forall i, In i (managed w aws) -> finished_by w h1 i \/ In (HReq i) h2)
  /\ (forall i, In (HReq i) h2 -> In i (managed w aws) /\ ~ finished_by w h1 i
       /\ (In HCancel h1 \/ In HTimer h1 \/ exists j, In j (managed w aws) /\ failed_by w h1 j)).
Proof.
  intros X K V XE xstep finish aws tmo w r w' h H Hne Hh Hex.
  destruct (harvest_facts _ _ _ _ _ _ _ _ H Hne) as (w0 & rw & h1 & h2 & w1 & E0 & (O & OUT) & F & R).
  pose proof (harvest_hist _ _ _ _ _ _ _ _ _ _ E0 F) as Hq. rewrite Hh in Hq. apply app_inv_head in Hq. subst h.
  specialize (OUT Hex). exists h1, h2. split; [reflexivity|]. split; [apply (hf_nr _ _ _ _ _ _ _ _ _ F)|]. split.
  - intros i Hi. destruct (hf_req _ _ _ _ _ _ _ _ _ F (fun _ => eq_refl) i Hi) as [D|D]; [left|now right].
    now apply (proj1 (done_of_out w w1 h1 i (OUT i Hi))).
  - intros i Hi. destruct (hf_why _ _ _ _ _ _ _ _ _ F i Hi) as (A & B & C). split; [exact A|]. split.
    + intro Q. apply (proj1 (done_of_out w w1 h1 i (OUT i A))) in Q. congruence.
    + destruct C as [C|[C|(j & Hj & C)]]; auto. right; right. exists j. split; [exact Hj|].
      apply (proj2 (done_of_out w w1 h1 j (OUT j Hj))) in C. tauto.
Qed.
Print Assumptions c28_siblings_are_cancelled.

(** A quiet run cancels nothing. *)
Theorem c28_no_needless_cancel :
  forall X K V XE (xstep : X -> XE -> option (X * bool)) (finish : X -> task K V -> tout V -> option X) aws tmo cf w r w' h,
  harvest xstep finish aws tmo cf w r w' -> aws <> [] -> w_hist w' = w_hist w ++ h ->
  (forall i, In i (managed w aws) -> out_failed (task_out w' i) = false) -> ~ In HTimer h -> ~ In HCancel h ->
  no_request h /\ r = Ok tt.
Proof.
  intros X K V XE xstep finish aws tmo cf w r w' h H Hne Hh NF NT NC.
  destruct (harvest_facts _ _ _ _ _ _ _ _ H Hne) as (w0 & rw & h1 & h2 & w1 & E0 & (O & OUT) & F & R).
  pose proof (harvest_hist _ _ _ _ _ _ _ _ _ _ E0 F) as Hq. rewrite Hh in Hq. apply app_inv_head in Hq. subst h.
  split.
  - intros i Hi. apply in_app_or in Hi as [Hi|Hi]; [now apply (hf_nr _ _ _ _ _ _ _ _ _ F) in Hi|].
    destruct (hf_why _ _ _ _ _ _ _ _ _ F i Hi) as (A & B & [C|[C|(j & Hj & C)]]).
    + apply NC. apply in_or_app. now left.
    + apply NT. apply in_or_app. now left.
    + pose proof (out_failed_ext _ _ _ _ (hf_e2 _ _ _ _ _ _ _ _ _ F) C) as Q. rewrite NF in Q by exact Hj. discriminate.
  - destruct rw as [[]|e].
    + destruct R as [(-> & _)|(e & -> & pre & k & post & Em & Fk & _)]; [reflexivity|]. exfalso.
      assert (Q : out_failed (task_out w' k) = false) by (apply NF; rewrite Em; apply in_or_app; right; now left).
      rewrite Fk in Q. discriminate.
    + exfalso. destruct (hf_errs _ _ _ _ _ _ _ _ _ F e eq_refl) as [->|[->| ->]].
      * destruct (hf_to _ _ _ _ _ _ _ _ _ F eq_refl) as (_ & Q & _). apply NT. apply in_or_app. now left.
      * destruct (hf_canc _ _ _ _ _ _ _ _ _ F eq_refl) as [(Q & _)|(_ & Q)]; apply NC; apply in_or_app; [now left|right].
        apply cancels_In. lia.
      * destruct (hf_fail _ _ _ _ _ _ _ _ _ F eq_refl) as (Q & _). apply NT. apply in_or_app. now right.
Qed.
Print Assumptions c28_no_needless_cancel.

(** A quiet run exists: three coroutines finish in the order 2, 0, 1. *)
Definition empty_world : world unit unit nat := mk_world [] tt [].
Definition quiet_end : world unit unit nat :=
  mk_world [mk_task tt (Some (TValue 5)) 0; mk_task tt (Some (TValue 6)) 0; mk_task tt (Some TCancelled) 0] tt
           [HDone 2 TCancelled; HDone 0 (TValue 5); HDone 1 (TValue 6)].
Example c28_example : harvest xs0 cf0 [AwCoro tt; AwCoro tt; AwCoro tt] true false empty_world (Ok tt) quiet_end.
Proof.
  eapply b_bind with (w1 := three) (a := [0; 1; 2]).
  { repeat first [eapply b_bind|split; reflexivity]. }
  eapply b_bind with (w1 := quiet_end) (a := tt).
  - eapply b_bind with (w1 := quiet_end).
    + apply b_try. eapply b_bind.
      * eapply b_wait with (evs := [done 2 TCancelled; done 0 (TValue 5); callback 2; callback 0; done 1 (TValue 6); callback 1]);
          [discriminate|reflexivity|]. cbn. split; reflexivity.
      * eapply b_bind; split; reflexivity.
    + cbn. repeat first [eapply b_bind|split; reflexivity].
  - eapply b_bind with (w1 := quiet_end) (a := tt).
    + repeat first [eapply b_bind|split; reflexivity].
    + cbn [for_]. eapply b_bind with (a := tt); [eapply b_bind; [split; reflexivity|]; cbn; repeat first [eapply b_bind|split; reflexivity]|].
      eapply b_bind with (a := tt); [eapply b_bind; [split; reflexivity|]; cbn; repeat first [eapply b_bind|split; reflexivity]|].
      eapply b_bind with (a := tt); [eapply b_bind; [split; reflexivity|]; cbn; repeat first [eapply b_bind|split; reflexivity]|].
      split; reflexivity.
Qed.

(** ** C29 *)
Definition c29_full_claim := forall X K V XE (xstep : X -> XE -> option (X * bool)) (finish : X -> task K V -> tout V -> option X)
  aws w r w', harvest_results xstep finish aws false w r w' -> aws <> [] -> r <> Err cancel_failed ->
  exists c os, r = Ok (c, os) /\ Forall2 (fun i o => task_out w' i = Some o) (managed w aws) os.

(** harvest_results raises a RuntimeError or AssertionError of a task instead of
    returning it (harvest.py 207-209). *)
Theorem c29_reraised_refuted : ~ c29_full_claim.
Proof.
  intro C.
  pose (e := TFail (V := nat) (RuntimeError "x")).
  pose (w' := mk_world [mk_task tt (Some e) 0] tt [HDone 0 e] : world unit unit nat).
  assert (R : harvest_results xs0 cf0 [AwCoro tt] false empty_world (Err (RuntimeError "x")) w').
  { eapply b_bind with (a := [0]). { repeat first [eapply b_bind|split; reflexivity]. }
    eapply b_bind with (w1 := w') (a := false).
    - apply b_try. eapply b_bind with (w1 := w') (a := tt); [|split; reflexivity]. eapply b_bind with (w1 := w').
      + apply b_try. eapply b_bind; [eapply b_wait with (evs := [done 0 e; callback 0]); [discriminate|reflexivity|]; cbn; split; reflexivity|].
        eapply b_bind; split; reflexivity.
      + cbn. repeat first [eapply b_bind|split; reflexivity].
    - apply b_bind_err. apply b_bind_err. eapply b_bind; [split; reflexivity|]. cbn. split; reflexivity. }
  destruct (C _ _ _ _ _ _ _ _ _ _ R ltac:(discriminate) ltac:(discriminate)) as (c & os & Q & _). discriminate.
Qed.
Print Assumptions c29_reraised_refuted.


(** A cancellation that comes before any cancel request falls in the first wait. *)
Lemma cancel_in_first_wait {X K V} (tasks : list nat) tmo cf (w0 : world X K V) rw w' h1 h2 w1 ha hb :
  hw_facts tasks tmo cf w0 rw w' h1 h2 w1 -> h1 ++ h2 = ha ++ HCancel :: hb -> no_request ha -> In HCancel h1.
Proof.
  intros F Hq NRq. destruct (cancels h1) as [|n] eqn:C; [|apply cancels_In; lia]. exfalso.
  assert (NC : ~ In HCancel h1) by (intro Q; apply cancels_In in Q; lia).
  destruct (hf_first _ _ _ _ _ _ _ _ _ F NC) as [->|(k & h' & ->)].
  - rewrite app_nil_r in Hq. rewrite Hq in NC. apply NC. apply in_or_app. right. now left.
  - clear - Hq NRq NC. revert h1 Hq NC. induction ha as [|e ha IH]; intros h1 Hq NC.
    + destruct h1 as [|e1 h1]; cbn in Hq; [discriminate|]. injection Hq as EE _. apply NC. now left.
    + destruct h1 as [|e1 h1]; cbn in Hq; injection Hq as E1 E2.
      * apply (NRq k). left. now symmetry.
      * apply (IH (fun i Hin => NRq i (or_intror Hin)) h1 E2). intro Q. apply NC. now right.
Qed.
Lemma in_split_noreq {V} (h : list (hev V)) : In HCancel h -> (forall i, ~ In (HReq i) h) ->
  exists ha hb, h = ha ++ HCancel :: hb /\ no_request ha.
Proof.
  intros H NR. apply in_split in H as (ha & hb & ->). exists ha, hb. split; [reflexivity|].
  intros i Hi. apply (NR i). apply in_or_app. now left.
Qed.

(** Missing: tasks that fail with RuntimeError or AssertionError (first
    refutation), and two cancellations of harvest_results itself. *)
Theorem c29_results_positional_partial :
  forall X K V XE (xstep : X -> XE -> option (X * bool)) (finish : X -> task K V -> tout V -> option X) aws tmo w r w' h,
  harvest_results xstep finish aws tmo w r w' -> aws <> [] -> w_hist w' = w_hist w ++ h ->
  match r with
  | Ok (c, os) => Forall2 (fun i o => task_out w' i = Some o) (managed w aws) os
                  /\ (forall ha hb, h = ha ++ HCancel :: hb -> no_request ha -> c = true)
                  /\ (c = true -> (exists ha hb, h = ha ++ HCancel :: hb /\ no_request ha) \/ (cancels h >= 2)%nat)
  | Err e => e = cancel_failed \/ (e = TimeoutError /\ In HTimer h)
             \/ (exists i, In i (managed w aws) /\ task_out w' i = Some (TFail e)
                 /\ (e = AssertionError \/ exists m, e = RuntimeError m))
             \/ (e = InvalidStateError /\ (cancels h >= 2)%nat)
  end.
Proof.
  intros X K V XE xstep finish aws tmo w r w' h H Hne Hh.
  destruct (harvest_results_facts _ _ _ _ _ _ _ H Hne) as (w0 & rw & h1 & h2 & w1 & E0 & O & F & R).
  pose proof (harvest_hist _ _ _ _ _ _ _ _ _ _ E0 F) as Hq. rewrite Hh in Hq. apply app_inv_head in Hq. subst h.
  assert (FW : forall os, Forall2 (fun i o => task_out w' i = Some o /\ ~ reraised o) (managed w aws) os ->
               Forall2 (fun i o => task_out w' i = Some o) (managed w aws) os).
  { clear. intros os. generalize (managed w aws). intros l Q. induction Q as [|i o l1 l2 (A & _) Q IH]; constructor; auto. }
  assert (CI : rw = Err CancelledError -> (exists i, In i (managed w aws) /\ task_done w' i = false) -> (cancels (h1 ++ h2) >= 2)%nat).
  { intros Q (i & Hi & Di). rewrite cancels_app. destruct (hf_canc _ _ _ _ _ _ _ _ _ F Q) as [(_ & [AD|Q2])|(_ & Q2)]; [|lia|lia].
    rewrite AD in Di by exact Hi. discriminate. }
  assert (RE : forall e, (exists i o, In i (managed w aws) /\ task_out w' i = Some o /\ o = TFail e /\ reraised o) ->
               exists i, In i (managed w aws) /\ task_out w' i = Some (TFail e) /\ (e = AssertionError \/ exists m, e = RuntimeError m)).
  { intros e (i & o & A & B & -> & Q). exists i. split; [exact A|]. split; [exact B|].
    destruct Q as [[= ->]|(m & [= ->])]; eauto. }
  destruct rw as [[]|e].
  - destruct R as [(os & -> & Q)|[(e & i & o & -> & Q)|(-> & i & Hi & Di)]].
    + split; [now apply FW|]. split; [|discriminate]. intros ha hb Hq NRq.
      exfalso. apply (proj2 (hf_ok _ _ _ _ _ _ _ _ _ F eq_refl)). eapply cancel_in_first_wait; eauto.
    + right; right; left. apply RE. eauto.
    + destruct (hf_ok _ _ _ _ _ _ _ _ _ F eq_refl) as [AD _]. rewrite AD in Di by exact Hi. discriminate.
  - destruct (hf_errs _ _ _ _ _ _ _ _ _ F e eq_refl) as [->|[->| ->]].
    + subst r. right; left. split; [reflexivity|].
      destruct (hf_to _ _ _ _ _ _ _ _ _ F eq_refl) as (_ & Q & _). apply in_or_app. now left.
    + destruct R as [(os & -> & Q)|[(e & i & o & -> & Q)|(-> & Q)]].
      * split; [now apply FW|]. split; [reflexivity|]. intros _.
        destruct (hf_canc _ _ _ _ _ _ _ _ _ F eq_refl) as [(Q1 & _)|(_ & Q1)]; [left|right; rewrite cancels_app; lia].
        destruct (in_split_noreq h1 Q1 (hf_nr _ _ _ _ _ _ _ _ _ F)) as (ha & hb & -> & NRq).
        exists ha, (hb ++ h2). split; [now rewrite <- app_assoc|exact NRq].
      * right; right; left. apply RE. eauto.
      * right; right; right. auto.
    + cbn in R. subst r. now left.
Qed.
Print Assumptions c29_results_positional_partial.

(** Positions do not follow completion order: three coroutines finish 2, 0, 1. *)
Example c29_example : harvest_results xs0 cf0 [AwCoro tt; AwCoro tt; AwCoro tt] true empty_world
  (Ok (false, [TValue 5; TValue 6; TCancelled])) quiet_end.
Proof.
  eapply b_bind with (w1 := three) (a := [0; 1; 2]).
  { repeat first [eapply b_bind|split; reflexivity]. }
  eapply b_bind with (w1 := quiet_end) (a := false).
  - apply b_try. eapply b_bind with (w1 := quiet_end) (a := tt); [|split; reflexivity]. eapply b_bind with (w1 := quiet_end).
    + apply b_try. eapply b_bind.
      * eapply b_wait with (evs := [done 2 TCancelled; done 0 (TValue 5); callback 2; callback 0; done 1 (TValue 6); callback 1]);
          [discriminate|reflexivity|]. cbn. split; reflexivity.
      * eapply b_bind; split; reflexivity.
    + cbn. repeat first [eapply b_bind|split; reflexivity].
  - repeat first [eapply b_bind|split; reflexivity].
Qed.

(** ** C30 *)
(** Never a spurious TimeoutError: it is a task's own, or a timeout was given
    and expired while no task had failed, and every task is now done, having
    been asked to cancel unless it had already finished. *)
Theorem c30_timeout_only_if_expired :
  forall X K V XE (xstep : X -> XE -> option (X * bool)) (finish : X -> task K V -> tout V -> option X) aws tmo cf w w' h,
  harvest xstep finish aws tmo cf w (Err TimeoutError) w' -> aws <> [] -> w_hist w' = w_hist w ++ h ->
  (forall i, In (AwTask i) aws -> nth_error (w_tasks w) i <> None) ->
  first_failure w' (managed w aws) TimeoutError
  \/ (tmo = true /\ exists h1 h2, h = h1 ++ h2 /\ In HTimer h1 /\ no_request h1
      /\ (forall j, In j (managed w aws) -> ~ failed_by w h1 j)
      /\ (forall i, In i (managed w aws) -> task_done w' i = true /\ (finished_by w h1 i \/ In (HReq i) h2))).
Proof.
  intros X K V XE xstep finish aws tmo cf w w' h H Hne Hh Hex.
  destruct (harvest_facts _ _ _ _ _ _ _ _ H Hne) as (w0 & rw & h1 & h2 & w1 & E0 & (O & OUT) & F & R).
  pose proof (harvest_hist _ _ _ _ _ _ _ _ _ _ E0 F) as Hq. rewrite Hh in Hq. apply app_inv_head in Hq. subst h.
  specialize (OUT Hex).
  destruct rw as [[]|e]; [destruct R as [(Q & _)|(e & [= <-] & Q)]; [discriminate|now left]|].
  injection R as <-. destruct (hf_to _ _ _ _ _ _ _ _ _ F eq_refl) as (T & HT & NC & AD & NF). right.
  split; [exact T|]. exists h1, h2. split; [reflexivity|]. split; [exact HT|]. split; [apply (hf_nr _ _ _ _ _ _ _ _ _ F)|]. split.
  - intros j Hj (e & [Q|Q]); specialize (NF j Hj).
    + rewrite (OUT j Hj), Q in NF. discriminate.
    + rewrite (OUT j Hj) in NF. destruct (task_out w j) as [o|] eqn:Oj; [|rewrite Q in NF; discriminate].
      exfalso. destruct (hf_e1 _ _ _ _ _ _ _ _ _ F) as (_ & _ & Z).
      apply done_in_In in Q. apply Z in Q as [_ Q]. rewrite O in Q. congruence.
  - intros i Hi. split; [now apply AD|].
    destruct (hf_req _ _ _ _ _ _ _ _ _ F (fun Q => False_ind _ (NC Q)) i Hi) as [D|D]; [left|now right].
    now apply (proj1 (done_of_out w w1 h1 i (OUT i Hi))).
Qed.
Print Assumptions c30_timeout_only_if_expired.

(** Conversely, when harvest gives up on an unfinished task although no task has
    failed and nobody cancelled it, it raises TimeoutError (or the RuntimeError). *)
Theorem c30_giving_up_raises_timeout :
  forall X K V XE (xstep : X -> XE -> option (X * bool)) (finish : X -> task K V -> tout V -> option X) aws tmo cf w r w' ha i hb,
  harvest xstep finish aws tmo cf w r w' -> aws <> [] -> w_hist w' = w_hist w ++ ha ++ HReq i :: hb -> no_request ha ->
  (forall j, In (AwTask j) aws -> nth_error (w_tasks w) j <> None) ->
  cancels (ha ++ HReq i :: hb) = 0%nat -> (forall j, In j (managed w aws) -> ~ failed_by w ha j) ->
  In HTimer ha /\ (r = Err TimeoutError \/ r = Err cancel_failed).
Proof.
  intros X K V XE xstep finish aws tmo cf w r w' ha i hb H Hne Hh NRq Hex NC NF.
  destruct (harvest_facts _ _ _ _ _ _ _ _ H Hne) as (w0 & rw & h1 & h2 & w1 & E0 & (O & OUT) & F & R).
  pose proof (harvest_hist _ _ _ _ _ _ _ _ _ _ E0 F) as Hq. rewrite Hh in Hq. apply app_inv_head in Hq.
  specialize (OUT Hex). rewrite Hq, cancels_app in NC.
  assert (N1 : ~ In HCancel h1) by (intro Q; apply cancels_In in Q; lia).
  assert (H2 : h2 <> []).
  { intros ->. rewrite app_nil_r in Hq. apply (hf_nr _ _ _ _ _ _ _ _ _ F i). rewrite <- Hq. apply in_or_app. right. now left. }
  destruct (hf_first _ _ _ _ _ _ _ _ _ F N1) as [?|(k & h' & E2)]; [contradiction|].
  assert (EQ : ha = h1).
  { rewrite E2 in Hq. pose proof (hf_nr _ _ _ _ _ _ _ _ _ F) as NR1. clear - Hq NRq NR1.
    revert h1 Hq NR1. induction ha as [|e ha IH]; intros [|e1 h1] Hq NR1; cbn in Hq; [reflexivity| | |]; injection Hq as A B.
    - exfalso. apply (NR1 i). now left.
    - exfalso. apply (NRq k). now left.
    - f_equal; [exact A|]. apply IH; auto; intros j Hj; [apply (NRq j)|apply (NR1 j)]; now right. }
  subst ha. assert (Hk : In (HReq k) h2) by (rewrite E2; now left).
  destruct (hf_why _ _ _ _ _ _ _ _ _ F k Hk) as (K1 & K2 & K3).
  assert (NF1 : forall j, In j (managed w aws) -> out_failed (task_out w1 j) = false).
  { intros j Hj. destruct (out_failed (task_out w1 j)) eqn:Q; [|reflexivity].
    apply (proj2 (done_of_out w w1 h1 j (OUT j Hj))) in Q. destruct (NF j Hj). tauto. }
  split.
  - destruct K3 as [Q|[Q|(j & Hj & Q)]]; [contradiction|exact Q|]. rewrite NF1 in Q by exact Hj. discriminate.
  - destruct (hf_to_conv _ _ _ _ _ _ _ _ _ F N1 (ex_intro _ k (conj K1 K2)) NF1) as [->|[->|(-> & Q)]]; auto. lia.
Qed.
Print Assumptions c30_giving_up_raises_timeout.

(** A run that times out: task 1 is still running, is cancelled, and harvest raises. *)
Definition timed_out_end : world unit unit nat :=
  mk_world [mk_task tt (Some (TValue 5)) 0; mk_task tt (Some TCancelled) 1] tt
           [HDone 0 (TValue 5); HTimer; HReq 1; HDone 1 TCancelled].
Example c30_example : harvest xs0 cf0 [AwTask 0; AwTask 1] true false two (Err TimeoutError) timed_out_end.
Proof.
  eapply b_bind with (w1 := two) (a := [0; 1]). { repeat first [eapply b_bind|split; reflexivity]. }
  apply b_bind_err. eapply b_bind.
  - apply b_try. eapply b_bind.
    + eapply b_wait with (evs := [done 0 (TValue 5); callback 0; WTimer]); [discriminate|reflexivity|]. cbn. split; reflexivity.
    + eapply b_bind; split; reflexivity.
  - cbn. eapply b_bind.
    + apply b_try. eapply b_bind; [eapply b_bind; split; reflexivity|].
      eapply b_bind; [eapply b_wait with (evs := [done 1 TCancelled; callback 1]); [discriminate|reflexivity|]; cbn; split; reflexivity|].
      split; reflexivity.
    + repeat first [eapply b_bind|split; reflexivity].
Qed.

(** ** C31 *)
Definition c31_full_claim := forall X K V XE (xstep : X -> XE -> option (X * bool)) (finish : X -> task K V -> tout V -> option X)
  aws tmo w r w' h, harvest xstep finish aws tmo false w r w' -> aws <> [] -> w_hist w' = w_hist w ++ h ->
  In HCancel h -> r = Err CancelledError \/ r = Err cancel_failed.

(** A cancellation that arrives while harvest waits for the siblings of a failed
    task is swallowed: harvest raises the task's exception instead. *)
Theorem c31_swallowed_refuted : ~ c31_full_claim.
Proof.
  intro C.
  pose (w' := mk_world [mk_task tt (Some (TFail boom)) 0; mk_task tt (Some TCancelled) 1] tt
                       [HDone 0 (TFail boom); HReq 1; HCancel; HDone 1 TCancelled] : world unit unit nat).
  assert (R : harvest xs0 cf0 [AwTask 0; AwTask 1] false false two (Err boom) w').
  { eapply b_bind with (w1 := two) (a := [0; 1]). { repeat first [eapply b_bind|split; reflexivity]. }
    eapply b_bind with (w1 := w') (a := tt).
    - eapply b_bind.
      + apply b_try. eapply b_bind.
        * eapply b_wait with (evs := [done 0 (TFail boom); callback 0]); [discriminate|reflexivity|]. cbn. split; reflexivity.
        * eapply b_bind; split; reflexivity.
      + cbn. eapply b_bind with (w1 := w') (a := tt).
        * eapply b_try_err with (e := CancelledError); [|reflexivity|].
          -- eapply b_bind; [eapply b_bind; split; reflexivity|]. apply b_bind_err.
             eapply b_wait with (evs := [cancelled_now]); [discriminate|reflexivity|]. reflexivity.
          -- eapply b_bind; [eapply b_wait with (evs := [done 1 TCancelled; callback 1]); [discriminate|reflexivity|]; cbn; split; reflexivity|].
             split; reflexivity.
        * repeat first [eapply b_bind|split; reflexivity].
    - eapply b_bind with (w1 := w') (a := tt); [repeat first [eapply b_bind|split; reflexivity]|].
      apply b_bind_err. eapply b_bind; [split; reflexivity|]. cbn. apply b_bind_err. eapply b_bind; [split; reflexivity|]. cbn. split; reflexivity. }
  destruct (C _ _ _ _ _ _ _ _ _ _ _ _ R ltac:(discriminate) eq_refl) as [Q|Q]; [cbn; tauto|discriminate Q|discriminate Q].
Qed.
Print Assumptions c31_swallowed_refuted.

(** What holds: a cancellation that arrives before harvest has started to cancel
    its tasks is never lost, and reaches every unfinished task. *)
Theorem c31_cancel_propagates_partial :
  forall X K V XE (xstep : X -> XE -> option (X * bool)) (finish : X -> task K V -> tout V -> option X) aws tmo w r w' ha hb,
  harvest xstep finish aws tmo false w r w' -> aws <> [] -> w_hist w' = w_hist w ++ ha ++ HCancel :: hb -> no_request ha ->
  (forall j, In (AwTask j) aws -> nth_error (w_tasks w) j <> None) ->
  (r = Err CancelledError \/ r = Err cancel_failed)
  /\ (forall i, In i (managed w aws) -> (exists hd, (exists hr, hd ++ hr = ha ++ HCancel :: hb) /\ no_request hd /\ finished_by w hd i) \/ In (HReq i) hb)
  /\ (r = Err CancelledError -> (cancels (ha ++ HCancel :: hb) <= 2)%nat -> forall i, In i (managed w aws) -> task_done w' i = true).
Proof.
  intros X K V XE xstep finish aws tmo w r w' ha hb H Hne Hh NRq Hex.
  destruct (harvest_facts _ _ _ _ _ _ _ _ H Hne) as (w0 & rw & h1 & h2 & w1 & E0 & (O & OUT) & F & R).
  pose proof (harvest_hist _ _ _ _ _ _ _ _ _ _ E0 F) as Hq. rewrite Hh in Hq. apply app_inv_head in Hq.
  specialize (OUT Hex).
  assert (I1 : In HCancel h1) by (eapply cancel_in_first_wait; eauto).
  assert (RR : r = rw /\ (rw = Err CancelledError \/ rw = Err cancel_failed)).
  { destruct (hf_canc_first _ _ _ _ _ _ _ _ _ F I1) as [->| ->]; subst r; auto. }
  destruct RR as [-> RR]. split; [exact RR|]. split.
  - intros i Hi. destruct (hf_req _ _ _ _ _ _ _ _ _ F (fun _ => eq_refl) i Hi) as [D|D].
    + left. exists h1. split; [now exists h2|]. split; [apply (hf_nr _ _ _ _ _ _ _ _ _ F)|].
      now apply (proj1 (done_of_out w w1 h1 i (OUT i Hi))).
    + right. assert (Q : In (HReq i) (ha ++ HCancel :: hb)) by (rewrite Hq; apply in_or_app; now right).
      apply in_app_or in Q as [Q|[Q|Q]]; [now apply NRq in Q|discriminate|exact Q].
  - intros -> C i Hi. rewrite Hq, cancels_app in C. apply cancels_In in I1.
    destruct (hf_canc _ _ _ _ _ _ _ _ _ F eq_refl) as [(_ & [AD|Q])|(Q & _)]; [auto|lia|].
    exfalso. apply Q. apply cancels_In. lia.
Qed.
Print Assumptions c31_cancel_propagates_partial.

(** A cancelled run. *)
Definition cancelled_end (h : list (hev nat)) (n : nat) (o : tout nat) : world unit unit nat :=
  mk_world [mk_task tt (Some (TValue 5)) 0; mk_task tt (Some o) n] tt h.
Example c31_example : harvest xs0 cf0 [AwTask 0; AwTask 1] true false two (Err CancelledError)
  (cancelled_end [HDone 0 (TValue 5); HCancel; HReq 1; HDone 1 TCancelled] 1 TCancelled).
Proof.
  eapply b_bind with (w1 := two) (a := [0; 1]). { repeat first [eapply b_bind|split; reflexivity]. }
  apply b_bind_err. apply b_bind_err. eapply b_try_err with (e := CancelledError); [|reflexivity|].
  - apply b_bind_err. eapply b_wait with (evs := [done 0 (TValue 5); callback 0; cancelled_now]); [discriminate|reflexivity|]. reflexivity.
  - eapply b_bind with (a := tt).
    + apply b_try. eapply b_bind; [repeat first [eapply b_bind|split; reflexivity]|].
      eapply b_bind; [eapply b_wait with (evs := [callback 0; done 1 TCancelled; callback 1]); [discriminate|reflexivity|]; cbn; split; reflexivity|].
      split; reflexivity.
    + repeat first [eapply b_bind|split; reflexivity].
Qed.

(** ** C32 *)
(** With cancel_finish, cancelling harvest while its tasks run requests no
    cancellation of any of them unless the cancel timeout expires (RuntimeError);
    and if harvest is cancelled at most twice all tasks have finished. *)
Theorem c32_cancel_finish :
  forall X K V XE (xstep : X -> XE -> option (X * bool)) (finish : X -> task K V -> tout V -> option X) aws tmo w r w' ha hb,
  harvest xstep finish aws tmo true w r w' -> aws <> [] -> w_hist w' = w_hist w ++ ha ++ HCancel :: hb -> no_request ha ->
  (r = Err CancelledError /\ no_request hb
     /\ ((cancels (ha ++ HCancel :: hb) <= 2)%nat -> forall i, In i (managed w aws) -> task_done w' i = true))
  \/ (r = Err cancel_failed /\ In HTimer (ha ++ HCancel :: hb)).
Proof.
  intros X K V XE xstep finish aws tmo w r w' ha hb H Hne Hh NRq.
  destruct (harvest_facts _ _ _ _ _ _ _ _ H Hne) as (w0 & rw & h1 & h2 & w1 & E0 & (O & OUT) & F & R).
  pose proof (harvest_hist _ _ _ _ _ _ _ _ _ _ E0 F) as Hq. rewrite Hh in Hq. apply app_inv_head in Hq.
  assert (I1 : In HCancel h1) by (eapply cancel_in_first_wait; eauto).
  destruct (hf_canc_first _ _ _ _ _ _ _ _ _ F I1) as [->| ->]; subst r.
  - left. split; [reflexivity|]. split.
    + intros i Hi. assert (Q : In (HReq i) (h1 ++ h2)) by (rewrite <- Hq; apply in_or_app; right; now right).
      apply in_app_or in Q as [Q|Q]; [now apply (hf_nr _ _ _ _ _ _ _ _ _ F) in Q|].
      pose proof (hf_cf _ _ _ _ _ _ _ _ _ F I1 eq_refl (ex_intro _ i Q)) as Z. discriminate.
    + intros C i Hi. rewrite Hq, cancels_app in C. apply cancels_In in I1.
      destruct (hf_canc _ _ _ _ _ _ _ _ _ F eq_refl) as [(_ & [AD|Q])|(Q & _)]; [auto|lia|].
      exfalso. apply Q. apply cancels_In. lia.
  - right. split; [reflexivity|]. destruct (hf_fail _ _ _ _ _ _ _ _ _ F eq_refl) as (Q & _).
    rewrite Hq. apply in_or_app. now right.
Qed.
Print Assumptions c32_cancel_finish.

Example c32_example : harvest xs0 cf0 [AwTask 0; AwTask 1] true true two (Err CancelledError)
  (cancelled_end [HDone 0 (TValue 5); HCancel; HDone 1 (TValue 6)] 0 (TValue 6)).
Proof.
  eapply b_bind with (w1 := two) (a := [0; 1]). { repeat first [eapply b_bind|split; reflexivity]. }
  apply b_bind_err. apply b_bind_err. eapply b_try_err with (e := CancelledError); [|reflexivity|].
  - apply b_bind_err. eapply b_wait with (evs := [done 0 (TValue 5); callback 0; cancelled_now]); [discriminate|reflexivity|]. reflexivity.
  - eapply b_bind with (a := tt).
    + apply b_try. eapply b_bind; [split; reflexivity|].
      eapply b_bind; [eapply b_wait with (evs := [callback 0; done 1 (TValue 6); callback 1]); [discriminate|reflexivity|]; cbn; split; reflexivity|].
      split; reflexivity.
    + repeat first [eapply b_bind|split; reflexivity].
Qed.
