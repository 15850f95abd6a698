From Verif Require Import AsyncModel AsyncSpec AsyncProofs HarvestModel HarvestSpec HarvestProofs HarvestProofs2 AsyncInv
  RunnerModel RunnerSpec RunnerProofs RunnerProofs2 RunnerProofs3 RunnerProofs4.
Open Scope Z_scope.

Section R.
Context (o : opts) (ext piped_stdin use_pty : bool).
Notation world := (world rx rkind unit).
Notation M := (@M rx rkind unit).
Notation rstep := (rstep o).
Notation rfinish := (rfinish ext).
Notation harvest := (harvest rstep rfinish).
Notation kill_wait := (kill_wait o ext).
Notation kill := (kill o ext).
Notation wait := (wait o ext).
Notation close := (close o ext piped_stdin).
Notation finish := (finish o ext piped_stdin).
Notation aexit := (aexit o ext piped_stdin).
Notation J := (J ext).
Notation reg := (reg o ext).
Notation envrel := (envrel o).
Notation opt_harvest := (opt_harvest o ext).

(** Number of cancellations of the main task so far. *)
Definition mk (w : world) : nat := marks (x_log (w_x w)).
Lemma reg_mk w w' : reg w w' -> (mk w <= mk w')%nat.
Proof. intros (_ & l & h & P). unfold mk. rewrite (pr_log _ _ _ _ _ P), marks_app. lia. Qed.
Lemma envrel_mk w w' l h : envrel w w' l h -> mk w' = (mk w + marks l)%nat.
Proof. intros E. unfold mk. now rewrite (fr_log _ _ _ (er_frame _ _ _ _ _ E)), marks_app. Qed.
Lemma envrel_reg w w' l h : (J w -> J w') -> envrel w w' l h -> reg w w'.
Proof. intros H E. split; [exact H|]. exists l, h. now apply envrel_prel. Qed.

Lemma reg_failed w w' e : reg w w' -> task_failed w e -> task_failed w' e.
Proof. intros (_ & l & h & P) (i & H). exists i. rewrite (pr_hist _ _ _ _ _ P). apply in_or_app. now left. Qed.

Lemma harvest_errs aws t cf w e w' : harvest aws t cf w (Err e) w' -> aws <> [] -> J w ->
  (e = TimeoutError /\ t = true) \/ (e = CancelledError /\ (mk w < mk w')%nat) \/ e = cancel_failed
  \/ (is_Exception e = true /\ task_failed w' e).
Proof.
  intros H Hne HJ. pose proof (harvest_envrel _ _ _ _ _ _ _ _ H) as (l & h & E).
  pose proof (harvest_reg _ _ _ _ _ _ _ _ H) as [RJ _]. destruct (RJ HJ) as (_ & _ & (_ & HIw) & _).
  destruct (harvest_facts _ _ _ _ _ _ _ _ H Hne) as (w0 & rw & h1 & h2 & w1 & E0 & _ & F & R).
  pose proof (harvest_hist _ _ _ _ _ _ _ _ _ _ E0 F) as HH.
  destruct rw as [[]|e'].
  - destruct R as [(Q & _)|(e' & [= <-] & p & i & q & Q & O & _)]; [discriminate|]. right; right; right.
    destruct (HIw i _ O) as [A B]. split; [now apply B|]. now exists i.
  - injection R as ->. destruct (hf_errs _ _ _ _ _ _ _ _ _ F e' eq_refl) as [->|[->| ->]]; auto.
    + left. split; [reflexivity|]. apply (hf_to _ _ _ _ _ _ _ _ _ F eq_refl).
    + right; left. split; [reflexivity|]. rewrite (envrel_mk _ _ _ _ E), (er_marks _ _ _ _ _ E).
      assert (h = h1 ++ h2) as -> by (rewrite (er_hist _ _ _ _ _ E) in HH; now apply app_inv_head in HH).
      rewrite cancels_app. destruct (hf_canc _ _ _ _ _ _ _ _ _ F eq_refl) as [(Q & _)|(_ & Q)]; [apply cancels_In in Q; lia|lia].
Qed.
Lemma harvest_ok_mk aws t cf w w' : harvest aws t cf w (Ok tt) w' -> aws <> [] -> mk w' = mk w.
Proof.
  intros H Hne. pose proof (harvest_envrel _ _ _ _ _ _ _ _ H) as (l & h & E).
  destruct (harvest_ok_no_req _ _ _ _ _ _ _ H Hne) as (h' & HH & _ & NC & _).
  assert (h = h') as -> by (rewrite (er_hist _ _ _ _ _ E) in HH; now apply app_inv_head in HH).
  rewrite (envrel_mk _ _ _ _ E), (er_marks _ _ _ _ _ E).
  destruct (cancels h') eqn:Q; [lia|]. elim NC. apply cancels_In. lia.
Qed.
Lemma opt_harvest_errs ts t w e w' : opt_harvest ts t w (Err e) w' -> J w ->
  ts <> [] /\ ((e = TimeoutError /\ t = true) \/ (e = CancelledError /\ (mk w < mk w')%nat) \/ e = cancel_failed
  \/ (is_Exception e = true /\ task_failed w' e)).
Proof.
  unfold RunnerProofs4.opt_harvest. destruct ts as [|i ts]; [intros [Q _]; discriminate|]. intros H HJ. split; [discriminate|].
  eapply harvest_errs; eauto. discriminate.
Qed.
Lemma opt_harvest_envrel ts t w r w' : opt_harvest ts t w r w' -> exists l h, envrel w w' l h.
Proof.
  unfold RunnerProofs4.opt_harvest. destruct ts; [intros [_ ->]; exists [], []; apply envrel_refl|apply harvest_envrel].
Qed.
Lemma opt_harvest_ok ts t w w' : opt_harvest ts t w (Ok tt) w' -> mk w' = mk w.
Proof.
  unfold RunnerProofs4.opt_harvest. destruct ts; [intros [_ ->]; reflexivity|]. intros H. eapply harvest_ok_mk; eauto. discriminate.
Qed.

(** The run's waiter is one of its tasks and nobody has cancelled it. *)
Definition WI (w : world) : Prop := exists i t, In i (x_tasks (w_x w)) /\ nth_error (w_tasks w) i = Some t /\ t_kind t = KWaiter /\ t_creq t = 0%nat.
Lemma managed_tasks (w : world) ts : managed w (map AwTask ts) = ts.
Proof. unfold managed. generalize (List.length (w_tasks w)). induction ts; intros n; cbn; [reflexivity|]. now rewrite IHts. Qed.
Lemma opt_harvest_waiter w w' t : opt_harvest (x_tasks (w_x w)) t w (Ok tt) w' -> WI w -> J w -> ext = false ->
  x_rc (w_x w') <> None /\ x_timer (w_x w') = false.
Proof.
  intros H (i & tk & Hi & Ni & K & C) HJ E. unfold RunnerProofs4.opt_harvest in H. destruct (x_tasks (w_x w)) as [|a ts] eqn:TS; [destruct Hi|].
  assert (Hne : map (@AwTask rkind) (a :: ts) <> []) by discriminate.
  pose proof (harvest_reg _ _ _ _ _ _ _ _ H) as [RJ _]. destruct (RJ HJ) as (_ & T' & _ & Tm').
  destruct (harvest_ok_no_req _ _ _ _ _ _ _ H Hne) as (h & HH & NR & _ & (w0 & E0 & E1) & D).
  destruct (D i) as [Di _]; [now rewrite managed_tasks|].
  destruct (extends_trans _ _ _ _ _ E0 E1) as (_ & EX & _). destruct (EX i tk Ni) as (t' & N' & K' & _ & C').
  assert (C0 : t_creq t' = 0%nat).
  { rewrite C', C. cbn. destruct (reqs i h) eqn:Q; [reflexivity|]. elim (NR i). apply reqs_In. lia. }
  split.
  - eapply (waiter_done ext w' i t'); eauto. congruence.
  - eapply (Tm' i t'); [exact N'|congruence|]. unfold task_done, task_out in Di. rewrite N' in Di. destruct (t_out t'); discriminate.
Qed.

(** _wait. *)
Definition cancelled_now (w : world) : world := upd_x w (fun x => set_timer false (set_canc true x)).
Definition cleared (w : world) : world := upd_x w (set_tasks []).
Lemma cancelled_now_reg w : reg w (cancelled_now w).
Proof. apply (r_set_cancelled o ext w (Ok tt)). split; reflexivity. Qed.
Lemma cleared_reg w : reg w (cleared w).
Proof. apply (r_clear_tasks o ext w (Ok tt)). split; reflexivity. Qed.
Inductive wait_case (w : world) (r : res unit) (w' : world) : Prop :=
| wc_ok : r = Ok tt -> opt_harvest (x_tasks (w_x w)) false w (Ok tt) w' -> wait_case w r w'
| wc_canc w1 : opt_harvest (x_tasks (w_x w)) false w (Err CancelledError) w1 -> (mk w < mk w1)%nat ->
    kill (cleared (cancelled_now w1)) r w' -> wait_case w r w'
| wc_fail e w1 rk : opt_harvest (x_tasks (w_x w)) false w (Err e) w1 -> e = cancel_failed \/ task_failed w1 e -> is_Exception e = true ->
    kill (cleared w1) rk w' -> r = match rk with Ok _ => Err e | Err e' => Err e' end -> wait_case w r w'.
Lemma wait_cases w r w' : wait w r w' -> J w -> x_proc (w_x w) = true -> wait_case w r w'.
Proof.
  intros H HJ PR. unfold RunnerModel.wait in H.
  destruct H as [([] & w1 & H1 & H)|(e & H1 & _)]; apply i_getx in H1; rewrite PR in H1; destruct H1 as [Q ->]; [clear Q|discriminate].
  change (tryM (bindM (getx x_tasks) (fun ts => opt_harvest ts false))
       (fun e => match e with
                 | CancelledError => Some (bindM set_cancelled (fun _ => bindM clear_tasks (fun _ => kill)))
                 | _ => if is_Exception e then Some (bindM clear_tasks (fun _ => bindM kill (fun _ => raise e))) else None
                 end) w r w') in H.
  destruct H as [([] & H & ->)|(e & w1 & H & H2)]; apply i_getx in H; [now apply wc_ok|].
  destruct (opt_harvest_errs _ _ _ _ _ H HJ) as [_ [(_ & Q)|[(-> & Q)|[->|(X & Q)]]]]; [discriminate| | |].
  - apply (wc_canc _ _ _ w1); auto. apply i_modx in H2. apply i_modx in H2. exact H2.
  - cbn in H2. apply i_modx in H2. apply i_then_raise in H2 as (rk & H2 & R). apply (wc_fail _ _ _ cancel_failed w1 rk); auto. destruct rk; exact R.
  - assert (H3 : bindM clear_tasks (fun _ => bindM kill (fun _ => raise e)) w1 r w') by (rewrite X in H2; destruct e; try exact H2; discriminate X).
    apply i_modx in H3. apply i_then_raise in H3 as (rk & H3 & R). apply (wc_fail _ _ _ e w1 rk); auto. destruct rk; exact R.
Qed.
Lemma wait_reg w r w' : wait w r w' -> J w -> x_proc (w_x w) = true -> reg w w'.
Proof.
  intros H HJ PR. destruct (wait_cases _ _ _ H HJ PR) as [_ H1|w1 H1 _ H2|e w1 rk H1 _ _ H2 _]; pose proof (r_opt_harvest _ _ _ _ _ _ _ H1) as R1.
  - exact R1.
  - assert (R2 : reg w (cleared (cancelled_now w1))).
    { eapply reg_trans; [exact R1|]. eapply reg_trans; [apply cancelled_now_reg|apply cleared_reg]. }
    eapply reg_trans; [exact R2|]. apply (kill_spec o ext _ _ _ H2); [apply R2; exact HJ|exact (reg_proc _ _ _ _ R2 PR)].
  - assert (R2 : reg w (cleared w1)). { eapply reg_trans; [exact R1|]. apply cleared_reg. }
    eapply reg_trans; [exact R2|]. apply (kill_spec o ext _ _ _ H2); [apply R2; exact HJ|exact (reg_proc _ _ _ _ R2 PR)].
Qed.

(** _close. *)
Definition force_close (x : rx) : rx := popen_send SIGKILL (log LClosed x).
Lemma force_close_reg w : x_rc (w_x w) = None -> reg w (upd_x w force_close).
Proof.
  intros N. destruct (popen_frame SIGKILL (log LClosed (w_x w))) as (l & F & L).
  pose proof (frame_trans _ _ _ _ _ (frame_log (w_x w) LClosed) F) as G.
  assert (RC : x_rc (force_close (w_x w)) = x_rc (w_x w)) by (unfold force_close, popen_send, popen_poll; cbn; destruct (x_exit (w_x w)); reflexivity).
  assert (LC : x_launching (force_close (w_x w)) = x_launching (w_x w)) by (unfold force_close, popen_send, popen_poll; cbn; destruct (x_exit (w_x w)); reflexivity).
  assert (CH : x_child (force_close (w_x w)) = x_child (w_x w)) by (unfold force_close, popen_send, popen_poll; cbn; destruct (x_exit (w_x w)); reflexivity).
  assert (PC : x_proc (force_close (w_x w)) = x_proc (w_x w)) by (unfold force_close, popen_send, popen_poll; cbn; destruct (x_exit (w_x w)); reflexivity).
  split.
  - intros (X & T & (Mk & HIw) & Tm). split; [|split; [|split; [split|]]].
    + apply XI_popen_send; [apply XI_log; cbn; auto; intros (s & Q); discriminate|].
      exists LClosed. split; [apply in_or_app; right; now left|right; now right].
    + now apply TI_x.
    + unfold MK in *. change (w_x (upd_x w force_close)) with (force_close (w_x w)). unfold force_close. rewrite (fr_log _ _ _ G), marks_app, Mk.
      destruct L as [->| ->]; cbn; lia.
    + exact HIw.
    + intros i t Q1 Q2 Q3. eapply timer_false; [exact G|]. eapply Tm; eauto.
  - exists ([LClosed] ++ l), []. destruct G. constructor; auto; cbn [w_x w_hist upd_x]; try congruence.
    + now rewrite app_nil_r.
    + destruct L as [->| ->]; reflexivity.
    + destruct L as [->| ->]; reflexivity.
    + intros Q. unfold force_close. rewrite fr_canc. exact Q.
Qed.
Lemma close_spec w r w' : close w r w' -> J w -> x_proc (w_x w) = true -> reg w w' /\ dead w'
  /\ ((x_rc (w_x w) = None /\ r = Ok tt /\ w' = upd_x w force_close)
      \/ (x_rc (w_x w) <> None /\ (exists l h, envrel w w' l h)
          /\ (forall e, r = Err e -> (e = CancelledError /\ (mk w < mk w')%nat) \/ e = cancel_failed \/ (is_Exception e = true /\ task_failed w' e)))).
Proof.
  intros H HJ PR. unfold RunnerModel.close in H.
  destruct H as [([] & w1 & H1 & H)|(e & H1 & _)]; apply i_getx in H1; rewrite PR in H1; destruct H1 as [Q ->]; [clear Q|discriminate].
  destruct H as [([] & w1 & [_ ->] & H)|(e & [Q _] & _)]; [|discriminate]. fold (upd_x w (fun x => match x_rc x with None => popen_send SIGKILL (log LClosed x) | Some _ => x end)) in H.
  destruct (x_rc (w_x w)) eqn:N.
  - assert (W : upd_x w (fun x => match x_rc x with None => popen_send SIGKILL (log LClosed x) | Some _ => x end) = w).
    { unfold upd_x. rewrite N. destruct w; reflexivity. } rewrite W in H. apply i_getx in H. rewrite N in H.
    assert (N' : x_rc (w_x w) <> None) by congruence.
    destruct piped_stdin.
    + destruct H as [([] & H & ->)|(e & w1 & H & H2)]; pose proof (harvest_reg _ _ _ _ _ _ _ _ H) as R; pose proof (harvest_envrel _ _ _ _ _ _ _ _ H) as E.
      * split; [exact R|]. split; [apply (rc_dead ext); [apply R; exact HJ|exact (reg_rc _ _ _ _ R N')]|]. right. split; [discriminate|]. split; [exact E|discriminate].
      * destruct (harvest_errs _ _ _ _ _ _ H ltac:(discriminate) HJ) as [(-> & _)|D].
        -- destruct H2 as [-> ->]. split; [exact R|]. split; [apply (rc_dead ext); [apply R; exact HJ|exact (reg_rc _ _ _ _ R N')]|].
           right. split; [discriminate|]. split; [exact E|discriminate].
        -- assert (HR : (r = Err e \/ r = Ok tt) /\ w' = w1) by (destruct e; destruct H2 as [-> ->]; auto).
           destruct HR as [HR ->]. split; [exact R|]. split; [apply (rc_dead ext); [apply R; exact HJ|exact (reg_rc _ _ _ _ R N')]|].
           right. split; [discriminate|]. split; [exact E|]. intros e' ->. destruct HR as [[= <-]|Q]; [exact D|discriminate].
    + destruct H as [-> ->]. split; [apply reg_refl|]. split; [now apply (rc_dead ext)|]. right. split; [discriminate|].
      split; [exists [], []; apply envrel_refl|discriminate].
  - assert (W : upd_x w (fun x => match x_rc x with None => popen_send SIGKILL (log LClosed x) | Some _ => x end) = upd_x w force_close).
    { unfold upd_x. rewrite N. reflexivity. } rewrite W in H. apply i_getx in H.
    assert (N2 : x_rc (w_x (upd_x w force_close)) = None).
    { cbn. unfold force_close, popen_send, popen_poll. cbn. destruct (x_exit (w_x w)); exact N. }
    rewrite N2 in H. destruct H as [-> ->]. split; [now apply force_close_reg|]. split; [|left; auto].
    unfold dead, has. cbn. unfold force_close, popen_send, popen_poll. cbn. destruct (x_exit (w_x w)) eqn:EX; cbn; [left; congruence|right].
    rewrite !in_app_iff. cbn. auto.
Qed.

(** _finish. *)
Inductive finish_case (exc : option exn) (w : world) (r : res bool) (w' : world) : Prop :=
| fc_body e w1 rk rc : exc = Some e -> kill (if is_cancelled e then cancelled_now w else w) rk w1 -> close w1 rc w' ->
    r = match rc with Err e' => Err e' | Ok _ => match rk with Ok _ => Ok (x_cancelled (w_x w1)) | Err e' => Err e' end end -> finish_case exc w r w'
| fc_normal w1 rk rc : exc = None -> wait w rk w1 -> close w1 rc w' ->
    r = match rc with Err e' => Err e' | Ok _ => match rk with Ok _ => Ok false | Err e' => Err e' end end -> finish_case exc w r w'.
Lemma finish_cases exc w r w' : finish exc w r w' -> x_proc (w_x w) = true -> finish_case exc w r w'.
Proof.
  intros H PR. unfold RunnerModel.finish in H.
  destruct H as [([] & w1 & H1 & H)|(e & H1 & _)]; apply i_getx in H1; rewrite PR in H1; destruct H1 as [Q ->]; [clear Q|discriminate].
  destruct H as (r1 & w1 & H1 & HC). destruct exc as [e|].
  - assert (HK : exists rk, kill (if is_cancelled e then cancelled_now w else w) rk w1
       /\ r1 = match rk with Ok _ => Ok (x_cancelled (w_x w1)) | Err e' => Err e' end).
    { destruct H1 as [([] & wa & H1 & H2)|(e' & H1 & ->)].
      - assert (wa = if is_cancelled e then cancelled_now w else w) as -> by (destruct (is_cancelled e); destruct H1 as [_ ->]; reflexivity).
        destruct H2 as [([] & wb & H2 & [-> ->])|(e' & H2 & ->)]; [exists (Ok tt)|exists (Err e')]; auto.
      - destruct (is_cancelled e); destruct H1 as [Q _]; discriminate. }
    destruct HK as (rk & HK & ->). destruct HC as [(HC & ->)|(e' & HC & ->)].
    + eapply (fc_body _ _ _ _ e w1 rk (Ok tt)); eauto.
    + eapply (fc_body _ _ _ _ e w1 rk (Err e')); eauto.
  - assert (HK : exists rk, wait w rk w1 /\ r1 = match rk with Ok _ => Ok false | Err e' => Err e' end).
    { destruct H1 as [([] & wb & H2 & [-> ->])|(e' & H2 & ->)]; [exists (Ok tt)|exists (Err e')]; auto. }
    destruct HK as (rk & HK & ->). destruct HC as [(HC & ->)|(e' & HC & ->)].
    + eapply (fc_normal _ _ _ _ w1 rk (Ok tt)); eauto.
    + eapply (fc_normal _ _ _ _ w1 rk (Err e')); eauto.
Qed.
Lemma finish_reg exc w r w' : finish exc w r w' -> J w -> x_proc (w_x w) = true -> reg w w' /\ dead w'.
Proof.
  intros H HJ PR. destruct (finish_cases _ _ _ _ H PR) as [e w1 rk rc _ H1 H2 _|w1 rk rc _ H1 H2 _].
  - assert (R0 : reg w (if is_cancelled e then cancelled_now w else w)) by (destruct (is_cancelled e); [apply cancelled_now_reg|apply reg_refl]).
    assert (R1 : reg w w1).
    { eapply reg_trans; [exact R0|]. apply (kill_spec o ext _ _ _ H1); [apply R0; exact HJ|exact (reg_proc _ _ _ _ R0 PR)]. }
    destruct (close_spec _ _ _ H2) as (R2 & D & _); [apply R1; exact HJ|exact (reg_proc _ _ _ _ R1 PR)|].
    split; [eapply reg_trans; eauto|exact D].
  - assert (R1 : reg w w1) by (eapply wait_reg; eauto).
    destruct (close_spec _ _ _ H2) as (R2 & D & _); [apply R1; exact HJ|exact (reg_proc _ _ _ _ R1 PR)|].
    split; [eapply reg_trans; eauto|exact D].
Qed.

(** __aexit__. *)
Definition stopped (w : world) : world := upd_x w (fun x => set_inside false (audit o (PStop None) (set_timer false x))).
Definition exit_value (w : world) (b : bool) : res bool :=
  if x_cancelled (w_x w) && x_timed_out (w_x w) && negb (o_catch_cancelled o) then Err TimeoutError else Ok b.
Inductive aexit_case (exc : option exn) (w : world) (r : res bool) (w' : world) : Prop :=
| ac_ok w1 b : finish exc w (Ok b) w1 -> w' = stopped w1 -> r = exit_value w1 b -> aexit_case exc w r w'
| ac_canc w1 : finish exc w (Err CancelledError) w1 -> w' = stopped (cancelled_now w1) -> r = exit_value (cancelled_now w1) false -> aexit_case exc w r w'
| ac_err w1 e : finish exc w (Err e) w1 -> e <> CancelledError -> w' = stopped w1 -> r = Err e -> aexit_case exc w r w'.
Lemma audit_cancelled p x : x_cancelled (audit o p x) = x_cancelled x.
Proof. unfold audit. now destruct (o_audit_callback o). Qed.
Lemma audit_timed p x : x_timed_out (audit o p x) = x_timed_out x.
Proof. unfold audit. now destruct (o_audit_callback o). Qed.
Lemma aexit_cases exc w r w' : aexit exc w r w' -> aexit_case exc w r w'.
Proof.
  intros H. unfold RunnerModel.aexit in H.
  assert (FIN : forall wa ra wb, bindM stop_timer (fun _ => modx (fun x => set_inside false (audit o (PStop None) x))) wa ra wb -> ra = Ok tt /\ wb = stopped wa).
  { intros wa ra wb Q. apply i_modx in Q. destruct Q as [-> ->]. auto. }
  assert (T : forall w1 b r w', bindM (getx (fun x => x_cancelled x && x_timed_out x && negb (o_catch_cancelled o)))
     (fun t : bool => if t then raise TimeoutError else ret b) (stopped w1) r w' -> w' = stopped w1 /\ r = exit_value w1 b).
  { intros w1 b r0 w0 Q. apply i_getx in Q. unfold exit_value. cbn in Q. rewrite audit_cancelled, audit_timed in Q. cbn in Q.
    destruct (x_cancelled (w_x w1) && x_timed_out (w_x w1) && negb (o_catch_cancelled o)); destruct Q as [-> ->]; auto. }
  destruct H as [(b & w1 & (r1 & w2 & H1 & HF) & H2)|(e & (r1 & w2 & H1 & HF) & ->)].
  - destruct HF as [(HF & <-)|(e & HF & Q)]; [|discriminate]. apply FIN in HF as [_ ->].
    apply T in H2 as [-> ->].
    destruct H1 as [(b' & H1 & [= <-])|(e & w3 & H1 & H3)]; [now apply (ac_ok _ _ _ _ w2 b)|].
    destruct e; try (destruct H3 as [Q _]; discriminate). apply i_modx in H3. destruct H3 as [[= ->] ->].
    now apply (ac_canc _ _ _ _ w3).
  - destruct HF as [(HF & <-)|(e' & HF & _)]; [|apply FIN in HF as [Q _]; discriminate]. apply FIN in HF as [_ ->].
    destruct H1 as [(b' & H1 & Q)|(e' & w3 & H1 & H3)]; [discriminate|].
    destruct e'; try (destruct H3 as [[= ->] ->]; eapply (ac_err _ _ _ _ w3 _ H1); [discriminate|reflexivity|reflexivity]).
    apply i_modx in H3. destruct H3 as [Q _]. discriminate.
Qed.
End R.
