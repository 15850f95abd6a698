From Verif Require Import AsyncModel AsyncSpec AsyncProofs HarvestModel HarvestSpec HarvestProofs HarvestProofs2 AsyncInv
  RunnerModel RunnerSpec RunnerProofs RunnerProofs2 RunnerProofs3 RunnerProofs4 RunnerProofs5 RunnerProofs6 RunnerProofs7 BsdRunModel.
Open Scope Z_scope.

Section R.
Context (o : opts) (ext : bool) (out_bytes err_bytes : option bytes) (enc : text).
Notation world := (world rx rkind unit).
Notation M := (@M rx rkind unit).
Notation rstep := (rstep o).
Notation rfinish := (rfinish ext).
Notation kill := (kill o ext).
Notation close := (close o ext false).
Notation J := (J ext).
Notation reg := (reg o ext).
Notation envrel := (envrel o).
Notation opt_harvest := (opt_harvest o ext).
Notation KP := (KP o ext).
Notation pre := (pre o ext).
Notation begun := (begun o).
Notation subprocess_spawn := (subprocess_spawn o ext true).
Notation wait_pid_loop := (wait_pid_loop o ext).
Notation wait_pid := (wait_pid o ext).
Notation waiter_bsd := (waiter_bsd o ext).
Notation wait_bsd := (wait_bsd o ext).
Notation finish_bsd := (finish_bsd o ext).
Notation aexit_bsd := (aexit_bsd o ext).
Notation start_bsd := (start_bsd o ext).
Notation aenter_bsd := (aenter_bsd o ext out_bytes err_bytes enc).
Notation with_run_bsd := (with_run_bsd o ext out_bytes err_bytes enc).
Notation any_body := (any_body o ext).

(** A poll of the main task is one by the environment. *)
Lemma KP_refl w : KP w w.
Proof. intros P S Q. exact Q. Qed.
Lemma KP_J w w' : KP w w' -> J w -> J w'.
Proof. intros K. exact (K _ (stable_J o ext)). Qed.
Lemma KP_env w w' : KP w w' -> exists l h, envrel w w' l h.
Proof. intros K. apply (K _ (stable_envrel o ext w)). exists [], []. apply envrel_refl. Qed.
Lemma KP_reg w w' : KP w w' -> reg w w'.
Proof. intros K. destruct (KP_env _ _ K) as (l & h & E). eapply envrel_reg; [|exact E]. exact (KP_J _ _ K). Qed.
Lemma KP_step w e x' c : rstep (w_x w) e = Some (x', c) -> KP w (mk_world (w_tasks w) x' (w_hist w ++ (if c then [HCancel] else []))).
Proof. intros E P S Q. eapply (st_env _ _ _ S w (EX e)); [exact Q|]. cbn. rewrite E. reflexivity. Qed.
Lemma KP_collect w z : poll_status (w_x w) = Some z -> x_rc (w_x w) = None -> KP w (upd_x w (collect_status z)).
Proof.
  intros E N. unfold poll_status in E. unfold collect_status, upd_x. destruct (x_watch (w_x w)) as [z'|] eqn:W.
  - injection E as ->. pose proof (KP_step w XCollect) as K. cbn [RunnerModel.rstep] in K. rewrite W, N in K. specialize (K _ _ eq_refl).
    rewrite app_nil_r in K. exact K.
  - pose proof (KP_step w XWatch) as K. cbn [RunnerModel.rstep] in K. rewrite E, W in K. specialize (K _ _ eq_refl). rewrite app_nil_r in K.
    eapply KP_trans; [exact K|]. set (w1 := mk_world _ _ _). pose proof (KP_step w1 XCollect) as K2. cbn [RunnerModel.rstep] in K2.
    replace (x_watch (w_x w1)) with (Some z) in K2 by reflexivity. replace (x_rc (w_x w1)) with (x_rc (w_x w)) in K2 by reflexivity. rewrite N in K2.
    specialize (K2 _ _ eq_refl). rewrite app_nil_r in K2. exact K2.
Qed.
Lemma poll_bsd_run w r w' : poll_wait_pid_bsd w r w' -> KP w w' /\ mk w' = mk w /\
  exists b, r = Ok b /\ (b = true -> x_rc (w_x w') <> None) /\ (b = false -> w' = w /\ poll_status (w_x w) = None).
Proof.
  intros H. unfold poll_wait_pid_bsd in H. apply i_getx in H. destruct (x_rc (w_x w)) as [c|] eqn:N.
  - destruct H as [-> ->]. split; [apply KP_refl|]. split; [reflexivity|]. exists true. repeat split; try congruence; discriminate.
  - apply i_getx in H. destruct (poll_status (w_x w)) as [z|] eqn:E.
    + apply i_modx in H. destruct H as [-> ->]. split; [exact (KP_collect _ _ E N)|]. split.
      * unfold mk, collect_status. cbn. rewrite marks_app. destruct (x_watch (w_x w)); cbn; lia.
      * exists true. repeat split; try discriminate. 
    + destruct H as [-> ->]. split; [apply KP_refl|]. split; [reflexivity|]. exists false. repeat split; auto; discriminate.
Qed.
Lemma yield_run w r w' : await_yield rstep rfinish w r w' -> KP w w' /\
  (r = Ok tt -> mk w' = mk w) /\ (forall e, r = Err e -> e = CancelledError /\ (mk w < mk w')%nat).
Proof.
  intros (evs & s & R & Q). split; [intros P S A; eapply wait_run_keeps; eauto|]. destruct (wait_run_mk _ _ _ _ _ _ _ _ R) as (A & B & _).
  destruct (s_canc s); subst r; split; try discriminate.
  - intros e [= <-]. split; [reflexivity|]. now apply B.
  - intros _. now apply A.
Qed.
(** The polling loop ends with the exit status, or by cancellation. *)
Definition polled (w : world) (r : res unit) (w' : world) : Prop :=
  KP w w' /\ (r = Ok tt -> mk w' = mk w /\ x_rc (w_x w') <> None) /\ (forall e, r = Err e -> e = CancelledError /\ (mk w < mk w')%nat).
Lemma loop_run n : forall w r w', wait_pid_loop n w r w' -> polled w r w'.
Proof.
  induction n as [|n IH]; intros w r w' H; cbn [BsdRunModel.wait_pid_loop] in H.
  - destruct H as [(b & w1 & H1 & H2)|(e & H1 & ->)]; apply poll_bsd_run in H1 as (K & Mk & b' & Q & T & F).
    + injection Q as ->. destruct b'; [|destruct H2]. destruct H2 as [-> ->]. split; [exact K|]. split; [auto|discriminate].
    + discriminate.
  - destruct H as [(b & w1 & H1 & H2)|(e & H1 & ->)]; apply poll_bsd_run in H1 as (K & Mk & b' & Q & T & F); [|discriminate].
    injection Q as ->. destruct b'.
    + destruct H2 as [-> ->]. split; [exact K|]. split; [auto|discriminate].
    + destruct (F eq_refl) as [-> _]. clear K Mk T F. destruct H2 as [([] & w2 & H2 & H3)|(e & H2 & ->)]; apply yield_run in H2 as (K2 & O2 & E2).
      * apply IH in H3 as (K3 & O3 & E3). split; [eapply KP_trans; eauto|]. specialize (O2 eq_refl). split.
        -- intros Q. destruct (O3 Q). split; [congruence|assumption].
        -- intros e Q. destruct (E3 e Q). split; [assumption|lia].
      * split; [exact K2|]. split; [discriminate|]. intros e' [= <-]. auto.
Qed.
Definition off (w : world) : world := upd_x w (set_timer false).
Lemma off_reg w : reg w (off w).
Proof. apply (r_stop_timer o ext w (Ok tt)). split; reflexivity. Qed.
Lemma waiter_run w r w' : waiter_bsd w r w' -> x_proc (w_x w) = true -> exists w1, polled w r w1 /\ w' = off w1.
Proof.
  intros H PR. destruct H as [([] & w1 & H1 & H)|(e & H1 & _)]; apply i_getx in H1; rewrite PR in H1; destruct H1 as [Q ->]; [clear Q|discriminate].
  destruct H as (r1 & w1 & (n & H1) & [([_ ->] & ->)|(e & [Q _] & _)]); [|discriminate].
  exists w1. split; [eapply loop_run; eauto|reflexivity].
Qed.

Lemma KP_opt ts cf w r w' : opt_harvest ts cf w r w' -> KP w w'.
Proof.
  intros H P S Q. unfold RunnerProofs4.opt_harvest in H. destruct ts; [destruct H as [_ ->]; exact Q|]. exact (k_harvest _ _ _ S _ _ _ _ _ _ Q H).
Qed.

(** _wait. *)
Inductive waitb_case (w : world) (r : res unit) (w' : world) : Prop :=
| wb_ok w1 w2 : r = Ok tt -> opt_harvest (x_tasks (w_x w)) false w (Ok tt) w1 -> KP w1 w2 -> mk w2 = mk w1 -> x_rc (w_x w2) <> None ->
    w' = off w2 -> waitb_case w r w'
| wb_canc w1 : reg w w1 -> (mk w < mk w1)%nat -> (exists w0, KP w w0 /\ (w1 = w0 \/ w1 = off w0)) -> kill (cleared (cancelled_now w1)) r w' -> waitb_case w r w'
| wb_fail e w1 rk : opt_harvest (x_tasks (w_x w)) false w (Err e) w1 -> e = cancel_failed \/ task_failed w1 e -> is_Exception e = true ->
    kill (cleared w1) rk w' -> r = match rk with Ok _ => Err e | Err e' => Err e' end -> waitb_case w r w'.
Lemma waitb_cases w r w' : wait_bsd w r w' -> J w -> x_proc (w_x w) = true -> waitb_case w r w'.
Proof.
  intros H HJ PR. unfold BsdRunModel.wait_bsd in H.
  destruct H as [([] & w1 & H1 & H)|(e & H1 & _)]; apply i_getx in H1; rewrite PR in H1; destruct H1 as [Q ->]; [clear Q|discriminate].
  change (tryM (bindM (bindM (getx x_tasks) (fun ts => opt_harvest ts false)) (fun _ => waiter_bsd))
       (fun e => match e with
                 | CancelledError => Some (bindM set_cancelled (fun _ => bindM clear_tasks (fun _ => kill)))
                 | _ => if is_Exception e then Some (bindM clear_tasks (fun _ => bindM kill (fun _ => raise e))) else None
                 end) w r w') in H.
  assert (BODY : forall rb wb, bindM (bindM (getx x_tasks) (fun ts => opt_harvest ts false)) (fun _ => waiter_bsd) w rb wb ->
     (exists w1 w2, opt_harvest (x_tasks (w_x w)) false w (Ok tt) w1 /\ polled w1 rb w2 /\ wb = off w2)
     \/ (exists e, rb = Err e /\ opt_harvest (x_tasks (w_x w)) false w (Err e) wb)).
  { intros rb wb [([] & w1 & H1 & H2)|(e & H1 & ->)]; apply i_getx in H1; [|right; eauto]. left.
    apply waiter_run in H2 as (w2 & P & ->); [eauto|]. exact (reg_proc _ _ _ _ (r_opt_harvest o ext _ _ _ _ _ H1) PR). }
  destruct H as [([] & H & ->)|(e & w1 & H & H2)]; apply BODY in H as [(wa & wb & H1 & (K & O & Er) & E)|(e' & Q & H1)].
  - subst w'. destruct (O eq_refl). eapply (wb_ok w _ _ wa wb); auto.
  - discriminate.
  - subst w1. destruct (Er e eq_refl) as [-> Lt]. apply i_modx in H2. apply i_modx in H2.
    eapply (wb_canc w _ _ (off wb)).
    + eapply reg_trans; [exact (r_opt_harvest o ext _ _ _ _ _ H1)|]. eapply reg_trans; [apply KP_reg; exact K|apply off_reg].
    + rewrite <- (opt_harvest_ok o ext _ _ _ _ H1). exact Lt.
    + exists wb. split; [|now right]. eapply KP_trans; [eapply KP_opt; exact H1|exact K].
    + exact H2.
  - injection Q as <-. destruct (opt_harvest_errs _ _ _ _ _ _ _ H1 HJ) as [_ [(_ & Q)|[(-> & Q)|[->|(X & Q)]]]]; [discriminate| | |].
    + apply (wb_canc w _ _ w1); [exact (r_opt_harvest o ext _ _ _ _ _ H1)|exact Q|exists w1; split; [eapply KP_opt; exact H1|now left]|]. apply i_modx in H2. apply i_modx in H2. exact H2.
    + cbn in H2. apply i_modx in H2. apply i_then_raise in H2 as (rk & H2 & R). apply (wb_fail _ _ _ cancel_failed w1 rk); auto. destruct rk; exact R.
    + assert (H3 : bindM clear_tasks (fun _ => bindM kill (fun _ => raise e)) w1 r w') by (rewrite X in H2; destruct e; try exact H2; discriminate X).
      apply i_modx in H3. apply i_then_raise in H3 as (rk & H3 & R). apply (wb_fail _ _ _ e w1 rk); auto. destruct rk; exact R.
Qed.
Lemma waitb_reg w r w' : wait_bsd w r w' -> J w -> x_proc (w_x w) = true -> reg w w'.
Proof.
  intros H HJ PR. destruct (waitb_cases _ _ _ H HJ PR) as [w1 w2 _ H1 K _ _ ->|w1 R1 _ _ H2|e w1 rk H1 _ _ H2 _].
  - eapply reg_trans; [exact (r_opt_harvest o ext _ _ _ _ _ H1)|]. eapply reg_trans; [apply KP_reg; exact K|apply off_reg].
  - assert (R2 : reg w (cleared (cancelled_now w1))).
    { eapply reg_trans; [exact R1|]. eapply reg_trans; [apply cancelled_now_reg|apply cleared_reg]. }
    eapply reg_trans; [exact R2|]. apply (kill_spec o ext _ _ _ H2); [apply R2; exact HJ|exact (reg_proc _ _ _ _ R2 PR)].
  - assert (R2 : reg w (cleared w1)). { eapply reg_trans; [exact (r_opt_harvest o ext _ _ _ _ _ H1)|]. apply cleared_reg. }
    eapply reg_trans; [exact R2|]. apply (kill_spec o ext _ _ _ H2); [apply R2; exact HJ|exact (reg_proc _ _ _ _ R2 PR)].
Qed.

(** _finish. *)
Inductive finishb_case (exc : option exn) (w : world) (r : res bool) (w' : world) : Prop :=
| fb_body e w1 rk rc : exc = Some e -> kill (if is_cancelled e then cancelled_now w else w) rk w1 -> close w1 rc w' ->
    r = match rc with Err e' => Err e' | Ok _ => match rk with Ok _ => Ok (x_cancelled (w_x w1)) | Err e' => Err e' end end -> finishb_case exc w r w'
| fb_normal w1 rk rc : exc = None -> wait_bsd w rk w1 -> close w1 rc w' ->
    r = match rc with Err e' => Err e' | Ok _ => match rk with Ok _ => Ok false | Err e' => Err e' end end -> finishb_case exc w r w'.
Lemma finishb_cases exc w r w' : finish_bsd exc w r w' -> x_proc (w_x w) = true -> finishb_case exc w r w'.
Proof.
  intros H PR. unfold BsdRunModel.finish_bsd in H.
  destruct H as [([] & w1 & H1 & H)|(e & H1 & _)]; apply i_getx in H1; rewrite PR in H1; destruct H1 as [Q ->]; [clear Q|discriminate].
  destruct H as (r1 & w1 & H1 & HC). destruct exc as [e|].
  - assert (HK : exists rk, kill (if is_cancelled e then cancelled_now w else w) rk w1
       /\ r1 = match rk with Ok _ => Ok (x_cancelled (w_x w1)) | Err e' => Err e' end).
    { destruct H1 as [([] & wa & H1 & H2)|(e' & H1 & ->)].
      - assert (wa = if is_cancelled e then cancelled_now w else w) as -> by (destruct (is_cancelled e); destruct H1 as [_ ->]; reflexivity).
        destruct H2 as [([] & wb & H2 & [-> ->])|(e' & H2 & ->)]; [exists (Ok tt)|exists (Err e')]; auto.
      - destruct (is_cancelled e); destruct H1 as [Q _]; discriminate. }
    destruct HK as (rk & HK & ->). destruct HC as [(HC & ->)|(e' & HC & ->)].
    + eapply (fb_body _ _ _ _ e w1 rk (Ok tt)); eauto.
    + eapply (fb_body _ _ _ _ e w1 rk (Err e')); eauto.
  - assert (HK : exists rk, wait_bsd w rk w1 /\ r1 = match rk with Ok _ => Ok false | Err e' => Err e' end).
    { destruct H1 as [([] & wb & H2 & [-> ->])|(e' & H2 & ->)]; [exists (Ok tt)|exists (Err e')]; auto. }
    destruct HK as (rk & HK & ->). destruct HC as [(HC & ->)|(e' & HC & ->)].
    + eapply (fb_normal _ _ _ _ w1 rk (Ok tt)); eauto.
    + eapply (fb_normal _ _ _ _ w1 rk (Err e')); eauto.
Qed.
Lemma finishb_reg exc w r w' : finish_bsd exc w r w' -> J w -> x_proc (w_x w) = true -> reg w w' /\ dead w'.
Proof.
  intros H HJ PR. destruct (finishb_cases _ _ _ _ H PR) as [e w1 rk rc _ H1 H2 _|w1 rk rc _ H1 H2 _].
  - assert (R0 : reg w (if is_cancelled e then cancelled_now w else w)) by (destruct (is_cancelled e); [apply cancelled_now_reg|apply reg_refl]).
    assert (R1 : reg w w1).
    { eapply reg_trans; [exact R0|]. apply (kill_spec o ext _ _ _ H1); [apply R0; exact HJ|exact (reg_proc _ _ _ _ R0 PR)]. }
    destruct (close_spec _ _ _ _ _ _ H2) as (R2 & D & _); [apply R1; exact HJ|exact (reg_proc _ _ _ _ R1 PR)|].
    split; [eapply reg_trans; eauto|exact D].
  - assert (R1 : reg w w1) by (eapply waitb_reg; eauto).
    destruct (close_spec _ _ _ _ _ _ H2) as (R2 & D & _); [apply R1; exact HJ|exact (reg_proc _ _ _ _ R1 PR)|].
    split; [eapply reg_trans; eauto|exact D].
Qed.

(** __aexit__. *)
Inductive aexitb_case (exc : option exn) (w : world) (r : res bool) (w' : world) : Prop :=
| ab_ok w1 b : finish_bsd exc w (Ok b) w1 -> w' = stopped o w1 -> r = exit_value o w1 b -> aexitb_case exc w r w'
| ab_canc w1 : finish_bsd exc w (Err CancelledError) w1 -> w' = stopped o (cancelled_now w1) -> r = exit_value o (cancelled_now w1) false -> aexitb_case exc w r w'
| ab_err w1 e : finish_bsd exc w (Err e) w1 -> e <> CancelledError -> w' = stopped o w1 -> r = Err e -> aexitb_case exc w r w'.
Lemma aexitb_cases exc w r w' : aexit_bsd exc w r w' -> aexitb_case exc w r w'.
Proof.
  intros H. unfold BsdRunModel.aexit_bsd in H.
  assert (FIN : forall wa ra wb, bindM stop_timer (fun _ => modx (fun x => set_inside false (audit o (PStop None) x))) wa ra wb -> ra = Ok tt /\ wb = stopped o wa).
  { intros wa ra wb Q. apply i_modx in Q. destruct Q as [-> ->]. auto. }
  assert (T : forall w1 b r w', bindM (getx (fun x => x_cancelled x && x_timed_out x && negb (o_catch_cancelled o)))
     (fun t : bool => if t then raise TimeoutError else ret b) (stopped o w1) r w' -> w' = stopped o w1 /\ r = exit_value o w1 b).
  { intros w1 b r0 w0 Q. apply i_getx in Q. unfold exit_value. cbn in Q. rewrite audit_cancelled, audit_timed in Q. cbn in Q.
    destruct (x_cancelled (w_x w1) && x_timed_out (w_x w1) && negb (o_catch_cancelled o)); destruct Q as [-> ->]; auto. }
  destruct H as [(b & w1 & (r1 & w2 & H1 & HF) & H2)|(e & (r1 & w2 & H1 & HF) & ->)].
  - destruct HF as [(HF & <-)|(e & HF & Q)]; [|discriminate]. apply FIN in HF as [_ ->].
    apply T in H2 as [-> ->].
    destruct H1 as [(b' & H1 & [= <-])|(e & w3 & H1 & H3)]; [now apply (ab_ok _ _ _ _ w2 b)|].
    destruct e; try (destruct H3 as [Q _]; discriminate). apply i_modx in H3. destruct H3 as [[= ->] ->].
    now apply (ab_canc _ _ _ _ w3).
  - destruct HF as [(HF & <-)|(e' & HF & _)]; [|apply FIN in HF as [Q _]; discriminate]. apply FIN in HF as [_ ->].
    destruct H1 as [(b' & H1 & Q)|(e' & w3 & H1 & H3)]; [discriminate|].
    destruct e'; try (destruct H3 as [[= ->] ->]; eapply (ab_err _ _ _ _ w3 _ H1); [discriminate|reflexivity|reflexivity]).
    apply i_modx in H3. destruct H3 as [Q _]. discriminate.
Qed.

(** _start. *)
Definition enteredb (w : world) : world :=
  upd_x w (fun x => set_inside true (match o_timeout o with Some _ => set_timer true x | None => x end)).
Inductive startb_case (w : world) (r : res unit) (w' : world) : Prop :=
| sb_ok w1 : pre w w1 -> x_proc (w_x w1) = true -> mk w1 = mk w -> w' = enteredb w1 -> r = Ok tt -> startb_case w r w'
| sb_err e w1 rk : pre w w1 -> (e = CancelledError \/ is_Exception e = true) ->
    (if x_proc (w_x w1) then kill (if is_cancelled e then cancelled_now w1 else w1) rk w'
     else rk = Ok tt /\ w' = (if is_cancelled e then cancelled_now w1 else w1)) ->
    r = Err (match rk with Ok _ => e | Err e' => e' end) -> startb_case w r w'.
Lemma startb_cases w r w' : start_bsd w r w' -> J w -> clean w -> calm w -> w_tasks w = [] -> x_tasks (w_x w) = [] -> startb_case w r w'.
Proof.
  intros H HJ HC HM HT HX. unfold BsdRunModel.start_bsd in H.
  destruct H as [([] & w0 & H1 & H)|(e & H1 & _)]; apply i_getx in H1; rewrite HX in H1; destruct H1 as [Q ->]; [clear Q|discriminate].
  assert (PRE0 : pre w w).
  { constructor; auto; [exists []; split; [now rewrite app_nil_r|constructor]|apply HC|]. intros i t. rewrite HT. destruct i; discriminate. }
  set (body := bindM setup (fun _ => bindM subprocess_spawn (fun _ => bindM (bindM (getx x_proc) assertM) (fun _ => setup_streams)))) in *.
  assert (BODY : forall rb wb, body w rb wb -> pre w wb /\ (rb = Ok tt -> x_proc (w_x wb) = true /\ mk wb = mk w)
      /\ (forall e, rb = Err e -> e = CancelledError \/ is_Exception e = true)).
  { intros rb wb [([] & w1 & [-> _] & HB)|(e & [-> HE] & ->)].
    2: { split; [exact PRE0|]. split; [discriminate|]. intros e' [= <-]. right. auto. }
    destruct HB as [([] & w1 & H1 & HB)|(e & H1 & ->)]; destruct (subprocess_spawn_spec _ _ _ _ _ _ H1 HJ HC HM HT) as (P1 & O1 & E1).
    2: { split; [exact P1|]. split; [discriminate|]. intros e' [= <-]. auto. }
    destruct (O1 eq_refl) as [PR1 Mk1].
    destruct HB as [([] & w2 & H2 & HB)|(e & H2 & ->)]; apply i_getx in H2; rewrite PR1 in H2; destruct H2 as [Q ->]; [clear Q|discriminate].
    destruct (setup_streams_spec _ _ _ _ _ _ HB P1) as (P2 & PR2 & Mk2 & E2). split; [exact P2|]. split; [intros _; split; congruence|]. intros e Q. right. eauto. }
  assert (TAIL : forall w1 rt wt, pre w w1 -> bindM (start_timer o) (fun _ => modx (set_inside true)) w1 rt wt -> rt = Ok tt /\ wt = enteredb w1).
  { intros w1 rt wt P1 [([] & w3 & H3 & [-> ->])|(e & H3 & ->)].
    - destruct H3 as [([] & w4 & H4 & H5)|(e & H4 & Q3)]; [|discriminate].
      apply i_getx in H4. rewrite (proj1 (proj2 (pre_calm _ _ _ _ P1))) in H4. destruct H4 as [_ ->].
      split; [reflexivity|]. unfold enteredb. unfold when in H5. destruct (o_timeout o); destruct H5 as [_ ->]; reflexivity.
    - exfalso. destruct H3 as [([] & w4 & H4 & H5)|(e' & H4 & Q3)].
      + unfold when in H5. destruct (o_timeout o); destruct H5 as [Q5 _]; discriminate.
      + apply i_getx in H4. rewrite (proj1 (proj2 (pre_calm _ _ _ _ P1))) in H4. destruct H4 as [Q4 _]. discriminate. }
  destruct H as [([] & w1 & H1 & H)|(e & H1 & ->)].
  - destruct H1 as [([] & HB & _)|(e & w2 & HB & HH)].
    + destruct (BODY _ _ HB) as (P1 & O1 & _). destruct (O1 eq_refl) as [PR1 Mk1]. destruct (TAIL _ _ _ P1 H) as [-> ->].
      now apply (sb_ok _ _ _ w1).
    + exfalso. destruct (is_Exception e || is_cancelled e).
      * destruct HH as [([] & w3 & _ & HH)|(e' & _ & Q)]; [|discriminate]. destruct HH as [([] & w4 & _ & [Q _])|(e' & _ & Q)]; discriminate.
      * destruct HH as [Q _]. discriminate.
  - destruct H1 as [([] & _ & Q)|(e1 & w1 & HB & HH)]; [discriminate|]. destruct (BODY _ _ HB) as (P1 & _ & E1). specialize (E1 e1 eq_refl).
    assert (EX : is_Exception e1 || is_cancelled e1 = true) by (destruct E1 as [->|Q]; [reflexivity|rewrite Q; reflexivity]).
    rewrite EX in HH.
    assert (HH2 : bindM (bindM (getx x_proc) (fun p => when p kill)) (fun _ => raise (A := unit) e1) (if is_cancelled e1 then cancelled_now w1 else w1) (Err e) w').
    { destruct HH as [([] & w2 & H2 & H3)|(e' & H2 & _)]; [|destruct (is_cancelled e1); destruct H2 as [Q _]; discriminate].
      destruct (is_cancelled e1); destruct H2 as [_ ->]; exact H3. }
    apply i_then_raise in HH2 as (rk & HK & RK). apply i_getx in HK.
    assert (PP : x_proc (w_x (if is_cancelled e1 then cancelled_now w1 else w1)) = x_proc (w_x w1)) by (destruct (is_cancelled e1); reflexivity).
    rewrite PP in HK. apply (sb_err _ _ _ e1 w1 rk); auto.
    + destruct (x_proc (w_x w1)); [exact HK|]. destruct HK as [-> ->]. auto.
    + destruct rk as [[]|e']; exact RK.
Qed.
(** A start that fails is one of RunnerModel's. *)
Lemma startb_err w e w' : start_bsd w (Err e) w' -> J w -> clean w -> calm w -> w_tasks w = [] -> x_tasks (w_x w) = [] ->
  start o ext true w (Err e) w'.
Proof.
  intros H HJ HC HM HT HX. destruct (startb_cases _ _ _ H HJ HC HM HT HX) as [w1 _ _ _ _ Q|e1 wk rk _ _ _ _]; [discriminate|].
  unfold BsdRunModel.start_bsd in H. unfold RunnerModel.start.
  destruct H as [(u & w0 & H1 & H)|(e' & H1 & Q)]; [|right; eauto]. left. exists u, w0. split; [exact H1|].
  assert (W0 : w0 = w). { apply i_getx in H1. destruct (x_tasks (w_x w)); destruct H1 as [_ ->]; reflexivity. } subst w0.
  destruct H as [(u1 & w1 & H2 & H)|(e' & H2 & Q)]; [|right; eauto]. exfalso.
  assert (TM : x_timer (w_x w1) = false).
  { destruct H2 as [(v & HB & _)|(e2 & w2 & HB & HH)].
    - destruct HB as [(? & wa & [-> _] & HB)|(? & _ & Q)]; [|discriminate].
      destruct HB as [([] & wb & HB1 & HB)|(? & _ & Q)]; [|discriminate].
      destruct (subprocess_spawn_spec _ _ _ _ _ _ HB1 HJ HC HM HT) as (P1 & O1 & _). destruct (O1 eq_refl) as [PR1 _].
      destruct HB as [(? & wc & HB2 & HB)|(? & _ & Q)]; [|discriminate]. apply i_getx in HB2. rewrite PR1 in HB2. destruct HB2 as [_ ->].
      destruct (setup_streams_spec _ _ _ _ _ _ HB P1) as (P2 & _). apply (pre_calm _ _ _ _ P2).
    - destruct (is_Exception e2 || is_cancelled e2).
      + destruct HH as [(? & w3 & _ & HH)|(? & _ & Q)]; [|discriminate]. destruct HH as [(? & w4 & _ & [Q _])|(? & _ & Q)]; discriminate.
      + destruct HH as [Q _]. discriminate. }
  destruct H as [(? & w3 & H3 & [Q _])|(e3 & H3 & _)]; [discriminate|].
  destruct H3 as [(? & w4 & H4 & H5)|(e' & H4 & _)].
  - unfold when in H5. destruct (o_timeout o); destruct H5 as [Q _]; discriminate.
  - apply i_getx in H4. rewrite TM in H4. destruct H4 as [Q _]. discriminate.
Qed.

(** __aenter__ from a fresh run. *)
Inductive aenterb_case (r : res unit) (w' : world) : Prop :=
| eb_ok w1 : pre begun w1 -> x_proc (w_x w1) = true -> mk w1 = 0%nat -> w' = enteredb w1 -> r = Ok tt -> aenterb_case r w'
| eb_err e : r = Err e -> aenter o ext true out_bytes err_bytes enc fresh (Err e) w' -> aenterb_case r w'.
Lemma aenterb_cases r w' : aenter_bsd fresh r w' -> aenterb_case r w'.
Proof.
  intros H. unfold BsdRunModel.aenter_bsd in H. assert (H0 := H). apply i_modx in H. fold begun in H. fold (RunnerProofs6.begun o) in H.
  destruct (begun_x o) as (B1 & B2 & B3 & B4 & B5 & B6 & B7 & B8).
  assert (SC : forall rs ws, start_bsd begun rs ws -> startb_case begun rs ws).
  { intros rs ws HS. apply startb_cases; [exact HS|apply begun_J|split; auto|repeat split; auto|reflexivity|exact B8]. }
  assert (SE : forall e ws, start_bsd begun (Err e) ws -> start o ext true begun (Err e) ws).
  { intros e ws HS. apply startb_err; [exact HS|apply begun_J|split; auto|repeat split; auto|reflexivity|exact B8]. }
  assert (FIN : forall u ru u', bindM (getx (fun x => x_cancelled x && o_catch_cancelled o)) (fun b : bool => if b then bindM (run_result o out_bytes err_bytes enc true) (fun _ => ret tt) else ret tt) u ru u' ->
     u' = u /\ (x_cancelled (w_x u) && o_catch_cancelled o = false -> ru = Ok tt)).
  { intros u ru u' Q. apply i_getx in Q. destruct (x_cancelled (w_x u) && o_catch_cancelled o).
    - destruct Q as [(v & u1 & Q & [-> ->])|(e & Q & ->)]; apply i_getx in Q; destruct (runner_result _ _ _ _ _ _ _ _) as [v'|e']; destruct Q as [Q ->]; try discriminate;
        (split; [reflexivity|discriminate]).
    - destruct Q as [-> ->]. split; [reflexivity|auto]. }
  destruct H as (r1 & w1 & H1 & HF).
  destruct H1 as [([] & H1 & ->)|(e & w2 & H1 & H2)].
  - apply SC in H1. assert (W : w' = w1) by (destruct HF as [(HF & _)|(e & HF & _)]; apply FIN in HF; tauto). subst w'.
    destruct H1 as [wa P PR Mk E _|e wa rk _ _ _ Q]; [|discriminate].
    assert (CN : x_cancelled (w_x w1) = false).
    { subst w1. unfold enteredb. cbn. destruct (o_timeout o); cbn; apply (pre_calm _ _ _ _ P). }
    apply (eb_ok _ _ wa); auto.
    + rewrite Mk. unfold mk, RunnerProofs6.begun, audit. cbn. destruct (o_audit_callback o); reflexivity.
    + destruct HF as [(HF & ->)|(e & HF & ->)]; [reflexivity|]. apply FIN in HF as (_ & A). rewrite CN in A. specialize (A eq_refl). discriminate.
  - assert (RE : exists e', r = Err e').
    { apply i_modx in H2. apply i_modx in H2. destruct H2 as [-> _]. destruct HF as [(_ & ->)|(e' & _ & ->)]; eauto. }
    destruct RE as (e' & ->). apply (eb_err _ _ e'); [reflexivity|]. unfold RunnerModel.aenter.
    left. exists tt. eexists. split; [split; reflexivity|]. exists r1, w1. split; [|exact HF]. right. exists e, w2. split; [|exact H2]. apply SE. exact H1.
Qed.

(** The world in which the body starts. *)
Lemma enteredb_J w : pre begun w -> x_proc (w_x w) = true -> J (enteredb w).
Proof.
  intros P PR. pose proof (pre_J _ _ _ _ P) as (X & T & Mk & Tm). split; [|split; [|split]].
  - unfold enteredb. cbn. destruct (o_timeout o); (apply XI_inside; [|intros _; exact PR]); [apply XI_timer|]; exact X.
  - unfold enteredb. apply TI_x; cbn; auto; destruct (o_timeout o); reflexivity.
  - unfold enteredb. destruct Mk as [Mk HIw]. split; [|exact HIw]. unfold MK in *. cbn. destruct (o_timeout o); exact Mk.
  - intros i t N K D. exfalso. exact (pre_kinds _ _ _ _ P i t N K).
Qed.
Lemma enteredb_x w : x_log (w_x (enteredb w)) = x_log (w_x w) /\ x_proc (w_x (enteredb w)) = x_proc (w_x w) /\ x_rc (w_x (enteredb w)) = x_rc (w_x w)
  /\ x_cancelled (w_x (enteredb w)) = x_cancelled (w_x w) /\ x_timed_out (w_x (enteredb w)) = x_timed_out (w_x w)
  /\ x_exit (w_x (enteredb w)) = x_exit (w_x w).
Proof. unfold enteredb. cbn. destruct (o_timeout o); auto 10. Qed.

(** A whole run. *)
Inductive runb_case (body : M unit) (r : res unit) (w' : world) : Prop :=
| rb_failed e : r = Err e -> with_run o ext false true out_bytes err_bytes enc any_body fresh (Err e) w' -> runb_case body r w'
| rb_ran w0 w1 rb re : pre begun w0 -> x_proc (w_x w0) = true -> mk w0 = 0%nat -> body (enteredb w0) rb w1 ->
    aexit_bsd (match rb with Ok _ => None | Err e => Some e end) w1 re w' ->
    r = match re with Err e => Err e | Ok sup => match rb with Ok _ => Ok tt | Err e => if sup then Ok tt else Err e end end -> runb_case body r w'.
Lemma with_runb_cases body r w' : with_run_bsd body fresh r w' -> runb_case body r w'.
Proof.
  intros [([] & w0 & H1 & (rb & w1 & H2 & H3))|(e & H1 & ->)].
  - apply aenterb_cases in H1 as [wa P PR Mk -> _|e Q _]; [|discriminate].
    destruct rb as [[]|eb].
    + destruct H3 as [(b & w2 & H3 & [-> ->])|(e & H3 & ->)].
      * apply (rb_ran _ _ _ wa w1 (Ok tt) (Ok b)); auto.
      * apply (rb_ran _ _ _ wa w1 (Ok tt) (Err e)); auto.
    + destruct H3 as [(b & w2 & H3 & H4)|(e & H3 & ->)].
      * apply (rb_ran _ _ _ wa w1 (Err eb) (Ok b)); auto; destruct b; destruct H4 as [-> ->]; auto.
      * apply (rb_ran _ _ _ wa w1 (Err eb) (Err e)); auto.
  - apply aenterb_cases in H1 as [wa _ _ _ _ Q|e' [= <-] H1]; [discriminate|]. apply (rb_failed _ _ _ e); [reflexivity|]. right. eauto.
Qed.
Lemma bodyb_ready w0 rb w1 : pre begun w0 -> x_proc (w_x w0) = true -> any_body (enteredb w0) rb w1 ->
  J w1 /\ x_proc (w_x w1) = true /\ reg (enteredb w0) w1.
Proof.
  intros P PR H. apply body_facts in H as [R _]. split; [apply R; now apply enteredb_J|].
  split; [|exact R]. apply (reg_proc _ _ _ _ R). destruct (enteredb_x w0) as (_ & -> & _). exact PR.
Qed.
Lemma enteredb_AS w : pre begun w -> AS o (enteredb w).
Proof. intros P A. destruct (pre_AS _ _ _ P A) as (l & E & Q). exists l. destruct (enteredb_x w) as (-> & _). auto. Qed.
Lemma aexitb_world exc w r w' : aexit_bsd exc w r w' -> exists rf w1, finish_bsd exc w rf w1
  /\ (w' = stopped o w1 \/ (rf = Err CancelledError /\ w' = stopped o (cancelled_now w1))).
Proof. intros H. apply aexitb_cases in H as [w1 b H1 -> _|w1 H1 -> _|w1 e H1 _ -> _]; eauto 6. Qed.

Theorem auditb_brackets r w' : o_audit_callback o <> None -> with_run_bsd any_body fresh r w' ->
  exists l f, x_log (w_x w') = LAudit PStart :: l ++ [LAudit (PStop f)] /\ audits l = map PSignal (signals l)
  /\ (f <> None -> exists e, r = Err e).
Proof.
  intros A H. apply with_runb_cases in H as [e0 -> EC|w0 w1 rb re P PR Mk HB HX RR].
  - exact (audit_brackets _ _ _ _ _ _ _ _ _ A EC).
  - destruct (bodyb_ready _ _ _ P PR HB) as (J1 & PR1 & R1).
    assert (A1 : AS o w1) by (eapply reg_AS; [exact R1|now apply enteredb_AS]).
    destruct (aexitb_world _ _ _ _ HX) as (rf & w2 & HF & W). destruct (finishb_reg _ _ _ _ HF J1 PR1) as [R2 _].
    assert (A2 : AS o w2) by (eapply reg_AS; eauto). destruct (A2 A) as (l & El & Q). exists l, None.
    split; [|split; [exact Q|congruence]].
    destruct W as [->|(_ & ->)]; unfold stopped, audit; cbn; (destruct (o_audit_callback o); [|congruence]); cbn; now rewrite El.
Qed.

(** The invariant holds at the end of every run. *)
Lemma runb_J r w' : with_run_bsd any_body fresh r w' -> J w'.
Proof.
  intros H. apply with_runb_cases in H as [e0 -> EC|w0 w1 rb re P PR Mk HB HX RR].
  - exact (run_J _ _ _ _ _ _ _ _ _ EC).
  - destruct (bodyb_ready _ _ _ P PR HB) as (J1 & PR1 & R1).
    destruct (aexitb_world _ _ _ _ HX) as (rf & w2 & HF & W). destruct (finishb_reg _ _ _ _ HF J1 PR1) as [R2 _].
    assert (J2 : J w2) by (apply R2; exact J1). destruct W as [->|(_ & ->)]; apply stopped_J; [exact J2|]. now apply cancelled_now_reg.
Qed.
Theorem nothing_leftb r w' : ext = false -> with_run_bsd any_body fresh r w' -> In LSpawn (events w') ->
  (exists s, In (LExit s) (events w')) \/ In (LSent SIGKILL) (events w').
Proof.
  intros E H SP. pose proof (runb_J _ _ H) as HJ. apply (dead_events ext); [exact HJ|].
  assert (CH : x_child (w_x w') = true) by (apply (xi_spawn _ (proj1 HJ)); exact SP).
  apply with_runb_cases in H as [e0 -> EC|w0 w1 rb re P PR Mk HB HX RR].
  - destruct (nothing_left _ _ _ _ _ _ _ _ _ E EC SP) as [(s & Q)|Q]; [left|right; exact Q].
    apply (xi_exit _ (proj1 HJ)) in Q. congruence.
  - destruct (bodyb_ready _ _ _ P PR HB) as (J1 & PR1 & R1).
    destruct (aexitb_world _ _ _ _ HX) as (rf & w2 & HF & W). destruct (finishb_reg _ _ _ _ HF J1 PR1) as [R2 D].
    assert (DS : forall u, dead u -> dead (stopped o u)).
    { intros u [Q|Q]; [left; now rewrite (proj1 (proj2 (stopped_x o u)))|right]. unfold has. destruct (stopped_log o u) as (l & -> & _). apply in_or_app. now left. }
    destruct W as [->|(_ & ->)]; apply DS; [exact D|]. eapply reg_dead; [apply (cancelled_now_reg o ext)|exact D].
Qed.
End R.
