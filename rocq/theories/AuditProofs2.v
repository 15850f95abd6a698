From Verif Require Import AsyncModel AsyncSpec AsyncProofs HarvestModel HarvestSpec HarvestProofs HarvestProofs2 AsyncInv
  RunnerModel RunnerSpec RunnerProofs RunnerProofs2 RunnerProofs3 RunnerProofs4 RunnerProofs5 RunnerProofs6 RunnerProofs7 AuditModel AuditProofs.
Open Scope Z_scope.

Section R.
Context (cb : phase -> res unit -> Prop).
Context (o : opts) (ext piped_stdin use_pty : bool).
Context (out_bytes err_bytes : option bytes) (enc : text).
Notation world := (world rx rkind unit).
Notation M := (@M rx rkind unit).
Notation rstep := (rstep o).
Notation rfinish := (rfinish ext).
Notation harvest := (harvest rstep rfinish).
Notation callback := (callback cb o).
Notation call_audit := (call_audit cb o).
Notation signal_cb := (signal_cb cb o).
Notation kill_wait_cb := (kill_wait_cb cb o ext).
Notation kill_cb := (kill_cb cb o ext).
Notation wait_cb := (wait_cb cb o ext).
Notation finish_cb := (finish_cb cb o ext piped_stdin).
Notation aexit_cb := (aexit_cb cb o ext piped_stdin).
Notation start_cb := (start_cb cb o ext use_pty).
Notation aenter_cb := (aenter_cb cb o ext use_pty out_bytes err_bytes enc).
Notation close := (close o ext piped_stdin).
Notation any_body := (any_body o ext).

(** Properties of the rest of the world that every step of the program and of
    the environment preserves. *)
Record steady (G : rx -> Prop) : Prop := {
  sd_step : forall x e x' c, G x -> rstep x e = Some (x', c) -> G x';
  sd_finish : forall x t r x', G x -> rfinish x t r = Some x' -> G x';
  sd_audit : forall x s, G x -> G (audit o (PSignal s) x);
  sd_send : forall x s, G x -> G (send s x);
  sd_timer : forall x b, G x -> G (set_timer b x);
  sd_canc : forall x b, G x -> G (set_canc b x);
  sd_tasks : forall x l, G x -> G (set_tasks l x);
  sd_inside : forall x b, G x -> G (set_inside b x);
  sd_launching : forall x b, G x -> G (set_launching b x);
  sd_poll : forall x z, G x -> waitpid_status x = Some z -> G (log (LCollect z) (set_rc (Some z) (set_reaped true x)));
  sd_closed : forall x, G x -> G (match x_rc x with None => popen_send SIGKILL (log LClosed x) | Some _ => x end)
}.

Lemma use_k {A} (P : world -> Prop) (m : M A) w r w' : m w r w' -> P w -> keeps P m -> P w'.
Proof. intros H A0 H0. exact (H0 _ _ _ A0 H). Qed.

Section G.
Context (G : rx -> Prop) (SD : steady G).
Definition GW (w : world) : Prop := G (w_x w).
Lemma gstable : stable rstep rfinish GW.
Proof. apply stable_x; [intros; eapply sd_step; eauto|intros; eapply sd_finish; eauto]. Qed.
Lemma g_modx f : (forall x, G x -> G (f x)) -> keeps GW (modx f).
Proof. intros H w r w' A [_ ->]. exact (H _ A). Qed.
Lemma g_callback p : keeps GW (callback p).
Proof. intros w r w' A [-> _]. exact A. Qed.
Lemma g_call p : (forall x, G x -> G (audit o p x)) -> keeps GW (call_audit p).
Proof. intros H. apply k_bind; [apply g_modx; exact H|intros; apply g_callback]. Qed.
Lemma g_harvest aws t cf : keeps GW (harvest aws t cf).
Proof. exact (k_harvest _ _ _ gstable aws t cf). Qed.
Lemma g_proc {B} (k : M B) : keeps GW k -> keeps GW (bindM (bindM (getx x_proc) assertM) (fun _ => k)).
Proof. intros H. apply k_bind; [apply k_bind; [apply k_getx|intros; apply k_assert]|intros; exact H]. Qed.
Lemma g_signal s : keeps GW (signal_cb s).
Proof. apply g_proc. apply k_bind; [apply g_call; intros; now apply sd_audit|]. intros _. apply g_modx. intros. now apply sd_send. Qed.
Lemma g_poll : keeps GW poll_wait_pid.
Proof.
  apply k_bind; [apply k_getx|]. intros [z|]; [apply k_ret|]. intros w r w' A H. apply i_getx in H.
  destruct (waitpid_status (w_x w)) as [z|] eqn:E; [|destruct H as [_ ->]; exact A]. apply i_modx in H. destruct H as [_ ->].
  exact (sd_poll _ SD _ _ A E).
Qed.
Lemma g_kill_wait : keeps GW kill_wait_cb.
Proof.
  apply g_proc. apply k_bind; [apply k_getx|]. intros [z|]; [apply k_ret|]. apply k_try.
  - apply k_bind; [apply g_signal|intros; apply g_harvest].
  - intros e k. destruct e; try discriminate. intros [= <-]. apply k_bind; [apply g_poll|]. intros []; [apply k_ret|apply k_raise].
Qed.
Lemma g_set_cancelled : keeps GW set_cancelled.
Proof. apply g_modx. intros x A. apply (sd_timer _ SD), (sd_canc _ SD), A. Qed.
Lemma g_kill : keeps GW kill_cb.
Proof.
  apply g_proc. apply k_try.
  - apply k_bind; [apply k_bind; [apply k_getx|intros [z|]; [apply k_ret|apply g_signal]]|]. intros _.
    apply k_bind; [apply k_bind; [apply k_getx|intros [|i ts]; [apply k_ret|apply g_harvest]]|]. intros _.
    apply k_bind; [apply k_getx|intros [z|]; [apply k_ret|apply g_harvest]].
  - intros e k. destruct e; intros [= <-]; try exact g_kill_wait;
      (apply k_bind; [first [exact g_kill_wait|exact g_set_cancelled]|intros; first [exact g_kill_wait|apply k_raise]]).
Qed.
Lemma g_wait : keeps GW wait_cb.
Proof.
  assert (C : keeps GW clear_tasks) by (apply g_modx; intros x A; now apply (sd_tasks _ SD)).
  apply g_proc. apply k_try.
  - apply k_bind; [apply k_getx|intros [|i ts]; [apply k_ret|apply g_harvest]].
  - intros e k. destruct e; cbn; intros [= <-]; (apply k_bind; [first [exact C|exact g_set_cancelled]|intros _]);
      (apply k_bind; [first [exact C|exact g_kill]|intros _]); first [exact g_kill|apply k_raise].
Qed.
Lemma g_close : keeps GW close.
Proof.
  apply g_proc. apply k_bind; [apply g_modx; intros x A; now apply (sd_closed _ SD)|]. intros _. apply k_bind; [apply k_getx|]. intros [z|]; [|apply k_ret].
  destruct piped_stdin; [|apply k_ret]. apply k_try; [apply g_harvest|]. intros e k. destruct e; try discriminate. intros [= <-]. apply k_ret.
Qed.
Lemma g_when b (m : M unit) : keeps GW m -> keeps GW (when b m).
Proof. destruct b; [auto|intros _; apply k_ret]. Qed.
Lemma g_finish exc : keeps GW (finish_cb exc).
Proof.
  apply g_proc. apply k_finally; [|exact g_close]. destruct exc as [e|].
  - apply k_bind; [apply g_when, g_set_cancelled|]. intros _. apply k_bind; [exact g_kill|intros; apply k_getx].
  - apply k_bind; [exact g_wait|intros; apply k_ret].
Qed.
Lemma g_stop_timer : keeps GW stop_timer.
Proof. apply g_modx. intros x A. now apply (sd_timer _ SD). Qed.
Lemma g_add_task k : keeps GW (add_task k).
Proof. apply k_bind; [exact (k_spawn _ _ _ gstable k)|]. intros i. apply g_modx. intros x A. now apply (sd_tasks _ SD). Qed.
Lemma g_add_io n : keeps GW (add_io n).
Proof. induction n as [|n IH]; [apply k_ret|]. apply k_bind; [apply g_add_task|intros; exact IH]. Qed.
Lemma g_setup : keeps GW setup.
Proof. intros w r w' A [-> _]. exact A. Qed.
Lemma g_setup_streams : keeps GW setup_streams.
Proof.
  intros w r w' A (n & H). revert w r w' A H. apply (k_bind GW); [apply g_add_io|intros; apply g_setup].
Qed.
Lemma g_spawn : keeps GW (subprocess_spawn o ext use_pty).
Proof.
  apply k_bind; [apply k_bind; [apply k_getx|intros; apply k_assert]|]. intros _. apply k_bind.
  { apply g_when. intros w r w' A (evs & s & R & _). eapply (wait_run_keeps _ _ _ gstable); eauto. }
  intros _. apply k_bind; [exact (k_await_yield _ _ _ gstable)|]. intros _. apply k_bind.
  { apply g_modx. intros x A. now apply (sd_launching _ SD). }
  intros _. apply k_bind; [exact (k_spawn _ _ _ gstable KExec)|]. intros i. apply k_try; [exact (k_await_shield _ _ _ gstable i)|].
  intros e k. destruct e; try discriminate. intros [= <-]. apply k_bind; [apply k_get|]. intros w.
  destruct (task_out w i) as [[| |]|]; try apply k_raise; (apply k_bind; [exact (k_await_task _ _ _ gstable i)|intros; apply k_raise]).
Qed.
Lemma g_start : keeps GW start_cb.
Proof.
  apply k_bind; [apply k_bind; [apply k_getx|intros; apply k_assert]|]. intros _. apply k_bind.
  { apply k_try.
    - apply k_bind; [apply g_setup|]. intros _. apply k_bind; [apply g_spawn|]. intros _. apply g_proc, g_setup_streams.
    - intros e k. destruct (_ || _); [|discriminate]. intros [= <-]. apply k_bind; [apply g_when, g_set_cancelled|]. intros _.
      apply k_bind; [apply k_bind; [apply k_getx|intros; apply g_when, g_kill]|intros; apply k_raise]. }
  intros _. apply k_bind; [apply g_add_task|]. intros _. apply k_bind.
  { apply k_bind; [apply k_bind; [apply k_getx|intros; apply k_assert]|]. intros _. apply g_when, g_modx. intros x A. now apply (sd_timer _ SD). }
  intros _. apply g_modx. intros x A. now apply (sd_inside _ SD).
Qed.
Lemma g_aenter : (forall x p, G x -> G (audit o p x)) -> keeps GW aenter_cb.
Proof.
  intros GA. apply k_bind; [apply g_call; intros; now apply GA|]. intros _. apply k_finally.
  - apply k_try; [exact g_start|]. intros e k [= <-]. apply k_bind; [apply g_stop_timer|]. intros _. apply k_bind; [apply g_call; intros; now apply GA|intros; apply k_raise].
  - apply k_bind; [apply k_getx|]. intros []; [|apply k_ret]. apply k_bind; [|intros; apply k_ret]. apply k_bind; [apply k_getx|]. intros [v|e]; [apply k_ret|apply k_raise].
Qed.
Lemma g_body : keeps GW any_body.
Proof.
  intros w r w' A H. unfold RunnerModel.any_body in H. induction H as [w|w ev w1 c w2 E _ IH|w w1 w2 E _ IH]; [exact A| |].
  - apply IH. exact (st_env _ _ _ gstable _ _ _ _ A E).
  - apply IH. exact (g_add_task _ _ _ _ A E).
Qed.
End G.

(** What is known is what happened. *)
Definition known (x : rx) : Prop :=
  (x_watch x <> None -> x_exit x <> None) /\ (x_rc x <> None -> x_exit x <> None)
  /\ (forall s, x_exit x = Some s -> In (LExit s) (x_log x)).
Definition gone (x : rx) : Prop := x_exit x <> None \/ In (LSent 9) (x_log x).

Lemma popen_send_log s x : exists l, x_log (popen_send s x) = x_log x ++ l.
Proof. unfold popen_send, popen_poll. destruct (x_exit x); cbn; [exists []; now rewrite app_nil_r|eauto]. Qed.
(** The program's own steps only append to the log and leave these fields alone. *)
Definition tame (x x' : rx) : Prop :=
  x_watch x' = x_watch x /\ x_rc x' = x_rc x /\ x_exit x' = x_exit x /\ x_proc x' = x_proc x /\ exists l, x_log x' = x_log x ++ l.
Lemma tame_refl x : tame x x.
Proof. repeat split. exists []. now rewrite app_nil_r. Qed.
Lemma tame_trans x y z : tame x y -> tame y z -> tame x z.
Proof.
  intros (A1 & A2 & A3 & A4 & l & A5) (B1 & B2 & B3 & B4 & l' & B5). repeat split; try congruence. exists (l ++ l'). now rewrite B5, A5, app_assoc.
Qed.
Lemma tame_log x e : tame x (log e x).
Proof. repeat split. now exists [e]. Qed.
Lemma tame_audit x p : tame x (audit o p x).
Proof. unfold audit. destruct (o_audit_callback o); [apply tame_log|apply tame_refl]. Qed.
Lemma tame_popen x s : tame x (popen_send s x).
Proof.
  unfold popen_send, popen_poll. destruct (x_exit x) eqn:E; [|apply tame_log]. repeat split; try (cbn; congruence).
  exists []. cbn. now rewrite app_nil_r.
Qed.
Lemma tame_send x s : tame x (send s x).
Proof.
  unfold send. destruct s as [z|].
  - eapply tame_trans; [apply (tame_log x (LSignal (Some z)))|]. eapply tame_trans; [apply (tame_popen _ z)|]. repeat split. exists []. cbn. now rewrite app_nil_r.
  - eapply tame_trans; [apply (tame_log x (LSignal None))|]. apply tame_popen.
Qed.
Lemma tame_closed x : tame x (match x_rc x with None => popen_send SIGKILL (log LClosed x) | Some _ => x end).
Proof. destruct (x_rc x); [apply tame_refl|]. eapply tame_trans; [apply (tame_log x LClosed)|apply tame_popen]. Qed.
Lemma tame_known x x' : tame x x' -> known x -> known x'.
Proof. intros (A & B & C & _ & l & D) (E & F & H). unfold known. rewrite A, B, C, D. repeat split; auto. intros s Q. apply in_or_app. left. auto. Qed.
Lemma tame_gone x x' : tame x x' -> gone x -> gone x'.
Proof. intros (_ & _ & C & _ & l & D) [E|E]; [left; congruence|right]. rewrite D. apply in_or_app. now left. Qed.

Lemma known_step x e x' c : known x -> rstep x e = Some (x', c) -> known x'.
Proof.
  intros (A & B & C). destruct e; cbn [RunnerModel.rstep].
  - destruct (_ && _); [|discriminate]. intros [= <- <-]. repeat split; auto. cbn. intros s Q. apply in_or_app. auto.
  - destruct (x_child x); [|discriminate]. destruct (x_exit x) eqn:E; [discriminate|]. intros [= <- <-]. split; [|split]; cbn; try discriminate.
    intros s' [= <-]. apply in_or_app. right. now left.
  - destruct (waitpid_status x) eqn:W; [|discriminate]. destruct (x_watch x); [discriminate|]. intros [= <- <-]. split; [|split]; cbn; auto.
    intros _. unfold waitpid_status in W. destruct (x_exit x); discriminate.
  - destruct (x_watch x) eqn:W; [|discriminate]. destruct (x_rc x); [discriminate|]. intros [= <- <-]. split; [|split]; cbn; auto.
    + intros _. apply A. discriminate.
    + intros s Q. apply in_or_app. auto.
  - destruct (x_timer x); [|discriminate]. intros [= <- <-]. repeat split; auto. cbn. intros s Q. apply in_or_app. auto.
  - destruct (_ && _); [|discriminate]. intros [= <- <-]. refine (tame_known _ _ (tame_popen _ _) _). repeat split; auto. cbn. intros s Q. apply in_or_app. auto.
  - intros [= <- <-]. refine (tame_known _ _ (tame_log _ _) _). repeat split; auto.
  - destruct (x_inside x); [|discriminate]. destruct (returncode x); intros [= <- <-]; [repeat split; auto|]. change (known (send (Some s) (audit o (PSignal (Some s)) (log LUser x)))).
    refine (tame_known _ _ (tame_trans _ _ _ (tame_log x LUser) (tame_trans _ _ _ (tame_audit _ _) (tame_send _ _))) _). repeat split; auto.
  - destruct (x_inside x); [|discriminate]. destruct (returncode x); intros [= <- <-]; [repeat split; auto|]. change (known (send (o_cancel_signal o) (audit o (PSignal (o_cancel_signal o)) (log LUser x)))).
    refine (tame_known _ _ (tame_trans _ _ _ (tame_log x LUser) (tame_trans _ _ _ (tame_audit _ _) (tame_send _ _))) _). repeat split; auto.
Qed.
Lemma known_finish x t r x' : known x -> rfinish x t r = Some x' -> known x'.
Proof.
  intros H. unfold RunnerModel.rfinish. destruct (t_kind t), r;
    repeat match goal with
    | |- context [match x_rc x with _ => _ end] => destruct (x_rc x) eqn:?
    | |- (if ?b then _ else _) = _ -> _ => destruct b
    end; intros Q; try discriminate Q; injection Q as <-; try exact H; destruct H as (A & B & C); repeat split; auto.
Qed.
Lemma poll_known x z : known x -> waitpid_status x = Some z -> known (log (LCollect z) (set_rc (Some z) (set_reaped true x))).
Proof.
  intros (A & B & C) W. repeat split; cbn; auto.
  - intros _. unfold waitpid_status in W. destruct (x_exit x); discriminate.
  - intros s Q. apply in_or_app. auto.
Qed.
Lemma known_steady : steady known.
Proof.
  constructor; try (intros; eapply known_step; eassumption); try (intros; eapply known_finish; eassumption).
  - intros x p. apply tame_known, tame_audit.
  - intros x s. apply tame_known, tame_send.
  - intros x b H; exact H.
  - intros x b H; exact H.
  - intros x b H; exact H.
  - intros x b H; exact H.
  - intros x b H; exact H.
  - intros. now apply poll_known.
  - intros x. apply tame_known, tame_closed.
Qed.

(** The process object, once set, stays; so does the end of the child. *)
Definition has_proc (x : rx) : Prop := x_proc x = true.
Lemma tame_proc x x' : tame x x' -> has_proc x -> has_proc x'.
Proof. unfold has_proc. intros (_ & _ & _ & -> & _). auto. Qed.
Lemma frame_gone x x' l : frame x x' l -> gone x -> gone x'.
Proof.
  intros F [A|A]; [left; now rewrite (fr_exit _ _ _ F)|right]. rewrite (fr_log _ _ _ F). apply in_or_app. now left.
Qed.
Lemma proc_steady : steady has_proc.
Proof.
  constructor.
  - intros x e x' c H Q. destruct (rstep_frame _ _ _ _ _ Q) as (l & F & _). exact (fr_proc _ _ _ F H).
  - intros x t r x' H Q. exact (fr_proc _ _ _ (rfinish_frame _ _ _ _ _ Q) H).
  - intros x p. apply tame_proc, tame_audit.
  - intros x s. apply tame_proc, tame_send.
  - intros x b H; exact H.
  - intros x b H; exact H.
  - intros x b H; exact H.
  - intros x b H; exact H.
  - intros x b H; exact H.
  - intros x z H _; exact H.
  - intros x. apply tame_proc, tame_closed.
Qed.
Lemma gone_steady : steady gone.
Proof.
  constructor.
  - intros x e x' c H Q. destruct (rstep_frame _ _ _ _ _ Q) as (l & F & _). exact (frame_gone _ _ _ F H).
  - intros x t r x' H Q. exact (frame_gone _ _ _ (rfinish_frame _ _ _ _ _ Q) H).
  - intros x p. apply tame_gone, tame_audit.
  - intros x s. apply tame_gone, tame_send.
  - intros x b H; exact H.
  - intros x b H; exact H.
  - intros x b H; exact H.
  - intros x b H; exact H.
  - intros x b H; exact H.
  - intros x z [H|H] _; [left; exact H|right]. cbn. apply in_or_app. now left.
  - intros x. apply tame_gone, tame_closed.
Qed.

(** The run that was entered has a process. *)
Lemma aenter_proc w w' : aenter_cb w (Ok tt) w' -> x_proc (w_x w') = true.
Proof.
  intros [([] & w1 & _ & (r1 & w2 & H2 & H3))|(e & _ & Q)]; [|discriminate Q].
  assert (H2' : r1 = Ok tt /\ GW (fun x => x_proc x = true) w2).
  { destruct H3 as [(_ & <-)|(e & _ & Q)]; [|discriminate Q]. split; [reflexivity|].
    destruct H2 as [(a & H2 & _)|(e & w0 & _ & HH)].
    - destruct H2 as [([] & w3 & _ & H2)|(e & _ & Q)]; [|discriminate Q].
      destruct H2 as [([] & w4 & H4 & H5)|(e & _ & Q)]; [|discriminate Q].
      assert (P4 : GW has_proc w4).
      { destruct H4 as [(a4 & H4 & _)|(e & w5 & _ & HH)].
        - destruct H4 as [(a5 & w5 & _ & H4)|(e & _ & Q)]; [|discriminate Q]. destruct H4 as [(a6 & w6 & _ & H4)|(e & _ & Q)]; [|discriminate Q].
          destruct H4 as [(a7 & w7 & H7 & H4)|(e & _ & Q)]; [|discriminate Q].
          apply i_getx in H7. destruct (x_proc (w_x w6)) eqn:P6; [|destruct H7 as [Q _]; discriminate Q]. destruct H7 as [_ ->].
          exact (g_setup_streams _ proc_steady _ _ _ P6 H4).
        - exfalso. destruct (is_Exception e || is_cancelled e); [|destruct HH as [Q _]; discriminate Q].
          destruct HH as [(a5 & w6 & _ & HH)|(e2 & _ & Q)]; [|discriminate Q]. apply i_then_raise in HH as (r5 & _ & Q). destruct r5; discriminate Q. }
      refine (use_k _ _ _ _ _ H5 P4 _). apply (k_bind (GW has_proc)); [exact (g_add_task _ proc_steady _)|]. intros _. apply k_bind.
      { apply k_bind; [apply k_bind; [apply k_getx|intros; apply k_assert]|]. intros _. apply g_when, g_modx. intros x A. exact A. }
      intros _. apply g_modx. intros x A. exact A.
    - exfalso. apply i_modx in HH. apply i_then_raise in HH as (r5 & _ & Q). destruct r5; discriminate Q. }
  destruct H2' as [-> P]. destruct H3 as [(H3 & _)|(e & _ & Q)]; [|discriminate Q].
  apply i_getx in H3. destruct (x_cancelled (w_x w2) && o_catch_cancelled o); [|destruct H3 as [_ ->]; exact P].
  destruct H3 as [(v & w3 & H3 & [_ ->])|(e & _ & Q)]; [|discriminate Q]. apply i_getx in H3. cbn in H3.
  destruct (runner_result _ _ _ _ _ _ _ _); destruct H3 as [_ ->]; exact P.
Qed.

(** close() leaves no child behind. *)
Lemma close_gone w r w' : close w r w' -> known (w_x w) -> x_proc (w_x w) = true -> gone (w_x w').
Proof.
  intros H K P. destruct H as [([] & w1 & H1 & H)|(e & H1 & ->)].
  2:{ apply i_getx in H1. rewrite P in H1. destruct H1 as [Q _]; discriminate Q. }
  apply i_getx in H1. rewrite P in H1. destruct H1 as [_ ->]. apply i_modx in H.
  assert (G1 : GW gone (upd_x w (fun x => match x_rc x with None => popen_send SIGKILL (log LClosed x) | Some _ => x end))).
  { unfold GW. cbn. destruct (x_rc (w_x w)) eqn:E; [left; apply K; congruence|].
    unfold popen_send, popen_poll. cbn. destruct (x_exit (w_x w)) eqn:X; [left; cbn; congruence|right]. cbn. apply in_or_app. right. now left. }
  refine (use_k _ _ _ _ _ H G1 _). apply (k_bind (GW gone)); [apply k_getx|]. intros [z|]; [|apply k_ret]. destruct piped_stdin; [|apply k_ret].
  apply k_try; [apply (g_harvest _ gone_steady)|]. intros e k. destruct e; try discriminate. intros [= <-]. apply k_ret.
Qed.
Lemma finish_gone exc w r w' : finish_cb exc w r w' -> known (w_x w) -> x_proc (w_x w) = true -> known (w_x w') /\ gone (w_x w').
Proof.
  intros H K P. split; [exact (g_finish _ known_steady exc _ _ _ K H)|].
  destruct H as [([] & w1 & H1 & (r1 & w2 & H2 & H3))|(e & H1 & ->)]; apply i_getx in H1; rewrite P in H1.
  2:{ destruct H1 as [Q _]; discriminate Q. }
  destruct H1 as [_ ->].
  assert (K2 : forall G, steady G -> GW G w -> GW G w2).
  { intros G SG A. refine (use_k _ _ _ _ _ H2 A _). destruct exc as [e|].
    - apply (k_bind (GW G)); [apply g_when, g_set_cancelled, SG|]. intros _. apply k_bind; [exact (g_kill _ SG)|intros; apply k_getx].
    - apply (k_bind (GW G)); [exact (g_wait _ SG)|intros; apply k_ret]. }
  assert (C : exists rc, close w2 rc w') by (destruct H3 as [(H3 & _)|(e & H3 & _)]; eauto). destruct C as (rc & C).
  eapply close_gone; [exact C|exact (K2 _ known_steady K)|exact (K2 _ proc_steady P)].
Qed.
Lemma aexit_gone exc w r w' : aexit_cb exc w r w' -> known (w_x w) -> x_proc (w_x w) = true -> known (w_x w') /\ gone (w_x w').
Proof.
  intros H K P.
  assert (T : forall r1 w1, finallyM (tryM (finish_cb exc) (fun e => match e with CancelledError => Some (bindM set_cancelled (fun _ => ret false)) | _ => None end))
       (bindM stop_timer (fun _ => bindM (modx (fun x => set_inside false (audit o (PStop None) x))) (fun _ => callback (PStop None)))) w r1 w1 ->
       known (w_x w1) /\ gone (w_x w1)).
  { intros r1 w1 (r2 & w2 & H2 & H3).
    assert (K2 : known (w_x w2) /\ gone (w_x w2)).
    { destruct H2 as [(a & H2 & _)|(e & w3 & H2 & HH)]; apply finish_gone in H2; auto.
      destruct e; try (destruct HH as [_ ->]; exact H2). apply i_modx in HH. destruct HH as [_ ->]. exact H2. }
    assert (F : forall G, steady G -> (forall x p, G x -> G (audit o p x)) -> GW G w2 -> GW G w1).
    { intros G SG SA A. assert (Q : exists rf, bindM stop_timer (fun _ => bindM (modx (fun x => set_inside false (audit o (PStop None) x))) (fun _ => callback (PStop None))) w2 rf w1) by (destruct H3 as [(H3 & _)|(e & H3 & _)]; eauto).
      destruct Q as (rf & Q). refine (use_k _ _ _ _ _ Q A _). apply (k_bind (GW G)); [apply g_stop_timer, SG|]. intros _. apply k_bind; [|intros; apply g_callback].
      apply g_modx. intros x B. apply (sd_inside _ SG), SA, B. }
    split; [refine (F _ known_steady _ (proj1 K2)); intros x p; apply tame_known, tame_audit|refine (F _ gone_steady _ (proj2 K2)); intros x p; apply tame_gone, tame_audit]. }
  destruct H as [(b & w1 & H1 & H2)|(e & H1 & _)]; apply T in H1; [|exact H1].
  apply i_getx in H2. destruct (_ && _); destruct H2 as [_ ->]; exact H1.
Qed.

(** ** Start and stop are reported once, at the ends *)
Definition between (e : rev) : Prop := match e with LAudit PStart | LAudit (PStop _) => False | _ => True end.
Definition opened (x : rx) : Prop := exists l, x_log x = LAudit PStart :: l /\ Forall between l.
Lemma opened_more x x' l : opened x -> x_log x' = x_log x ++ l -> Forall between l -> opened x'.
Proof. intros (l0 & E & F) E2 H. exists (l0 ++ l). rewrite E2, E. split; [reflexivity|]. apply Forall_app. now split. Qed.
Lemma run_between l : Forall run_event l -> Forall between l.
Proof. apply Forall_impl. intros [[| |]| | | | | | | | | |]; cbn; auto. Qed.
Lemma popen_between s x : exists l, x_log (popen_send s x) = x_log x ++ l /\ Forall between l.
Proof.
  unfold popen_send, popen_poll. destruct (x_exit x); cbn; [exists []; rewrite app_nil_r|exists [LSent s]]; split; auto; repeat constructor.
Qed.
Lemma opened_steady : steady opened.
Proof.
  constructor; try (intros x b H; exact H).
  - intros x e x' c H Q. destruct (rstep_frame _ _ _ _ _ Q) as (l & F & P & _). eapply opened_more; [exact H|exact (fr_log _ _ _ F)|].
    eapply run_between, env_piece_run, P.
  - intros x t r x' H Q. eapply (opened_more x x' []); [exact H|exact (fr_log _ _ _ (rfinish_frame _ _ _ _ _ Q))|constructor].
  - intros x s H. unfold audit. destruct (o_audit_callback o); [|exact H]. eapply (opened_more x _ [_]); [exact H|reflexivity|repeat constructor].
  - intros x s H. assert (H1 : opened (log (LSignal s) x)) by (eapply (opened_more x _ [_]); [exact H|reflexivity|repeat constructor]).
    unfold send. destruct s as [z|].
    + destruct (popen_between z (log (LSignal (Some z)) x)) as (l & E & F). eapply (opened_more _ _ l); [exact H1|exact E|exact F].
    + destruct (popen_between SIGKILL (log (LSignal None) x)) as (l & E & F). eapply (opened_more _ _ l); [exact H1|exact E|exact F].
  - intros x z H _. eapply (opened_more x _ [_]); [exact H|reflexivity|repeat constructor].
  - intros x H. destruct (x_rc x); [exact H|]. assert (H1 : opened (log LClosed x)) by (eapply (opened_more x _ [_]); [exact H|reflexivity|repeat constructor]).
    destruct (popen_between SIGKILL (log LClosed x)) as (l & E & F). eapply (opened_more _ _ l); [exact H1|exact E|exact F].
Qed.
Definition closed_log (x : rx) : Prop := exists l f, x_log x = LAudit PStart :: l ++ [LAudit (PStop f)] /\ Forall between l.
Lemma opened_stop x f : o_audit_callback o <> None -> opened x -> closed_log (audit o (PStop f) x).
Proof.
  intros A (l & E & F). unfold audit. destruct (o_audit_callback o); [|congruence]. exists l, f. split; [|exact F]. cbn. now rewrite E.
Qed.
Lemma aexit_brackets exc w r w' : o_audit_callback o <> None -> aexit_cb exc w r w' -> opened (w_x w) -> closed_log (w_x w').
Proof.
  intros A H OP.
  assert (T : forall r1 w1, finallyM (tryM (finish_cb exc) (fun e => match e with CancelledError => Some (bindM set_cancelled (fun _ => ret false)) | _ => None end))
       (bindM stop_timer (fun _ => bindM (modx (fun x => set_inside false (audit o (PStop None) x))) (fun _ => callback (PStop None)))) w r1 w1 ->
       closed_log (w_x w1)).
  { intros r1 w1 (r2 & w2 & H2 & H3).
    assert (K2 : opened (w_x w2)).
    { destruct H2 as [(a & H2 & _)|(e & w3 & H2 & HH)]; apply (g_finish _ opened_steady exc _ _ _ OP) in H2; auto.
      destruct e; try (destruct HH as [_ ->]; exact H2). apply i_modx in HH. destruct HH as [_ ->]. exact H2. }
    assert (F : w_x w1 = set_inside false (audit o (PStop None) (set_timer false (w_x w2)))).
    { assert (Q : exists rf, bindM stop_timer (fun _ => bindM (modx (fun x => set_inside false (audit o (PStop None) x))) (fun _ => callback (PStop None))) w2 rf w1) by (destruct H3 as [(H3 & _)|(e & H3 & _)]; eauto).
      destruct Q as (rf & Q). apply i_modx, i_modx in Q. destruct Q as [-> _]. reflexivity. }
    rewrite F. change (closed_log (audit o (PStop None) (set_timer false (w_x w2)))). apply opened_stop; [exact A|exact K2]. }
  destruct H as [(b & w1 & H1 & H2)|(e & H1 & _)]; apply T in H1; [|exact H1].
  apply i_getx in H2. destruct (_ && _); destruct H2 as [_ ->]; exact H1.
Qed.
Lemma start_ok w w' : start_cb w (Ok tt) w' -> start o ext use_pty w (Ok tt) w'.
Proof.
  intros [([] & w1 & H1 & H)|(e & _ & Q)]; [|discriminate Q]. left. exists tt, w1. split; [exact H1|].
  destruct H as [([] & w2 & H2 & H)|(e & _ & Q)]; [|discriminate Q]. left. exists tt, w2. split; [|exact H].
  destruct H2 as [(a & H2 & Q)|(e & w3 & _ & HH)]; [left; eauto|exfalso].
  destruct (is_Exception e || is_cancelled e); [|destruct HH as [Q _]; discriminate Q].
  destruct HH as [(a & w4 & _ & HH)|(e2 & _ & Q)]; [|discriminate Q]. apply i_then_raise in HH as (r5 & _ & Q). destruct r5; discriminate Q.
Qed.
Lemma aenter_brackets r w' : o_audit_callback o <> None -> aenter_cb fresh r w' ->
  (r = Ok tt /\ opened (w_x w')) \/ exists e, r = Err e /\ (closed_log (w_x w') \/ (x_log (w_x w') = [LAudit PStart] /\ cb PStart (Err e))).
Proof.
  intros A H. destruct H as [([] & w1 & H1 & H)|(e & H1 & ->)]; apply i_modx in H1; destruct H1 as [-> H1].
  2:{ right. exists e. split; [reflexivity|right]. unfold audit. cbn. destruct (o_audit_callback o); [|congruence]. now split. }
  assert (O1 : GW opened (upd_x fresh (audit o PStart))).
  { unfold GW, upd_x, audit. cbn. destruct (o_audit_callback o); [|congruence]. exists []. cbn. split; [reflexivity|constructor]. }
  destruct H as (r1 & w1 & H2 & H3).
  assert (T : (r1 = Ok tt /\ opened (w_x w1) /\ x_cancelled (w_x w1) = false) \/ (exists e, r1 = Err e) /\ closed_log (w_x w1)).
  { destruct H2 as [([] & H2 & ->)|(e & w0 & H2 & HH)].
    - left. split; [reflexivity|]. split; [exact (g_start _ opened_steady _ _ _ O1 H2)|]. apply start_ok in H2.
      destruct (begun_x o) as (B1 & B2 & B3 & B4 & B5 & B6 & B7 & B8).
      change (upd_x fresh (audit o PStart)) with (begun o) in H2.
      assert (SC : start_case o ext (begun o) (Ok tt) w1).
      { eapply start_cases; [exact H2|apply begun_J|split; auto|repeat split; auto|reflexivity|exact B8]. }
      destruct SC as [wa P PR Mk -> _|e wa rk _ _ _ Q]; [|discriminate].
      destruct (entered_x o wa) as (_ & _ & _ & -> & _). apply (pre_calm _ _ _ _ P).
    - apply (g_start _ opened_steady _ _ _ O1) in H2. right. apply i_modx in HH. destruct HH as [([] & w2 & H4 & [-> ->])|(e2 & H4 & ->)]; apply i_modx in H4; destruct H4 as [-> _].
      + split; [eauto|]. apply (opened_stop (set_timer false (w_x w0))); [exact A|exact H2].
      + split; [eauto|]. apply (opened_stop (set_timer false (w_x w0))); [exact A|exact H2]. }
  assert (FW : forall rf, bindM (getx (fun x => x_cancelled x && o_catch_cancelled o)) (fun b : bool => if b then bindM (run_result o out_bytes err_bytes enc true) (fun _ => ret tt) else ret tt) w1 rf w' -> w' = w1 /\ (x_cancelled (w_x w1) && o_catch_cancelled o = false -> rf = Ok tt)).
  { intros rf Q. apply i_getx in Q. destruct (x_cancelled (w_x w1) && o_catch_cancelled o); [|destruct Q as [-> ->]; auto].
    split; [|discriminate]. destruct Q as [(v & w3 & Q & [_ ->])|(e & Q & _)]; apply i_getx in Q; cbn in Q; destruct (runner_result _ _ _ _ _ _ _ _); destruct Q as [_ ->]; reflexivity. }
  destruct H3 as [(H3 & ->)|(e & H3 & ->)]; apply FW in H3 as [-> H3].
  - destruct T as [T|((e & ->) & T)]; [left; split; apply T|right; eauto].
  - right. exists e. split; [reflexivity|]. destruct T as [(-> & _ & T)|(_ & T)]; [|left; exact T].
    (* a start that succeeded has not been cancelled *)
    exfalso. rewrite T in H3. specialize (H3 eq_refl). discriminate.
Qed.
End R.
