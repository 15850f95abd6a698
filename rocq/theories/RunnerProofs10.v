From Verif Require Import AsyncModel AsyncSpec AsyncProofs HarvestModel HarvestSpec HarvestProofs HarvestProofs2 AsyncInv
  RunnerModel RunnerSpec RunnerProofs RunnerProofs2 RunnerProofs3 RunnerProofs4 RunnerProofs5 RunnerProofs6 RunnerProofs7 RunnerProofs8 RunnerProofs9.
Open Scope Z_scope.

Section R.
Context (o : opts) (ext piped_stdin use_pty : bool) (out_bytes err_bytes : option bytes) (enc : text).
Notation world := (world rx rkind unit).
Notation M := (@M rx rkind unit).
Notation rstep := (rstep o).
Notation rfinish := (rfinish ext).
Notation harvest := (harvest rstep rfinish).
Notation kill_wait := (kill_wait o ext).
Notation kill_body := (kill_body o ext).
Notation kill := (kill o ext).
Notation wait := (wait o ext).
Notation close := (close o ext piped_stdin).
Notation finish := (finish o ext piped_stdin).
Notation aexit := (aexit o ext piped_stdin).
Notation J := (J ext).
Notation reg := (reg o ext).
Notation envrel := (envrel o).
Notation opt_harvest := (opt_harvest o ext).
Notation aenter := (aenter o ext use_pty out_bytes err_bytes enc).
Notation with_run := (with_run o ext piped_stdin use_pty out_bytes err_bytes enc).
Notation any_body := (any_body o ext).
Notation pre := (pre o ext).
Notation entered := (entered o).
Notation begun := (begun o).

(** ** Signal escalation *)
Section Esc.
Context (sg : Z) (CS : o_cancel_signal o = Some sg) (SG : sg <> SIGKILL).
Definition why_kill (b : rev) : Prop := b = LSent sg \/ b = LAbort \/ b = LUser.
Record escl (l : list rev) : Prop := {
  esc_sent : preceded (eq (LSent SIGKILL)) why_kill l;
  esc_sig : preceded (eq (LSignal None)) (eq (LSignal (Some sg))) l
}.
Lemma escl_nil : escl [].
Proof. constructor; apply preceded_nil. Qed.
Lemma escl_snoc l e : escl l -> (e = LSent SIGKILL -> exists b, In b l /\ why_kill b) -> (e = LSignal None -> In (LSignal (Some sg)) l) -> escl (l ++ [e]).
Proof.
  intros [A B] C D. constructor; apply preceded_snoc; auto. intros Q. exists (LSignal (Some sg)). split; [apply D; now symmetry|reflexivity].
Qed.
Lemma escl_other l e : escl l -> e <> LSent SIGKILL -> e <> LSignal None -> escl (l ++ [e]).
Proof. intros. apply escl_snoc; tauto. Qed.
Lemma escl_audit l p : escl l -> escl (l ++ match o_audit_callback o with Some _ => [LAudit p] | None => [] end).
Proof. intros H. destruct (o_audit_callback o); [apply escl_other; auto; discriminate|]. now rewrite app_nil_r. Qed.
Lemma escl_cons l e p : escl ((l ++ [e]) ++ p) -> escl (l ++ e :: p).
Proof. now rewrite <- app_assoc. Qed.
Lemma escl_piece x l p : escl l -> env_piece o x p -> escl (l ++ p).
Proof.
  intros H [->|[->|[(g & ->)|[(g & ->)|[->|[->|[(l' & -> & L)|(IN & g & l' & -> & G & L)]]]]]]];
    try (now rewrite app_nil_r); try (apply escl_other; auto; discriminate).
  - apply escl_cons. assert (H1 : escl (l ++ [LAbort])) by (apply escl_other; auto; discriminate).
    destruct L as [->| ->]; [now rewrite app_nil_r|]. apply escl_snoc; auto; [|discriminate].
    intros _. exists LAbort. split; [apply in_piece; right; now left|right; now left].
  - apply escl_cons. assert (H1 : escl (l ++ [LUser])) by (apply escl_other; auto; discriminate).
    rewrite app_assoc. apply (escl_audit _ (PSignal g)) in H1. apply escl_cons.
    assert (GN : LSignal g <> LSignal None) by (intros [= ->]; destruct G as [G|G]; congruence).
    assert (H2 : escl (((l ++ [LUser]) ++ match o_audit_callback o with Some _ => [LAudit (PSignal g)] | None => [] end) ++ [LSignal g])).
    { apply escl_other; auto. discriminate. }
    destruct L as [->|(s & ->)]; [now rewrite app_nil_r|]. apply escl_snoc; auto; [|discriminate].
    intros _. exists LUser. split; [|right; now right]. rewrite !in_app_iff. cbn. auto.
Qed.
Definition esc (x : rx) : Prop := escl (x_log x).
Lemma esc_step x e x' c : esc x -> rstep x e = Some (x', c) -> esc x'.
Proof. intros H Q. destruct (rstep_frame _ _ _ _ _ Q) as (l & F & P & _). unfold esc. rewrite (fr_log _ _ _ F). eapply escl_piece; eauto. Qed.
Lemma esc_finish x t r x' : esc x -> rfinish x t r = Some x' -> esc x'.
Proof. intros H Q. unfold esc. rewrite (fr_log _ _ _ (rfinish_frame _ _ _ _ _ Q)), app_nil_r. exact H. Qed.
Lemma esc_closed : closed o ext esc.
Proof. constructor; auto; [apply esc_step|apply esc_finish]. Qed.

(** The cancel signal has been tried. *)
Definition att (x : rx) : Prop := (x_exit x <> None \/ In (LSent sg) (x_log x)) /\ (x_rc x <> None \/ In (LSignal (Some sg)) (x_log x)).
Lemma att_frame x x' l : frame x x' l -> att x -> att x'.
Proof.
  intros F [A B]. split.
  - destruct A as [A|A]; [left; now rewrite (fr_exit _ _ _ F)|right]. rewrite (fr_log _ _ _ F). apply in_piece. now left.
  - destruct B as [B|B]; [left; now rewrite (fr_rc _ _ _ F)|right]. rewrite (fr_log _ _ _ F). apply in_piece. now left.
Qed.
Definition ea (x : rx) : Prop := esc x /\ att x.
Lemma ea_stable : stable rstep rfinish (fun w => ea (w_x w)).
Proof.
  apply stable_x.
  - intros x e x' c [A B] Q. split; [eapply esc_step; eauto|]. destruct (rstep_frame _ _ _ _ _ Q) as (l & F & _). eapply att_frame; eauto.
  - intros x t r x' [A B] Q. split; [eapply esc_finish; eauto|]. eapply att_frame; [eapply rfinish_frame; eauto|exact B].
Qed.
Lemma esc_stable : stable rstep rfinish (fun w => esc (w_x w)).
Proof. exact (closed_stable _ _ _ esc_closed). Qed.
Lemma reg_att w w' : reg w w' -> att (w_x w) -> att (w_x w').
Proof.
  intros (_ & l & h & P) [A B]. split.
  - destruct A as [A|A]; [left; now rewrite (pr_exit _ _ _ _ _ P)|right]. rewrite (pr_log _ _ _ _ _ P). apply in_piece. now left.
  - destruct B as [B|B]; [left; now rewrite (pr_rc _ _ _ _ _ P)|right]. rewrite (pr_log _ _ _ _ _ P). apply in_piece. now left.
Qed.
Lemma att_rc w : J w -> x_rc (w_x w) <> None -> att (w_x w).
Proof. intros (X & _) H. split; left; [now apply (xi_rc_exit _ X)|exact H]. Qed.
Lemma signal_log sig x : x_log (signal_x o sig x) = ((x_log x ++ audit_piece o (PSignal sig)) ++ [LSignal sig]) ++
  match x_exit x with Some _ => [] | None => [LSent (match sig with Some s => s | None => SIGKILL end)] end.
Proof.
  unfold signal_x, popen_send, popen_poll, audit, audit_piece. destruct (o_audit_callback o), sig; cbn; destruct (x_exit x) eqn:E; cbn; rewrite ?E, ?app_nil_r; reflexivity.
Qed.
Lemma esc_signal x : esc x -> esc (signal_x o (Some sg) x) /\ att (signal_x o (Some sg) x).
Proof.
  intros H. destruct (signal_fields o (Some sg) x) as (A & _ & _ & _ & B & _). unfold esc, att. rewrite signal_log, A, B. split.
  - assert (H1 : escl ((x_log x ++ audit_piece o (PSignal (Some sg))) ++ [LSignal (Some sg)])).
    { apply escl_other; [apply escl_audit; exact H|discriminate|discriminate]. }
    destruct (x_exit x); [now rewrite app_nil_r|]. apply escl_other; auto; [|discriminate]. intros [= Q]. exact (SG Q).
  - rewrite !in_app_iff. cbn. destruct (x_exit x); cbn; [split; [left; discriminate|]|split]; auto 10.
Qed.
Lemma ea_kill_signal x : ea x -> x_rc x = None -> ea (signal_x o None x).
Proof.
  intros [H [A B]] N. destruct (signal_frame o None x) as (l & F & _). split; [|eapply att_frame; [exact F|split; auto]].
  destruct B as [B|B]; [congruence|]. unfold esc. rewrite signal_log.
  assert (H1 : escl ((x_log x ++ audit_piece o (PSignal None)) ++ [LSignal None])).
  { apply escl_snoc; [apply escl_audit; exact H|discriminate|]. intros _. apply in_piece. now left. }
  destruct (x_exit x) eqn:E; [now rewrite app_nil_r|]. apply escl_snoc; auto; [|discriminate]. intros _.
  destruct A as [A|A]; [congruence|]. exists (LSent sg). split; [|now left]. rewrite !in_app_iff. auto.
Qed.
Definition EA (w : world) := ea (w_x w).
Lemma k_kill_wait : keeps EA kill_wait.
Proof.
  intros w r w' H HK. unfold RunnerModel.kill_wait in HK.
  destruct HK as [([] & w1 & H1 & HK)|(e & H1 & _)]; apply i_getx in H1; (destruct (x_proc (w_x w)); destruct H1 as [Q ->]); try discriminate; [clear Q|exact H].
  apply i_getx in HK. destruct (x_rc (w_x w)) eqn:N; [destruct HK as [_ ->]; exact H|].
  assert (KS : forall ra wa, bindM (signal o None) (fun _ => harvest [AwCoro KWaiter] true false) w ra wa -> EA wa).
  { intros ra wa [([] & w1 & H1 & H2)|(e & H1 & ->)]; apply signal_run in H1 as [(_ & Q & ->)|(_ & Q & ->)]; try discriminate.
    - refine (k_harvest _ _ _ ea_stable _ _ _ _ _ _ _ H2). apply (ea_kill_signal _ H N).
    - exact H. }
  destruct HK as [([] & HK & _)|(e & w1 & HK & HH)]; apply KS in HK; [exact HK|]. destruct e; try (destruct HH as [_ ->]; exact HK).
  refine (_ HH). clear HH. revert w1 r w' HK.
  enough (KP : keeps EA (bindM poll_wait_pid (fun b : bool => if b then ret tt else raise unable_to_kill))).
  { intros w1 r w' A B. exact (KP w1 r w' A B). }
  apply k_bind; [|intros []; [apply k_ret|apply k_raise]].
  apply k_bind; [apply k_getx|]. intros [z|]; [apply k_ret|]. apply k_bind; [apply k_getx|]. intros [z|]; [|apply k_ret].
  apply k_bind; [|intros; apply k_ret]. intros u ru u' [A [B C]] [_ ->]. split; cbn.
  - unfold esc. cbn. apply escl_other; [exact A|discriminate|discriminate].
  - split; cbn; [|left; discriminate]. destruct B as [B|B]; [now left|right]. apply in_piece. now left.
Qed.
Lemma kill_ea w r w' : kill w r w' -> J w -> x_proc (w_x w) = true -> esc (w_x w) -> EA w'.
Proof.
  intros H HJ PR HE.
  assert (B : forall ra wa, kill_body w ra wa -> EA wa).
  { intros ra wa HB. split.
    - revert HB. generalize ra, wa. assert (KB : keeps (fun w => esc (w_x w)) kill_body).
      { apply k_bind; [|intros _; apply k_bind; [|intros _]].
        - apply k_bind; [apply k_getx|]. intros [z|]; [apply k_ret|]. apply k_bind; [apply k_bind; [apply k_getx|intros; apply k_assert]|].
          intros _ u ru u' Hu [_ ->]. rewrite CS. apply (esc_signal _ Hu).
        - apply k_bind; [apply k_getx|]. intros [|i ts]; [apply k_ret|]. exact (k_harvest _ _ _ esc_stable _ _ _).
        - apply k_bind; [apply k_getx|]. intros [z|]; [apply k_ret|]. exact (k_harvest _ _ _ esc_stable _ _ _). }
      intros ra' wa'. exact (KB w ra' wa' HE).
    - destruct (kill_body_spec o ext _ _ _ HB HJ PR) as (_ & _ & w1 & C & R). eapply reg_att; [exact R|].
      destruct C as [(N & ->)|(N & ->)]; [now apply att_rc|]. rewrite CS. apply (esc_signal _ HE). }
  destruct (kill_cases o ext _ _ _ H PR) as [HB _|w1 HB HK|w1 HB HK|e w1 rk HB _ _ HK _]; apply B in HB; [exact HB| | |].
  - eapply k_kill_wait; [|exact HK]. exact HB.
  - eapply k_kill_wait; eauto.
  - eapply k_kill_wait; eauto.
Qed.
Lemma close_ea : keeps EA close.
Proof.
  apply k_bind; [apply k_bind; [apply k_getx|intros; apply k_assert]|]. intros _. apply k_bind.
  - intros w r w' [A [B C]] [_ ->]. unfold EA. cbn. destruct (x_rc (w_x w)) eqn:N; [split; [exact A|]; split; [exact B|left; congruence]|].
    assert (A1 : escl (x_log (w_x w) ++ [LClosed])) by (apply escl_other; [exact A|discriminate|discriminate]).
    destruct C as [C|C]; [congruence|].
    unfold popen_send, popen_poll. cbn. destruct (x_exit (w_x w)) eqn:E.
    + split; [exact A1|]. split; cbn; [left; congruence|right; apply in_piece; now left].
    + destruct B as [B|B]; [congruence|]. split; [|split; cbn; right; rewrite !in_app_iff; auto].
      unfold esc. cbn. apply escl_snoc; [exact A1| |discriminate]. intros _. exists (LSent sg). split; [apply in_piece; now left|now left].
  - intros _. apply k_bind; [apply k_getx|]. intros [z|]; [|apply k_ret]. destruct piped_stdin; [|apply k_ret].
    apply k_try; [exact (k_harvest _ _ _ ea_stable _ _ _)|]. intros e k. destruct e; try discriminate. intros [= <-]. apply k_ret.
Qed.
Lemma k_opt_harvest ts t P : stable rstep rfinish P -> keeps P (opt_harvest ts t).
Proof. intros S. destruct ts; [apply k_ret|]. exact (k_harvest _ _ _ S _ _ _). Qed.
Lemma wait_ea w r w' : ext = false -> wait w r w' -> J w -> WI w -> x_proc (w_x w) = true -> esc (w_x w) -> EA w'.
Proof.
  intros E H HJ HW PR HE. destruct (wait_cases _ _ _ _ _ H HJ PR) as [_ H1|w1 H1 _ H2|e w1 rk H1 _ _ H2 _];
    pose proof (r_opt_harvest _ _ _ _ _ _ _ H1) as R1; pose proof (k_opt_harvest _ _ _ esc_stable _ _ _ HE H1) as E1.
  - split; [exact E1|]. apply att_rc; [apply R1; exact HJ|]. eapply opt_harvest_waiter; eauto.
  - assert (R2 : reg w (cleared (cancelled_now w1))).
    { eapply reg_trans; [exact R1|]. eapply reg_trans; [apply cancelled_now_reg|apply cleared_reg]. }
    eapply kill_ea; [exact H2|apply R2; exact HJ|exact (reg_proc _ _ _ _ R2 PR)|exact E1].
  - assert (R2 : reg w (cleared w1)) by (eapply reg_trans; [exact R1|apply cleared_reg]).
    eapply kill_ea; [exact H2|apply R2; exact HJ|exact (reg_proc _ _ _ _ R2 PR)|exact E1].
Qed.
Lemma finish_ea exc w r w' : ext = false -> finish exc w r w' -> J w -> WI w -> x_proc (w_x w) = true -> esc (w_x w) -> EA w'.
Proof.
  intros E H HJ HW PR HE. destruct (finish_cases _ _ _ _ _ _ _ H PR) as [e w1 rk rc _ H1 H2 _|w1 rk rc _ H1 H2 _].
  - assert (R0 : reg w (if is_cancelled e then cancelled_now w else w)) by (destruct (is_cancelled e); [apply cancelled_now_reg|apply reg_refl]).
    eapply close_ea; [|exact H2]. eapply kill_ea; [exact H1|apply R0; exact HJ|exact (reg_proc _ _ _ _ R0 PR)|]. destruct (is_cancelled e); exact HE.
  - eapply close_ea; [|exact H2]. eapply wait_ea; eauto.
Qed.
Lemma escl_audits l p : escl l -> (forall a, In a p -> exists q, a = LAudit q) -> escl (l ++ p).
Proof.
  revert l. induction p as [|a p IH]; intros l H Q; [now rewrite app_nil_r|]. destruct (Q a (or_introl eq_refl)) as (q & ->).
  apply escl_cons. apply IH; [apply escl_other; auto; discriminate|]. intros b Hb. apply Q. now right.
Qed.
Lemma begun_esc : esc (w_x begun).
Proof. unfold RunnerProofs6.begun, audit, esc. cbn. destruct (o_audit_callback o); cbn; [apply (escl_other []); [apply escl_nil|discriminate|discriminate]|apply escl_nil]. Qed.
Lemma pre_esc w : pre begun w -> esc (w_x w).
Proof. intros P. exact (pre_keeps _ _ _ _ P _ esc_closed begun_esc). Qed.
Theorem escalation r w' : ext = false -> with_run any_body fresh r w' -> escl (events w').
Proof.
  intros E H. destruct (with_run_cases o ext piped_stdin use_pty out_bytes err_bytes enc _ _ _ H) as [EC (e0 & E0)|w0 w1 rb re P PR Mk HB HX RR].
  - destruct EC as [wa _ _ _ _ Q|e wa SC -> _ _ _]; [congruence|]. unfold events. destruct (failed_start_log o wa e) as (l & -> & AL & _).
    apply escl_audits; [|exact AL]. destruct SC as [w1 P PR Mk Ew Q|e1 w1 rk P Ee HK Q]; [discriminate|].
    assert (R2 : reg w1 (if is_cancelled e1 then cancelled_now w1 else w1)) by (destruct (is_cancelled e1); [apply cancelled_now_reg|apply reg_refl]).
    assert (E2 : esc (w_x (if is_cancelled e1 then cancelled_now w1 else w1))) by (apply pre_esc in P; destruct (is_cancelled e1); exact P).
    destruct (x_proc (w_x w1)) eqn:PR.
    + apply (kill_ea _ _ _ HK); [apply R2, (pre_J _ _ _ _ P)|exact (reg_proc _ _ _ _ R2 PR)|exact E2].
    + destruct HK as [_ ->]. exact E2.
  - destruct (body_ready o ext _ _ _ P PR HB) as (J1 & PR1 & W1 & R1).
    assert (E1 : esc (w_x w1)).
    { eapply (body_stable o ext _ _ _ esc_stable); [intros u k Q; exact Q|exact HB|]. unfold esc. destruct (entered_x o w0) as (-> & _). now apply pre_esc. }
    destruct (aexit_world _ _ _ _ _ _ _ HX) as (rf & w2 & HF & W).
    assert (E2 : esc (w_x w2)) by (eapply finish_ea; eauto).
    unfold events. destruct W as [->|(_ & ->)].
    + destruct (stopped_log o w2) as (l & -> & AL & _). apply escl_audits; auto.
    + destruct (stopped_log o (cancelled_now w2)) as (l & -> & AL & _). apply escl_audits; auto.
Qed.
End Esc.
End R.
