(** Progress of the writer and the readers (C113-C116). *)
From Verif Require Export FlowProofs.
From Coq Require Import Lia.
Open Scope Z_scope.

(** The writer never appends to a pipe it has closed, and every step is
    harmless to what is already in the pipe. *)
Ltac five SH := split; [auto|split; [auto|split; [auto|split; [let HH := fresh in intros HH; destruct (SH HH); congruence|auto using pk_put]]]].
Lemma w_step_pipe input w p w' p' : WInv input w p -> w_step w p w' p' ->
  r_open p' = r_open p /\ p_out p' = p_out p /\ (w_open p' = true -> w_open p = true)
  /\ (w_open p = false -> data p' = data p /\ p_in p' = p_in p) /\ (PipeOk p -> PipeOk p').
Proof.
  intros I ST. assert (SH := iw_shut _ _ _ I).
  destruct ST as [w' p' ST|exc q Q|exc q Q|SP R|NE R|n NE R NO LT SZ|NE R SZ C|NE R SZ C]; pr; auto 8 using pk_put, pk_shut_w.
  - destruct ST as [PC E|b rest PC E NB PA C|b rest w' p' PC E NB PA TW|PC|PC|exc PC]; auto 8.
    destruct TW as [C|C NE|C B R|C B R SZ|n C B R LT SZ]; pr; auto 8 using pk_put; five SH.
  - split; [auto|]. split; [auto|]. split; [discriminate|]. split; [auto|]. apply pk_shut_w.
  - five SH.
  - five SH.
  - split; [auto|]. split; [auto|]. split; [discriminate|]. split; [intros HH; destruct (SH HH); congruence|]. intros HH. apply pk_shut_w, (pk_put _ _ SZ HH).
Qed.

Lemma app_ne {A} (a b : list A) : b <> [] -> a ++ b <> a.
Proof. intros H E. apply (f_equal (@List.length _)) in E. rewrite app_length in E. destruct b; [congruence|cbn in E; lia]. Qed.
Lemma w_stuck w p : wq w = [] -> (pc w = WClosed \/ pc w = WFailed \/ pc w = WWait) -> (r_open p = false -> wb w = [] /\ sel_peer w = false) -> (wb w = [] \/ room p < PIPE_BUF) ->
  forall w' p', w_step w p w' p' -> room p < PIPE_BUF /\ p_in p' <> p_in p.
Proof.
  intros Q PC RO B w' p' ST. destruct ST as [w' p' ST|exc q Q'|exc q Q'|SP R|NE R|n NE R NO LT SZ|NE R SZ C|NE R SZ C]; try congruence.
  - exfalso. destruct ST; destruct PC as [X|[X|X]]; congruence.
  - destruct (RO R). congruence.
  - destruct (RO R). congruence.
  - split; [tauto|]. cbn. apply app_ne. destruct n; [congruence|]. destruct (wb w); [congruence|discriminate].
  - split; [tauto|]. cbn. apply app_ne, NE.
  - split; [tauto|]. cbn. apply app_ne, NE.
Qed.
(** Progress: a step is possible, or the writer waits for the pipe. *)
Definition w_must (w : writer) (p : pipe) (w' : writer) (p' : pipe) : Prop :=
  w_step w p w' p' /\ (PIPE_BUF <= room p \/ p_in p' = p_in p).
Lemma w_progress input w p : PipeOk p -> WInv input w p ->
  (exists w' p', w_must w p w' p')
  \/ ((pc w = WClosed \/ pc w = WFailed \/ (pc w = WWait /\ r_open p = true)) /\ (r_open p = true -> w_open p = true -> data p <> []) /\ (r_open p = false -> w_open p = false)
   /\ forall w' p', w_step w p w' p' -> room p < PIPE_BUF /\ p_in p' <> p_in p).
Proof.
  intros PK I. unfold w_must.
  assert (T : forall w' p', w_task w p w' p' -> p_in p' = p_in p -> exists w' p', w_step w p w' p' /\ (PIPE_BUF <= room p \/ p_in p' = p_in p)) by (intros; do 2 eexists; split; [apply ws_task; eassumption|auto]).
  destruct (wq w) as [|[e|e] q] eqn:Q.
  2: { left. do 2 eexists. split; [eapply ws_tlost; eassumption|right; reflexivity]. }
  2: { left. do 2 eexists. split; [eapply ws_plost; eassumption|right; reflexivity]. }
  destruct (r_open p) eqn:R.
  2: { destruct (wb w) as [|z b] eqn:B.
    2: { left. do 2 eexists. split; [apply ws_broken; [rewrite B; discriminate|exact R]|right; reflexivity]. }
    destruct (sel_peer w) eqn:SP. { left. do 2 eexists. split; [apply ws_peer; [exact SP|exact R]|right; reflexivity]. }
    destruct (iw_peer _ _ _ I SP) as [C _].
    assert (WO : w_open p = false). { destruct (iw_closing _ _ _ I C) as [X|[(e & X)|X]]; [congruence|rewrite Q in X; destruct X|exact X]. }
    destruct (pc w) eqn:PC.
    - left. destruct (src w) as [|b rest] eqn:E. { eapply T; [apply wt_end; auto|reflexivity]. }
      destruct b as [|z b]. { eapply T; [apply wt_end; [auto|right; eauto]|reflexivity]. }
      destruct (proactive w) eqn:PA. { eapply T; [eapply wt_refuse; eauto; discriminate|reflexivity]. }
      eapply T; [eapply wt_write; [exact PC|exact E|discriminate|congruence|apply tw_dropped; exact C]|reflexivity].
    - left. eapply T; [apply wt_drain; exact PC|reflexivity].
    - left. eapply T; [apply wt_helper; exact PC|reflexivity].
    - exfalso. destruct (iw_wait _ _ _ I PC) as [P L]. destruct (iw_paused _ _ _ I P) as [X|[(e & [X|X])|X]]; try congruence; rewrite Q in X; destruct X.
    - left. eapply T; [eapply wt_woken; exact PC|reflexivity].
    - right. split; [auto|]. split; [discriminate|]. split; [auto|]. apply w_stuck; auto.
    - right. split; [auto|]. split; [discriminate|]. split; [auto|]. apply w_stuck; auto. }
  destruct (Z_le_gt_dec PIPE_BUF (room p)) as [RM|RM].
  - destruct (wb w) as [|z b] eqn:B.
    2: { left. destruct (Z_le_gt_dec (size (wb w)) (room p)) as [SZ|SZ].
      - destruct (closing w) eqn:C; do 2 eexists; (split; [|left; exact RM]); [apply ws_all_closing|apply ws_all]; auto; rewrite B; discriminate.
      - do 2 eexists. split; [|left; exact RM]. apply (ws_part _ _ 1); auto; [rewrite B; discriminate| |].
        + assert (1 < size (wb w)) by (unfold PIPE_BUF in RM; lia). unfold size in H. lia.
        + rewrite B. cbn. unfold size. cbn [List.length]. unfold PIPE_BUF in RM. lia. }
    assert (CL : closing w = true -> w_open p = false). { intros C. destruct (iw_closing _ _ _ I C) as [X|[(e & X)|X]]; [congruence|rewrite Q in X; destruct X|exact X]. }
    destruct (pc w) eqn:PC.
    + left. destruct (src w) as [|b rest] eqn:E. { eapply T; [apply wt_end; auto|reflexivity]. }
      destruct b as [|z b]. { eapply T; [apply wt_end; [auto|right; eauto]|reflexivity]. }
      assert (C : closing w = false). { destruct (closing w) eqn:C; [|reflexivity]. pose proof (iw_open _ _ _ I R C). congruence. }
      do 2 eexists. split; [apply ws_task; eapply wt_write; [exact PC|exact E|discriminate|auto|apply (tw_part _ _ _ 0); auto; [cbn; lia|cbn; unfold size; cbn; unfold PIPE_BUF in RM; lia]]|auto].
    + left. eapply T; [apply wt_drain; exact PC|reflexivity].
    + left. eapply T; [apply wt_helper; exact PC|reflexivity].
    + exfalso. destruct (iw_wait _ _ _ I PC) as [P L]. destruct (iw_paused _ _ _ I P) as [X|[(e & [X|X])|X]]; try congruence; rewrite Q in X; destruct X.
    + left. eapply T; [eapply wt_woken; exact PC|reflexivity].
    + right. split; [auto|]. split; [|split; [discriminate|apply w_stuck; auto; congruence]]. intros _ H. destruct (iw_closed _ _ _ I PC) as [C _]. rewrite (CL C) in H. discriminate.
    + right. split; [auto|]. split; [|split; [discriminate|apply w_stuck; auto; congruence]]. intros _ H. pose proof (iw_failed _ _ _ I PC) as C. rewrite (CL C) in H. discriminate.
  - assert (D : data p <> []) by (apply unwritable_data; [exact PK|lia]).
    destruct (pc w) eqn:PC.
    + left. destruct (src w) as [|b rest] eqn:E. { eapply T; [apply wt_end; auto|reflexivity]. }
      destruct b as [|z b]. { eapply T; [apply wt_end; [auto|right; eauto]|reflexivity]. }
      assert (C : closing w = false). { destruct (closing w) eqn:C; [|reflexivity]. pose proof (iw_open _ _ _ I R C). congruence. }
      destruct (wb w) as [|z' b'] eqn:B.
      * do 2 eexists. split; [apply ws_task; eapply wt_write; [exact PC|exact E|discriminate|auto|apply (tw_part _ _ _ 0); auto; [cbn; lia|cbn; apply (pk_room _ PK)]]|]. right. cbn. apply app_nil_r.
      * eapply T; [eapply wt_write; [exact PC|exact E|discriminate|auto|apply tw_buffered; [exact C|rewrite B; discriminate]]|reflexivity].
    + left. eapply T; [apply wt_drain; exact PC|reflexivity].
    + left. eapply T; [apply wt_helper; exact PC|reflexivity].
    + right. split; [auto|]. split; [auto|]. split; [discriminate|]. apply w_stuck; auto; [congruence|right; lia].
    + left. eapply T; [eapply wt_woken; exact PC|reflexivity].
    + right. split; [auto|]. split; [auto|]. split; [discriminate|]. apply w_stuck; auto; [congruence|right; lia].
    + right. split; [auto|]. split; [auto|]. split; [discriminate|]. apply w_stuck; auto; [congruence|right; lia].
Qed.
