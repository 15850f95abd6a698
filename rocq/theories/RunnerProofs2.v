From Verif Require Import AsyncModel AsyncSpec AsyncProofs HarvestModel HarvestSpec HarvestProofs HarvestProofs2 AsyncInv
  RunnerModel RunnerSpec RunnerProofs.
Open Scope Z_scope.

Section R.
Context (o : opts) (ext : bool).
Notation world := (world rx rkind unit).
Notation M := (@M rx rkind unit).
Notation rstep := (rstep o).
Notation rfinish := (rfinish ext).

(** What a finishing task does to the rest: one of four small changes. *)
Lemma rfinish_cases x t r x' : rfinish x t r = Some x' ->
  x' = x \/ (t_kind t = KWaiter /\ x' = set_timer false x /\ (r = TValue tt -> x_rc x <> None) /\ (r = TCancelled -> ext = true \/ t_creq t <> O) /\ (forall e, r <> TFail e))
  \/ (t_kind t = KExec /\ r = TValue tt /\ x_child x = true /\ x_aborting x = false /\ x' = set_launching false (set_proc true x))
  \/ (t_kind t = KExec /\ r <> TValue tt /\ (x_child x = true -> x_aborting x = true) /\ x' = set_launching false x
      /\ (r = TCancelled -> ext = true \/ x_child x = false \/ x_rc x <> None \/ (t_creq t >= 2)%nat)
      /\ (forall e, r = TFail e -> x_child x = true -> x_rc x <> None)).
Proof.
  unfold rfinish, RunnerModel.rfinish. destruct (t_kind t) eqn:K.
  - destruct r as [[]|e|]; [|discriminate|].
    + destruct (x_rc x) eqn:E; [|discriminate]. intros [= <-]. right; left. repeat split; auto; try discriminate; congruence.
    + destruct (ext || _) eqn:E; [|discriminate]. intros [= <-]. right; left. repeat split; auto; try discriminate.
      intros _. apply orb_true_iff in E as [E|E]; [now left|right]. apply negb_true_iff, Nat.eqb_neq in E. exact E.
  - destruct r as [[]|e|]; [|destruct (is_Exception e); [|discriminate]|]; intros [= <-]; now left.
  - destruct r as [[]|e|].
    + destruct (x_launching x && x_child x && negb (x_aborting x)) eqn:E; [|discriminate]. intros [= <-]. right; right; left.
      apply andb_true_iff in E as [E E3]. apply andb_true_iff in E as [E1 E2]. apply negb_true_iff in E3. auto 6.
    + destruct (is_Exception e && _) eqn:E; [|discriminate]. intros [= <-]. right; right; right.
      apply andb_true_iff in E as [_ E]. apply orb_true_iff in E as [E|E].
      * apply negb_true_iff in E. repeat split; auto; try discriminate; intros; congruence.
      * apply andb_true_iff in E as [E1 E2]. repeat split; auto; try discriminate.
        intros e0 _ _ Q. rewrite Q in E2. discriminate.
    + destruct (_ && _) eqn:E; [|discriminate]. intros [= <-]. right; right; right.
      apply andb_true_iff in E as [E0 E]. apply orb_true_iff in E as [E|E].
      * apply negb_true_iff in E. repeat split; auto; try discriminate. intros; congruence.
      * apply andb_true_iff in E as [E1 E2]. repeat split; auto; try discriminate.
        intros _. apply orb_true_iff in E2 as [E2|E2].
        -- apply orb_true_iff in E2 as [E2|E2]; [now left|]. right; right; right. now apply Nat.leb_le in E2.
        -- right; right; left. destruct (x_rc x); [discriminate|congruence].
  - destruct r as [[]|e|]; [|destruct (is_Exception e); [|discriminate]|]; intros [= <-]; now left.
Qed.

Lemma XI_rfinish x t r x' : XI x -> rfinish x t r = Some x' -> XI x'.
Proof.
  intros I H. apply rfinish_cases in H as [->|[(_ & -> & _)|[(_ & _ & C & C2 & ->)|(_ & _ & C & -> & _)]]].
  - exact I.
  - now apply XI_timer.
  - destruct I. constructor; logs; auto. all: try (intros _ Q; discriminate).
  - apply XI_launching; [exact I|discriminate|]. intros _ Q. right. auto.
Qed.
Lemma stable_XI : stable rstep rfinish (fun w => XI (w_x w)).
Proof. apply stable_x; [apply XI_rstep|apply XI_rfinish]. Qed.

(** What the environment does to the rest, in terms of the log. *)
Definition env_piece (x : rx) (l : list rev) : Prop :=
  l = [] \/ l = [LSpawn] \/ (exists s, l = [LExit s]) \/ (exists s, l = [LCollect s]) \/ l = [LCancel] \/ l = [LExpired]
  \/ (exists l', l = LAbort :: l' /\ (l' = [] \/ l' = [LSent SIGKILL]))
  \/ (x_inside x = true /\ exists s l', l = LUser :: (match o_audit_callback o with Some _ => [LAudit (PSignal s)] | None => [] end) ++ LSignal s :: l'
      /\ (s <> None \/ s = o_cancel_signal o) /\ (l' = [] \/ exists g, l' = [LSent g])).
Record frame (x x' : rx) (l : list rev) : Prop := {
  fr_log : x_log x' = x_log x ++ l;
  fr_canc : x_cancelled x' = x_cancelled x;
  fr_tasks : x_tasks x' = x_tasks x;
  fr_inside : x_inside x' = x_inside x;
  fr_proc : x_proc x = true -> x_proc x' = true;
  fr_timer : x_timer x' = true -> x_timer x = true;
  fr_timed : x_timer x = false -> x_timed_out x' = x_timed_out x;
  fr_rc : x_rc x <> None -> x_rc x' = x_rc x;
  fr_exit : x_exit x <> None -> x_exit x' = x_exit x;
  fr_launching : x_launching x' = true -> x_launching x = true
}.
Lemma popen_frame s x : exists l, frame x (popen_send s x) l /\ (l = [] \/ l = [LSent s]).
Proof.
  unfold popen_send, popen_poll. destruct (x_exit x) eqn:E.
  - exists []. split; [|now left]. constructor; logs; auto; try (now rewrite app_nil_r); try congruence.
  - exists [LSent s]. split; [|now right]. constructor; logs; auto.
Qed.
Lemma frame_trans x y z l1 l2 : frame x y l1 -> frame y z l2 -> frame x z (l1 ++ l2).
Proof.
  intros A B. constructor.
  - rewrite (fr_log _ _ _ B), (fr_log _ _ _ A). now rewrite app_assoc.
  - rewrite (fr_canc _ _ _ B). apply (fr_canc _ _ _ A).
  - rewrite (fr_tasks _ _ _ B). apply (fr_tasks _ _ _ A).
  - rewrite (fr_inside _ _ _ B). apply (fr_inside _ _ _ A).
  - intros H. apply (fr_proc _ _ _ B), (fr_proc _ _ _ A), H.
  - intros H. apply (fr_timer _ _ _ A), (fr_timer _ _ _ B), H.
  - intros H. rewrite (fr_timed _ _ _ B); [now apply (fr_timed _ _ _ A)|]. destruct (x_timer y) eqn:Q; [|reflexivity]. apply (fr_timer _ _ _ A) in Q. congruence.
  - intros H. rewrite (fr_rc _ _ _ B); [now apply (fr_rc _ _ _ A)|]. rewrite (fr_rc _ _ _ A); exact H.
  - intros H. rewrite (fr_exit _ _ _ B); [now apply (fr_exit _ _ _ A)|]. rewrite (fr_exit _ _ _ A); exact H.
  - intros H. apply (fr_launching _ _ _ A), (fr_launching _ _ _ B), H.
Qed.
Lemma frame_refl x : frame x x [].
Proof. constructor; auto. now rewrite app_nil_r. Qed.
Lemma frame_log x e : frame x (log e x) [e].
Proof. constructor; logs; auto. Qed.
Lemma frame_audit p x : frame x (audit o p x) (match o_audit_callback o with Some _ => [LAudit p] | None => [] end).
Proof. unfold audit. destruct (o_audit_callback o); [apply frame_log|apply frame_refl]. Qed.
Definition audit_piece p : list rev := match o_audit_callback o with Some _ => [LAudit p] | None => [] end.
Lemma signal_frame sig x : exists l, frame x (signal_x o sig x) (audit_piece (PSignal sig) ++ LSignal sig :: l)
  /\ (l = [] \/ l = [LSent (match sig with Some s => s | None => SIGKILL end)]).
Proof.
  unfold signal_x. pose proof (frame_trans _ _ _ _ _ (frame_audit (PSignal sig) x) (frame_log (audit o (PSignal sig) x) (LSignal sig))) as F.
  destruct sig as [s|].
  - destruct (popen_frame s (log (LSignal (Some s)) (audit o (PSignal (Some s)) x))) as (l & G & D). exists l. split; [|exact D].
    pose proof (frame_trans _ _ _ _ _ F G) as H. rewrite <- app_assoc in H. destruct H. constructor; logs; auto.
  - destruct (popen_frame SIGKILL (log (LSignal None) (audit o (PSignal None) x))) as (l & G & D). exists l. split; [|exact D].
    pose proof (frame_trans _ _ _ _ _ F G) as H. rewrite <- app_assoc in H. exact H.
Qed.

Lemma rstep_frame x e x' c : rstep x e = Some (x', c) -> exists l, frame x x' l /\ env_piece x l /\ marks l = (if c then 1 else 0)%nat.
Proof.
  destruct e; cbn [RunnerModel.rstep].
  - destruct (_ && _); [|discriminate]. intros [= <- <-]. exists [LSpawn]. split; [constructor; logs; auto|]. split; [right; now left|reflexivity].
  - destruct (x_child x); [|discriminate]. destruct (x_exit x) eqn:E; [discriminate|]. intros [= <- <-]. exists [LExit s].
    split; [constructor; logs; auto; congruence|]. split; [right; right; left; eauto|reflexivity].
  - destruct (waitpid_status x); [|discriminate]. destruct (x_watch x); [discriminate|]. intros [= <- <-]. exists [].
    split; [constructor; logs; auto; now rewrite app_nil_r|]. split; [now left|reflexivity].
  - destruct (x_watch x); [|discriminate]. destruct (x_rc x) eqn:E; [discriminate|]. intros [= <- <-]. exists [LCollect z].
    split; [constructor; logs; auto; congruence|]. split; [do 3 right; left; eauto|reflexivity].
  - destruct (x_timer x) eqn:E; [|discriminate]. intros [= <- <-]. exists [LExpired]. split; [constructor; logs; auto; congruence|].
    split; [do 5 right; now left|reflexivity].
  - destruct (_ && _); [|discriminate]. intros [= <- <-].
    destruct (popen_frame SIGKILL (log LAbort (set_aborting true x))) as (l & G & D). exists (LAbort :: l). split.
    + change (LAbort :: l) with ([LAbort] ++ l). eapply frame_trans; [|exact G]. constructor; logs; auto.
    + split; [do 6 right; left; eauto|]. destruct D as [->| ->]; reflexivity.
  - intros [= <- <-]. exists [LCancel]. split; [apply frame_log|]. split; [do 4 right; now left|reflexivity].
  - destruct (x_inside x) eqn:INS; [|discriminate]. destruct (returncode x).
    + intros [= <- <-]. exists []. split; [apply frame_refl|]. split; [now left|reflexivity].
    + intros [= <- <-]. destruct (signal_frame (Some s) (log LUser x)) as (l & G & D).
      eexists. split; [eapply frame_trans; [apply frame_log|exact G]|]. split.
      * do 7 right. split; [exact INS|]. exists (Some s), l. cbn [app]. split; [reflexivity|]. split; [left; discriminate|]. destruct D as [->| ->]; eauto.
      * cbn. rewrite marks_app. unfold audit_piece. destruct (o_audit_callback o), D as [->| ->]; reflexivity.
  - destruct (x_inside x) eqn:INS; [|discriminate]. destruct (returncode x).
    + intros [= <- <-]. exists []. split; [apply frame_refl|]. split; [now left|reflexivity].
    + intros [= <- <-]. destruct (signal_frame (o_cancel_signal o) (log LUser x)) as (l & G & D).
      eexists. split; [eapply frame_trans; [apply frame_log|exact G]|]. split.
      * do 7 right. split; [exact INS|]. exists (o_cancel_signal o), l. cbn [app]. split; [reflexivity|]. split; [now right|]. destruct D as [->| ->]; eauto.
      * cbn. rewrite marks_app. unfold audit_piece. destruct (o_audit_callback o), D as [->| ->]; reflexivity.
Qed.
Lemma rfinish_frame x t r x' : rfinish x t r = Some x' -> frame x x' [].
Proof.
  intros H. apply rfinish_cases in H as [->|[(_ & -> & _)|[(_ & _ & C & _ & ->)|(_ & _ & C & -> & _)]]];
    constructor; logs; auto; try (now rewrite app_nil_r); discriminate.
Qed.

(** Invariant that connects tasks and the rest. *)
Definition TI (w : world) : Prop := forall i t, nth_error (w_tasks w) i = Some t ->
  match t_kind t, t_out t with
  | KWaiter, Some (TValue _) => x_rc (w_x w) <> None
  | KWaiter, Some TCancelled => ext = true \/ t_creq t <> O
  | KWaiter, Some (TFail _) => False
  | KExec, Some (TValue _) => x_launching (w_x w) = false /\ x_proc (w_x w) = true
  | KExec, Some TCancelled => x_launching (w_x w) = false /\ (ext = true \/ x_child (w_x w) = false \/ x_rc (w_x w) <> None \/ (t_creq t >= 2)%nat)
  | KExec, Some (TFail _) => x_launching (w_x w) = false /\ (x_child (w_x w) = true -> x_rc (w_x w) <> None)
  | _, Some (TFail e) => e <> CancelledError
  | _, _ => True
  end.
Lemma spawn_launching x e x' c : rstep x e = Some (x', c) -> x_child x' = true -> x_child x = true \/ x_launching x = true.
Proof.
  destruct (rstep x e) as [[y d]|] eqn:E; [|discriminate]. intros [= <- <-].
  destruct e; cbn [RunnerModel.rstep] in E.
  - destruct (x_launching x && negb (x_child x)) eqn:Q; [|discriminate]. apply andb_true_iff in Q as [Q _]. auto.
  - destruct (x_child x); [auto|discriminate].
  - destruct (waitpid_status x); [|discriminate]. destruct (x_watch x); [discriminate|]. injection E as <- _. auto.
  - destruct (x_watch x); [|discriminate]. destruct (x_rc x); [discriminate|]. injection E as <- _. auto.
  - destruct (x_timer x); [|discriminate]. injection E as <- _. auto.
  - destruct (x_launching x && x_child x && negb (x_aborting x)) eqn:Q; [|discriminate]. apply andb_true_iff in Q as [Q _]. apply andb_true_iff in Q as [Q _]. auto.
  - injection E as <- _. auto.
  - destruct (x_inside x); [|discriminate]. destruct (returncode x); injection E as <- _; auto.
    unfold popen_send, popen_poll, audit. destruct (o_audit_callback o); cbn; destruct (x_exit x); auto.
  - destruct (x_inside x); [|discriminate]. destruct (returncode x); injection E as <- _; auto.
    unfold signal_x, popen_send, popen_poll, audit. destruct (o_audit_callback o), (o_cancel_signal o); cbn; destruct (x_exit x); auto.
Qed.
Lemma stable_TI : stable rstep rfinish TI.
Proof.
  constructor.
  - intros w [i r|e] w' c H; cbn.
    + destruct (nth_error (w_tasks w) i) as [t|] eqn:Et; [|discriminate]. destruct (t_out t) eqn:Eo; [discriminate|].
      destruct (rfinish (w_x w) t r) as [x'|] eqn:E; [|discriminate]. intros [= <- <-]. intros j u Eu. cbn in *.
      pose proof (rfinish_frame _ _ _ _ E) as F. pose proof (rfinish_cases _ _ _ _ E) as C.
      destruct (Nat.eq_dec i j) as [<-|D].
      * rewrite (nth_upd_same _ _ _ _ Et) in Eu. injection Eu as <-. cbn.
        unfold RunnerModel.rfinish in E. destruct (t_kind t) eqn:K.
        -- destruct C as [->|[(_ & -> & C1 & C2 & C3)|[(Q & _)|(Q & _)]]]; try discriminate.
           ++ destruct r as [[]|e|]; [destruct (x_rc (w_x w)); [discriminate|discriminate]|discriminate|].
              destruct (ext || negb (Nat.eqb (t_creq t) 0)) eqn:Q; [|discriminate]. apply orb_true_iff in Q as [Q|Q]; [auto|].
              apply negb_true_iff, Nat.eqb_neq in Q. auto.
           ++ destruct r as [[]|e|]; cbn; [now apply C1|now apply (C3 e)|now apply C2].
        -- destruct r as [[]|e|]; auto. destruct e; cbn in *; try discriminate; congruence.
        -- destruct C as [->|[(Q & _)|[(_ & -> & _ & _ & ->)|(_ & N & C1 & -> & C2 & C3)]]]; try discriminate.
           ++ destruct r as [[]|e|]; cbn in E.
              ** destruct (_ && _); [|discriminate]. injection E as E. rewrite <- E. auto.
              ** destruct (_ && _) eqn:Q; [|discriminate]. injection E as E. rewrite <- E. cbn. split; [reflexivity|]. intros Ch.
                 apply andb_true_iff in Q as [_ Q]. rewrite Ch in Q. cbn in Q. destruct (x_aborting (w_x w)); [|discriminate].
                 cbn in Q. destruct (x_rc (w_x w)); discriminate.
              ** destruct (_ && _) eqn:Q; [|discriminate]. injection E as E. rewrite <- E. cbn. split; [reflexivity|].
                 apply andb_true_iff in Q as [_ Q]. destruct (x_child (w_x w)); [|auto]. cbn in Q.
                 destruct (x_aborting (w_x w)); [|discriminate]. cbn in Q. apply orb_true_iff in Q as [Q|Q].
                 --- apply orb_true_iff in Q as [Q|Q]; [auto|]. right; right; right. destruct (t_creq t) as [|[|n]]; try discriminate Q; lia.
                 --- destruct (x_rc (w_x w)); [|discriminate]. right; right; left. discriminate.
           ++ cbn. auto.
           ++ destruct r as [[]|e|]; [now elim N| |]; cbn; split; eauto.
        -- destruct r as [[]|e|]; auto. destruct e; cbn in *; try discriminate; congruence.
      * rewrite nth_upd_other in Eu by exact D. specialize (H j u Eu).
        assert (RC : x_rc (w_x w) <> None -> x_rc x' <> None) by (intros Q; rewrite (fr_rc _ _ _ F Q); exact Q).
        assert (LN : x_launching (w_x w) = false -> x_launching x' = false).
        { intros Q. destruct (x_launching x') eqn:Q2; [|reflexivity]. apply (fr_launching _ _ _ F) in Q2. congruence. }
        assert (CH : x_child x' = x_child (w_x w)) by (destruct C as [->|[(_ & -> & _)|[(_ & _ & _ & _ & ->)|(_ & _ & _ & -> & _)]]]; reflexivity).
        rewrite CH. pose proof (fr_proc _ _ _ F) as PR.
        destruct (t_kind u), (t_out u) as [[[]|e|]|]; intuition.
    + destruct (rstep (w_x w) e) as [[x' c']|] eqn:E; [|discriminate]. intros [= <- <-]. intros j u Eu. cbn in *. specialize (H j u Eu).
      destruct (rstep_frame _ _ _ _ E) as (l & F & _).
      assert (RC : x_rc (w_x w) <> None -> x_rc x' <> None) by (intros Q; rewrite (fr_rc _ _ _ F Q); exact Q).
      assert (LN : x_launching (w_x w) = false -> x_launching x' = false).
      { intros Q. destruct (x_launching x') eqn:Q2; [|reflexivity]. apply (fr_launching _ _ _ F) in Q2. congruence. }
      assert (CH : x_launching (w_x w) = false -> x_child (w_x w) = false -> x_child x' = false).
      { intros Q1 Q2. destruct (x_child x') eqn:Q3; [|reflexivity]. destruct (spawn_launching _ _ _ _ E Q3); congruence. }
      pose proof (fr_proc _ _ _ F) as PR.
      assert (CH2 : x_launching (w_x w) = false -> x_child x' = true -> x_child (w_x w) = true).
      { intros Q1 Q3. destruct (spawn_launching _ _ _ _ E Q3); congruence. }
      destruct (t_kind u), (t_out u) as [[[]|e0|]|]; intuition.
  - intros w H. exact H.
  - intros w i H. unfold req. destruct (task_done w i) eqn:Dn; [exact H|]. intros j u Eu. cbn in *.
    destruct (Nat.eq_dec i j) as [<-|D].
    + destruct (nth_error (w_tasks w) i) as [t|] eqn:Et; [|rewrite nth_upd_none in Eu by exact Et; congruence].
      rewrite (nth_upd_same _ _ _ _ Et) in Eu. injection Eu as <-. cbn.
      unfold task_done, task_out in Dn. rewrite Et in Dn. destruct (t_out t); [discriminate|]. destruct (t_kind t); exact I.
    + rewrite nth_upd_other in Eu by exact D. exact (H j u Eu).
  - intros w k H j u Eu. cbn in *. destruct (Nat.lt_ge_cases j (List.length (w_tasks w))) as [L|L].
    + rewrite nth_error_app1 in Eu by exact L. exact (H j u Eu).
    + rewrite nth_error_app2 in Eu by exact L. destruct (j - _)%nat as [|n]; cbn in Eu; [injection Eu as <-; cbn; destruct k; exact I|destruct n; discriminate].
Qed.
End R.
