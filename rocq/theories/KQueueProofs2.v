(** Invariants of the kqueue watcher, continued. *)
From Verif Require Import Base EPollModel EPollProofs KQueueModel KQueueSpec KQueueProofs.
From Coq Require Import List ZArith Lia Bool Permutation.
Import ListNotations.
Local Open Scope nat_scope.

Section Inv.
Context (ordered quick bad_cb : bool).
Notation kstep := (kstep ordered quick bad_cb).
Notation kreach := (kreach ordered quick bad_cb).
Ltac steps H := inversion H; subst; clear H.
Ltac waits := repeat match goal with
  | H : qwait _ _ _ _ |- _ => let q := fresh "q" in let st := fresh "st" in let Q := fresh "Q" in
      destruct (qwait_inv _ _ _ _ H) as [(-> & -> & Q)|[(-> & -> & Q)|(q & st & Q & -> & ->)]]; clear H
  end.

(** 255 ("no such child") is never seen. *)
Lemma no_255 s k : KB s -> not_reaped (k_w s k) \/ handling (k_pc s) k -> ~ forall q, ~ qholds (k_proc s q) (k_pid s k).
Proof. intros B [H|H] Q; eapply Q; [apply (b_nr _ B k H)|apply (b_hand _ B k H)]. Qed.
Ltac no255 := try match goal with
  | B : KB ?s, Q : forall q, ~ qholds _ (k_pid ?s ?k) |- _ =>
      exfalso; apply (no_255 s k B); [first [left; match goal with W : k_w s k = _ |- _ => rewrite W; exact Logic.I end | right; match goal with W : k_pc s = _ |- _ => rewrite W; reflexivity end]|exact Q]
  end.

Lemma calls_step s s' k : kstep s s' -> kn_calls k (k_log s') = kn_calls k (k_log s) \/
  (kn_calls k (k_log s') = S (kn_calls k (k_log s)) /\ exists st, In (QLCall k st) (k_log s') /\
     (((k_w s k = QCall st \/ k_w s k = QLate st) /\ k_w s' k = QEnd) \/ exists l, k_pc s = TkCall k st l /\ ~ busy (k_pc s') k)).
Proof.
  intros H. unfold kn_calls. steps H; cbn; auto.
  all: destruct (Nat.eqb_spec k0 k); [subst|auto]. all: right; cbn; split; [auto|exists st; cbn; split; [auto|rewrite ?fset_same; unfold busy; cbn; eauto 8]].
  all: right; exists l; split; [auto|tauto].
Qed.
Lemma calls_new s s' k st : kstep s s' -> In (QLCall k st) (k_log s') -> In (QLCall k st) (k_log s) \/ k_w s k = QCall st \/ k_w s k = QLate st \/ exists l, k_pc s = TkCall k st l.
Proof. intros H. steps H; cbn; intuition (try discriminate); match goal with E : QLCall _ _ = QLCall _ _ |- _ => injection E as -> ->; eauto end. Qed.

(** How the state of one call of watch_pid can change. *)
Definition wstep (s s' : kst) (k : nat) : Prop :=
  match k_w s k, k_w s' k with
  | QIdle, QCheck => exists p, qholds (k_proc s p) (k_pid s' k) /\ k_wproc s' k = p /\ k_proc s' = k_proc s
  | QCheck, QSet => k_dict s (k_pid s k) = None /\ k_dict s' = k_dict s
  | QCheck, QRejected => k_dict s (k_pid s k) <> None
  | QSet, QAdd => k_dict s' = pset (k_dict s) (k_pid s k) (Some k)
  | QAdd, QOk => True
  | QAdd, QPop => k_dict s' = k_dict s /\ forall p, k_proc s p <> QRun (k_pid s k)
  | QAdd, QRaised => k_dict s' = k_dict s
  | QPop, (QWait | QRaised) => k_dict s' = pset (k_dict s) (k_pid s k) None
  | QWait, QCall st => (exists q, k_proc s q = QZombie (k_pid s k) st /\ k_proc s' = fset (k_proc s) q (QReaped (k_pid s k) st)) \/ (forall q, ~ qholds (k_proc s q) (k_pid s k))
  | QWait, QTask => k_proc s' = k_proc s
  | QCall st, QEnd => In (QLCall k st) (k_log s')
  | QTask, QPoll 5 => True
  | QTask, QRaised => True
  | QPoll (S n), QLate st => rested quick (k_proc s (k_wproc s k)) /\ ((exists q, k_proc s q = QZombie (k_pid s k) st /\ k_proc s' = fset (k_proc s) q (QReaped (k_pid s k) st)) \/ (forall q, ~ qholds (k_proc s q) (k_pid s k)))
  | QPoll (S n), QPoll m => n = m /\ rested quick (k_proc s (k_wproc s k)) /\ k_proc s' = k_proc s /\ exists q, k_proc s q = QRun (k_pid s k) \/ exists st, k_proc s q = QDying (k_pid s k) st
  | QPoll 0, QEnd => True
  | QLate st, QEnd => In (QLCall k st) (k_log s')
  | _, _ => False
  end.
Lemma watch_step s s' k : kstep s s' -> (k_w s' k = k_w s k /\ (k_w s k <> QIdle -> k_wproc s' k = k_wproc s k /\ k_pid s' k = k_pid s k)) \/
  (wstep s s' k /\ (k_w s k <> QIdle -> k_wproc s' k = k_wproc s k /\ k_pid s' k = k_pid s k)).
Proof.
  intros H. unfold wstep. steps H; cbn; auto.
  all: unfold fset; destruct (Nat.eqb_spec k k0); [subst k0|left; split; auto].
  all: try match goal with W : k_w _ _ = _ |- _ => rewrite W end.
  all: try (right; split; [|auto]; auto; fail).
  - right. split; [|congruence]. eauto.
  - right. split; [|auto]. destruct (k_dict s (k_pid s k)); auto.
  - right. split; [|auto]. waits; eauto 6.
  - right. split; [|auto]. waits; eauto 6.
Qed.

Lemma dict_new s s' n k : kstep s s' -> k_dict s' n = Some k -> k_dict s n = Some k \/ (k_w s k = QSet /\ k_w s' k = QAdd /\ n = k_pid s k /\ k_pid s' k = k_pid s k).
Proof.
  intros H. steps H; cbn; auto.
  - unfold pset. destruct (Z.eqb_spec n (k_pid s k0)); [|auto]. intros [= ->]. right. rewrite fset_same. auto.
  - unfold pset. destruct (Z.eqb_spec n (k_pid s k0)); [discriminate|auto].
  - unfold pset. destruct (Z.eqb_spec n n0); [discriminate|auto].
Qed.
Lemma dict_lost s s' n k : KA s -> KB s -> kstep s s' -> k_dict s n = Some k -> k_dict s' n = Some k
  \/ (k_w s k = QPop /\ k_w s' k = QWait)
  \/ (exists p l, k_pc s = TkPop p l /\ k_pc s' = TkWait k l /\ qpid (k_proc s p) = Some n /\ k_w s k = QOk /\ k_wproc s k = p)
  \/ (k_w s k = QRaised /\ k_w s' k = QRaised).
Proof.
  intros A B H D. assert (H0 := H). steps H; cbn; auto.
  - unfold pset. destruct (Z.eqb_spec n (k_pid s k0)); [|auto]. subst n. right. right. right.
    destruct (b_dict _ B _ _ D) as (E & W). assert (X : k_w s k = QRaised).
    { destruct W as [W|[W|[W|W]]]; auto; exfalso.
      all: assert (HL : qholds (k_proc s (k_wproc s k)) (k_pid s k0)) by (apply (b_live _ B); [auto|congruence]).
      all: assert (HN : qholds (k_proc s (k_wproc s k0)) (k_pid s k0)) by (apply (b_nr _ B); rewrite H1; exact Logic.I).
      all: assert (k = k0) by (eapply same_watch; eauto; congruence); congruence. }
    split; [auto|]. unfold fset. destruct (Nat.eqb_spec k k0); congruence.
  - unfold pset. destruct (Z.eqb_spec n (k_pid s k0)); [|auto]. subst n. assert (X : k_dict s (k_pid s k0) = Some k0) by (apply (b_add _ B); auto).
    right. left. replace k with k0 in * by congruence. rewrite X, fset_same. auto.
  - unfold pset. destruct (Z.eqb_spec n n0); [|auto]. subst n0. right. right. left. exists p, l. replace k0 with k in * by congruence.
    split; [auto|]. split; [auto|]. split; [auto|].
    destruct (b_queue _ B p) as (j & W & P & Q & _ & Dj); [unfold queue; rewrite H1; cbn; auto|].
    assert (n = k_pid s j) by (apply holds_pid_of in Q; congruence). subst n. replace j with k in * by congruence. auto.
Qed.
Lemma busy_new s s' k : kstep s s' -> busy (k_pc s') k -> busy (k_pc s) k \/ exists p l n, k_pc s = TkPop p l /\ k_pc s' = TkWait k l /\ qpid (k_proc s p) = Some n /\ k_dict s n = Some k /\ k_dict s' n = None.
Proof.
  intros H. unfold busy. steps H; cbn; try tauto.
  all: match goal with E : k_pc _ = _ |- _ => rewrite E; cbn; try tauto end.
  - destruct e; cbn; tauto.
  - intros [->|[]]. right. do 3 eexists. rewrite pset_same. eauto 8.
  - destruct r; cbn; tauto.
  - destruct r; cbn; tauto.
Qed.
Lemma handling_new s s' k : kstep s s' -> handling (k_pc s') k -> handling (k_pc s) k \/ exists p l n, k_pc s = TkPop p l /\ k_pc s' = TkWait k l /\ qpid (k_proc s p) = Some n /\ k_dict s n = Some k /\ k_dict s' n = None.
Proof.
  intros H. steps H; cbn; try tauto.
  all: match goal with E : k_pc _ = _ |- _ => rewrite E; cbn; try tauto end.
  - destruct e; cbn; tauto.
  - intros ->. right. do 3 eexists. rewrite pset_same. eauto 8.
  - destruct r; cbn; tauto.
  - destruct r; cbn; tauto.
Qed.
Lemma tcall_new s s' k st l : kstep s s' -> k_pc s' = TkCall k st l -> k_pc s = TkCall k st l
  \/ (handling (k_pc s) k /\ ((exists q, k_proc s q = QZombie (k_pid s k) st /\ k_proc s' = fset (k_proc s) q (QReaped (k_pid s k) st)) \/ forall q, ~ qholds (k_proc s q) (k_pid s k))).
Proof.
  intros H. steps H; cbn; auto; try discriminate.
  - destruct e; discriminate.
  - waits; intros Q'; try discriminate; injection Q' as -> <- <-; right; rewrite H0; cbn; eauto.
  - waits; intros Q'; try discriminate; injection Q' as -> <- <-; right; rewrite H0; cbn; eauto.
Qed.
(** The events that are waiting, as a set. *)
Lemma queue_new s s' p : kstep s s' -> In p (queue s') -> In p (queue s)
  \/ (k_note s p = true /\ k_note s' p = false /\ (exists n st, k_proc s p = QRun n /\ k_proc s' p = QDying n st))
  \/ (exists k, k_w s k = QAdd /\ k_w s' k = QOk /\ qholds (k_proc s p) (k_pid s k) /\ k_proc s p <> QRun (k_pid s k) /\ k_proc s' = k_proc s /\ k_wproc s' = k_wproc s /\ k_pid s' = k_pid s /\ k_dict s' = k_dict s).
Proof.
  intros H. unfold queue. steps H; cbn; auto.
  - destruct (k_note s p0) eqn:N; auto. rewrite procs_app, !in_app_iff. cbn. intros [Q|[Q|[->|[]]]]; auto.
    right. left. rewrite !fset_same. repeat split; eauto.
  - rewrite procs_app, !in_app_iff. cbn. intros [Q|[Q|[->|[]]]]; auto. right. right. exists k. rewrite fset_same. repeat split; auto.
  - rewrite procs_app. cbn. rewrite app_nil_r. auto.
  - rewrite H0. cbn. intros Q. left. rewrite <- procs_app in Q. eapply Permutation_in; [|exact Q]. apply procs_perm. now symmetry.
  - rewrite H0. cbn. auto.
  - rewrite H0. destruct e; cbn; auto. intros Q. left. apply in_or_app. auto.
  - rewrite H0. cbn. auto.
  - rewrite H0. cbn. intros. left. right. apply in_or_app. auto.
  - rewrite H0. destruct r; cbn; auto.
  - rewrite H0. cbn. auto.
  - rewrite H0. destruct r; cbn; auto.
  - rewrite H0. cbn. auto.
  - rewrite H1. cbn. intros Q. left. apply in_or_app. auto.
  - cbn. tauto.
Qed.
End Inv.
