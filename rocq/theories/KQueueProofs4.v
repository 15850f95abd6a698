(** Invariants of the kqueue watcher: closing and progress. *)
From Verif Require Import Base EPollModel EPollProofs KQueueModel KQueueSpec KQueueProofs KQueueProofs2 KQueueProofs3.
From Coq Require Import List ZArith Lia Bool Permutation.
Import ListNotations.
Local Open Scope nat_scope.


Section Inv.
Context (ordered quick bad_cb : bool).
Notation kstep := (kstep ordered quick bad_cb).
Notation kreach := (kreach ordered quick bad_cb).
Notation watch_step := (watch_step ordered quick bad_cb).
Ltac steps H := inversion H; subst; clear H.
Ltac wsplit k W' := match goal with H : kstep ?s ?s' |- _ => destruct (watch_step s s' k H) as [(W' & _)|(W' & _)]; [|unfold KQueueProofs2.wstep in W'] end.

Record KC (s : kst) : Prop := {
  kc_open : k_open s = true <-> k_pc s <> TkDone;
  kc_gone : k_pc s = TkDone -> (forall p, k_note s p = false) /\ k_ready s = [];
  kc_timer : In QTimer (pend (k_pc s) ++ k_ready s) -> k_close s = DJoin \/ k_close s = DDone;
  kc_stop : bad_cb = false -> stopped (k_pc s) -> k_close s = DJoin \/ k_close s = DDone;
  kc_wake : k_close s = DJoin -> stopped (k_pc s) \/ In QTimer (pend (k_pc s) ++ k_ready s);
  kc_closing : In QLClosing (k_log s) <-> k_close s <> DIdle;
  kc_closed : In QLClosed (k_log s) <-> k_close s = DDone;
  kc_done : k_close s = DDone -> k_pc s = TkDone;
  kc_raised : In QLCloseRaised (k_log s) <-> k_close s = DRaised;
  kc_raised2 : k_close s = DRaised -> k_pc s = TkDone /\ bad_cb = true;
  kc_free : kn_free (k_log s) = match k_pc s with TkDone => 1 | _ => 0 end }.

Lemma KC_step s s' : KA s -> KB s -> KC s -> kstep s s' -> KC s'.
Proof.
  intros A B C H. 
  assert (NK : forall p l n, k_pc s = TkPop p l -> qpid (k_proc s p) = Some n -> k_dict s n <> None).
  { intros p l n E Q. destruct (b_queue _ B p) as (j & W & P & Hh & R & Dj); [unfold queue; rewrite E; cbn; auto|].
    apply holds_pid_of in Hh. assert (n = k_pid s j) by congruence. subst n. congruence. }
  destruct C as [C1 C2 C3 C4 C5 C6 C7 C8 C9 C11 C10].
  steps H; split; cbn; auto.
  all: try match goal with E : k_pc _ = _ |- _ => rewrite E in *; cbn in * end.
  all: try (intuition (try congruence; try discriminate; auto); fail).
  all: try (destruct r; cbn in *; intuition (try congruence; try discriminate); fail).
  all: try (exfalso; eapply NK; eauto; fail).
  all: try (destruct e; cbn in *; intuition (try congruence; try discriminate); fail).
  - intros E. destruct (C2 E) as (Q1 & Q2). rewrite Q1, Q2. split; [|reflexivity]. intros q. unfold fset. now destruct (q =? p).
  - intros I. apply C3. destruct (k_note s p); auto. rewrite app_assoc in I. apply in_app_or in I. destruct I as [I|[I|[]]]; [auto|discriminate].
  - intros E. destruct (C5 E) as [Q|Q]; auto. right. destruct (k_note s p); auto. rewrite app_assoc. apply in_or_app. auto.
  - intros I. apply C3. rewrite app_assoc in I. apply in_app_or in I. destruct I as [I|[I|[]]]; [auto|discriminate].
  - intros E. destruct (C5 E) as [Q|Q]; auto. right. rewrite app_assoc. apply in_or_app. auto.
  - intros _. right. apply in_or_app. right. apply in_or_app. right. cbn. auto.
  - intros _. assert (E : k_pc s = TkDone). { destruct (k_pc s); auto; exfalso; assert (k_open s = true) by (apply C1; discriminate); congruence. }
    split; auto. destruct bad_cb; auto. exfalso. destruct (C4 eq_refl); [rewrite E; exact Logic.I|congruence..].
  - intros I. apply C3. eapply Permutation_in; [symmetry; eassumption|exact I].
  - intros E. destruct (C5 E) as [[]|Q]. right. eapply Permutation_in; eassumption.
  - intros I. apply C3. apply in_or_app. auto.
Qed.
Lemma reach_KC s : kreach s -> KC s.
Proof.
  induction 1 as [s (P & D & N & R & O & T & W & C & L)|s s' R IH H].
  - split; rewrite ?T, ?R, ?C, ?L, ?O; cbn; try tauto; try congruence; try (intuition congruence).
  - destruct (reach_KAB _ _ _ _ R). eapply KC_step; eauto.
Qed.

(** *** Every watch ends in a call *)
Record KD (s : kst) : Prop := {
  kd_ok : forall k, k_w s k = QOk -> kn_calls k (k_log s) = 1 \/ busy (k_pc s) k \/ In (k_wproc s k) (queue s) \/ k_note s (k_wproc s k) = true \/ stopped (k_pc s);
  kd_end : forall k, k_w s k = QEnd -> kn_calls k (k_log s) = 1;
  kd_poll : forall k n, k_w s k = QPoll n -> n = 5;
  kd_dead : forall k, match k_w s k with QPop | QWait | QTask | QPoll _ => True | _ => False end -> k_proc s (k_wproc s k) <> QRun (k_pid s k);
  kd_w2 : forall k l, k_pc s = TkWait2 k l -> forall n st, k_proc s (k_wproc s k) <> QDying n st;
  kd_watched : forall k, In (QLWatched k) (k_log s) -> match k_w s k with QOk | QPoll _ | QLate _ | QEnd => True | _ => False end }.

Lemma calls_mono s s' k : kstep s s' -> kn_calls k (k_log s) <= kn_calls k (k_log s').
Proof. intros H. destruct (calls_step _ _ _ _ _ k H) as [->|(-> & _)]; lia. Qed.
Lemma not_dying_keeps s s' p : kstep s s' -> (forall n, k_proc s p <> QRun n) -> (forall n st, k_proc s p <> QDying n st) -> k_proc s p <> QNone -> (forall n st, k_proc s' p <> QDying n st).
Proof.
  intros H N1 N2 N3. destruct (kstep_proc _ _ _ _ _ H) as [(P & L)|[(q & m & E & N & P & L)|[(q & m & st' & E & P & L)|[(q & m & st' & E & P & L)|(q & m & st' & E & P & L)]]]]; rewrite P; auto.
  all: unfold fset; destruct (Nat.eqb_spec p q); auto; subst; try discriminate.
  exfalso. eapply N1; eauto.
Qed.
Lemma queue_lost s s' p : kstep s s' -> In p (queue s) -> In p (queue s') \/ stopped (k_pc s') \/ (exists l k n, k_pc s = TkPop p l /\ k_pc s' = TkWait k l /\ k_dict s n = Some k /\ qpid (k_proc s p) = Some n).
Proof.
  intros H. unfold queue. steps H; cbn; auto.
  all: try match goal with E : k_pc _ = _ |- _ => rewrite E in *; cbn end; auto.
  - destruct (k_note s p0); auto. rewrite procs_app, !in_app_iff. tauto.
  - rewrite procs_app, !in_app_iff. tauto.
  - rewrite procs_app, !in_app_iff. tauto.
  - intros I. left. rewrite <- procs_app. eapply Permutation_in; [apply procs_perm; eassumption|exact I].
  - destruct e; cbn; auto.
  - intros [->|I]; auto. right. right. exists l, k, n. auto.
  - destruct r; auto.
  - destruct r; auto.
Qed.
Lemma note_lost s s' p : kstep s s' -> k_note s p = true -> k_note s' p = true \/ In p (queue s') \/ stopped (k_pc s').
Proof.
  intros H. unfold queue. steps H; cbn; auto.
  - intros N. unfold fset. destruct (Nat.eqb_spec p p0); auto. subst. rewrite N, procs_app. cbn. right. left. rewrite !in_app_iff. cbn. auto.
  - intros N. unfold fset. destruct (Nat.eqb_spec p p0); auto.
Qed.
Lemma stopped_mono s s' : kstep s s' -> stopped (k_pc s) -> stopped (k_pc s').
Proof. intros H X. steps H; cbn; auto. all: match goal with E : k_pc _ = _ |- _ => rewrite E in X; cbn in X; tauto end. Qed.
Lemma called_one s' k st : KB s' -> In (QLCall k st) (k_log s') -> kn_calls k (k_log s') = 1.
Proof.
  intros B L. pose proof (b_once _ B k). unfold kn_calls in *. assert (In (QLCall k st) (filter (is_call k) (k_log s'))) by (apply filter_In; cbn; rewrite Nat.eqb_refl; auto).
  destruct (filter _ _); [contradiction|cbn in *; lia].
Qed.
Lemma busy_lost s s' k : KA s -> KB s -> KB s' -> KD s -> kstep s s' -> busy (k_pc s) k -> busy (k_pc s') k \/ kn_calls k (k_log s') = 1 \/ stopped (k_pc s').
Proof.
  intros A B B' D H X. unfold busy in *. steps H; cbn; auto.
  all: match goal with P : k_pc _ = _ |- _ => rewrite P in X; cbn in X; try tauto end.
  - destruct r; cbn; tauto.
  - destruct r; cbn; [tauto|]. destruct X as [->|[]]. exfalso.
    match goal with P : k_pc s = TkWait2 k l, W : qwait _ _ _ _ |- _ => pose proof (kd_w2 _ D _ _ P) as ND; destruct (b_hand _ B k) as (Hh & NR & _); [rewrite P; reflexivity|];
      destruct (qwait_inv _ _ _ _ W) as [(_ & _ & q & Z)|[(_ & ? & _)|(q & st & _ & ? & _)]]; try discriminate end.
    assert (q = k_wproc s k) by (eapply its_process; eauto; destruct Z as [Z|(st & Z)]; rewrite Z; reflexivity). subst q.
    destruct Z as [Z|(st & Z)]; [congruence|]. eapply ND; eauto.
  - destruct X as [[]| ->]. right. left. apply (called_one _ k st B'). cbn. auto.
Qed.
Lemma dead_keeps s s' k : KB s -> kstep s s' -> not_reaped (k_w s k) -> k_proc s (k_wproc s k) <> QRun (k_pid s k) -> k_proc s' (k_wproc s' k) <> QRun (k_pid s' k).
Proof.
  intros B H N R. destruct (same_args ordered quick bad_cb s s' k H) as (-> & ->); [intros E; rewrite E in N; destruct N|].
  destruct (proc_keeps _ _ _ _ _ _ _ H (b_nr _ B k N)) as [(_ & Q)|(st & _ & Q)]; auto. congruence.
Qed.
Lemma KD_step s s' : quick = true -> KA s -> KB s -> KB s' -> KD s -> kstep s s' -> KD s'.
Proof.
  intros Qk A B B' D H. split.
  - (* kd_ok *) intros k W'. assert (ST := watch_step s s' k H).
    assert (W : k_w s k = QOk \/ k_w s k = QAdd).
    { destruct ST as [(E & _)|(E & _)]; [left; congruence|]. unfold KQueueProofs2.wstep in E. rewrite W' in E. destruct (k_w s k); auto; try contradiction. destruct n; contradiction. }
    assert (EP : k_wproc s' k = k_wproc s k) by (apply (same_args ordered quick bad_cb s s' k H); destruct W; congruence). rewrite EP.
    destruct W as [W|W].
    + destruct (kd_ok _ D k W) as [X|[X|[X|[X|X]]]].
      * left. pose proof (calls_mono _ _ k H). pose proof (b_once _ B' k). lia.
      * destruct (busy_lost _ _ _ A B B' D H X) as [Y|[Y|Y]]; auto 6.
      * destruct (queue_lost _ _ _ H X) as [Y|[Y|(l & j & n & P & P' & E & Z)]]; auto 6.
        destruct (takes _ _ _ _ _ A B P Z E) as (J1 & J2 & _). assert (j = k) by (apply (ka_dist _ A); congruence). subst j.
        right. left. rewrite P'. left. reflexivity.
      * destruct (note_lost _ _ _ H X) as [Y|[Y|Y]]; auto 6.
      * right. right. right. right. eapply stopped_mono; eauto.
    + assert (NR : qholds (k_proc s (k_wproc s k)) (k_pid s k)) by (apply (b_nr _ B); rewrite W; exact Logic.I).
      assert (X : k_note s' (k_wproc s k) = true \/ In (k_wproc s k) (queue s')); [|tauto].
      clear -A NR H W W'. unfold queue. steps H; cbn in *; try congruence.
      all: unfold fset in W'; destruct (Nat.eqb_spec k k0); try congruence; subst k0; try congruence.
      * left. assert (p = k_wproc s k) by (eapply its_process; eauto; match goal with E : k_proc _ p = _ |- _ => rewrite E; reflexivity end). subst p. apply fset_same.
      * right. assert (p = k_wproc s k) by (eapply its_process; eauto). subst p. rewrite procs_app, !in_app_iff. cbn. auto.
  - (* kd_end *) intros k W'. destruct (watch_step s s' k H) as [(E & _)|(E & _)].
    + rewrite E in W'. pose proof (kd_end _ D k W'). pose proof (calls_mono _ _ k H). pose proof (b_once _ B' k). lia.
    + unfold KQueueProofs2.wstep in E. rewrite W' in E. destruct (k_w s k) eqn:W; try contradiction.
      * eapply called_one; eauto.
      * pose proof (kd_poll _ D _ _ W). subst n. contradiction.
      * eapply called_one; eauto.
  - (* kd_poll *) intros k n W'. destruct (watch_step s s' k H) as [(E & _)|(E & _)]; [rewrite E in W'; eapply kd_poll; eauto|].
    destruct (k_w s k) eqn:W; unfold KQueueProofs2.wstep in E; rewrite W', W in E; try contradiction.
    + repeat (destruct n; try contradiction). reflexivity.
    + exfalso. assert (NR : qholds (k_proc s (k_wproc s k)) (k_pid s k)) by (apply (b_nr _ B); rewrite W; exact Logic.I).
      assert (ND := kd_dead _ D k). rewrite W in ND. specialize (ND Logic.I).
      destruct n0; [contradiction|]. destruct E as (_ & Rs & _ & q & Z). specialize (Rs Qk).
      assert (q = k_wproc s k) by (eapply its_process; eauto; destruct Z as [Z|(st & Z)]; rewrite Z; reflexivity). subst q.
      destruct Z as [Z|(st & Z)]; [congruence|]. eapply Rs; eauto.
  - (* kd_dead *) intros k W'. destruct (watch_step s s' k H) as [(E & _)|(E & _)].
    + rewrite E in W'. apply (dead_keeps s s'); auto; [destruct (k_w s k); auto; contradiction|apply (kd_dead _ D); auto].
    + assert (N : k_w s k <> QIdle -> True) by auto. unfold KQueueProofs2.wstep in E. destruct (k_w s k) eqn:W.
      all: destruct (k_w s' k) eqn:W2; try contradiction.
      all: apply (dead_keeps s s'); auto; rewrite ?W; try exact Logic.I.
      all: try (apply (kd_dead _ D); rewrite W; exact Logic.I).
      destruct E as (_ & E). auto.
  - (* kd_w2 *) intros k l P. assert (N : k_w s k <> QIdle).
    { assert (B1 : busy (k_pc s') k) by (rewrite P; left; reflexivity).
      destruct (busy_new _ _ _ _ _ _ H B1) as [Y|(p & l' & n & E1 & E2 & E3 & E4 & E5)].
      - rewrite (busy_ok _ _ B Y). discriminate.
      - rewrite (proj1 (takes _ _ _ _ _ A B E1 E3 E4)). discriminate. }
    rewrite (proj1 (same_args ordered quick bad_cb _ _ _ H N)).
    assert (X : handling (k_pc s) k /\ forall n st, k_proc s (k_wproc s k) <> QDying n st).
    { assert (Y : k_pc s = TkWait2 k l \/ (k_pc s = TkSleep k l /\ rested quick (k_proc s (k_wproc s k)))).
      { clear -H P. steps H; cbn in *; auto; try discriminate; try (destruct r; discriminate); try (destruct e; discriminate). injection P as -> ->. auto. }
      destruct Y as [Y|(Y & Y2)]; rewrite Y; (split; [reflexivity|]).
      - eapply kd_w2; eauto.
      - exact (Y2 Qk). }
    destruct X as (X1 & X2). destruct (b_hand _ B k X1) as (Hh & NR & _).
    apply (not_dying_keeps _ _ _ H); auto.
    + intros n E. rewrite E in Hh. cbn in Hh. congruence.
    + intros E. rewrite E in Hh. destruct Hh.
  - (* kd_watched *) intros k L. destruct (watch_step s s' k H) as [(E & _)|(E & _)].
    + rewrite E. assert (L0 : In (QLWatched k) (k_log s)); [|apply (kd_watched _ D k L0)].
      clear -H L E. steps H; cbn in *; auto; try (destruct L as [L|L]; [discriminate|auto]; fail).
      all: repeat (destruct L as [L|L]; [try discriminate; injection L as ->; rewrite fset_same in E; congruence|]); auto.
    + assert (G : In (QLWatched k) (k_log s) \/ match k_w s' k with QOk | QPoll _ | QLate _ | QEnd => True | _ => False end).
      { clear -H L. steps H; cbn in *; auto; try (destruct L as [L|L]; [discriminate|auto]; fail).
        all: repeat (destruct L as [L|L]; [try discriminate; injection L as ->; rewrite fset_same; auto|]); auto. }
      destruct G as [G|G]; auto. pose proof (kd_watched _ D k G) as X. unfold KQueueProofs2.wstep in E. destruct (k_w s k); try contradiction.
      all: destruct (k_w s' k); try contradiction; auto. all: destruct n; contradiction.
Qed.
Lemma reach_KD s : quick = true -> kreach s -> KD s.
Proof.
  intros Qk. induction 1 as [s (P & D & N & R & O & T & W & C & L)|s s' R IH H].
  - split; intros *; rewrite ?W, ?T, ?L; cbn; try discriminate; try contradiction; try (intros; contradiction).
  - destruct (reach_KAB _ _ _ _ R) as (A1 & B1), (reach_KAB ordered quick bad_cb s' (kr_step _ _ _ _ _ R H)) as (A2 & B2). exact (KD_step s s' Qk A1 B1 B2 IH H).
Qed.
End Inv.
