(** Invariants of the kqueue watcher, continued. *)
From Verif Require Import Base EPollModel EPollProofs KQueueModel KQueueSpec KQueueProofs KQueueProofs2.
From Coq Require Import List ZArith Lia Bool Permutation.
Import ListNotations.
Local Open Scope nat_scope.

Section Inv.
Context (ordered quick bad_cb : bool).
Notation kstep := (kstep ordered quick bad_cb).
Notation kreach := (kreach ordered quick bad_cb).
Notation watch_step := (watch_step ordered quick bad_cb).
Notation wstep := (wstep quick).
Ltac steps H := inversion H; subst; clear H.

Lemma busy_ok s k : KB s -> busy (k_pc s) k -> k_w s k = QOk.
Proof. intros B H. destruct (k_w s k) eqn:W; auto; exfalso; apply (b_bc _ B k); auto; rewrite W; exact Logic.I. Qed.
Lemma hand_busy x k : handling x k -> busy x k.
Proof. left; auto. Qed.
Lemma same_args s s' k : kstep s s' -> k_w s k <> QIdle -> k_wproc s' k = k_wproc s k /\ k_pid s' k = k_pid s k.
Proof. intros H N. destruct (watch_step s s' k H) as [(_ & Q)|(_ & Q)]; auto. Qed.
Lemma not_idle s s' k : kstep s s' -> k_w s k <> QIdle -> k_w s' k <> QIdle.
Proof. intros H N. destruct (watch_step s s' k H) as [(-> & Q)|(W & Q)]; auto. unfold KQueueProofs2.wstep in W. destruct (k_w s k), (k_w s' k); try contradiction; try congruence. all: destruct n; contradiction. Qed.
(** The process of a watch is not reaped by a step, unless the watch does it. *)
Lemma survives s s' k n : KA s -> KB s -> kstep s s' -> qholds (k_proc s (k_wproc s k)) n ->
  k_w s k <> QIdle -> k_w s k <> QRaised -> k_w s k <> QRejected ->
  (forall st, k_w s' k <> QCall st) -> (forall st, k_w s' k <> QLate st) -> (handling (k_pc s) k -> forall st l, k_pc s' <> TkCall k st l) ->
  qholds (k_proc s' (k_wproc s' k)) n /\ (k_proc s (k_wproc s k) <> QRun n -> k_proc s' (k_wproc s' k) <> QRun n).
Proof.
  intros A B H Q N1 N2 N3 N4 N5 N6. destruct (same_args _ _ _ H N1) as (-> & _).
  destruct (proc_keeps _ _ _ _ _ _ _ H Q) as [X|(st & X & Y)]; auto. exfalso.
  destruct (who_reaps _ _ _ _ _ _ _ _ A B H X Y) as [Z|(j & J & JP & Z)].
  - destruct (Z k N1 eq_refl); congruence.
  - assert (J1 : k_w s j <> QIdle). { destruct Z as [(W & _)|[((m & W) & _)|(W & _)]]; try congruence. rewrite (busy_ok s j B (hand_busy _ _ W)). discriminate. }
    assert (j = k) by (apply (ka_dist _ A); auto). subst j. destruct Z as [(_ & W)|[(_ & W)|(W & l & E)]]; [eapply N4; eauto|eapply N5; eauto|eapply N6; eauto].
Qed.
(** The thread takes an entry: it is that of the process. *)
Lemma takes s p l n k : KA s -> KB s -> k_pc s = TkPop p l -> qpid (k_proc s p) = Some n -> k_dict s n = Some k ->
  k_w s k = QOk /\ k_wproc s k = p /\ n = k_pid s k /\ qholds (k_proc s p) n /\ k_proc s p <> QRun n.
Proof.
  intros A B P Q D. destruct (b_queue _ B p) as (j & W & E & Hh & R & Dj); [unfold queue; rewrite P; cbn; auto|].
  assert (n = k_pid s j) by (apply holds_pid_of in Hh; congruence). subst n. assert (j = k) by congruence. subst j. auto.
Qed.
Ltac wsplit k W' := match goal with H : kstep ?s ?s' |- _ => destruct (watch_step s s' k H) as [(W' & _)|(W' & _)]; [|unfold KQueueProofs2.wstep in W'] end.

Lemma dict_watch s s' n k : KA s -> KB s -> kstep s s' -> k_dict s' n = Some k ->
  (k_dict s n = Some k /\ k_pid s' k = n /\ (k_w s k = QAdd \/ k_w s k = QOk \/ k_w s k = QPop \/ k_w s k = QRaised) /\ (k_w s' k = QAdd \/ k_w s' k = QOk \/ k_w s' k = QPop \/ k_w s' k = QRaised))
  \/ (k_w s k = QSet /\ k_w s' k = QAdd /\ n = k_pid s k /\ k_pid s' k = k_pid s k).
Proof.
  intros A B H D. destruct (dict_new _ _ _ _ _ _ _ H D) as [D0|D0]; [left|right; auto].
  destruct (b_dict _ B _ _ D0) as (P & W). assert (N : k_w s k <> QIdle) by (destruct W as [W|[W|[W|W]]]; congruence).
  destruct (same_args _ _ _ H N) as (_ & P'). rewrite P', P. repeat split; auto.
  wsplit k W'; [rewrite W'; exact W|].
  destruct W as [W|[W|[W|W]]]; rewrite W in W'; destruct (k_w s' k); try contradiction; auto.
  rewrite W', P, pset_same in D. discriminate.
Qed.

Lemma calls_zero s s' k : kstep s s' -> KB s -> kn_calls k (k_log s) = 0 -> (forall st, k_w s k <> QCall st) -> (forall st, k_w s k <> QLate st) -> ~ calling (k_pc s) k -> kn_calls k (k_log s') = 0.
Proof.
  intros H B Z N1 N2 N3. destruct (calls_step _ _ _ _ _ k H) as [E|(E & st & _ & [([W|W] & _)|(l & W & _)])]; try congruence.
  - exfalso. apply N3. rewrite W. reflexivity.
Qed.

Lemma note_new s s' p : kstep s s' -> k_note s' p = true -> (k_note s p = true /\ forall n, k_proc s p = QRun n -> k_proc s' p = QRun n)
  \/ (exists k, k_w s k = QAdd /\ k_w s' k = QOk /\ k_proc s p = QRun (k_pid s k) /\ k_proc s' = k_proc s /\ k_wproc s' = k_wproc s /\ k_pid s' = k_pid s /\ k_dict s' = k_dict s).
Proof.
  intros H. steps H; cbn; auto.
  all: try (intros X; left; split; [exact X|]; intros n' E; unfold fset; destruct (Nat.eqb_spec p p0); auto; subst; congruence).
  - intros X. left. unfold fset in *. destruct (Nat.eqb_spec p p0); [discriminate|]. auto.
  - intros X. unfold fset in *. destruct (Nat.eqb_spec p p0); [|auto]. subst. right. exists k. rewrite Nat.eqb_refl. repeat split; auto.
  - intros X. left. split; [exact X|]. intros n' E. match goal with Q : qwait _ _ _ _ |- _ => destruct (qwait_inv _ _ _ _ Q) as [(-> & _)|[(-> & _)|(q & st & Q1 & _ & ->)]] end; auto. unfold fset; destruct (Nat.eqb_spec p q); auto; subst; congruence.
  - intros X. left. split; [exact X|]. intros n' E. match goal with Q : qwait _ _ _ _ |- _ => destruct (qwait_inv _ _ _ _ Q) as [(-> & _)|[(-> & _)|(q & st & Q1 & _ & ->)]] end; auto. unfold fset; destruct (Nat.eqb_spec p q); auto; subst; congruence.
  - intros X. left. split; [exact X|]. intros n' E. match goal with Q : qwait _ _ _ _ |- _ => destruct (qwait_inv _ _ _ _ Q) as [(-> & _)|[(-> & _)|(q & st & Q1 & _ & ->)]] end; auto. unfold fset; destruct (Nat.eqb_spec p q); auto; subst; congruence.
  - intros X. left. split; [exact X|]. intros n' E. match goal with Q : qwait _ _ _ _ |- _ => destruct (qwait_inv _ _ _ _ Q) as [(-> & _)|[(-> & _)|(q & st & Q1 & _ & ->)]] end; auto. unfold fset; destruct (Nat.eqb_spec p q); auto; subst; congruence.
  - discriminate.
Qed.
Lemma nodup_snoc {T} (l : list T) x : NoDup l -> ~ In x l -> NoDup (l ++ [x]).
Proof. intros N I. apply (Permutation_NoDup (Permutation_cons_append l x)). now constructor. Qed.
Lemma nodup_tail {T} (a b : list T) : NoDup (a ++ b) -> NoDup b.
Proof. induction a; cbn; auto. inversion 1; auto. Qed.
Lemma kb_nodup s s' : KA s -> KB s -> kstep s s' -> NoDup (queue s').
Proof.
  intros A B H. pose proof (b_nodup _ B) as N. unfold queue in *. steps H; cbn; auto.
  all: try match goal with E : k_pc _ = _ |- _ => rewrite E in N; cbn in N end; auto.
  - destruct (k_note s p) eqn:Np; auto. rewrite procs_app, app_assoc. cbn. apply nodup_snoc; auto. intros I.
    destruct (b_queue _ B p I) as (k & W & P & Q & R & _). rewrite H0 in Q, R. cbn in Q. congruence.
  - rewrite procs_app, app_assoc. cbn. apply nodup_snoc; auto. intros I.
    destruct (b_queue _ B p I) as (j & W & P & Q & R & _).
    assert (E : p = k_wproc s k) by (apply (its_process s k (k_pid s k) p A); [apply (b_nr _ B); rewrite H0; exact Logic.I|exact H2]).
    assert (j = k) by (apply (ka_dist _ A); congruence). congruence.
  - rewrite procs_app. cbn. rewrite app_nil_r. auto.
  - rewrite <- procs_app. eapply Permutation_NoDup; [|exact N]. now apply procs_perm.
  - destruct e; cbn; auto. now apply nodup_tail in N.
  - now inversion N.
  - apply (nodup_tail (p :: procs l)). exact N.
  - destruct r; auto.
  - destruct r; auto.
  - now apply nodup_tail in N.
  - constructor.
Qed.

Lemma KB_step s s' : KA s -> KB s -> kstep s s' -> KB s'.
Proof.
  intros A B H. pose proof (KA_step _ _ _ _ _ A H) as A'. split.
  - (* b_dict *) intros n k D. destruct (dict_watch _ _ _ _ A B H D) as [(_ & P & _ & W)|(_ & W & -> & P)]; auto.
  - (* b_dict2 *) intros n k D. destruct (dict_watch _ _ _ _ A B H D) as [(D0 & P & W & _)|(W0 & W & -> & P)].
    + destruct (b_dict2 _ B _ _ D0) as (NB & Z). split.
      * intros X. destruct (busy_new _ _ _ _ _ _ H X) as [Y|(p & l & m & E1 & E2 & E3 & E4 & E5)]; auto.
        destruct (b_dict _ B _ _ D0) as (E & _). destruct (b_dict _ B _ _ E4) as (E' & _). congruence.
      * eapply calls_zero; eauto; [destruct W as [W|[W|[W|W]]]; congruence..|]. intros X. apply NB. now right.
    + assert (NB : ~ busy (k_pc s) k) by (apply (b_bc _ B); rewrite W0; exact Logic.I). split.
      * intros X. destruct (busy_new _ _ _ _ _ _ H X) as [Y|(p & l & m & E1 & E2 & E3 & E4 & E5)]; auto.
        destruct (takes _ _ _ _ _ A B E1 E3 E4). congruence.
      * eapply calls_zero; eauto; [apply (b_bc2 _ B); rewrite W0; exact Logic.I|congruence|congruence|]. intros X. apply NB. now right.
  - (* b_live *) intros n k D NR. destruct (dict_watch _ _ _ _ A B H D) as [(D0 & P & W & W')|(W0 & W & -> & P)].
    + assert (W1 : k_w s k <> QRaised). { intros X. wsplit k Y; [congruence|]. rewrite X in Y. destruct (k_w s' k); contradiction. }
      destruct (b_dict2 _ B _ _ D0) as (NB & _).
      destruct (survives s s' k n) as (S1 & _); auto; try (intros; destruct W as [W|[W|[W|W]]]; congruence).
      * apply (b_live _ B); auto.
      * intros; destruct W' as [W'|[W'|[W'|W']]]; congruence.
      * intros; destruct W' as [W'|[W'|[W'|W']]]; congruence.
      * intros X. exfalso. apply NB. now left.
    + destruct (survives s s' k (k_pid s k)) as (S1 & _); auto; try congruence.
      * apply (b_nr _ B). rewrite W0. exact Logic.I.
      * intros X. exfalso. apply (b_bc _ B k); [rewrite W0; exact Logic.I|now left].
  - (* b_add *) intros k W. assert (C : k_w s k = QSet /\ k_dict s' = pset (k_dict s) (k_pid s k) (Some k) \/ (k_w s k = QAdd \/ k_w s k = QPop)).
    { wsplit k Y; [rewrite Y in W; auto|]. destruct W as [W|W]; rewrite W in Y; destruct (k_w s k); try contradiction; auto. destruct n; contradiction. destruct n; contradiction. }
    destruct C as [(W0 & ->)|W0].
    + destruct (same_args s s' k H) as (_ & ->); [congruence|]. apply pset_same.
    + destruct (same_args s s' k H) as (_ & ->); [destruct W0; congruence|].
      destruct (dict_lost _ _ _ _ _ _ _ A B H (b_add _ B k W0)) as [Q|[(Q1 & Q2)|[(p & l & _ & _ & _ & Q & _)|(Q & _)]]]; auto; exfalso; destruct W, W0; congruence.
  - (* b_nr *) intros k W. assert (C : (k_w s k = QIdle /\ qholds (k_proc s' (k_wproc s' k)) (k_pid s' k)) \/ not_reaped (k_w s k)).
    { wsplit k Y; [rewrite Y in W; auto|]. destruct (k_w s k) eqn:E, (k_w s' k); try contradiction; auto; try (right; exact Logic.I).
      destruct Y as (p & Y1 & <- & ->). auto. }
    destruct C as [(_ & Q)|W0]; auto.
    assert (X0 : k_w s k <> QIdle) by (intro X; rewrite X in W0; exact W0).
    destruct (same_args s s' k H X0) as (_ & EP). rewrite EP.
    apply (survives s s' k (k_pid s k)); auto; try (intros; intro X; rewrite X in *; contradiction).
    + apply (b_nr _ B); auto.
    + intros X. exfalso. apply (b_bc _ B k); [destruct (k_w s k); try contradiction; exact Logic.I|now left].
  - (* b_bc *) intros k W X. assert (W0 : unqueued (k_w s k)).
    { destruct (k_w s k) eqn:E; try exact Logic.I. wsplit k Y; [rewrite Y, E in W; exact W|]. rewrite E in Y. contradiction. }
    destruct (busy_new _ _ _ _ _ _ H X) as [Y|(p & l & m & E1 & E2 & E3 & E4 & E5)]; [now apply (b_bc _ B k)|].
    destruct (takes _ _ _ _ _ A B E1 E3 E4) as (Q & _). rewrite Q in W0. exact W0.
  - (* b_bc2 *) intros k W. assert (W0 : before_call (k_w s k)).
    { wsplit k Y; [rewrite <- Y; exact W|]. destruct (k_w s k), (k_w s' k); try contradiction; try exact Logic.I. }
    eapply calls_zero; eauto; [apply (b_bc2 _ B); auto|intros st Q; rewrite Q in W0; exact W0..|].
    intros X. apply (b_bc _ B k); [destruct (k_w s k); try contradiction; exact Logic.I|now right].
  - (* b_call *) intros k st W.
    assert (C : (k_w s k = QCall st \/ k_w s k = QLate st) \/ (not_reaped (k_w s k) /\ before_call (k_w s k) /\
       ((exists q, k_proc s q = QZombie (k_pid s k) st /\ k_proc s' = fset (k_proc s) q (QReaped (k_pid s k) st)) \/ (forall q, ~ qholds (k_proc s q) (k_pid s k))))).
    { wsplit k Y; [left; destruct W; [left|right]; congruence|]. right. destruct W as [W|W]; rewrite W in Y; destruct (k_w s k); try contradiction; cbn; auto.
      - destruct n; contradiction.
      - destruct n; [contradiction|]. destruct Y; auto. }
    destruct C as [C|(NR & BC & C)].
    + destruct (b_call _ B k st C) as (P & Z). destruct (same_args s s' k H) as (-> & ->); [destruct C; congruence|].
      split; [eapply reaped_keeps; eauto|]. destruct (calls_step _ _ _ _ _ k H) as [E|(E & st' & _ & [(_ & Q)|(l & Q & _)])]; [congruence|destruct W; congruence|].
      exfalso. apply (b_bc _ B k); [destruct C as [C|C]; rewrite C; exact Logic.I|right; rewrite Q; reflexivity].
    + destruct (same_args s s' k H) as (-> & ->); [intro X; rewrite X in NR; exact NR|]. split.
      * destruct C as [(q & Q1 & ->)|Q]; [|exfalso; eapply Q; apply (b_nr _ B k NR)].
        assert (q = k_wproc s k) by (eapply its_process; eauto; [apply (b_nr _ B k NR)|rewrite Q1; reflexivity]). subst q. apply fset_same.
      * eapply calls_zero; eauto; [apply (b_bc2 _ B); auto|intros st' Q; rewrite Q in NR; exact NR..|].
        intros X. apply (b_bc _ B k); [destruct (k_w s k); try contradiction; exact Logic.I|now right].
  - (* b_tcall *) intros k st l P. assert (W : k_w s k = QOk).
    { assert (X : busy (k_pc s') k) by (rewrite P; right; reflexivity). destruct (busy_new _ _ _ _ _ _ H X) as [Y|(p & l' & m & E1 & E2 & _)]; [now apply busy_ok|congruence]. }
    destruct (same_args s s' k H) as (-> & ->); [congruence|].
    destruct (tcall_new _ _ _ _ _ _ _ _ H P) as [P0|(HK & C)].
    + destruct (b_tcall _ B _ _ _ P0) as (R & Z). split; [eapply reaped_keeps; eauto|].
      destruct (calls_step _ _ _ _ _ k H) as [E|(E & st' & _ & [([Q|Q] & _)|(l' & Q & NB)])]; try congruence.
      exfalso. apply NB. rewrite P. right. reflexivity.
    + destruct (b_hand _ B k HK) as (Hh & _ & Z). split.
      * destruct C as [(q & Q1 & ->)|Q]; [|exfalso; eapply Q; exact Hh].
        assert (q = k_wproc s k) by (eapply its_process; eauto; rewrite Q1; reflexivity). subst q. apply fset_same.
      * eapply calls_zero; eauto; try congruence. intros X. destruct (k_pc s); contradiction.
  - (* b_hand *) intros k HK. assert (W : k_w s k = QOk).
    { destruct (busy_new _ _ _ _ _ _ H (hand_busy _ _ HK)) as [Y|(p & l' & m & E1 & E2 & E3 & E4 & E5)]; [now apply busy_ok|]. now destruct (takes _ _ _ _ _ A B E1 E3 E4). }
    assert (W' : k_w s' k = QOk). { wsplit k Y; [congruence|]. rewrite W in Y. contradiction. }
    destruct (same_args s s' k H) as (EW & EP); [congruence|]. rewrite EP.
    assert (C : qholds (k_proc s (k_wproc s k)) (k_pid s k) /\ k_proc s (k_wproc s k) <> QRun (k_pid s k) /\ kn_calls k (k_log s) = 0 /\ ~ calling (k_pc s) k).
    { destruct (handling_new _ _ _ _ _ _ H HK) as [Y|(p & l' & m & E1 & E2 & E3 & E4 & E5)].
      - destruct (b_hand _ B k Y) as (a & b & c). repeat split; auto. destruct (k_pc s); auto.
      - destruct (takes _ _ _ _ _ A B E1 E3 E4) as (_ & <- & -> & Q1 & Q2). repeat split; auto; [apply (b_dict2 _ B _ _ E4)|rewrite E1; auto]. }
    destruct C as (C1 & C2 & C3 & C4).
    destruct (survives s s' k (k_pid s k)) as (S1 & S2); auto; try congruence.
    { intros _ st l E. rewrite E in HK. exact HK. }
    repeat split; auto. eapply calls_zero; eauto; congruence.
  - (* b_log *) intros k st L. assert (C : k_w s k <> QIdle /\ k_proc s (k_wproc s k) = QReaped (k_pid s k) st).
    { destruct (calls_new _ _ _ _ _ _ _ H L) as [L0|[W|[W|(l & P)]]].
      - apply (b_log _ B _ _ L0).
      - split; [congruence|]. apply (b_call _ B). auto.
      - split; [congruence|]. apply (b_call _ B). auto.
      - split; [rewrite (busy_ok s k B); [discriminate|rewrite P; right; reflexivity]|]. apply (b_tcall _ B _ _ _ P). }
    destruct C as (C1 & C2). destruct (same_args s s' k H C1) as (-> & ->). split; [eapply not_idle; eauto|eapply reaped_keeps; eauto].
  - (* b_once *) intros k. destruct (calls_step _ _ _ _ _ k H) as [E|(E & st' & _ & [(Q & _)|(l & Q & _)])]; rewrite E.
    + apply (b_once _ B).
    + destruct (b_call _ B _ _ Q) as (_ & ->). auto.
    + destruct (b_tcall _ B _ _ _ Q) as (_ & ->). auto.
  - (* b_note *) intros p N. destruct (note_new _ _ _ H N) as [(N0 & K)|(k & W & W' & R & E1 & E2 & E3 & E4)].
    + destruct (b_note _ B p N0) as (k & W & P & R & D). destruct (same_args s s' k H) as (Q1 & Q2); [congruence|].
      exists k. rewrite Q1, Q2. assert (W' : k_w s' k = QOk). { wsplit k Y; [congruence|]. rewrite W in Y. contradiction. }
      repeat split; auto. destruct (dict_lost _ _ _ _ _ _ _ A B H D) as [Q|[(Q & _)|[(q & l & Q & _ & _ & _ & Q')|(Q & _)]]]; auto; try congruence.
      exfalso. assert (q = p) by congruence. subst q. destruct (b_queue _ B p) as (j & J1 & J2 & J3 & J4 & _); [unfold queue; rewrite Q; cbn; auto|].
      rewrite R in J3, J4. cbn in J3. congruence.
    + exists k. rewrite E1, E2, E3, E4. repeat split; auto; [|apply (b_add _ B); auto].
      symmetry. eapply its_process; eauto; [apply (b_nr _ B); rewrite W; exact Logic.I|rewrite R; reflexivity].
  - (* b_queue *) intros p I. destruct (queue_new _ _ _ _ _ _ H I) as [I0|[(N & _ & n & st & R & R')|(k & W & W' & Q & R & E1 & E2 & E3 & E4)]].
    + destruct (b_queue _ B p I0) as (k & W & P & Q & R & D). destruct (same_args s s' k H) as (Q1 & Q2); [congruence|].
      assert (W' : k_w s' k = QOk). { wsplit k Y; [congruence|]. rewrite W in Y. contradiction. }
      exists k. rewrite Q1, Q2. destruct (b_dict2 _ B _ _ D) as (NB & _).
      destruct (survives s s' k (k_pid s k)) as (S1 & S2); auto; try congruence. { intros X. exfalso. apply NB. now left. }
      rewrite Q1, P in *. repeat split; auto.
      destruct (dict_lost _ _ _ _ _ _ _ A B H D) as [X|[(X & _)|[(q & l & X & X' & _ & _ & Xq)|(X & _)]]]; auto; try congruence.
      exfalso. assert (q = p) by congruence. subst q. pose proof (b_nodup _ B) as ND. unfold queue in ND, I. rewrite X in ND. rewrite X' in I. cbn in ND, I.
      inversion ND as [|? ? NI _]. apply NI. replace (k_ready s) with (k_ready s'); [rewrite H0; exact I|].
      clear -H X X'. steps H; cbn in *; try congruence; reflexivity.
    + destruct (b_note _ B p N) as (k & W & P & R0 & D). destruct (same_args s s' k H) as (Q1 & Q2); [congruence|].
      assert (W' : k_w s' k = QOk). { wsplit k Y; [congruence|]. rewrite W in Y. contradiction. }
      exists k. rewrite Q1, Q2, R'. assert (n = k_pid s k) by congruence. subst n. repeat split; auto; [discriminate|].
      destruct (dict_lost _ _ _ _ _ _ _ A B H D) as [X|[(X & _)|[(q & l & X & X' & _ & _ & Xq)|(X & _)]]]; auto; try congruence.
      exfalso. assert (q = p) by congruence. subst q. destruct (b_queue _ B p) as (j & J1 & J2 & J3 & J4 & _); [unfold queue; rewrite X; cbn; auto|].
      rewrite R in J3, J4. cbn in J3. congruence.
    + exists k. rewrite E1, E2, E3, E4. repeat split; auto; [|apply (b_add _ B); auto].
      symmetry. eapply its_process; eauto. apply (b_nr _ B); rewrite W; exact Logic.I.
  - exact (kb_nodup s s' A B H).
Qed.
Lemma KB_init s : k_init s -> KB s.
Proof.
  intros (P & D & N & R & O & T & W & C & L). split; intros *; rewrite ?D, ?W, ?T, ?L, ?N; cbn; try discriminate; try contradiction; auto.
  all: try (intros [?|?]; discriminate).
  - intros _ [[]|[]].
  - unfold queue. rewrite T, R. intros [].
  - unfold queue. rewrite T, R. constructor.
Qed.
Lemma reach_KAB s : kreach s -> KA s /\ KB s.
Proof.
  intros R. split; [eapply reach_KA; eauto|]. induction R as [s I|s s' R IH H]; [now apply KB_init|]. eapply KB_step; eauto. eapply reach_KA; eauto.
Qed.
End Inv.
