(** The kqueue watcher: events that came before close(), rest and termination. *)
From Verif Require Import Base EPollModel EPollProofs KQueueModel KQueueSpec KQueueProofs KQueueProofs2 KQueueProofs3 KQueueProofs4.
From Coq Require Import List ZArith Lia Bool Permutation.
Import ListNotations.
Local Open Scope nat_scope.

Lemma kbefore_in e l : kbefore_closing e l -> In e l /\ In QLClosing l.
Proof. intros (a & b & -> & Q). split; apply in_or_app; right; cbn; auto. Qed.
Lemma kbefore_cons_inv e x l : x <> QLClosing -> kbefore_closing e (x :: l) -> kbefore_closing e l.
Proof. intros N (a & b & E & Q). destruct a as [|y a]; cbn in E; [congruence|]. injection E as -> ->. exists a, b. auto. Qed.
Lemma kbefore_now e l : kbefore_closing e (QLClosing :: l) -> In e l.
Proof. intros (a & b & E & Q). destruct a as [|y a]; cbn in E; [injection E as ->; auto|]. injection E as -> ->. apply in_or_app. right. right. auto. Qed.

(** The exit event of [p] comes before the wake-up event. *)
Definition first_exit (p : nat) (l : list qev) : Prop := exists a b, l = a ++ QProc p :: b /\ ~ In QTimer a.
Lemma first_app p l m : first_exit p l -> first_exit p (l ++ m).
Proof. intros (a & b & -> & N). exists a, (b ++ m). rewrite <- app_assoc. auto. Qed.
Lemma first_tail p e l : first_exit p (e :: l) -> e = QProc p \/ (e <> QTimer /\ first_exit p l).
Proof.
  intros (a & b & E & N). destruct a as [|x a]; cbn in E; injection E as -> ->; auto.
  right. split; [intros ->; apply N; left; reflexivity|]. exists a, b. split; auto. intros I. apply N. right. exact I.
Qed.
Lemma first_in p l : In (QProc p) l -> ~ In QTimer l -> first_exit p l.
Proof. intros I N. apply in_split in I as (a & b & ->). exists a, b. split; auto. intros X. apply N, in_or_app. auto. Qed.

Section Inv.
Context (ordered quick bad_cb : bool).
Notation kstep := (kstep ordered quick bad_cb).
Notation kreach := (kreach ordered quick bad_cb).
Notation quiet := (quiet ordered quick bad_cb).
Ltac steps H := inversion H; subst; clear H.

Lemma busy_lost2 s s' k : KA s -> KB s -> KB s' -> KD s -> kstep s s' -> busy (k_pc s) k -> busy (k_pc s') k \/ kn_calls k (k_log s') = 1.
Proof.
  intros A B B' D H X. destruct (busy_lost _ _ _ _ _ _ A B B' D H X) as [Y|[Y|Y]]; auto.
  unfold busy in *. steps H; cbn in *; auto.
  all: try (match goal with P : k_pc _ = _ |- _ => rewrite P in *; cbn in X, Y; try tauto end; fail).
  - destruct r; destruct Y.
  - destruct r; destruct Y.
  - match goal with P : k_pc _ = _ |- _ => rewrite P in X; cbn in X end. destruct X as [[]| ->]. right. apply (called_one _ k st B'). cbn. auto.
Qed.

Definition kearly (s : kst) (k : nat) : Prop :=
  kbefore_closing (QLWatched k) (k_log s) /\ exists st, kbefore_closing (QLExit (k_wproc s k) st) (k_log s).
Definition KE (s : kst) : Prop := forall k, k_w s k = QOk -> kearly s k ->
  kn_calls k (k_log s) = 1 \/ busy (k_pc s) k \/ (~ stopped (k_pc s) /\ first_exit (k_wproc s k) (pend (k_pc s) ++ k_ready s)).

Lemma klog_cases s s' : kstep s s' -> (forall e, kbefore_closing e (k_log s') -> kbefore_closing e (k_log s))
  \/ (k_log s' = QLClosing :: k_log s /\ k_close s = DIdle /\ s' = q_log QLClosing (q_close DAdd s)).
Proof.
  intros H. steps H; cbn; auto.
  all: left; intros ev X; repeat (apply kbefore_cons_inv in X; [|discriminate]); exact X.
Qed.
Lemma place_keep s s' p : KA s -> KB s -> ordered = true -> bad_cb = false -> kstep s s' -> ~ stopped (k_pc s) -> first_exit p (pend (k_pc s) ++ k_ready s) ->
  (~ stopped (k_pc s') /\ first_exit p (pend (k_pc s') ++ k_ready s')) \/ (exists k, k_wproc s k = p /\ k_w s k = QOk /\ busy (k_pc s') k).
Proof.
  intros A B O BC H NS X. assert (TK := takes s). steps H; cbn; auto.
  all: try (match goal with P : k_pc _ = _ |- _ => rewrite P in *; cbn in * end); auto.
  all: try discriminate.
  - left. split; auto. destruct (k_note s p0); auto. rewrite app_assoc. now apply first_app.
  - left. split; auto. rewrite app_assoc. now apply first_app.
  - left. split; auto. rewrite app_assoc. now apply first_app.
  - left. split; auto. match goal with Q : true = true -> _ |- _ => rewrite <- (Q eq_refl) end. exact X.
  - left. apply first_tail in X. destruct e; cbn; [split; auto|destruct X as [X|(X & _)]; congruence].
    destruct X as [X|(X & Y)]; [injection X as ->; exists [], (l ++ k_ready s); cbn; auto|].
    destruct Y as (a & b & Y & N). exists (QProc p0 :: a), b. cbn. rewrite Y. split; auto. intros [?|?]; [discriminate|auto].
  - apply first_tail in X. destruct X as [X|(X & Y)]; [|auto]. injection X as ->. right. exists k.
    destruct (TK _ _ _ _ A B eq_refl H1 H2) as (T1 & T2 & _). repeat split; auto. left. reflexivity.
  - exfalso. destruct (b_queue _ B p0) as (j & W & P & Hh & R & Dj); [unfold queue; rewrite H0; cbn; auto|].
    apply holds_pid_of in Hh. assert (n = k_pid s j) by congruence. subst n. congruence.
  - left. destruct r; split; auto.
  - left. destruct r; split; auto.
  - contradiction.
Qed.
Lemma KE_step s s' : ordered = true -> quick = true -> bad_cb = false ->
  KA s -> KB s -> KB s' -> KC bad_cb s -> KD s -> KE s -> kstep s s' -> KE s'.
Proof.
  intros O Qk BC A B B' C D E H k W' (E1 & st & E2).
  assert (AR : k_w s k <> QIdle -> k_wproc s' k = k_wproc s k) by (intros N; apply (same_args ordered quick bad_cb s s' k H N)).
  assert (W0 : k_w s k = QOk /\ kearly s k \/ (k_log s' = QLClosing :: k_log s /\ k_close s = DIdle /\ s' = q_log QLClosing (q_close DAdd s))).
  { destruct (klog_cases _ _ H) as [L|L]; [left|right; auto].
    pose proof (kd_watched _ D k (proj1 (kbefore_in _ _ (L _ E1)))) as X.
    assert (Y : k_w s k = QOk).
    { destruct (watch_step _ _ _ s s' k H) as [(Y & _)|(Y & _)]; [congruence|]. unfold KQueueProofs2.wstep in Y. rewrite W' in Y. destruct (k_w s k); try contradiction; auto. destruct n; contradiction. }
    split; [auto|]. rewrite AR in E2 by congruence. split; eauto. }
  destruct W0 as [(W & Ea)|(L & CI & ->)].
  - rewrite AR by congruence. destruct (E k W Ea) as [X|[X|X]].
    + left. pose proof (calls_mono _ _ _ _ _ k H). pose proof (b_once _ B' k). lia.
    + destruct (busy_lost2 _ _ _ A B B' D H X) as [Y|Y]; auto.
    + destruct (place_keep _ _ _ A B O BC H (proj1 X) (proj2 X)) as [Y|(j & J1 & J2 & J3)]; auto.
      assert (j = k) by (apply (ka_dist _ A); congruence). subst j. auto.
  - rewrite L in *. cbn in *. apply kbefore_now in E2.
    assert (NS : ~ stopped (k_pc s)) by (intros X; destruct (kc_stop _ _ C BC X); congruence).
    destruct (kd_ok _ D k W') as [X|[X|[X|[X|X]]]]; auto.
    + right. right. split; [exact NS|]. apply first_in.
      * unfold queue in X. rewrite <- procs_app in X. now apply procs_in.
      * intros T. destruct (kc_timer _ _ C T); congruence.
    + exfalso. destruct (b_note _ B _ X) as (j & _ & _ & R & _). apply (ka_exit _ A) in E2. destruct E2 as (n & [Z|Z]); congruence.
    + contradiction.
Qed.
Lemma reach_KE s : ordered = true -> quick = true -> bad_cb = false -> kreach s -> KE s.
Proof.
  intros O Qk BC. induction 1 as [s (P & D & N & R & Op & T & W & C & L)|s s' R IH H].
  - intros k X. rewrite W in X. discriminate.
  - destruct (reach_KAB _ _ _ _ R) as (A1 & B1), (reach_KAB ordered quick bad_cb s' (kr_step _ _ _ _ _ R H)) as (A2 & B2).
    pose proof (reach_KC _ _ _ _ R). pose proof (reach_KD _ _ _ _ Qk R). exact (KE_step s s' O Qk BC A1 B1 B2 H0 H1 IH H).
Qed.

(** *** The thread cannot run forever *)
Definition kmu (s : kst) : nat :=
  10 * List.length (k_ready s) + 8 * List.length (pend (k_pc s)) +
  match k_pc s with TkPoll => 0 | TkLoop _ => 1 | TkPop _ _ => 0 | TkWait _ _ => 6 | TkSleep _ _ => 5 | TkWait2 _ _ => 4 | TkCall _ _ _ => 3 | TkFin => 1 | TkDone => 0 end.
Lemma kmu_step s s' : kstep s s' -> k_pc s' <> k_pc s -> kmu s' < kmu s.
Proof.
  intros H N. unfold kmu. steps H; cbn in *; try congruence.
  all: match goal with P : k_pc _ = _ |- _ => rewrite P in *; cbn in * end; try lia.
  - match goal with P : Permutation _ _ |- _ => apply Permutation_length in P; rewrite app_length in P end. destruct l; [congruence|]. cbn in *. lia.
  - destruct e; cbn; lia.
  - destruct r; cbn; lia.
  - destruct r; cbn; lia.
Qed.
Lemma kacc s : Acc (fun y x => kstep x y /\ k_pc y <> k_pc x) s.
Proof.
  assert (G : forall n s, kmu s < n -> Acc (fun y x => kstep x y /\ k_pc y <> k_pc x) s); [|apply (G (S (kmu s))); lia].
  induction n as [|n IH]; intros s0 L; [lia|]. constructor. intros y (H & N). apply IH. pose proof (kmu_step _ _ H N). lia.
Qed.

(** *** Rest *)
Lemma quiet_dying s : quiet s -> forall p n st, k_proc s p <> QDying n st.
Proof.
  intros Z p n st E. destruct (Z _ (q_exit _ _ _ s p n st E)) as (_ & _ & X). specialize (X p n st E). cbn in X. rewrite fset_same in X. discriminate.
Qed.
Lemma qwait_total s p n : quiet s -> qholds (k_proc s p) n -> exists r pr, qwait (k_proc s) n r pr.
Proof.
  intros Z X. pose proof (quiet_dying s Z p). destruct (k_proc s p) eqn:E; cbn in X; try contradiction; subst; do 2 eexists.
  - eapply qw_running; eauto.
  - eapply qw_dying; eauto.
  - eapply qw_zombie; eauto.
Qed.
Lemma quiet_rested s p : quiet s -> rested quick (k_proc s p).
Proof. intros Z _ n st. apply quiet_dying; auto. Qed.
(** At rest the thread has ended or waits for events, and there are none. *)
Lemma quiet_thread s : kreach s -> quiet s -> k_pc s = TkDone \/ (k_pc s = TkPoll /\ k_ready s = []).
Proof.
  intros R Z. destruct (reach_KAB _ _ _ _ R) as (A & B). assert (Y := fun s' H => proj1 (Z s' H)). destruct (k_pc s) eqn:P; auto.
  - destruct (k_ready s) as [|e r] eqn:E; auto. exfalso.
    assert (X := Y _ (q_kevent _ _ _ s [e] r P ltac:(discriminate) ltac:(cbn; lia) ltac:(rewrite E; reflexivity) ltac:(intros _; exact E))). discriminate X.
  - exfalso. destruct pending as [|e l].
    + discriminate (Y _ (q_loop_end _ _ _ s P)).
    + pose proof (Y _ (q_loop _ _ _ s e l P)) as X. cbn in X. destruct e; discriminate X.
  - exfalso. destruct (b_queue _ B p) as (j & W & E & Hh & _ & Dj); [unfold queue; rewrite P; cbn; auto|].
    discriminate (Y _ (q_pop _ _ _ s p rest (k_pid s j) j P (holds_pid_of _ _ Hh) Dj)).
  - exfalso. destruct (b_hand _ B k) as (Hh & _); [rewrite P; reflexivity|]. destruct (qwait_total _ _ _ Z Hh) as (r & pr & Q).
    pose proof (Y _ (q_wait _ _ _ s k rest r pr P Q)) as X. cbn in X. destruct r; discriminate X.
  - exfalso. discriminate (Y _ (q_sleep _ _ _ s k rest P (quiet_rested _ _ Z))).
  - exfalso. destruct (b_hand _ B k) as (Hh & _); [rewrite P; reflexivity|]. destruct (qwait_total _ _ _ Z Hh) as (r & pr & Q).
    pose proof (Y _ (q_wait2 _ _ _ s k rest r pr P Q)) as X. cbn in X. destruct r; discriminate X.
  - exfalso. discriminate (Y _ (q_call _ _ _ s k s0 rest P)).
  - exfalso. discriminate (Y _ (q_fin _ _ _ s P)).
Qed.
(** At rest a watch that returned was handed to the thread, or its call was made. *)
Lemma quiet_watch s k : quick = true -> kreach s -> quiet s -> In (QLWatched k) (k_log s) -> kn_calls k (k_log s) = 1 \/ k_w s k = QOk.
Proof.
  intros Qk R Z L. destruct (reach_KAB _ _ _ _ R) as (A & B). pose proof (reach_KD _ _ _ _ Qk R) as D. pose proof (kd_watched _ D k L) as X. destruct (k_w s k) eqn:W; try contradiction; auto.
  - exfalso. pose proof (kd_poll _ D _ _ W). subst n. assert (NR : qholds (k_proc s (k_wproc s k)) (k_pid s k)) by (apply (b_nr _ B); rewrite W; exact Logic.I).
    destruct (qwait_total _ _ _ Z NR) as (r & pr & Q).
    destruct (Z _ (q_poll _ _ _ s k 4 r pr W (quiet_rested _ _ Z) Q)) as (_ & Y & _).
    specialize (Y k (or_introl (ex_intro _ _ W))). cbn in Y. rewrite fset_same, W in Y. destruct r; discriminate.
  - exfalso. destruct (Z _ (q_late _ _ _ s k s0 W)) as (_ & Y & _). specialize (Y k (or_intror (ex_intro _ _ W))). cbn in Y. rewrite fset_same, W in Y. discriminate.
  - left. apply (kd_end _ D); auto.
Qed.
Lemma called_exact_k s k st : kreach s -> In (QLExit (k_wproc s k) st) (k_log s) -> kn_calls k (k_log s) = 1 -> In (QLCall k st) (k_log s).
Proof.
  intros R X Q. destruct (reach_KAB _ _ _ _ R) as (A & B). assert (E : exists st', In (QLCall k st') (k_log s)).
  { unfold kn_calls in Q. destruct (filter _ _) as [|e l] eqn:F; [discriminate|]. assert (I : In e (filter (is_call k) (k_log s))) by (rewrite F; left; auto).
    apply filter_In in I as (I1 & I2). destruct e; cbn in I2; try discriminate. apply Nat.eqb_eq in I2. subst. eauto. }
  destruct E as (st' & E). destruct (b_log _ B _ _ E) as (_ & P). apply (ka_exit _ A) in X. destruct X as (n & [X|X]); congruence.
Qed.
End Inv.
