(** Properties C58, C60 for the thread-per-child watcher; C60 for the epoll
    watcher. *)
From Verif Require Import Base EPollModel EPollProofs EPollProofs2 EPollProofs3 ThreadWatchModel.
From Coq Require Import List ZArith Lia Bool.
Import ListNotations.
Local Open Scope nat_scope.

(** How often the callback of watch [k] was called. *)
Definition is_vcall (k : nat) (e : tev) : bool := match e with VCall j _ => j =? k | _ => false end.
Definition n_vcalls (k : nat) (l : list tev) : nat := List.length (filter (is_vcall k) l).
Definition vcalled (k : nat) (l : list tev) : Prop := exists st, In (VCall k st) l.

Lemma n_vcalls_0 k l : ~ vcalled k l -> n_vcalls k l = 0.
Proof.
  unfold n_vcalls, vcalled. intros N. induction l as [|e l IH]; auto. cbn.
  destruct e; cbn; try (apply IH; intros (st & Q); apply N; exists st; right; exact Q).
  destruct (Nat.eqb_spec k0 k) as [->|].
  - exfalso. apply N. exists s. left. auto.
  - apply IH. intros (st & Q). apply N. exists st. right. exact Q.
Qed.
Lemma vcalled_n k l : vcalled k l -> n_vcalls k l >= 1.
Proof.
  intros (st & Q). unfold n_vcalls. induction l as [|e l IH]; [destruct Q|]. cbn. destruct Q as [->|Q].
  - cbn. rewrite Nat.eqb_refl. cbn. lia.
  - specialize (IH Q). destruct (is_vcall k e); cbn; lia.
Qed.
Lemma zset_same {A} (f : Z -> A) i v : zset f i v i = v.
Proof. unfold zset. now rewrite Z.eqb_refl. Qed.
Lemma zset_other {A} (f : Z -> A) i v j : j <> i -> zset f i v j = f j.
Proof. unfold zset. intros H. destruct (Z.eqb_spec j i); congruence. Qed.

Section T.
Context (bad_cb : bool).
Notation twstep := (twstep bad_cb).
Notation twreach := (twreach bad_cb).
Ltac step H := inversion H; subst; clear H; cbn.

Definition rdone (r : rpc) : Prop := match r with RPop | REnd | RDied => True | _ => False end.
Definition rbusy (r : rpc) : Prop := match r with RWait | RCall _ | RPop => True | _ => False end.
Definition is_set (w : kpc) : Prop := match w with KStart | KOk | KFailed => True | _ => False end.

(** Processes. *)
Record TA (s : tst) : Prop := {
  ta_pid : forall p q n, holds_pid (t_proc s p) n -> holds_pid (t_proc s q) n -> p = q;
  ta_proc : forall k, t_w s k <> KNone -> pid_of (t_proc s (t_wproc s k)) = Some (t_pid s k);
  ta_dist : forall j k, t_w s j <> KNone -> t_w s k <> KNone -> t_wproc s j = t_wproc s k -> j = k;
  ta_exit : forall p st, In (VExit p st) (t_log s) <-> exists n, t_proc s p = PZombie n st \/ t_proc s p = PReaped n st }.

Lemma pid_keep s s' p : twstep s s' -> t_proc s p <> PNone -> pid_of (t_proc s' p) = pid_of (t_proc s p).
Proof.
  intros H N. step H; auto; unfold fset.
  - destruct (Nat.eqb_spec p p0); [subst; congruence|auto].
  - destruct (Nat.eqb_spec p p0); [subst; rewrite H0; auto|auto].
  - match goal with W : waitpid _ _ _ _ |- _ => apply waitpid_inv in W; destruct W as [(-> & _)|(q & z & Q & _ & ->)]; auto end.
    unfold fset. destruct (Nat.eqb_spec p q); [subst; rewrite Q; auto|auto].
Qed.
Lemma twproc_keep s s' k : twstep s s' -> t_w s k <> KNone -> t_wproc s' k = t_wproc s k /\ t_pid s' k = t_pid s k /\ t_w s' k <> KNone.
Proof. intros H N. step H; auto; unfold fset; destruct (Nat.eqb_spec k k0); subst; auto; try congruence; repeat split; auto; discriminate. Qed.

Lemma TA_step s s' : TA s -> twstep s s' -> TA s'.
Proof.
  intros [A B C D] H. split.
  - intros p q n. clear B C D. step H; auto; try apply A.
    + unfold fset. destruct (Nat.eqb_spec p p0), (Nat.eqb_spec q p0); subst; auto; cbn; intros X Y; subst; eauto; exfalso; eapply H1; eauto.
    + unfold fset. destruct (Nat.eqb_spec p p0), (Nat.eqb_spec q p0); subst; auto; cbn; intros X Y; subst; eapply A; eauto; rewrite H0; reflexivity.
    + match goal with W : waitpid _ _ _ _ |- _ => apply waitpid_inv in W; destruct W as [(-> & _)|(x & z & Q & _ & ->)]; auto; [apply A|] end.
      unfold fset. destruct (Nat.eqb_spec p x), (Nat.eqb_spec q x); subst; auto; cbn; try tauto. apply A.
  - intros k W'. assert (X : t_w s k <> KNone \/ t_w s k = KNone) by (destruct (t_w s k); auto; left; discriminate).
    destruct X as [W|W].
    + destruct (twproc_keep _ _ _ H W) as (E1 & E2 & _). rewrite E1, E2, (pid_keep _ _ _ H); [auto|]. intros Q. specialize (B k W). rewrite Q in B. discriminate.
    + clear A C D. revert W'. step H; try congruence; unfold fset; destruct (Nat.eqb_spec k k0); subst; try congruence. intros _.
      rewrite ?Nat.eqb_refl. destruct (t_proc s p); cbn in *; try contradiction; congruence.
  - intros j k Wj Wk E. revert Wj Wk E. clear A B D. step H; try apply C; unfold fset.
    all: try (intros Wj Wk E; apply C; auto; destruct (Nat.eqb_spec j k0), (Nat.eqb_spec k k0); subst; auto; congruence).
    destruct (Nat.eqb_spec j k0), (Nat.eqb_spec k k0); subst; auto; intros Wj Wk E; exfalso; eapply H2; eauto.
  - intros p st. clear A B C. step H; try apply D; try (rewrite D; tauto); cbn.
    + rewrite D. unfold fset. destruct (Nat.eqb_spec p p0); [subst|tauto]. rewrite H0. split; intros (m & [Q|Q]); discriminate.
    + rewrite D. unfold fset. destruct (Nat.eqb_spec p p0); [subst|split; [intros [Q|Q]; [congruence|auto]|auto]].
      rewrite H0. split; [intros [[= <-]|(m & [Q|Q])]; try discriminate; eauto|]. intros (m & [[= <- <-]|Q]); [auto|discriminate].
    + split; [intros [Q|Q]; [discriminate|apply D; auto]|intros Q; right; apply D; auto].
    + split; [intros [Q|Q]; [discriminate|apply D; auto]|intros Q; right; apply D; auto].
    + rewrite D. match goal with W : waitpid _ _ _ _ |- _ => apply waitpid_inv in W; destruct W as [(-> & _)|(x & z & Q & _ & ->)]; [tauto|] end.
      unfold fset. destruct (Nat.eqb_spec p x); [subst|tauto]. rewrite Q. split; intros (m & [Z|Z]); try discriminate; injection Z as <- <-; eauto.
    + split; [intros [Q|Q]; [discriminate|apply D; auto]|intros Q; right; apply D; auto].
    + split; [intros [Q|Q]; [discriminate|apply D; auto]|intros Q; right; apply D; auto].
    + split; [intros [Q|Q]; [discriminate|apply D; auto]|intros Q; right; apply D; auto].
Qed.

(** Reapers. *)
Definition t_in (s : tst) (k : nat) (st : Z) : Prop := t_r s k = RCall st \/ In (VCall k st) (t_log s).
Record TB (s : tst) : Prop := {
  tb_ok : forall k, t_r s k <> RNone <-> t_w s k = KOk;
  tb_watched : forall k, In (VWatched k) (t_log s) <-> t_w s k = KOk;
  tb_reaped : forall p n st, t_proc s p = PReaped n st -> exists k, t_w s k = KOk /\ t_wproc s k = p /\ t_in s k st;
  tb_true : forall k st, t_in s k st -> exists n, t_proc s (t_wproc s k) = PReaped n st;
  tb_called : forall k, vcalled k (t_log s) <-> rdone (t_r s k);
  tb_ended : forall k, In (VEnded k) (t_log s) <-> t_r s k = REnd;
  tb_once : forall k, n_vcalls k (t_log s) <= 1 }.

Lemma t_holds s k : TA s -> TB s -> t_w s k <> KNone -> (forall st, ~ t_in s k st) -> holds_pid (t_proc s (t_wproc s k)) (t_pid s k).
Proof.
  intros A B W N. pose proof (ta_proc _ A k W) as P. destruct (t_proc s (t_wproc s k)) as [|n|n st|n st] eqn:E; cbn in P; try discriminate; cbn; try congruence.
  exfalso. destruct (tb_reaped _ B _ _ _ E) as (j & Wj & Ej & Q). assert (j = k) by (eapply (ta_dist _ A); eauto; congruence). subst. eapply N; eauto.
Qed.
Lemma t_unreaped s k : TA s -> TB s -> t_w s k <> KNone -> t_w s k <> KOk \/ t_r s k = RWait -> holds_pid (t_proc s (t_wproc s k)) (t_pid s k).
Proof.
  intros A B W N. apply t_holds; auto. intros st Q.
  assert (X : t_r s k <> RNone /\ t_r s k <> RWait).
  { destruct Q as [Q|Q]; [rewrite Q; split; discriminate|]. assert (Z : rdone (t_r s k)) by (apply (tb_called _ B); exists st; auto). destruct (t_r s k); cbn in Z; try contradiction; split; discriminate. }
  destruct X as (X1 & X2). destruct N as [N|N]; [|congruence]. apply N. apply (tb_ok _ B). auto.
Qed.
Lemma t_wait s k st pr : TA s -> TB s -> t_r s k = RWait -> waitpid (t_proc s) (t_pid s k) (Some st) pr ->
  exists n, t_proc s (t_wproc s k) = PZombie n st /\ pr = fset (t_proc s) (t_wproc s k) (PReaped n st) /\ n = t_pid s k.
Proof.
  intros A B R W. assert (K : t_w s k = KOk) by (apply (tb_ok _ B); congruence).
  pose proof (t_unreaped s k A B ltac:(congruence) (or_intror R)) as P.
  apply waitpid_inv in W. destruct W as [(_ & [(X & _)|(_ & X)])|(q & z & Q & X & ->)]; [discriminate|exfalso; eapply X; eauto|].
  injection X as <-. assert (q = t_wproc s k) by (eapply (ta_pid _ A); eauto; rewrite Q; reflexivity). subst. eauto.
Qed.

Lemma TB_init s : tw_init s -> TB s.
Proof.
  intros (P & D & W & R & L). constructor; unfold t_in, vcalled; rewrite ?L; cbn; intros.
  - rewrite R, W. split; congruence.
  - rewrite W. split; [tauto|discriminate].
  - rewrite P in H. discriminate.
  - rewrite R in H. destruct H as [H|[]]. discriminate.
  - rewrite R. cbn. split; [intros (st & [])|tauto].
  - rewrite R. split; [tauto|discriminate].
  - unfold n_vcalls. cbn. lia.
Qed.
Lemma TA_init s : tw_init s -> TA s.
Proof.
  intros (P & D & W & R & L). constructor; rewrite ?L; cbn; intros.
  - rewrite P in H. destruct H.
  - congruence.
  - congruence.
  - split; [tauto|]. intros (n & [Q|Q]); rewrite P in Q; discriminate.
Qed.

(** What a step does to the reaper of watch [k]. *)
Lemma r_cases s s' k : twstep s s' ->
  (t_r s' k = t_r s k /\ (forall st, In (VCall k st) (t_log s') <-> In (VCall k st) (t_log s)) /\ (In (VEnded k) (t_log s') <-> In (VEnded k) (t_log s)) /\ n_vcalls k (t_log s') = n_vcalls k (t_log s))
  \/ (t_w s k = KStart /\ t_w s' k = KOk /\ t_r s' k = RWait /\ t_log s' = VWatched k :: t_log s)
  \/ (exists st, t_r s k = RWait /\ t_r s' k = RCall st /\ waitpid (t_proc s) (t_pid s k) (Some st) (t_proc s') /\ t_log s' = t_log s /\ t_w s' = t_w s)
  \/ (exists st, t_r s k = RCall st /\ (t_r s' k = RPop \/ t_r s' k = RDied) /\ t_log s' = VCall k st :: t_log s /\ t_proc s' = t_proc s /\ t_w s' = t_w s)
  \/ (t_r s k = RPop /\ t_r s' k = REnd /\ t_log s' = VEnded k :: t_log s /\ t_w s' = t_w s)
  \/ (t_r s k = RPop /\ t_r s' k = RDied /\ t_log s' = t_log s /\ t_w s' = t_w s /\ t_dict s (t_pid s k) = None).
Proof.
  assert (X : forall x (l : list tev), (forall st, x <> VCall k st) -> x <> VEnded k ->
     (forall st, In (VCall k st) (x :: l) <-> In (VCall k st) l) /\ (In (VEnded k) (x :: l) <-> In (VEnded k) l) /\ n_vcalls k (x :: l) = n_vcalls k l).
  { intros x l N1 N2. split; [|split]; cbn; [intros st; split; [intros [Q|Q]; [exfalso; eapply N1; eauto|auto]|auto]|split; [intros [Q|Q]; [congruence|auto]|auto]|].
    unfold n_vcalls. cbn. destruct x; auto. cbn. destruct (Nat.eqb_spec k0 k); auto. subst. exfalso. eapply N1; eauto. }
  intros H. inversion H; subst; cbn -[In n_vcalls]; try (left; repeat split; tauto);
  try (left; split; [reflexivity|apply X; congruence]);
  unfold fset; match goal with |- context [k =? ?j] => destruct (Nat.eqb_spec k j); [subst|try (left; split; [reflexivity|apply X; congruence]); try (left; repeat split; tauto)] end.
  - right; left. auto.
  - right; right; left. eauto 8.
  - right; right; right; left. eauto 8.
  - right; right; right; left. eauto 8.
  - right; right; right; right; left. auto.
  - right; right; right; right; right. auto.
Qed.
Lemma reaped_stays s s' p n st : twstep s s' -> t_proc s p = PReaped n st -> t_proc s' p = PReaped n st.
Proof.
  intros H E. step H; auto; unfold fset; try (destruct (Nat.eqb_spec p p0); [subst; congruence|auto]).
  match goal with W : waitpid _ _ _ _ |- _ => apply waitpid_inv in W; destruct W as [(-> & _)|(x & z & Q & _ & ->)]; [auto|] end.
  unfold fset. destruct (Nat.eqb_spec p x); [subst; congruence|auto].
Qed.
Lemma kok_keep s s' k : twstep s s' -> t_w s k = KOk -> t_w s' k = KOk.
Proof. intros H E. step H; auto; unfold fset; destruct (Nat.eqb_spec k k0); subst; auto; try congruence. Qed.
Lemma kok_back s s' k : twstep s s' -> t_w s' k = KOk -> t_w s k = KOk \/ (t_w s k = KStart /\ t_r s' k = RWait /\ In (VWatched k) (t_log s')).
Proof.
  intros H. step H; auto; unfold fset; destruct (Nat.eqb_spec k k0); subst; auto; try discriminate.
Qed.
Lemma watched_back s s' k : twstep s s' -> In (VWatched k) (t_log s') -> In (VWatched k) (t_log s) \/ t_w s' k = KOk.
Proof. intros H. step H; auto; intros [Q|Q]; auto; try discriminate. injection Q as ->. right. apply fset_same. Qed.
Lemma tlog_mono s s' x : twstep s s' -> In x (t_log s) -> In x (t_log s').
Proof. intros H. step H; auto. Qed.
Lemma t_in_keep s s' k st : TB s -> twstep s s' -> t_in s k st -> t_in s' k st.
Proof.
  intros B H [Q|Q]; [|right; eapply tlog_mono; eauto].
  destruct (r_cases _ _ k H) as [(E & _)|[(W & W' & R' & L)|[(z & R & R' & _)|[(z & R & R' & L & _)|[(R & R' & L & _)|(R & R' & _)]]]]]; unfold t_in; try congruence.
  - left. congruence.
  - exfalso. assert (t_w s k = KOk) by (apply (tb_ok _ B); congruence). congruence.
  - right. rewrite L. left. congruence.
Qed.
Lemma TB_step s s' : TA s -> TB s -> twstep s s' -> TB s'.
Proof.
  intros A B H.
  assert (OLDR : forall k, t_r s k <> RNone -> t_r s' k <> RNone).
  { intros k N. destruct (r_cases _ _ k H) as [(E & _)|[(W & W' & R' & L)|[(z & R & R' & _)|[(z & R & R' & L & _)|[(R & R' & L & _)|(R & R' & _)]]]]]; try congruence. destruct R'; congruence. }
  constructor.
  - intros k. split.
    + intros N. destruct (r_cases _ _ k H) as [(E & _)|[(W & W' & R' & L)|[(z & R & R' & _)|[(z & R & R' & L & _)|[(R & R' & L & _)|(R & R' & _)]]]]]; auto;
      (eapply kok_keep; [eauto|]; apply (tb_ok _ B); congruence).
    + intros K. destruct (kok_back _ _ _ H K) as [K0|(_ & R & _)]; [|congruence]. apply OLDR. apply (tb_ok _ B); auto.
  - intros k. split.
    + intros Q. destruct (watched_back _ _ _ H Q) as [Q0|]; auto. eapply kok_keep; eauto. apply (tb_watched _ B); auto.
    + intros K. destruct (kok_back _ _ _ H K) as [K0|(_ & _ & Q)]; auto. eapply tlog_mono; eauto. apply (tb_watched _ B); auto.
  - intros p n st E.
    assert (D : t_proc s p = PReaped n st \/ t_proc s p <> PReaped n st) by (destruct (t_proc s p) as [|m|m z|m z]; try (right; discriminate);
      destruct (Z.eq_dec m n), (Z.eq_dec z st); subst; auto; right; congruence).
    destruct D as [D|D].
    + destruct (tb_reaped _ B _ _ _ D) as (k & K & Ek & Q). exists k. split; [eapply kok_keep; eauto|].
      destruct (twproc_keep s s' k H) as (E1 & _); [congruence|]. rewrite E1. split; auto. eapply t_in_keep; eauto.
    + clear OLDR. inversion H; subst; cbn in *; try congruence; try (unfold fset in E; destruct (p =? p0); congruence).
      destruct (t_wait _ _ _ _ A B H0 H1) as (m & Z & -> & ->). unfold fset in E. destruct (Nat.eqb_spec p (t_wproc s k)); [|congruence]. injection E as E1 E2. subst.
      exists k. split; [apply (tb_ok _ B); congruence|]. split; auto. left. cbn. apply fset_same.
  - intros k st Q.
    assert (W : t_w s k <> KNone -> t_wproc s' k = t_wproc s k) by (intros W; apply (twproc_keep _ _ _ H W)).
    assert (OLD : t_in s k st -> exists n, t_proc s' (t_wproc s' k) = PReaped n st).
    { intros Q0. destruct (tb_true _ B _ _ Q0) as (n & E). assert (K : t_w s k = KOk).
      { apply (tb_ok _ B). destruct Q0 as [Q0|Q0]; [congruence|]. assert (Z : rdone (t_r s k)) by (apply (tb_called _ B); exists st; auto). intros Y. rewrite Y in Z. exact Z. }
      rewrite W by congruence. exists n. eapply reaped_stays; eauto. }
    destruct (r_cases _ _ k H) as [(E & E2 & _)|[(W0 & W' & R' & L)|[(z & R & R' & Wp & L & EW)|[(z & R & R' & L & _)|[(R & R' & L & _)|(R & R' & L & _)]]]]].
    + apply OLD. destruct Q as [Q|Q]; [left; congruence|right; apply E2; auto].
    + apply OLD. destruct Q as [Q|Q]; [congruence|]. right. rewrite L in Q. destruct Q; [discriminate|auto].
    + destruct Q as [Q|Q]; [|apply OLD; right; congruence]. assert (z = st) by congruence. subst.
      destruct (t_wait _ _ _ _ A B R Wp) as (m & Z & -> & _). rewrite W; [|assert (t_w s k = KOk) by (apply (tb_ok _ B); congruence); congruence]. exists m. apply fset_same.
    + apply OLD. destruct Q as [Q|Q]; [destruct R'; congruence|]. rewrite L in Q. destruct Q as [[= ->]|Q]; [left; auto|right; auto].
    + apply OLD. destruct Q as [Q|Q]; [congruence|]. rewrite L in Q. destruct Q as [Q|Q]; [discriminate|right; auto].
    + apply OLD. destruct Q as [Q|Q]; [congruence|]. right. congruence.
  - intros k. pose proof (tb_called _ B k) as T.
    destruct (r_cases _ _ k H) as [(E & E2 & _)|[(W0 & W' & R' & L)|[(z & R & R' & Wp & L & EW)|[(z & R & R' & L & _)|[(R & R' & L & _)|(R & R' & L & _)]]]]].
    + rewrite E, <- T. unfold vcalled. split; intros (st & Q); exists st; apply E2; auto.
    + rewrite R'. cbn. split; [|tauto]. intros (st & Q). rewrite L in Q. destruct Q as [Q|Q]; [discriminate|].
      assert (Z : rdone (t_r s k)) by (apply T; exists st; auto). assert (K : t_w s k = KOk) by (apply (tb_ok _ B); intros Y; rewrite Y in Z; exact Z). congruence.
    + rewrite R', L, T, R. cbn. tauto.
    + destruct R' as [R'|R']; rewrite R', L; cbn; (split; [auto|intros _; exists z; left; auto]).
    + rewrite R', L. cbn. split; [auto|intros _]. rewrite R in T. destruct T as [_ T]. destruct (T Logic.I) as (st & Q). exists st. right. auto.
    + rewrite R', L, T, R. cbn. tauto.
  - intros k. pose proof (tb_ended _ B k) as T.
    destruct (r_cases _ _ k H) as [(E & _ & E2 & _)|[(W0 & W' & R' & L)|[(z & R & R' & Wp & L & EW)|[(z & R & R' & L & _)|[(R & R' & L & _)|(R & R' & L & _)]]]]].
    + rewrite E, E2. auto.
    + rewrite R', L. cbn. split; [|discriminate]. intros [Q|Q]; [discriminate|]. apply T in Q. assert (K : t_w s k = KOk) by (apply (tb_ok _ B); congruence). congruence.
    + rewrite R', L, T, R. split; discriminate.
    + rewrite L. cbn. split; [intros [Q|Q]; [discriminate|apply T in Q; congruence]|]. destruct R'; congruence.
    + rewrite R', L. cbn. split; auto.
    + rewrite R', L, T, R. split; discriminate.
  - intros k. pose proof (tb_once _ B k) as T.
    destruct (r_cases _ _ k H) as [(E & _ & _ & E2)|[(W0 & W' & R' & L)|[(z & R & R' & Wp & L & EW)|[(z & R & R' & L & _)|[(R & R' & L & _)|(R & R' & L & _)]]]]]; rewrite ?E2, ?L; auto.
    unfold n_vcalls. cbn. rewrite Nat.eqb_refl. cbn. fold (n_vcalls k (t_log s)). rewrite n_vcalls_0; [lia|].
    intros Q. apply (tb_called _ B) in Q. rewrite R in Q. exact Q.
Qed.

(** The table of pids. *)
Record TD (s : tst) : Prop := {
  td_in : forall n k, t_dict s n = Some k -> t_pid s k = n /\ is_set (t_w s k) /\ t_r s k <> REnd;
  td_has : forall k, t_w s k = KStart \/ rbusy (t_r s k) -> t_dict s (t_pid s k) = Some k;
  td_free : forall k, t_w s k = KSet -> t_dict s (t_pid s k) = None }.
Lemma TD_step s s' : TA s -> TB s -> TD s -> twstep s s' -> TD s'.
Proof.
  intros A B D H.
  assert (SAME : forall j k, t_w s j <> KNone -> t_w s k <> KNone -> t_pid s j = t_pid s k ->
     t_w s j <> KOk \/ t_r s j = RWait -> t_w s k <> KOk \/ t_r s k = RWait -> j = k).
  { intros j k Wj Wk E Uj Uk. apply (ta_dist _ A); auto. eapply (ta_pid _ A); [apply t_unreaped; eauto|]. rewrite E. apply t_unreaped; auto. }
  assert (RN : forall k, t_w s k <> KOk -> t_r s k = RNone).
  { intros k N. destruct (t_r s k) eqn:E; auto; exfalso; apply N, (tb_ok _ B); congruence. }
  pose proof (td_in _ D) as D1. pose proof (td_has _ D) as D2. pose proof (td_free _ D) as D3.
  assert (D1' : forall n k, t_dict s n = Some k -> t_w s k <> KNone) by (intros n k Q Z; destruct (D1 _ _ Q) as (_ & W & _); rewrite Z in W; exact W).
  constructor.
  - intros n k. clear D2 D3. inversion H; subst; cbn; auto; unfold fset, zset.
    all: try (intros Q; pose proof (D1' _ _ Q) as W; destruct (D1 _ _ Q) as (X1 & X2 & X3); destruct (Nat.eqb_spec k k0); subst; auto;
      try congruence; try (rewrite H0 in X2; destruct X2; fail); repeat split; auto; discriminate).
    + destruct (Z.eqb_spec n (t_pid s k0)); [intros [= <-]|intros Q].
      * rewrite Nat.eqb_refl. repeat split; auto. rewrite RN; congruence.
      * destruct (D1 _ _ Q) as (X1 & X2 & X3). destruct (Nat.eqb_spec k k0); auto. subst. congruence.
    + destruct (Z.eqb_spec n (t_pid s k0)); [discriminate|intros Q].
      destruct (D1 _ _ Q) as (X1 & X2 & X3). destruct (Nat.eqb_spec k k0); auto. subst. congruence.
  - intros k. assert (D2k := D2 k). inversion H; subst; cbn; auto; unfold fset, zset.
    + destruct (Nat.eqb_spec k k0); auto. subst. rewrite RN; [|congruence]. cbn. intros [Q|[]]. discriminate.
    + destruct (Nat.eqb_spec k k0); auto. subst. intros [Q|Q]; [discriminate|auto].
    + destruct (Nat.eqb_spec k k0); auto. subst. intros [Q|Q]; [discriminate|auto].
    + destruct (Nat.eqb_spec k k0); [subst; rewrite Z.eqb_refl; auto|]. intros Q. specialize (D2k Q). destruct (Z.eqb_spec (t_pid s k) (t_pid s k0)) as [E|]; auto.
      pose proof (D3 _ H0) as F. congruence.
    + destruct (Nat.eqb_spec k k0); auto. subst. intros _. apply D2. auto.
    + destruct (Nat.eqb_spec k k0); auto. subst. intros [Q|Q]; [discriminate|auto].
    + destruct (Nat.eqb_spec k k0); auto. subst. intros _. apply D2. right. rewrite H0. exact Logic.I.
    + destruct (Nat.eqb_spec k k0); auto. subst. intros _. apply D2. right. rewrite H0. exact Logic.I.
    + destruct (Nat.eqb_spec k k0); auto. subst. intros [Q|[]]. auto.
    + destruct (Nat.eqb_spec k k0).
      * subst. intros [Q|[]]. pose proof (RN k0 ltac:(congruence)). congruence.
      * intros Q. specialize (D2k Q). destruct (Z.eqb_spec (t_pid s k) (t_pid s k0)) as [E|]; auto.
        assert (X : t_dict s (t_pid s k0) = Some k0) by (apply D2; right; rewrite H0; exact Logic.I). congruence.
    + destruct (Nat.eqb_spec k k0); auto. subst. intros [Q|[]]. auto.
  - intros k. assert (D3k := D3 k). inversion H; subst; cbn; auto; unfold fset, zset.
    + destruct (Nat.eqb_spec k k0); auto. discriminate.
    + destruct (Nat.eqb_spec k k0); auto. subst. auto.
    + destruct (Nat.eqb_spec k k0); auto. discriminate.
    + destruct (Nat.eqb_spec k k0); [discriminate|]. intros Q. destruct (Z.eqb_spec (t_pid s k) (t_pid s k0)) as [E|]; auto.
      exfalso. apply n. apply SAME; auto; try (left; congruence); congruence.
    + destruct (Nat.eqb_spec k k0); auto. discriminate.
    + destruct (Nat.eqb_spec k k0); auto. discriminate.
    + intros Q. destruct (Z.eqb_spec (t_pid s k) (t_pid s k0)); auto.
Qed.
Lemma tw_inv s : twreach s -> TA s /\ TB s /\ TD s.
Proof.
  induction 1 as [s H|s s' R (A & B & D) H].
  - split; [apply TA_init; auto|]. split; [apply TB_init; auto|]. destruct H as (P & Di & W & R & L). constructor.
    + intros n k Q. rewrite Di in Q. discriminate.
    + intros k [Q|Q]; [rewrite W in Q; discriminate|rewrite R in Q; destruct Q].
    + intros k Q. apply Di.
  - split; [eapply TA_step; eauto|]. split; [eapply TB_step; eauto|eapply TD_step; eauto].
Qed.

(** *** C58 *)
Theorem c58_thread_at_most_once s k :
  twreach s ->
  n_vcalls k (t_log s) <= 1 /\ forall st, In (VCall k st) (t_log s) -> In (VExit (t_wproc s k) st) (t_log s).
Proof.
  intros R. destruct (tw_inv s R) as (A & B & D). split; [apply (tb_once _ B)|]. intros st Q.
  destruct (tb_true _ B k st) as (n & E); [right; auto|]. apply (ta_exit _ A). eauto.
Qed.
(** Once the reaper thread of a watched child has nothing more to do, the
    callback of an exited child was called exactly once with its status. *)
Theorem c94_thread_exactly_once s k st :
  twreach s -> In (VWatched k) (t_log s) -> In (VExit (t_wproc s k) st) (t_log s) ->
  (forall s', twstep s s' -> t_r s' k = t_r s k) ->
  In (VCall k st) (t_log s) /\ n_vcalls k (t_log s) = 1.
Proof.
  intros R W X Z. destruct (tw_inv s R) as (A & B & D). apply (tb_watched _ B) in W.
  assert (RN : t_r s k <> RNone) by (apply (tb_ok _ B); auto).
  assert (C : vcalled k (t_log s)).
  { destruct (t_r s k) eqn:E; try congruence; try (apply (tb_called _ B); rewrite E; exact Logic.I).
    - exfalso. assert (P : holds_pid (t_proc s (t_wproc s k)) (t_pid s k)) by (apply t_unreaped; auto; congruence).
      apply (ta_exit _ A) in X. destruct X as (n & [Q|Q]); [|rewrite Q in P; destruct P]. rewrite Q in P. cbn in P. subst.
      assert (Q2 := Z _ (w_wait bad_cb s k st _ E (wp_zombie _ _ _ _ Q))). cbn in Q2. rewrite fset_same in Q2. discriminate.
    - exfalso. assert (Q2 := Z _ (w_call bad_cb s k s0 E)). cbn in Q2. rewrite fset_same in Q2. discriminate. }
  pose proof (vcalled_n _ _ C). pose proof (tb_once _ B k). split; [|lia]. destruct C as (z & C).
  destruct (tb_true _ B k z) as (n & E); [right; auto|]. apply (ta_exit _ A) in X. destruct X as (m & [Q|Q]); congruence.
Qed.
(** A reaper thread takes at most three steps. *)
Definition r_rank (r : rpc) : nat := match r with RNone => 0 | RWait => 3 | RCall _ => 2 | RPop => 1 | REnd => 0 | RDied => 0 end.
Theorem c94_thread_terminates s s' k :
  twstep s s' -> In (VWatched k) (t_log s) -> twreach s -> t_r s' k <> t_r s k -> r_rank (t_r s' k) < r_rank (t_r s k).
Proof.
  intros H W R N. destruct (tw_inv s R) as (A & B & D). apply (tb_watched _ B) in W.
  destruct (r_cases _ _ k H) as [(E & _)|[(W0 & _)|[(z & R0 & R' & _)|[(z & R0 & R' & _)|[(R0 & R' & _)|(R0 & R' & _)]]]]]; try congruence; rewrite R0; try rewrite R'; cbn; try lia.
  destruct R' as [R'|R']; rewrite R'; cbn; lia.
Qed.

(** *** C60 *)
(** A watch is only refused while the reaper thread of an earlier child with
    the same pid has not ended (or, after an exception, never will). *)
Theorem c100_thread_partial s s' k :
  twreach s -> t_w s k = KCheck -> twstep s s' -> t_w s' k <> KCheck ->
  (forall j, j <> k -> In (VWatched j) (t_log s) -> t_pid s j = t_pid s k -> In (VEnded j) (t_log s)) ->
  (forall j, t_pid s j = t_pid s k -> t_w s j <> KFailed) ->
  t_w s' k = KSet /\ ~ In (VRejected k) (t_log s').
Proof.
  intros R K H N E F. destruct (tw_inv s R) as (A & B & D).
  assert (X : t_dict s (t_pid s k) = None).
  { destruct (t_dict s (t_pid s k)) as [j|] eqn:Q; auto. exfalso. destruct (td_in _ D _ _ Q) as (P & S0 & RE).
    assert (J : j <> k) by (intros ->; rewrite K in S0; exact S0).
    destruct (t_w s j) eqn:W; try (exfalso; exact S0).
    - apply J. apply (ta_dist _ A); try congruence. eapply (ta_pid _ A); [apply t_unreaped; auto; [congruence|left; congruence]|]. rewrite P. apply t_unreaped; auto; [congruence|left; congruence].
    - apply RE. apply (tb_ended _ B). apply E; auto. apply (tb_watched _ B); auto.
    - eapply F; eauto. }
  assert (REJ : forall s k, twreach s -> In (VRejected k) (t_log s) -> t_w s k = KRejected).
  { clear. intros s k R. induction R as [s H|s s' R IH H].
    - destruct H as (_ & _ & _ & _ & L). rewrite L. intros [].
    - intros Q. assert (X : In (VRejected k) (t_log s) \/ t_w s' k = KRejected).
      { revert Q. inversion H; subst; cbn; auto; intros [Q|Q]; auto; try discriminate. injection Q as ->. right. apply fset_same. }
      destruct X as [X|X]; auto. specialize (IH X). inversion H; subst; cbn; auto; unfold fset; destruct (Nat.eqb_spec k k0); subst; auto; congruence. }
  assert (W : t_w s' k = KSet).
  { revert N. inversion H; subst; cbn; try congruence; unfold fset; destruct (Nat.eqb_spec k k0); subst; try congruence; auto. }
  split; auto. intros Q. rewrite (REJ s' k (wr_step _ _ _ R H) Q) in W. discriminate.
Qed.
End T.
Print Assumptions c58_thread_at_most_once.
Print Assumptions c94_thread_exactly_once.
Print Assumptions c94_thread_terminates.
Print Assumptions c100_thread_partial.

(** The claim as stated: once the callbacks of all earlier children with this
    pid have run, a new child with the pid can be watched. *)
Definition c100_full_claim : Prop := forall s s' k,
  twreach false s -> t_w s k = KCheck -> twstep false s s' -> t_w s' k <> KCheck ->
  (forall j, j <> k -> t_w s j <> KNone -> t_pid s j = t_pid s k -> vcalled j (t_log s)) ->
  ~ In (VRejected k) (t_log s').
Definition tex0 : tst := mk_tst (fun _ => PNone) (fun _ => None) (fun _ => 0) (fun _ => 0%Z) (fun _ => KNone) (fun _ => RNone) [].
Ltac tside := cbn; try reflexivity; try congruence; try discriminate; try (intros []; cbn; congruence); auto.
Ltac tadv c :=
  match goal with R : twreach ?b ?s |- _ =>
    let H := fresh "R" in
    eassert (H : twreach b _) by (eapply wr_step; [exact R|eapply (c b s); tside]);
    clear R; cbn in H
  end.
(** Child 0 with pid 100 is watched, exits and is reported; child 1 gets the
    pid and is watched. *)
Ltac first_child call :=
  match goal with R : twreach ?b tex0 |- _ => idtac end;
  tadv (fun b s => w_fork b s 0 100%Z); tadv (fun b s => w_watch b s 0 0 100%Z); tadv (fun b s => w_check_ok b s 0); tadv (fun b s => w_set b s 0); tadv (fun b s => w_start b s 0);
  tadv (fun b s => w_exit b s 0 100%Z 7%Z);
  match goal with R : twreach ?b ?s |- _ =>
    let H := fresh "R" in
    eassert (H : twreach b _) by (eapply wr_step; [exact R|eapply (w_wait b s 0 7%Z); [reflexivity|apply (wp_zombie _ _ 0); reflexivity]]);
    clear R; cbn in H
  end;
  tadv (fun b s => call b s 0 7%Z);
  match goal with R : twreach ?b ?s |- _ =>
    let H := fresh "R" in
    eassert (H : twreach b _) by (eapply wr_step; [exact R|eapply (w_fork b s 1 100%Z); [reflexivity|intros [|q]; cbn; auto]]);
    clear R; cbn in H
  end;
  match goal with R : twreach ?b ?s |- _ =>
    let H := fresh "R" in
    eassert (H : twreach b _) by (eapply wr_step; [exact R|eapply (w_watch b s 1 1 100%Z); [reflexivity|reflexivity|intros [|j]; cbn; congruence]]);
    clear R; cbn in H
  end.
Theorem c100_refuted : ~ c100_full_claim.
Proof.
  intros C. assert (R : twreach false tex0) by (apply wr_init; repeat split). first_child w_call.
  match goal with R : twreach _ ?s |- _ => specialize (C s _ 1 R eq_refl (w_check_fail false s 1 eq_refl ltac:(discriminate))) end.
  apply C; cbn; try discriminate; auto.
  intros [|[|j]] N W P; [|congruence|cbn in W; congruence]. exists 7%Z. cbn. auto.
Qed.
Print Assumptions c100_refuted.
(** After a callback that raises, the pid can never be watched again: its
    reaper thread has ended and the entry stays. *)
Definition c60_raising_callback_claim : Prop := forall s s' k,
  twreach true s -> t_w s k = KCheck -> twstep true s s' -> t_w s' k <> KCheck ->
  (forall j, j <> k -> t_w s j <> KNone -> t_pid s j = t_pid s k -> vcalled j (t_log s) /\ ~ rbusy (t_r s j)) ->
  ~ In (VRejected k) (t_log s').
Theorem c100_raising_callback_refuted : ~ c60_raising_callback_claim.
Proof.
  intros C. assert (R : twreach true tex0) by (apply wr_init; repeat split). first_child w_call_raises.
  match goal with R : twreach _ ?s |- _ => specialize (C s _ 1 R eq_refl (w_check_fail true s 1 eq_refl ltac:(discriminate))) end.
  apply C; cbn; try discriminate; auto.
  intros [|[|j]] N W P; [|congruence|cbn in W; congruence]. cbn. split; [exists 7%Z; cbn; auto|auto].
Qed.
Print Assumptions c100_raising_callback_refuted.
(** The hypotheses of the theorems are met. *)
Example c60_thread_nontrivial : exists s, twreach false s /\ t_w s 1 = KCheck /\ In (VWatched 0) (t_log s) /\ t_pid s 0 = t_pid s 1 /\ In (VEnded 0) (t_log s)
  /\ In (VCall 0 7%Z) (t_log s) /\ In (VExit (t_wproc s 0) 7%Z) (t_log s) /\ (forall j, t_w s j <> KFailed).
Proof.
  assert (R : twreach false tex0) by (apply wr_init; repeat split). first_child w_call.
  tadv (fun b s => w_pop b s 0). eexists. split; [eassumption|]. cbn. repeat (split; [auto 8; fail|]). intros [|[|j]]; cbn; discriminate.
Qed.

(** *** C60 for the epoll watcher: entries are keyed by descriptor *)
(** A new watch never meets or replaces the entry of another child, whatever
    its pid is, and is not refused while the watcher is open. *)
Theorem c60_epoll_no_collision ordered bad_cb rfd wfd efd s k f :
  ereach ordered bad_cb rfd wfd efd s -> e_eopen s = true ->
  (e_w s k = WDict f -> e_dict s f = None \/ e_dict s f = Some k) /\
  (e_w s k = WReg f -> e_dict s f = Some k /\ exists s', estep ordered bad_cb rfd efd s s' /\ In (LWatched k) (e_log s')).
Proof.
  intros R O. destruct (reach_IAB _ _ _ _ _ _ R) as (A & I & _).
  assert (P3 : pre3 (e_pc s)) by (apply pre2_3; rewrite <- (b_eopen _ _ _ _ I); auto).
  split; intros W.
  - destruct (e_dict s f) as [j|] eqn:E; auto. right. pose proof (b_dict _ _ _ _ I P3 _ _ E). pose proof (b_wdict _ _ _ _ I _ _ W). congruence.
  - split; [eapply (b_wreg _ _ _ _ I); eauto|]. eexists. split; [eapply e_register; eauto|]. cbn. auto.
Qed.
Print Assumptions c60_epoll_no_collision.
