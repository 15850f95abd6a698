(** Invariants of the epoll watcher: descriptors are closed once; progress. *)
From Verif Require Import Base EPollModel EPollProofs EPollProofs2 EPollProofs3 EPollProofs4 EPollProofs5.
From Coq Require Import List ZArith Lia Bool Wellfounded.
Import ListNotations.
Local Open Scope nat_scope.

Section Inv.
Context (ordered bad_cb : bool) (rfd wfd efd : nat).
Notation estep := (estep ordered bad_cb rfd efd).
Notation ereach := (ereach ordered bad_cb rfd wfd efd).
Notation IB := (IB rfd wfd efd).
Ltac step H := inversion H; subst; clear H; rewrite ?os_close_eq; cbn.

Record IG (s : est) : Prop := {
  g_once : forall o, n_closes o (e_log s) <= 1;
  g_open : forall f o, e_fdt s f = Some o -> ~ In (LClose o) (e_log s);
  g_past : forall k, In (LClose (OPid k)) (e_log s) -> past_open (e_w s k);
  g_own : forall o, In (LClose o) (e_log s) -> own o;
  g_bad : forall f, ~ In (LBadClose f) (e_log s);
  g_opened : forall k, In (LOpened k) (e_log s) -> (exists f, e_fdt s f = Some (OPid k)) \/ In (LClose (OPid k)) (e_log s);
  g_r : e_fdt s rfd = Some OPipeR \/ In (LClose OPipeR) (e_log s);
  g_w : e_fdt s wfd = Some OPipeW \/ In (LClose OPipeW) (e_log s);
  g_e : e_fdt s efd = Some OEpoll \/ In (LClose OEpoll) (e_log s) }.

(** Every closing step, and what it closes. *)
Lemma step_close s s' : IB s -> estep s s' ->
  ((forall o, In (LClose o) (e_log s') <-> In (LClose o) (e_log s)) /\ (forall o, n_closes o (e_log s') = n_closes o (e_log s))
     /\ (forall f, In (LBadClose f) (e_log s') <-> In (LBadClose f) (e_log s))
     /\ (forall f o, own o -> e_fdt s f = Some o -> e_fdt s' f = Some o))
  \/ exists f o, own o /\ e_fdt s f = Some o /\ e_fdt s' = fset (e_fdt s) f None /\ e_log s' = LClose o :: e_log s /\ e_w s' = e_w s
       /\ (forall k, o = OPid k -> (exists l, e_pc s = TClose f l) \/ (exists l, e_pc s = TFin3 (f :: l)))
       /\ ((exists l, e_pc s = TFin3 (f :: l)) \/ alive (e_pc s) \/ e_pc s = TFin1).
Proof.
  intros I H. pose proof (b_th _ _ _ _ I) as T. unfold th_ok in T.
  assert (X : forall (l : list lev) x, match x with LClose _ => False | LBadClose _ => False | _ => True end ->
     (forall o, In (LClose o) (x :: l) <-> In (LClose o) l) /\ (forall o, n_closes o (x :: l) = n_closes o l) /\ (forall f, In (LBadClose f) (x :: l) <-> In (LBadClose f) l)).
  { intros l x N. split; [|split]; intros; cbn; try (split; [intros [Q|Q]; [subst; destruct N|auto]|auto]).
    unfold n_closes. destruct x; try destruct N; reflexivity. }
  assert (Y : (forall o, In (LClose o) (e_log s) <-> In (LClose o) (e_log s)) /\ (forall o, n_closes o (e_log s) = n_closes o (e_log s)) /\ (forall f, In (LBadClose f) (e_log s) <-> In (LBadClose f) (e_log s))) by (repeat split; auto).
  inversion H; subst; clear H; rewrite ?os_close_eq; cbn -[In n_closes]; try solve [left; destruct Y as (Y1 & Y2 & Y3); repeat (split; [assumption|]); auto];
  try solve [left; match goal with |- context [?x :: e_log s] => destruct (X (e_log s) x Logic.I) as (Z1 & Z2 & Z3) end; repeat (split; [assumption|]); auto].
  - left. destruct Y as (Y1 & Y2 & Y3). repeat (split; [assumption|]). intros f o W E. rewrite fset_other; auto. congruence.
  - left. destruct Y as (Y1 & Y2 & Y3). repeat (split; [assumption|]). intros f o W E. rewrite fset_other; auto. intros ->. rewrite E in H0. injection H0 as ->. destruct W.
  - left. destruct (X (e_log s) (LOpened k) Logic.I) as (Z1 & Z2 & Z3). repeat (split; [assumption|]). intros f o W E. rewrite fset_other; auto. congruence.
  - right. match goal with P : e_pc s = _ |- _ => rename P into PE; rewrite PE in T end. destruct T as (_ & _ & _ & k & F & _). exists fd, (OPid k). rewrite F.
    split; [exact Logic.I|]. repeat (split; [auto; fail|]). split; [intros; left; eauto|]. rewrite PE. cbn. auto.
  - right. match goal with P : e_pc s = _ |- _ => rename P into PE; rewrite PE in T end.
    assert (F : e_fdt s efd = Some OEpoll) by (apply (b_ep _ _ _ _ I); rewrite PE; reflexivity). exists efd, OEpoll. rewrite F.
    split; [exact Logic.I|]. repeat (split; [auto; fail|]). split; [discriminate|auto].
  - right. match goal with P : e_pc s = _ |- _ => rename P into PE; rewrite PE in T end. destruct T as (_ & T). destruct (T fd (or_introl eq_refl)) as (o & F & W & _).
    exists fd, o. rewrite F. repeat (split; [auto; fail|]). split; [intros; right; eauto|]. rewrite PE. eauto.
Qed.

Lemma fdt_own_uniq s f f' o : IB s -> own o -> e_fdt s f = Some o -> e_fdt s f' = Some o -> f = f'.
Proof.
  intros I W F F'. destruct o.
  - eapply (b_uniq _ _ _ _ I); eauto.
  - rewrite (b_r _ _ _ _ I _ F). symmetry. eapply (b_r _ _ _ _ I); eauto.
  - rewrite (b_w _ _ _ _ I _ F). symmetry. eapply (b_w _ _ _ _ I); eauto.
  - rewrite (b_e _ _ _ _ I _ F). symmetry. eapply (b_e _ _ _ _ I); eauto.
  - destruct W.
Qed.

Lemma IG_step s s' : IB s -> IG s -> estep s s' -> IG s'.
Proof.
  intros I G H. pose proof (step_close _ _ I H) as SC. constructor.
  - intros o. pose proof (g_once _ G o) as B. destruct SC as [(_ & E & _)|(f & p & W & F & _ & E & _)]; [rewrite E; auto|].
    rewrite E. unfold n_closes. cbn. destruct (obj_eqb_spec p o); [|exact B]. subst. cbn. fold (n_closes o (e_log s)). rewrite n_closes_0; [lia|]. eapply g_open; eauto.
  - intros f o F Q. destruct SC as [(E & _)|(g & p & W & Fg & FE & E & EW & _)].
    + apply E in Q. pose proof (g_own _ G _ Q) as Wo. destruct (fdt_back _ _ _ _ _ _ _ _ H F Wo) as [F0|(k & WO & F0 & -> & _)]; [eapply g_open; eauto|].
      apply (g_past _ G) in Q. rewrite WO in Q. exact Q.
    + rewrite E in Q. rewrite FE in F. unfold fset in F. destruct (Nat.eqb_spec f g); [discriminate|]. destruct Q as [[= ->]|Q]; [|eapply g_open; eauto].
      apply n. eapply fdt_own_uniq; eauto.
  - intros k Q. eapply past_mono; eauto. destruct SC as [(E & _)|(g & p & W & Fg & FE & E & EW & _)]; [apply (g_past _ G), E; auto|].
    rewrite E in Q. destruct Q as [[= ->]|Q]; [eapply (b_past _ _ _ _ I); eauto|apply (g_past _ G); auto].
  - intros o Q. destruct SC as [(E & _)|(g & p & W & Fg & FE & E & _)]; [apply (g_own _ G), E; auto|].
    rewrite E in Q. destruct Q as [[= ->]|Q]; auto. apply (g_own _ G); auto.
  - intros f Q. destruct SC as [(_ & _ & E & _)|(g & p & W & Fg & FE & E & _)]; [eapply (g_bad _ G), E; eauto|].
    rewrite E in Q. destruct Q as [Q|Q]; [discriminate|]. eapply (g_bad _ G); eauto.
  - intros k Q.
    assert (OLD : In (LOpened k) (e_log s) \/ exists f, e_fdt s' f = Some (OPid k)).
    { revert Q. clear SC. step H; auto; try (intros [Q|Q]; [try discriminate|auto]).
      - injection Q as ->. right. exists fd. apply fset_same.
      - destruct (e_fdt s fd); discriminate.
      - destruct (e_fdt s efd); discriminate.
      - destruct (e_fdt s fd); discriminate. }
    destruct OLD as [OLD|OLD]; auto. destruct (g_opened _ G k OLD) as [(f & F)|C].
    + destruct SC as [(E & _ & _ & K)|(g & p & W & Fg & FE & E & _)]; [left; exists f; apply K; auto; exact Logic.I|].
      rewrite E, FE. destruct (Nat.eq_dec f g) as [->|N]; [right; left; congruence|]. left. exists f. rewrite fset_other; auto.
    + right. eapply log_mono; eauto.
  - destruct (g_r _ G) as [F|C]; [|right; eapply log_mono; eauto]. destruct SC as [(E & _ & _ & K)|(g & p & W & Fg & FE & E & _)]; [left; apply K; auto; exact Logic.I|].
    rewrite E, FE. destruct (Nat.eq_dec rfd g) as [<-|N]; [right; left; congruence|]. left. rewrite fset_other; auto.
  - destruct (g_w _ G) as [F|C]; [|right; eapply log_mono; eauto]. destruct SC as [(E & _ & _ & K)|(g & p & W & Fg & FE & E & _)]; [left; apply K; auto; exact Logic.I|].
    rewrite E, FE. destruct (Nat.eq_dec wfd g) as [<-|N]; [right; left; congruence|]. left. rewrite fset_other; auto.
  - destruct (g_e _ G) as [F|C]; [|right; eapply log_mono; eauto]. destruct SC as [(E & _ & _ & K)|(g & p & W & Fg & FE & E & _)]; [left; apply K; auto; exact Logic.I|].
    rewrite E, FE. destruct (Nat.eq_dec efd g) as [<-|N]; [right; left; congruence|]. left. rewrite fset_other; auto.
Qed.
Lemma reach_IG s : ereach s -> IG s.
Proof.
  induction 1 as [s H|s s' R IH H].
  - destruct H as (P & D & R & Y & O & SS & T & W & C & L & F1 & F2 & F3 & _). constructor; rewrite ?L; unfold n_closes; cbn; intros; auto; try lia; try contradiction.
  - destruct (reach_IAB _ _ _ _ _ _ R) as (A & I & _). eapply IG_step; eauto.
Qed.

(** *** Which pidfds are in the dictionary *)
Definition in_hand (pc : tpc) (f : nat) : Prop := popped pc f \/ exists l, pc = TClose f l.
Definition settled (k : nat) (log : list lev) : Prop := before_closing (LWatched k) log \/ before_closing (LWatchFailed k) log.
Definition to_close (pc : tpc) : list nat := match pc with TFin3 l => l | _ => [] end.

Record IHd (s : est) : Prop := {
  h_tab : pre3 (e_pc s) -> forall f k, e_fdt s f = Some (OPid k) -> e_w s k = WDict f \/ e_dict s f = Some k \/ in_hand (e_pc s) f;
  h_set : forall k, In (LWatched k) (e_log s) \/ In (LWatchFailed k) (e_log s) -> past_dict (e_w s k);
  h_end : ~ pre3 (e_pc s) -> (forall f k, e_fdt s f = Some (OPid k) -> settled k (e_log s) -> In f (to_close (e_pc s)))
      /\ (e_fdt s rfd = Some OPipeR -> In rfd (to_close (e_pc s))) /\ (e_fdt s wfd = Some OPipeW -> In wfd (to_close (e_pc s)));
  h_ep : pre2 (e_pc s) = false -> e_fdt s efd <> Some OEpoll }.

Lemma in_hand_keep s s' f : bad_cb = false -> IB s -> estep s s' -> in_hand (e_pc s) f -> in_hand (e_pc s') f \/ e_fdt s' f = None.
Proof.
  intros BC I H Q. pose proof (b_threg _ _ _ _ I) as TR. unfold in_hand in *.
  pose proof (b_th _ _ _ _ I) as T. unfold th_ok in T.
  step H; auto; match goal with E : e_pc s = _ |- _ => rename E into PE; rewrite PE in Q, T end; cbn in *;
    destruct Q as [Q|(l' & Q)]; try contradiction; try discriminate; subst; try congruence; auto; eauto.
  - destruct r; cbn; auto.
  - exfalso. assert (R : e_reg s f = true) by (apply TR; rewrite PE; left; auto). congruence.
  - injection Q as -> ->. right. destruct T as (_ & _ & _ & k & F & _). rewrite F. apply fset_same.
Qed.
Lemma h_set_step s s' : IHd s -> estep s s' -> forall k, In (LWatched k) (e_log s') \/ In (LWatchFailed k) (e_log s') -> past_dict (e_w s' k).
Proof.
  intros G H k Q.
  assert (OLD : (In (LWatched k) (e_log s) \/ In (LWatchFailed k) (e_log s)) \/ past_dict (e_w s' k)).
  { revert Q. step H; auto; intros [[Q|Q]|[Q|Q]]; auto; try discriminate;
    try (injection Q as ->; right; rewrite fset_same; exact Logic.I);
    exfalso; destruct (e_fdt s _); discriminate. }
  destruct OLD as [OLD|]; auto. eapply pastd_mono; eauto. apply (h_set _ G); auto.
Qed.
Lemma pre3_dec pc : pre3 pc \/ ~ pre3 pc.
Proof. destruct pc; cbn; tauto. Qed.
Lemma not_pre3_keep s s' : estep s s' -> ~ pre3 (e_pc s) -> e_pc s' = e_pc s \/ (exists f l, e_pc s = TFin3 (f :: l) /\ e_pc s' = TFin3 l) \/ (to_close (e_pc s) = [] /\ to_close (e_pc s') = [] /\ e_fdt s' = e_fdt s /\ e_log s' = e_log s).
Proof. intros H N. step H; auto; match goal with E : e_pc s = _ |- _ => rewrite E in *; cbn in N; try tauto; try solve [right; right; auto]; try solve [right; left; eauto] end. Qed.
Lemma to_fin3 s s' : estep s s' -> pre3 (e_pc s) -> ~ pre3 (e_pc s') -> exists l r w, e_pc s = TFin2 /\ NoDup l /\ (forall fd, In fd l <-> e_dict s fd <> None) /\ e_self s = Some (r, w) /\ s' = s_pc (TFin3 (l ++ [r; w])) s.
Proof.
  intros H P N. pose proof H as H0. revert N. step H; try contradiction; intros N;
  try match goal with E : e_pc s = _ |- _ => rewrite E in P; cbn in P; try contradiction end; try (exfalso; cbn in N; tauto).
  - exfalso. destruct (fd =? rfd); cbn in N; tauto.
  - exfalso. destruct r; cbn in N; tauto.
  - exists l, r, w. auto.
Qed.

Lemma IHd_step s s' : bad_cb = false -> ereach s -> IHd s -> estep s s' -> IHd s'.
Proof.
  intros BC R G H. destruct (reach_IAB _ _ _ _ _ _ R) as (A & I & N1 & N2 & N3). pose proof (stopped_closing _ _ _ _ _ s BC R) as ST. constructor.
  - intros P f k F. pose proof (pre3_back _ _ _ _ _ _ H P) as P0.
    destruct (fdt_back _ _ _ _ _ _ _ _ H F Logic.I) as [F0|(j & W & F0 & [= <-] & W')]; [|auto].
    destruct (h_tab _ G P0 f k F0) as [W|[D|Q]].
    + assert (X : e_w s' k = WDict f \/ e_dict s' f = Some k).
      { clear F. step H; auto; unfold fset; try (destruct (Nat.eqb_spec k k0); [subst; try congruence|auto; fail]).
        - right. rewrite W in H0. injection H0 as <-. rewrite Nat.eqb_refl. auto. }
      tauto.
    + destruct (dict_keep _ _ _ _ _ _ _ _ H D) as [E'|[(l & Pc & P')|(j & Wj & E')]]; auto.
      * right; right. left. rewrite P'. reflexivity.
      * apply (b_wdict _ _ _ _ I) in Wj. assert (j = k) by congruence. subst. auto.
    + destruct (in_hand_keep _ _ _ BC I H Q) as [Q'|Q']; auto. congruence.
  - eapply h_set_step; eauto.
  - intros P.
    assert (SB : ~ pre3 (e_pc s) \/ e_pc s = TFin2 -> forall k, settled k (e_log s') -> settled k (e_log s)).
    { intros N k Q. assert (CC : e_close s <> CIdle) by (destruct ST as [Q'|Q']; try congruence; intros AL; destruct N as [N|N]; [apply N, pre2_3, alive_pre2; auto|rewrite N in AL; exact AL]).
      destruct (log_cases _ _ _ _ _ _ H) as [E|[(x & Nx & E)|(_ & CE & _)]]; [rewrite E in Q; auto| |congruence]. rewrite E in Q.
      destruct Q as [Q|Q]; apply before_cons_inv in Q; auto; [left|right]; auto. }
    destruct (pre3_dec (e_pc s)) as [P0|P0].
    + destruct (to_fin3 _ _ H P0 P) as (l & r & w & PE & ND & LD & SE & ->). cbn in *.
      assert (S0 : e_self s = Some (rfd, wfd)) by (apply (b_self _ _ _ _ I); congruence). rewrite SE in S0. injection S0 as -> ->.
      split; [|split; intros; apply in_or_app; right; cbn; auto]. intros f k F Q. apply in_or_app. left. apply LD.
      destruct (h_tab _ G P0 f k F) as [W|[D|[Q'|(l' & Q')]]]; try congruence.
      * exfalso. assert (X : past_dict (e_w s k)) by (apply (h_set _ G); destruct Q as [Q|Q]; apply before_in in Q; tauto). rewrite W in X. exact X.
      * rewrite PE in Q'. destruct Q'.
    + destruct (h_end _ G P0) as (E1 & E2 & E3).
      assert (BACK : forall f o, own o -> e_fdt s' f = Some o -> e_fdt s f = Some o \/ exists k, o = OPid k /\ e_w s' k = WDict f).
      { intros f o W F. destruct (fdt_back _ _ _ _ _ _ _ _ H F W) as [F0|(j & _ & _ & E & W')]; eauto. }
      assert (GONE : forall f l, e_pc s = TFin3 (f :: l) -> e_pc s' = TFin3 l -> e_fdt s' f = None).
      { intros f l X X'. clear -H X X'. revert X'. step H; intros X'; try congruence; try (rewrite X in X'; injection X' as X'; exfalso; clear -X'; revert X'; generalize f; induction l as [|y l IH]; intros g X'; [discriminate|injection X' as -> X'; eauto]).
        match goal with E : e_pc s = _ |- _ => rewrite X in E; injection E as <- <- end. destruct (e_fdt s f) eqn:Z; auto. apply fset_same. }
      assert (KEEP : forall f, e_fdt s' f <> None -> In f (to_close (e_pc s)) -> In f (to_close (e_pc s'))).
      { intros f F Q. destruct (not_pre3_keep _ _ H P0) as [X|[(g & l & X & X')|(X & X' & _)]].
        - rewrite X. auto.
        - rewrite X in Q. rewrite X'. cbn in *. destruct Q as [->|Q]; auto. exfalso. apply F. eapply GONE; eauto.
        - rewrite X in Q. destruct Q. }
      split; [|split].
      * intros f k F Q. apply KEEP; [congruence|]. destruct (BACK f (OPid k) Logic.I F) as [F0|(j & [= <-] & W)].
        -- eapply E1; eauto.
        -- exfalso. assert (X : past_dict (e_w s' k)) by (eapply h_set_step; eauto; destruct Q as [Q|Q]; apply before_in in Q; tauto). rewrite W in X. exact X.
      * intros F. apply KEEP; [congruence|]. destruct (BACK rfd OPipeR Logic.I F) as [F0|(j & E & _)]; [auto|discriminate].
      * intros F. apply KEEP; [congruence|]. destruct (BACK wfd OPipeW Logic.I F) as [F0|(j & E & _)]; [auto|discriminate].
  - intros P F. destruct (fdt_back _ _ _ _ _ _ _ _ H F Logic.I) as [F0|(j & _ & _ & E & _)]; [|discriminate].
    destruct (pre2 (e_pc s)) eqn:P2; [|eapply (h_ep _ G); eauto].
    revert P F. step H; try congruence; try match goal with E : e_pc s = _ |- _ => rewrite E in P2; try discriminate end; intros P F; try discriminate.
    + destruct (fd =? rfd); discriminate.
    + destruct r; discriminate.
    + rewrite F0 in F. rewrite fset_same in F. discriminate.
Qed.
Lemma reach_IHd s : bad_cb = false -> ereach s -> IHd s.
Proof.
  intros BC. induction 1 as [s H|s s' R IH H].
  - destruct H as (P & D & R & Y & O & SS & T & W & C & L & F1 & F2 & F3 & F & N1 & N2 & N3). constructor; rewrite ?L, ?T; cbn; intros.
    + exfalso. destruct (Nat.eq_dec f rfd), (Nat.eq_dec f wfd), (Nat.eq_dec f efd); subst; try congruence. specialize (F f). rewrite H0 in F. auto.
    + tauto.
    + tauto.
    + discriminate.
  - eapply IHd_step; eauto.
Qed.
End Inv.
