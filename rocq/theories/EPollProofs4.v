(** Invariants of the epoll watcher: no lost exit, close. *)
From Verif Require Import Base EPollModel EPollProofs EPollProofs2 EPollProofs3.
From Coq Require Import List ZArith Lia Bool.
Import ListNotations.
Local Open Scope nat_scope.

(** The watching thread is in its loop. *)
Definition alive (pc : tpc) : Prop := match pc with TFin1 | TFin2 | TFin3 _ | TFin4 | TDone => False | _ => True end.

Section Inv.
Context (ordered bad_cb : bool) (rfd wfd efd : nat).
Notation estep := (estep ordered bad_cb rfd efd).
Notation ereach := (ereach ordered bad_cb rfd wfd efd).
Notation IB := (IB rfd wfd efd).
Notation IC := (IC).
Ltac step H := inversion H; subst; clear H; rewrite ?os_close_eq; cbn.

Lemma alive_pre2 pc : alive pc -> pre2 pc = true.
Proof. destruct pc; cbn; auto; contradiction. Qed.
Lemma alive_back s s' : estep s s' -> alive (e_pc s') -> alive (e_pc s).
Proof. intros H. step H; auto; intros Q; match goal with E : e_pc s = _ |- _ => rewrite E in *; cbn in *; auto end. Qed.

Record ID (s : est) : Prop := {
  (* a registered watch is waiting for its process, or being handled, or done *)
  d_ok : alive (e_pc s) -> forall k f, e_w s k = WOk f ->
     (e_fdt s f = Some (OPid k) /\ e_dict s f = Some k /\ e_reg s f = true) \/ called k (e_log s) \/ held (e_pc s) k;
  d_ready : alive (e_pc s) -> forall f k, e_reg s f = true -> e_fdt s f = Some (OPid k) -> exited (e_proc s (e_wproc s k)) = true -> In f (e_ready s);
  d_watched : forall k, In (LWatched k) (e_log s) -> exists f, e_w s k = WOk f;
  d_wok : forall k f, e_w s k = WOk f -> In (LWatched k) (e_log s);
  d_closing : In LClosing (e_log s) <-> e_close s <> CIdle;
  d_closed : In LClosed (e_log s) <-> e_close s = CDone;
  d_done : e_close s = CDone -> e_pc s = TDone;
  d_self : e_self s = None \/ e_self s = Some (rfd, wfd);
  d_cw : forall w, e_close s = CWrite w -> w = wfd;
  d_wake : e_close s = CJoin -> alive (e_pc s) -> In rfd (e_ready s) \/ In rfd (th_fds (e_pc s)) }.

Lemma log_mono s s' x : estep s s' -> In x (e_log s) -> In x (e_log s').
Proof. intros H. step H; auto. Qed.
Lemma called_mono s s' k : estep s s' -> called k (e_log s) -> called k (e_log s').
Proof. intros H (st & Q). exists st. eapply log_mono; eauto. Qed.

Lemma held_keep s s' k : IA s -> IB s -> IC s -> estep s s' -> held (e_pc s) k -> held (e_pc s') k \/ called k (e_log s').
Proof.
  intros A I C H Q. pose proof H as H0. step H; auto; match goal with E : e_pc s = _ |- _ => rewrite E in Q; cbn in Q; try contradiction; subst end.
  - destruct r; cbn; auto. exfalso. destruct (twait_zombie _ _ _ _ _ _ _ A I C H1) as (m & st & E). rewrite E in *.
    match goal with X : pid_of _ = _ |- _ => injection X as -> end.
    match goal with W : waitpid _ _ _ _ |- _ => apply waitpid_inv in W; destruct W as [(_ & [(_ & q & X)|(X & _)])|(q & z & Q' & X & _)]; try discriminate end.
    assert (q = e_wproc s k) by (eapply (a_pid _ A); [rewrite X|rewrite E]; reflexivity). congruence.
  - right. exists st. left. auto.
  - right. exists st. left. auto.
Qed.

Lemma reg_keep s s' f : estep s s' -> e_reg s f = true ->
  e_reg s' f = true \/ (exists l, e_pc s = TUnreg f l) \/ (exists l, e_pc s = TClose f l) \/ ~ alive (e_pc s').
Proof.
  intros H R. step H; auto; unfold fset; try (destruct (Nat.eqb_spec f fd); [subst|auto]); eauto 6.
  destruct (e_fdt s fd); auto. destruct (Nat.eqb_spec f fd); [subst|auto]. eauto.
Qed.
Lemma d_ok_step s s' : IA s -> IB s -> IC s -> ID s -> estep s s' -> alive (e_pc s') -> forall k f, e_w s' k = WOk f ->
     (e_fdt s' f = Some (OPid k) /\ e_dict s' f = Some k /\ e_reg s' f = true) \/ called k (e_log s') \/ held (e_pc s') k.
Proof.
  intros A I C D H L k f W. pose proof (alive_back _ _ H L) as L0.
  assert (P3 : pre3 (e_pc s)) by (apply pre2_3; apply alive_pre2; auto).
  assert (DW : e_w s k = WOk f \/ e_w s k <> WOk f) by (destruct (e_w s k); try (right; discriminate); destruct (Nat.eq_dec fd f); [left|right]; congruence).
  destruct DW as [W0|W0].
  - destruct (d_ok _ D L0 k f W0) as [(F & E & R)|[Q|Q]].
    + destruct (dict_keep _ _ _ _ _ _ _ _ H E) as [E'|[(l & P & P')|(j & Wj & E')]].
      * destruct (fdt_keep _ _ _ _ _ _ _ _ H F Logic.I) as [F'|[(l & P & P')|[(P & X & P')|(l & P & P')]]].
        -- left. split; [auto|]. split; [auto|]. pose proof (b_th _ _ _ _ I) as T. unfold th_ok in T.
           destruct (reg_keep _ _ _ H R) as [R'|[(l & P)|[(l & P)|N]]]; auto; exfalso.
           ++ rewrite P in T. destruct T as (_ & j & _ & _ & T). congruence.
           ++ rewrite P in T. destruct T as (_ & _ & _ & j & _ & _ & T). congruence.
        -- exfalso. pose proof (b_th _ _ _ _ I) as T. unfold th_ok in T. rewrite P in T. destruct T as (_ & _ & _ & j & _ & _ & T). congruence.
        -- rewrite P' in L. destruct L.
        -- rewrite P' in L. destruct L.
      * right; right. rewrite P'. reflexivity.
      * exfalso. apply (b_wdict _ _ _ _ I) in Wj as Fj. assert (j = k) by congruence. subst. congruence.
    + right; left. eapply called_mono; eauto.
    + right. destruct (held_keep _ _ _ A I C H Q); auto.
  - pose proof (w_back _ _ _ _ _ _ k _ H W W0) as B. cbn in B. left.
    revert W. step H; intros W; try congruence; unfold fset in W; destruct (Nat.eqb_spec k k0); try congruence; try discriminate.
    injection W as ->. subst. pose proof (b_wreg _ _ _ _ I P3 _ _ H0) as E. split; [eapply (b_dict _ _ _ _ I); eauto|]. split; auto. apply fset_same.
Qed.

Lemma ready_keep s s' f : estep s s' -> In f (e_ready s) ->
  In f (e_ready s') \/ (exists l, e_pc s = TUnreg f l /\ e_reg s' f = false) \/ (exists l, e_pc s = TClose f l) \/ ~ alive (e_pc s').
Proof.
  intros H Q. step H; auto.
  - left. apply in_or_app. auto.
  - destruct (exited _); auto. left. apply in_or_app. auto.
  - left. destruct (e_fdt s w) as [[]|]; auto. destruct (e_reg s rfd); auto. apply in_or_app. auto.
  - left. match goal with E : e_ready s = _ |- _ => rewrite E in Q end. apply in_app_or in Q. apply in_or_app. tauto.
  - destruct (Nat.eq_dec f fd) as [->|N]; [right; left; exists l; split; auto; apply fset_same|]. left. apply in_in_remove; auto.
  - destruct (e_fdt s fd); auto. destruct (Nat.eq_dec f fd) as [->|N]; [eauto|]. left. apply in_in_remove; auto.
Qed.
Lemma d_ready_step s s' : IB s -> ID s -> estep s s' -> alive (e_pc s') -> forall f k, e_reg s' f = true -> e_fdt s' f = Some (OPid k) ->
  exited (e_proc s' (e_wproc s' k)) = true -> In f (e_ready s').
Proof.
  intros I D H L f k R F X. pose proof (alive_back _ _ H L) as L0.
  assert (P3 : pre3 (e_pc s)) by (apply pre2_3; apply alive_pre2; auto).
  assert (F0 : e_fdt s f = Some (OPid k)).
  { destruct (fdt_back _ _ _ _ _ _ _ _ H F Logic.I) as [F0|(j & W & F0 & [= <-] & W')]; auto. exfalso.
    destruct (reg_back _ _ _ _ _ _ _ H R) as [B|(j & W1 & _)].
    - destruct (reg_fdt _ _ _ _ _ I B) as [(_ & E)|(j & E & _)]; congruence.
    - pose proof (b_dict _ _ _ _ I P3 _ _ (b_wreg _ _ _ _ I P3 _ _ W1)). congruence. }
  pose proof (past_wnone _ _ (b_past _ _ _ _ I _ _ F0)) as WN. rewrite (wproc_keep _ _ _ _ _ _ _ H WN) in X.
  destruct (reg_back _ _ _ _ _ _ _ H R) as [B|(j & W1 & W2 & O & _)].
  - destruct (exited (e_proc s (e_wproc s k))) eqn:X0.
    + pose proof (d_ready _ D L0 f k B F0 X0) as Y. destruct (ready_keep _ _ _ H Y) as [Q|[(l & P & R')|[(l & P)|N]]]; auto; exfalso.
      * congruence.
      * pose proof (b_th _ _ _ _ I) as T. unfold th_ok in T. rewrite P in T. destruct T as (_ & T & _). congruence.
      * auto.
    + clear R F L. revert X. step H; intros X; try congruence.
      * exfalso. unfold fset in X. destruct (Nat.eqb_spec (e_wproc s k) p); [discriminate|congruence].
      * apply in_or_app. right. apply H2. split; auto. exists k. split; auto. unfold fset in X.
        destruct (Nat.eqb_spec (e_wproc s k) p); auto. congruence.
      * match goal with W : waitpid _ _ _ _ |- _ => apply waitpid_inv in W; destruct W as [(-> & _)|(q & z & Q & X' & _)]; congruence end.
      * match goal with W : waitpid _ _ _ _ |- _ => apply waitpid_inv in W; destruct W as [(-> & _)|(q & z & Q & X' & ->)]; [congruence|] end.
        unfold fset in X. destruct (Nat.eqb_spec (e_wproc s k) q); [subst; rewrite Q in X0; discriminate|congruence].
      * match goal with W : waitpid _ _ _ _ |- _ => apply waitpid_inv in W; destruct W as [(-> & _)|(q & z & Q & X' & ->)]; [congruence|] end.
        unfold fset in X. destruct (Nat.eqb_spec (e_wproc s k) q); [subst; rewrite Q in X0; discriminate|congruence].
  - pose proof (b_dict _ _ _ _ I P3 _ _ (b_wreg _ _ _ _ I P3 _ _ W1)) as Fj. assert (j = k) by congruence. subst.
    clear R F. revert W2 X. step H; intros W2 X; try congruence; unfold fset in W2; destruct (Nat.eqb_spec k k0); try congruence; try discriminate.
    injection W2 as ->. subst. rewrite X. apply in_or_app. right. left. auto.
Qed.

Lemma close_log s s' : estep s s' ->
  (e_close s' = e_close s /\ (In LClosing (e_log s') <-> In LClosing (e_log s)) /\ (In LClosed (e_log s') <-> In LClosed (e_log s)))
  \/ (e_close s = CIdle /\ e_close s' = CCheck /\ e_log s' = LClosing :: e_log s)
  \/ (e_close s <> CIdle /\ (e_close s' <> CIdle /\ e_close s <> CDone /\ e_close s' <> CDone) /\ (In LClosing (e_log s') <-> In LClosing (e_log s)) /\ (In LClosed (e_log s') <-> In LClosed (e_log s)))
  \/ (e_close s = CJoin /\ e_close s' = CDone /\ e_log s' = LClosed :: e_log s /\ e_pc s = TDone).
Proof.
  assert (T : forall (l : list lev) x y, x <> y -> (In y (x :: l) <-> In y l)) by (intros l x y N; cbn; split; [intros [Q|Q]; [congruence|auto]|auto]).
  intros H. step H; try solve [left; split; [reflexivity|]; split; reflexivity]; auto 8; try solve [left; split; [reflexivity|]; split; apply T; discriminate];
  try solve [left; split; [reflexivity|]; split; apply T; destruct (e_fdt s _); discriminate].
  - right; right; left. split; [congruence|]. split; [|tauto]. split; [|split]; try congruence; destruct (e_self s) as [[]|]; discriminate.
  - right; right; left. split; [congruence|]. split; [repeat split; congruence|]. split; apply T; discriminate.
Qed.

Lemma ID_step s s' : IA s -> IB s -> IC s -> ID s -> estep s s' -> ID s'.
Proof.
  intros A I C D H. constructor.
  - eapply d_ok_step; eauto.
  - eapply d_ready_step; eauto.
  - intros k Q. assert (W : In (LWatched k) (e_log s) \/ exists f, e_w s' k = WOk f).
    { revert Q. step H; auto; try (intros [Q|Q]; [try discriminate|auto]).
      - injection Q as ->. right. exists fd. apply fset_same.
      - destruct (e_fdt s fd); discriminate.
      - destruct (e_fdt s efd); discriminate.
      - destruct (e_fdt s fd); discriminate. }
    destruct W as [W|W]; auto. destruct (d_watched _ D k W) as (f & E). exists f. eapply wok_keep; eauto.
  - intros k f W. assert (DW : e_w s k = WOk f \/ e_w s k <> WOk f) by (destruct (e_w s k); try (right; discriminate); destruct (Nat.eq_dec fd f); [left|right]; congruence).
    destruct DW as [W0|W0]; [eapply log_mono; eauto; eapply d_wok; eauto|].
    revert W. step H; intros W; try congruence; unfold fset in W; destruct (Nat.eqb_spec k k0); try congruence; try discriminate. left. congruence.
  - pose proof (d_closing _ D) as B. destruct (close_log _ _ H) as [(E1 & E2 & _)|[(E1 & E2 & L)|[(E1 & E2 & E3 & _)|(E1 & E2 & L & _)]]].
    + rewrite E2, E1. exact B.
    + rewrite L, E2. cbn. split; [congruence|auto].
    + destruct E2 as (E2 & _). rewrite E3, B. tauto.
    + rewrite L, E2. cbn. split; [congruence|]. right. apply B. congruence.
  - pose proof (d_closed _ D) as B. destruct (close_log _ _ H) as [(E1 & _ & E2)|[(E1 & E2 & L)|[(E1 & E2 & _ & E3)|(E1 & E2 & L & _)]]].
    + rewrite E2, E1. exact B.
    + rewrite L, E2. cbn. split; [intros [Q|Q]; [discriminate|]|discriminate]. apply B in Q. congruence.
    + destruct E2 as (E2 & E4 & E5). rewrite E3, B. tauto.
    + rewrite L, E2. cbn. split; [congruence|auto].
  - pose proof (d_done _ D) as B. step H; auto; intros Q; try discriminate; try (specialize (B Q); congruence).
    destruct (e_self s) as [[]|]; discriminate.
  - pose proof (d_self _ D) as B. step H; auto.
  - intros w. pose proof (d_cw _ D w) as B. step H; auto; try discriminate.
    destruct (d_self _ D) as [E|E]; rewrite E; congruence.
  - intros J L. pose proof (alive_back _ _ H L) as L0. pose proof (d_wake _ D) as B.
    assert (P2 : pre2 (e_pc s) = true) by (apply alive_pre2; auto).
    assert (KEEP : e_close s = CJoin -> In rfd (e_ready s') \/ In rfd (th_fds (e_pc s'))).
    { intros J0. destruct (B J0 L0) as [Q|Q].
      - pose proof (b_th _ _ _ _ I) as T. unfold th_ok in T.
        destruct (ready_keep _ _ _ H Q) as [R|[(l & P & _)|[(l & P)|N]]]; auto; exfalso.
        + rewrite P in T. destruct T; congruence.
        + rewrite P in T. destruct T; congruence.
        + auto.
      - clear B J0 J. pose proof (b_th _ _ _ _ I) as T. unfold th_ok in T. revert L Q. step H; auto; match goal with E : e_pc s = _ |- _ => rewrite E in * end; cbn in *; auto; try (intros _ []; fail).

        + destruct (Nat.eqb_spec fd rfd); cbn; auto.
        + destruct r; cbn; auto.
        + intros _ [Q|Q]; auto. destruct T; congruence. }
    destruct (e_close s) eqn:CE; try (apply KEEP; reflexivity).
    + exfalso. revert J. step H; congruence.
    + exfalso. revert J. step H; try congruence. rewrite (b_self _ _ _ _ I); [discriminate|]. intros E. rewrite E in L0. destruct L0.
    + clear KEEP. assert (P3 : pre3 (e_pc s)) by (apply pre2_3; auto). destruct (b_rw _ _ _ _ I P3) as [_ WW].
      assert (R : e_reg s rfd = true) by (apply (b_regr _ _ _ _ I); rewrite (b_eopen _ _ _ _ I); auto).
      assert (fd = wfd) by (eapply d_cw; eauto).
      subst. revert J. step H; try congruence. intros _. rewrite CE in H0. injection H0 as <-. rewrite WW, R. left. apply in_or_app. right. left. auto.
    + exfalso. revert J. step H; congruence.
Qed.
Lemma ID_init s : e_init rfd wfd efd s -> ID s.
Proof.
  intros (P & D & R & Y & O & SS & T & W & C & L & F1 & F2 & F3 & F & N1 & N2 & N3).
  constructor; rewrite ?L, ?T, ?Y, ?C; cbn; intros; try (rewrite W in *); try discriminate; try contradiction; auto.
  - rewrite R in H0. apply Nat.eqb_eq in H0. congruence.
  - split; [tauto|congruence].
  - split; [tauto|congruence].
Qed.
Lemma reach_ID s : ereach s -> ID s.
Proof.
  induction 1 as [s H|s s' R IH H].
  - eapply ID_init; eauto.
  - destruct (reach_IAB _ _ _ _ _ _ R) as (A & B & _). pose proof (reach_IC _ _ _ _ _ _ R). eapply ID_step; eauto.
Qed.
End Inv.
