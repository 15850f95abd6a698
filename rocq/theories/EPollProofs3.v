(** Invariants of the epoll watcher: callbacks and exit statuses. *)
From Verif Require Import Base EPollModel EPollProofs EPollProofs2.
From Coq Require Import List ZArith Lia Bool.
Import ListNotations.
Local Open Scope nat_scope.

(** How often the callback of watch [k] was called. *)
Definition is_call (k : nat) (e : lev) : bool := match e with LCall j _ => j =? k | _ => false end.
Definition n_calls (k : nat) (l : list lev) : nat := List.length (filter (is_call k) l).

Definition called (k : nat) (l : list lev) : Prop := exists st, In (LCall k st) l.
Definition held (pc : tpc) (k : nat) : Prop :=
  match pc with TWait j _ _ => j = k | TCall j _ _ _ => j = k | _ => False end.
Definition w_done (s : est) (k : nat) : Prop :=
  e_w s k = WEnd \/ exists f, e_w s k = WOk f /\ (forall f', e_dict s f' <> Some k) /\ ~ held (e_pc s) k.
(** The status of watch [k] is known and the callback is on its way. *)
Definition in_call (s : est) (k : nat) (st : Z) : Prop :=
  In (LCall k st) (e_log s) \/ (exists f l, e_pc s = TCall k st f l) \/ e_w s k = WCall st.

Lemma n_calls_0 k l : ~ called k l -> n_calls k l = 0.
Proof.
  unfold n_calls, called. intros N. induction l as [|e l IH]; auto. cbn.
  destruct e; cbn; try (apply IH; intros (st & Q); apply N; exists st; right; exact Q).
  destruct (Nat.eqb_spec k0 k) as [->|].
  - exfalso. apply N. exists s. left. auto.
  - apply IH. intros (st & Q). apply N. exists st. right. exact Q.
Qed.
Lemma called_n k l : called k l -> n_calls k l >= 1.
Proof.
  intros (st & Q). unfold n_calls. induction l as [|e l IH]; [destruct Q|]. cbn. destruct Q as [->|Q].
  - cbn. rewrite Nat.eqb_refl. cbn. lia.
  - specialize (IH Q). destruct (is_call k e); cbn; lia.
Qed.

Section Inv.
Context (ordered bad_cb : bool) (rfd wfd efd : nat).
Notation estep := (estep ordered bad_cb rfd efd).
Notation ereach := (ereach ordered bad_cb rfd wfd efd).
Notation IB := (IB rfd wfd efd).
Ltac step H := inversion H; subst; clear H; rewrite ?os_close_eq; cbn.

Record IC (s : est) : Prop := {
  c_once : forall k, n_calls k (e_log s) <= 1;
  c_called : forall k, called k (e_log s) -> w_done s k;
  c_true : forall k st, in_call s k st -> e_w s k <> WNone /\ exists n, e_proc s (e_wproc s k) = PReaped n st;
  c_reaped : forall p n st, e_proc s p = PReaped n st -> exists k, e_w s k <> WNone /\ e_wproc s k = p /\ in_call s k st }.

(** Only these steps call. *)
Lemma step_calls s s' : estep s s' ->
  (forall k st, In (LCall k st) (e_log s') <-> In (LCall k st) (e_log s)) /\ (forall k, n_calls k (e_log s') = n_calls k (e_log s))
  \/ (exists k st f l, e_pc s = TCall k st f l /\ (e_pc s' = TUnreg f l \/ e_pc s' = TFin1) /\ e_log s' = LCall k st :: e_log s
       /\ e_w s' = e_w s /\ e_dict s' = e_dict s /\ e_proc s' = e_proc s /\ e_wproc s' = e_wproc s)
  \/ (exists k st, e_w s k = WCall st /\ e_log s' = LCall k st :: e_log s /\ e_w s' = fset (e_w s) k WEnd
       /\ e_dict s' = e_dict s /\ e_pc s' = e_pc s /\ e_proc s' = e_proc s /\ e_wproc s' = e_wproc s).
Proof.
  intros H. step H; try (left; split; [intros; tauto|reflexivity]);
  try solve [left; split; [intros; cbn; split; [intros [Q|Q]; [discriminate|auto]|auto]|intros; unfold n_calls; cbn; reflexivity]].
  - right; right. exists k, st. auto 10.
  - right; left. exists k, st, fd, l. auto 10.
  - right; left. exists k, st, fd, l. auto 10.
  - left. destruct (e_fdt s fd); (split; [intros; cbn; split; [intros [Q|Q]; [discriminate|auto]|auto]|intros; unfold n_calls; cbn; reflexivity]).
  - left. destruct (e_fdt s efd); (split; [intros; cbn; split; [intros [Q|Q]; [discriminate|auto]|auto]|intros; unfold n_calls; cbn; reflexivity]).
  - left. destruct (e_fdt s fd); (split; [intros; cbn; split; [intros [Q|Q]; [discriminate|auto]|auto]|intros; unfold n_calls; cbn; reflexivity]).
Qed.

Lemma held_wok s k : IB s -> held (e_pc s) k -> exists f, e_w s k = WOk f /\ e_fdt s f = Some (OPid k) /\ forall f', e_dict s f' <> Some k.
Proof.
  intros I Hh. pose proof (b_th _ _ _ _ I) as T. unfold th_ok in T.
  assert (X : forall f, pre3 (e_pc s) -> e_fdt s f = Some (OPid k) -> e_dict s f = None -> forall f', e_dict s f' <> Some k).
  { intros f P F D f' Q. pose proof (b_dict _ _ _ _ I P _ _ Q) as Q'. rewrite (b_uniq _ _ _ _ I _ _ _ Q' F) in Q. congruence. }
  destruct (e_pc s) eqn:PC; cbn in Hh; try contradiction; subst; exists fd; destruct T as (_ & T1 & T2 & T3); repeat split; auto;
  eapply X; eauto; exact Logic.I.
Qed.

Lemma wend_keep s s' k : estep s s' -> e_w s k = WEnd -> e_w s' k = WEnd.
Proof. intros H E. step H; auto; fs; auto; congruence. Qed.
Lemma held_back s s' k : estep s s' -> held (e_pc s') k -> held (e_pc s) k \/ exists f l, e_pc s = TPop f l /\ e_dict s f = Some k.
Proof.
  intros H. step H; auto; intros Q; try contradiction; try (destruct (fd =? rfd); contradiction);
  try (match goal with E : e_pc s = _ |- _ => rewrite E end; cbn in *; subst; eauto).
  destruct r; [left; auto|contradiction].
Qed.
Lemma w_done_keep s s' k : estep s s' -> w_done s k -> w_done s' k.
Proof.
  intros H [E|(f & E & D & N)].
  - left. eapply wend_keep; eauto.
  - right. exists f. split; [eapply wok_keep; eauto|]. split.
    + intros f' Q. destruct (dict_back _ _ _ _ _ _ _ _ H Q) as [Q'|[Q' _]]; [eapply D; eauto|congruence].
    + intros Q. destruct (held_back _ _ _ H Q) as [Q'|(g & l & P & Q')]; [auto|eapply D; eauto].
Qed.

Lemma c_once_step s s' : IB s -> IC s -> estep s s' -> forall k, n_calls k (e_log s') <= 1.
Proof.
  intros I C H k. pose proof (c_once _ C k) as B. pose proof (c_called _ C k) as W.
  destruct (step_calls _ _ H) as [(_ & E)|[(j & st & f & l & P & _ & L & _)|(j & st & P & L & _)]].
  - rewrite E. auto.
  - rewrite L. unfold n_calls. cbn. destruct (Nat.eqb_spec j k) as [->|]; [|exact B]. cbn. fold (n_calls k (e_log s)).
    rewrite n_calls_0; [lia|]. intros Q. assert (Hh : held (e_pc s) k) by (rewrite P; reflexivity).
    destruct (held_wok s k I Hh) as (g & Wg & _). destruct (W Q) as [E|(g' & E & _ & N)]; [congruence|auto].
  - rewrite L. unfold n_calls. cbn. destruct (Nat.eqb_spec j k) as [->|]; [|exact B]. cbn. fold (n_calls k (e_log s)).
    rewrite n_calls_0; [lia|]. intros Q. destruct (W Q) as [E|(g' & E & _)]; congruence.
Qed.
Lemma c_called_step s s' : IB s -> IC s -> estep s s' -> forall k, called k (e_log s') -> w_done s' k.
Proof.
  intros I C H k Q. pose proof (c_called _ C k) as W.
  assert (D : called k (e_log s) \/ ~ called k (e_log s)).
  { destruct (n_calls k (e_log s)) eqn:N; [right; intros Z; apply called_n in Z; lia|left].
      clear -N. unfold n_calls in N. unfold called. induction (e_log s) as [|e l IH]; [discriminate|]. cbn in N. destruct e; cbn in N;
      try (destruct (IH N) as (st & Z); exists st; right; exact Z).
      destruct (Nat.eqb_spec k0 k) as [->|]; [exists s0; left; auto|]. destruct (IH N) as (st & Z); exists st; right; exact Z. }
  destruct D as [D|D]; [eapply w_done_keep; eauto|].
  destruct (step_calls _ _ H) as [(E & _)|[(j & st & f & l & P & P' & L & EW & ED & _)|(j & st & P & L & EW & _)]].
  - exfalso. apply D. destruct Q as (st & Q). apply E in Q. exists st; auto.
  - destruct Q as (st' & Q). rewrite L in Q. destruct Q as [Q|Q]; [injection Q; intros _ ->|exfalso; apply D; exists st'; auto].
    assert (Hh : held (e_pc s) k) by (rewrite P; reflexivity). destruct (held_wok s k I Hh) as (g & Wg & _ & DD).
    right. exists g. rewrite EW, ED. repeat split; auto. destruct P' as [-> | ->]; cbn; tauto.
  - destruct Q as (st' & Q). rewrite L in Q. destruct Q as [Q|Q]; [injection Q; intros _ ->|exfalso; apply D; exists st'; auto].
    left. rewrite EW. apply fset_same.
Qed.

(** A watch that has no status yet: its process was not reaped. *)
Lemma not_reaped s k : IA s -> IC s -> e_w s k <> WNone ->
  (forall st, e_w s k <> WCall st) -> (forall st f l, e_pc s <> TCall k st f l) -> ~ called k (e_log s) ->
  exists n, holds_pid (e_proc s (e_wproc s k)) n /\ pid_of (e_proc s (e_wproc s k)) = Some n.
Proof.
  intros A C W N1 N2 N3. pose proof (a_proc _ A k W) as P. destruct (e_proc s (e_wproc s k)) as [|n|n st|n st] eqn:E; [congruence| | |].
  - exists n. split; reflexivity.
  - exists n. split; reflexivity.
  - exfalso. destruct (c_reaped _ C _ _ _ E) as (j & Wj & Ej & Q). assert (j = k) by (eapply a_dist; eauto). subst.
    destruct Q as [Q|[(f & l & Q)|Q]]; [apply N3; exists st; auto|eapply N2; eauto|eapply N1; eauto].
Qed.
Lemma twait_zombie s k f l : IA s -> IB s -> IC s -> e_pc s = TWait k f l -> exists n st, e_proc s (e_wproc s k) = PZombie n st.
Proof.
  intros A I C P. assert (Hh : held (e_pc s) k) by (rewrite P; reflexivity). destruct (held_wok s k I Hh) as (g & Wg & F & D).
  pose proof (b_th _ _ _ _ I) as T. unfold th_ok in T. rewrite P in T. destruct T as (_ & T1 & T2 & T3).
  destruct (not_reaped s k A C) as (n & Q & _).
  - congruence.
  - congruence.
  - congruence.
  - intros Q. destruct (c_called _ C k Q) as [E|(g' & E & _ & N)]; [congruence|auto].
  - assert (X : exited (e_proc s (e_wproc s k)) = true).
    { eapply (b_rex _ _ _ _ I f k); auto. right. rewrite P. left. auto. }
    destruct (e_proc s (e_wproc s k)) as [|m|m st|m st]; try discriminate; [eauto|destruct Q].
Qed.
Lemma wpoll_holds s k n : IA s -> IB s -> IC s -> e_w s k = WPoll n \/ e_w s k = WKill -> exists m, holds_pid (e_proc s (e_wproc s k)) m /\ pid_of (e_proc s (e_wproc s k)) = Some m.
Proof.
  intros A I C W. apply not_reaped; auto.
  - destruct W; congruence.
  - destruct W; congruence.
  - intros st f l P. assert (Hh : held (e_pc s) k) by (rewrite P; reflexivity). destruct (held_wok s k I Hh) as (g & Wg & _). destruct W; congruence.
  - intros Q. destruct (c_called _ C k Q) as [E|(g' & E & _)]; destruct W; congruence.
Qed.

(** Where the processes are reaped. *)
Lemma step_reap s s' : IA s -> IB s -> IC s -> estep s s' -> forall p n st, e_proc s' p = PReaped n st -> e_proc s p <> PReaped n st ->
  exists k, e_w s k <> WNone /\ e_wproc s k = p /\ e_wproc s' = e_wproc s /\ ((exists f l, e_pc s' = TCall k st f l) \/ e_w s' k = WCall st).
Proof.
  intros A I C H p n st. pose proof H as H0. step H; intros Q N; try congruence;
  try (unfold fset in Q; destruct (p =? p0); congruence).
  - match goal with W : waitpid _ _ _ _ |- _ => apply waitpid_inv in W; destruct W as [(-> & _)|(q & z & Q' & X & _)]; congruence end.
  - destruct (wpoll_holds s k (S n0) A I C) as (m & Hm & Pm); auto. assert (m = pid) by congruence. subst.
    match goal with W : waitpid _ _ _ _ |- _ => apply waitpid_inv in W; destruct W as [(-> & _)|(q & z & Q' & X & ->)]; [congruence|] end.
    injection X as ->. assert (q = e_wproc s k). { eapply (a_pid _ A); eauto. rewrite Q'. reflexivity. } subst.
    unfold fset in Q. destruct (Nat.eqb_spec p (e_wproc s k)); [|congruence]. injection Q as -> ->. exists k. rewrite fset_same. subst. split; [congruence|auto].
  - destruct (twait_zombie s k fd l A I C) as (m & z & E); auto. rewrite E in *. match goal with X : pid_of _ = _ |- _ => injection X as -> end.
    match goal with W : waitpid _ _ _ _ |- _ => apply waitpid_inv in W; destruct W as [(-> & _)|(q & z' & Q' & X & ->)]; [congruence|] end.
    assert (q = e_wproc s k). { eapply (a_pid _ A); [rewrite Q'|rewrite E]; reflexivity. } subst.
    unfold fset in Q. destruct (Nat.eqb_spec p (e_wproc s k)); [|congruence]. injection Q as -> ->. exists k. subst. split; [|eauto 8].
    assert (Hh : held (e_pc s) k) by (match goal with P : e_pc s = _ |- _ => rewrite P end; reflexivity). destruct (held_wok s k I Hh) as (g & Wg & _). congruence.
Qed.
Lemma in_call_keep s s' k st : IB s -> estep s s' -> in_call s k st -> in_call s' k st.
Proof.
  intros I H [Q|[(f & l & Q)|Q]].
  - left. destruct (step_calls _ _ H) as [(E & _)|[(j & st' & f & l & _ & _ & L & _)|(j & st' & _ & L & _)]]; [apply E; auto|rewrite L; right; auto|rewrite L; right; auto].
  - unfold in_call. step H; eauto 6; try congruence.
    + left. left. congruence.
    + left. left. congruence.
  - unfold in_call. step H; auto; fs; auto; try congruence.
    left. left. congruence.
Qed.
Lemma in_call_back s s' k st : IA s -> IB s -> IC s -> estep s s' -> in_call s' k st ->
  in_call s k st \/ (e_w s k <> WNone /\ exists n, e_proc s' (e_wproc s k) = PReaped n st).
Proof.
  intros A I C H Q. unfold in_call in Q.
  destruct Q as [Q|[(f & l & Q)|Q]].
  - left. destruct (step_calls _ _ H) as [(E & _)|[(j & st' & f & l & P & _ & L & _)|(j & st' & P & L & _)]].
    + left. apply E. auto.
    + rewrite L in Q. destruct Q as [[= -> ->]|Q]; [right; left; eauto|left; auto].
    + rewrite L in Q. destruct Q as [[= -> ->]|Q]; [right; right; eauto|left; auto].
  - revert Q. step H; intros Q; try discriminate; try (left; right; left; eauto; fail).
    + destruct (fd =? rfd); discriminate.
    + destruct r as [z|]; [|discriminate]. injection Q as -> -> -> ->. destruct (twait_zombie s k f l A I C) as (m & z & E); auto. rewrite E in *.
      right. split.
      * assert (Hh : held (e_pc s) k) by (match goal with P : e_pc s = _ |- _ => rewrite P end; reflexivity). destruct (held_wok s k I Hh) as (g & Wg & _). congruence.
      * exists m. match goal with X : pid_of _ = _ |- _ => injection X as -> end.
        match goal with W : waitpid _ _ _ _ |- _ => apply waitpid_inv in W; destruct W as [(_ & [(X & _)|(_ & X)])|(q & z' & Q' & X & ->)] end.
        { discriminate. }
        { exfalso. apply (X (e_wproc s k)). rewrite E. reflexivity. }
        assert (q = e_wproc s k). { eapply (a_pid _ A); [rewrite Q'|rewrite E]; reflexivity. } subst. rewrite fset_same. congruence.
  - revert Q. step H; intros Q; try (left; right; right; exact Q; fail);
    unfold fset in Q; destruct (Nat.eqb_spec k k0); try (left; right; right; exact Q; fail); try discriminate.
    injection Q as ->. subst. right. split; [congruence|].
    destruct (wpoll_holds s k0 (S n) A I C) as (m & Hm & Pm); auto. assert (m = pid) by congruence. subst. exists pid.
    match goal with W : waitpid _ _ _ _ |- _ => apply waitpid_inv in W; destruct W as [(_ & [(X & _)|(_ & X)])|(q & z' & Q' & X & ->)] end.
    + discriminate.
    + exfalso. eapply X; eauto.
    + injection X as <-. assert (q = e_wproc s k0). { eapply (a_pid _ A); eauto. rewrite Q'; reflexivity. } subst. rewrite fset_same. auto.
Qed.
Lemma reaped_keep s s' p n st : estep s s' -> e_proc s p = PReaped n st -> e_proc s' p = PReaped n st.
Proof.
  intros H E. destruct (step_proc _ _ _ _ _ _ H) as [->|[(q & m & P0 & P1 & -> & _)|[(q & m & st' & P0 & -> & _)|(q & m & st' & P0 & -> & _)]]]; auto;
  unfold fset; destruct (Nat.eqb_spec p q); auto; subst; rewrite P0 in E; discriminate.
Qed.
Lemma wnone_keep s s' k : estep s s' -> e_w s k <> WNone -> e_w s' k <> WNone.
Proof. intros H W. destruct (step_watch _ _ _ _ _ _ H) as [(_ & [->|(j & v & _ & V & ->)])|(j & p & n & W0 & _ & _ & _ & -> & _)]; auto; fs; auto; congruence. Qed.

Lemma IC_step s s' : IA s -> IB s -> IC s -> estep s s' -> IC s'.
Proof.
  intros A I C H. constructor.
  - eapply c_once_step; eauto.
  - eapply c_called_step; eauto.
  - intros k st Q. destruct (in_call_back _ _ _ _ A I C H Q) as [B|(W & n & E)].
    + destruct (c_true _ C _ _ B) as (W & n & E). split; [eapply wnone_keep; eauto|].
      exists n. rewrite (wproc_keep _ _ _ _ _ _ _ H W). eapply reaped_keep; eauto.
    + split; [eapply wnone_keep; eauto|]. exists n. rewrite (wproc_keep _ _ _ _ _ _ _ H W). exact E.
  - intros p n st E.
    assert (D : e_proc s p = PReaped n st \/ e_proc s p <> PReaped n st) by (destruct (e_proc s p) as [|m|m z|m z]; try (right; discriminate);
      destruct (Z.eq_dec m n), (Z.eq_dec z st); subst; auto; right; congruence).
    destruct D as [D|D].
    + destruct (c_reaped _ C _ _ _ D) as (k & W & Ek & Q). exists k. split; [eapply wnone_keep; eauto|]. rewrite (wproc_keep _ _ _ _ _ _ _ H W). split; auto.
      eapply in_call_keep; eauto.
    + destruct (step_reap _ _ A I C H _ _ _ E D) as (k & W & Ek & EE & Q). exists k. split; [eapply wnone_keep; eauto|]. rewrite EE. split; auto. right. exact Q.
Qed.
Lemma IC_init s : e_init rfd wfd efd s -> IC s.
Proof.
  intros (P & D & R & Y & O & SS & T & W & C & L & _). constructor; rewrite ?L; cbn.
  - intros k. unfold n_calls. cbn. lia.
  - intros k (st & []).
  - intros k st [Q|[(f & l & Q)|Q]]; [rewrite L in Q; destruct Q|congruence|rewrite W in Q; discriminate].
  - intros p n st Q. rewrite P in Q. discriminate.
Qed.
Lemma reach_IC s : ereach s -> IC s.
Proof.
  induction 1 as [s H|s s' R IH H].
  - eapply IC_init; eauto.
  - destruct (reach_IAB _ _ _ _ _ _ R) as (A & B & _). eapply IC_step; eauto.
Qed.
End Inv.
