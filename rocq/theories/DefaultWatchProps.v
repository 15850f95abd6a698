(** Properties C61 and C75: the lazily created strategy of the child watcher. *)
From Verif Require Import Base EPollModel EPollProofs DefaultWatchModel.
From Coq Require Import List ZArith Lia Bool.
From Coq Require FinFun.
Import ListNotations.
Local Open Scope nat_scope.

(** Specification: what an observer of the events sees. *)
Definition is_created (e : dev) : bool := match e with NCreated _ => true | _ => false end.
Definition is_closing (e : dev) : bool := match e with NClosing _ => true | _ => false end.
Definition is_sclose (i : nat) (e : dev) : bool := match e with NStratClose j => j =? i | _ => false end.
Definition n_ev (p : dev -> bool) (l : list dev) : nat := List.length (filter p l).
Definition closed (i : nat) (l : list dev) : Prop := In (NStratClose i) l.

Definition a_locked (x : apc) : Prop := match x with ARetest | ACreate | AStore _ | AUnlock | AUnlockErr => True | _ => False end.
Definition c_locked (x : cpc) : Prop := match x with CTake | CClear _ | CUnlock _ => True | _ => False end.
Definition c_has (x : cpc) (i : nat) : Prop := x = CUnlock (Some i) \/ x = CCall (Some i).

Ltac dinv H := inversion H; subst; clear H; cbn.
Ltac cs := unfold fset in *; repeat match goal with
  | |- context [?a =? ?b] => destruct (Nat.eqb_spec a b); subst
  | H : context [?a =? ?b] |- _ => destruct (Nat.eqb_spec a b); subst end.

(** The lock. *)
Record DL (s : dst) : Prop := {
  dl_a : forall k, a_locked (d_a s k) <-> d_lock s = Some (HAdd k);
  dl_c : forall c, c_locked (d_c s c) <-> d_lock s = Some (HClose c) }.
Lemma DL_step s s' : DL s -> dstep s s' -> DL s'.
Proof.
  intros [A C] H. split.
  - intros j. pose proof (A j) as Aj. inversion H; subst; cbn; auto; try (pose proof (A k) as Ak); unfold fset;
      try (destruct (Nat.eqb_spec j k); [subst|]; auto); rewrite ?H0 in *; cbn in *; try tauto; try (destruct (d_strat s); cbn; tauto).
    all: try (split; intros Q; [|congruence]; try (exfalso; assert (X : d_lock s = Some (HAdd j)) by tauto; congruence); tauto).
    + split; [intros Q|congruence]. exfalso. assert (X : d_lock s = Some (HAdd j)) by tauto. rewrite (proj1 Ak Logic.I) in X. congruence.
    + split; [intros Q|congruence]. exfalso. assert (X : d_lock s = Some (HAdd j)) by tauto. rewrite (proj1 Ak Logic.I) in X. congruence.
    + split; [intros Q|congruence]. pose proof (C c) as X. rewrite H0 in X. cbn in X. rewrite (proj1 X Logic.I) in Aj. apply Aj in Q. discriminate.
  - intros j. pose proof (C j) as Aj. inversion H; subst; cbn; auto; try (pose proof (C c) as Ak); unfold fset;
      try (destruct (Nat.eqb_spec j c); [subst|]; auto); rewrite ?H0 in *; cbn in *; try tauto.
    all: try (split; intros Q; [|congruence]; try (exfalso; assert (X : d_lock s = Some (HClose j)) by tauto; congruence); tauto).
    + split; [intros Q|congruence]. pose proof (A k) as X. rewrite H0 in X. cbn in X. rewrite (proj1 X Logic.I) in Aj. apply Aj in Q. discriminate.
    + split; [intros Q|congruence]. pose proof (A k) as X. rewrite H0 in X. cbn in X. rewrite (proj1 X Logic.I) in Aj. apply Aj in Q. discriminate.
    + split; [intros Q|congruence]. exfalso. assert (X : d_lock s = Some (HClose j)) by tauto. rewrite (proj1 Ak Logic.I) in X. congruence.
Qed.
Lemma al_al s j k : DL s -> a_locked (d_a s j) -> a_locked (d_a s k) -> j = k.
Proof. intros D X Y. apply (dl_a _ D) in X, Y. congruence. Qed.
Lemma al_cl s j c : DL s -> a_locked (d_a s j) -> c_locked (d_c s c) -> False.
Proof. intros D X Y. apply (dl_a _ D) in X. apply (dl_c _ D) in Y. congruence. Qed.
Lemma cl_cl s j c : DL s -> c_locked (d_c s j) -> c_locked (d_c s c) -> j = c.
Proof. intros D X Y. apply (dl_c _ D) in X, Y. congruence. Qed.

(** Where a strategy is. *)
Definition at_work (s : dst) (i : nat) : Prop := d_strat s = Some i \/ exists k, d_a s k = AStore i.
Record DS (s : dst) : Prop := {
  ds_none : forall k, d_a s k = ACreate \/ (exists i, d_a s k = AStore i) -> d_strat s = None;
  ds_clear : forall c o, d_c s c = CClear o -> d_strat s = o;
  ds_unlock : forall c o, d_c s c = CUnlock o -> d_strat s = None;
  ds_work : forall i, at_work s i -> i < d_next s /\ ~ closed i (d_log s) /\ forall c, ~ c_has (d_c s c) i;
  ds_has : forall c i, c_has (d_c s c) i -> i < d_next s /\ ~ closed i (d_log s);
  ds_uniq : forall b c i, c_has (d_c s b) i -> c_has (d_c s c) i -> b = c;
  ds_all : forall i, i < d_next s -> at_work s i \/ (exists c, c_has (d_c s c) i) \/ closed i (d_log s);
  ds_lt : forall i, closed i (d_log s) -> i < d_next s;
  ds_once : forall i, n_ev (is_sclose i) (d_log s) <= 1;
  ds_created : n_ev is_created (d_log s) = d_next s;
  ds_names : forall i, In (NCreated i) (d_log s) <-> i < d_next s }.

Lemma n_ev_0 i l : ~ closed i l -> n_ev (is_sclose i) l = 0.
Proof.
  unfold closed, n_ev. intros N. induction l as [|e l IH]; auto. cbn.
  assert (~ In (NStratClose i) l) by (intros Q; apply N; right; auto).
  destruct e; cbn; auto. destruct (Nat.eqb_spec i0 i); auto. subst. exfalso. apply N. left. auto.
Qed.

Lemma DS_init s : d_init s -> DS s.
Proof.
  intros (L & A & C & [(E & N & Lg)|(E & N & Lg)]); constructor; unfold at_work, c_has, closed; rewrite ?E, ?N, ?Lg; cbn; intros; auto; try lia.
  all: repeat match goal with H : _ \/ _ |- _ => destruct H | H : exists _, _ |- _ => destruct H | H : d_a _ _ = _ |- _ => rewrite A in H | H : d_c _ _ = _ |- _ => rewrite C in H | H : False |- _ => destruct H end; try discriminate; try congruence.
  - injection H as <-. repeat split; auto. + intros [Q|[]]. discriminate. + intros c [Q|Q]; rewrite C in Q; discriminate.
  - left. left. f_equal. lia.
  - split; [intros [Q|[]]; injection Q as <-; lia|]. intros Q. left. f_equal. lia.
Qed.

(** What a step does to the things DS speaks of. *)
Lemma DS_step s s' : DL s -> DS s -> dstep s s' -> DS s'.
Proof.
  intros D S0 H. pose proof (DL_step _ _ D H) as D'.
  assert (AS : forall j k i, d_a s k = AStore i -> forall i', d_a s j = AStore i' -> j = k).
  { intros j k i H0 i1 H1. apply (al_al s); auto; [rewrite H1|rewrite H0]; exact Logic.I. }
  constructor.
  - intros j. pose proof (ds_none _ S0 j) as O. inversion H; subst; cbn; auto; unfold fset; try (destruct (Nat.eqb_spec j k); [subst|]); auto;
      try (intros [Q|(i0 & Q)]; discriminate).
    + destruct (d_strat s); intros [Q|(i0 & Q)]; discriminate.
    + destruct (d_strat s); auto. intros [Q|(i0 & Q)]; discriminate.
    + intros Q. exfalso. apply n. apply (al_al s); auto; [|rewrite H0; exact Logic.I]. destruct Q as [Q|(z & Q)]; rewrite Q; exact Logic.I.
  - intros c o. pose proof (ds_clear _ S0 c o) as O. inversion H; subst; cbn; auto; unfold fset; try (destruct (Nat.eqb_spec c c0); [subst|]); auto; try discriminate.
    + intros Q. exfalso. apply (al_cl s k c); auto; [rewrite H0|rewrite Q]; exact Logic.I.
    + congruence.
    + intros Q. exfalso. apply n. apply (cl_cl s); auto; [rewrite Q|rewrite H0]; exact Logic.I.
  - intros c o. pose proof (ds_unlock _ S0 c o) as O. inversion H; subst; cbn; auto; unfold fset; try (destruct (Nat.eqb_spec c c0); [subst|]); auto; try discriminate.
    intros Q. exfalso. apply (al_cl s k c); auto; [rewrite H0|rewrite Q]; exact Logic.I.
  - intros i W.
    assert (OLD : at_work s i -> (forall c, c_has (d_c s' c) i -> c_has (d_c s c) i) -> (closed i (d_log s') -> closed i (d_log s)) -> d_next s <= d_next s' -> i < d_next s' /\ ~ closed i (d_log s') /\ forall c, ~ c_has (d_c s' c) i).
    { intros W0 K1 K2 K3. destruct (ds_work _ S0 _ W0) as (X & Y & Z). repeat split; [lia|auto|]. intros c Q. eapply Z; eauto. }
    assert (T : forall x, (forall j, x <> NStratClose j) -> closed i (x :: d_log s) -> closed i (d_log s)) by (intros x N [Q|Q]; auto; exfalso; eapply N; eauto).
    revert W. unfold at_work in *. inversion H; subst; cbn; intros W.
    all: try (apply OLD; cbn; [destruct W as [W|(j & W)]; [left; auto; congruence|right]; revert W; unfold fset; destruct (Nat.eqb_spec j k); subst; eauto; try discriminate; destruct (d_strat s); discriminate
       |auto|try (apply T; discriminate); auto|auto]; fail).
    all: try (apply OLD; cbn; [auto|unfold fset, c_has; intros b; destruct (Nat.eqb_spec b c); subst; auto; intros [Q|Q]; discriminate|try (apply T; discriminate); auto|auto]; fail).
    + (* create *)
      destruct W as [W|(j & W)].
      * rewrite (ds_none _ S0 k) in W by auto. discriminate.
      * revert W. unfold fset. destruct (Nat.eqb_spec j k); subst; intros W.
        -- injection W as <-. repeat split; [lia| |].
           ++ intros [Q|Q]; [discriminate|]. pose proof (ds_lt _ S0 _ Q). lia.
           ++ intros c Q. destruct (ds_has _ S0 _ _ Q). lia.
        -- exfalso. apply n. apply (al_al s); auto; [rewrite W|rewrite H0]; exact Logic.I.
    + (* store *)
      destruct W as [[= ->]|(j & W)].
      * apply OLD; cbn; eauto.
      * revert W. unfold fset. destruct (Nat.eqb_spec j k); subst; [discriminate|]. intros W. exfalso. apply n. eapply AS; eauto.
    + (* clear *)
      destruct W as [W|W]; [discriminate|]. destruct W as (j & W). exfalso. apply (al_cl s j c); auto; [rewrite W|rewrite H0]; exact Logic.I.
    + (* release *)
      apply OLD; cbn; auto. unfold fset, c_has. intros b. destruct (Nat.eqb_spec b c); subst; auto. intros [Q|Q]; [discriminate|]. left. congruence.
    + (* close *)
      assert (X : i0 <> i). { intros ->. destruct (ds_work _ S0 i W) as (_ & _ & Z). apply (Z c). right. auto. }
      apply OLD; cbn; auto. * unfold fset, c_has. intros b. destruct (Nat.eqb_spec b c); subst; auto. intros [Q|Q]; discriminate. * intros [Q|Q]; auto. congruence.
  - intros c i.
    assert (OLD : c_has (d_c s c) i -> (closed i (d_log s') -> closed i (d_log s)) -> d_next s <= d_next s' -> i < d_next s' /\ ~ closed i (d_log s')).
    { intros Q K1 K2. destruct (ds_has _ S0 _ _ Q). split; [lia|auto]. }
    assert (T : forall x, (forall j, x <> NStratClose j) -> closed i (x :: d_log s) -> closed i (d_log s)) by (intros x N [Q|Q]; auto; exfalso; eapply N; eauto).
    inversion H; subst; cbn in *; intros W; try (apply OLD; auto; apply T; discriminate).
    all: revert W; unfold fset; destruct (Nat.eqb_spec c c0); [subst; try (intros [W|W]; discriminate)|try (intros W; apply OLD; auto; apply T; discriminate)].
    + intros [W|W]; [|discriminate]. injection W as ->. destruct (ds_work _ S0 i) as (X & Y & _); auto. left. eapply (ds_clear _ S0); eauto.
    + intros [W|W]; [discriminate|]. injection W as ->. apply OLD; auto. left. auto.
    + intros W. apply OLD; auto. intros [Q|Q]; auto. injection Q as ->. exfalso. apply n. apply (ds_uniq _ S0 _ _ i); auto. right. auto.
  - intros b c i. pose proof (ds_uniq _ S0 b c i) as O. inversion H; subst; cbn; auto; unfold fset.
    all: destruct (Nat.eqb_spec b c0), (Nat.eqb_spec c c0); subst; auto; unfold c_has in *; try (intros; match goal with Q : _ \/ _ |- _ => destruct Q; discriminate end).
    + intros [W|W] W2; [|discriminate]. injection W as ->. exfalso. destruct (ds_work _ S0 i) as (_ & _ & Z); [left; eapply (ds_clear _ S0); eauto|]. eapply Z; eauto.
    + intros W2 [W|W]; [|discriminate]. injection W as ->. exfalso. destruct (ds_work _ S0 i) as (_ & _ & Z); [left; eapply (ds_clear _ S0); eauto|]. eapply Z; eauto.
    + intros [W|W] W2; [discriminate|]. injection W as ->. apply O; auto.
    + intros W2 [W|W]; [discriminate|]. injection W as ->. apply O; auto.
  - intros i.
    assert (OLD : i < d_next s -> (d_strat s = Some i -> d_strat s' = Some i \/ (exists c, c_has (d_c s' c) i)) -> (forall k, d_a s k = AStore i -> at_work s' i) ->
       (forall c, c_has (d_c s c) i -> (exists c, c_has (d_c s' c) i) \/ closed i (d_log s')) -> (closed i (d_log s) -> closed i (d_log s')) -> at_work s' i \/ (exists c, c_has (d_c s' c) i) \/ closed i (d_log s')).
    { intros L K1 K2 K3 K4. destruct (ds_all _ S0 i L) as [[Q|(k & Q)]|[(c & Q)|Q]]; auto; [|left; eauto|right; eauto]. destruct (K1 Q); auto. left. left. auto. }
    assert (A : forall k i0 v, (forall j, i = j -> d_a s k <> AStore j) -> d_a s i0 = AStore i -> exists k0, fset (d_a s) k v k0 = AStore i).
    { intros k i0 v N Q. exists i0. unfold fset. destruct (Nat.eqb_spec i0 k); auto. subst. exfalso. eapply N; eauto. }
    assert (C : forall c b v, (forall j, i = j -> ~ c_has (d_c s c) j) -> c_has (d_c s b) i -> exists c0, c_has (fset (d_c s) c v c0) i).
    { intros c b v N Q. exists b. unfold fset. destruct (Nat.eqb_spec b c); auto. subst. exfalso. eapply N; eauto. }
    inversion H; subst; cbn; intros L.
    all: try (apply OLD; cbn; [lia|auto|intros j Q; right; cbn; apply (A _ j); [intros; congruence|auto]|eauto|unfold closed; cbn; tauto]; fail).
    all: try (apply OLD; cbn; [lia|auto|intros j Q; right; cbn; eauto|intros b Q; left; apply (C _ b); [intros ? ? [X|X]; congruence|auto]|unfold closed; cbn; tauto]; fail).
    + destruct (Nat.eq_dec i (d_next s)) as [->|].
      * left. right. exists k. cbn. apply fset_same.
      * apply OLD; cbn; [lia|auto|intros j Q; right; cbn; apply (A _ j); [intros; congruence|auto]|eauto|unfold closed; cbn; tauto].
    + apply OLD; cbn; eauto.
      * intros Q. exfalso. rewrite (ds_none _ S0 k) in Q by eauto. discriminate.
      * intros j Q. left. cbn. assert (j = k) by (eapply AS; eauto). subst. congruence.
    + apply OLD; cbn; auto.
      * intros Q. right. exists c. rewrite fset_same. left. f_equal. rewrite <- Q. symmetry. eapply (ds_clear _ S0); eauto.
      * intros j Q. right. cbn. eauto.
      * intros b Q. left. apply (C _ b); auto. intros ? ? [X|X]; congruence.
    + apply OLD; cbn; auto.
      * intros j Q. right. cbn. eauto.
      * intros b Q. left. destruct (Nat.eq_dec b c) as [->|].
        -- exists c. rewrite fset_same. destruct Q as [Q|Q]; [right; congruence|congruence].
        -- exists b. rewrite fset_other; auto.
    + apply OLD; unfold closed; cbn; auto.
      * intros j Q. right. cbn. eauto.
      * intros b Q. destruct (Nat.eq_dec b c) as [->|].
        -- right. left. destruct Q as [Q|Q]; congruence.
        -- left. exists b. rewrite fset_other; auto.
  - intros i. pose proof (ds_lt _ S0 i) as O. inversion H; subst; cbn; auto; unfold closed; cbn; intros [Q|Q]; try discriminate; auto.
    { specialize (O Q). lia. } injection Q as ->. destruct (ds_has _ S0 c i); auto. right. auto.
  - intros i. pose proof (ds_once _ S0 i) as O. inversion H; subst; cbn; auto; unfold n_ev; cbn; auto.
    destruct (Nat.eqb_spec i0 i); auto. subst. cbn. fold (n_ev (is_sclose i) (d_log s)). rewrite n_ev_0; auto.
    destruct (ds_has _ S0 c i); auto. right. auto.
  - pose proof (ds_created _ S0) as O. inversion H; subst; cbn; auto; unfold n_ev in *; cbn; auto.
  - intros i. pose proof (ds_names _ S0 i) as O. inversion H; subst; cbn; auto; try (rewrite <- O; split; [intros [Q|Q]; [discriminate|auto]|auto]).
    split; [intros [Q|Q]; [injection Q as <-; lia|apply O in Q; lia]|]. intros Q. destruct (Nat.eq_dec i (d_next s)); [left; f_equal; lia|right; apply O; lia].
Qed.
Lemma d_inv s : dreach s -> DL s /\ DS s.
Proof.
  induction 1 as [s H|s s' R (D & S0) H].
  - split; [|apply DS_init; auto]. destruct H as (L & A & C & _). split; intros; rewrite ?A, ?C, L; cbn; split; try tauto; discriminate.
  - split; [eapply DL_step|eapply DS_step]; eauto.
Qed.

(** *** Counting *)
Definition late (x : cpc) : Prop := match x with CUnlock _ | CCall _ | CEnd => True | _ => False end.
Record DN (s : dst) : Prop := {
  dn_cl : exists l, NoDup l /\ (forall c, In c l -> late (d_c s c)) /\ d_next s <= List.length l + 1 /\ ((forall i, ~ at_work s i) -> d_next s <= List.length l);
  dn_log : forall c, d_c s c <> CNone -> In (NClosing c) (d_log s) }.
Lemma DN_step s s' : DL s -> DS s -> DN s -> dstep s s' -> DN s'.
Proof.
  intros D S0 [(l & ND & LT & N1 & N2) LG] H. split.
  - assert (LATE : forall c, late (d_c s c) -> late (d_c s' c)).
    { intros c. inversion H; subst; cbn; auto; unfold fset; destruct (Nat.eqb_spec c c0); subst; cbn; auto; rewrite H0; cbn; auto. }
    assert (SAME : d_next s' = d_next s -> (forall i, at_work s i -> at_work s' i) -> exists l, NoDup l /\ (forall c, In c l -> late (d_c s' c)) /\ d_next s' <= List.length l + 1 /\ ((forall i, ~ at_work s' i) -> d_next s' <= List.length l)).
    { intros E W. exists l. rewrite E. repeat split; auto. intros Q. apply N2. intros i X. eapply Q; eauto. }
    assert (A : forall k v i, (forall j, d_a s k <> AStore j) -> (exists j, d_a s j = AStore i) -> exists j, fset (d_a s) k v j = AStore i).
    { intros k v i N (j & Q). exists j. unfold fset. destruct (Nat.eqb_spec j k); auto. subst. congruence. }
    inversion H; subst; try (apply SAME; [reflexivity|]; intros z [Q|Q]; [left; exact Q|right; cbn; first [exact Q|apply A; [intros; congruence|exact Q]]]; fail).
    + exists l. cbn. repeat split; auto.
      * cut (d_next s <= List.length l); [lia|]. apply N2. intros i [Q|(j & Q)].
        -- rewrite (ds_none _ S0 k) in Q by auto. discriminate.
        -- assert (j = k) by (apply (al_al s); auto; [rewrite Q|rewrite H0]; exact Logic.I). congruence.
      * intros Q. exfalso. apply (Q (d_next s)). right. exists k. cbn. apply fset_same.
    + apply SAME; [reflexivity|]. intros z [Q|(j & Q)].
      * rewrite (ds_none _ S0 k) in Q by eauto. discriminate.
      * left. cbn. assert (j = k) by (apply (al_al s); auto; [rewrite Q|rewrite H0]; exact Logic.I). congruence.
    + pose proof (ds_clear _ S0 _ _ H0) as E. destruct o as [i|].
      * exists (c :: l). cbn. repeat split; auto; try lia.
        -- constructor; auto. intros Q. apply LT in Q. rewrite H0 in Q. exact Q.
        -- intros b [->|Q]; [rewrite fset_same; exact Logic.I|]. apply LT in Q. apply LATE in Q. exact Q.
      * apply SAME; [reflexivity|]. intros z [Q|Q]; [congruence|]. right. exact Q.
  - intros c. pose proof (LG c) as O. inversion H; subst; cbn; auto; unfold fset; destruct (Nat.eqb_spec c c0); subst; auto; intros _; try (apply LG; congruence); right; apply LG; congruence.
Qed.
Lemma d_inv_n s : dreach s -> DN s.
Proof.
  induction 1 as [s H|s s' R N H].
  - destruct H as (L & A & C & [(E & N & Lg)|(E & N & Lg)]); split; try (intros c Q; rewrite C in Q; congruence); exists []; rewrite N; cbn; repeat split; auto; try constructor; try tauto; try lia.
    intros Q. exfalso. apply (Q 0). left. auto.
  - destruct (d_inv s R). eapply DN_step; eauto.
Qed.

(** *** C61 *)

(** However many threads call add_child_handler and close: the number of
    strategies created is at most one more than the number of close calls, and
    each strategy is closed at most once. *)
Theorem c61_bounded s :
  dreach s -> n_ev is_created (d_log s) <= 1 + n_ev is_closing (d_log s) /\ forall i, n_ev (is_sclose i) (d_log s) <= 1.
Proof.
  intros R. destruct (d_inv s R) as (D & S0). destruct (d_inv_n s R) as [(l & ND & LT & N1 & _) LG]. split; [|apply (ds_once _ S0)].
  rewrite (ds_created _ S0). cut (List.length l <= n_ev is_closing (d_log s)); [lia|]. unfold n_ev. rewrite <- (map_length NClosing l).
  apply NoDup_incl_length.
  - apply FinFun.Injective_map_NoDup; auto. intros x y [= ->]. auto.
  - intros x Q. apply in_map_iff in Q. destruct Q as (c & <- & Q). apply filter_In. split; auto. apply LG. apply LT in Q. intros E. rewrite E in Q. exact Q.
Qed.
(** When no call is running, a strategy that was created and not closed is the
    one that the watcher uses (and that the next close() will close). *)
Theorem c61_nothing_lost s i :
  dreach s -> (forall k, d_a s k = ANone \/ d_a s k = AOk \/ d_a s k = AFailed) -> (forall c, d_c s c = CNone \/ d_c s c = CEnd) ->
  In (NCreated i) (d_log s) -> closed i (d_log s) \/ d_strat s = Some i.
Proof.
  intros R QA QC C. destruct (d_inv s R) as (D & S0). apply (ds_names _ S0) in C. destruct (ds_all _ S0 i C) as [[Q|(k & Q)]|[(c & [Q|Q])|Q]]; auto.
  - destruct (QA k) as [X|[X|X]]; congruence.
  - destruct (QC c) as [X|X]; congruence.
  - destruct (QC c) as [X|X]; congruence.
Qed.
(** A thread that holds the lock can always go on, and gives it back after at
    most four steps of its own, whatever the other threads do. *)
Definition lock_left (s : dst) : nat :=
  match d_lock s with
  | None => 0
  | Some (HAdd k) => match d_a s k with ARetest => 4 | ACreate => 3 | AStore _ => 2 | _ => 1 end
  | Some (HClose c) => match d_c s c with CTake => 3 | CClear _ => 2 | _ => 1 end
  end.
Theorem c61_no_deadlock s :
  dreach s -> d_lock s <> None ->
  (exists s', dstep s s' /\ lock_left s' < lock_left s) /\ (forall s', dstep s s' -> lock_left s' <= lock_left s).
Proof.
  intros R N. destruct (d_inv s R) as (D & S0). split.
  - destruct (d_lock s) as [[k|c]|] eqn:L; [| |congruence].
    + pose proof (proj2 (dl_a _ D k) L) as A. destruct (d_a s k) eqn:E; try (exfalso; exact A); eexists;
        (split; [first [apply (d_retest s k E)|apply (d_create s k E)|apply (d_store s k _ E)|apply (d_release s k E)|apply (d_release_err s k E)]|]); unfold lock_left; cbn; rewrite ?L, ?E, ?fset_same; try lia.
      destruct (d_strat s); cbn; lia.
    + pose proof (proj2 (dl_c _ D c) L) as A. destruct (d_c s c) eqn:E; try (exfalso; exact A); eexists;
        (split; [first [apply (d_take s c E)|apply (d_clear s c _ E)|apply (d_crelease s c _ E)]|]); unfold lock_left; cbn; rewrite ?L, ?E, ?fset_same; lia.
  - intros s' H. unfold lock_left. destruct (d_lock s) as [[k|c]|] eqn:L; [| |congruence].
    + pose proof (proj2 (dl_a _ D k) L) as A. inversion H; subst; cbn; rewrite ?L; try lia; try congruence; unfold fset; try (destruct (Nat.eqb_spec k k0); [subst; rewrite H0 in *|]; cbn in *; try contradiction; try lia).
      destruct (d_strat s); cbn; lia.
    + pose proof (proj2 (dl_c _ D c) L) as A. inversion H; subst; cbn; rewrite ?L; try lia; try congruence; unfold fset; try (destruct (Nat.eqb_spec c c0); [subst; rewrite H0 in *|]; cbn in *; try contradiction; try lia).
Qed.

(** *** C75: calls that do not overlap a close() *)
Definition quiet (s : dst) : Prop := forall c, d_c s c = CNone \/ d_c s c = CEnd.
(** An execution in which no close() call is running. *)
Inductive qsteps : dst -> dst -> Prop :=
| q_refl : forall s, qsteps s s
| q_step : forall s s' s'', qsteps s s' -> dstep s' s'' -> quiet s'' -> qsteps s s''.
Lemma ev_of_call s k : dreach s -> (In (NNoStrategy k) (d_log s) \/ exists i, In (NWatch k i) (d_log s)) -> d_a s k = AOk \/ d_a s k = AFailed.
Proof.
  induction 1 as [s H|s s' R IH H].
  - destruct H as (L & A & C & [(E & N & Lg)|(E & N & Lg)]); rewrite Lg; intros [Q|(i & Q)]; cbn in Q; repeat destruct Q as [Q|Q]; try contradiction; discriminate.
  - intros Q. assert (X : (In (NNoStrategy k) (d_log s) \/ exists i, In (NWatch k i) (d_log s)) \/ d_a s' k = AOk \/ d_a s' k = AFailed).
    { revert Q. inversion H; subst; cbn; auto; intros [[Q|Q]|(z & [Q|Q])]; try discriminate; eauto; injection Q as ->; rewrite fset_same; auto. }
    destruct X as [X|X]; auto. specialize (IH X). inversion H; subst; cbn; auto; unfold fset; destruct (Nat.eqb_spec k k0); subst; auto; destruct IH; congruence.
Qed.
Lemma q_inv s s' k : dreach s -> quiet s -> d_a s k = ANone -> qsteps s s' ->
  dreach s' /\ quiet s' /\ ~ In (NNoStrategy k) (d_log s') /\
  (match d_a s' k with AUnlock | AAssert | AUse => d_strat s' <> None | AWatch i => d_strat s' = Some i | _ => True end) /\
  (forall i, In (NWatch k i) (d_log s') -> d_strat s' = Some i) /\ (forall i, d_strat s = Some i -> d_strat s' = Some i).
Proof.
  intros R Z A T. induction T as [s|s s1 s2 T IH H Z2].
  - repeat split; auto.
    + intros Q. destruct (ev_of_call s k R); auto; congruence.
    + rewrite A. exact Logic.I.
    + intros i Q. destruct (ev_of_call s k R); eauto; congruence.
  - destruct (IH R Z A) as (R1 & Z1 & B1 & B2 & B3 & B4). clear IH. split; [eapply dr_step; eauto|]. split; auto.
    destruct (d_inv s1 R1) as (D1 & S1).
    assert (K : forall i, d_strat s1 = Some i -> d_strat s2 = Some i).
    { intros i E. inversion H; subst; cbn; auto.
      - rewrite (ds_none _ S1 k0) in E by eauto. discriminate.
      - destruct (Z1 c); congruence. }
    split; [|split; [|split]].
    + inversion H; subst; cbn; auto; intros [Q|Q]; auto; try discriminate; injection Q as ->; rewrite H0 in B2; auto.
    + revert B2. inversion H; subst; cbn; auto; unfold fset; try (destruct (Nat.eqb_spec k k0); [subst|]; auto); try (rewrite H0; intros B2; auto; congruence); try (intros _; congruence).
      * destruct (d_strat s1); auto. intros _. discriminate.
      * destruct (d_strat s1); auto. intros _. discriminate.
      * intros B2. assert (X : d_strat s1 = None) by (apply (ds_none _ S1 k0); eauto). destruct (d_a s1 k); auto; congruence.
      * destruct (Z1 c); congruence.
    + intros i Q. assert (X : In (NWatch k i) (d_log s1) \/ d_strat s2 = Some i).
      { revert Q. inversion H; subst; cbn; auto; intros [Q|Q]; auto; try discriminate. injection Q as -> ->. rewrite H0 in B2. auto. }
      destruct X; auto.
    + intros i Q. auto.
Qed.
(** A call of add_child_handler that runs while no close() runs (closed or not
    closed before) does not fail for lack of a strategy, and watches with a
    strategy that is not closed. *)
Theorem c75_no_overlap s s' k :
  dreach s -> quiet s -> d_a s k = ANone -> qsteps s s' ->
  ~ In (NNoStrategy k) (d_log s') /\ forall i, In (NWatch k i) (d_log s') -> ~ closed i (d_log s').
Proof.
  intros R Z A T. destruct (q_inv _ _ _ R Z A T) as (R1 & _ & B1 & _ & B3 & _). split; auto.
  intros i Q. apply B3 in Q. destruct (d_inv _ R1) as (_ & S1). apply (ds_work _ S1). left. auto.
Qed.

(** Without close(): exactly one strategy, used by all calls; no call fails
    except by an exception of the strategy's constructor. *)
Theorem c61_one_strategy s :
  dreach s -> (forall c, ~ In (NClosing c) (d_log s)) ->
  n_ev is_created (d_log s) <= 1 /\
  (forall k i, In (NWatch k i) (d_log s) -> In (NCreated i) (d_log s) /\ n_ev is_created (d_log s) = 1) /\
  (forall k, ~ In (NNoStrategy k) (d_log s)) /\
  forall k, d_a s k = AFailed -> In (NCtorError k) (d_log s).
Proof.
  intros R NC. destruct (d_inv s R) as (D & S0). destruct (c61_bounded s R) as (B & _).
  assert (E0 : n_ev is_closing (d_log s) = 0).
  { unfold n_ev. clear -NC. induction (d_log s) as [|x l IH]; auto. cbn. assert (forall c, ~ In (NClosing c) l) by (intros c Q; apply (NC c); right; auto).
    destruct x; cbn; auto. exfalso. apply (NC c). left. auto. }
  assert (T : exists s0, d_init s0 /\ qsteps s0 s).
  { clear B E0 D S0. induction R as [s H|s s' R IH H]; [exists s; split; [auto|constructor]|].
    assert (NC0 : forall c, ~ In (NClosing c) (d_log s)) by (intros c Q; apply (NC c); revert Q; inversion H; subst; cbn; auto).
    destruct (IH NC0) as (s0 & I0 & T). exists s0. split; auto. eapply q_step; eauto. intros c.
    destruct (d_c s' c) eqn:E; auto; exfalso; apply (NC c); apply (dn_log _ (d_inv_n _ (dr_step _ _ R H))); congruence. }
  destruct T as (s0 & I0 & T). assert (R0 := dr_init _ I0). destruct I0 as (_ & A0 & C0 & _).
  assert (K : forall k, _) by (exact (fun k => q_inv s0 s k R0 (fun c => or_introl (C0 c)) (A0 k) T)).
  split; [lia|]. split; [|split].
  - intros k i Q. destruct (K k) as (_ & _ & _ & _ & X & _). apply X in Q. destruct (ds_work _ S0 i) as (L & _); [left; auto|].
    split; [apply (ds_names _ S0); auto|]. rewrite (ds_created _ S0) in *. lia.
  - intros k. apply (K k).
  - intros k F. assert (Z : In (NCtorError k) (d_log s) \/ In (NNoStrategy k) (d_log s)).
    { clear -R F. induction R as [s H|s s' R IH H]; [destruct H as (_ & A & _); rewrite A in F; discriminate|]. revert F.
      inversion H; subst; cbn; auto; unfold fset; try (intros F; destruct (IH F); auto; fail); destruct (Nat.eqb_spec k k0); subst; auto; try discriminate; try (destruct (d_strat s); discriminate); intros F; destruct (IH F); auto. }
    destruct Z as [Z|Z]; auto. exfalso. apply (proj1 (proj2 (proj2 (K k))) Z).
Qed.
Print Assumptions c61_bounded.
Print Assumptions c61_nothing_lost.
Print Assumptions c61_no_deadlock.
Print Assumptions c61_one_strategy.
Print Assumptions c75_no_overlap.

(** *** Concrete executions *)
Definition dx0 : dst := mk_dst None None 0 (fun _ => ANone) (fun _ => CNone) [].
Lemma dx0_ok : dreach dx0.
Proof. apply dr_init. unfold d_init, dx0; cbn. auto 10. Qed.
Ltac dadv c :=
  match goal with R : dreach ?s |- _ =>
    let H := fresh "R" in
    eassert (H : dreach _) by (eapply dr_step; [exact R|eapply (c s); cbn; first [reflexivity|discriminate]]);
    clear R; let T := type of H in let T' := eval lazy in T in let K := fresh "R" in assert (K : T') by (exact H); clear H
  end.
(** Two calls that both find no strategy: one strategy, both use it. *)
Example c61_nontrivial : exists s, dreach s /\ (forall c, ~ In (NClosing c) (d_log s)) /\ In (NWatch 0 0) (d_log s) /\ In (NWatch 1 0) (d_log s).
Proof.
  pose proof dx0_ok as R.
  dadv (fun s => d_call s 0). dadv (fun s => d_call s 1). dadv (fun s => d_test s 0). dadv (fun s => d_test s 1).
  dadv (fun s => d_acquire s 1). dadv (fun s => d_retest s 1). dadv (fun s => d_create s 1). dadv (fun s => d_store s 1 0). dadv (fun s => d_release s 1).
  dadv (fun s => d_acquire s 0). dadv (fun s => d_retest s 0). dadv (fun s => d_release s 0). dadv (fun s => d_assert s 0). dadv (fun s => d_assert s 1).
  dadv (fun s => d_use s 1 0). dadv (fun s => d_use s 0 0). dadv (fun s => d_watch s 0 0). dadv (fun s => d_watch s 1 0).
  eexists. split; [eassumption|]. cbn. split; [intuition discriminate|]. auto.
Qed.
(** The claim without the restriction to calls that do not overlap a close():
    a call that returns has watched with a strategy that was not closed at that
    moment, and no call fails for lack of a strategy. *)
Definition c75_full_claim : Prop := forall s,
  dreach s -> (forall k, ~ In (NNoStrategy k) (d_log s)) /\ forall k i, d_a s k = AWatch i -> ~ closed i (d_log s).
Ltac dx_start :=
  dadv (fun s => d_call s 0); dadv (fun s => d_test s 0); dadv (fun s => d_acquire s 0); dadv (fun s => d_retest s 0); dadv (fun s => d_create s 0); dadv (fun s => d_store s 0 0); dadv (fun s => d_release s 0).
Ltac dx_close :=
  dadv (fun s => d_close s 0); dadv (fun s => d_cacquire s 0); dadv (fun s => d_take s 0); dadv (fun s => d_clear s 0 (Some 0)); dadv (fun s => d_crelease s 0 (Some 0)).
Theorem c75_refuted : ~ c75_full_claim.
Proof.
  intros C. pose proof dx0_ok as R. dx_start. dx_close. dadv (fun s => d_assert_err s 0).
  apply (proj1 (C _ R) 0). cbn. auto.
Qed.
Print Assumptions c75_refuted.
(** The second half fails too: the child is watched by a closed strategy. *)
Definition c75_watch_claim : Prop := forall s, dreach s -> forall k i, d_a s k = AWatch i -> ~ closed i (d_log s).
Theorem c75_watch_refuted : ~ c75_watch_claim.
Proof.
  intros C. pose proof dx0_ok as R. dx_start. dadv (fun s => d_assert s 0). dadv (fun s => d_use s 0 0). dx_close. dadv (fun s => d_cclose s 0 0).
  apply (C _ R 0 0); cbn; auto.
Qed.
Print Assumptions c75_watch_refuted.
(** A watcher that was closed is used again. *)
Example c75_nontrivial : exists s s', dreach s /\ quiet s /\ d_a s 1 = ANone /\ closed 0 (d_log s) /\ qsteps s s' /\ In (NWatch 1 1) (d_log s').
Proof.
  assert (X : exists s, dreach s /\ quiet s /\ d_strat s = None /\ d_lock s = None /\ d_next s = 1 /\ d_a s 1 = ANone /\ closed 0 (d_log s)).
  { pose proof dx0_ok as R. dx_start. dadv (fun s => d_assert s 0). dadv (fun s => d_use s 0 0). dadv (fun s => d_watch s 0 0). dx_close. dadv (fun s => d_cclose s 0 0).
    eexists. split; [eassumption|]. cbn. split; [intros [|c]; cbn; auto|]. unfold closed. cbn. auto 8. }
  destruct X as (s & R & Z & S0 & L & N & A & C).
  assert (T := q_refl s).
  assert (T1 := q_step _ _ _ T (d_call s 1 A) Z). clear T.
  assert (H := d_test (d_set_a 1 ATest s) 1 eq_refl). cbn in H. rewrite S0 in H. assert (T := q_step _ _ _ T1 H Z). clear T1 H.
  match type of T with qsteps _ ?x => assert (T1 := q_step _ _ _ T (d_acquire x 1 eq_refl L) Z) end. clear T.
  match type of T1 with qsteps _ ?x => assert (H := d_retest x 1 eq_refl) end. cbn in H. rewrite S0 in H. assert (T := q_step _ _ _ T1 H Z). clear T1 H.
  match type of T with qsteps _ ?x => assert (H := d_create x 1 eq_refl) end. cbn in H. rewrite N in H. assert (T1 := q_step _ _ _ T H Z). clear T H.
  match type of T1 with qsteps _ ?x => assert (T := q_step _ _ _ T1 (d_store x 1 1 eq_refl) Z) end. clear T1.
  match type of T with qsteps _ ?x => assert (T1 := q_step _ _ _ T (d_release x 1 eq_refl) Z) end. clear T.
  match type of T1 with qsteps _ ?x => assert (H := d_assert x 1 eq_refl ltac:(discriminate)) end. assert (T := q_step _ _ _ T1 H Z). clear T1 H.
  match type of T with qsteps _ ?x => assert (T1 := q_step _ _ _ T (d_use x 1 1 eq_refl eq_refl) Z) end. clear T.
  match type of T1 with qsteps _ ?x => assert (T := q_step _ _ _ T1 (d_watch x 1 1 eq_refl) Z) end. clear T1.
  do 2 eexists. repeat (split; [eassumption|]). cbn. auto.
Qed.
