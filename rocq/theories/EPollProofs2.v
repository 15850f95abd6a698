(** Invariants of the epoll watcher: descriptors, dictionary, epoll set. *)
From Verif Require Import Base EPollModel EPollProofs.
From Coq Require Import List ZArith Lia Bool.
Import ListNotations.
Local Open Scope nat_scope.

Section Inv.
Context (ordered bad_cb : bool) (rfd wfd efd : nat).
Notation estep := (estep ordered bad_cb rfd efd).
Notation ereach := (ereach ordered bad_cb rfd wfd efd).

Definition pre3 (pc : tpc) : Prop := match pc with TFin3 _ | TFin4 | TDone => False | _ => True end.
Definition pre2 (pc : tpc) : bool := match pc with TFin2 | TFin3 _ | TFin4 | TDone => false | _ => true end.
(** The descriptor being handled, taken from the dictionary, still registered. *)
Definition popped (pc : tpc) (f : nat) : Prop :=
  match pc with TWait _ g _ => g = f | TCall _ _ g _ => g = f | TUnreg g _ => g = f | _ => False end.
(** Reported by epoll and still registered. *)
Definition th_fds (pc : tpc) : list nat :=
  match pc with
  | TLoop l => l | TPop f l => f :: l | TWait _ f l => f :: l | TCall _ _ f l => f :: l
  | TUnreg f l => f :: l | TClose _ l => l | _ => [] end.
(** Past the dictionary entry. *)
Definition past_dict (x : wpc) : Prop := match x with WNone | WOpen | WDict _ => False | _ => True end.
Definition past_open (x : wpc) : Prop := match x with WNone | WOpen => False | _ => True end.
Definition own (o : obj) : Prop := match o with OOther _ => False | _ => True end.

Definition th_ok (s : est) : Prop :=
  match e_pc s with
  | TPop f l => f <> rfd
  | TWait k f l => f <> rfd /\ e_fdt s f = Some (OPid k) /\ e_w s k = WOk f /\ e_dict s f = None
  | TCall k _ f l => f <> rfd /\ e_fdt s f = Some (OPid k) /\ e_w s k = WOk f /\ e_dict s f = None
  | TUnreg f l => f <> rfd /\ exists k, e_fdt s f = Some (OPid k) /\ e_w s k = WOk f /\ e_dict s f = None
  | TClose f l => f <> rfd /\ e_reg s f = false /\ ~ In f l /\
      exists k, e_fdt s f = Some (OPid k) /\ e_w s k = WOk f /\ e_dict s f = None
  | TFin3 l => NoDup l /\ forall f, In f l -> exists o, e_fdt s f = Some o /\ own o
                /\ (forall k, o = OPid k -> past_dict (e_w s k))
  | _ => True
  end.

Record IB (s : est) : Prop := {
  b_uniq : forall f f' k, e_fdt s f = Some (OPid k) -> e_fdt s f' = Some (OPid k) -> f = f';
  b_past : forall f k, e_fdt s f = Some (OPid k) -> past_open (e_w s k);
  b_r : forall f, e_fdt s f = Some OPipeR -> f = rfd;
  b_w : forall f, e_fdt s f = Some OPipeW -> f = wfd;
  b_e : forall f, e_fdt s f = Some OEpoll -> f = efd;
  b_rw : pre3 (e_pc s) -> e_fdt s rfd = Some OPipeR /\ e_fdt s wfd = Some OPipeW;
  b_ep : pre2 (e_pc s) = true -> e_fdt s efd = Some OEpoll;
  b_self : e_pc s <> TDone -> e_self s = Some (rfd, wfd);
  b_eopen : e_eopen s = pre2 (e_pc s);
  b_shut : e_eopen s = false -> (forall f, e_reg s f = false) /\ e_ready s = [];
  b_wdict : forall k f, e_w s k = WDict f -> e_fdt s f = Some (OPid k);
  b_dictw : forall f k, e_dict s f = Some k -> past_dict (e_w s k);
  b_dict : pre3 (e_pc s) -> forall f k, e_dict s f = Some k -> e_fdt s f = Some (OPid k);
  b_wreg : pre3 (e_pc s) -> forall k f, e_w s k = WReg f -> e_dict s f = Some k;
  b_reg : forall f, e_reg s f = true -> f = rfd \/
     exists k, e_fdt s f = Some (OPid k) /\ e_w s k = WOk f /\ (e_dict s f = Some k \/ popped (e_pc s) f \/ e_pc s = TFin1);
  b_regr : e_eopen s = true -> e_reg s rfd = true;
  b_ready : forall f, In f (e_ready s) -> e_reg s f = true;
  b_rnd : NoDup (e_ready s);
  b_rex : forall f k, In f (e_ready s) \/ In f (th_fds (e_pc s)) -> e_fdt s f = Some (OPid k) -> exited (e_proc s (e_wproc s k)) = true;
  b_rcl : In rfd (e_ready s) \/ In rfd (th_fds (e_pc s)) -> e_close s = CJoin \/ e_close s = CDone;
  b_thnd : NoDup (th_fds (e_pc s));
  b_threg : forall f, In f (th_fds (e_pc s)) -> e_reg s f = true;
  b_th : th_ok s }.

Ltac step H := inversion H; subst; clear H; rewrite ?os_close_eq; cbn.

Lemma pc_eqs (s : est) : True. Proof. exact I. Qed.

(** Clause by clause. *)
Ltac pcs := repeat match goal with E : e_pc ?s = _ |- _ => rewrite E in *; clear E end.

Lemma past_mono s s' k : estep s s' -> past_open (e_w s k) -> past_open (e_w s' k).
Proof. intros H. step H; auto; fs; intros P; try exact I; auto; exfalso; match goal with E : e_w s _ = _ |- _ => rewrite E in P; exact P end. Qed.
Lemma pastd_mono s s' k : estep s s' -> past_dict (e_w s k) -> past_dict (e_w s' k).
Proof. intros H. step H; auto; fs; intros P; try exact I; auto; exfalso; match goal with E : e_w s _ = _ |- _ => rewrite E in P; exact P end. Qed.

(** A descriptor that the program still has. *)
Lemma step_fdt s s' f : estep s s' ->
  e_fdt s' f = e_fdt s f
  \/ (e_fdt s f = None /\ exists n, e_fdt s' f = Some (OOther n))
  \/ (exists n, e_fdt s f = Some (OOther n) /\ e_fdt s' f = None)
  \/ (exists k, e_w s k = WOpen /\ e_fdt s f = None /\ e_fdt s' f = Some (OPid k) /\ e_w s' k = WDict f)
  \/ (e_fdt s' f = None /\ ((exists l, e_pc s = TClose f l /\ e_pc s' = TLoop l) \/ (e_pc s = TFin1 /\ f = efd /\ e_pc s' = TFin2)
      \/ exists l, e_pc s = TFin3 (f :: l) /\ e_pc s' = TFin3 l)).
Proof.
  intros H. step H; auto; unfold fset;
  try (destruct (e_fdt s fd) eqn:E; [|auto; fail]);
  try (destruct (e_fdt s efd) eqn:E; [|auto; fail]);
  try (destruct (Nat.eqb_spec f fd); [subst|auto; fail]);
  try (destruct (Nat.eqb_spec f efd); [subst|auto; fail]);
  rewrite ?Nat.eqb_refl; try solve [eauto 8];
  try solve [right; right; right; left; exists k; rewrite ?Nat.eqb_refl; auto];
  try solve [right; right; right; right; eauto 10]; try discriminate.
Qed.
(** Own objects appear only by e_open. *)
Lemma fdt_back s s' f o : estep s s' -> e_fdt s' f = Some o -> own o ->
  e_fdt s f = Some o \/ exists k, e_w s k = WOpen /\ e_fdt s f = None /\ o = OPid k /\ e_w s' k = WDict f.
Proof.
  intros H E W. destruct (step_fdt s s' f H) as [Q|[(Q & n & Q')|[(n & Q & Q')|[(k & W1 & W2 & W3 & W4)|(Q & _)]]]].
  - left. congruence.
  - rewrite E in Q'. injection Q' as ->. destruct W.
  - congruence.
  - right. exists k. rewrite E in W3. injection W3 as ->. auto.
  - congruence.
Qed.

Lemma b_uniq_step s s' : IB s -> estep s s' -> forall f f' k, e_fdt s' f = Some (OPid k) -> e_fdt s' f' = Some (OPid k) -> f = f'.
Proof.
  intros I H f f' k E E'.
  destruct (fdt_back s s' f _ H E) as [Q|(j & W & Q & [= <-] & W')]; [exact Logic.I| |];
  destruct (fdt_back s s' f' _ H E') as [R|(j' & W2 & R & [= <-] & W2')]; try exact Logic.I.
  - eapply b_uniq; eauto.
  - exfalso. apply (b_past _ I) in Q. rewrite W2 in Q. exact Q.
  - exfalso. apply (b_past _ I) in R. rewrite W in R. exact R.
  - congruence.
Qed.
Lemma b_past_step s s' : IB s -> estep s s' -> forall f k, e_fdt s' f = Some (OPid k) -> past_open (e_w s' k).
Proof.
  intros I H f k E. destruct (fdt_back s s' f _ H E) as [Q|(j & W & Q & [= <-] & W')]; [exact Logic.I| |].
  - eapply past_mono; eauto. eapply b_past; eauto.
  - rewrite W'. exact Logic.I.
Qed.
Lemma b_r_step s s' : IB s -> estep s s' -> forall f, e_fdt s' f = Some OPipeR -> f = rfd.
Proof. intros I H f E. destruct (fdt_back s s' f _ H E) as [Q|(j & W & Q & Z & W')]; [exact Logic.I| |discriminate]. eapply b_r; eauto. Qed.
Lemma b_w_step s s' : IB s -> estep s s' -> forall f, e_fdt s' f = Some OPipeW -> f = wfd.
Proof. intros I H f E. destruct (fdt_back s s' f _ H E) as [Q|(j & W & Q & Z & W')]; [exact Logic.I| |discriminate]. eapply b_w; eauto. Qed.
Lemma b_e_step s s' : IB s -> estep s s' -> forall f, e_fdt s' f = Some OEpoll -> f = efd.
Proof. intros I H f E. destruct (fdt_back s s' f _ H E) as [Q|(j & W & Q & Z & W')]; [exact Logic.I| |discriminate]. eapply b_e; eauto. Qed.

(** The state of the thread never goes back from closing. *)
Lemma pre3_back s s' : estep s s' -> pre3 (e_pc s') -> pre3 (e_pc s).
Proof.
  intros H. step H; auto; try (intros _; pcs; exact I);
  try (destruct (fd =? rfd)); pcs; cbn; auto.
Qed.
Lemma pre2_back s s' : estep s s' -> pre2 (e_pc s') = true -> pre2 (e_pc s) = true.
Proof.
  intros H. step H; auto; try (intros _; pcs; reflexivity); pcs; cbn; auto.
Qed.

(** Own descriptors are closed only by the thread. *)
Lemma fdt_keep s s' f o : estep s s' -> e_fdt s f = Some o -> own o ->
  e_fdt s' f = Some o \/ (exists l, e_pc s = TClose f l /\ e_pc s' = TLoop l) \/ (e_pc s = TFin1 /\ f = efd /\ e_pc s' = TFin2)
  \/ exists l, e_pc s = TFin3 (f :: l) /\ e_pc s' = TFin3 l.
Proof.
  intros H E W. destruct (step_fdt s s' f H) as [Q|[(Q & n & Q')|[(n & Q & Q')|[(k & W1 & W2 & W3 & W4)|(Q & K)]]]]; auto; try congruence.
  - left. congruence.
  - rewrite E in Q. injection Q as ->. destruct W.
Qed.

Lemma b_rw_step s s' : rfd <> efd -> wfd <> efd -> IB s -> estep s s' -> pre3 (e_pc s') -> e_fdt s' rfd = Some OPipeR /\ e_fdt s' wfd = Some OPipeW.
Proof.
  intros N1 N2 I H P. pose proof (pre3_back _ _ H P) as P0. destruct (b_rw _ I P0) as [A B].
  pose proof (b_th _ I) as T. unfold th_ok in T. split.
  - destruct (fdt_keep _ _ _ _ H A Logic.I) as [Q|[(l & E & E')|[(E & Q & E')|(l & E & E')]]]; auto.
    + rewrite E in T. destruct T as (T & _). congruence.
    + congruence.
    + rewrite E in P0. destruct P0.
  - destruct (fdt_keep _ _ _ _ H B Logic.I) as [Q|[(l & E & E')|[(E & Q & E')|(l & E & E')]]]; auto.
    + rewrite E in T. destruct T as (_ & _ & _ & k & T & _). congruence.
    + congruence.
    + rewrite E in P0. destruct P0.
Qed.
Lemma b_ep_step s s' : IB s -> estep s s' -> pre2 (e_pc s') = true -> e_fdt s' efd = Some OEpoll.
Proof.
  intros I H P. pose proof (pre2_back _ _ H P) as P0. pose proof (b_ep _ I P0) as A.
  pose proof (b_th _ I) as T. unfold th_ok in T.
  destruct (fdt_keep _ _ _ _ H A Logic.I) as [Q|[(l & E & E')|[(E & Q & E')|(l & E & E')]]]; auto.
  - rewrite E in T. destruct T as (_ & _ & _ & k & T & _). congruence.
  - rewrite E' in P. discriminate.
  - rewrite E in P0. discriminate.
Qed.

Lemma b_self_step s s' : IB s -> estep s s' -> e_pc s' <> TDone -> e_self s' = Some (rfd, wfd).
Proof. intros I H. pose proof (b_self _ I) as B. step H; auto; intros Q; try (apply B; congruence); congruence. Qed.
Lemma b_eopen_step s s' : IB s -> estep s s' -> e_eopen s' = pre2 (e_pc s').
Proof.
  intros I H. pose proof (b_eopen _ I) as B. step H; auto; rewrite ?B; pcs; auto;
  try (destruct (fd =? rfd); auto); try (destruct r; auto).
Qed.
Lemma b_shut_step s s' : IB s -> estep s s' -> e_eopen s' = false -> (forall f, e_reg s' f = false) /\ e_ready s' = [].
Proof.
  intros I H E. pose proof (b_shut _ I) as B. pose proof (b_eopen _ I) as O. revert E.
  step H; auto; intros E.
  - destruct (B E) as [B1 B2]. split; auto. rewrite B2. cbn. destruct l as [|x l]; auto. exfalso.
    destruct (proj1 (H2 x) (or_introl eq_refl)) as [Q _]. congruence.
  - congruence.
  - destruct (B E) as [B1 B2]. split; auto. rewrite B1. destruct (e_fdt s w) as [[]|]; auto.
  - rewrite O in E. pcs. discriminate.
  - destruct (B E) as [B1 B2]. rewrite B2. split; [intros f; fs; auto|reflexivity].
  - destruct (B E) as [B1 B2]. rewrite B2. split; [intros f; destruct (e_fdt s fd); fs; auto|destruct (e_fdt s fd); auto].
  - destruct (B E) as [B1 B2]. rewrite B2. split; [intros f; destruct (e_fdt s fd); fs; auto|destruct (e_fdt s fd); auto].
Qed.

(** Where a watch stands. *)
Lemma w_back s s' k x : estep s s' -> e_w s' k = x -> e_w s k <> x ->
  match x with
  | WNone => False
  | WOpen => e_w s k = WNone
  | WDict f => e_w s k = WOpen /\ e_fdt s f = None /\ e_fdt s' f = Some (OPid k)
  | WReg f => e_w s k = WDict f /\ e_dict s' f = Some k
  | WOk f => e_w s k = WReg f /\ e_eopen s = true /\ e_reg s' f = true
  | _ => past_dict (e_w s k) \/ e_w s k = WOpen
  end.
Proof.
  intros H E N. revert E. step H; try (intros E; contradiction); fs; intros E; try contradiction; subst x; cbn; auto; try congruence;
  rewrite ?Nat.eqb_refl; auto;
  match goal with E : e_w s _ = _ |- _ => rewrite E end; cbn; auto.
Qed.

Lemma b_wdict_step s s' : IB s -> estep s s' -> forall k f, e_w s' k = WDict f -> e_fdt s' f = Some (OPid k).
Proof.
  intros I H k f E.
  assert (D : e_w s k = WDict f \/ e_w s k <> WDict f).
  { destruct (e_w s k); try (right; discriminate). destruct (Nat.eq_dec fd f) as [->|]; [auto|right; congruence]. }
  destruct D as [D|D].
  - pose proof (b_wdict _ I _ _ D) as B. pose proof (b_th _ I) as T. unfold th_ok in T.
    destruct (fdt_keep _ _ _ _ H B Logic.I) as [Q|[(l & Z & E')|[(Z & Q & E')|(l & Z & E')]]]; auto; rewrite Z in T.
    + destruct T as (_ & _ & _ & k' & T1 & T2 & _). assert (k' = k) by congruence. subst. congruence.
    + subst. assert (P : pre2 (e_pc s) = true) by (rewrite Z; auto). apply (b_ep _ I) in P. congruence.
    + destruct T as (_ & T). destruct (T f) as (o & T1 & _ & T2); [left; auto|]. rewrite B in T1. injection T1 as <-.
      specialize (T2 k eq_refl). rewrite D in T2. destruct T2.
  - destruct (w_back _ _ _ _ H E D) as (_ & _ & Q). exact Q.
Qed.

Lemma dict_back s s' f k : estep s s' -> e_dict s' f = Some k -> e_dict s f = Some k \/ (e_w s k = WDict f /\ e_w s' k = WReg f).
Proof.
  intros H E. revert E. step H; auto; unfold fset; match goal with |- context [?a =? ?b] => destruct (Nat.eqb_spec a b); [subst|auto] end;
  try discriminate. intros [= <-]. right. rewrite Nat.eqb_refl. auto.
Qed.
Lemma b_dictw_step s s' : IB s -> estep s s' -> forall f k, e_dict s' f = Some k -> past_dict (e_w s' k).
Proof.
  intros I H f k E.
  pose proof (dict_back _ _ _ _ H E) as D.
  destruct D as [D|[_ D]]; [|rewrite D; exact Logic.I].
  eapply pastd_mono; eauto. eapply b_dictw; eauto.
Qed.
Lemma b_dict_step s s' : IB s -> estep s s' -> pre3 (e_pc s') -> forall f k, e_dict s' f = Some k -> e_fdt s' f = Some (OPid k).
Proof.
  intros I H P f k E. pose proof (pre3_back _ _ H P) as P0.
  assert (B : e_fdt s f = Some (OPid k)).
  { destruct (dict_back _ _ _ _ H E) as [D|[D _]]; [eapply b_dict; eauto|eapply b_wdict; eauto]. }
  pose proof (b_th _ I) as T. unfold th_ok in T.
  destruct (fdt_keep _ _ _ _ H B Logic.I) as [Q|[(l & Z & E')|[(Z & Q & E')|(l & Z & E')]]]; auto.
  - rewrite Z in T. destruct T as (_ & _ & _ & k' & T1 & T2 & T3). assert (k' = k) by congruence. subst.
    destruct (dict_back _ _ _ _ H E) as [D|[D _]]; congruence.
  - subst. assert (Q : pre2 (e_pc s) = true) by (rewrite Z; auto). apply (b_ep _ I) in Q. congruence.
  - rewrite Z in P0. destruct P0.
Qed.
(** Entries disappear only by the thread's pop, or are overwritten. *)
Lemma dict_keep s s' f k : estep s s' -> e_dict s f = Some k ->
  e_dict s' f = Some k \/ (exists l, e_pc s = TPop f l /\ e_pc s' = TWait k f l)
  \/ (exists j, e_w s j = WDict f /\ e_dict s' f = Some j).
Proof.
  intros H E. step H; auto; fs; eauto.
  right; left. exists l. split; auto. congruence.
Qed.
Lemma b_wreg_step s s' : IB s -> estep s s' -> pre3 (e_pc s') -> forall k f, e_w s' k = WReg f -> e_dict s' f = Some k.
Proof.
  intros I H P k f E. pose proof (pre3_back _ _ H P) as P0.
  assert (D : e_w s k = WReg f \/ e_w s k <> WReg f).
  { destruct (e_w s k); try (right; discriminate). destruct (Nat.eq_dec fd f) as [->|]; [auto|right; congruence]. }
  destruct D as [D|D].
  - pose proof (b_wreg _ I P0 _ _ D) as B. pose proof (b_dict _ I P0 _ _ B) as F.
    destruct (dict_keep _ _ _ _ H B) as [Q|[(l & Z & Z')|(j & W & Z)]]; auto.
    + pose proof (b_threg _ I f) as G. rewrite Z in G. specialize (G (or_introl eq_refl)).
      destruct (b_reg _ I f G) as [->|(k' & F' & W & _)].
      * destruct (b_rw _ I P0). congruence.
      * assert (k' = k) by congruence. subst. congruence.
    + apply (b_wdict _ I) in W. rewrite F in W. injection W as <-. exact Z.
  - destruct (w_back _ _ _ _ H E D) as (_ & Q). exact Q.
Qed.

Lemma reg_back s s' f : estep s s' -> e_reg s' f = true ->
  e_reg s f = true \/ exists k, e_w s k = WReg f /\ e_w s' k = WOk f /\ e_eopen s = true /\ e_fdt s' = e_fdt s /\ e_dict s' = e_dict s /\ e_pc s' = e_pc s.
Proof.
  intros H. step H; auto; unfold fset; try (destruct (e_fdt s fd)); try (destruct (e_fdt s efd)); auto; try discriminate;
  match goal with |- context [?a =? ?b] => destruct (Nat.eqb_spec a b); [subst|auto] end; try discriminate.
  all: intros _; right; exists k; rewrite Nat.eqb_refl; auto 8.
Qed.
Lemma wok_keep s s' k f : estep s s' -> e_w s k = WOk f -> e_w s' k = WOk f.
Proof. intros H E. step H; auto; fs; auto; congruence. Qed.
Lemma popped_keep s s' f : estep s s' -> popped (e_pc s) f -> popped (e_pc s') f \/ e_pc s' = TFin1 \/ e_reg s' f = false.
Proof.
  intros H P. step H; auto; pcs; cbn in P; try contradiction; subst; auto;
  try (destruct r; cbn; auto; fail); try (right; right; apply fset_same).

Qed.
Lemma tfin1_keep s s' f : estep s s' -> e_pc s = TFin1 -> e_pc s' = TFin1 \/ e_reg s' f = false.
Proof. intros H P. step H; auto; try congruence. Qed.

Lemma b_reg_step s s' : IB s -> estep s s' -> forall f, e_reg s' f = true -> f = rfd \/
     exists k, e_fdt s' f = Some (OPid k) /\ e_w s' k = WOk f /\ (e_dict s' f = Some k \/ popped (e_pc s') f \/ e_pc s' = TFin1).
Proof.
  intros I H f E. destruct (reg_back _ _ _ H E) as [B|(k & W & W' & O & F & D & PC)].
  - destruct (b_reg _ I f B) as [->|(k & F & W & K)]; [auto|right]. exists k.
    pose proof (wok_keep _ _ _ _ H W) as W'. pose proof (b_th _ I) as T. unfold th_ok in T.
    assert (EO : e_eopen s = true).
    { destruct (e_eopen s) eqn:Q; auto. apply (b_shut _ I) in Q. destruct Q as [Q _]. rewrite Q in B. discriminate. }
    assert (P2 : pre2 (e_pc s) = true) by (rewrite <- (b_eopen _ I); auto).
    split; [|split; [exact W'|]].
    + destruct (fdt_keep _ _ _ _ H F Logic.I) as [Q|[(l & Z & E')|[(Z & Q & E')|(l & Z & E')]]]; auto.
      * rewrite Z in T. destruct T as (_ & T & _). congruence.
      * subst. apply (b_ep _ I) in P2. congruence.
      * rewrite Z in P2. discriminate.
    + destruct K as [K|[K|K]].
      * destruct (dict_keep _ _ _ _ H K) as [Q|[(l & Z & Z')|(j & Wj & Z)]]; auto.
        -- right; left. rewrite Z'. reflexivity.
        -- apply (b_wdict _ I) in Wj. left. congruence.
      * destruct (popped_keep _ _ _ H K) as [Q|[Q|Q]]; auto. congruence.
      * destruct (tfin1_keep _ _ f H K) as [Q|Q]; auto. congruence.
  - right. exists k.
    assert (P2 : pre2 (e_pc s) = true) by (rewrite <- (b_eopen _ I); auto).
    assert (P3 : pre3 (e_pc s)) by (destruct (e_pc s); try exact Logic.I; discriminate).
    pose proof (b_wreg _ I P3 _ _ W) as D1. rewrite F, D. split; [|auto]. eapply b_dict; eauto.
Qed.
Lemma b_regr_step s s' : IB s -> estep s s' -> e_eopen s' = true -> e_reg s' rfd = true.
Proof.
  intros I H E. pose proof (b_regr _ I) as B. pose proof (b_th _ I) as T. unfold th_ok in T. pose proof (b_eopen _ I) as O. revert E.
  step H; auto; intros E; try discriminate.
  - fs; auto.
  - rewrite H0 in T. unfold fset. destruct (Nat.eqb_spec rfd fd); [|auto]. destruct T; congruence.
  - rewrite H0 in T. destruct (e_fdt s fd); auto. unfold fset. destruct (Nat.eqb_spec rfd fd); [|auto]. destruct T; congruence.
  - rewrite O, H0 in E. discriminate.
Qed.

(** epoll's ready list. *)
Lemma b_ready_step s s' : IB s -> estep s s' -> forall f, In f (e_ready s') -> e_reg s' f = true.
Proof.
  intros I H f. pose proof (b_ready _ I) as B. pose proof (b_regr _ I) as R. step H; auto; intros Q.
  - apply in_app_or in Q as [Q|Q]; auto. apply H2 in Q. tauto.
  - unfold fset. destruct (Nat.eqb_spec f fd); auto. apply B. destruct (exited _); auto. apply in_app_or in Q as [Q|[Q|[]]]; auto. congruence.
  - destruct (e_fdt s w) as [[]|]; auto. destruct (e_reg s rfd) eqn:E; auto. apply in_app_or in Q as [Q|[<-|[]]]; auto.
  - apply B. rewrite H2. apply in_app_or in Q as [Q|Q]; apply in_or_app; auto.
  - apply in_remove in Q. unfold fset. destruct (Nat.eqb_spec f fd); [tauto|apply B; tauto].
  - destruct (e_fdt s fd); auto. apply in_remove in Q. unfold fset. destruct (Nat.eqb_spec f fd); [tauto|apply B; tauto].
  - destruct (e_fdt s fd); auto. apply in_remove in Q. unfold fset. destruct (Nat.eqb_spec f fd); [tauto|apply B; tauto].
Qed.

Lemma NoDup_app {A} (l1 l2 : list A) : NoDup l1 -> NoDup l2 -> (forall x, In x l1 -> ~ In x l2) -> NoDup (l1 ++ l2).
Proof.
  induction 1 as [|x l1 N D IH]; intros D2 X; cbn; auto. constructor.
  - intros Q. apply in_app_or in Q as [Q|Q]; [auto|]. apply (X x); [left; auto|exact Q].
  - apply IH; auto. intros y Hy. apply X. right; auto.
Qed.
Lemma NoDup_remove_nat f l : NoDup l -> NoDup (remove Nat.eq_dec f l).
Proof.
  induction 1 as [|x l N D IH]; cbn; [constructor|]. destruct (Nat.eq_dec f x); auto. constructor; auto.
  intros Q. apply in_remove in Q. tauto.
Qed.
Lemma pre2_3 pc : pre2 pc = true -> pre3 pc.
Proof. destruct pc; try exact (fun _ => I); discriminate. Qed.

Lemma reg_open s f : IB s -> e_reg s f = true -> e_eopen s = true.
Proof. intros I B. destruct (e_eopen s) eqn:Q; auto. apply (b_shut _ I) in Q. destruct Q as [Q _]. rewrite Q in B. discriminate. Qed.
Lemma reg_fdt s f : IB s -> e_reg s f = true -> f = rfd /\ e_fdt s f = Some OPipeR \/ exists k, e_fdt s f = Some (OPid k) /\ e_w s k = WOk f.
Proof.
  intros I B. destruct (b_reg _ I _ B) as [->|(k & F & W & _)]; [left|right; eauto].
  split; auto. apply (b_rw _ I). apply pre2_3. rewrite <- (b_eopen _ I). eapply reg_open; eauto.
Qed.

Lemma b_rnd_step s s' : IB s -> IA s -> estep s s' -> NoDup (e_ready s').
Proof.
  intros I IA0 H. pose proof (b_rnd _ I) as B. step H; auto.
  - apply NoDup_app; auto. intros f Q1 Q2. apply H2 in Q2. destruct Q2 as (_ & k & F & W).
    assert (X : exited (e_proc s (e_wproc s k)) = true) by (eapply (b_rex _ I); eauto). rewrite W, H0 in X. discriminate.
  - destruct (exited _); auto. apply NoDup_app; auto; [constructor; [intros []|constructor]|].
    intros f Q1 [<-|[]]. apply (b_ready _ I) in Q1. apply (b_reg _ I) in Q1.
    assert (P3 : pre3 (e_pc s)) by (apply pre2_3; rewrite <- (b_eopen _ I); auto).
    pose proof (b_wreg _ I P3 _ _ H0) as D1. apply (b_dict _ I P3) in D1.
    destruct Q1 as [->|(k' & F & W & _)].
    + destruct (b_rw _ I P3). congruence.
    + assert (k' = k) by congruence. subst. congruence.
  - destruct (e_fdt s w) as [[]|]; auto. destruct (e_reg s rfd); auto. apply NoDup_app; auto; [constructor; [intros []|constructor]|].
    intros f Q1 [<-|[]]. destruct (b_rcl _ I (or_introl Q1)); congruence.
  - rewrite H2 in B. clear - B. apply NoDup_app.
    + apply NoDup_remove_1 with (a := 0) || idtac. revert B. induction l; cbn; auto. intros B. inversion B; auto.
    + revert B. clear. induction l as [|x l IH]; cbn; intros B; [constructor|]. inversion B; subst. constructor; auto. intros Q. apply H1. apply in_or_app; auto.
    + intros x R L. revert B. induction l as [|y l IH]; cbn in *; [destruct L|]. intros B. inversion B; subst. destruct L as [<-|L]; [|auto]. apply H1. apply in_or_app; auto.
  - apply NoDup_remove_nat; auto.
  - destruct (e_fdt s fd); auto. apply NoDup_remove_nat; auto.
  - constructor.
  - destruct (e_fdt s fd); auto. apply NoDup_remove_nat; auto.
Qed.

(** Exited processes stay exited; watches keep their process. *)
Lemma exited_mono s s' p : estep s s' -> exited (e_proc s p) = true -> exited (e_proc s' p) = true.
Proof.
  intros H E. destruct (step_proc _ _ _ _ _ _ H) as [->|[(q & n & P0 & P1 & -> & _)|[(q & n & st & P0 & -> & _)|(q & n & st & P0 & -> & _)]]]; auto;
  unfold fset; destruct (Nat.eqb_spec p q); auto; subst; rewrite P0 in E; discriminate.
Qed.
Lemma wproc_keep s s' k : estep s s' -> e_w s k <> WNone -> e_wproc s' k = e_wproc s k.
Proof.
  intros H W. destruct (step_watch _ _ _ _ _ _ H) as [(-> & _)|(j & p & n & W0 & _ & _ & -> & _)]; auto.
  apply fset_other. congruence.
Qed.
Lemma past_wnone k s : past_open (e_w s k) -> e_w s k <> WNone.
Proof. intros P E. rewrite E in P. exact P. Qed.

(** Newly ready or newly reported descriptors. *)
Lemma ready_back s s' f : estep s s' -> In f (e_ready s') \/ In f (th_fds (e_pc s')) ->
  (In f (e_ready s) \/ In f (th_fds (e_pc s)))
  \/ (exists p k n st, e_proc s p = PRun n /\ e_fdt s f = Some (OPid k) /\ e_wproc s k = p /\ e_proc s' = fset (e_proc s) p (PZombie n st) /\ e_reg s f = true)
  \/ (exists k, e_w s k = WReg f /\ e_eopen s = true /\ exited (e_proc s (e_wproc s k)) = true)
  \/ (f = rfd /\ e_close s' = CJoin /\ e_fdt s' = e_fdt s /\ e_reg s rfd = true).
Proof.
  intros H. step H; auto; pcs; cbn; intros Q; auto;
  try solve [left; destruct Q as [Q|Q]; auto];
  try solve [left; right; tauto];
  try solve [try (destruct (fd =? rfd)); try (destruct r); try (destruct (e_fdt s fd)); cbn in *;
    destruct Q as [Q|Q]; try (apply in_remove in Q; destruct Q); tauto].
  - destruct Q as [Q|Q]; [apply in_app_or in Q as [Q|Q]|]; auto. apply H2 in Q. destruct Q as (RR & k & F & W). right; left. exists p, k, n, st. auto 10.
  - destruct Q as [Q|Q]; auto. destruct (exited _) eqn:E; auto. apply in_app_or in Q as [Q|[<-|[]]]; auto. right; right; left. eauto.
  - destruct Q as [Q|Q]; auto. destruct (e_fdt s w) as [[]|] eqn:E; auto. destruct (e_reg s rfd) eqn:E2; auto.
    apply in_app_or in Q as [Q|[<-|[]]]; auto. right; right; right. auto.
  - left; left. rewrite H2. apply in_or_app. destruct Q as [Q|Q]; [apply in_app_or in Q; tauto|auto].
Qed.

Lemma b_rex_step s s' : IB s -> estep s s' -> forall f k,
  In f (e_ready s') \/ In f (th_fds (e_pc s')) -> e_fdt s' f = Some (OPid k) -> exited (e_proc s' (e_wproc s' k)) = true.
Proof.
  intros I H f k Q F.
  destruct (fdt_back _ _ _ _ H F Logic.I) as [F0|(j & W & F0 & [= <-] & W')].
  - pose proof (past_wnone _ _ (b_past _ I _ _ F0)) as WN. rewrite (wproc_keep _ _ _ H WN).
    destruct (ready_back _ _ _ H Q) as [B|[(p & j & n & st & P0 & F1 & <- & -> & _)|[(j & W & O & X)|(-> & _ & _ & R)]]].
    + eapply exited_mono; eauto. eapply b_rex; eauto.
    + assert (j = k) by congruence. subst. rewrite fset_same. reflexivity.
    + assert (P3 : pre3 (e_pc s)) by (apply pre2_3; rewrite <- (b_eopen _ I); auto).
      pose proof (b_dict _ I P3 _ _ (b_wreg _ I P3 _ _ W)) as D. assert (j = k) by congruence. subst.
      eapply exited_mono; eauto.
    + destruct (reg_fdt _ _ I R) as [(_ & E)|(j & E & W)]; [congruence|].
      exfalso. assert (P3 : pre3 (e_pc s)) by (apply pre2_3; rewrite <- (b_eopen _ I); eapply reg_open; eauto).
      destruct (b_rw _ I P3). congruence.
  - exfalso. destruct (ready_back _ _ _ H Q) as [[B|B]|[(p & j & n & st & P0 & F1 & <- & _)|[(j & W1 & O & X)|(-> & _ & E & R)]]].
    + apply (b_ready _ I) in B. destruct (reg_fdt _ _ I B) as [(_ & E)|(j & E & _)]; congruence.
    + apply (b_threg _ I) in B. destruct (reg_fdt _ _ I B) as [(_ & E)|(j & E & _)]; congruence.
    + congruence.
    + assert (P3 : pre3 (e_pc s)) by (apply pre2_3; rewrite <- (b_eopen _ I); auto).
      pose proof (b_dict _ I P3 _ _ (b_wreg _ I P3 _ _ W1)). congruence.
    + congruence.
Qed.
Lemma close_keep s s' : estep s s' -> e_close s = CJoin \/ e_close s = CDone -> e_close s' = CJoin \/ e_close s' = CDone.
Proof. intros H E. step H; auto; destruct E; congruence. Qed.
Lemma b_rcl_step s s' : IB s -> estep s s' -> In rfd (e_ready s') \/ In rfd (th_fds (e_pc s')) -> e_close s' = CJoin \/ e_close s' = CDone.
Proof.
  intros I H Q. destruct (ready_back _ _ _ H Q) as [B|[(p & j & n & st & P0 & F1 & <- & _ & RR)|[(j & W & O & X)|(_ & C & _)]]]; auto.
  - eapply close_keep; eauto. eapply b_rcl; eauto.
  - exfalso. assert (P3 : pre3 (e_pc s)) by (apply pre2_3; rewrite <- (b_eopen _ I); eapply reg_open; eauto).
    destruct (b_rw _ I P3). congruence.
  - exfalso. assert (P3 : pre3 (e_pc s)) by (apply pre2_3; rewrite <- (b_eopen _ I); auto).
    pose proof (b_dict _ I P3 _ _ (b_wreg _ I P3 _ _ W)). destruct (b_rw _ I P3). congruence.
Qed.

Lemma NoDup_app_l {A} (l r : list A) : NoDup (l ++ r) -> NoDup l.
Proof. induction l as [|x l IH]; cbn; intros B; [constructor|]. inversion B; subst. constructor; auto. intros Q. apply H1. apply in_or_app; auto. Qed.
Lemma b_thnd_step s s' : IB s -> estep s s' -> NoDup (th_fds (e_pc s')).
Proof.
  intros I H. pose proof (b_thnd _ I) as B. pose proof (b_rnd _ I) as R. step H; auto; pcs; cbn in *; auto;
  try solve [constructor]; try (inversion B; subst; auto; fail).
  all: try match goal with |- context[if ?c then _ else _] => destruct c; cbn; auto; constructor end.
  all: try match goal with |- context[match ?c with _ => _ end] => destruct c; cbn; auto end.
  all: try match goal with E : e_ready _ = ?l ++ _ |- NoDup ?l => rewrite E in R; eapply NoDup_app_l; eauto end.
Qed.
Lemma b_threg_step s s' : IB s -> estep s s' -> forall f, In f (th_fds (e_pc s')) -> e_reg s' f = true.
Proof.
  intros I H f. pose proof (b_threg _ I f) as B. pose proof (b_thnd _ I) as ND. pose proof (b_ready _ I f) as R. pose proof (b_th _ I) as T. unfold th_ok in T.
  step H; auto; pcs; cbn in *; intros Q; try contradiction; auto.
  - fs; auto.
  - apply R. rewrite H2. apply in_or_app; auto.
  - destruct (fd =? rfd); cbn in Q; [destruct Q|auto].
  - destruct r; cbn in Q; auto.
  - inversion ND; subst. fs; auto.
  - destruct T as (_ & _ & T & _). destruct (e_fdt s fd); fs; auto.
Qed.

(** A step of another thread. *)
Lemma th_ok_other s s' : IB s -> estep s s' -> e_pc s' = e_pc s -> th_ok s'.
Proof.
  intros I H P. pose proof (b_th _ I) as T. unfold th_ok in *. rewrite P.
  assert (KF : forall f o, e_fdt s f = Some o -> own o -> e_fdt s' f = Some o).
  { intros f o F W. destruct (fdt_keep _ _ _ _ H F W) as [Q|[(l & Z & E')|[(Z & Q & E')|(l & Z & E')]]]; auto; exfalso;
    rewrite P, Z in E'; try discriminate. injection E'. clear. revert f. induction l; [discriminate|]. intros f [= -> E]. eauto. }
  assert (KD : forall f k, e_fdt s f = Some (OPid k) -> e_w s k = WOk f -> e_dict s f = None -> e_dict s' f = None).
  { intros f k F W D. destruct (e_dict s' f) as [j|] eqn:E; auto. exfalso.
    destruct (dict_back _ _ _ _ H E) as [Q|[Q _]]; [congruence|]. apply (b_wdict _ I) in Q as Q1. assert (j = k) by congruence. subst. congruence. }
  assert (KR : forall f, e_dict s f = None -> pre3 (e_pc s) -> e_reg s f = false -> e_reg s' f = false).
  { intros f D P3 R. destruct (e_reg s' f) eqn:E; auto. destruct (reg_back _ _ _ H E) as [Q|(k & W & _)]; [congruence|].
    apply (b_wreg _ I P3) in W. congruence. }
  destruct (e_pc s) eqn:PC; auto.
  - destruct T as (T1 & T2 & T3 & T4). split; [auto|]. split; [apply KF; cbn; auto|]. split; [eapply wok_keep; eauto|]. eapply KD; eauto.
  - destruct T as (T1 & T2 & T3 & T4). split; [auto|]. split; [apply KF; cbn; auto|]. split; [eapply wok_keep; eauto|]. eapply KD; eauto.
  - destruct T as (T1 & k & T2 & T3 & T4). split; [auto|]. exists k. split; [apply KF; cbn; auto|]. split; [eapply wok_keep; eauto|]. eapply KD; eauto.
  - destruct T as (T1 & T0 & T5 & k & T2 & T3 & T4). split; [auto|]. split; [apply KR; auto; exact Logic.I|]. split; [auto|].
    exists k. split; [apply KF; cbn; auto|]. split; [eapply wok_keep; eauto|]. eapply KD; eauto.
  - destruct T as (T1 & T). split; auto. intros f Q. destruct (T f Q) as (o & F & W & K). exists o. split; [auto|]. split; [auto|].
    intros k E. eapply pastd_mono; eauto.
Qed.

Lemma b_th_step s s' : rfd <> wfd -> rfd <> efd -> wfd <> efd -> IB s -> estep s s' -> th_ok s'.
Proof.
  intros N1 N2 N3 I H.
  assert (D : e_pc s' = e_pc s \/ e_pc s' <> e_pc s) by (destruct (e_pc s'), (e_pc s); try (right; discriminate); try (left; reflexivity);
    repeat decide equality).
  destruct D as [D|D]; [eapply th_ok_other; eauto|].
  pose proof (b_th _ I) as T. unfold th_ok in *. pose proof (b_thnd _ I) as ND. pose proof (b_threg _ I) as TR.
  revert D. step H; try congruence; intros _; match goal with E : e_pc s = _ |- _ => rename E into PE end; rewrite PE in T, ND, TR; pose proof PE as PE0; cbn in *; auto.
  - (* loop *) destruct (Nat.eqb_spec fd rfd); auto.
  - (* pop *) split; auto. specialize (TR fd (or_introl eq_refl)). pose proof (b_reg _ I fd TR) as [Q|(j & F & W & Q)]; [congruence|].
    destruct Q as [Q|Q]; [|rewrite PE0 in Q; cbn in Q; destruct Q as [[]|Q]; discriminate].
    assert (j = k) by congruence. subst. rewrite fset_same. auto.
  - (* wait *) destruct T as (T1 & T2 & T3 & T4). destruct r; eauto 8.
  - destruct T as (T1 & T2 & T3 & T4). eauto 8.
  - destruct T as (T1 & k & T2 & T3 & T4). inversion ND; subst. rewrite fset_same. eauto 8.
  - (* fin2 *) assert (P3 : pre3 (e_pc s)) by (rewrite PE0; exact Logic.I). destruct (b_rw _ I P3) as [RR WW].
    assert (S0 : e_self s = Some (rfd, wfd)) by (apply (b_self _ I); congruence). rewrite H3 in S0. injection S0 as -> ->.
    assert (LD : forall f, In f l -> exists k, e_fdt s f = Some (OPid k) /\ past_dict (e_w s k)).
    { intros f Q. apply H2 in Q. destruct (e_dict s f) as [k|] eqn:E; [|congruence]. exists k.
      split; [eapply (b_dict _ I); eauto|eapply (b_dictw _ I); eauto]. }
    split.
    + apply NoDup_app; auto.
      * constructor; [intros [Q|[]]; congruence|]. constructor; [intros []|constructor].
      * intros f Q [<-|[<-|[]]]; destruct (LD _ Q) as (k & F & _); congruence.
    + intros f Q. apply in_app_or in Q as [Q|[<-|[<-|[]]]].
      * destruct (LD f Q) as (k & F & W). exists (OPid k). split; [auto|]. split; [exact Logic.I|]. intros j [= <-]. auto.
      * exists OPipeR. split; auto. split; [exact Logic.I|]. discriminate.
      * exists OPipeW. split; auto. split; [exact Logic.I|]. discriminate.
  - (* fin3 *) destruct T as (T1 & T). inversion T1; subst. split; auto. intros f Q. destruct (T f (or_intror Q)) as (o & F & W & K).
    exists o. split; auto. destruct (e_fdt s fd); auto. rewrite fset_other; auto. congruence.
Qed.

Lemma IB_init s : e_init rfd wfd efd s -> IB s.
Proof.
  intros (P & D & R & Y & O & SS & T & W & C & L & F1 & F2 & F3 & F & N1 & N2 & N3).
  assert (NF : forall f o, e_fdt s f = Some o -> own o -> (f = rfd /\ o = OPipeR) \/ (f = wfd /\ o = OPipeW) \/ (f = efd /\ o = OEpoll)).
  { intros f o E Wo. destruct (Nat.eq_dec f rfd) as [->|X1]; [left; split; congruence|]. destruct (Nat.eq_dec f wfd) as [->|X2]; [right; left; split; congruence|].
    destruct (Nat.eq_dec f efd) as [->|X3]; [right; right; split; congruence|]. specialize (F f X1 X2 X3). rewrite E in F. destruct o; destruct F; destruct Wo. }
  split; rewrite ?T, ?Y, ?O, ?L; cbn; auto; intros.
  - destruct (NF _ _ H Logic.I) as [(_ & Q)|[(_ & Q)|(_ & Q)]]; discriminate.
  - destruct (NF _ _ H Logic.I) as [(_ & Q)|[(_ & Q)|(_ & Q)]]; discriminate.
  - destruct (NF _ _ H Logic.I) as [(Q & Z)|[(Q & Z)|(Q & Z)]]; congruence.
  - destruct (NF _ _ H Logic.I) as [(Q & Z)|[(Q & Z)|(Q & Z)]]; congruence.
  - destruct (NF _ _ H Logic.I) as [(Q & Z)|[(Q & Z)|(Q & Z)]]; congruence.
  - discriminate.
  - rewrite W in H. discriminate.
  - rewrite D in H. discriminate.
  - rewrite D in H0. discriminate.
  - rewrite W in H0. discriminate.
  - rewrite R in H. apply Nat.eqb_eq in H. auto.
  - rewrite R. apply Nat.eqb_refl.
  - constructor.
  - tauto.
  - tauto.
  - constructor.
  - unfold th_ok. rewrite T. exact Logic.I.
Qed.
Lemma IB_step s s' : rfd <> wfd -> rfd <> efd -> wfd <> efd -> IA s -> IB s -> estep s s' -> IB s'.
Proof.
  intros N1 N2 N3 A I H. constructor.
  - eapply b_uniq_step; eauto.
  - eapply b_past_step; eauto.
  - eapply b_r_step; eauto.
  - eapply b_w_step; eauto.
  - eapply b_e_step; eauto.
  - eapply b_rw_step; eauto.
  - eapply b_ep_step; eauto.
  - eapply b_self_step; eauto.
  - eapply b_eopen_step; eauto.
  - eapply b_shut_step; eauto.
  - eapply b_wdict_step; eauto.
  - eapply b_dictw_step; eauto.
  - eapply b_dict_step; eauto.
  - eapply b_wreg_step; eauto.
  - eapply b_reg_step; eauto.
  - eapply b_regr_step; eauto.
  - eapply b_ready_step; eauto.
  - eapply b_rnd_step; eauto.
  - eapply b_rex_step; eauto.
  - eapply b_rcl_step; eauto.
  - eapply b_thnd_step; eauto.
  - eapply b_threg_step; eauto.
  - eapply b_th_step; eauto.
Qed.
Lemma reach_IAB s : ereach s -> IA s /\ IB s /\ rfd <> wfd /\ rfd <> efd /\ wfd <> efd.
Proof.
  induction 1 as [s H|s s' R (A & B & N1 & N2 & N3) H].
  - pose proof H as (_ & _ & _ & _ & _ & _ & _ & _ & _ & _ & _ & _ & _ & _ & N1 & N2 & N3).
    repeat split; try apply (IA_init rfd wfd efd s H); try apply (IB_init s H); auto.
  - split; [eapply IA_step; eauto|]. split; [eapply IB_step; eauto|]. auto.
Qed.
End Inv.
