(** Invariants of the epoll watcher: exits before close, descriptors. *)
From Verif Require Import Base EPollModel EPollProofs EPollProofs2 EPollProofs3 EPollProofs4.
From Coq Require Import List ZArith Lia Bool.
Import ListNotations.
Local Open Scope nat_scope.

(** The event [e] happened before close() was called (the log has the latest first). *)
Definition before_closing (e : lev) (log : list lev) : Prop := exists a b, log = a ++ LClosing :: b /\ In e b.

Lemma before_cons e x l : before_closing e l -> before_closing e (x :: l).
Proof. intros (a & b & -> & Q). exists (x :: a), b. auto. Qed.
Lemma before_in e l : before_closing e l -> In e l /\ In LClosing l.
Proof. intros (a & b & -> & Q). split; apply in_or_app; right; cbn; auto. Qed.
Lemma before_cons_inv e x l : x <> LClosing -> before_closing e (x :: l) -> before_closing e l.
Proof. intros N (a & b & E & Q). destruct a as [|y a]; cbn in E; [congruence|]. injection E as -> ->. exists a, b. auto. Qed.
Lemma before_now e l : before_closing e (LClosing :: l) -> In e l.
Proof. intros (a & b & E & Q). destruct a as [|y a]; cbn in E; [injection E as ->; auto|]. injection E as -> ->. apply in_or_app. right. right. auto. Qed.

(** [f] comes before [r] in [l]. *)
Definition prec (r f : nat) (l : list nat) : Prop := exists a b, l = a ++ f :: b /\ ~ In r a.
Lemma prec_app r f l m : prec r f l -> prec r f (l ++ m).
Proof. intros (a & b & -> & N). exists a, (b ++ m). rewrite <- app_assoc. auto. Qed.
Lemma prec_split r f l m : prec r f (l ++ m) -> prec r f l \/ (~ In r l /\ prec r f m).
Proof.
  intros (a & b & E & N). revert a E N. induction l as [|x l IH]; intros a E N; cbn in *.
  - right. split; [tauto|]. exists a, b. auto.
  - destruct a as [|y a]; cbn in E; injection E as -> E.
    + left. exists [], l. cbn. auto.
    + destruct (IH a E) as [(c & d & -> & Nc)|(Nr & P)]; [cbn in N; tauto| |].
      * left. exists (y :: c), d. cbn in *. split; auto. tauto.
      * right. split; auto. cbn in N. tauto.
Qed.
Lemma prec_cons r f g l : prec r f (g :: l) -> f <> g -> prec r f l.
Proof. intros (a & b & E & N) D. destruct a as [|y a]; cbn in E; injection E as -> E; [congruence|]. exists a, b. cbn in N. tauto. Qed.
Lemma prec_remove r f g l : prec r f l -> f <> g -> prec r f (remove Nat.eq_dec g l).
Proof.
  intros (a & b & -> & N) D. rewrite remove_app. cbn. destruct (Nat.eq_dec g f); [congruence|].
  exists (remove Nat.eq_dec g a), (remove Nat.eq_dec g b). split; auto. intros Q. apply in_remove in Q. tauto.
Qed.
Lemma prec_in r f l : In f l -> ~ In r l -> prec r f l.
Proof. intros Q N. apply in_split in Q as (a & b & ->). exists a, b. split; auto. intros Z. apply N. apply in_or_app; auto. Qed.
Lemma prec_nil r f : ~ prec r f [].
Proof. intros (a & b & E & _). destruct a; discriminate. Qed.

(** How often a descriptor of object [o] was closed. *)
Definition obj_eqb (a b : obj) : bool :=
  match a, b with
  | OPid j, OPid k => j =? k | OPipeR, OPipeR => true | OPipeW, OPipeW => true | OEpoll, OEpoll => true
  | OOther m, OOther n => m =? n | _, _ => false end.
Lemma obj_eqb_spec a b : reflect (a = b) (obj_eqb a b).
Proof. destruct a, b; cbn; try (constructor; congruence); destruct (Nat.eqb_spec k k0) || destruct (Nat.eqb_spec n n0); constructor; congruence. Qed.
Definition is_close (o : obj) (e : lev) : bool := match e with LClose p => obj_eqb p o | _ => false end.
Definition n_closes (o : obj) (l : list lev) : nat := List.length (filter (is_close o) l).
Lemma n_closes_0 o l : ~ In (LClose o) l -> n_closes o l = 0.
Proof.
  unfold n_closes. induction l as [|e l IH]; auto. cbn. intros N. destruct e; cbn; try (apply IH; tauto).
  destruct (obj_eqb_spec o0 o); [subst; tauto|]. apply IH; tauto.
Qed.
Lemma n_closes_in o l : In (LClose o) l -> n_closes o l >= 1.
Proof.
  unfold n_closes. induction l as [|e l IH]; cbn; [tauto|]. intros [->|Q].
  - cbn. destruct (obj_eqb_spec o o); [cbn; lia|congruence].
  - specialize (IH Q). destruct (is_close o e); cbn; lia.
Qed.

Section Inv.
Context (ordered bad_cb : bool) (rfd wfd efd : nat).
Notation estep := (estep ordered bad_cb rfd efd).
Notation ereach := (ereach ordered bad_cb rfd wfd efd).
Notation IB := (IB rfd wfd efd).
Notation ID := (ID rfd wfd).
Ltac step H := inversion H; subst; clear H; rewrite ?os_close_eq; cbn.

(** The thread leaves its loop only for the pipe. *)
Lemma alive_keep s s' : bad_cb = false -> IB s -> estep s s' -> alive (e_pc s) -> alive (e_pc s') \/ exists l, e_pc s = TLoop (rfd :: l).
Proof.
  intros BC I H L. pose proof (b_threg _ _ _ _ I) as TR. pose proof (b_reg _ _ _ _ I) as BR. pose proof (b_th _ _ _ _ I) as T. unfold th_ok in T.
  step H; auto; match goal with E : e_pc s = _ |- _ => rename E into PE; rewrite PE in L, T end; cbn in *; try tauto; try congruence.
  - destruct (Nat.eqb_spec fd rfd); [subst; right; eauto|left; exact Logic.I].
  - exfalso. assert (R : e_reg s fd = true) by (apply TR; rewrite PE; left; auto).
    destruct (BR _ R) as [Q|(k & _ & _ & [Q|[Q|Q]])]; [auto|congruence|rewrite PE in Q; destruct Q|congruence].
  - left. destruct r; exact Logic.I.
  - exfalso. assert (R : e_reg s fd = true) by (apply TR; rewrite PE; left; auto). congruence.
Qed.

Definition place (s : est) (f : nat) : Prop :=
  prec rfd f (th_fds (e_pc s)) \/ (~ In rfd (th_fds (e_pc s)) /\ prec rfd f (e_ready s)).

Lemma place_keep s s' f k : ordered = true -> IB s -> estep s s' -> e_fdt s f = Some (OPid k) -> e_dict s f = Some k ->
  alive (e_pc s) -> alive (e_pc s') -> place s f -> place s' f.
Proof.
  intros OR I H F D L L' P. pose proof (b_th _ _ _ _ I) as T. unfold th_ok in T. unfold place in *.
  revert L'. step H; auto; intros L'; try match goal with E : e_pc s = _ |- _ => rename E into PE; rewrite PE in L, T, P end; cbn in *; try contradiction; try congruence.
  - destruct P as [P|(P & Q)]; auto. right. split; auto. apply prec_app; auto.
  - destruct P as [P|(P & Q)]; auto. right. split; auto. destruct (exited _); auto. apply prec_app; auto.
  - destruct P as [P|(P & Q)]; auto. right. split; auto. destruct (e_fdt s w) as [[]|]; auto. destruct (e_reg s rfd); auto. apply prec_app; auto.
  - destruct P as [P|(_ & P)]; [destruct (prec_nil _ _ P)|]. match goal with E : e_ready s = _ |- _ => rewrite E in P end.
    apply prec_split in P. destruct P as [P|(N & P)]; auto. right. split; auto. apply prec_app; auto.
  - destruct (Nat.eqb_spec fd rfd); [destruct L'|]. cbn. auto.
  - destruct r; cbn; auto.
  - destruct T as (_ & j & _ & _ & T). assert (f <> fd) by congruence.
    destruct P as [P|(P & Q)]; [left; eapply prec_cons; eauto|right]. split; [tauto|]. apply prec_remove; auto.
  - destruct T as (_ & _ & _ & j & _ & _ & T). assert (f <> fd) by congruence.
    destruct P as [P|(P & Q)]; [left; auto|right]. split; [tauto|]. destruct (e_fdt s fd); auto. apply prec_remove; auto.
Qed.

Definition early (s : est) (k : nat) : Prop :=
  before_closing (LWatched k) (e_log s) /\ exists st, before_closing (LExit (e_wproc s k) st) (e_log s).
Definition IE (s : est) : Prop := forall k, early s k -> called k (e_log s) \/ held (e_pc s) k \/
  (alive (e_pc s) /\ exists f, e_fdt s f = Some (OPid k) /\ e_w s k = WOk f /\ e_dict s f = Some k /\ e_reg s f = true /\ place s f).

(** The log grows by at most one event, and by LClosing only in close(). *)
Lemma log_cases s s' : estep s s' -> e_log s' = e_log s
  \/ (exists x, x <> LClosing /\ e_log s' = x :: e_log s)
  \/ (e_log s' = LClosing :: e_log s /\ e_close s = CIdle /\ e_ready s' = e_ready s /\ e_pc s' = e_pc s /\ e_fdt s' = e_fdt s /\ e_w s' = e_w s
      /\ e_dict s' = e_dict s /\ e_proc s' = e_proc s /\ e_wproc s' = e_wproc s /\ e_reg s' = e_reg s).
Proof.
  intros H. step H; auto; try solve [right; left; eexists; split; [|reflexivity]; discriminate];
  try solve [right; left; eexists; split; [|reflexivity]; destruct (e_fdt s _); discriminate]; auto 15.
Qed.
Lemma before_back s s' e : estep s s' -> before_closing e (e_log s') -> before_closing e (e_log s) \/ (e_log s' = LClosing :: e_log s /\ In e (e_log s)).
Proof.
  intros H Q. destruct (log_cases _ _ H) as [E|[(x & N & E)|(E & _)]]; rewrite E in Q; auto.
  - left. eapply before_cons_inv; eauto.
  - right. split; auto. eapply before_now; eauto.
Qed.

Lemma IE_step s s' : ordered = true -> bad_cb = false -> IA s -> IB s -> IC s -> ID s -> (~ alive (e_pc s) -> e_close s = CJoin \/ e_close s = CDone) -> ID s' -> IE s -> estep s s' -> IE s'.
Proof.
  intros OR BC A I C D AS D' E H k (B1 & st & B2).
  assert (WK : exists f, e_w s k = WOk f).
  { apply (d_watched _ _ _ D). destruct (before_back _ _ _ H B1) as [Q|(_ & Q)]; auto. apply before_in in Q. tauto. }
  destruct WK as (f & Wf). assert (EP : e_wproc s' k = e_wproc s k) by (eapply wproc_keep; eauto; congruence). rewrite EP in B2.
  destruct (log_cases _ _ H) as [LE|[(x & N & LE)|(LE & CE & E1 & E2 & E3 & E4 & E5 & E6 & E7 & E8)]].
  3:{ rewrite LE in B1, B2. apply before_now in B1, B2. destruct (d_closing _ _ _ D) as [_ DC].
      assert (X : exited (e_proc s (e_wproc s k)) = true). { apply (a_exit _ A) in B2. destruct B2 as (n & [Q|Q]); rewrite Q; reflexivity. }
      assert (AL : alive (e_pc s) \/ ~ alive (e_pc s)) by (destruct (e_pc s); cbn; tauto).
      assert (NR : ~ (In rfd (e_ready s) \/ In rfd (th_fds (e_pc s)))).
      { intros Q. apply (b_rcl _ _ _ _ I) in Q. destruct Q; congruence. }
      destruct AL as [AL|AL].
      - destruct (d_ok _ _ _ D AL k f Wf) as [(F & Di & R)|[Q|Q]].
        + right; right. rewrite E2. split; auto. exists f. rewrite E3, E4, E5, E8. repeat (split; auto). right. rewrite E2, E1. split; [tauto|].
          apply prec_in; [|tauto]. eapply (d_ready _ _ _ D); eauto.
        + left. destruct Q as (z & Q). exists z. rewrite LE. right. auto.
        + right; left. rewrite E2. auto.
      - exfalso. destruct (AS AL); congruence. }
  1: assert (BB : forall e, before_closing e (e_log s') -> before_closing e (e_log s)) by (rewrite LE; auto).
  2: assert (BB : forall e, before_closing e (e_log s') -> before_closing e (e_log s)) by (rewrite LE; intros e; apply before_cons_inv; auto).
  all: assert (EE : early s k) by (split; [auto|exists st; auto]).
  all: destruct (E k EE) as [Q|[Q|(AL & g & F & Wg & Di & R & P)]]; [left; eapply called_mono; eauto|destruct (held_keep _ _ _ _ _ _ _ _ A I C H Q); auto|].
  all: assert (FR : g <> rfd) by (intros ->; destruct (b_rw _ _ _ _ I) as [Q _]; [apply pre2_3, alive_pre2; auto|congruence]).
  all: assert (AL' : alive (e_pc s')) by
    (destruct (alive_keep _ _ BC I H AL) as [Q|(l & PL)]; auto; exfalso; destruct P as [P|(P & _)]; rewrite PL in P; cbn in P; [|tauto];
     destruct P as (a & b & P & N2); destruct a as [|y a]; cbn in P; injection P as -> P; [congruence|apply N2; left; auto]).
  all: assert (P' : place s' g) by (eapply place_keep; eauto).
  all: destruct (d_ok _ _ _ D' AL' k g) as [(F' & Di' & R')|[Q|Q]]; auto; [eapply wok_keep; eauto|].
  all: right; right; split; auto; exists g; repeat (split; auto); eapply wok_keep; eauto.
Qed.

Lemma stopped_closing s : bad_cb = false -> ereach s -> ~ alive (e_pc s) -> e_close s = CJoin \/ e_close s = CDone.
Proof.
  intros BC. induction 1 as [s H|s s' R IH H].
  - destruct H as (_ & _ & _ & _ & _ & _ & T & _). rewrite T. cbn. tauto.
  - intros N. destruct (reach_IAB _ _ _ _ _ _ R) as (A & I & _). eapply close_keep; eauto.
    assert (AL : alive (e_pc s) \/ ~ alive (e_pc s)) by (destruct (e_pc s); cbn; tauto). destruct AL as [AL|AL]; auto.
    destruct (alive_keep _ _ BC I H AL) as [Q|(l & P)]; [contradiction|]. apply (b_rcl _ _ _ _ I). right. rewrite P. left. auto.
Qed.
Lemma reach_IE s : ordered = true -> bad_cb = false -> ereach s -> IE s.
Proof.
  intros OR BC. induction 1 as [s H|s s' R IH H].
  - intros k ((a & b & E & _) & _). destruct H as (_ & _ & _ & _ & _ & _ & _ & _ & _ & L & _). rewrite L in E. destruct a; discriminate.
  - destruct (reach_IAB _ _ _ _ _ _ R) as (A & I & _). apply (IE_step s s'); auto.
    + eapply reach_IC; eauto.
    + eapply reach_ID; eauto.
    + apply stopped_closing; auto.
    + apply (reach_ID ordered bad_cb rfd wfd efd). eapply er_step; eauto.
Qed.
End Inv.
